(** The branches of the A64 instruction set, address generation and CCMP (immediate), from the Arm Architecture Reference Manual
    (encoding index "Branches, exception generating and system instructions", "PC-rel. addressing", "Conditional compare (immediate)").
    As ArmIsa, this file specifies the processor and cites no line of /repo. *)
Require Import ZArith List Bool Lia.
From Verif Require Import Rv.RvLib Imm.ImmLib Arm.ArmIsa.
Import ListNotations.
Open Scope Z_scope.

Inductive binstr :=
| IB (lk : bool) (imm : Z)
| IBc (imm cond : Z)
| ICb (sf nz : bool) (imm rt : Z)
| IBr (lk : bool) (rn : Z)
| IAdr (page : bool) (immhi immlo rd : Z)
| ICcmpI (sf sub : bool) (imm cond rn nzcv : Z).

Definition decode_br (w : Z) : option binstr :=
  if fld w 26 3 =? 5 then
    (* Branches, exception generating and system instructions. *)
    if fld w 29 2 =? 0 then Some (IB (bit w 31) (fld w 0 26))
    else if fld w 29 2 =? 1 then if fld w 25 1 =? 0 then Some (ICb (bit w 31) (bit w 24) (fld w 5 19) (fld w 0 5)) else None
    else if fld w 29 3 =? 2 then
      if fld w 24 2 =? 0 then if fld w 4 1 =? 0 then Some (IBc (fld w 5 19) (fld w 0 4)) else None else None
    else if fld w 22 10 =? 0x358 then
      if fld w 10 11 =? 0x7c0 then if fld w 0 5 =? 0 then Some (IBr (bit w 21) (fld w 5 5)) else None else None
    else None
  else if fld w 24 5 =? 16 then Some (IAdr (bit w 31) (fld w 5 19) (fld w 29 2) (fld w 0 5))
  else if fld w 22 8 =? 0xe9 then
    if (fld w 21 1 =? 0) && (fld w 10 2 =? 2) && (fld w 4 1 =? 0) then Some (ICcmpI (bit w 31) (bit w 30) (fld w 16 5) (fld w 12 4) (fld w 5 5) (fld w 0 4)) else None
  else None.

(** One step: the address of the instruction and the state; the next address and state. *)
Definition step (code : Z -> Z) (c : Z * st) : option (Z * st) :=
  let '(pc, s) := c in
  let w := code pc in
  let next := wrap (pc + 4) in
  let link (lk : bool) := if lk then wX s 30 next else s in
  match decode_br w with
  | Some (IB lk imm) => Some (wrap (pc + 4 * sext 26 imm), link lk)
  | Some (IBc imm cond) => Some (if cond_holds s cond then wrap (pc + 4 * sext 19 imm) else next, s)
  | Some (ICb sf nz imm rt) =>
      let z := lo (dsz sf) (rX s rt) =? 0 in
      Some (if Bool.eqb z (negb nz) then wrap (pc + 4 * sext 19 imm) else next, s)
  | Some (IBr lk rn) => Some (rX s rn, link lk)
  | Some (IAdr page immhi immlo rd) =>
      let imm := sext 21 (immhi * 4 + immlo) in
      Some (next, wX s rd (if page then wrap (pc / 4096 * 4096 + imm * 4096) else wrap (pc + imm)))
  | Some (ICcmpI sf sub imm cond rn nzcv) =>
      let n := dsz sf in
      let x := lo n (rX s rn) in
      if cond_holds s cond then
        let '(_, (fn, fz, fc, fv)) := if sub then awc n x (lo n (Z.lnot imm)) true else awc n x imm false in
        Some (next, wFl s fn fz fc fv)
      else Some (next, wFl s (bit nzcv 3) (bit nzcv 2) (bit nzcv 1) (bit nzcv 0))
  | None =>
      match decode w with
      | None => None
      | Some i => match exec i s with None => None | Some s' => Some (next, s') end
      end
  end.
