(** The instructions of the A64 instruction set used by function entry and return: pairs of registers, one floating point register, a load
    which changes its base register, RET; from the Arm Architecture Reference Manual ("Load/store register pair", "Load/store register
    (unsigned immediate)", "Load/store register (immediate post-indexed)", "RET").
    As ArmIsa, this file specifies the processor and cites no line of /repo. *)
Require Import ZArith List Bool Lia.
From Verif Require Import Rv.RvLib Arm.ArmIsa.
Import ListNotations.
Open Scope Z_scope.

(** [gs]: the state without floating point registers, [vd]: the low 64 bits of the registers v0 .. v31. *)
Record fstate := mkF { gs : st; vd : Z -> Z }.

(** mode: 1 post-indexed, 2 offset, 3 pre-indexed. *)
Inductive finstr :=
| FPair (v ld : bool) (mode imm rt2 rn rt : Z)
| FVld (ld : bool) (imm rn rt : Z)
| FLdPost (imm rn rt : Z)
| FRet (rn : Z).

Definition decode_f (w : Z) : option finstr :=
  let rt := fld w 0 5 in
  let rn := fld w 5 5 in
  if (fld w 27 3 =? 5) && (fld w 25 1 =? 0) then
    let v := bit w 26 in
    let mode := fld w 23 2 in
    if (fld w 30 2 =? (if v then 1 else 2)) && negb (mode =? 0) then Some (FPair v (bit w 22) mode (fld w 15 7) (fld w 10 5) rn rt) else None
  else if fld w 24 6 =? 61 then
    if (fld w 30 2 =? 3) && (fld w 23 1 =? 0) then Some (FVld (bit w 22) (fld w 10 12) rn rt) else None
  else if fld w 24 6 =? 56 then
    if (fld w 30 2 =? 3) && (fld w 21 3 =? 2) && (fld w 10 2 =? 1) then Some (FLdPost (fld w 12 9) rn rt) else None
  else if fld w 25 7 =? 0x6b then
    if (fld w 10 15 =? 0x17c0) && (rt =? 0) then Some (FRet rn) else None
  else None.

Definition ld8 (s : fstate) (a : Z) : Z := le_bytes 8 (mm (gs s)) a.
Definition st8 (s : fstate) (a v : Z) : fstate := mkF (wMem (gs s) (st_bytes 8 (mm (gs s)) a v)) (vd s).
Definition wG (s : fstate) (r v : Z) : fstate := mkF (wX (gs s) r v) (vd s).
Definition wV (s : fstate) (r v : Z) : fstate := mkF (gs s) (upd (vd s) r v).
Definition wB (s : fstate) (r v : Z) : fstate := mkF (wSP (gs s) r v) (vd s).
Definition reg (s : fstate) (v : bool) (r : Z) : Z := if v then vd s r else rX (gs s) r.
Definition wreg (s : fstate) (v : bool) (r x : Z) : fstate := if v then wV s r x else wG s r x.

(** One instruction (not RET). *)
Definition exec_f (i : finstr) (s : fstate) : option fstate :=
  match i with
  | FPair v ld mode imm rt2 rn rt =>
      let b := rSP (gs s) rn in
      let b' := wrap (b + 8 * sext 7 imm) in
      let a := if mode =? 1 then b else b' in
      let s1 := if ld then wreg (wreg s v rt (ld8 s a)) v rt2 (ld8 s (a + 8)) else st8 (st8 s a (reg s v rt)) (a + 8) (reg s v rt2) in
      Some (if mode =? 2 then s1 else wB s1 rn b')
  | FVld ld imm rn rt =>
      let a := rSP (gs s) rn + 8 * imm in
      Some (if ld then wV s rt (ld8 s a) else st8 s a (vd s rt))
  | FLdPost imm rn rt =>
      let b := rSP (gs s) rn in
      Some (wB (wG s rt (ld8 s b)) rn (wrap (b + sext 9 imm)))
  | FRet _ => None
  end.
Definition step_f (w : Z) (s : fstate) : option fstate :=
  match decode_f w with
  | Some i => exec_f i s
  | None => match decode w with None => None | Some i => match exec i (gs s) with None => None | Some g => Some (mkF g (vd s)) end end
  end.
Fixpoint run_f (ws : list Z) (s : fstate) : option fstate :=
  match ws with [] => Some s | w :: ws => match step_f w s with None => None | Some s' => run_f ws s' end end.
(** Straight code and a RET: the address continued at and the state. *)
Fixpoint ret_f (ws : list Z) (s : fstate) : option (Z * fstate) :=
  match ws with
  | [] => None
  | w :: ws' =>
      match decode_f w with
      | Some (FRet rn) => Some (rX (gs s) rn, s)
      | _ => match step_f w s with None => None | Some s' => ret_f ws' s' end
      end
  end.
