(** The instructions MOVI / MVNI (vector, immediate) and DUP (general) of the A64 instruction set, from the Arm Architecture Reference Manual
    ("Advanced SIMD modified immediate", AdvSIMDExpandImm, "DUP (general)").
    As ArmIsa, this file specifies the processor and cites no line of /repo. *)
Require Import ZArith List Bool Lia.
From Verif Require Import Rv.RvLib Arm.ArmIsa.
Import ListNotations.
Open Scope Z_scope.

(** [vs]: the state without vector registers, [vq]: the vector registers v0 .. v31 (128 bits). *)
Record vstate := mkV { vs : st; vq : Z -> Z }.
Inductive vinstr := VImm (q op : bool) (cmode imm8 rd : Z) | VDup (q : bool) (imm5 rn rd : Z).
Definition decode_v (w : Z) : option vinstr :=
  if bit w 31 then None
  else if (fld w 19 10 =? 0x1e0) && (fld w 10 2 =? 1) then Some (VImm (bit w 30) (bit w 29) (fld w 12 4) (fld w 16 3 * 32 + fld w 5 5) (fld w 0 5))
  else if (fld w 21 9 =? 0x70) && (fld w 10 6 =? 3) then Some (VDup (bit w 30) (fld w 16 5) (fld w 5 5) (fld w 0 5))
  else None.

(** [k] copies of [n] bits. *)
Fixpoint copies (n : Z) (k : nat) (x : Z) : Z := match k with O => 0 | S k' => x + 2 ^ n * copies n k' x end.
(** The 64 bits of an immediate, for the moves (not the bitwise operations, the byte masks and the floating point numbers). *)
Definition expand_imm (op : bool) (cmode imm8 : Z) : option Z :=
  let x :=
    if cmode =? 0 then Some (copies 32 2 imm8)
    else if cmode =? 2 then Some (copies 32 2 (imm8 * 2 ^ 8))
    else if cmode =? 4 then Some (copies 32 2 (imm8 * 2 ^ 16))
    else if cmode =? 6 then Some (copies 32 2 (imm8 * 2 ^ 24))
    else if cmode =? 8 then Some (copies 16 4 imm8)
    else if cmode =? 10 then Some (copies 16 4 (imm8 * 2 ^ 8))
    else if cmode =? 12 then Some (copies 32 2 (imm8 * 2 ^ 8 + 0xff))
    else if cmode =? 13 then Some (copies 32 2 (imm8 * 2 ^ 16 + 0xffff))
    else if (cmode =? 14) && negb op then Some (copies 8 8 imm8)
    else None in
  match x with None => None | Some x => Some (if op then 2 ^ 64 - 1 - x else x) end.
Definition wQ (s : vstate) (r v : Z) : vstate := mkV (vs s) (upd (vq s) r v).
Definition exec_v (i : vinstr) (s : vstate) : option vstate :=
  match i with
  | VImm q op cmode imm8 rd => match expand_imm op cmode imm8 with None => None | Some x => Some (wQ s rd (if q then copies 64 2 x else x)) end
  | VDup q imm5 rn rd =>
      let x := rX (vs s) rn in
      if bit imm5 0 then Some (wQ s rd (copies 8 (if q then 16 else 8) (x mod 2 ^ 8)))
      else if bit imm5 1 then Some (wQ s rd (copies 16 (if q then 8 else 4) (x mod 2 ^ 16)))
      else if bit imm5 2 then Some (wQ s rd (copies 32 (if q then 4 else 2) (x mod 2 ^ 32)))
      else if bit imm5 3 then if q then Some (wQ s rd (copies 64 2 (x mod 2 ^ 64))) else None
      else None
  end.
(** Straight code. *)
Definition step_v (w : Z) (s : vstate) : option vstate :=
  match decode w with
  | Some i => match exec i (vs s) with None => None | Some g => Some (mkV g (vq s)) end
  | None => match decode_v w with None => None | Some i => exec_v i s end
  end.
Fixpoint run_v (ws : list Z) (s : vstate) : option vstate :=
  match ws with [] => Some s | w :: ws => match step_v w s with None => None | Some s' => run_v ws s' end end.
