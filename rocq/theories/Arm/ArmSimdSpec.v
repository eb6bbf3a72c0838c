(** ARM64: what replicating a value to all lanes of a vector register should do (sljitLir.h:2155-2175). *)
Require Import ZArith List Bool Lia.
From Verif Require Import Rv.RvLib Arm.ArmIsa Arm.ArmEnc Arm.ArmOp Arm.ArmOpSpec Arm.ArmFrame Arm.ArmVec.
Import ListNotations.
Open Scope Z_scope.

(** The number of bits of an element and of a register. *)
Definition ebits (es : Z) : Z := 8 * 2 ^ es.
Definition vbits (q : bool) : Z := if q then 128 else 64.
(** Lane [i] of [x]. *)
Definition lane (es x i : Z) : Z := (x / 2 ^ (ebits es * i)) mod 2 ^ ebits es.
(** The elements are smaller than the register (sljitLir.c:3039); the registers FR0 .. and FS0 .. (sljitLir.h:260-340). *)
Definition legal_simd (q : bool) (es vreg : Z) (src : arg) : Prop :=
  0 <= es <= (if q then 3 else 2) /\ 1 <= vreg <= 30 /\ match src with AReg r => 1 <= r <= 26 | AImm i => - 2 ^ 63 <= i < 2 ^ 63 end.
Definition did_replicate (q : bool) (es vreg : Z) (src : arg) (s s' : vstate) : Prop :=
  (forall i, 0 <= i < vbits q / ebits es -> lane es (vq s' (freg_map vreg)) i = val (ebits es) (vs s) src) /\
  0 <= vq s' (freg_map vreg) < 2 ^ vbits q /\
  (forall k, k <> freg_map vreg -> vq s' k = vq s k) /\
  (forall k, 1 <= k <= 27 -> xr (vs s') (reg_map k) = xr (vs s) (reg_map k)) /\ mm (vs s') = mm (vs s) /\ same_flags (vs s) (vs s').
