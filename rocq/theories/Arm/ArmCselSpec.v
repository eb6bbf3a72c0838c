(** ARM64: what conditions as values and the choice between two values should do, from the API (sljitLir.h: sljit_emit_op_flags, sljit_emit_select). *)
Require Import ZArith List Bool Lia.
From Verif Require Import Rv.RvLib Arm.ArmIsa Arm.ArmEnc Arm.ArmJump Arm.ArmJumpSpec Arm.ArmOp Arm.ArmOpSpec Arm.ArmMem Arm.ArmMemSpec.
Import ListNotations.
Open Scope Z_scope.

(** The legal destinations: a register of the API or a place in memory. *)
Definition legal_fdest (d : opd) : Prop := match d with DReg r => 1 <= r <= 26 | DImm _ => False | DMem m => legal_place m end.
(** The destination gets the value [v] of [n] bits (a register: with zeros above); nothing else but the temporary registers changes. *)
Definition did_mov_flags (n : Z) (d : opd) (v : bool) (s s' : st) : Prop :=
  match d with
  | DReg r => xr s' (reg_map r) = Z.b2z v /\ mm s' = mm s
  | DMem m => stored (mm s) (mm s') (place s m) (n / 8) (Z.b2z v)
  | DImm _ => False
  end /\ same_flags s s' /\ (forall k, DReg k <> d -> 1 <= k <= 27 -> xr s' (reg_map k) = xr s (reg_map k)).
(** The operations sljit_emit_op_flags may have. *)
Definition flag_op (op : op2) : Prop := op = OAnd \/ op = OOr \/ op = OXor.
(** The destination gets the first value if the condition holds, the second if not. *)
Definition did_select (n dst a b : Z) (v : bool) (s s' : st) : Prop :=
  xr s' (reg_map dst) mod 2 ^ n = (if v then a else b) /\ mm s' = mm s /\ same_flags s s' /\ (forall k, k <> dst -> 1 <= k <= 27 -> xr s' (reg_map k) = xr s (reg_map k)).
