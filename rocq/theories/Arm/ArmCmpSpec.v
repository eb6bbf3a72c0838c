(** ARM64: what a comparison followed by a jump should do (sljitLir.h:1837-1893). *)
Require Import ZArith List Bool Lia.
From Verif Require Import Rv.RvLib Imm.ImmLib Arm.ArmIsa Arm.ArmBr Arm.ArmEnc Arm.ArmJump Arm.ArmJumpSpec Arm.ArmOp Arm.ArmOpSpec Arm.ArmMem Arm.ArmMemSpec.
Import ListNotations.
Open Scope Z_scope.

(** The comparisons of [n] bit numbers. *)
Definition compares (ty : ctype) (n a b : Z) : option bool :=
  match ty with
  | TEqual => Some (a =? b) | TNotEqual => Some (negb (a =? b))
  | TLess => Some (a <? b) | TGreaterEqual => Some (b <=? a) | TGreater => Some (b <? a) | TLessEqual => Some (a <=? b)
  | TSigLess => Some (sext n a <? sext n b) | TSigGreaterEqual => Some (sext n b <=? sext n a)
  | TSigGreater => Some (sext n b <? sext n a) | TSigLessEqual => Some (sext n a <=? sext n b)
  | _ => None
  end.
(** Registers of the API and the memory are the same (the flags need not be). *)
Definition same_data (s s' : st) : Prop := (forall k, 1 <= k <= 27 -> xr s' (reg_map k) = xr s (reg_map k)) /\ mm s' = mm s.
(** The operations whose result can be compared with zero. *)
Definition zero_op (op : op2) : bool := match op with OAdd | OSub | OAnd | OOr | OXor | OShl | OMshl | OLshr | OMlshr | OAshr | OMashr => true | _ => false end.
Definition legal_result (d : opd) : Prop := match d with DReg r => 1 <= r <= 26 | DImm _ => False | DMem m => legal_place m end.
