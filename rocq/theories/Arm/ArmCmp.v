(** ARM64 backend: comparisons followed by a jump (sljit_emit_cmp, sljit_emit_op2cmpz; sljitLir.c, LIR below) and emit_cmp_to0 of sljitNativeARM_64.c, A64 below. *)
Require Import ZArith List Bool Lia.
From Verif Require Import Rv.RvLib Arm.ArmEnc Arm.ArmImm Arm.ArmJump Arm.ArmOp Arm.ArmMem.
Import ListNotations.
Open Scope Z_scope.

(** A64:2493-2530 emit_cmp_to0: the words in front of the jump, and the condition of the jump (see [skip_word] for A64:2521-2524). *)
Definition emit_cmp_to0 (eq w32 : bool) (src : opd) : option (list Z) * jcond :=
  match src with
  | DReg r => (Some [], JZero eq w32 r)
  | DMem m => (emit_op_mem (size2 w32) false false TMP_REG1 (adjust m) TMP_REG1, JZero eq w32 TMP_REG1)
  | DImm i => (load_immediate TMP_REG1 i, JZero eq w32 TMP_REG1)
  end.
(** LIR:3564-3589: the condition with the operands exchanged. *)
Definition swap_cond (ty : ctype) : ctype :=
  match ty with
  | TLess => TGreater | TGreaterEqual => TLessEqual | TGreater => TLess | TLessEqual => TGreaterEqual
  | TSigLess => TSigGreater | TSigGreaterEqual => TSigLessEqual | TSigGreater => TSigLess | TSigLessEqual => TSigGreaterEqual
  | _ => ty
  end.
(** LIR:3562: the test for an immediate. *)
Definition is_imm (a : opd) : bool := match a with DImm _ => true | _ => false end.
(** LIR:3551, 3557: the test for the immediate zero. *)
Definition is_zero (a : opd) : bool := match a with DImm i => i =? 0 | _ => false end.
(** LIR:3562-3610: the comparison with a subtraction (sljit_emit_op2u, its destination is TMP_REG2). *)
Definition cmp_sub (ty : ctype) (w32 : bool) (a b : opd) : option (list Z) * jcond :=
  if is_imm a && negb (is_imm b) then (emit_op2 OSub w32 true (DReg TMP_REG2) b a, JFlag SSub (swap_cond ty))
  else (emit_op2 OSub w32 true (DReg TMP_REG2) a b, JFlag SSub ty).
(** LIR:3537-3611 sljit_emit_cmp *)
Definition emit_cmp (ty : ctype) (w32 : bool) (a b : opd) : option (list Z) * jcond :=
  match ty with
  | TEqual | TNotEqual =>
      let eq := match ty with TEqual => true | _ => false end in
      let (a, b) := if is_zero a then (b, DImm 0) else (a, b) in
      if is_zero b then emit_cmp_to0 eq w32 a else cmp_sub ty w32 a b
  | _ => cmp_sub ty w32 a b
  end.
(** LIR:3648-3661 sljit_emit_op2cmpz; [f] is status_flags_state before; [iz]: SLJIT_JUMP_IF_ZERO. *)
Definition emit_op2cmpz (f : fstate) (op : op2) (w32 iz : bool) (d a b : opd) : option (list Z) * jcond :=
  (emit_op2 op w32 true d a b, JFlag (state_after op f) (if iz then TEqual else TNotEqual)).
