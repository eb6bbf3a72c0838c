(** ARM64 backend: calls (sljit_emit_call, sljit_emit_icall) with SLJIT_CALL_RETURN, and sljit_emit_icall to an address in a register or in memory; sljitNativeARM_64.c, A64 below. *)
Require Import ZArith List Bool Lia.
From Verif Require Import Rv.RvLib Arm.ArmEnc Arm.ArmImm Arm.ArmJump Arm.ArmOp Arm.ArmMem Arm.ArmFrame Arm.ArmRet.
Import ListNotations.
Open Scope Z_scope.

(** A64:2558-2584 sljit_emit_icall with SLJIT_CALL_RETURN, the source not immediate; A64:2543 of sljit_emit_ijump. Its treatment of the source (A64:2566-2576)
    is that of sljit_emit_return_to. *)
Definition emit_icall_return (c : ctx) (src : opd) : option (list Z) :=
  let (l, r) := keep_src c src in both l (Some (release false c ++ [BR .| RN r])).
(** A64:2558-2584 without SLJIT_CALL_RETURN. *)
Definition emit_icall (src : opd) : option (list Z) :=
  match src with
  | DReg r => Some [BLR .| RN r]
  | DMem m => both (emit_op_mem 3 false false TMP_REG1 (adjust m) TMP_REG1) (Some [BLR .| RN TMP_REG1])
  | DImm _ => None
  end.
(** A64:2477-2492 sljit_emit_call with SLJIT_CALL_RETURN: the words in front of the jump (whose words are those of C54). *)
Definition emit_call_return (c : ctx) : list Z := release false c.

