(** ARM64 backend: leaving a function for another place (sljit_emit_return_to), the return address (SLJIT_GET_RETURN_ADDRESS), fast calls (SLJIT_FAST_ENTER,
    SLJIT_FAST_RETURN); sljitNativeARM_64.c, A64 below. *)
Require Import ZArith List Bool Lia.
From Verif Require Import Rv.RvLib Arm.ArmEnc Arm.ArmImm Arm.ArmJump Arm.ArmOp Arm.ArmMem Arm.ArmFrame.
Import ListNotations.
Open Scope Z_scope.

(** A64:1558-1568: the source is put into a register the release of the frame does not change. SLJIT_FIRST_SAVED_REG is 17 (S0 - 10 + 1, sljitLir.h:208). *)
Definition keep_src (c : ctx) (src : opd) : option (list Z) * Z :=
  match src with
  | DMem m => (emit_op_mem 3 false false TMP_REG1 (adjust m) TMP_REG1, TMP_REG1)
  | DReg r => if (17 <=? r) && (r <=? S0 - c_kept c) then (Some [MOV .| RD TMP_REG1 .| RM r], TMP_REG1) else (Some [], r)
  | DImm _ => (None, 0)
  end.
(** A64:1552-1575 sljit_emit_return_to for sources which are not immediate; A64:2543 of sljit_emit_ijump. (An immediate source is a jump record, see C54.) *)
Definition emit_return_to (c : ctx) (src : opd) : option (list Z) :=
  let (l, r) := keep_src c src in both l (Some (release true c ++ [BR .| RN r])).
(** A64:1913-1940 sljit_emit_op_dst with SLJIT_FAST_ENTER. *)
Definition emit_fast_enter (d : opd) : option (list Z) :=
  match d with
  | DReg r => if r =? TMP_LR then Some [] else Some [MOV .| RD r .| RM TMP_LR]
  | DMem m => emit_op_mem 3 false true TMP_LR (adjust m) TMP_REG2
  | DImm _ => None
  end.
(** A64:1872-1887 sljit_emit_op_src with SLJIT_FAST_RETURN. *)
Definition emit_fast_return (a : opd) : option (list Z) :=
  both (match a with
        | DReg r => if r =? TMP_LR then Some [] else Some [MOV .| RD TMP_LR .| RM r]
        | DMem m => emit_op_mem 3 false false TMP_LR (adjust m) TMP_REG1
        | DImm _ => None
        end) (Some [RET .| RN TMP_LR]).
(** A64:1913-1940 with SLJIT_GET_RETURN_ADDRESS: the address is at 8 above the stack pointer. *)
Definition emit_get_return (d : opd) : option (list Z) :=
  both (emit_op_mem 3 false false (dst_reg d) (MBase SLJIT_SP 8) TMP_REG2)
    (match d with DMem m => emit_op_mem 3 false true TMP_REG1 (adjust m) TMP_REG2 | _ => Some [] end).
