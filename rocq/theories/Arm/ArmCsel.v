(** ARM64 backend: conditions as values (sljit_emit_op_flags) and the choice between two values (sljit_emit_select); sljitNativeARM_64.c, A64 below. *)
Require Import ZArith List Bool Lia.
From Verif Require Import Rv.RvLib Arm.ArmEnc Arm.ArmImm Arm.ArmJump Arm.ArmOp Arm.ArmMem.
Import ListNotations.
Open Scope Z_scope.

(** A64:92 *)
Definition CSEL := 0x9a800000.
(** A64:2601, 2626: CSINC of the zero registers. *)
Definition csinc_word (cc dst : Z) : Z := CSINC .| Z.shiftl cc 12 .| RD dst .| RN TMP_ZERO .| RM TMP_ZERO.
(** A64:2586-2632 sljit_emit_op_flags with SLJIT_MOV ([w32]: SLJIT_MOV32): A64:2600-2609. [f] is status_flags_state, [ty] the condition. *)
Definition emit_mov_flags (f : fstate) (ty : ctype) (w32 : bool) (d : opd) : option (list Z) :=
  both (Some [csinc_word (get_cc f ty) (dst_reg d)])
    (match d with DMem m => emit_op_mem (size2 w32) false true TMP_REG1 (adjust m) TMP_REG2 | _ => Some [] end).
(** With another operation: A64:2611-2632. The destination is the first operand. *)
Definition emit_op_flags (f : fstate) (ty : ctype) (op : op2) (w32 setf : bool) (d : opd) : option (list Z) :=
  let (l1, x1) := load_opd (size2 w32) TMP_REG1 d in
  both l1 (both (Some [csinc_word (get_cc f ty) TMP_REG2]) (both (emit_op_imm op w32 setf false (dst_reg d) x1 (AReg TMP_REG2)) (store_opd (size2 w32) (dst_reg d) d))).
(** A64:2634-2659 sljit_emit_select. An operand in memory is loaded with eight bytes, also with SLJIT_32 (A64:2653). *)
Definition emit_select (f : fstate) (ty : ctype) (w32 : bool) (dst : Z) (src1 : opd) (src2 : Z) : option (list Z) :=
  let (l, r) := match src1 with
                | DReg r => (Some [], r)
                | DImm i => (load_immediate TMP_REG2 (if w32 then s32 i else i), TMP_REG2)
                | DMem m => (emit_op_mem 3 false false TMP_REG2 (adjust m) TMP_REG2, TMP_REG2)
                end in
  both l (Some [Z.lxor CSEL (inv_bits w32) .| Z.shiftl (get_cc f ty) 12 .| RD dst .| RN src2 .| RM r]).
