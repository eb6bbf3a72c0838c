(** Conditions: sljit_emit_jump, sljit_emit_cmp, sljit_emit_op_flags, sljit_emit_select, sljit_emit_op0
    (sljitNativeRISCV_common.c:2555-2602, 3352-3795).  RV = sljitNativeRISCV_common.c, LIR = sljitLir.c. *)
Require Import ZArith List Bool Lia.
From Verif Require Import Rv.RvLib Rv.RvIsa Rv.RvEnc Rv.RvImm Rv.RvMem Rv.RvOp Rv.RvLinkExec.
Import ListNotations.
Open Scope Z_scope.

(** ** Condition types, sljitLir.h:1720-1755 *)
Definition SLJIT_EQUAL := 0.
Definition SLJIT_NOT_EQUAL := 1.
Definition SLJIT_LESS := 2.
Definition SLJIT_GREATER_EQUAL := 3.
Definition SLJIT_GREATER := 4.
Definition SLJIT_LESS_EQUAL := 5.
Definition SLJIT_SIG_LESS := 6.
Definition SLJIT_SIG_GREATER_EQUAL := 7.
Definition SLJIT_SIG_GREATER := 8.
Definition SLJIT_SIG_LESS_EQUAL := 9.
Definition SLJIT_OVERFLOW := 10.
Definition SLJIT_NOT_OVERFLOW := 11.
Definition SLJIT_CARRY := 12.
Definition SLJIT_NOT_CARRY := 13.
Definition SLJIT_ATOMIC_STORED := 14.
Definition SLJIT_ATOMIC_NOT_STORED := 15.
(** sljitLir.h:1758-1817 *)
Definition SLJIT_F_EQUAL := 16.
Definition SLJIT_JUMP := 36.
Definition SLJIT_FAST_CALL := 37.

(** RV:3352-3400 get_jump_instruction; the lists are the case labels (sljitLir.h:1720-1807), 0: not conditional. *)
Definition get_jump_instruction (type : Z) : Z :=
  if type =? SLJIT_EQUAL then BNE .| RS1 EQUAL_FLAG .| RS2 TMP_ZERO
  else if type =? SLJIT_NOT_EQUAL then BEQ .| RS1 EQUAL_FLAG .| RS2 TMP_ZERO
  else if existsb (Z.eqb type)
    [SLJIT_LESS; SLJIT_GREATER; SLJIT_SIG_LESS; SLJIT_SIG_GREATER; SLJIT_OVERFLOW; SLJIT_CARRY; SLJIT_ATOMIC_NOT_STORED;
     16; 24; 31; 18; 26; 28; 21; 35; 33; 23]
  then BEQ .| RS1 OTHER_FLAG .| RS2 TMP_ZERO
  else if existsb (Z.eqb type)
    [SLJIT_GREATER_EQUAL; SLJIT_LESS_EQUAL; SLJIT_SIG_GREATER_EQUAL; SLJIT_SIG_LESS_EQUAL; SLJIT_NOT_OVERFLOW; SLJIT_NOT_CARRY;
     SLJIT_ATOMIC_STORED; 17; 25; 30; 19; 27; 29; 20; 34; 32; 22]
  then BNE .| RS1 OTHER_FLAG .| RS2 TMP_ZERO
  else 0.

(** The condition of the jump of sljit_emit_jump (RV:3402-3432) as the linker model has it: [jc_word] is the emitted branch
    ([jump_jc_word] in RvCondProofs). *)
Definition jump_jc (type : Z) : jc :=
  let ins := get_jump_instruction type in
  if ins =? 0 then JAlways
  else if ins =? (BNE .| RS1 EQUAL_FLAG .| RS2 TMP_ZERO) then JBr Beq EQUAL_FLAG TMP_ZERO
  else if ins =? (BEQ .| RS1 EQUAL_FLAG .| RS2 TMP_ZERO) then JBr Bne EQUAL_FLAG TMP_ZERO
  else if ins =? (BEQ .| RS1 OTHER_FLAG .| RS2 TMP_ZERO) then JBr Bne OTHER_FLAG TMP_ZERO
  else JBr Beq OTHER_FLAG TMP_ZERO.

Section Cond.
Variable c : cfg.

(** RV:1716-1721 emit_op_mem2 for an operand known to be a memory operand, next: the second operand (RV:1590-1593) *)
Definition op_mem2 (tmp2 : bool) (flags reg : Z) (a : arg) (w : Z) (next : option (Z * Z * Z)) (k : cache) : em * cache :=
  match a with
  | AMem b o => if fast_ok o w then (push_mem_inst c flags reg b w, k) else getput_arg c tmp2 flags reg b o w next k
  | _ => (ENop, k)
  end.

(** ** sljit_emit_cmp, RV:3450-3578: the code of the operands and the condition of the jump *)

(** RV:3482-3498 an operand that is not in memory any more; the register that has its value *)
Definition cmp_imm (tmp : Z) (a : arg) (w : Z) : em * Z :=
  match a with
  | AReg r => (ENop, r)
  | AImm => if negb (w =? 0) then (load_immediate c tmp w TMP_REG3, tmp) else (ENop, TMP_ZERO)
  | AMem _ _ => (ENop, TMP_ZERO)
  end.
(** RV:3505-3570 the branch; it skips the jump, so it tests the opposite ([jc_word]) *)
Definition cmp_jc (type src1 src2 : Z) : jc :=
  if (type =? SLJIT_EQUAL) || (type =? SLJIT_NOT_EQUAL) then
    if cC c && (src1 =? TMP_ZERO) && C_IS_R3 src2 then JZ (type =? SLJIT_EQUAL) src2
    else if cC c && (src2 =? TMP_ZERO) && C_IS_R3 src1 then JZ (type =? SLJIT_EQUAL) src1
    else JBr (if type =? SLJIT_EQUAL then Beq else Bne) src1 src2
  else if type =? SLJIT_LESS then JBr Bltu src1 src2
  else if type =? SLJIT_GREATER_EQUAL then JBr Bgeu src1 src2
  else if type =? SLJIT_GREATER then JBr Bltu src2 src1
  else if type =? SLJIT_LESS_EQUAL then JBr Bgeu src2 src1
  else if type =? SLJIT_SIG_LESS then JBr Blt src1 src2
  else if type =? SLJIT_SIG_GREATER_EQUAL then JBr Bge src1 src2
  else if type =? SLJIT_SIG_GREATER then JBr Blt src2 src1
  else JBr Bge src2 src1.
(** RV:3450-3578 *)
Definition emit_cmp (type : Z) (is32 : bool) (src1 : arg) (src1w : Z) (src2 : arg) (src2w : Z) : em * jc :=
  let src2_tmp_reg := if is_reg src1 then TMP_REG1 else TMP_REG2 in
  let flags := (if is32 then INT_DATA else WORD_DATA) .| LOAD_DATA in
  let '(e1, k) := op_mem2 false flags TMP_REG1 src1 src1w (next_of src2 src2w) no_cache in
  let src1 := if is_mem src1 then AReg TMP_REG1 else src1 in
  let '(e2, _) := op_mem2 (match src1 with AReg r => r =? TMP_REG1 | _ => false end) flags src2_tmp_reg src2 src2w None k in
  let src2 := if is_mem src2 then AReg src2_tmp_reg else src2 in
  let '(e3, r1) := cmp_imm TMP_REG1 src1 src1w in
  let '(e4, r2) := cmp_imm src2_tmp_reg src2 src2w in
  (e1 ;; e2 ;; e3 ;; e4, cmp_jc type r1 r2).

(** RV:2695-2707: whether status_flags_state has SLJIT_CURRENT_FLAGS_ADD or SLJIT_CURRENT_FLAGS_SUB after sljit_emit_op2; [old]: before. *)
Definition adds_after (old : bool) (k : op2k) : bool :=
  match k with O_ADD | O_ADDC | O_SUB | O_SUBC => true | O_MUL => false | _ => old end.

(** ** sljit_emit_op_flags, RV:3642-3731 (conditions of integer operations: type < SLJIT_F_EQUAL) *)

(** RV:3667-3691 the register with the flag (or its opposite) and whether it has to be inverted.
    adds: status_flags_state has SLJIT_CURRENT_FLAGS_ADD or SLJIT_CURRENT_FLAGS_SUB. *)
Definition flag_src (adds : bool) (type dst_r : Z) : em * Z * bool :=
  let invert := negb (type .& 1 =? 0) in
  if (type =? SLJIT_EQUAL) || (type =? SLJIT_NOT_EQUAL) then
    (E32 (SLTUI .| RD dst_r .| RS1 EQUAL_FLAG .| IMM_I 1), dst_r, invert)
  else if (type =? SLJIT_OVERFLOW) || (type =? SLJIT_NOT_OVERFLOW) then
    if adds then (ENop, OTHER_FLAG, invert)
    else (E32 (SLTUI .| RD dst_r .| RS1 OTHER_FLAG .| IMM_I 1), dst_r, negb invert)
  else if (type =? SLJIT_ATOMIC_STORED) || (type =? SLJIT_ATOMIC_NOT_STORED) then (ENop, OTHER_FLAG, negb invert)
  else (ENop, OTHER_FLAG, invert).
(** RV:3712-3715 *)
Definition flag_inv (invert : bool) (dst_r src_r : Z) : em * Z :=
  if invert then (E32 (XORI .| RD dst_r .| RS1 src_r .| IMM_I 1), dst_r) else (ENop, src_r).
(** RV:3642-3731.  kind o is SLJIT_MOV, SLJIT_MOV32, SLJIT_AND, SLJIT_OR or SLJIT_XOR (LIR:2666-2698). *)
Definition emit_op_flags (adds : bool) (o : op) (dst : arg) (dstw type : Z) : em :=
  let mem_type := if f32 o || match kind o with K1 O_MOV32 => true | _ => false end then INT_DATA .| SIGNED_DATA else WORD_DATA in
  let is_op1 := negb (is_op2 o) in
  let dst_r := match dst with AReg r => if is_op1 then r else TMP_REG2 | _ => TMP_REG2 end in
  let '(e0, k) := if negb is_op1 && is_mem dst then op_mem2 false (mem_type .| LOAD_DATA) TMP_REG1 dst dstw (next_of dst dstw) no_cache
                  else (ENop, no_cache) in
  let '(e1, src_r, invert) := flag_src adds type dst_r in
  let '(e2, src_r) := flag_inv invert dst_r src_r in
  let e3 :=
    if is_op1 then
      match dst with
      | AMem b offs => emit_op_mem c mem_type src_r b offs dstw
      | _ => ifE (negb (src_r =? dst_r)) (E32 (ADDI .| RD dst_r .| RS1 src_r .| IMM_I 0))
      end
    else
      fst (emit_op c o (mkF mem_type true true true false) dst dstw (if is_mem dst then AReg TMP_REG1 else dst) (if is_mem dst then 0 else dstw) (AReg src_r) 0 k) in
  e0 ;; e1 ;; e2 ;; e3.

(** ** sljit_emit_select, RV:3733-3797 *)

(** LIR:919-920 ADDRESSING_DEPENDS_ON *)
Definition depends (a : arg) (r : Z) : bool := match a with AMem b o => (b =? r) || (o =? r) | _ => false end.
(** RV:3761-3769 the operand with TMP_REG1 in place of dst_reg *)
Definition subst_reg (a : arg) (r : Z) : arg :=
  match a with AMem b o => AMem (if b =? r then TMP_REG1 else b) (if o =? r then TMP_REG1 else o) | _ => a end.
(** RV:3781-3790 the instructions that are skipped when the condition is false *)
Definition select_load (is32 : bool) (dst_reg : Z) (src1 : arg) (src1w : Z) : em :=
  match src1 with
  | AMem b o => emit_op_mem c ((if is32 then INT_DATA else WORD_DATA) .| LOAD_DATA) dst_reg b o src1w
  | AImm => load_immediate c dst_reg (if is32 then s32 src1w else src1w) TMP_REG1
  | AReg r => E32 (ADDI .| (if is32 then 8 else 0) .| RD dst_reg .| RS1 r .| IMM_I 0)
  end.
(** RV:3775-3779, 3792-3795 the branch: size is the distance of its target in 16 bit units *)
Definition select_branch (type : Z) (body : em) : Z :=
  let size := 2 + Z.of_nat (length (units_of (flat body))) in
  get_jump_instruction type .| u32 (Z.shiftl (size .& 0xf) 8) .| u32 (Z.shiftl (Z.shiftr size 4) 25).
(** RV:3733-3797 *)
Definition emit_select (type : Z) (is32 : bool) (dst_reg : Z) (src1 : arg) (src1w : Z) (src2_reg : Z) : em :=
  let tail type src1 src1w :=
    let body := select_load is32 dst_reg src1 src1w in E32 (select_branch type body) ;; body in
  if negb (dst_reg =? src2_reg) then
    if match src1 with AReg r => dst_reg =? r | _ => false end then tail (Z.lxor type 1) (AReg src2_reg) 0
    else
      (if depends src1 dst_reg then E32 (ADDI .| RD TMP_REG1 .| RS1 dst_reg .| IMM_I 0) else ENop) ;;
      E32 (ADDI .| (if is32 then 8 else 0) .| RD dst_reg .| RS1 src2_reg .| IMM_I 0) ;;
      tail type (if depends src1 dst_reg then subst_reg src1 dst_reg else src1) src1w
  else tail type src1 src1w.

(** ** sljit_emit_op0, RV:2555-2603; the opcodes sljitLir.h:1167-1235.
    SLJIT_BREAKPOINT stops the machine and is left out. *)
Inductive op0k := O_NOP | O_LMUL_UW | O_LMUL_SW | O_DIVMOD_UW | O_DIVMOD_SW | O_DIV_UW | O_DIV_SW | O_MEMORY_BARRIER | O_ENDBR | O_SKIP_FRAMES.
(** sljitLir.h:168-169 *)
Definition SLJIT_R0 := 1.
Definition SLJIT_R1 := 2.
(** RV:2555-2603 *)
Definition emit_op0 (k : op0k) (is32 : bool) : em :=
  let w := if is32 then 8 else 0 in
  let copy r := E32 (ADDI .| RD TMP_REG1 .| RS1 r .| IMM_I 0) in
  match k with
  | O_NOP => if cC c then E16 C_NOP else E32 NOP
  | O_LMUL_UW => copy SLJIT_R1 ;; E32 (MULHU .| RD SLJIT_R1 .| RS1 SLJIT_R0 .| RS2 SLJIT_R1) ;; E32 (MUL .| RD SLJIT_R0 .| RS1 SLJIT_R0 .| RS2 TMP_REG1)
  | O_LMUL_SW => copy SLJIT_R1 ;; E32 (MULH .| RD SLJIT_R1 .| RS1 SLJIT_R0 .| RS2 SLJIT_R1) ;; E32 (MUL .| RD SLJIT_R0 .| RS1 SLJIT_R0 .| RS2 TMP_REG1)
  | O_DIVMOD_UW => copy SLJIT_R0 ;; E32 (DIVU .| w .| RD SLJIT_R0 .| RS1 SLJIT_R0 .| RS2 SLJIT_R1) ;; E32 (REMU .| w .| RD SLJIT_R1 .| RS1 TMP_REG1 .| RS2 SLJIT_R1)
  | O_DIVMOD_SW => copy SLJIT_R0 ;; E32 (DIV .| w .| RD SLJIT_R0 .| RS1 SLJIT_R0 .| RS2 SLJIT_R1) ;; E32 (REM .| w .| RD SLJIT_R1 .| RS1 TMP_REG1 .| RS2 SLJIT_R1)
  | O_DIV_UW => E32 (DIVU .| w .| RD SLJIT_R0 .| RS1 SLJIT_R0 .| RS2 SLJIT_R1)
  | O_DIV_SW => E32 (DIV .| w .| RD SLJIT_R0 .| RS1 SLJIT_R0 .| RS2 SLJIT_R1)
  | O_MEMORY_BARRIER => E32 (FENCE .| 0x0ff00000)
  | O_ENDBR | O_SKIP_FRAMES => ENop
  end.
End Cond.
