(** Model of further functions of the x86-64 backend, the SLJIT_CONFIG_X86_64 branches: sljit_emit_op_flags, emit_cmov_generic, sljit_emit_op0
    (sljit_src/sljitNativeX86_common.c, "X86C"), sljit_emit_select (sljit_src/sljitNativeX86_64.c, "X64").  Simplifications as in X86Op.v. *)
Require Import ZArith List Bool Lia.
From Verif Require Import Rv.RvLib Rv.RvMem Rv.RvOp Rv.RvCond X86.X86Emit X86.X86Op X86.X86Cond.
Import ListNotations.
Open Scope Z_scope.

Section Win.
(** _WIN64 *)
Variable w : bool.
(** X86C:3630-3636, 3653-3658: setcc to the low byte of a register *)
Definition setcc_bytes (cond_set r : Z) : list Z :=
  (if 4 <=? reg_map w r then [if reg_map w r <=? 7 then REX else REX_B] else []) ++ [0x0f; cond_set; Z.lor 0xc0 (reg_lmap w r)].
(** X86C:3660-3664: movzx of the low byte of a register to the register *)
Definition movzx_bytes (r : Z) : list Z :=
  [Z.lor REX_W (if reg_map w r <=? 7 then 0 else Z.lor REX_B REX_R); 0x0f; 0xb6; u8 (Z.lor (Z.lor 0xc0 (Z.shiftl (reg_lmap w r) 3)) (reg_lmap w r))].
(** X86C:3638-3642: or of the low bytes of two registers *)
Definition or8_bytes (t d : Z) : list Z :=
  (if (4 <=? reg_map w t) || (4 <=? reg_map w d)
   then [u8 (Z.lor (Z.lor REX (if reg_map w t <=? 7 then 0 else REX_R)) (if reg_map w d <=? 7 then 0 else REX_B))] else [])
  ++ [0x08; u8 (Z.lor (Z.lor 0xc0 (Z.shiftl (reg_lmap w t) 3)) (reg_lmap w d))].
(** X86C:3596-3676 sljit_emit_op_flags; [None] as the kind of operation: SLJIT_MOV, or SLJIT_MOV32 if [f32 o] *)
Definition emit_op_flags (o : op) (k : option op2k) (dst : arg) (dstw : Z) (type : Z) : option (list Z) :=
  let cond_set := u8 (jump_code type + 0x10) in
  match k with
  | Some k =>
    if (match k with O_OR => true | _ => false end) && negb (has_flags o) && is_reg dst then
      Some (setcc_bytes cond_set TMP_REG1 ++ or8_bytes TMP_REG1 (reg_of dst))
    else
      Some (setcc_bytes cond_set TMP_REG1 ++ movzx_bytes TMP_REG1) +++ emit_op2 w o k dst dstw dst dstw (AReg TMP_REG1) 0
  | None =>
    let reg := if is_reg dst then reg_of dst else TMP_REG1 in
    Some (setcc_bytes cond_set reg ++ movzx_bytes reg) +++ (if reg =? TMP_REG1 then emit_mov w (f32 o) dst dstw (AReg TMP_REG1) 0 else Some [])
  end.

(** X86C:1388-1407 emit_cmov_generic: a jump over the move *)
Definition emit_cmov_generic (m : bool) (type dst_reg : Z) (src : arg) (srcw : Z) : option (list Z) :=
  match emit_mov w m (AReg dst_reg) 0 src srcw with
  | Some l => Some (u8 (jump_code (Z.lxor type 1) - 0x10) :: u8 (Z.of_nat (length l)) :: l)
  | None => None
  end.
(** X64:1031-1065 sljit_emit_select; [cmov]: SLJIT_HAS_CMOV; compiler->mode32 is [m] *)
Definition emit_select (cmov m : bool) (type dst_reg : Z) (src1 : arg) (src1w : Z) (src2_reg : Z) : option (list Z) :=
  let '(c, src1, src1w, type) :=
    if negb (dst_reg =? src2_reg) then
      (if arg_eqb (AReg dst_reg) src1 then (Some [], AReg src2_reg, 0, Z.lxor type 1)
       else if depends src1 dst_reg then (emit_mov w m (AReg dst_reg) 0 src1 src1w, AReg src2_reg, 0, Z.lxor type 1)
       else (emit_mov w m (AReg dst_reg) 0 (AReg src2_reg) 0, src1, src1w, type))
    else (Some [], src1, src1w, type) in
  c +++
  (if cmov then
     let '(c, src1, src1w) := if is_imm src1 then (emit_mov w m (AReg TMP_REG2) 0 src1 src1w, AReg TMP_REG2, 0) else (Some [], src1, src1w) in
     c +++ groupf w m false (u8 (jump_code type - 0x40)) dst_reg src1 src1w
   else emit_cmov_generic m type dst_reg src1 src1w).

(** X86C:1492-1516: the second byte of GROUP_F7: MUL, IMUL, DIV, IDIV (X86C:205-260) *)
Definition f7_digit (k : op0k) : Z := match k with O_LMUL_UW => 0x20 | O_LMUL_SW => 0x28 | O_DIVMOD_UW | O_DIV_UW => 0x30 | _ => 0x38 end.
Definition is_div (k : op0k) : bool := match k with O_DIVMOD_UW | O_DIVMOD_SW | O_DIV_UW | O_DIV_SW => true | _ => false end.
(** X86C:1481-1490 (the operand is TMP_REG1 for the divisions of Windows, otherwise SLJIT_R1) *)
Definition f7_bytes (m : bool) (k : op0k) : list Z :=
  if w then
    (if negb m then [Z.lor REX_W (if is_div k then REX_B else 0)] else if is_div k then [REX_B] else [])
    ++ [0xf7; Z.lor (Z.lor 0xc0 (if is_div k then reg_lmap w TMP_REG1 else reg_lmap w R1)) (f7_digit k)]
  else (if negb m then [REX_W] else []) ++ [0xf7; Z.lor (Z.lor 0xc0 (reg_map w R1)) (f7_digit k)].
(** X86C:1409-1524 sljit_emit_op0: SLJIT_NOP, the multiplications and divisions *)
Definition emit_op0 (k : op0k) (m : bool) : option (list Z) :=
  match k with
  | O_NOP => Some [0x90]
  | O_LMUL_UW | O_LMUL_SW | O_DIVMOD_UW | O_DIVMOD_SW | O_DIV_UW | O_DIV_SW =>
    (match k with
     | O_DIVMOD_UW | O_DIV_UW =>
       if w then emit_mov w m (AReg TMP_REG1) 0 (AReg R1) 0 +++ ins w m (fl 1) 0x33 (AReg R1) 0 (AReg R1) 0
       else ins w m (fl 1) 0x33 (AReg TMP_REG1) 0 (AReg TMP_REG1) 0
     | O_DIVMOD_SW | O_DIV_SW =>
       (if w then emit_mov w m (AReg TMP_REG1) 0 (AReg R1) 0 else Some []) +++ Some (if negb m then [REX_W; 0x99] else [0x99])
     | _ => Some []
     end)
    +++ Some (f7_bytes m k)
    +++ (if w then match k with O_DIV_UW | O_DIV_SW => emit_mov w m (AReg R1) 0 (AReg TMP_REG1) 0 | _ => Some [] end
         else match k with O_DIV_UW | O_DIV_SW => Some [] | _ => emit_mov w m (AReg R1) 0 (AReg TMP_REG1) 0 end)
  | _ => None
  end.
End Win.
