(** Integer operations: sljitNativeRISCV_common.c:1724-2856 (RISC-V 64). *)
Require Import ZArith List Bool Lia.
From Verif Require Import Rv.RvLib Rv.RvEnc Rv.RvImm Rv.RvMem.
Import ListNotations.
Open Scope Z_scope.

(** sljitLir.h:1232-1315 opcodes of sljit_emit_op1; the SLJIT_32 bit is [f32] below. *)
Inductive op1k := O_MOV | O_MOV_U8 | O_MOV_S8 | O_MOV_U16 | O_MOV_S16 | O_MOV_U32 | O_MOV_S32 | O_MOV32 | O_MOV_P
  | O_CLZ | O_CTZ | O_REV | O_REV_U16 | O_REV_S16 | O_REV_U32 | O_REV_S32.
(** sljitLir.h:1322-1398 opcodes of sljit_emit_op2 *)
Inductive op2k := O_ADD | O_ADDC | O_SUB | O_SUBC | O_MUL | O_AND | O_OR | O_XOR
  | O_SHL | O_MSHL | O_LSHR | O_MLSHR | O_ASHR | O_MASHR | O_ROTL | O_ROTR.
Inductive opk := K1 (k : op1k) | K2 (k : op2k).
(** GET_FLAG_TYPE(op), sljitLir.c:99, of the SLJIT_SET_* values sljitLir.h:1726-1760; a negated type
    (e.g. SLJIT_SET_GREATER_EQUAL) is the same value as the type it negates. *)
Inductive vflag := VNone | VLess | VGreater | VSigLess | VSigGreater | VOverflow | VCarry.
(** The op argument: opcode, SLJIT_32, SLJIT_SET_Z, variable flag (sljitLir.h:1063-1165, sljitLir.c:95-103). *)
Record op := mkOp { kind : opk; f32 : bool; setz : bool; vf : vflag }.

(** sljitNativeRISCV_common.c:1892 and others: word = (op & SLJIT_32) >> 5 *)
Definition word (o : op) : Z := if f32 o then 8 else 0.
(** GET_FLAG_TYPE(op) == ..., sljitLir.c:99 *)
Definition is_v (o : op) (v : vflag) : bool :=
  match vf o, v with
  | VNone, VNone | VLess, VLess | VGreater, VGreater | VSigLess, VSigLess | VSigGreater, VSigGreater
  | VOverflow, VOverflow | VCarry, VCarry => true
  | _, _ => false
  end.
(** op & VARIABLE_FLAG_MASK, sljitLir.c:96 *)
Definition has_v (o : op) : bool := negb (is_v o VNone).

Section Op.
Variable c : cfg.

(** ** Fragments that occur several times in emit_single_op *)

(** sljitNativeRISCV_common.c:2022-2025 and others: copy a register *)
Definition mv_reg (d s : Z) : em :=
  if cC c then E16 (C_MV .| C_RD d .| C_RS2 s) else E32 (ADDI .| RD d .| RS1 s .| IMM_I 0).
(** sljitNativeRISCV_common.c:2035-2038 and others *)
Definition add_imm (w dst src1 imm : Z) : em :=
  if cC c && (dst =? src1) && (imm <=? SIMM16_MAX) && (imm >=? SIMM16_MIN)
  then E16 (C_ADDI_W w .| C_RD dst .| C_IMM_I imm)
  else E32 (ADDI .| w .| RD dst .| RS1 src1 .| IMM_I imm).
(** sljitNativeRISCV_common.c:2195-2198 and others *)
Definition sub_reg (w dst src1 src2 : Z) : em :=
  if cC c && (dst =? src1) && C_IS_R3 dst && C_IS_R3 src2
  then E16 (C_SUB_W w .| C_RS1_R3 dst .| C_RS2_R3 src2)
  else E32 (SUB .| w .| RD dst .| RS1 src1 .| RS2 src2).
(** FAIL_IF(...) under a condition, e.g. sljitNativeRISCV_common.c:2033-2034 *)
Definition ifE (b : bool) (e : em) : em := if b then e else ENop.
(** sljitNativeRISCV_common.c:1730 IMM_EXTEND *)
Definition IMM_EXTEND (o : op) (v : Z) : Z := IMM_I (if f32 o then v else 32 + v).

(** sljitNativeRISCV_common.c:1733-1751 *)
Definition emit_add (w dst src1 src2 : Z) : em :=
  let '(src1, src2) := if dst =? src2 then (dst, src1) else (src1, src2) in
  if cC c && (dst =? src1) && (w =? 0) && negb (src2 =? 0) then E16 (C_ADD .| C_RD dst .| C_RS2 src2)
  else if cC c && (dst =? src1) && (w =? 8) && C_IS_R3 dst && C_IS_R3 src2
  then E16 (C_ADDW .| C_RS1_R3 dst .| C_RS2_R3 src2)
  else E32 (ADD .| w .| RD dst .| RS1 src1 .| RS2 src2).

(** sljitNativeRISCV_common.c:1753-1795 *)
Definition emit_clz_ctz (o : op) (is_clz : bool) (dst src : Z) : em :=
  let w := word o in
  let word_size := if f32 o then 32 else 64 in
  E32 (ADDI .| w .| RD OTHER_FLAG .| RS1 TMP_ZERO .| IMM_I word_size) ;;
  ifE (negb (src =? TMP_REG2)) (E32 (ADDI .| w .| RD TMP_REG2 .| RS1 src .| IMM_I 0)) ;;
  E32 (BEQ .| RS1 TMP_REG2 .| RS2 TMP_ZERO .| u32 (Z.shiftl ((if is_clz then 4 else 5) * 4) 7) .| u32 (Z.shiftl (8 * 4) 20)) ;;
  E32 (ADDI .| w .| RD OTHER_FLAG .| RS1 TMP_ZERO .| IMM_I 0) ;;
  (if negb is_clz then
     E32 (ANDI .| RD TMP_REG1 .| RS1 TMP_REG2 .| IMM_I 1) ;;
     E32 (BNE .| RS1 TMP_REG1 .| RS2 TMP_ZERO .| u32 (Z.shiftl (2 * 4) 7) .| u32 (Z.shiftl (8 * 4) 20))
   else
     E32 (BLT .| RS1 TMP_REG2 .| RS2 TMP_ZERO .| u32 (Z.shiftl (2 * 4) 7) .| u32 (Z.shiftl (8 * 4) 20))) ;;
  E32 (ADDI .| w .| RD TMP_REG1 .| RS1 TMP_ZERO .| IMM_I word_size) ;;
  E32 (ADDI .| w .| RD EQUAL_FLAG .| RS1 TMP_REG2 .| IMM_I 0) ;;
  E32 (SRLI .| w .| RD TMP_REG1 .| RS1 TMP_REG1 .| IMM_I 1) ;;
  E32 ((if is_clz then SRL else SLL) .| w .| RD TMP_REG2 .| RS1 EQUAL_FLAG .| RS2 TMP_REG1) ;;
  E32 (BNE .| RS1 TMP_REG2 .| RS2 TMP_ZERO .| u32 (0xfe000e80 - Z.shiftl (2 * 4) 7)) ;;
  E32 (ADDI .| w .| RD TMP_REG2 .| RS1 TMP_REG1 .| IMM_I (-1)) ;;
  E32 ((if is_clz then SRL else SLL) .| w .| RD TMP_REG2 .| RS1 EQUAL_FLAG .| RS2 TMP_REG2) ;;
  E32 (OR .| RD OTHER_FLAG .| RS1 OTHER_FLAG .| RS2 TMP_REG1) ;;
  E32 (BEQ .| RS1 TMP_REG2 .| RS2 TMP_ZERO .| u32 (0xfe000e80 - Z.shiftl (5 * 4) 7)) ;;
  E32 (ADDI .| w .| RD dst .| RS1 OTHER_FLAG .| IMM_I 0).

(** sljitNativeRISCV_common.c:1797-1842 *)
Definition emit_rev (o : op) (dst src : Z) : em :=
  if negb (f32 o) then
    E32 (LUI .| RD OTHER_FLAG .| 0x10000) ;;
    E32 (SRLI .| RD TMP_REG1 .| RS1 src .| IMM_I 32) ;;
    E32 (ADDI .| RD OTHER_FLAG .| RS1 OTHER_FLAG .| IMM_I 0xfff) ;;
    E32 (SLLI .| RD dst .| RS1 src .| IMM_I 32) ;;
    E32 (SLLI .| RD EQUAL_FLAG .| RS1 OTHER_FLAG .| IMM_I 32) ;;
    E32 (OR .| RD dst .| RS1 dst .| RS2 TMP_REG1) ;;
    E32 (OR .| RD OTHER_FLAG .| RS1 OTHER_FLAG .| RS2 EQUAL_FLAG) ;;
    E32 (SRLI .| RD TMP_REG1 .| RS1 dst .| IMM_I 16) ;;
    E32 (AND .| RD dst .| RS1 dst .| RS2 OTHER_FLAG) ;;
    E32 (AND .| RD TMP_REG1 .| RS1 TMP_REG1 .| RS2 OTHER_FLAG) ;;
    E32 (SLLI .| RD EQUAL_FLAG .| RS1 OTHER_FLAG .| IMM_I 8) ;;
    E32 (SLLI .| RD dst .| RS1 dst .| IMM_I 16) ;;
    E32 (XOR .| RD OTHER_FLAG .| RS1 OTHER_FLAG .| RS2 EQUAL_FLAG) ;;
    E32 (OR .| RD dst .| RS1 dst .| RS2 TMP_REG1) ;;
    E32 (SRLI .| RD TMP_REG1 .| RS1 dst .| IMM_I 8) ;;
    E32 (AND .| RD dst .| RS1 dst .| RS2 OTHER_FLAG) ;;
    E32 (AND .| RD TMP_REG1 .| RS1 TMP_REG1 .| RS2 OTHER_FLAG) ;;
    E32 (SLLI .| RD dst .| RS1 dst .| IMM_I 8) ;;
    E32 (OR .| RD dst .| RS1 dst .| RS2 TMP_REG1)
  else
    E32 (SRLI .| 8 .| RD TMP_REG1 .| RS1 src .| IMM_I 16) ;;
    E32 (LUI .| RD OTHER_FLAG .| 0xff0000) ;;
    E32 (SLLI .| 8 .| RD dst .| RS1 src .| IMM_I 16) ;;
    E32 (ORI .| RD OTHER_FLAG .| RS1 OTHER_FLAG .| IMM_I 0xff) ;;
    E32 (OR .| RD dst .| RS1 dst .| RS2 TMP_REG1) ;;
    E32 (SRLI .| 8 .| RD TMP_REG1 .| RS1 dst .| IMM_I 8) ;;
    E32 (AND .| RD dst .| RS1 dst .| RS2 OTHER_FLAG) ;;
    E32 (AND .| RD TMP_REG1 .| RS1 TMP_REG1 .| RS2 OTHER_FLAG) ;;
    E32 (SLLI .| (match kind o with K1 O_REV_S32 => 8 | _ => 0 end) .| RD dst .| RS1 dst .| IMM_I 8) ;;
    E32 (OR .| RD dst .| RS1 dst .| RS2 TMP_REG1).

(** sljitNativeRISCV_common.c:1844-1858 *)
Definition emit_rev16 (o : op) (dst src : Z) : em :=
  let w := word o in
  let word_size := if f32 o then 32 else 64 in
  E32 (SRLI .| w .| RD TMP_REG1 .| RS1 src .| IMM_I 8) ;;
  E32 (SLLI .| w .| RD dst .| RS1 src .| IMM_I (word_size - 8)) ;;
  E32 (ANDI .| RD TMP_REG1 .| RS1 TMP_REG1 .| IMM_I 0xff) ;;
  E32 ((match kind o with K1 O_REV_U16 => SRLI | _ => SRAI end) .| w .| RD dst .| RS1 dst .| IMM_I (word_size - 16)) ;;
  E32 (OR .| RD dst .| RS1 dst .| RS2 TMP_REG1).

(** sljitNativeRISCV_common.c:1860-1884 EMIT_LOGICAL.  i2: SRC2_IMM, u: UNUSED_DEST. *)
Definition emit_logical (o : op) (i2 u : bool) (op_imm op_c_imm op_reg op_c_reg dst src1 src2 : Z) : em :=
  if i2 then
    ifE (setz o) (E32 (op_imm .| RD EQUAL_FLAG .| RS1 src1 .| IMM_I src2)) ;;
    ifE (negb u)
      (if negb (op_c_imm =? 0) && cC c && (dst =? src1) && (src2 <=? SIMM16_MAX) && (src2 >=? SIMM16_MIN) && C_IS_R3 dst
       then E16 (op_c_imm .| C_RS1_R3 dst .| C_IMM_I src2)
       else E32 (op_imm .| RD dst .| RS1 src1 .| IMM_I src2))
  else
    let '(src1, src2) := if dst =? src2 then (dst, src1) else (src1, src2) in
    ifE (setz o) (E32 (op_reg .| RD EQUAL_FLAG .| RS1 src1 .| RS2 src2)) ;;
    ifE (negb u)
      (if cC c && (dst =? src1) && C_IS_R3 dst && C_IS_R3 src2
       then E16 (op_c_reg .| C_RS1_R3 dst .| C_RS2_R3 src2)
       else E32 (op_reg .| RD dst .| RS1 src1 .| RS2 src2)).

(** ** emit_single_op, sljitNativeRISCV_common.c:1886-2425, case by case.
    rr: both REG_DEST and REG2_SOURCE are set. *)

(** :1898-1909 *)
Definition so_mov (dst src2 : Z) : em :=
  if dst =? src2 then ENop
  else if negb (cC c) then E32 (ADDI .| RD dst .| RS1 src2 .| IMM_I 0)
  else if src2 =? 0 then E16 (C_LI .| C_RD dst)
  else E16 (C_MV .| C_RD dst .| C_RS2 src2).
(** :1911-1916 *)
Definition so_mov_u8 (rr : bool) (dst src2 : Z) : em :=
  ifE rr (E32 (ANDI .| RD dst .| RS1 src2 .| IMM_I 0xff)).
(** :1918-1928, 1930-1940, 1942-1952: the instruction of the bit manipulation extension, or two shifts *)
Definition so_mov_ext (o : op) (rr : bool) (zbb sh2 v dst src2 : Z) : em :=
  if cB c then E32 (zbb .| RD dst .| RS1 src2)
  else ifE rr (E32 (SLLI .| word o .| RD dst .| RS1 src2 .| IMM_EXTEND o v) ;;
               E32 (sh2 .| word o .| RD dst .| RS1 dst .| IMM_EXTEND o v)).
(** :1955-1962 *)
Definition so_mov_u32 (rr : bool) (dst src2 : Z) : em :=
  ifE rr (E32 (SLLI .| RD dst .| RS1 src2 .| IMM_I 32) ;; E32 (SRLI .| RD dst .| RS1 dst .| IMM_I 32)).
(** :1964-1972 *)
Definition so_mov_s32 (rr : bool) (dst src2 : Z) : em :=
  ifE rr (if cC c && (dst =? src2) then E16 (C_ADDIW .| C_RD dst)
          else E32 (ADDI .| 8 .| RD dst .| RS1 src2 .| IMM_I 0)).
(** :1975-1981 *)
Definition so_clz_ctz (o : op) (is_clz : bool) (dst src2 : Z) : em :=
  if cB c then E32 ((if is_clz then CLZ else CTZ) .| word o .| RD dst .| RS1 src2) else emit_clz_ctz o is_clz dst src2.
(** :1983-1998 *)
Definition so_rev (o : op) (dst src2 : Z) : em :=
  if cB c then
    E32 (REV8 .| RD dst .| RS1 src2) ;;
    ifE (f32 o || match kind o with K1 O_REV => false | _ => true end)
      (E32 ((match kind o with K1 O_REV_U32 => SRLI | _ => SRAI end) .| RD dst .| RS1 dst .| IMM_I 32))
  else emit_rev o dst src2.
(** :2000-2012 *)
Definition so_rev16 (o : op) (dst src2 : Z) : em :=
  if cB c then
    E32 (REV8 .| RD dst .| RS1 src2) ;;
    E32 ((match kind o with K1 O_REV_U16 => SRLI | _ => SRAI end) .| RD dst .| RS1 dst .| IMM_I 48)
  else emit_rev16 o dst src2.

(** The end of SLJIT_ADD and SLJIT_SUB when the overflow flag is needed, :2070-2081, 2248-2259 *)
Definition so_overflow (o : op) (dst : Z) : em :=
  E32 (XOR .| RD TMP_REG1 .| RS1 dst .| RS2 EQUAL_FLAG) ;;
  ifE (setz o) (mv_reg EQUAL_FLAG dst) ;;
  E32 (SRLI .| word o .| RD TMP_REG1 .| RS1 TMP_REG1 .| IMM_EXTEND o 31) ;;
  E32 (XOR .| RD OTHER_FLAG .| RS1 TMP_REG1 .| RS2 OTHER_FLAG).
(** SLJIT_ADD and SLJIT_SUB with an immediate: the value stored into EQUAL_FLAG before the operation, :2020-2028, 2208-2216 *)
Definition so_overflow_pre (src1 src2 : Z) : em :=
  if src2 >=? 0 then mv_reg EQUAL_FLAG src1 else E32 (XORI .| RD EQUAL_FLAG .| RS1 src1 .| IMM_I (-1)).
(** SLJIT_ADD, :2014-2081 *)
Definition so_add (o : op) (i2 u : bool) (dst src1 src2 : Z) : em :=
  let w := word o in
  let is_overflow := is_v o VOverflow in
  let is_carry := is_v o VCarry in
  let needed := negb u || has_v o in
  if i2 then
    (if is_overflow then so_overflow_pre src1 src2
     else ifE (setz o) (E32 (ADDI .| w .| RD EQUAL_FLAG .| RS1 src1 .| IMM_I src2))) ;;
    ifE needed (add_imm w dst src1 src2) ;;
    ifE (is_overflow || is_carry) (E32 (SLTUI .| RD OTHER_FLAG .| RS1 dst .| IMM_I src2)) ;;
    ifE is_overflow (so_overflow o dst)
  else
    (if is_overflow then E32 (XOR .| RD EQUAL_FLAG .| RS1 src1 .| RS2 src2)
     else ifE (setz o) (E32 (ADD .| w .| RD EQUAL_FLAG .| RS1 src1 .| RS2 src2))) ;;
    let '(e, carry_src_r) :=
      if is_overflow || is_carry then
        if negb (src1 =? dst) then (ENop, src1)
        else if negb (src2 =? dst) then (ENop, src2)
        else (E32 (ADDI .| RD OTHER_FLAG .| RS1 src1 .| IMM_I 0), OTHER_FLAG)
      else (ENop, 0) in
    e ;;
    ifE needed (emit_add w dst src1 src2) ;;
    ifE (is_overflow || negb (carry_src_r =? 0)) (E32 (SLTU .| RD OTHER_FLAG .| RS1 dst .| RS2 carry_src_r)) ;;
    ifE is_overflow (so_overflow o dst).

(** SLJIT_ADDC, :2083-2129 *)
Definition so_addc (o : op) (i2 : bool) (dst src1 src2 : Z) : em :=
  let w := word o in
  let is_carry := is_v o VCarry in
  let '(e, carry) :=
    if i2 then
      (add_imm w dst src1 src2 ;;
       ifE is_carry (E32 (SLTUI .| RD EQUAL_FLAG .| RS1 dst .| IMM_I src2)), is_carry)
    else
      let '(e, carry_src_r) :=
        if is_carry then
          if negb (src1 =? dst) then (ENop, src1)
          else if negb (src2 =? dst) then (ENop, src2)
          else (mv_reg EQUAL_FLAG src1, EQUAL_FLAG)
        else (ENop, 0) in
      (e ;; emit_add w dst src1 src2 ;;
       ifE (negb (carry_src_r =? 0)) (E32 (SLTU .| RD EQUAL_FLAG .| RS1 dst .| RS2 carry_src_r)), negb (carry_src_r =? 0)) in
  e ;;
  (if cC c && (w =? 0) then E16 (C_ADD .| C_RD dst .| C_RS2 OTHER_FLAG)
   else E32 (ADD .| w .| RD dst .| RS1 dst .| RS2 OTHER_FLAG)) ;;
  ifE carry
    (E32 (SLTU .| RD OTHER_FLAG .| RS1 dst .| RS2 OTHER_FLAG) ;;
     E32 (OR .| RD OTHER_FLAG .| RS1 OTHER_FLAG .| RS2 EQUAL_FLAG)).

(** SLJIT_SUB and SLJIT_SUBC: the immediate SIMM_MIN cannot be negated, :2132-2136, 2262-2266 *)
Definition so_sub_pre (i2 : bool) (src2 : Z) : em * bool * Z :=
  if i2 && (src2 =? SIMM_MIN) then (E32 (ADDI .| RD TMP_REG2 .| RS1 TMP_ZERO .| IMM_I src2), false, TMP_REG2)
  else (ENop, i2, src2).
(** SLJIT_SUB, :2138-2202: flag types SLJIT_LESS ... SLJIT_SIG_LESS_EQUAL *)
Definition so_sub_cmp (o : op) (i2 u : bool) (dst src1 src2 : Z) : em :=
  let w := word o in
  let '(e, i2, src2) :=
    if i2 && is_v o VLess then (E32 (SLTUI .| RD OTHER_FLAG .| RS1 src1 .| IMM_I src2), i2, src2)
    else if i2 && is_v o VSigLess then (E32 (SLTI .| RD OTHER_FLAG .| RS1 src1 .| IMM_I src2), i2, src2)
    else
      let reg := if src1 =? TMP_REG1 then TMP_REG2 else TMP_REG1 in
      let '(e, src2) :=
        if i2 then
          ((if cC c && (src2 <=? SIMM16_MAX) && (src2 >=? SIMM16_MIN) then E16 (C_LI .| C_RD reg .| C_IMM_I src2)
            else E32 (ADDI .| RD reg .| RS1 TMP_ZERO .| IMM_I src2)), reg)
        else (ENop, src2) in
      (e ;; match vf o with
            | VLess => E32 (SLTU .| RD OTHER_FLAG .| RS1 src1 .| RS2 src2)
            | VGreater => E32 (SLTU .| RD OTHER_FLAG .| RS1 src2 .| RS2 src1)
            | VSigLess => E32 (SLT .| RD OTHER_FLAG .| RS1 src1 .| RS2 src2)
            | VSigGreater => E32 (SLT .| RD OTHER_FLAG .| RS1 src2 .| RS2 src1)
            | _ => ENop
            end, false, src2) in
  e ;;
  if i2 then
    ifE (setz o) (E32 (ADDI .| w .| RD EQUAL_FLAG .| RS1 src1 .| IMM_I (- src2))) ;;
    ifE (negb u) (add_imm w dst src1 (- src2))
  else
    ifE (setz o) (E32 (SUB .| w .| RD EQUAL_FLAG .| RS1 src1 .| RS2 src2)) ;;
    ifE (negb u) (sub_reg w dst src1 src2).
(** SLJIT_SUB, :2204-2259: the other flag types *)
Definition so_sub_other (o : op) (i2 u : bool) (dst src1 src2 : Z) : em :=
  let w := word o in
  let is_overflow := is_v o VOverflow in
  let is_carry := is_v o VCarry in
  let needed := negb u || has_v o in
  (if i2 then
     (if is_overflow then so_overflow_pre src1 src2
      else ifE (setz o) (E32 (ADDI .| w .| RD EQUAL_FLAG .| RS1 src1 .| IMM_I (- src2)))) ;;
     ifE (is_overflow || is_carry) (E32 (SLTUI .| RD OTHER_FLAG .| RS1 src1 .| IMM_I src2)) ;;
     ifE needed (add_imm w dst src1 (- src2))
   else
     (if is_overflow then E32 (XOR .| RD EQUAL_FLAG .| RS1 src1 .| RS2 src2)
      else ifE (setz o) (E32 (SUB .| w .| RD EQUAL_FLAG .| RS1 src1 .| RS2 src2))) ;;
     ifE (is_overflow || is_carry) (E32 (SLTU .| RD OTHER_FLAG .| RS1 src1 .| RS2 src2)) ;;
     ifE needed (sub_reg w dst src1 src2)) ;;
  ifE is_overflow (so_overflow o dst).
(** SLJIT_SUB, :2131-2259 *)
Definition so_sub (o : op) (i2 u : bool) (dst src1 src2 : Z) : em :=
  let '(e, i2, src2) := so_sub_pre i2 src2 in
  e ;;
  match vf o with
  | VLess | VGreater | VSigLess | VSigGreater => so_sub_cmp o i2 u dst src1 src2
  | _ => so_sub_other o i2 u dst src1 src2
  end.
(** SLJIT_SUBC, :2261-2297 *)
Definition so_subc (o : op) (i2 : bool) (dst src1 src2 : Z) : em :=
  let w := word o in
  let is_carry := is_v o VCarry in
  let '(e, i2, src2) := so_sub_pre i2 src2 in
  e ;;
  (if i2 then
     ifE is_carry (E32 (SLTUI .| RD EQUAL_FLAG .| RS1 src1 .| IMM_I src2)) ;;
     add_imm w dst src1 (- src2)
   else
     ifE is_carry (E32 (SLTU .| RD EQUAL_FLAG .| RS1 src1 .| RS2 src2)) ;;
     sub_reg w dst src1 src2) ;;
  ifE is_carry (E32 (SLTU .| RD TMP_REG1 .| RS1 dst .| RS2 OTHER_FLAG)) ;;
  E32 (SUB .| w .| RD dst .| RS1 dst .| RS2 OTHER_FLAG) ;;
  ifE is_carry (E32 (OR .| RD OTHER_FLAG .| RS1 EQUAL_FLAG .| RS2 TMP_REG1)).

(** SLJIT_MUL, :2299-2320 *)
Definition so_mul (o : op) (dst src1 src2 : Z) : em :=
  if negb (is_v o VOverflow) then E32 (MUL .| word o .| RD dst .| RS1 src1 .| RS2 src2)
  else if f32 o then
    E32 (MUL .| RD OTHER_FLAG .| RS1 src1 .| RS2 src2) ;;
    E32 (MUL .| 8 .| RD dst .| RS1 src1 .| RS2 src2) ;;
    E32 (SUB .| RD OTHER_FLAG .| RS1 dst .| RS2 OTHER_FLAG)
  else
    E32 (MULH .| RD EQUAL_FLAG .| RS1 src1 .| RS2 src2) ;;
    E32 (MUL .| RD dst .| RS1 src1 .| RS2 src2) ;;
    E32 (SRAI .| RD OTHER_FLAG .| RS1 dst .| IMM_I 63) ;;
    E32 (SUB .| RD OTHER_FLAG .| RS1 EQUAL_FLAG .| RS2 OTHER_FLAG).

(** SLJIT_SHL ... SLJIT_MASHR, :2334-2350 and 2401-2424 *)
Definition so_shift (o : op) (i2 u : bool) (op_imm op_reg dst src1 src2 : Z) : em :=
  let w := word o in
  if i2 then
    ifE (setz o) (E32 (op_imm .| w .| RD EQUAL_FLAG .| RS1 src1 .| IMM_I src2)) ;;
    ifE (negb u)
      (if cC c && (w =? 0) && (dst =? src1) && (op_imm =? SLLI) then E16 (C_SLLI .| C_RD dst .| C_IMM_I src2)
       else if cC c && (w =? 0) && (dst =? src1) && C_IS_R3 dst
       then E16 ((if op_imm =? SRLI then C_SRLI else C_SRAI) .| C_RS1_R3 dst .| C_IMM_I src2)
       else E32 (op_imm .| w .| RD dst .| RS1 src1 .| IMM_I src2))
  else
    ifE (setz o) (E32 (op_reg .| w .| RD EQUAL_FLAG .| RS1 src1 .| RS2 src2)) ;;
    ifE (negb u) (E32 (op_reg .| w .| RD dst .| RS1 src1 .| RS2 src2)).

(** SLJIT_ROTL, SLJIT_ROTR, :2352-2395 *)
Definition so_rot (o : op) (left i2 : bool) (dst src1 src2 : Z) : em :=
  let w := word o in
  let word_size := if f32 o then 32 else 64 in
  if i2 then
    if cB c then E32 (RORI .| w .| RD dst .| RS1 src1 .| IMM_I (if left then word_size - src2 else src2))
    else
      E32 ((if left then SLLI else SRLI) .| w .| RD OTHER_FLAG .| RS1 src1 .| IMM_I src2) ;;
      E32 ((if left then SRLI else SLLI) .| w .| RD dst .| RS1 src1 .| IMM_I (word_size - src2)) ;;
      E32 (OR .| RD dst .| RS1 dst .| RS2 OTHER_FLAG)
  else if cB c then E32 ((if left then ROL else ROR) .| w .| RD dst .| RS1 src1 .| RS2 src2)
  else if src2 =? TMP_ZERO then
    ifE (negb (dst =? src1)) (E32 (ADDI .| w .| RD dst .| RS1 src1 .| IMM_I 0))
  else
    E32 (SUB .| w .| RD EQUAL_FLAG .| RS1 TMP_ZERO .| RS2 src2) ;;
    E32 ((if left then SLL else SRL) .| w .| RD OTHER_FLAG .| RS1 src1 .| RS2 src2) ;;
    E32 ((if left then SRL else SLL) .| w .| RD dst .| RS1 src1 .| RS2 EQUAL_FLAG) ;;
    E32 (OR .| RD dst .| RS1 dst .| RS2 OTHER_FLAG).

(** sljitNativeRISCV_common.c:1886-2425.  The SLJIT_ASSERTs are not modelled; the cases of opcodes that never
    reach this function (SLJIT_MOV_P, SLJIT_MOV32) are SLJIT_UNREACHABLE. *)
Definition emit_single_op (o : op) (i2 u rr : bool) (dst src1 src2 : Z) : em :=
  match kind o with
  | K1 O_MOV => so_mov dst src2
  | K1 O_MOV_U8 => so_mov_u8 rr dst src2
  | K1 O_MOV_S8 => so_mov_ext o rr SEXTB SRAI 24 dst src2
  | K1 O_MOV_U16 => so_mov_ext o rr ZEXTH SRLI 16 dst src2
  | K1 O_MOV_S16 => so_mov_ext o rr SEXTH SRAI 16 dst src2
  | K1 O_MOV_U32 => so_mov_u32 rr dst src2
  | K1 O_MOV_S32 => so_mov_s32 rr dst src2
  | K1 O_CLZ => so_clz_ctz o true dst src2
  | K1 O_CTZ => so_clz_ctz o false dst src2
  | K1 O_REV | K1 O_REV_S32 | K1 O_REV_U32 => so_rev o dst src2
  | K1 O_REV_U16 | K1 O_REV_S16 => so_rev16 o dst src2
  | K2 O_ADD => so_add o i2 u dst src1 src2
  | K2 O_ADDC => so_addc o i2 dst src1 src2
  | K2 O_SUB => so_sub o i2 u dst src1 src2
  | K2 O_SUBC => so_subc o i2 dst src1 src2
  | K2 O_MUL => so_mul o dst src1 src2
  | K2 O_AND => emit_logical o i2 u ANDI C_ANDI AND C_AND dst src1 src2
  | K2 O_OR => emit_logical o i2 u ORI 0 OR C_OR dst src1 src2
  | K2 O_XOR => emit_logical o i2 u XORI 0 XOR C_XOR dst src1 src2
  | K2 O_SHL | K2 O_MSHL => so_shift o i2 u SLLI SLL dst src1 src2
  | K2 O_LSHR | K2 O_MLSHR => so_shift o i2 u SRLI SRL dst src1 src2
  | K2 O_ASHR | K2 O_MASHR => so_shift o i2 u SRAI SRA dst src1 src2
  | K2 O_ROTL => so_rot o true i2 dst src1 src2
  | K2 O_ROTR => so_rot o false i2 dst src1 src2
  | _ => ENop
  end.

(** ** emit_op *)

(** The flags argument of emit_op: data size and sign, ALT_KEEP_CACHE, CUMULATIVE_OP, IMM_OP, MOVE_OP,
    sljitNativeRISCV_common.c:1103-1131. *)
Record oflags := mkF { o_mem : Z; o_keep : bool; o_cumul : bool; o_immop : bool; o_move : bool }.
(** a usable immediate operand: w != 0 && w <= SIMM_MAX && w >= SIMM_MIN (:2463, 2467) *)
Definition simm (w : Z) : bool := negb (w =? 0) && (w <=? SIMM_MAX) && (w >=? SIMM_MIN).
(** next_arg, next_argw of getput_arg: only memory operands matter (:1590-1593) *)
Definition next_of (a : arg) (w : Z) : option (Z * Z * Z) := match a with AMem b o => Some (b, o, w) | _ => None end.
(** can_cache (:1558-1579) for two operands known to be memory operands *)
Definition can_cache_a (a : arg) (w : Z) (a' : arg) (w' : Z) : bool :=
  match a, a' with AMem b o, AMem b' o' => can_cache b o w b' o' w' | _, _ => false end.
(** getput_arg (:1582-1682) for an operand known to be a memory operand *)
Definition getput_a (tmp2 : bool) (flags reg : Z) (a : arg) (w : Z) (next : option (Z * Z * Z)) (k : cache) : em * cache :=
  match a with AMem b o => getput_arg c tmp2 flags reg b o w next k | _ => (ENop, k) end.
(** the operand is a memory operand that needs more than one instruction: !getput_arg_fast(ARG_TEST), :1539-1552, 2459, 2494, 2523 *)
Definition is_slow (a : arg) (w : Z) : bool := match a with AMem _ o => negb (fast_ok o w) | _ => false end.
(** GET_OPCODE(op) >= SLJIT_OP2_BASE, :2441 *)
Definition is_op2 (o : op) : bool := match kind o with K2 _ => true | _ => false end.
(** dst == 0, :2448 *)
Definition is_unused (a : arg) : bool := match a with AReg r => r =? 0 | _ => false end.

(** :2462-2477 the choice of the immediate operand: SRC2_IMM, its value, and the operands after the swap *)
Definition op_imms (fl : oflags) (src1 : arg) (src1w : Z) (src2 : arg) (src2w : Z) : bool * Z * (arg * Z) * (arg * Z) :=
  if o_immop fl && is_imm src2 && simm src2w then (true, src2w, (src1, src1w), (src2, src2w))
  else if o_immop fl && o_cumul fl && is_imm src1 && simm src1w then (true, src1w, (src2, src2w), (AImm, src2w))
  else (false, 0, (src1, src1w), (src2, src2w)).
(** :2479-2496 Source 1: code and register *)
Definition op_src1 (ld : Z) (src1 : arg) (src1w : Z) : em * Z :=
  match src1 with
  | AReg r => (ENop, r)
  | AImm => if negb (src1w =? 0) then (load_immediate c TMP_REG1 src1w TMP_REG3, TMP_REG1) else (ENop, TMP_ZERO)
  | AMem b offs => (ifE (fast_ok offs src1w) (push_mem_inst c ld TMP_REG1 b src1w), TMP_REG1)
  end.
(** :2498-2525 Source 2: code, src2_r *)
Definition op_src2 (ld : Z) (i2 : bool) (imm tmp : Z) (src2 : arg) (src2w : Z) : em * Z :=
  match src2 with
  | AReg r => (ENop, r)
  | AImm =>
    if i2 then (ENop, imm)
    else if negb (src2w =? 0) then (load_immediate c tmp src2w TMP_REG3, tmp) else (ENop, TMP_ZERO)
  | AMem b offs => (ifE (fast_ok offs src2w) (push_mem_inst c ld tmp b src2w), tmp)
  end.
(** :2527-2540 the operands that were not loaded by one instruction *)
Definition op_slow (ld : Z) (src1_r tmp : Z) (dst : arg) (dstw : Z) (src1 : arg) (src1w : Z) (src2 : arg) (src2w : Z) (k : cache) : em * cache :=
  let s1 := is_slow src1 src1w in
  let s2 := is_slow src2 src2w in
  if s1 && s2 then
    if is_slow dst dstw && negb (can_cache_a src2 src2w src1 src1w) && can_cache_a src2 src2w dst dstw then
      let '(e1, k) := getput_a false ld TMP_REG1 src1 src1w (next_of src2 src2w) k in
      let '(e2, k) := getput_a true ld TMP_REG2 src2 src2w (next_of dst dstw) k in
      (e1 ;; e2, k)
    else
      let '(e1, k) := getput_a false ld TMP_REG2 src2 src2w (next_of src1 src1w) k in
      let '(e2, k) := getput_a false ld TMP_REG1 src1 src1w (next_of dst dstw) k in
      (e1 ;; e2, k)
  else if s1 then getput_a false ld TMP_REG1 src1 src1w (next_of dst dstw) k
  else if s2 then getput_a (src1_r =? TMP_REG1) ld tmp src2 src2w (next_of dst dstw) k
  else (ENop, k).
(** :2544-2552 the destination *)
Definition op_dst (fl dst_r : Z) (dst : arg) (dstw : Z) (k : cache) : em * cache :=
  match dst with
  | AMem b offs => if fast_ok offs dstw then (push_mem_inst c fl dst_r b dstw, k) else getput_arg c false fl dst_r b offs dstw None k
  | _ => (ENop, k)
  end.

(** sljitNativeRISCV_common.c:2429-2553.  dst == 0 (no destination) is [AReg 0]. *)
Definition emit_op (o : op) (fl : oflags) (dst : arg) (dstw : Z) (src1 : arg) (src1w : Z) (src2 : arg) (src2w : Z)
    (k : cache) : em * cache :=
  let k := if o_keep fl then k else no_cache in
  let u := is_unused dst in
  let reg_dest := match dst with AReg _ => negb u | _ => false end in
  let dst_r := match dst with AReg r => if u then TMP_REG2 else r | _ => TMP_REG2 end in
  let tmp := if reg_dest && o_move fl then dst_r else if is_op2 o && is_reg src1 then TMP_REG1 else TMP_REG2 in
  let ld := o_mem fl .| LOAD_DATA in
  let '(i2, imm, (src1, src1w), (src2, src2w)) := op_imms fl src1 src1w src2 src2w in
  let '(e1, src1_r) := op_src1 ld src1 src1w in
  let '(e2, src2_r) := op_src2 ld i2 imm tmp src2 src2w in
  let zero := is_imm src2 && negb i2 && (src2w =? 0) && o_move fl in
  let dst_r := if is_reg src2 && negb reg_dest && o_move fl then src2_r
               else if zero && is_mem dst then 0 else dst_r in
  let o := if zero && negb (is_mem dst) then mkOp (K1 O_MOV) false false VNone else o in
  let '(e3, k) := op_slow ld src1_r tmp dst dstw src1 src1w src2 src2w k in
  let '(e4, k) := op_dst (o_mem fl) dst_r dst dstw k in
  (e1 ;; e2 ;; e3 ;; emit_single_op o i2 u (reg_dest && is_reg src2) dst_r src1_r src2_r ;; e4, k).

(** ** The API functions.  CHECK_ERROR/CHECK and the serialisation of errors are not modelled here;
    ADJUST_LOCAL_OFFSET (sljitLir.c:341) is the identity because SLJIT_LOCALS_OFFSET is 0 (sljitConfigInternal.h:728). *)

(** sljitNativeRISCV_common.c:2605-2669 *)
Definition emit_op1 (o1 : op1k) (is32 : bool) (dst : arg) (dstw : Z) (src : arg) (srcw : Z) : em :=
  let i := is_imm src in
  let go o mem move srcw := fst (emit_op o (mkF mem false false false move) dst dstw (AReg TMP_ZERO) 0 src srcw no_cache) in
  let o := mkOp (K1 o1) is32 false VNone in
  let flags := if is32 then INT_DATA .| SIGNED_DATA else 0 in
  match o1 with
  | O_MOV | O_MOV_P => go (mkOp (K1 O_MOV) false false VNone) WORD_DATA true srcw
  | O_MOV_U32 => go (mkOp (K1 O_MOV_U32) false false VNone) INT_DATA true (if i then u32 srcw else srcw)
  | O_MOV_S32 | O_MOV32 => go (mkOp (K1 O_MOV_S32) false false VNone) (INT_DATA .| SIGNED_DATA) true (if i then s32 srcw else srcw)
  | O_MOV_U8 => go o BYTE_DATA true (if i then srcw mod 2 ^ 8 else srcw)
  | O_MOV_S8 => go o (BYTE_DATA .| SIGNED_DATA) true (if i then sext 8 srcw else srcw)
  | O_MOV_U16 => go o HALF_DATA true (if i then srcw mod 2 ^ 16 else srcw)
  | O_MOV_S16 => go o (HALF_DATA .| SIGNED_DATA) true (if i then sext 16 srcw else srcw)
  | O_CLZ | O_CTZ | O_REV => go o flags false srcw
  | O_REV_U16 | O_REV_S16 => go o HALF_DATA false srcw
  | O_REV_U32 | O_REV_S32 => go (mkOp (K1 o1) true false VNone) INT_DATA false srcw
  end.

(** sljitNativeRISCV_common.c:2671-2738; sljit_emit_op2u :2740-2749 is the case dst = [AReg 0].
    The result is the code and compiler->status_flags_state when it is assigned. *)
Definition emit_op2 (o : op) (dst : arg) (dstw : Z) (src1 : arg) (src1w : Z) (src2 : arg) (src2w : Z) : em :=
  let mem := if f32 o then INT_DATA .| SIGNED_DATA else 0 in
  let src1w := if f32 o && is_imm src1 then s32 src1w else src1w in
  let src2w := if f32 o && is_imm src2 then s32 src2w else src2w in
  let go cumul immop src2w := fst (emit_op o (mkF mem false cumul immop false) dst dstw src1 src1w src2 src2w no_cache) in
  match kind o with
  | K2 O_ADD | K2 O_ADDC | K2 O_AND | K2 O_OR | K2 O_XOR => go true true src2w
  | K2 O_SUB | K2 O_SUBC => go false true src2w
  | K2 O_MUL => go true false src2w
  | K2 _ => go false true (if is_imm src2 then (if f32 o then src2w .& 0x1f else src2w .& 0x3f) else src2w)
  | K1 _ => ENop
  end.

(** sljitNativeRISCV_common.c:2751-2773, SLJIT_MULADD *)
Definition emit_muladd (is32 : bool) (dst_reg : Z) (src1 : arg) (src1w : Z) (src2 : arg) (src2w : Z) : em :=
  emit_op2 (mkOp (K2 O_MUL) is32 false VNone) (AReg TMP_REG2) 0 src1 src1w src2 src2w ;;
  E32 (ADD .| (if is32 then 8 else 0) .| RD dst_reg .| RS1 dst_reg .| RS2 TMP_REG2).

(** sljitNativeRISCV_common.c:2775-2856.  left: SLJIT_SHL or SLJIT_MSHL; nz: SLJIT_SHIFT_INTO_NON_ZERO. *)
Definition emit_shift_into (left is32 nz : bool) (dst src1 src2 : Z) (src3 : arg) (src3w : Z) : em :=
  let w := if is32 then 8 else 0 in
  let bit_length := if is32 then 32 else 64 in
  if src1 =? src2 then
    emit_op2 (mkOp (K2 (if left then O_ROTL else O_ROTR)) is32 false VNone) (AReg dst) 0 (AReg src1) 0 src3 src3w
  else
    let reg e src3 :=
      e ;?
      (E32 ((if left then SLL else SRL) .| w .| RD dst .| RS1 src1 .| RS2 src3) ;;
       (if negb nz then
          E32 ((if left then SRLI else SLLI) .| w .| RD TMP_REG1 .| RS1 src2 .| IMM_I 1) ;;
          E32 (XORI .| RD TMP_REG2 .| RS1 src3 .| IMM_I (bit_length - 1))
        else E32 (SUB .| w .| RD TMP_REG2 .| RS1 TMP_ZERO .| RS2 src3)) ;;
       E32 ((if left then SRL else SLL) .| w .| RD TMP_REG1 .| RS1 (if negb nz then TMP_REG1 else src2) .| RS2 TMP_REG2) ;;
       E32 (OR .| RD dst .| RS1 dst .| RS2 TMP_REG1)) in
    match src3 with
    | AImm =>
      let n := src3w .& (bit_length - 1) in
      if n =? 0 then ENop
      else
        E32 ((if left then SLLI else SRLI) .| w .| IMM_I n .| RD dst .| RS1 src1) ;;
        E32 ((if left then SRLI else SLLI) .| w .| IMM_I (bit_length - n) .| RD TMP_REG1 .| RS1 src2) ;;
        E32 (OR .| RD dst .| RS1 dst .| RS2 TMP_REG1)
    | AMem b offs =>
      (* the result of emit_op_mem is checked: FAIL_IF *)
      emit_op_mem c ((if is32 then INT_DATA else WORD_DATA) .| LOAD_DATA) TMP_REG2 b offs src3w ;; reg ENop TMP_REG2
    | AReg r =>
      if dst =? r then reg (E32 (ADDI .| w .| RD TMP_REG2 .| RS1 r .| IMM_I 0)) TMP_REG2 else reg ENop r
    end.

End Op.
