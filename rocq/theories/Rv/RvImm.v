(** Loading constants: sljitNativeRISCV_64.c. *)
Require Import ZArith List Bool Lia.
From Verif Require Import Rv.RvLib Rv.RvEnc.
Import ListNotations.
Open Scope Z_scope.

Section Imm.
Variable c : cfg.

(** sljitNativeRISCV_64.c:47, 165: the operand of C_LUI *)
Definition c_lui_imm (imm : Z) : Z := u16 (Z.shiftr (imm .& 0x1f000) 10) .| Z.shiftr (imm .& 0x20000) 5.

(** sljitNativeRISCV_64.c:27-64 *)
Definition load_immediate32 (dst_r imm : Z) : em :=
  if imm >? S32_MAX then
    E32 (LUI .| RD dst_r .| 0x80000000) ;;
    E32 (XORI .| RD dst_r .| RS1 dst_r .| IMM_I imm)
  else if cC c && (imm <=? 0x1ffff) && (imm >=? -0x20000) && (imm >? 0x1f7ff) then
    E16 (C_LUI .| C_RD dst_r .| 0x1000) ;;
    E32 (XORI .| RD dst_r .| RS1 dst_r .| IMM_I imm)
  else
    let imm' := if negb (imm .& 0x800 =? 0) then imm + 0x1000 else imm in
    let lo := imm' .& 0xfff in
    (if cC c && (imm <=? 0x1ffff) && (imm >=? -0x20000)
     then E16 (C_LUI .| C_RD dst_r .| c_lui_imm imm')
     else E32 (LUI .| RD dst_r .| u32 (imm' .& Z.lnot 0xfff))) ;;
    (if lo =? 0 then ENop
     else if cC c && ((lo <=? 0x1f) || (lo >=? 0xfe0))
     then E16 (C_ADDI .| C_RD dst_r .| C_IMM_I lo)
     else E32 (ADDI .| RD dst_r .| RS1 dst_r .| IMM_I lo)).

(** sljitNativeRISCV_64.c:81-86: the loop that drops zero bytes; at most 8 rounds for a non-zero value. *)
Fixpoint drop_bytes (fuel : nat) (high shift : Z) : Z * Z :=
  match fuel with
  | O => (high, shift)
  | S n => if high .& 0xff =? 0 then drop_bytes n (Z.shiftr high 8) (shift + 8) else (high, shift)
  end.
(** sljitNativeRISCV_64.c:81-101 *)
Definition trailing (imm : Z) : Z * Z :=
  let '(h, s) := drop_bytes 8 imm 0 in
  let '(h, s) := if h .& 0xf =? 0 then (Z.shiftr h 4, s + 4) else (h, s) in
  let '(h, s) := if h .& 0x3 =? 0 then (Z.shiftr h 2, s + 2) else (h, s) in
  if h .& 0x1 =? 0 then (Z.shiftr h 1, s + 1) else (h, s).

(** sljitNativeRISCV_64.c:132-193 *)
Definition load_immediate64 (dst_r imm0 tmp_r : Z) : em :=
  let imm := s32 imm0 in
  let high := Z.shiftr imm0 32 in
  let high := if negb (imm .& 0x80000000 =? 0) then Z.lnot high else high in
  let '(e1, high) :=
    if (high <=? 0x7ffff) && (high >=? -0x80000) then
      (E32 (LUI .| RD tmp_r .| u32 (Z.shiftl high 12)), 0x1000)
    else
      let high := if negb (high .& 0x800 =? 0) then high + 0x1000 else high in
      (E32 (LUI .| RD tmp_r .| u32 (high .& Z.lnot 0xfff)), high .& 0xfff) in
  let '(e2, imm) :=
    if (imm <=? SIMM_MAX) && (imm >=? SIMM_MIN) then
      (if cC c && (imm <=? 0x1f) && (imm >=? -0x20)
       then E16 (C_LI .| C_RD dst_r .| C_IMM_I imm)
       else E32 (ADDI .| RD dst_r .| RS1 TMP_ZERO .| IMM_I imm), 0)
    else if imm >? S32_MAX then
      (E32 (LUI .| RD dst_r .| 0x80000000), 0x1000 .| (imm .& 0xfff))
    else
      let imm := if negb (imm .& 0x800 =? 0) then imm + 0x1000 else imm in
      (if cC c && (imm <=? 0x1ffff) && (imm >=? -0x20000)
       then E16 (C_LUI .| C_RD dst_r .| c_lui_imm imm)
       else E32 (LUI .| RD dst_r .| u32 (imm .& Z.lnot 0xfff)), imm .& 0xfff) in
  e1 ;; e2 ;;
  (if negb (high .& 0xfff =? 0)
   then (if cC c && ((high <=? 0x1f) || (high >=? 0xfe0))
         then E16 (C_ADDI .| C_RD tmp_r .| C_IMM_I high)
         else E32 (ADDI .| RD tmp_r .| RS1 tmp_r .| IMM_I high))
   else ENop) ;;
  (if negb (imm .& 0x1000 =? 0)
   then E32 (XORI .| RD dst_r .| RS1 dst_r .| IMM_I imm)
   else if negb (imm =? 0)
   then (if cC c && ((imm <=? 0x1f) || (imm >=? 0xfe0))
         then E16 (C_ADDI .| C_RD dst_r .| C_IMM_I imm)
         else E32 (ADDI .| RD dst_r .| RS1 dst_r .| IMM_I imm))
   else ENop) ;;
  (if cC c
   then E16 (C_SLLI .| C_RD tmp_r .| u16 (if negb (high .& 0x1000 =? 0) then Z.shiftl 20 2 else Z.shiftl 1 12))
   else E32 (SLLI .| RD tmp_r .| RS1 tmp_r .| IMM_I (if negb (high .& 0x1000 =? 0) then 20 else 32))) ;;
  E32 (XOR .| RD dst_r .| RS1 dst_r .| RS2 tmp_r).

(** sljitNativeRISCV_64.c:66-128.  The nested call (line 104) ignores the return value; its argument is in
    the 32 bit range, so it does not nest further: [load_immediate_small] is its part before line 79. *)
Definition load_immediate_small (dst_r imm : Z) (other : em) : em :=
  if cC c && (imm <=? SIMM16_MAX) && (imm >=? SIMM16_MIN) then
    E16 (C_LI .| C_RD dst_r .| C_IMM_I imm)
  else if (imm <=? SIMM_MAX) && (imm >=? SIMM_MIN) then
    E32 (ADDI .| RD dst_r .| RS1 TMP_ZERO .| IMM_I imm)
  else if (imm <=? 0x7fffffff) && (imm >=? S32_MIN) then
    load_immediate32 dst_r imm
  else other.

(** load_immediate, the whole function (sljitNativeRISCV_64.c:66-194). *)
Definition load_immediate (dst_r imm tmp_r : Z) : em :=
  load_immediate_small dst_r imm
    (let '(high, shift) := trailing imm in
     if (high <=? 0x7fffffff) && (high >=? S32_MIN) then
       load_immediate_small dst_r high ENop ;?
       (if cC c then E16 (C_SLLI .| C_RD dst_r .| C_IMM_I shift)
        else E32 (SLLI .| RD dst_r .| RS1 dst_r .| IMM_I shift))
     else if (imm <=? 0x7ffffffffff) && (imm >=? -0x80000000000) then
       let high := Z.shiftr imm 12 in
       let high := if negb (imm .& 0x800 =? 0) then Z.lnot high else high in
       load_immediate32 dst_r high ;;
       (if cC c then E16 (C_SLLI .| C_RD dst_r .| u16 (Z.shiftl 12 2))
        else E32 (SLLI .| RD dst_r .| RS1 dst_r .| IMM_I 12)) ;;
       E32 (XORI .| RD dst_r .| RS1 dst_r .| IMM_I imm)
     else load_immediate64 dst_r imm tmp_r).

(** sljitNativeRISCV_64.c:239-248 and 264-273: the two halves of a rewritable constant. *)
Definition const_low (v : Z) : Z := if negb (v .& 0x800 =? 0) then sw (v + 0x1000) else v.
(** The upper half (sljitNativeRISCV_64.c:242-246, 267-271). *)
Definition const_high (v : Z) : Z :=
  let v := const_low v in
  let high := Z.shiftr v 32 in
  let high := if negb (v .& 0x80000000 =? 0) then Z.lnot high else high in
  if negb (high .& 0x800 =? 0) then high + 0x1000 else high.

(** sljitNativeRISCV_64.c:235-256 *)
Definition emit_const (dst init_value last_ins : Z) : em :=
  let high := const_high init_value in
  let init_value := const_low init_value in
  E32 (LUI .| RD TMP_REG3 .| u32 (high .& Z.lnot 0xfff)) ;;
  E32 (ADDI .| RD TMP_REG3 .| RS1 TMP_REG3 .| IMM_I high) ;;
  E32 (LUI .| RD dst .| u32 (init_value .& Z.lnot 0xfff)) ;;
  E32 (SLLI .| RD TMP_REG3 .| RS1 TMP_REG3 .| IMM_I 32) ;;
  E32 (XOR .| RD dst .| RS1 dst .| RS2 TMP_REG3) ;;
  E32 (last_ins .| RS1 dst .| IMM_I init_value).

(** sljitNativeRISCV_64.c:258-291 (cache flush and write protection calls omitted): [inst] is the list of
    the twelve 16 bit units at [addr]; new_target is given as its signed value. [None]: an SLJIT_ASSERT of
    the function fails (or [inst] is not twelve units long). *)
Definition set_jump_addr (inst : list Z) (new_target : Z) : option (list Z) :=
  let high := const_high new_target in
  let nt := const_low new_target in
  match inst with
  | [i0; i1; i2; i3; i4; i5; i6; i7; i8; i9; i10; i11] =>
    if (i0 .& 0x7f =? LUI) && (i2 .& 0x707f =? ADDI) && (i4 .& 0x7f =? LUI)
       && ((i10 .& 0x707f =? ADDI) || (i10 .& 0x707f =? JALR)) then
    Some [u16 ((i0 .& 0xfff) .| (high .& 0xf000)); u16 (Z.shiftr high 16);
     i2; u16 ((i3 .& 0xf) .| Z.shiftl high 4);
     u16 ((i4 .& 0xfff) .| (nt .& 0xf000)); u16 (Z.shiftr nt 16);
     i6; i7; i8; i9;
     i10; u16 ((i11 .& 0xf) .| Z.shiftl nt 4)]
    else None
  | _ => None
  end.

(** Operations of sljit_emit_const (sljitLir.h:2390-2402): SLJIT_MOV, SLJIT_MOV32, SLJIT_MOV_S32, SLJIT_MOV_U8. *)
Inductive const_op := CMov | CMov32 | CMovS32 | CMovU8.

(** sljitNativeRISCV_common.c:4507-4510, 4591-4594 *)
Definition const_u8 (v : Z) : Z := if negb (v .& 0x100 =? 0) then v .| 0xf00 else v .& 0xff.
(** sljitNativeRISCV_common.c:4521-4522, 4609-4610 *)
Definition const_s32 (v : Z) : Z := if negb (v .& 0x800 =? 0) then Z.lxor v (Z.lnot 0xfff) else v.

(** sljitNativeRISCV_common.c:4503-4532: the instructions of sljit_emit_const; [dst_r] is the destination
    register, or TMP_REG2 when the destination is in memory (the store follows). *)
Definition emit_const_op (op : const_op) (dst_r init_value : Z) : em :=
  match op with
  | CMovU8 => E32 (ADDI .| RD dst_r .| IMM_I (const_u8 init_value))
  | CMov32 | CMovS32 =>
    let v := const_s32 init_value in
    E32 (LUI .| RD dst_r .| u32 (v .& Z.lnot 0xfff)) ;;
    E32 (XORI .| RD dst_r .| RS1 dst_r .| IMM_I v)
  | CMov => emit_const dst_r init_value (ADDI .| RD dst_r)
  end.

(** sljitNativeRISCV_common.c:4582-4626 (sljit_set_const): [inst] are the units of the constant. *)
Definition set_const (op : const_op) (inst : list Z) (new_constant : Z) : option (list Z) :=
  match op with
  | CMovU8 =>
    match inst with
    | [i0; i1] =>
      if i0 .& 0x707f =? ADDI then Some [i0; u16 (Z.shiftl (const_u8 new_constant) 4) .| (i1 .& 0xf)] else None
    | _ => None
    end
  | CMov32 | CMovS32 =>
    let v := const_s32 new_constant in
    match inst with
    | [i0; i1; i2; i3] =>
      if (i0 .& 0x7f =? LUI) && (i2 .& 0x707f =? XORI) then
        Some [u16 ((i0 .& 0xfff) .| (v .& 0xf000)); u16 (Z.shiftr v 16); i2; u16 (Z.shiftl v 4) .| (i3 .& 0xf)]
      else None
    | _ => None
    end
  | CMov => set_jump_addr inst new_constant
  end.
End Imm.
