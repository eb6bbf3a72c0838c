(** Model of the integer operators of the x86-64 backend: sljit_src/sljitNativeX86_common.c ("X86C") and emit_mov_int of
    sljit_src/sljitNativeX86_64.c ("X64"), the SLJIT_CONFIG_X86_64 branches.

    Simplifications: operands and flags as in X86Emit.v; the operands are those after ADJUST_LOCAL_OFFSET (X86C:1901, 2686);
    compiler->mode32 is the argument [m]; the code is returned as a list of bytes ([None]: see X86Emit.v). *)
Require Import ZArith List Bool Lia.
From Verif Require Import Rv.RvLib Rv.RvMem Rv.RvOp X86.X86Emit.
Import ListNotations.
Open Scope Z_scope.

(** Emission one after the other. *)
Definition cat (a b : option (list Z)) : option (list Z) := match a, b with Some x, Some y => Some (x ++ y) | _, _ => None end.
Infix "+++" := cat (at level 60, right associativity).
(** dst == src (the encoded operands are compared as integers: sljitLir.h:1045-1064) *)
Definition arg_eqb (a b : arg) : bool :=
  match a, b with
  | AReg x, AReg y => x =? y
  | AImm, AImm => true
  | AMem x y, AMem x' y' => (x =? x') && (y =? y')
  | _, _ => false
  end.
(** sljitLir.c:126 FAST_IS_REG *)
Definition is_reg (a : arg) : bool := match a with AReg _ => true | _ => false end.
Definition is_mem (a : arg) : bool := match a with AMem _ _ => true | _ => false end.
Definition reg_of (a : arg) : Z := match a with AReg r => r | _ => 0 end.
(** sljitLir.c:919 ADDRESSING_DEPENDS_ON *)
Definition depends (a : arg) (r : Z) : bool := match a with AMem b o => (b =? r) || (o =? r) | _ => false end.

Section Win.
(** _WIN64 *)
Variable w : bool.

(** inst = emit_x86_instruction(compiler, f, a, imma, b, immb); FAIL_IF(!inst); *inst = op; (e.g. X86C:1335-1338) *)
Definition ins (m : bool) (f : xf) (op : Z) (a : arg) (imma : Z) (b : arg) (immb : Z) : option (list Z) :=
  option_map (put1 op) (emit_x86 w m f a imma b immb).
(** the same with *inst++ = op; *inst |= d (X86C:1695-1698) *)
Definition insd (m : bool) (op d : Z) (a : arg) (imma : Z) (b : arg) (immb : Z) : option (list Z) :=
  option_map (put1d op d) (emit_x86 w m (fl 1) a imma b immb).
(** X86C:3124-3133 emit_groupf (the flags in op: at most EX86_PREF_F3 here) *)
Definition groupf (m f3 : bool) (op dst : Z) (src : arg) (srcw : Z) : option (list Z) :=
  option_map (put2 0x0f op) (emit_x86 w m (if f3 then with_f3 (fl 2) else fl 2) (AReg dst) 0 src srcw).
(** X86C:1109-1114 BINARY_IMM32 *)
Definition binary_imm32 (m : bool) (d immw : Z) (a : arg) (aw : Z) : option (list Z) :=
  option_map (putf d) (emit_x86 w m (with_bin (fl 1)) AImm immw a aw).
(** X86C:1118-1129 BINARY_IMM *)
Definition binary_imm (m : bool) (d op_mr immw : Z) (a : arg) (aw : Z) : option (list Z) :=
  if is_halfword immw || m then binary_imm32 m d immw a aw
  else let t := if is_reg a then TMP_REG2 else TMP_REG1 in Some (load_imm64 w t immw) +++ ins m (fl 1) op_mr (AReg t) 0 a aw.
(** X86C:1131-1132 BINARY_EAX_IMM *)
Definition binary_eax_imm (m : bool) (op immw : Z) : option (list Z) := Some (do_imm32 (if m then 0 else REX_W) op immw).

(** X86C:1328-1386 emit_mov *)
Definition emit_mov (m : bool) (dst : arg) (dstw : Z) (src : arg) (srcw : Z) : option (list Z) :=
  match src with
  | AReg r => ins m (fl 1) 0x89 src 0 dst dstw
  | AImm =>
    match dst with
    | AReg d =>
      if negb m then
        (if not_halfword srcw then Some (load_imm64 w d srcw) else ins m (fl 1) 0xc7 AImm srcw dst dstw)
      else Some (do_imm32 (if 8 <=? reg_map w d then REX_B else 0) (u8 (Z.lor 0xb8 (reg_lmap w d))) srcw)
    | _ =>
      if negb m && not_halfword srcw then Some (load_imm64 w TMP_REG1 srcw) +++ ins m (fl 1) 0x89 (AReg TMP_REG1) 0 dst dstw
      else ins m (fl 1) 0xc7 AImm srcw dst dstw
    end
  | AMem _ _ =>
    match dst with
    | AReg _ => ins m (fl 1) 0x8b dst 0 src srcw
    | _ => ins m (fl 1) 0x8b (AReg TMP_REG1) 0 src srcw +++ ins m (fl 1) 0x89 (AReg TMP_REG1) 0 dst dstw
    end
  end.

(** BINARY_OPCODE, X86C:1107 with the opcodes X86C:173-366 *)
Record bop := mkB { b_eax : Z; b_rm : Z; b_mr : Z; b_imm : Z }.
Definition B_ADD := mkB 0x05 0x03 0x01 0x00.
Definition B_OR := mkB 0x0d 0x0b 0x09 0x08.
Definition B_ADC := mkB 0x15 0x13 0x11 0x10.
Definition B_SBB := mkB 0x1d 0x1b 0x19 0x18.
Definition B_AND := mkB 0x25 0x23 0x21 0x20.
Definition B_SUB := mkB 0x2d 0x2b 0x29 0x28.
Definition B_XOR := mkB 0x35 0x33 0x31 0x30.
Definition B_CMP := mkB 0x3d 0x3b 0x39 0x38.

(** X86C:2045-2072, 2141-... : dst op= src, dst is the first operand as well. *)
Definition same_dst (m : bool) (b : bop) (dst : arg) (dstw : Z) (src : arg) (srcw : Z) : option (list Z) :=
  match src with
  | AImm =>
    if arg_eqb dst (AReg R0) && ((127 <? srcw) || (srcw <? -128)) && (m || is_halfword srcw) then binary_eax_imm m (b_eax b) srcw
    else binary_imm m (b_imm b) (b_mr b) srcw dst dstw
  | _ =>
    if is_reg dst then ins m (fl 1) (b_rm b) dst dstw src srcw
    else if is_reg src then ins m (fl 1) (b_mr b) src srcw dst dstw
    else emit_mov m (AReg TMP_REG1) 0 src srcw +++ ins m (fl 1) (b_mr b) (AReg TMP_REG1) 0 dst dstw
  end.
(** X86C:2109-2121, 2184-2193: the general version on a register. *)
Definition gen_reg (m : bool) (b : bop) (dst : Z) (src1 : arg) (src1w : Z) (src2 : arg) (src2w : Z) : option (list Z) :=
  emit_mov m (AReg dst) 0 src1 src1w +++
  match src2 with
  | AImm => binary_imm m (b_imm b) (b_mr b) src2w (AReg dst) 0
  | _ => ins m (fl 1) (b_rm b) (AReg dst) 0 src2 src2w
  end.
(** X86C:2033-2138 emit_cum_binary *)
Definition emit_cum_binary (m : bool) (b : bop) (dst : arg) (dstw : Z) (src1 : arg) (src1w : Z) (src2 : arg) (src2w : Z) : option (list Z) :=
  if arg_eqb dst src1 && (dstw =? src1w) then same_dst m b dst dstw src2 src2w
  else if arg_eqb dst src2 && (dstw =? src2w) then same_dst m b dst dstw src1 src1w
  else if is_reg dst then gen_reg m b (reg_of dst) src1 src1w src2 src2w
  else gen_reg m b TMP_REG1 src1 src1w src2 src2w +++ emit_mov m dst dstw (AReg TMP_REG1) 0.
(** X86C:2140-2211 emit_non_cum_binary *)
Definition emit_non_cum_binary (m : bool) (b : bop) (dst : arg) (dstw : Z) (src1 : arg) (src1w : Z) (src2 : arg) (src2w : Z) : option (list Z) :=
  if arg_eqb dst src1 && (dstw =? src1w) then same_dst m b dst dstw src2 src2w
  else if is_reg dst && negb (arg_eqb dst src2) then gen_reg m b (reg_of dst) src1 src1w src2 src2w
  else gen_reg m b TMP_REG1 src1 src1w src2 src2w +++ emit_mov m dst dstw (AReg TMP_REG1) 0.

(** X86C:1687-1719 emit_unary *)
Definition emit_unary (m : bool) (d : Z) (dst : arg) (dstw : Z) (src : arg) (srcw : Z) : option (list Z) :=
  if arg_eqb dst src && (dstw =? srcw) then insd m 0xf7 d (AReg 0) 0 dst dstw
  else if is_reg dst then emit_mov m dst 0 src srcw +++ insd m 0xf7 d (AReg 0) 0 dst 0
  else emit_mov m (AReg TMP_REG1) 0 src srcw +++ insd m 0xf7 d (AReg 0) 0 (AReg TMP_REG1) 0 +++ emit_mov m dst dstw (AReg TMP_REG1) 0.

(** X86C:2226-2252, 2267-2290: multiplication of an operand by an immediate. *)
Definition mul_imm (m : bool) (d : Z) (src : arg) (srcw immw : Z) : option (list Z) :=
  if disp8 immw then ins m (fl 1) 0x6b (AReg d) 0 src srcw +++ Some [u8 immw]
  else if is_halfword immw then ins m (fl 1) 0x69 (AReg d) 0 src srcw +++ Some (lebytes 4 immw)
  else (if arg_eqb (AReg d) src then Some [] else emit_mov m (AReg d) 0 src srcw)
       +++ Some (load_imm64 w TMP_REG2 immw) +++ groupf m false 0xaf d (AReg TMP_REG2) 0.
(** X86C:2213-2318 emit_mul *)
Definition emit_mul (m : bool) (dst : arg) (dstw : Z) (src1 : arg) (src1w : Z) (src2 : arg) (src2w : Z) : option (list Z) :=
  let d := if is_reg dst then reg_of dst else TMP_REG1 in
  (if arg_eqb (AReg d) src1 && negb (is_imm src2) then groupf m false 0xaf d src2 src2w
   else if arg_eqb (AReg d) src2 && negb (is_imm src1) then groupf m false 0xaf d src1 src1w
   else if is_imm src1 then
     (if is_imm src2 then emit_mov m (AReg d) 0 AImm src2w +++ mul_imm m d (AReg d) 0 src1w else mul_imm m d src2 src2w src1w)
   else if is_imm src2 then mul_imm m d src1 src1w src2w
   else
     let d := if depends src2 d then TMP_REG1 else d in
     emit_mov m (AReg d) 0 src1 src1w +++ groupf m false 0xaf d src2 src2w)
  +++ (if is_mem dst then emit_mov m dst dstw (AReg TMP_REG1) 0 else Some []).

(** X86C:2320-2375 emit_lea_binary; [None] stands for SLJIT_ERR_UNSUPPORTED *)
Definition emit_lea_binary (m : bool) (dst : arg) (dstw : Z) (src1 : arg) (src1w : Z) (src2 : arg) (src2w : Z) : option (option (list Z)) :=
  if arg_eqb dst src1 && (dstw =? src1w) then None
  else if arg_eqb dst src2 && (dstw =? src2w) then None
  else
    let d := if is_reg dst then reg_of dst else TMP_REG1 in
    let fin (b o imm : Z) :=
      Some (ins m (fl 1) 0x8d (AReg d) 0 (AMem b o) imm +++ (if d =? TMP_REG1 then emit_mov m dst dstw (AReg TMP_REG1) 0 else Some [])) in
    match src1, src2 with
    | AReg r1, AReg r2 => fin r1 r2 0
    | AReg r1, AImm => if m || is_halfword src2w then fin r1 0 (sext 32 src2w) else None
    | AImm, AReg r2 => if m || is_halfword src1w then fin r2 0 (sext 32 src1w) else None
    | _, _ => None
    end.

(** X86C:2377-2426 emit_cmp_binary *)
Definition emit_cmp_binary (m : bool) (src1 : arg) (src1w : Z) (src2 : arg) (src2w : Z) : option (list Z) :=
  if arg_eqb src1 (AReg R0) && is_imm src2 && ((127 <? src2w) || (src2w <? -128)) && (m || is_halfword src2w) then binary_eax_imm m 0x3d src2w
  else if is_reg src1 then
    (if is_imm src2 then binary_imm m 0x38 0x39 src2w src1 0 else ins m (fl 1) 0x3b src1 0 src2 src2w)
  else if is_reg src2 && negb (is_imm src1) then ins m (fl 1) 0x39 src2 0 src1 src1w
  else if is_imm src2 then
    (if is_imm src1 then emit_mov m (AReg TMP_REG1) 0 src1 src1w +++ binary_imm m 0x38 0x39 src2w (AReg TMP_REG1) 0
     else binary_imm m 0x38 0x39 src2w src1 src1w)
  else emit_mov m (AReg TMP_REG1) 0 src1 src1w +++ ins m (fl 1) 0x3b (AReg TMP_REG1) 0 src2 src2w.

(** X86C:2458-2468, 2485-2495, 2511-2523: test an operand that is not immediate with an immediate, [t] is the free register. *)
Definition test_imm (m : bool) (t : Z) (a : arg) (aw immw : Z) : option (list Z) :=
  if is_halfword immw || m then ins m (fl 1) 0xf7 AImm immw a aw
  else Some (load_imm64 w t immw) +++ ins m (fl 1) 0x85 (AReg t) 0 a aw.
(** X86C:2428-2535 emit_test_binary *)
Definition emit_test_binary (m : bool) (src1 : arg) (src1w : Z) (src2 : arg) (src2w : Z) : option (list Z) :=
  if arg_eqb src1 (AReg R0) && is_imm src2 && ((127 <? src2w) || (src2w <? -128)) && (m || is_halfword src2w) then binary_eax_imm m 0xa9 src2w
  else if arg_eqb src2 (AReg R0) && is_imm src1 && ((127 <? src1w) || (src1w <? -128)) && (m || is_halfword src1w) then binary_eax_imm m 0xa9 src1w
  else if negb (is_imm src1) && is_imm src2 then test_imm m (if is_reg src1 then TMP_REG2 else TMP_REG1) src1 src1w src2w
  else if negb (is_imm src1) && is_reg src1 then ins m (fl 1) 0x85 src1 0 src2 src2w
  else if negb (is_imm src2) && is_imm src1 then test_imm m TMP_REG1 src2 src2w src1w
  else if negb (is_imm src2) && is_reg src2 then ins m (fl 1) 0x85 src2 0 src1 src1w
  else emit_mov m (AReg TMP_REG1) 0 src1 src1w +++
    (if is_imm src2 then test_imm m TMP_REG2 (AReg TMP_REG1) 0 src2w else ins m (fl 1) 0x85 (AReg TMP_REG1) 0 src2 src2w).

(** inst = emit_x86_instruction(compiler, 1 | EX86_SHIFT_INS, cnt, cntw, dst, dstw); inst[1] |= mode; (X86C:2550-2553) *)
Definition shift_ins (m : bool) (mode : Z) (cnt : arg) (cntw : Z) (dst : arg) (dstw : Z) : option (list Z) :=
  option_map (putf mode) (emit_x86 w m (with_shift (fl 1)) cnt cntw dst dstw).
(** X86C:2537-2642 emit_shift *)
Definition emit_shift (m : bool) (mode : Z) (dst : arg) (dstw : Z) (src1 : arg) (src1w : Z) (src2 : arg) (src2w : Z) : option (list Z) :=
  let P := AReg PREF_SHIFT_REG in
  let T := AReg TMP_REG1 in
  if is_imm src2 || arg_eqb src2 P then
    (if arg_eqb dst src1 && (dstw =? src1w) then shift_ins m mode src2 src2w dst dstw
     else if arg_eqb dst P && arg_eqb src2 P then
       emit_mov m T 0 src1 src1w +++ shift_ins m mode P 0 T 0 +++ emit_mov m P 0 T 0
     else if is_reg dst then emit_mov m dst 0 src1 src1w +++ shift_ins m mode src2 src2w dst 0
     else emit_mov m T 0 src1 src1w +++ shift_ins m mode src2 src2w T 0 +++ emit_mov m dst dstw T 0)
  else if arg_eqb dst P then
    emit_mov m T 0 src1 src1w +++ emit_mov m P 0 src2 src2w +++ shift_ins m mode P 0 T 0 +++ emit_mov m P 0 T 0
  else if is_reg dst && negb (arg_eqb dst src2) && negb (arg_eqb dst T) && negb (depends src2 (reg_of dst)) then
    (if arg_eqb src1 dst then Some [] else emit_mov m dst 0 src1 src1w)
    +++ emit_mov false T 0 P 0 +++ emit_mov m P 0 src2 src2w +++ shift_ins m mode P 0 dst 0 +++ emit_mov false P 0 T 0
  else
    emit_mov m T 0 src1 src1w +++ emit_mov false (AReg TMP_REG2) 0 P 0 +++ emit_mov m P 0 src2 src2w +++ shift_ins m mode P 0 T 0
    +++ emit_mov false P 0 (AReg TMP_REG2) 0 +++ (if arg_eqb dst T then Some [] else emit_mov m dst dstw T 0).

(** X86C:2644-2678 emit_shift_with_flags *)
Definition emit_shift_with_flags (m : bool) (mode : Z) (set_flags : bool) (dst : arg) (dstw : Z) (src1 : arg) (src1w : Z) (src2 : arg) (src2w : Z)
  : option (list Z) :=
  match src2 with
  | AImm =>
    let c := Z.land src2w (if m then 0x1f else 0x3f) in
    if negb (c =? 0) then emit_shift m mode dst dstw src1 src1w src2 c
    else if negb set_flags then emit_mov m dst dstw src1 src1w
    else emit_cum_binary m B_OR dst dstw src1 src1w AImm 0
  | _ =>
    if negb set_flags then emit_shift m mode dst dstw src1 src1w src2 src2w
    else (if is_reg dst then Some [] else emit_cmp_binary m src1 src1w AImm 0)
      +++ emit_shift m mode dst dstw src1 src1w src2 src2w
      +++ (if is_reg dst then emit_cmp_binary m dst dstw AImm 0 else Some [])
  end.

(** sljitLir.c:102 HAS_FLAGS *)
Definition has_flags (o : op) : bool := setz o || has_v o.
(** X86C:2680-2766 sljit_emit_op2 (from the switch); -src2w of INT64_MIN overflows (undefined in C), here it wraps. *)
Definition emit_op2 (o : op) (k : op2k) (dst : arg) (dstw : Z) (src1 : arg) (src1w : Z) (src2 : arg) (src2w : Z) : option (list Z) :=
  let m := f32 o in
  match k with
  | O_ADD =>
    match (if has_flags o then None else emit_lea_binary m dst dstw src1 src1w src2 src2w) with
    | Some r => r
    | None => emit_cum_binary m B_ADD dst dstw src1 src1w src2 src2w
    end
  | O_ADDC => emit_cum_binary m B_ADC dst dstw src1 src1w src2 src2w
  | O_SUB =>
    if is_imm src1 && (src1w =? 0) then emit_unary m 0x18 dst dstw src2 src2w
    else
      match (if has_flags o || negb (is_imm src2) then None else emit_lea_binary m dst dstw src1 src1w AImm (sext 64 (- src2w))) with
      | Some r => r
      | None =>
        if negb (has_flags o) && is_reg dst && arg_eqb src2 dst then
          emit_non_cum_binary m B_SUB dst 0 dst 0 src1 src1w +++ emit_unary m 0x18 dst 0 dst 0
        else emit_non_cum_binary m B_SUB dst dstw src1 src1w src2 src2w
      end
  | O_SUBC => emit_non_cum_binary m B_SBB dst dstw src1 src1w src2 src2w
  | O_MUL => emit_mul m dst dstw src1 src1w src2 src2w
  | O_AND => emit_cum_binary m B_AND dst dstw src1 src1w src2 src2w
  | O_OR => emit_cum_binary m B_OR dst dstw src1 src1w src2 src2w
  | O_XOR =>
    if negb (has_flags o) && is_imm src2 && (src2w =? -1) then emit_unary m 0x10 dst dstw src1 src1w
    else if negb (has_flags o) && is_imm src1 && (src1w =? -1) then emit_unary m 0x10 dst dstw src2 src2w
    else emit_cum_binary m B_XOR dst dstw src1 src1w src2 src2w
  | O_SHL | O_MSHL => emit_shift_with_flags m 0x20 (has_flags o) dst dstw src1 src1w src2 src2w
  | O_LSHR | O_MLSHR => emit_shift_with_flags m 0x28 (has_flags o) dst dstw src1 src1w src2 src2w
  | O_ASHR | O_MASHR => emit_shift_with_flags m 0x38 (has_flags o) dst dstw src1 src1w src2 src2w
  | O_ROTL => emit_shift_with_flags m 0x00 false dst dstw src1 src1w src2 src2w
  | O_ROTR => emit_shift_with_flags m 0x08 false dst dstw src1 src1w src2 src2w
  end.
(** X86C:2768-2795 sljit_emit_op2u *)
Definition emit_op2u (o : op) (k : op2k) (src1 : arg) (src1w : Z) (src2 : arg) (src2w : Z) : option (list Z) :=
  match k with
  | O_SUB => emit_cmp_binary (f32 o) src1 src1w src2 src2w
  | O_AND => emit_test_binary (f32 o) src1 src1w src2 src2w
  | _ => emit_op2 o k (AReg TMP_REG1) 0 src1 src1w src2 src2w
  end.
(** X86C:2797-2827 sljit_emit_op2r, SLJIT_MULADD *)
Definition emit_muladd (m : bool) (dst : Z) (src1 : arg) (src1w : Z) (src2 : arg) (src2w : Z) : option (list Z) :=
  emit_mul m (AReg TMP_REG1) 0 src1 src1w src2 src2w +++ ins m (fl 1) 0x01 (AReg TMP_REG1) 0 (AReg dst) 0.

(** X86C:2829-3018 sljit_emit_shift_into *)
Definition emit_shift_into (m left : bool) (dst src1 src2 : Z) (src3 : arg) (src3w : Z) : option (list Z) :=
  let P := AReg PREF_SHIFT_REG in
  let T := AReg TMP_REG1 in
  let src3w := if is_imm src3 then Z.land src3w (if m then 0x1f else 0x3f) else src3w in
  if is_imm src3 && (src3w =? 0) then Some []
  else if src1 =? src2 then emit_shift m (if left then 0x00 else 0x08) (AReg dst) 0 (AReg src1) 0 src3 src3w
  else
    let '(code, src1', src2', restore) :=
      if (dst =? PREF_SHIFT_REG) && negb (is_imm src3) && (negb (arg_eqb src3 P) || negb (src1 =? PREF_SHIFT_REG)) then
        (emit_mov m T 0 (AReg src1) 0 +++ (if arg_eqb src3 P then Some [] else emit_mov m P 0 src3 src3w), TMP_REG1, src2, false)
      else
        let save := (src2 =? PREF_SHIFT_REG) && negb (is_imm src3) && negb (arg_eqb src3 P) in
        let c1 := if save then emit_mov false T 0 P 0 else Some [] in
        let src2' := if save then TMP_REG1 else src2 in
        let move0 := negb (dst =? src1) && negb (arg_eqb (AReg dst) src3) in
        let move1 := negb (dst =? src1) && arg_eqb (AReg dst) src3 in
        let c2 := if move0 then emit_mov m (AReg dst) 0 (AReg src1) 0 else Some [] in
        let cnt := negb (is_imm src3) && negb (arg_eqb src3 P) in
        let c3 := if cnt then (if save then Some [] else emit_mov false T 0 P 0) +++ emit_mov m P 0 src3 src3w else Some [] in
        let c4 := if move1 then emit_mov m (AReg dst) 0 (AReg src1) 0 else Some [] in
        (c1 +++ c2 +++ c3 +++ c4, (if move0 || move1 then dst else src1), src2', cnt) in
    code
    +++ (if is_imm src3 then
           option_map (put2 0x0f (if left then 0xa4 else 0xac)) (emit_x86 w m (fl 2) (AReg src2') 0 (AReg src1') 0) +++ Some [u8 src3w]
         else option_map (put2 0x0f (if left then 0xa5 else 0xad)) (emit_x86 w m (fl 2) (AReg src2') 0 (AReg src1') 0))
    +++ (if restore then emit_mov false P 0 T 0 else Some [])
    +++ (if src1' =? dst then Some [] else emit_mov m (AReg dst) 0 (AReg src1') 0).

(** X86C:1547-1617 emit_mov_byte *)
Definition emit_mov_byte (sign : bool) (dst : arg) (dstw : Z) (src : arg) (srcw : Z) : option (list Z) :=
  if is_imm src then
    (if is_reg dst then ins false (fl 1) 0xc7 AImm srcw dst 0 else ins false (with_norexw (with_byte (fl 1))) 0xc6 AImm srcw dst dstw)
  else
    let d := if is_reg dst then reg_of dst else if is_reg src then reg_of src else TMP_REG1 in
    (if is_mem dst && is_reg src then Some [] else groupf false false (if sign then 0xbe else 0xb6) d src srcw)
    +++ (if is_mem dst then ins false (with_norexw (with_rex (fl 1))) 0x88 (AReg d) 0 dst dstw else Some []).
(** X86C:1643-1685 emit_mov_half *)
Definition emit_mov_half (sign : bool) (dst : arg) (dstw : Z) (src : arg) (srcw : Z) : option (list Z) :=
  if is_imm src then
    (if is_reg dst then ins false (fl 1) 0xc7 AImm srcw dst 0 else ins false (with_66 (with_norexw (with_half (fl 1)))) 0xc7 AImm srcw dst dstw)
  else
    let d := if is_reg dst then reg_of dst else if is_reg src then reg_of src else TMP_REG1 in
    (if is_mem dst && is_reg src then Some [] else groupf false false (if sign then 0xbf else 0xb7) d src srcw)
    +++ (if is_mem dst then ins false (with_66 (with_norexw (fl 1))) 0x89 (AReg d) 0 dst dstw else Some []).
(** X64:1147-1199 emit_mov_int *)
Definition emit_mov_int (sign : bool) (dst : arg) (dstw : Z) (src : arg) (srcw : Z) : option (list Z) :=
  if is_imm src then
    (if is_reg dst then
       (if negb sign || (srcw mod 2 ^ 32 <=? 0x7fffffff) then
          Some (do_imm32 (if reg_map w (reg_of dst) <=? 7 then 0 else REX_B) (u8 (Z.lor 0xb8 (reg_lmap w (reg_of dst)))) srcw)
        else ins false (fl 1) 0xc7 AImm (sext 32 srcw) dst dstw)
     else ins true (fl 1) 0xc7 AImm (sext 32 srcw) dst dstw)
  else
    let d := if is_reg dst then reg_of dst else if is_reg src then reg_of src else TMP_REG1 in
    (if is_mem dst && is_reg src then Some []
     else if sign then ins false (fl 1) 0x63 (AReg d) 0 src srcw else emit_mov true (AReg d) 0 src srcw)
    +++ (if is_mem dst then ins true (fl 1) 0x89 (AReg d) 0 dst dstw else Some []).

(** X86C:1388-1407 emit_cmov_generic for SLJIT_EQUAL and an immediate (used at X86C:1772): jne over the move *)
Definition cmov_generic_imm (m : bool) (d imm : Z) : option (list Z) :=
  match emit_mov m (AReg d) 0 AImm imm with Some l => Some (0x75 :: u8 (Z.of_nat (length l)) :: l) | None => None end.
(** X86C:1725-1792 emit_clz_ctz; [cnt]: CPU_FEATURE_LZCNT or CPU_FEATURE_TZCNT, [cmov]: CPU_FEATURE_CMOV *)
Definition emit_clz_ctz (cnt cmov m is_clz : bool) (dst : arg) (dstw : Z) (src : arg) (srcw : Z) : option (list Z) :=
  let d := if is_reg dst then reg_of dst else TMP_REG1 in
  let fin := if is_mem dst then emit_mov m dst dstw (AReg TMP_REG1) 0 else Some [] in
  if cnt then groupf m true (if is_clz then 0xbd else 0xbc) d src srcw +++ fin
  else
    let max := if is_clz then (if m then 32 + 31 else 64 + 63) else (if m then 32 else 64) in
    groupf m false (if is_clz then 0xbd else 0xbc) d src srcw
    +++ (if cmov then emit_mov m (AReg TMP_REG2) 0 AImm max +++ groupf m false 0x44 d (AReg TMP_REG2) 0 else cmov_generic_imm m d max)
    +++ (if is_clz then binary_imm32 m 0x30 (Z.shiftr max 1) (AReg d) 0 else Some [])
    +++ fin.

(** X86C:1794-1886 emit_bswap; emit_mov_half clears compiler->mode32 (X86C:1651) *)
Definition emit_bswap (m : bool) (k : op1k) (dst : arg) (dstw : Z) (src : arg) (srcw : Z) : option (list Z) :=
  let d := if is_reg dst then reg_of dst else TMP_REG1 in
  let half := match k with O_REV_U16 | O_REV_S16 => true | _ => false end in
  let m := match k with O_REV_U32 | O_REV_S32 => true | _ => m end in
  let move := negb (arg_eqb src (AReg d)) in
  let c1 := if move then (if half then emit_mov_half false (AReg d) 0 src srcw else emit_mov m (AReg d) 0 src srcw) else Some [] in
  let m := if move && half then false else m in
  let rex := if 8 <=? reg_map w d then Z.lor (if m then 0 else REX_W) REX_B else if m then 0 else REX_W in
  c1
  +++ Some ((if rex =? 0 then [] else [rex]) ++ [0x0f; Z.lor 0xc8 (reg_lmap w d)])
  +++ (if half then
         shift_ins m (match k with O_REV_U16 => 0x28 | _ => 0x38 end) AImm (if m then 16 else 48) (AReg d) 0
       else Some [])
  +++ (if is_mem dst then (if half then emit_mov_half false dst dstw (AReg TMP_REG1) 0 else emit_mov m dst dstw (AReg TMP_REG1) 0)
       else match k with O_REV_S32 => ins false (fl 1) 0x63 dst 0 dst 0 | _ => Some [] end).

(** sljitLir.c:106 TYPE_CAST_NEEDED *)
Definition type_cast_needed (k : op1k) : bool :=
  match k with O_MOV_U8 | O_MOV_S8 | O_MOV_U16 | O_MOV_S16 | O_MOV_U32 | O_MOV_S32 => true | _ => false end.
(** X86C:1888-2031 sljit_emit_op1; MOV_U32 and MOV_S32 are not combined with SLJIT_32 (sljitLir.c:1693-1702), so X86C:1920-1930 is not modelled *)
Definition emit_op1 (lz tz cmov m : bool) (k : op1k) (dst : arg) (dstw : Z) (src : arg) (srcw : Z) : option (list Z) :=
  let mv (f : arg -> Z -> arg -> Z -> option (list Z)) (cast : Z -> Z) :=
    if is_reg src && arg_eqb src dst && negb (type_cast_needed k) then Some []
    else f dst dstw src (if is_imm src then cast srcw else srcw) in
  match k with
  | O_MOV | O_MOV_P => mv (emit_mov false) (fun x => x)
  | O_MOV_U8 => mv (emit_mov_byte false) (fun x => x mod 2 ^ 8)
  | O_MOV_S8 => mv (emit_mov_byte true) (sext 8)
  | O_MOV_U16 => mv (emit_mov_half false) (fun x => x mod 2 ^ 16)
  | O_MOV_S16 => mv (emit_mov_half true) (sext 16)
  | O_MOV_U32 => mv (emit_mov_int false) (fun x => x mod 2 ^ 32)
  | O_MOV_S32 => mv (emit_mov_int true) (sext 32)
  | O_MOV32 => mv (emit_mov true) (fun x => x)
  | O_CLZ => emit_clz_ctz lz cmov m true dst dstw src srcw
  | O_CTZ => emit_clz_ctz tz cmov m false dst dstw src srcw
  | _ => emit_bswap m k dst dstw src srcw
  end.
End Win.
