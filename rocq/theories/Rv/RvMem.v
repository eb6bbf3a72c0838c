(** Memory operands: sljitNativeRISCV_common.c:1099-1721 (general purpose registers only, see DESIGN.md). *)
Require Import ZArith List Bool Lia.
From Verif Require Import Rv.RvLib Rv.RvEnc Rv.RvImm.
Import ListNotations.
Open Scope Z_scope.

(** sljitNativeRISCV_common.c:1103-1109 *)
Definition LOAD_DATA := 0x01.
Definition WORD_DATA := 0x00.
Definition BYTE_DATA := 0x02.
Definition HALF_DATA := 0x04.
Definition INT_DATA := 0x06.
Definition SIGNED_DATA := 0x08.

(** Operands, sljitLir.h:1045-1052: a register, SLJIT_IMM, or SLJIT_MEM with a base register and an offset register
    (0: none).  The C code packs them into one integer, [arg_code]; that packing is injective for register numbers below
    128, so comparing operands is comparing integers. *)
Inductive arg := AReg (r : Z) | AImm | AMem (base offs : Z).
(** sljitLir.h:1036-1052 SLJIT_IMM 0x7f, SLJIT_MEM 0x80; sljitLir.c:122-126 *)
Definition arg_code (a : arg) : Z :=
  match a with
  | AReg r => r
  | AImm => 0x7f
  | AMem b o => 0x80 .| b .| Z.shiftl o 8
  end.
(** sljitLir.c:126 FAST_IS_REG, src == SLJIT_IMM, src & SLJIT_MEM (e.g. sljitNativeRISCV_common.c:2480-2490) *)
Definition is_reg (a : arg) : bool := match a with AReg _ => true | _ => false end.
(** src == SLJIT_IMM, e.g. sljitNativeRISCV_common.c:2483 *)
Definition is_imm (a : arg) : bool := match a with AImm => true | _ => false end.
(** src & SLJIT_MEM, e.g. sljitNativeRISCV_common.c:3472 *)
Definition is_mem (a : arg) : bool := match a with AMem _ _ => true | _ => false end.

(** sljitNativeRISCV_common.c:1430-1453 (the entries for general purpose registers, RISC-V 64) *)
Definition data_transfer_insts : list Z :=
  [ F3 0x3 .| 0x23; F3 0x3 .| 0x3; F3 0x0 .| 0x23; F3 0x4 .| 0x3; F3 0x1 .| 0x23; F3 0x5 .| 0x3; F3 0x2 .| 0x23; F3 0x6 .| 0x3;
    F3 0x3 .| 0x23; F3 0x3 .| 0x3; F3 0x0 .| 0x23; F3 0x0 .| 0x3; F3 0x1 .| 0x23; F3 0x1 .| 0x3; F3 0x2 .| 0x23; F3 0x2 .| 0x3 ].

Section Mem.
Variable c : cfg.

(** sljitNativeRISCV_common.c:1457-1536.  flags is already masked with MEM_MASK and below GPR_REG. *)
Definition push_mem_inst (flags reg base offset : Z) : em :=
  let sf := flags .| SIGNED_DATA in
  let sp := cC c && (0 <=? offset) && (base =? SLJIT_SP) in
  let sp4 := sp && (offset .& 0x3 =? 0) && (offset <=? 0xfc) in
  let sp8 := sp && (offset .& 0x7 =? 0) && (offset <=? 0x1f8) in
  let r3 := cC c && (0 <=? offset) && negb (base =? SLJIT_SP) && C_IS_R3 base && C_IS_R3 reg in
  let lf := flags .| LOAD_DATA in
  let ld := flags .& LOAD_DATA in
  if sp4 && (flags =? INT_DATA .| SIGNED_DATA .| LOAD_DATA) then E16 (C_LWSP .| C_RD reg .| C_LD32_SP offset)
  else if sp4 && (sf =? INT_DATA .| SIGNED_DATA) then E16 (C_SWSP .| C_RS2 reg .| C_ST32_SP offset)
  else if sp8 && (sf =? SIGNED_DATA .| LOAD_DATA) then E16 (C_LDSP .| C_RD reg .| C_LD64_SP offset)
  else if sp8 && (sf =? SIGNED_DATA) then E16 (C_SDSP .| C_RS2 reg .| C_ST64_SP offset)
  else if r3 && (offset .& 0x3 =? 0) && (offset <=? 0x7c) && (lf =? INT_DATA .| SIGNED_DATA .| LOAD_DATA)
  then E16 (Z.lxor C_SW (u16 (Z.shiftl ld 15)) .| C_RS1_R3 base .| C_RS2_R3 reg .| C_MEM32 offset)
  else if r3 && (offset .& 0x7 =? 0) && (offset <=? 0xf8) && (lf .| SIGNED_DATA =? SIGNED_DATA .| LOAD_DATA)
  then E16 (Z.lxor C_SD (u16 (Z.shiftl ld 15)) .| C_RS1_R3 base .| C_RS2_R3 reg .| C_MEM64 offset)
  else
    let ins := nth (Z.to_nat flags) data_transfer_insts 0 .| RS1 base in
    if negb (ld =? 0) then E32 (ins .| (RD reg .| IMM_I offset))
    else E32 (ins .| (RS2 reg .| IMM_S offset)).

(** sljitNativeRISCV_common.c:1539-1552: the test of getput_arg_fast (ARG_TEST); when it holds the emitted
    instruction is [push_mem_inst flags reg base argw]. *)
Definition fast_ok (offs argw : Z) : bool := (offs =? 0) && (argw <=? SIMM_MAX) && (argw >=? SIMM_MIN).

(** sljitNativeRISCV_common.c:1554 *)
Definition TO_ARGW_HI (argw : Z) : Z := sw ((argw .& Z.lnot 0xfff) + (if negb (argw .& 0x800 =? 0) then 0x1000 else 0)).

(** argw - argw' of two sljit_sw values lies in the range of an immediate, e.g. sljitNativeRISCV_common.c:1572 *)
Definition near (argw argw' : Z) : bool := (sw (argw - argw') <=? SIMM_MAX) && (sw (argw - argw') >=? SIMM_MIN).

(** sljitNativeRISCV_common.c:1558-1579, for arg = SLJIT_MEM | base | offs *)
Definition can_cache (base offs argw nbase noffs nargw : Z) : bool :=
  if negb (offs =? 0) then
    negb (argw .& 3 =? 0) && (argw .& 3 =? nargw .& 3) && (((base =? nbase) && (offs =? noffs)) || (offs =? noffs))
  else if (base =? nbase) && (offs =? noffs) then near nargw argw || (TO_ARGW_HI argw =? TO_ARGW_HI nargw)
  else false.

(** compiler->cache_arg (None: 0, Some (base, offs): SLJIT_MEM | base | offs) and compiler->cache_argw,
    sljitLir.h:622-624 *)
Record cache := mkK { k_arg : option (Z * Z); k_argw : Z }.
(** sljitNativeRISCV_common.c:2444-2445 *)
Definition no_cache := mkK None 0.
(** compiler->cache_arg == arg, sljitNativeRISCV_common.c:1616, 1649 *)
Definition k_is (k : cache) (base offs : Z) : bool :=
  match k_arg k with Some (b, o) => (b =? base) && (o =? offs) | None => false end.
(** arg == next_arg, where next_arg is 0 unless it is a memory operand, sljitNativeRISCV_common.c:1590-1593, 1674 *)
Definition n_is (next : option (Z * Z * Z)) (base offs : Z) : bool :=
  match next with Some (b, o, _) => (b =? base) && (o =? offs) | None => false end.
(** next_argw, sljitNativeRISCV_common.c:1590-1593 *)
Definition n_w (next : option (Z * Z * Z)) : Z := match next with Some (_, _, w) => w | None => 0 end.
(** next_arg != 0, sljitNativeRISCV_common.c:1590-1593, 1659 *)
Definition n_mem (next : option (Z * Z * Z)) : bool := match next with Some _ => true | None => false end.

(** sljitNativeRISCV_common.c:1595-1647: operand with an offset register *)
Definition getput_arg_x (use_tmp2 : bool) (flags reg base offs argw0 : Z) (next : option (Z * Z * Z)) (k : cache) : em * cache :=
  let tmp_r := if use_tmp2 then TMP_REG2 else TMP_REG1 in
  let argw := argw0 .& 3 in
  if cA c then
    let ins := if argw =? 1 then SH1ADD else if argw =? 2 then SH2ADD else if argw =? 3 then SH3ADD else ADD in
    (E32 (ins .| RD tmp_r .| RS1 offs .| RS2 base) ;; push_mem_inst flags reg tmp_r 0, k)
  else if (argw =? k_argw k) && k_is k base offs then (push_mem_inst flags reg TMP_REG3 0, k)
  else if (argw =? k_argw k) && k_is k 0 offs then
    if n_is next base offs && (argw =? n_w next .& 3) then
      (E32 (ADD .| RD TMP_REG3 .| RS1 TMP_REG3 .| RS2 base) ;; push_mem_inst flags reg TMP_REG3 0, mkK (Some (base, offs)) argw)
    else (E32 (ADD .| RD tmp_r .| RS1 base .| RS2 TMP_REG3) ;; push_mem_inst flags reg tmp_r 0, k)
  else
    let '(e1, k) := if negb (argw =? 0)
      then (E32 (SLLI .| RD TMP_REG3 .| RS1 offs .| IMM_I argw), mkK (Some (0, offs)) argw)
      else (ENop, k) in
    let rs2 := if argw =? 0 then offs else TMP_REG3 in
    if n_is next base offs && (argw =? n_w next .& 3) then
      (e1 ;; E32 (ADD .| RD TMP_REG3 .| RS1 base .| RS2 rs2) ;; push_mem_inst flags reg TMP_REG3 0, mkK (Some (base, offs)) argw)
    else (e1 ;; E32 (ADD .| RD tmp_r .| RS1 base .| RS2 rs2) ;; push_mem_inst flags reg tmp_r 0, k).

(** sljitNativeRISCV_common.c:1649-1681: operand without an offset register *)
Definition getput_arg_b (use_tmp2 : bool) (flags reg base argw : Z) (next : option (Z * Z * Z)) (k : cache) : em * cache :=
  let tmp_r := if use_tmp2 then TMP_REG2 else TMP_REG1 in
  if k_is k base 0 && near argw (k_argw k) then (push_mem_inst flags reg TMP_REG3 (sw (argw - k_argw k)), k)
  else
    let '(e1, k, offset, argw') :=
      if k_is k 0 0 && near argw (k_argw k) then (ENop, k, sw (argw - k_argw k), argw)
      else
        let argw_hi := TO_ARGW_HI argw in
        if n_mem next && near (n_w next) argw && negb (argw_hi =? TO_ARGW_HI (n_w next))
        then (load_immediate c TMP_REG3 argw tmp_r, mkK (Some (0, 0)) argw, 0, argw)
        else (load_immediate c TMP_REG3 argw_hi tmp_r, mkK (Some (0, 0)) argw_hi, argw .& 0xfff, argw_hi) in
    if base =? 0 then (e1 ;; push_mem_inst flags reg TMP_REG3 offset, k)
    else if n_is next base 0 && near (n_w next) argw' then
      (e1 ;; E32 (ADD .| RD TMP_REG3 .| RS1 TMP_REG3 .| RS2 base) ;; push_mem_inst flags reg TMP_REG3 offset,
       mkK (Some (base, 0)) (k_argw k))
    else (e1 ;; E32 (ADD .| RD tmp_r .| RS1 TMP_REG3 .| RS2 base) ;; push_mem_inst flags reg tmp_r offset, k).

(** sljitNativeRISCV_common.c:1582-1682 *)
Definition getput_arg (use_tmp2 : bool) (flags reg base offs argw : Z) (next : option (Z * Z * Z)) (k : cache) : em * cache :=
  if negb (offs =? 0) then getput_arg_x use_tmp2 flags reg base offs argw next k
  else getput_arg_b use_tmp2 flags reg base argw next k.

(** sljitNativeRISCV_common.c:1684-1714 (general purpose register) *)
Definition emit_op_mem (flags reg base offs argw : Z) : em :=
  if fast_ok offs argw then push_mem_inst flags reg base argw
  else
    let tmp_r := if negb (flags .& LOAD_DATA =? 0) then reg else TMP_REG1 in
    if negb (offs =? 0) then
      let argw := argw .& 3 in
      (if negb (argw =? 0) then
         E32 (SLLI .| RD tmp_r .| RS1 offs .| IMM_I argw) ;;
         E32 (ADD .| RD tmp_r .| RS1 tmp_r .| RS2 base)
       else E32 (ADD .| RD tmp_r .| RS1 base .| RS2 offs)) ;;
      push_mem_inst flags reg tmp_r 0
    else
      load_immediate c tmp_r (TO_ARGW_HI argw) TMP_REG3 ;;
      (if negb (base =? 0) then E32 (ADD .| RD tmp_r .| RS1 tmp_r .| RS2 base) else ENop) ;;
      push_mem_inst flags reg tmp_r (argw .& 0xfff).

End Mem.
