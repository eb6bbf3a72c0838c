(** Model of function entry and return: sljit_emit_enter, sljit_set_context, emit_stack_frame_release,
    sljit_emit_return_void, sljit_emit_return, sljit_emit_return_to and the indirect jumps and calls they use
    (sljit_src/sljitNativeRISCV_common.c, sljit_src/sljitLir.c).
    Vector registers have no saved ones on RISC-V (sljitConfigInternal.h:722), so their counts play no part. *)
Require Import ZArith List Bool.
From Verif Require Import Rv.RvLib Rv.RvEnc Rv.RvImm Rv.RvMem Rv.RvOp Rv.RvCond.
Import ListNotations.
Open Scope Z_scope.

(** sljitConfigInternal.h:714-718, sljitLir.h:188, 208, 244, 259 *)
Definition SLJIT_S0 := 23.
Definition SLJIT_FIRST_SAVED_REG := 12.
Definition SLJIT_FS0 := 30.
Definition SLJIT_FIRST_SAVED_FLOAT_REG := 19.
(** sljitLir.h:917, 394, 408, 412; sljitLir.c:129 *)
Definition SLJIT_ENTER_REG_ARG := 0x4.
Definition SLJIT_ARG_TYPE_SCRATCH_REG := 0x8.
Definition SLJIT_ARG_TYPE_F64 := 4.
Definition SLJIT_ARG_MASK := 0x7.
(** ENTER_GET_REGS, ENTER_GET_FLOAT_REGS, SLJIT_KEPT_SAVEDS_COUNT: sljitLir.c:138-141 *)
Definition ENTER_GET_REGS (x : Z) := x .& 0xff.
Definition ENTER_GET_FLOAT_REGS (x : Z) := Z.shiftr x 8 .& 0xff.
Definition KEPT (options : Z) := options .& 0x3.
(** GET_SAVED_REGISTERS_SIZE, GET_SAVED_FLOAT_REGISTERS_SIZE: sljitLir.c:333-339 *)
Definition GET_SAVED_REGISTERS_SIZE (scratches saveds extra : Z) : Z :=
  ((if scratches <? 11 then 0 else scratches - 11) + saveds + extra) * 8.
Definition GET_SAVED_FLOAT_REGISTERS_SIZE (fscratches fsaveds : Z) : Z :=
  ((if fscratches <? 18 then 0 else fscratches - 18) + fsaveds) * 8.

(** The members of struct sljit_compiler set by set_emit_enter (sljitLir.c:827-857), and local_size. *)
Record ctx := mkX { x_options : Z; x_scratches : Z; x_saveds : Z; x_fscratches : Z; x_fsaveds : Z; x_local : Z }.
(** sljit_set_context, sljitNativeRISCV_common.c:1281-1307 *)
Definition set_context (options scratches saveds local_size : Z) : ctx :=
  let fscratches := ENTER_GET_FLOAT_REGS scratches in
  let fsaveds := ENTER_GET_FLOAT_REGS saveds in
  let scratches := ENTER_GET_REGS scratches in
  let saveds := ENTER_GET_REGS saveds in
  let local_size := local_size + GET_SAVED_REGISTERS_SIZE scratches (saveds - KEPT options) 1 in
  let local_size := local_size + GET_SAVED_FLOAT_REGISTERS_SIZE fscratches fsaveds in
  mkX options scratches saveds fscratches fsaveds ((local_size + 15) .& Z.lnot 0xf).

Section F.
Variable c : cfg.

(** C_ADDI16SP with its immediate, sljitNativeRISCV_common.c:1191 and 1380. In the first the bit of weight 512 is given
    as 1 << 12. *)
Definition c_addi16sp (imm : Z) : Z :=
  Z.shiftl (imm .& 0x10) 2 .| Z.shiftr (imm .& 0x20) 3 .| Z.shiftr (imm .& 0x40) 1 .| Z.shiftr (imm .& 0x180) 4.

(** Saving one register, sljitNativeRISCV_common.c:1204-1207 (and 1212-1215, 1220-1223); 1235-1238 (and 1243-1246). *)
Definition st_reg (offset r : Z) : em :=
  if cC c && (offset <=? 0x1f8) then E16 (C_SDSP .| C_ST64_SP offset .| C_RS2 r)
  else E32 (SD .| RS1 SLJIT_SP .| RS2 r .| IMM_S offset).
Definition st_freg (offset r : Z) : em :=
  if cC c && (offset <=? 0x1f8) then E16 (C_FSDSP .| C_FRS2 r .| C_ST64_SP offset)
  else E32 (FSD .| RS1 SLJIT_SP .| FRS2 r .| IMM_S offset).
(** Restoring one register, sljitNativeRISCV_common.c:1332-1335 (and 1341-1344, 1349-1352); 1364-1367 (and 1372-1375). *)
Definition ld_reg (offset r : Z) : em :=
  if cC c && (offset <=? 0x1f8) then E16 (C_LDSP .| C_LD64_SP offset .| C_RD r)
  else E32 (LD .| RD r .| RS1 SLJIT_SP .| IMM_I offset).
Definition ld_freg (offset r : Z) : em :=
  if cC c && (offset <=? 0x1f8) then E16 (C_FLDSP .| C_FRD r .| C_LD64_SP offset)
  else E32 (FLD .| FRD r .| RS1 SLJIT_SP .| IMM_I offset).

(** for (i = hi; i > lo; i--): the values of i. *)
Fixpoint down_n (hi : Z) (n : nat) : list Z :=
  match n with O => [] | S n => hi :: down_n (hi - 1) n end.
Definition down (hi lo : Z) : list Z := down_n hi (Z.to_nat (hi - lo)).
(** One of these loops: offset -= 8, then the access; followed by [k], which gets the offset left by the loop. *)
Fixpoint slots (f : Z -> Z -> em) (l : list Z) (offset : Z) (k : Z -> em) : em :=
  match l with
  | [] => k offset
  | i :: l => f (offset - 8) i ;; slots f l (offset - 8) k
  end.

(** STACK_MAX_DISTANCE, sljitNativeRISCV_common.c:1153 *)
Definition MAX_ENTER := 2048.
(** The loop over the argument types, sljitNativeRISCV_common.c:1257-1274; [fuel] bounds the number of
    arguments (arg_types has 32 bits, 4 for each). *)
Fixpoint enter_args (fuel : nat) (arg_types saved_arg_count tmp : Z) : em :=
  match fuel with
  | O => ENop
  | S fuel =>
    if arg_types <=? 0 then ENop
    else if arg_types .& SLJIT_ARG_MASK <? SLJIT_ARG_TYPE_F64 then
      if arg_types .& SLJIT_ARG_TYPE_SCRATCH_REG =? 0 then
        (if cC c then E16 (C_MV .| C_RD (SLJIT_S0 - saved_arg_count) .| C_RS2 tmp)
         else E32 (ADDI .| RD (SLJIT_S0 - saved_arg_count) .| RS1 tmp .| IMM_I 0)) ;;
        enter_args fuel (Z.shiftr arg_types 4) (saved_arg_count + 1) (tmp + 1)
      else enter_args fuel (Z.shiftr arg_types 4) saved_arg_count (tmp + 1)
    else enter_args fuel (Z.shiftr arg_types 4) saved_arg_count tmp
  end.

(** sljit_emit_enter, sljitNativeRISCV_common.c:1157-1277. The context it leaves in the compiler is
    [set_context options scratches saveds local_size] (lines 1168 and 1170-1183 compute the same). *)
Definition emit_enter (options arg_types scratches saveds local_size : Z) : em :=
  let x := set_context options scratches saveds local_size in
  let local_size := x_local x in
  let small := local_size <=? MAX_ENTER in
  let rest := if small then 0 else local_size - MAX_ENTER in
  (if small then
     if cC c && (- local_size >=? -0x200) then E16 (C_ADDI16SP .| u16 (c_addi16sp (- local_size) .| 0x1000))
     else E32 (ADDI .| RD SLJIT_SP .| RS1 SLJIT_SP .| IMM_I (- local_size))
   else
     E32 (ADDI .| RD SLJIT_SP .| RS1 SLJIT_SP .| IMM_I MAX_ENTER) ;;
     if rest >? MAX_ENTER then load_immediate c TMP_REG1 rest TMP_REG3 else ENop) ;;
  let offset := (if small then local_size else MAX_ENTER) - 8 in
  st_reg offset RETURN_ADDR_REG ;;
  slots st_reg (down (SLJIT_S0 - KEPT options) (SLJIT_S0 - x_saveds x)) offset (fun offset =>
  slots st_reg (down (x_scratches x) (SLJIT_FIRST_SAVED_REG - 1)) offset (fun offset =>
  slots st_freg (down SLJIT_FS0 (SLJIT_FS0 - x_fsaveds x)) offset (fun offset =>
  slots st_freg (down (x_fscratches x) (SLJIT_FIRST_SAVED_FLOAT_REG - 1)) offset (fun _ =>
  (if rest >? MAX_ENTER then E32 (SUB .| RD SLJIT_SP .| RS1 SLJIT_SP .| RS2 TMP_REG1)
   else if rest >? 0 then E32 (ADDI .| RD SLJIT_SP .| RS1 SLJIT_SP .| IMM_I (- rest))
   else ENop) ;;
  if negb (options .& SLJIT_ENTER_REG_ARG =? 0) then ENop
  else enter_args 8 (Z.shiftr arg_types 4) 0 1)))).

(** STACK_MAX_DISTANCE, sljitNativeRISCV_common.c:1309 *)
Definition MAX_RELEASE := 2032.
(** emit_stack_frame_release, sljitNativeRISCV_common.c:1311-1384 *)
Definition emit_stack_frame_release (x : ctx) (is_return_to : bool) : em :=
  let big := x_local x >? MAX_RELEASE in
  let rest := x_local x - MAX_RELEASE in
  (if big then
     if rest >? MAX_RELEASE then
       load_immediate c TMP_REG2 rest TMP_REG3 ;; E32 (ADD .| RD SLJIT_SP .| RS1 SLJIT_SP .| RS2 TMP_REG2)
     else E32 (ADDI .| RD SLJIT_SP .| RS1 SLJIT_SP .| IMM_I rest)
   else ENop) ;;
  let local_size := if big then MAX_RELEASE else x_local x in
  let offset := local_size - 8 in
  (if is_return_to then ENop else ld_reg offset RETURN_ADDR_REG) ;;
  slots ld_reg (down (SLJIT_S0 - KEPT (x_options x)) (SLJIT_S0 - x_saveds x)) offset (fun offset =>
  slots ld_reg (down (x_scratches x) (SLJIT_FIRST_SAVED_REG - 1)) offset (fun offset =>
  slots ld_freg (down SLJIT_FS0 (SLJIT_FS0 - x_fsaveds x)) offset (fun offset =>
  slots ld_freg (down (x_fscratches x) (SLJIT_FIRST_SAVED_FLOAT_REG - 1)) offset (fun _ =>
  if cC c && (local_size <=? 0x1f0) then E16 (C_ADDI16SP .| u16 (c_addi16sp local_size))
  else E32 (ADDI .| RD SLJIT_SP .| RS1 SLJIT_SP .| IMM_I local_size))))).

(** The last instruction of sljit_emit_return_void and of SLJIT_FAST_RETURN, sljitNativeRISCV_common.c:1394, 2873 *)
Definition jalr_ra : Z := JALR .| RD TMP_ZERO .| RS1 RETURN_ADDR_REG .| IMM_I 0.
(** sljit_emit_return_void, sljitNativeRISCV_common.c:1388-1395 *)
Definition emit_return_void (x : ctx) : em := emit_stack_frame_release x false ;; E32 jalr_ra.

(** sljit_emit_return with an integer, sljitLir.c:3469-3482, 3498-3511 *)
Definition emit_return (x : ctx) (k : op1k) (src : arg) (srcw : Z) : em :=
  (match src, k with
   | AReg r, (O_MOV | O_MOV_P) => if r =? SLJIT_R0 then ENop else emit_op1 c k false (AReg SLJIT_R0) 0 src srcw
   | _, _ => emit_op1 c k false (AReg SLJIT_R0) 0 src srcw
   end) ;; emit_return_void x.

(** sljit_emit_ijump with a register, and with memory after its load: sljitNativeRISCV_common.c:3594-3597 *)
Definition ijump_reg (link : bool) (r : Z) : em :=
  if cC c then E16 ((if link then C_JALR else C_JR) .| C_RD r)
  else E32 (JALR .| RD (if link then RETURN_ADDR_REG else TMP_ZERO) .| RS1 r .| IMM_I 0).
(** sljit_emit_ijump for sources other than an immediate, sljitNativeRISCV_common.c:3580-3597 (SLJIT_LOCALS_OFFSET is 0);
    an immediate becomes a jump record, see [KIJump] in RvLinkApi. *)
Definition emit_ijump (link : bool) (src : arg) (srcw : Z) : em :=
  match src with
  | AReg r => ijump_reg link r
  | AImm => ENop
  | AMem b o => emit_op_mem c (WORD_DATA .| LOAD_DATA) TMP_REG1 b o srcw ;; ijump_reg link TMP_REG1
  end.
(** sljit_emit_return_to, sljitNativeRISCV_common.c:1397-1418, for sources other than an immediate; for an immediate the
    code is [emit_stack_frame_release x true] followed by the jump record. *)
Definition to_tmp (x : ctx) (src : arg) (srcw : Z) : em * arg :=
  match src with
  | AMem b o => (emit_op_mem c (WORD_DATA .| LOAD_DATA) TMP_REG1 b o srcw, AReg TMP_REG1)
  | AReg r =>
    if (r >=? SLJIT_FIRST_SAVED_REG) && (r <=? SLJIT_S0 - KEPT (x_options x))
    then (E32 (ADDI .| RD TMP_REG1 .| RS1 r .| IMM_I 0), AReg TMP_REG1) else (ENop, src)
  | AImm => (ENop, src)
  end.
Definition emit_return_to (x : ctx) (src : arg) (srcw : Z) : em :=
  let (e, src) := to_tmp x src srcw in
  e ;; emit_stack_frame_release x true ;; emit_ijump false src srcw.
(** sljit_emit_icall, sljitNativeRISCV_common.c:3614-3640 ([ret]: SLJIT_CALL_RETURN), for sources other than an immediate. *)
Definition emit_icall (x : ctx) (ret : bool) (src : arg) (srcw : Z) : em :=
  if ret then
    let (e, src) := to_tmp x src srcw in
    e ;; emit_stack_frame_release x false ;; emit_ijump false src srcw
  else
    match src with
    | AMem b o => emit_op_mem c (WORD_DATA .| LOAD_DATA) TMP_REG1 b o srcw ;; emit_ijump true (AReg TMP_REG1) srcw
    | _ => emit_ijump true src srcw
    end.

(** sljit_emit_op_dst, sljitNativeRISCV_common.c:2886-2915: SLJIT_FAST_ENTER and SLJIT_GET_RETURN_ADDRESS *)
Definition emit_fast_enter (dst : arg) (dstw : Z) : em :=
  match dst with
  | AReg r => if r =? RETURN_ADDR_REG then ENop else E32 (ADDI .| RD r .| RS1 RETURN_ADDR_REG .| IMM_I 0)
  | AImm => ENop
  | AMem b o => emit_op_mem c WORD_DATA TMP_REG2 b o dstw
  end.
Definition emit_get_return_address (x : ctx) (dst : arg) (dstw : Z) : em :=
  emit_op_mem c (WORD_DATA .| LOAD_DATA) (match dst with AReg r => r | _ => TMP_REG2 end) SLJIT_SP 0 (x_local x - 8) ;;
  match dst with AMem b o => emit_op_mem c WORD_DATA TMP_REG2 b o dstw | _ => ENop end.
(** sljit_emit_op_src with SLJIT_FAST_RETURN, sljitNativeRISCV_common.c:2866-2873 *)
Definition emit_fast_return (src : arg) (srcw : Z) : em :=
  match src with
  | AReg r => if r =? RETURN_ADDR_REG then ENop else E32 (ADDI .| RD RETURN_ADDR_REG .| RS1 r .| IMM_I 0)
  | AImm => ENop
  | AMem b o => emit_op_mem c (WORD_DATA .| LOAD_DATA) RETURN_ADDR_REG b o srcw
  end ;; E32 jalr_ra.
End F.
