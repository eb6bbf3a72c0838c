(** Model of function entry, return and calls of the x86-64 backend: sljit_src/sljitNativeX86_64.c ("X64"), sljit_src/sljitNativeX86_common.c ("X86C") and
    sljit_emit_return of sljit_src/sljitLir.c.

    Simplifications: [win] is _WIN64, [cet] is SLJIT_CONFIG_X86_CET; operands are those after ADJUST_LOCAL_OFFSET. Code which moves floating point registers
    (Windows only: arguments after an integer argument, and the registers preserved by calls) is not modelled: the result is [None], as for a failed emission. *)
Require Import ZArith List Bool.
From Verif Require Import Rv.RvLib Rv.RvMem Rv.RvOp Rv.RvFrame X86.X86Emit X86.X86Op.
Import ListNotations.
Open Scope Z_scope.

(** sljitConfigInternal.h:617-633, sljitLir.h:188, 208: SLJIT_S0, SLJIT_R0 .. SLJIT_R3 *)
Definition XS0 := 13.
Definition XR0 := 1.
Definition XR1 := 2.
Definition XR2 := 3.
Definition XR3 := 4.
(** ENTER_GET_VECTOR_REGS: sljitLir.c:140 *)
Definition ENTER_GET_VECTOR_REGS (x : Z) := Z.land (Z.shiftr x 16) 0xff.

Section F.
Variables (win cet : bool).
(** SLJIT_NUMBER_OF_SAVED_REGISTERS, SLJIT_LOCALS_OFFSET: sljitConfigInternal.h:623-633; SLJIT_NUMBER_OF_SCRATCH_REGISTERS, SLJIT_FIRST_SAVED_REG:
    sljitLir.h:186, 244; SLJIT_NUMBER_OF_SCRATCH_FLOAT_REGISTERS *)
Definition NSAVED := if win then 8 else 6.
Definition LOCALS_OFFSET := if win then 32 else 0.
Definition NSCRATCH := 13 - NSAVED.
Definition FIRST_SAVED := XS0 + 1 - NSAVED.
Definition NFSCRATCH := if win then 5 else 15.
(** GET_SAVED_REGISTERS_SIZE, GET_SAVED_FLOAT_REGISTERS_SIZE (sse2_reg): sljitLir.c:333-339 *)
Definition saved_size (scratches saveds extra : Z) : Z := ((if scratches <? NSCRATCH then 0 else scratches - NSCRATCH) + saveds + extra) * 8.
Definition saved_fsize (fscratches fsaveds : Z) : Z := ((if fscratches <? NFSCRATCH then 0 else fscratches - NFSCRATCH) + fsaveds) * 16.

(** The members of struct sljit_compiler set by set_emit_enter (sljitLir.c:827-857; the number of floating point registers: sljitLir.c:810-824), and
    local_size; sljit_set_context X64:628-664 *)
Definition fscratches_of (scratches saveds : Z) : Z :=
  let a := Z.max (ENTER_GET_FLOAT_REGS scratches) (ENTER_GET_VECTOR_REGS scratches) in
  let b := Z.max (ENTER_GET_FLOAT_REGS saveds) (ENTER_GET_VECTOR_REGS saveds) in
  if b + a >? 15 then 15 - b else a.
Definition fsaveds_of (saveds : Z) : Z := Z.max (ENTER_GET_FLOAT_REGS saveds) (ENTER_GET_VECTOR_REGS saveds).
Definition xset_context (options scratches saveds local_size : Z) : ctx :=
  let fscratches := fscratches_of scratches saveds in
  let fsaveds := fsaveds_of saveds in
  let local_size := if win then
      let local_size := local_size + LOCALS_OFFSET in
      let fsize := saved_fsize fscratches fsaveds in
      if fsize >? 0 then Z.land (local_size + 0xf) (Z.lnot 0xf) + fsize else local_size
    else local_size in
  let size := saved_size (ENTER_GET_REGS scratches) (ENTER_GET_REGS saveds - KEPT options) 1 in
  mkX options (ENTER_GET_REGS scratches) (ENTER_GET_REGS saveds) fscratches fsaveds (Z.land (local_size + size + 0xf) (Z.lnot 0xf) - size).
(** Floating point registers have to be saved. *)
Definition fsave (x : ctx) : bool := win && (saved_fsize (x_fscratches x) (x_fsaveds x) >? 0).

(** PUSH_REG, POP_REG (X86C:371-372) with the prefix, X64:495-503 *)
Definition push_reg (r : Z) : list Z := (if reg_map win r >=? 8 then [REX_B] else []) ++ [0x50 + reg_lmap win r].
Definition pop_reg (r : Z) : list Z := (if reg_map win r >=? 8 then [REX_B] else []) ++ [0x58 + reg_lmap win r].
(** X86C:1182-1201 emit_endbranch *)
Definition endbranch : list Z := if cet then [0xf3; 0x0f; 0x1e; 0xfa] else [].
(** The registers saved, in the order of the pushes: X64:494-514 *)
Definition pushed (x : ctx) : list Z := down (XS0 - KEPT (x_options x)) (XS0 - x_saveds x) ++ down (x_scratches x) (FIRST_SAVED - 1).

(** EMIT_MOV of registers, mode32 = 0 *)
Definition movrr (d r : Z) : option (list Z) := emit_mov win false (AReg d) 0 (AReg r) 0.
(** The register of an argument, X64:533-566 *)
Definition arg_src (word_arg_count float_arg_count : Z) : Z :=
  if win then let n := word_arg_count + float_arg_count in if n =? 0 then XR3 else if n =? 1 then XR1 else if n =? 2 then XR2 else TMP_REG1
  else if word_arg_count =? 0 then XR2 else if word_arg_count =? 1 then XR1 else if word_arg_count =? 2 then TMP_REG1 else XR3.
(** The loop over the argument types, X64:530-586; [fuel] bounds the number of arguments (arg_types has 32 bits, 4 for each). *)
Fixpoint xenter_args (fuel : nat) (arg_types saved_arg_count word_arg_count float_arg_count : Z) : option (list Z) :=
  match fuel with
  | O => Some []
  | S fuel =>
    if arg_types <=? 0 then Some []
    else if Z.land arg_types SLJIT_ARG_MASK <? SLJIT_ARG_TYPE_F64 then
      let tmp := arg_src word_arg_count float_arg_count in
      if negb (Z.land arg_types SLJIT_ARG_TYPE_SCRATCH_REG =? 0) then
        (if tmp =? XR0 + word_arg_count then Some [] else movrr (XR0 + word_arg_count) tmp)
        +++ xenter_args fuel (Z.shiftr arg_types 4) saved_arg_count (word_arg_count + 1) float_arg_count
      else
        movrr (XS0 - saved_arg_count) tmp +++ xenter_args fuel (Z.shiftr arg_types 4) (saved_arg_count + 1) (word_arg_count + 1) float_arg_count
    else if win && negb (word_arg_count =? 0) then None
    else xenter_args fuel (Z.shiftr arg_types 4) saved_arg_count word_arg_count (float_arg_count + 1)
  end.
(** X64:591-622: the pages of the frame are touched (Windows), and the stack pointer is set *)
Definition load_sp (d off : Z) : option (list Z) := emit_mov win false (AReg d) 0 (AMem SLJIT_SP 0) off.
Definition sub_imm (d v : Z) : option (list Z) := binary_imm32 win false 0x28 v (AReg d) 0.
Definition add_imm (d v : Z) : option (list Z) := binary_imm32 win false 0 v (AReg d) 0.
Definition probe_loop : option (list Z) := load_sp TMP_REG2 (-4096) +++ sub_imm SLJIT_SP 4096 +++ sub_imm TMP_REG1 1 +++ Some [0x75; u8 (-21)].
Definition enter_frame (local_size : Z) : option (list Z) :=
  if win then
    if local_size >? 0 then
      (if local_size <=? 4 * 4096 then
         (if local_size >? 4096 then load_sp TMP_REG1 (-4096) else Some [])
         +++ (if local_size >? 2 * 4096 then load_sp TMP_REG1 (-4096 * 2) else Some [])
         +++ (if local_size >? 3 * 4096 then load_sp TMP_REG1 (-4096 * 3) else Some [])
       else emit_mov win false (AReg TMP_REG1) 0 AImm (Z.shiftr local_size 12) +++ probe_loop)
      +++ let local_size := if local_size <=? 4 * 4096 then local_size else Z.land local_size 0xfff in
      if local_size >? 0 then load_sp TMP_REG1 (- local_size) +++ sub_imm SLJIT_SP local_size else Some []
    else Some []
  else if local_size >? 0 then sub_imm SLJIT_SP local_size else Some [].
(** sljit_emit_enter, X64:456-626. The context it leaves in the compiler is [xset_context options scratches saveds local_size] (X64:474, 491 and 516-524, 588-589
    compute the same). In the loops over the saved registers the number of saved registers is that of the context (X64:478: on other systems than
    Windows there are no saved floating point and vector registers, so the argument is the same number). *)
Definition xemit_enter (options arg_types scratches saveds local_size : Z) : option (list Z) :=
  let x := xset_context options scratches saveds local_size in
  let arg_types := if negb (Z.land options SLJIT_ENTER_REG_ARG =? 0) then 0 else arg_types in
  if fsave x then None
  else
    Some endbranch +++ Some (flat_map push_reg (pushed x))
    +++ xenter_args 8 (Z.shiftr arg_types 4) (KEPT options) 0 0
    +++ enter_frame (x_local x).

(** The registers restored, in the order of the pops: X64:706-733 *)
Definition up (lo hi : Z) : list Z := rev (down hi (lo - 1)).
Definition popped (x : ctx) : list Z := up FIRST_SAVED (x_scratches x) ++ up (XS0 + 1 - x_saveds x) (XS0 - KEPT (x_options x)).
(** emit_stack_frame_release, X64:666-738 *)
Definition xrelease (x : ctx) (is_return_to : bool) : option (list Z) :=
  if fsave x then None
  else
    let empty := is_return_to && (x_scratches x <? FIRST_SAVED) && (x_saveds x =? KEPT (x_options x)) in
    let local_size := if empty then x_local x + 8 else x_local x in
    (if local_size >? 0 then add_imm SLJIT_SP local_size else Some [])
    +++ Some (flat_map pop_reg (popped x))
    +++ (if is_return_to && negb empty then add_imm SLJIT_SP 8 else Some []).
(** sljit_emit_return_void, X64:740-749 *)
Definition xreturn_void (x : ctx) : option (list Z) := xrelease x false +++ Some [0xc3].
(** sljit_emit_return with an integer, sljitLir.c:3469-3482, 3498-3511 *)
Definition xreturn (lz tz cmov is32 : bool) (x : ctx) (k : op1k) (src : arg) (srcw : Z) : option (list Z) :=
  (match src, k with
   | AReg r, (O_MOV | O_MOV_P) => if r =? XR0 then Some [] else emit_op1 win lz tz cmov is32 k (AReg XR0) 0 src srcw
   | _, _ => emit_op1 win lz tz cmov is32 k (AReg XR0) 0 src srcw
   end) +++ xreturn_void x.
(** sljit_emit_ijump for sources other than an immediate, X86C:3585-3592; an immediate becomes a jump record (X86Link.KJump). [call]: type >= SLJIT_FAST_CALL *)
Definition xijump (call : bool) (src : arg) (srcw : Z) : option (list Z) := insd win true 0xff (if call then 0x10 else 0x20) (AReg 0) 0 src srcw.
(** The registers which are restored before the jump, X64:759, 932 *)
Definition restored (x : ctx) (src : arg) : bool := match src with AReg r => (r >=? FIRST_SAVED) && (r <=? XS0 - KEPT (x_options x)) | _ => false end.
(** sljit_emit_return_to, X64:751-773, for sources other than an immediate; for an immediate the code is [xrelease x true] followed by the jump record. *)
Definition xreturn_to (x : ctx) (src : arg) (srcw : Z) : option (list Z) :=
  if is_mem src || restored x src then emit_mov win false (AReg TMP_REG2) 0 src srcw +++ xrelease x true +++ xijump false (AReg TMP_REG2) 0
  else xrelease x true +++ xijump false src srcw.

(** call_with_args, X64:783-816 (not Windows) and X64:818-893 (Windows): the code, and the source of the jump. *)
Fixpoint word_args (fuel : nat) (arg_types : Z) : Z :=
  match fuel with
  | O => 0
  | S fuel => if arg_types =? 0 then 0 else (if Z.land arg_types SLJIT_ARG_MASK <? SLJIT_ARG_TYPE_F64 then 1 else 0) + word_args fuel (Z.shiftr arg_types 4)
  end.
Definition call_args_unix (arg_types : Z) (src : option Z) : option (list Z) * option Z :=
  let n := word_args 8 (Z.shiftr arg_types 4) in
  let is_r2 := match src with Some r => r =? XR2 | None => false end in
  if n =? 0 then (Some [], src)
  else ((if (n >=? 3) || is_r2 then movrr TMP_REG1 XR2 else Some []) +++ movrr XR2 XR0, if is_r2 then Some TMP_REG1 else src).
(** word_arg_regs, X64:828 *)
Definition word_arg_regs : list Z := [0; XR3; XR1; XR2; TMP_REG1].
Definition arg_kept (arg_count word_arg_count : Z) : bool :=
  (arg_count =? word_arg_count) && (arg_count =? nth (Z.to_nat arg_count) word_arg_regs 0).
(** The first loop, X64:836-865: types, arg_count, word_arg_count, float_arg_count, data_trandfer, the code and the source *)
Record cargs := mkCA { a_types : Z; a_count : Z; a_words : Z; a_floats : Z; a_move : bool; a_code : option (list Z); a_src : option Z }.
Fixpoint call_scan (fuel : nat) (arg_types : Z) (src0 : option Z) (c : cargs) : cargs :=
  match fuel with
  | O => c
  | S fuel =>
    if arg_types =? 0 then c
    else
      let t := Z.land arg_types SLJIT_ARG_MASK in
      let types := Z.lor (Z.shiftl (a_types c) 4) t in
      let n := a_count c + 1 in
      call_scan fuel (Z.shiftr arg_types 4) src0
        (if (t =? 4) || (t =? 5) then mkCA types n (a_words c) (a_floats c + 1) (a_move c || negb (n =? a_floats c + 1)) (a_code c) (a_src c)
         else if arg_kept n (a_words c + 1) then mkCA types n (a_words c + 1) (a_floats c) (a_move c) (a_code c) (a_src c)
         else
           let hit := match src0 with Some r => r =? nth (Z.to_nat n) word_arg_regs 0 | None => false end in
           mkCA types n (a_words c + 1) (a_floats c) true
             (if hit then a_code c +++ movrr TMP_REG2 (nth (Z.to_nat n) word_arg_regs 0) else a_code c) (if hit then Some TMP_REG2 else a_src c))
  end.
(** The second loop, X64:870-892 *)
Fixpoint call_moves (fuel : nat) (types arg_count word_arg_count float_arg_count : Z) : option (list Z) :=
  match fuel with
  | O => Some []
  | S fuel =>
    if types =? 0 then Some []
    else
      let t := Z.land types SLJIT_ARG_MASK in
      if (t =? 4) || (t =? 5) then
        if arg_count =? float_arg_count then call_moves fuel (Z.shiftr types 4) (arg_count - 1) word_arg_count (float_arg_count - 1) else None
      else
        (if arg_kept arg_count word_arg_count then Some [] else movrr (nth (Z.to_nat arg_count) word_arg_regs 0) word_arg_count)
        +++ call_moves fuel (Z.shiftr types 4) (arg_count - 1) (word_arg_count - 1) float_arg_count
  end.
Definition call_args_win (arg_types : Z) (src : option Z) : option (list Z) * option Z :=
  let c := call_scan 8 (Z.shiftr arg_types 4) src (mkCA 0 0 0 0 false (Some []) src) in
  (a_code c +++ (if a_move c then call_moves 8 (a_types c) (a_count c) (a_words c) (a_floats c) else Some []), a_src c).
Definition call_with_args (arg_types : Z) (src : option Z) : option (list Z) * option Z :=
  if win then call_args_win arg_types src else call_args_unix arg_types src.

(** sljit_emit_call, X64:895-914: the code before the jump record ([ret]: SLJIT_CALL_RETURN, [reg_arg]: SLJIT_CALL_REG_ARG) *)
Definition xcall_pre (x : ctx) (ret reg_arg : bool) (arg_types : Z) : option (list Z) :=
  (if reg_arg then Some [] else fst (call_with_args arg_types None)) +++ (if ret then xrelease x false else Some []).
(** sljit_emit_icall, X64:916-951, for registers and memory *)
Definition xicall (x : ctx) (ret reg_arg : bool) (arg_types : Z) (src : arg) (srcw : Z) : option (list Z) :=
  let pre := if is_mem src then emit_mov win false (AReg TMP_REG2) 0 src srcw else Some [] in
  let src := if is_mem src then AReg TMP_REG2 else src in
  let rel := if ret then (if restored x src then emit_mov win false (AReg TMP_REG2) 0 src srcw else Some []) +++ xrelease x false else Some [] in
  let src := if ret && restored x src then TMP_REG2 else reg_of src in
  let ca := if reg_arg then (Some [], Some src) else call_with_args arg_types (Some src) in
  pre +++ rel +++ fst ca +++ xijump (negb ret) (AReg (match snd ca with Some r => r | None => src end)) srcw.

(** sljit_emit_op_dst (X86C:3043-3068): emit_fast_enter X64:953-974, sljit_emit_get_return_address X64:1011-1020;
    sljit_emit_op_src (X86C:3020-3041) with SLJIT_FAST_RETURN: emit_fast_return X64:976-1009 *)
Definition xfast_enter (dst : arg) (dstw : Z) : option (list Z) :=
  match dst with AReg r => Some (pop_reg r) | _ => ins win true (fl 1) 0x8f (AReg 0) 0 dst dstw end.
Definition xfast_return (src : arg) (srcw : Z) : option (list Z) :=
  match src with AReg r => Some (push_reg r ++ [0xc3]) | _ => insd win true 0xff 0x30 (AReg 0) 0 src srcw +++ Some [0xc3] end.
Definition xget_return_address (x : ctx) (dst : arg) (dstw : Z) : option (list Z) :=
  emit_mov win false dst dstw (AMem SLJIT_SP 0) (x_local x + saved_size (x_scratches x) (x_saveds x - KEPT (x_options x)) 0).
End F.
