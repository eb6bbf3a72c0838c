(** C36: sljit_emit_op1 on x86-64: moves, bit counts, byte reversals. *)
Require Import ZArith List Bool Lia.
From Verif Require Import Rv.RvLib Rv.RvIsa Rv.RvMem Rv.RvOp Rv.RvLir X86.X86Isa X86.X86Emit X86.X86Spec X86.X86OpSpec X86.X86Op X86.X86Op1 X86.X86C34 X86.X86C36.
Import ListNotations.
Open Scope Z_scope.

(** [n1] is the length of the result in a register, [sz1] the number of bytes accessed in memory (sljitLir.h:1232-1315); [lz], [tz] and
    [cmov] are the features of the processor found at run time. *)
Theorem C36_op1 : forall u w lz tz cmov is32 k D Dw S Sw s, xdst_legal D Dw -> src1_legal k S Sw -> xwf s ->
  does u (emit_op1 w lz tz cmov is32 k D Dw S Sw) s (fun s' =>
    exists r, res1 k (n1 k is32) (xval w (8 * sz1 k is32) s S Sw) r /\ wrote1 w (n1 k is32) (sz1 k is32) False TMPS s D Dw r s').
Proof. exact op1_results. Qed.
Print Assumptions C36_op1.

(** sljitLir.h:1232-1268: moves do not modify flags. *)
Theorem C36_mov_flags : forall u w lz tz cmov is32 k D Dw S Sw s, xdst_legal D Dw -> xsrc_legal S Sw -> is_mov k = true -> xwf s ->
  does u (emit_op1 w lz tz cmov is32 k D Dw S Sw) s (fun s' => xcf s' = xcf s /\ xzf s' = xzf s /\ xsf s' = xsf s /\ xof s' = xof s).
Proof. exact mov_keeps_flags. Qed.
Print Assumptions C36_mov_flags.

(** SLJIT_UPPER_BITS_ZERO_EXTENDED (sljitConfigInternal.h:54, 637): 32 bit operations clear the upper bits of destination registers.  Full
    statement: the theorem without the hypothesis [clears ... = true].  It is false of the code, see C36_upper_refuted; excluded are MOV32_S8,
    MOV32_S16, REV32_S16 of another operand, and MOV32 of a register to itself (for which sljitLir.h:1080-1081 says that nothing is emitted). *)
Theorem C36_upper_partial : forall u w lz tz cmov is32 k d S Sw s, xureg d -> src1_legal k S Sw -> n1 k is32 = 32 -> clears k (AReg d) S = true -> xwf s ->
  does u (emit_op1 w lz tz cmov is32 k (AReg d) 0 S Sw) s (fun s' => 0 <= xr s' (reg_map w d) < 2 ^ 32).
Proof. exact op1_upper. Qed.
Print Assumptions C36_upper_partial.

Theorem C36_upper_refuted : src1_legal O_MOV_S8 (AReg 2) 0 /\ src1_legal O_MOV_S16 (AReg 2) 0 /\ src1_legal O_REV_S16 (AReg 2) 0 /\ xureg 1 /\ xwf demo9
  /\ ~ does 0 (emit_op1 false true true true true O_MOV_S8 (AReg 1) 0 (AReg 2) 0) demo9 (fun s' => 0 <= xr s' (reg_map false 1) < 2 ^ 32)
  /\ ~ does 0 (emit_op1 false true true true true O_MOV_S16 (AReg 1) 0 (AReg 2) 0) demo9 (fun s' => 0 <= xr s' (reg_map false 1) < 2 ^ 32)
  /\ ~ does 0 (emit_op1 false true true true true O_REV_S16 (AReg 1) 0 (AReg 2) 0) demo9 (fun s' => 0 <= xr s' (reg_map false 1) < 2 ^ 32).
Proof. exact upper_wrong. Qed.
Print Assumptions C36_upper_refuted.

(** Cases: the code run by the processor model.  R0 = clz R1 without LZCNT and CMOV; [R0 + R1 * 4] = rev16 of [R0 + 2^40]; R2 = mov.s8 of the byte at
    R0; R0 = rev.s32 R1. *)
Example C36_cases :
  (xdst_legal (AMem 1 2) 2 /\ src1_legal O_REV_U16 (AMem 1 0) (2 ^ 40) /\ src1_legal O_CLZ (AReg 2) 0 /\ xwf demo /\ n1 O_CLZ true = 32 /\ clears O_CLZ (AReg 1) (AReg 2) = true)
  /\ (match emit_op1 false false false false false O_CLZ (AReg 1) 0 (AReg 2) 0 with
      | Some l => match run 0 20 l demo with Some s' => Some (xr s' 0) | None => None end | None => None end) = Some 61
  /\ (match emit_op1 false false false false true O_CLZ (AReg 1) 0 (AReg 4) 0 with
      | Some l => match run 0 20 l (setr demo (reg_map false 4) 0) with Some s' => Some (xr s' 0) | None => None end | None => None end) = Some 32
  /\ (match emit_op1 false false false true false O_REV_U16 (AMem 1 2) 2 (AMem 1 0) (2 ^ 40) with
      | Some l => match run 0 20 l (setmem demo (fun a => if a =? 2 ^ 40 + 0x1000 then 0x12 else 0x34)) with Some s' => Some (load (xm s') (0x1000 + 28) 2) | None => None end | None => None end) = Some 0x1234
  /\ (match emit_op1 false false false true false O_MOV_S8 (AReg 3) 0 (AMem 1 0) 0 with
      | Some l => match run 0 20 l (setmem demo (fun a => 0x90)) with Some s' => Some (xr s' (reg_map false 3)) | None => None end | None => None end) = Some 0xffffffffffffff90
  /\ (match emit_op1 false false false true false O_REV_S32 (AReg 1) 0 (AReg 2) 0 with
      | Some l => match run 0 20 l (setr demo 6 0x120000ff) with Some s' => Some (xr s' 0) | None => None end | None => None end) = Some 0xffffffffff000012.
Proof.
  split; [|repeat split; vm_compute; reflexivity]. split; [legal|]. split; [split; [legal|intros _; discriminate]|]. split; [split; [legal|intros _; discriminate]|].
  split; [exact demo_wf|]. split; reflexivity.
Qed.
