(** C43: sljit_emit_op_flags and sljit_emit_select on x86-64. *)
Require Import ZArith List Bool Lia.
From Verif Require Import Rv.RvLib Rv.RvIsa Rv.RvMem Rv.RvOp Rv.RvLir Rv.RvCond Rv.RvCondSpec X86.X86Isa X86.X86Emit X86.X86Spec X86.X86OpSpec X86.X86Op X86.X86Cond X86.X86Op2Top X86.X86Op1 X86.X86C34
  X86.X86Misc X86.X86C43.
Import ListNotations.
Open Scope Z_scope.

(** The condition as the second operand (sljitLir.h:1917-1928): MOV stores 0 or 1 and keeps the flags; AND, OR, XOR combine it with the destination and set Z on request. *)
Theorem C43_op_flags : forall u w o k D Dw t s c, flags_op o k -> xdst_legal D Dw -> ctype t -> xwf s -> cond_val s (jump_code t - 0x80) = Some c ->
  let n := nbits (f32 o) in
  does u (emit_op_flags w o k D Dw t) s (fun s' =>
    wrote1 w n (n / 8) (setz o = true \/ k <> Some O_OR) TMPS s D Dw (flags_val k n (xval w n s D Dw) c) s'
    /\ (k = None -> flags_same s s')
    /\ (setz o = true -> forall t', t' = SLJIT_EQUAL \/ t' = SLJIT_NOT_EQUAL -> cond_val s' (jump_code t' - 0x80) = Some (xorb (t' =? SLJIT_NOT_EQUAL) (flags_val k n (xval w n s D Dw) c mod 2 ^ n =? 0)))).
Proof. exact flags_user. Qed.
Print Assumptions C43_op_flags.

(** After sljit_emit_op2u (a comparison, a test, ...) the operand is the condition of the API on the values compared. *)
Theorem C43_compare : forall u w o k cy S1 S1w S2 S2w o2 k2 D Dw t s,
  xsrc_legal S1 S1w -> xsrc_legal S2 S2w -> flags_legal k (setz o) (vf o) -> op2u_bad k S2 S2w = false -> carry_known k s cy -> xwf s -> ctype t -> requested o t ->
  flags_op o2 k2 -> xdst_legal D Dw ->
  let n := nbits (f32 o) in let n2 := nbits (f32 o2) in let b := cond t k n (xval w n s S1 S1w) (xval w n s S2 S2w) cy in
  does u (cat (emit_op2u w o k S1 S1w S2 S2w) (emit_op_flags w o2 k2 D Dw t)) s (fun s' => wrote1 w n2 (n2 / 8) False TMPS s D Dw (flags_val k2 n2 (xval w n2 s D Dw) b) s').
Proof. exact compare_flags. Qed.
Print Assumptions C43_compare.

(** sljit_emit_select, with and without the conditional move instruction: one of the two sources, nothing else changes, not even the flags. *)
Theorem C43_select : forall u w cmov m t d A Aw r2 s c, ctype t -> xureg d -> xsrc_legal A Aw -> xureg r2 -> xwf s -> cond_val s (jump_code t - 0x80) = Some c ->
  let n := nbits m in
  does u (emit_select w cmov m t d A Aw r2) s (fun s' =>
    wrote1 w n (n / 8) (cmov = true \/ (d <> r2 /\ A <> AReg d)) TMPS s (AReg d) 0 (if c then xval w n s A Aw else xval w n s (AReg r2) 0) s' /\ flags_same s s').
Proof. exact select_user. Qed.
Print Assumptions C43_select.

(** SLJIT_UPPER_BITS_ZERO_EXTENDED: the 32 bit forms clear the upper half of the register under the conditions in [wrote1] above, but not always: OR32 without a flag, and
    select32 without the conditional move instruction when the register keeps its value. *)
Theorem C43_upper_refuted : flags_op (mkOp (K2 O_OR) true false VNone) (Some O_OR) /\ xureg 1 /\ xureg 2 /\ xwf demo32 /\ cond_val demo32 (jump_code SLJIT_EQUAL - 0x80) = Some true
  /\ ~ does 0 (emit_op_flags false (mkOp (K2 O_OR) true false VNone) (Some O_OR) (AReg 1) 0 SLJIT_EQUAL) demo32 (fun s' => 0 <= xr s' (reg_map false 1) < 2 ^ 32)
  /\ ~ does 0 (emit_select false false true SLJIT_NOT_EQUAL 1 (AReg 2) 0 1) demo32 (fun s' => 0 <= xr s' (reg_map false 1) < 2 ^ 32)
  /\ ~ does 0 (emit_select false false true SLJIT_EQUAL 1 (AReg 1) 0 2) demo32 (fun s' => 0 <= xr s' (reg_map false 1) < 2 ^ 32).
Proof. exact flags_upper_wrong. Qed.
Print Assumptions C43_upper_refuted.

(** Cases: R1 = 7, R3 = 2, R0 = 0x1000.  [R0 + 2^40] ^= (R1 < R3) and R11 |= (R1 > R3), both after comparisons; R0 = R1 > R3 ? [R0] : R3 without CMOV. *)
Definition cmp (v : vflag) : op := mkOp (K2 O_SUB) false false v.
Definition fop (k : op2k) : op := mkOp (K2 k) false false VNone.
Definition after (c : option (list Z)) (f : xst -> Z) : option Z :=
  match c with Some l => match run 0 30 l demo with Some s' => Some (f s') | None => None end | None => None end.
Example C43_cases :
  (xdst_legal (AMem 1 0) (2 ^ 40) /\ xdst_legal (AReg 12) 0 /\ xsrc_legal (AMem 1 0) 0 /\ xwf demo /\ requested (cmp VSigGreater) SLJIT_SIG_GREATER /\ flags_legal O_SUB false VSigGreater
    /\ flags_op (fop O_XOR) (Some O_XOR) /\ flags_op (fop O_OR) (Some O_OR))
  /\ after (cat (emit_op2u false (cmp VSigLess) O_SUB (AReg 2) 0 (AReg 4) 0) (emit_op_flags false (fop O_XOR) (Some O_XOR) (AMem 1 0) (2 ^ 40) SLJIT_SIG_LESS)) (fun s => load (xm s) (0x1000 + 2 ^ 40) 8) = Some 0x303030303030303
  /\ after (cat (emit_op2u false (cmp VSigLess) O_SUB (AReg 2) 0 (AReg 4) 0) (emit_op_flags false (fop O_XOR) (Some O_XOR) (AMem 1 0) (2 ^ 40) SLJIT_SIG_GREATER_EQUAL)) (fun s => load (xm s) (0x1000 + 2 ^ 40) 8) = Some 0x303030303030302
  /\ after (cat (emit_op2u false (cmp VSigGreater) O_SUB (AReg 2) 0 (AReg 4) 0) (emit_op_flags false (fop O_OR) (Some O_OR) (AReg 12) 0 SLJIT_SIG_GREATER)) (fun s => xr s (reg_map false 12)) = Some 1
  /\ after (cat (emit_op2u false (cmp VSigGreater) O_SUB (AReg 2) 0 (AReg 4) 0) (emit_select false false false SLJIT_SIG_GREATER 1 (AMem 1 0) 0 4)) (fun s => xr s 0) = Some 0x303030303030303
  /\ after (cat (emit_op2u false (cmp VSigGreater) O_SUB (AReg 2) 0 (AReg 4) 0) (emit_select false true false SLJIT_SIG_LESS_EQUAL 1 AImm 99 4)) (fun s => xr s 0) = Some 2.
Proof.
  split; [|repeat split; vm_compute; reflexivity]. split; [legal|]. split; [legal|]. split; [legal|]. split; [exact demo_wf|]. split; [reflexivity|]. split; [vm_compute; auto|].
  split; (split; [reflexivity|auto]).
Qed.
