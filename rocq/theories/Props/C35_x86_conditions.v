(** C35: the conditions after sljit_emit_op2 and sljit_emit_op2u on x86-64: the condition code of get_jump_code, evaluated by the processor on the flags left by
    the emitted code, is the condition of the API on the values of the operands. *)
Require Import ZArith List Bool Lia.
From Verif Require Import Rv.RvLib Rv.RvIsa Rv.RvMem Rv.RvOp Rv.RvLir Rv.RvCond Rv.RvCondSpec X86.X86Isa X86.X86Emit X86.X86Spec X86.X86OpSpec X86.X86Op X86.X86Cond X86.X86Op2 X86.X86Op2Top X86.X86C34.
Import ListNotations.
Open Scope Z_scope.

(** Full statement: without [op2_bad] (operands for which the result is wrong, C34), false since the zero flag is set from that result:
    C35_refuted.  All fourteen conditions, for those flags that the operation was asked to set. *)
Theorem C35_op2_partial : forall u w o k c D Dw S1 S1w S2 S2w s,
  legal2 D Dw S1 S1w S2 S2w -> flags_legal k (setz o) (vf o) -> op2_bad o k D S1 S1w S2 S2w = false -> carry_known k s c -> xwf s ->
  let n := nbits (f32 o) in
  does u (emit_op2 w o k D Dw S1 S1w S2 S2w) s (fun s' =>
    forall t, ctype t -> requested o t -> cond_val s' (jump_code t - 0x80) = Some (cond t k n (xval w n s S1 S1w) (xval w n s S2 S2w) c)).
Proof. exact op2_conditions. Qed.
Print Assumptions C35_op2_partial.

(** Comparisons, tests and the other operations without a result: the shift amount at a far displacement is excluded as well, although
    only SLJIT_R3 is destroyed (C34); the conditions after comparisons and tests hold for all operands. *)
Theorem C35_op2u_partial : forall u w o k c S1 S1w S2 S2w s,
  xsrc_legal S1 S1w -> xsrc_legal S2 S2w -> flags_legal k (setz o) (vf o) -> op2u_bad k S2 S2w = false -> carry_known k s c -> xwf s ->
  let n := nbits (f32 o) in
  does u (emit_op2u w o k S1 S1w S2 S2w) s (fun s' =>
    forall t, ctype t -> requested o t -> cond_val s' (jump_code t - 0x80) = Some (cond t k n (xval w n s S1 S1w) (xval w n s S2 S2w) c)).
Proof. exact op2u_conditions. Qed.
Print Assumptions C35_op2u_partial.

(** SUB32|SET_Z R0 = R1 - [R0] where both are 7, but the memory at address 7 is not. *)
Theorem C35_refuted :
  legal2 (AReg 1) 0 (AReg 2) 0 (AMem 1 0) 0 /\ xwf demo7 /\ flags_legal O_SUB true VNone /\
  ~ does 0 (emit_op2 false (mkOp (K2 O_SUB) true true VNone) O_SUB (AReg 1) 0 (AReg 2) 0 (AMem 1 0) 0) demo7
      (fun s' => forall t, ctype t -> requested (mkOp (K2 O_SUB) true true VNone) t ->
        cond_val s' (jump_code t - 0x80) = Some (cond t O_SUB 32 (xval false 32 demo7 (AReg 2) 0) (xval false 32 demo7 (AMem 1 0) 0) false)).
Proof. exact conditions_wrong. Qed.
Print Assumptions C35_refuted.

(** A case: SUB|SET_SIG_LESS R0 = R3 - R1 with 2 and 7: jl is taken, jnl is not; a negation of R1 with SET_CARRY sets the carry. *)
Example C35_cases :
  let c t o k D S1 S1w S2 := match emit_op2 false o k D 0 S1 S1w S2 0 with
    | Some l => match run 0 9 l demo with Some s' => cond_val s' (jump_code t - 0x80) | None => None end | None => None end in
  (c SLJIT_SIG_LESS (mkOp (K2 O_SUB) false false VSigLess) O_SUB (AReg 1) (AReg 4) 0 (AReg 2) = Some true)
  /\ (c SLJIT_SIG_GREATER_EQUAL (mkOp (K2 O_SUB) false false VSigLess) O_SUB (AReg 1) (AReg 4) 0 (AReg 2) = Some false)
  /\ (c SLJIT_CARRY (mkOp (K2 O_SUB) false false VCarry) O_SUB (AReg 1) AImm 0 (AReg 2) = Some true)
  /\ (legal2 (AReg 1) 0 (AReg 4) 0 (AReg 2) 0 /\ requested (mkOp (K2 O_SUB) false false VSigLess) SLJIT_SIG_GREATER_EQUAL
      /\ op2_bad (mkOp (K2 O_SUB) false false VSigLess) O_SUB (AReg 1) (AReg 4) 0 (AReg 2) 0 = false).
Proof. repeat split; try (vm_compute; reflexivity); unfold legal2; legal. Qed.
