(** C34: sljit_emit_op2, sljit_emit_op2u and sljit_emit_op2r (SLJIT_MULADD) on x86-64: results and everything that must stay unchanged. *)
Require Import ZArith List Bool Lia.
From Verif Require Import Rv.RvLib Rv.RvIsa Rv.RvMem Rv.RvOp Rv.RvLir X86.X86Isa X86.X86Emit X86.X86Spec X86.X86OpSpec X86.X86Op X86.X86Op2 X86.X86Op2Top X86.X86C34.
Import ListNotations.
Open Scope Z_scope.

(** Full statement: the theorem without the hypothesis [op2_bad ... = false].  It is false of the code: see C34_op2_refuted.  Excluded are
    only operands whose second source is a memory operand: the address depends on a register destination that is not the first source as
    well (not for negation, binary not, and multiplication by an immediate), or the amount of a shift is at a displacement of more than 32 bits. *)
Theorem C34_op2_partial : forall u w o k c D Dw S1 S1w S2 S2w s,
  legal2 D Dw S1 S1w S2 S2w -> flags_legal k (setz o) (vf o) -> op2_bad o k D S1 S1w S2 S2w = false -> carry_known k s c -> xwf s ->
  let n := nbits (f32 o) in
  does u (emit_op2 w o k D Dw S1 S1w S2 S2w) s (fun s' => wrote w n TMPS s D Dw (res2 k n (xval w n s S1 S1w) (xval w n s S2 S2w) c) s').
Proof. exact op2_results. Qed.
Print Assumptions C34_op2_partial.

(** Only the flags are set: no register of the user, no memory.  Full statement: without [op2u_bad]; false, see C34_op2_refuted. *)
Theorem C34_op2u_partial : forall u w o k c S1 S1w S2 S2w s,
  xsrc_legal S1 S1w -> xsrc_legal S2 S2w -> flags_legal k (setz o) (vf o) -> op2u_bad k S2 S2w = false -> carry_known k s c -> xwf s ->
  does u (emit_op2u w o k S1 S1w S2 S2w) s (fun s' => xm s' = xm s /\ regs_same w TMPS s s').
Proof. exact op2u_results. Qed.
Print Assumptions C34_op2u_partial.

Theorem C34_muladd : forall u w is32 d S1 S1w S2 S2w s, xureg d -> xsrc_legal S1 S1w -> xsrc_legal S2 S2w -> xwf s ->
  let n := nbits is32 in
  does u (emit_muladd w is32 d S1 S1w S2 S2w) s (fun s' =>
    wrote w n TMPS s (AReg d) 0 (xval w n s (AReg d) 0 + xval w n s S1 S1w * xval w n s S2 S2w) s').
Proof. exact muladd_user. Qed.
Print Assumptions C34_muladd.

(** Operands that the API allows, for which the code is wrong: ADD32 R0 = R1 + [R0]; MUL R0 = R1 * [R0]; MSHL [R0] = R1 << [R0 + 2^40] and the
    same shift that only sets the zero flag. *)
Theorem C34_op2_refuted :
  (legal2 (AReg 1) 0 (AReg 2) 0 (AMem 1 0) 0 /\ legal2 (AMem 1 0) 0 (AReg 2) 0 (AMem 1 0) (2 ^ 40) /\ xwf demo /\ xwf demo5)
  /\ ~ does 0 (emit_op2 false (mkOp (K2 O_ADD) true false VNone) O_ADD (AReg 1) 0 (AReg 2) 0 (AMem 1 0) 0) demo5
       (fun s' => wrote false 32 TMPS demo5 (AReg 1) 0 (res2 O_ADD 32 (xval false 32 demo5 (AReg 2) 0) (xval false 32 demo5 (AMem 1 0) 0) false) s')
  /\ ~ does 0 (emit_op2 false (mkOp (K2 O_MUL) false false VNone) O_MUL (AReg 1) 0 (AReg 2) 0 (AMem 1 0) 0) demo
       (fun s' => wrote false 64 TMPS demo (AReg 1) 0 (res2 O_MUL 64 (xval false 64 demo (AReg 2) 0) (xval false 64 demo (AMem 1 0) 0) false) s')
  /\ ~ does 0 (emit_op2 false (mkOp (K2 O_MSHL) false false VNone) O_MSHL (AMem 1 0) 0 (AReg 2) 0 (AMem 1 0) (2 ^ 40)) demo
       (fun s' => wrote false 64 TMPS demo (AMem 1 0) 0 (res2 O_MSHL 64 (xval false 64 demo (AReg 2) 0) (xval false 64 demo (AMem 1 0) (2 ^ 40)) false) s')
  /\ ~ does 0 (emit_op2u false (mkOp (K2 O_MSHL) false true VNone) O_MSHL (AReg 2) 0 (AMem 1 0) (2 ^ 40)) demo
       (fun s' => xm s' = xm demo /\ regs_same false TMPS demo s').
Proof. exact op2_wrong. Qed.
Print Assumptions C34_op2_refuted.

(** Cases: the hypotheses are met, and the code run by the processor model.  ADDC R0 = R0 + R1 with the carry set; a rotation of
    [R0 + R1 * 4] by R1 with the amount moved through RCX (R3 is restored); a 64 bit immediate operand. *)
Example C34_cases :
  (legal2 (AReg 1) 0 (AReg 1) 0 (AReg 2) 0 /\ op2_bad (mkOp (K2 O_ADDC) false false VCarry) O_ADDC (AReg 1) (AReg 1) 0 (AReg 2) 0 = false
   /\ flags_legal O_ADDC false VCarry)
  /\ (legal2 (AMem 1 2) 2 (AMem 1 2) 2 (AReg 2) 0 /\ op2_bad (mkOp (K2 O_ROTL) true false VNone) O_ROTL (AMem 1 2) (AMem 1 2) 2 (AReg 2) 0 = false)
  /\ emit_op2 false (mkOp (K2 O_ADDC) false false VCarry) O_ADDC (AReg 1) 0 (AReg 1) 0 (AReg 2) 0 = Some [0x48; 0x13; 0xc6]
  /\ (match emit_op2 false (mkOp (K2 O_ROTL) true false VNone) O_ROTL (AMem 1 2) 2 (AMem 1 2) 2 (AReg 2) 0 with
      | Some l => match run 0 20 l demo with Some s' => Some (load (xm s') (0x1000 + 7 * 4) 4, xr s' 1) | None => None end | None => None end)
     = Some (0x81818181, 2)
  /\ (match emit_op2 false (mkOp (K2 O_XOR) false false VNone) O_XOR (AMem 14 0) 8 (AReg 2) 0 AImm 0x123456789abcdef0 with
      | Some l => match run 0 20 l demo with Some s' => Some (load (xm s') 8 8) | None => None end | None => None end)
     = Some 0x123456789abcdef7.
Proof.
  split; [|split; [|repeat split; vm_compute; reflexivity]].
  - split; [unfold legal2; legal|split; [reflexivity|cbn; auto]].
  - split; [unfold legal2; legal|reflexivity].
Qed.
