(** sljit_emit_shift_into on x86-64 for the operands of the user, and operands for which the code is wrong. *)
Require Import ZArith List Bool Lia.
From Verif Require Import Rv.RvLib Rv.RvIsa Rv.RvMem Rv.RvOp Rv.RvLir Rv.RvShiftInto X86.X86Isa X86.X86Emit X86.X86Spec X86.X86OpSpec X86.X86Op X86.X86Ins X86.X86Mov X86.X86Shift X86.X86Op1 X86.X86Into X86.X86C34 X86.X86C36.
Import ListNotations.
Ltac Zify.zify_post_hook ::= idtac.
Open Scope Z_scope.

(** check_sljit_emit_shift_into, sljitLir.c:1947-1962 *)
Definition into_legal (dst src1 src2 : Z) (src3 : arg) (src3w : Z) : Prop := xureg dst /\ xureg src1 /\ xureg src2 /\ dst <> src2 /\ xsrc_legal src3 src3w.
Lemma into_user : forall u w is32 left dst src1 src2 src3 src3w s, into_legal dst src1 src2 src3 src3w -> into_bad is32 dst src1 src2 src3 src3w = false -> xwf s ->
  let n := nbits is32 in
  does u (emit_shift_into w is32 left dst src1 src2 src3 src3w) s (fun s' =>
    xr s' (reg_map w dst) mod 2 ^ n = res_into left n (xr s (reg_map w src1)) (xr s (reg_map w src2)) (xval w n s src3 src3w mod n) mod 2 ^ n
    /\ xm s' = xm s /\ regs_same w (dst :: TMPS) s s').
Proof.
  intros u w is32 left dst src1 src2 src3 src3w s (A & B & C & D & E) NB W n. eapply does_conseq; [apply into_ok; eauto|].
  intros s' _ (H1 & _ & (H2 & H3)). auto.
Qed.
Lemma into_upper : forall u w left dst src1 src2 src3 src3w s, into_legal dst src1 src2 src3 src3w -> into_bad true dst src1 src2 src3 src3w = false -> into_zero true src3 src3w = false -> xwf s ->
  does u (emit_shift_into w true left dst src1 src2 src3 src3w) s (fun s' => 0 <= xr s' (reg_map w dst) < 2 ^ 32).
Proof.
  intros u w left dst src1 src2 src3 src3w s (A & B & C & D & E) NB NZ W. eapply does_conseq; [apply into_ok; eauto|].
  intros s' W' (_ & H2 & _). split; [apply W'|exact (H2 NZ)].
Qed.
Ltac legal3 := unfold into_legal; legal.
Lemma into_wrong :
  (into_legal 1 2 3 AImm 64 /\ into_legal 1 2 3 (AMem 1 0) 0 /\ into_legal 1 4 3 (AReg 1) 0 /\ into_legal 1 2 2 (AMem 1 0) (2 ^ 40) /\ xwf demo)
  /\ ~ does 0 (emit_shift_into false false true 1 2 3 AImm 64) demo (fun s' =>
       xr s' (reg_map false 1) mod 2 ^ 64 = res_into true 64 (xr demo (reg_map false 2)) (xr demo (reg_map false 3)) (xval false 64 demo AImm 64 mod 64) mod 2 ^ 64)
  /\ ~ does 0 (emit_shift_into false false true 1 2 3 (AMem 1 0) 0) demo5 (fun s' =>
       xr s' (reg_map false 1) mod 2 ^ 64 = res_into true 64 (xr demo5 (reg_map false 2)) (xr demo5 (reg_map false 3)) (xval false 64 demo5 (AMem 1 0) 0 mod 64) mod 2 ^ 64)
  /\ ~ does 0 (emit_shift_into false false true 1 4 3 (AReg 1) 0) demo (fun s' =>
       xr s' (reg_map false 1) mod 2 ^ 64 = res_into true 64 (xr demo (reg_map false 4)) (xr demo (reg_map false 3)) (xval false 64 demo (AReg 1) 0 mod 64) mod 2 ^ 64)
  /\ ~ does 0 (emit_shift_into false false true 1 2 2 (AMem 1 0) (2 ^ 40)) demo (fun s' => xr s' (reg_map false 4) = xr demo (reg_map false 4)).
Proof. split; [split; [legal3|]; split; [legal3|]; split; [legal3|]; split; [legal3|exact demo_wf]|]. split; [wrong|]. split; [wrong|]. split; wrong. Qed.
