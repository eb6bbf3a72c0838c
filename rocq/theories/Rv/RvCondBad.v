(** Concrete conditions, comparisons and selections: the cases where the code is wrong. *)
Require Import ZArith List Bool Lia.
From Verif Require Import Rv.RvLib Rv.RvBits Rv.RvIsa Rv.RvEnc Rv.RvImm Rv.RvRun Rv.RvImmProofs Rv.RvCtl Rv.RvWf Rv.RvMem Rv.RvRunMem Rv.RvOp Rv.RvLir Rv.RvCanon Rv.RvMemProofs Rv.RvEmitOp Rv.RvEmitOp2 Rv.RvEmitOp1 Rv.RvLink Rv.RvLinkExec Rv.RvOpBad Rv.RvCond Rv.RvCondSpec Rv.RvCondProofs Rv.RvSx Rv.RvSelect.
Import ListNotations.
Open Scope Z_scope.

(** The memory of these states: byte [a mod 256] at [a], so the 32 bit value at 0x10fc is 0xfffefdfc. *)
Definition neg_word : Z := 0xfffefdfc.
Lemma neg_word_at : argval (st [(1, 0x10fc)]) 4 (AMem 1 0) 0 = neg_word. Proof. vm_compute. reflexivity. Qed.
(** 32 bit comparison of a negative number in memory with the same number as an immediate. *)
Lemma cmp_mem_wrong : let j := emit_cmp c_n SLJIT_EQUAL true (AMem 1 0) 0 AImm (sext 32 neg_word) in
  ok (fst j) (st [(1, 0x10fc)]) (fun s' => jc_holds (snd j) s' = false).
Proof. cbv zeta. eapply ok_mono; [apply (ok_b _ _ (fun s' => negb (jc_holds (snd (emit_cmp c_n SLJIT_EQUAL true (AMem 1 0) 0 AImm (sext 32 neg_word))) s'))); vm_compute; reflexivity|]. cbv beta. intros s' H. apply negb_true_iff in H. exact H. Qed.
(** 32 bit comparison of a register with an immediate above the 32 bit range. *)
Lemma cmp_imm_wrong : let j := emit_cmp c_n SLJIT_EQUAL true (AReg 1) 0 AImm 0xffffffff in
  ok (fst j) (st [(1, -1)]) (fun s' => jc_holds (snd j) s' = false).
Proof. cbv zeta. eapply ok_mono; [apply (ok_b _ _ (fun s' => negb (jc_holds (snd (emit_cmp c_n SLJIT_EQUAL true (AReg 1) 0 AImm 0xffffffff)) s'))); vm_compute; reflexivity|]. cbv beta. intros s' H. apply negb_true_iff in H. exact H. Qed.
(** A negative 32 bit number selected from memory is not in the 32 bit format. *)
Lemma select_mem_wrong : ok (emit_select c_n SLJIT_LESS true 2 (AMem 1 0) 0 3) (st [(1, 0x10fc); (29, 1)]) (fun s' => rd s' 2 = neg_word).
Proof.
  unfold emit_select. change (negb (2 =? 3)) with true. cbv beta iota zeta. change (depends (AMem 1 0) 2) with false. cbv iota.
  apply ok_then. apply ok_nop. apply ok_then. apply (x_mvi true); try vl.
  eapply (skip_ok _ false _ _ false true). { unfold ctype, SLJIT_LESS. lia. } { vm_compute. reflexivity. } { vm_compute. congruence. }
  change (holds SLJIT_LESS false true) with true. cbv iota.
  eapply ok_mono; [apply (ok_b _ _ (fun s' => rd s' 2 =? neg_word)); vm_compute; reflexivity|]. cbv beta. intros s' H. apply Z.eqb_eq. exact H.
Qed.
(** R1 = R1 or [R1 + 0x12345]: the base register is overwritten with the upper part of the offset before it is added. *)
Lemma select_base_wrong : ok (emit_select c_n SLJIT_LESS false 1 (AMem 1 0) 0x12345 1) (st [(1, 0x1001); (29, 1)])
  (fun s' => rd s' 1 = load (mem (st [])) (2 * 0x12000 + 0x345) 8).
Proof.
  unfold emit_select. change (negb (1 =? 1)) with false. cbv beta iota zeta.
  eapply (skip_ok _ false _ _ false true). { unfold ctype, SLJIT_LESS. lia. } { vm_compute. reflexivity. } { vm_compute. congruence. }
  change (holds SLJIT_LESS false true) with true. cbv iota.
  eapply ok_mono; [apply (ok_b _ _ (fun s' => rd s' 1 =? load (mem (st [])) (2 * 0x12000 + 0x345) 8)); vm_compute; reflexivity|]. cbv beta. intros s' H. apply Z.eqb_eq. exact H.
Qed.
