(** PowerPC64: statements about jumps which are false of the code, and rewritable jumps. *)
Require Import ZArith List Bool Lia Zify ZifyBool.
From Verif Require Import Rv.RvLib Rv.RvBits Imm.ImmLib Imm.MsRefuted Imm.PpIsa Imm.PpModel Imm.PpSpec Imm.PpProofs Imm.PpJump.
Import ListNotations.
Open Scope Z_scope.
Ltac Zify.zify_post_hook ::= idtac.

(** ** A conditional jump at 0x100000 to the fixed address 0x9000: the absolute address is sign extended from 16 bits *)
Definition pb : Z := 0x100000.
Definition tb : Z := 0x9000.
Definition sb : regs := fun r => if r =? CR 2 then 1 else 0.
Definition wb : list Z := words false false false false false (Some CEqual) pb tb.
Lemma low_target_false : ~ jump_reaches.
Proof.
  intros H. assert (T : isw tb) by (split; [vm_compute; discriminate|reflexivity]).
  assert (C : code_at 4 wb pb (only_code pb wb)) by (vm_compute; tauto).
  assert (L : legal false false (Some CEqual)) by (split; [reflexivity|discriminate]).
  specialize (H 0 (only_code pb wb) pb sb false false false false false (Some CEqual) tb L T eq_refl eq_refl eq_refl C).
  change (cond_holds false sb (Some CEqual)) with true in H. cbv iota in H. destruct H as (s' & G & _).
  assert (S : stops (step 0 (only_code pb wb)) 3 (wrap pb, sb) = true) by (vm_compute; reflexivity).
  pose proof (runs_view _ fst _ _ 3 G S) as I. clear - I. vm_compute in I. repeat destruct I as [I|I]; try discriminate I; exact I.
Qed.
(** Where it goes instead. *)
Lemma low_target_goes : code_at 4 wb pb (only_code pb wb) /\ goes 0 (only_code pb wb) pb sb 0xffffffffffff9000 sb.
Proof. split; [vm_compute; tauto|]. apply runs_1. vm_compute. reflexivity. Qed.

(** ** Space *)
Lemma jump_space_false : ~ jump_space.
Proof.
  intros H. assert (T : isw 0x10000) by (split; [vm_compute; discriminate|reflexivity]).
  assert (L : legal true true None) by (split; [discriminate|reflexivity]).
  specialize (H true false false true true None 0x20000 0x10000 L T eq_refl eq_refl). vm_compute in H. apply H. reflexivity.
Qed.
(** A conditional jump needs two words where one is kept. *)
Lemma cond_space_false : let c := Some CEqual in
  legal false false c /\ length (link_jump false false false false false c 0x10000000 0x1000000) = 2%nat /\ reserved false 0x1000000 = 1.
Proof. cbv zeta. split; [split; [reflexivity|discriminate]|]. split; vm_compute; reflexivity. Qed.
Lemma label_space_false : ~ label_space.
Proof.
  intros H. assert (T : isw 0x20000) by (split; [vm_compute; discriminate|reflexivity]). assert (T2 : isw (0x20000 + 4 * 1)) by (split; [vm_compute; discriminate|reflexivity]).
  assert (L : legal true true None) by (split; [discriminate|reflexivity]).
  specialize (H true false false true true None 0x20000 1 1 L T T2 eq_refl ltac:(left; lia)). vm_compute in H. apply H. reflexivity.
Qed.

(** ** Rewritable jumps *)
Lemma put_app k v (a b : list Z) : (k < length a)%nat -> put (a ++ b) k v = put a k v ++ b.
Proof.
  intros H. unfold put. rewrite firstn_app, skipn_app. replace (k - length a)%nat with 0%nat by lia. cbn [firstn skipn].
  assert (N : length (skipn k a) <> 0%nat) by (rewrite skipn_length; lia). destruct (skipn k a) as [|w tl]; [exfalso; apply N; reflexivity|].
  rewrite app_nil_r, <- app_assoc. reflexivity.
Qed.
Lemma put_len k v (a : list Z) : length (put a k v) = length a.
Proof.
  unfold put. rewrite app_length. rewrite <- (firstn_skipn k a) at 3. rewrite app_length. f_equal. destruct (skipn k a); reflexivity.
Qed.
Lemma set_app a b t : length a = 5%nat -> sljit_set_jump_addr (a ++ b) t = sljit_set_jump_addr a t ++ b.
Proof. intros H. unfold sljit_set_jump_addr. rewrite !put_app by (rewrite ?put_len; lia). reflexivity. Qed.
Lemma set_rewritable_ok elf sub call lk c p t t' : sljit_set_jump_addr (link_jump elf true sub call lk c p t) t' = link_jump elf true sub call lk c p t'.
Proof.
  unfold link_jump. change (link_form elf true call c p t) with FFull. change (link_form elf true call c p t') with FFull. cbn [jump_words].
  assert (CB : 1 <= TMP_CALL_REG elf <= 28) by (destruct elf; split; vm_compute; discriminate).
  rewrite set_app by reflexivity. f_equal. exact (set_jump_addr_ok (TMP_CALL_REG elf) t t' CB).
Qed.
