(** Code fragments with branches inside. *)
Require Import ZArith List Bool Lia Zify ZifyBool.
From Verif Require Import Rv.RvLib Rv.RvBits Rv.RvIsa Rv.RvEnc Rv.RvImm Rv.RvRun Rv.RvImmProofs Rv.RvCtl Rv.RvWf Rv.RvMem Rv.RvRunMem.
Import ListNotations.
Open Scope Z_scope.
Ltac Zify.zify_post_hook ::= idtac.

(** The distance of instruction [k] from the beginning of the fragment. *)
Definition off (l : list piece) (k : nat) : Z := 2 * Z.of_nat (length (units_of (firstn k l))).
(** From instruction [k] in state [s] the machine gets to instruction [k'] in state [s'], wherever the fragment is. *)
Definition reach (l : list piece) (k : nat) (s : mst) (k' : nat) (s' : mst) : Prop :=
  (wf s -> wf s') /\
  forall code p, isw p -> code_at code p (units_of l) ->
    steps code (setpc s (wrap (p + off l k))) (setpc s' (wrap (p + off l k'))).
(** From instruction [k] the machine gets to the end of the fragment. *)
Definition okr (l : list piece) (k : nat) (s : mst) (P : mst -> Prop) : Prop := exists s', reach l k s (length l) s' /\ P s'.

Lemma split_nth {A} (l : list A) k x : nth_error l k = Some x -> l = firstn k l ++ x :: skipn (S k) l.
Proof.
  revert l. induction k as [|k IH]; intros [|y l] H; cbn in *; try discriminate. { congruence. } f_equal. apply IH; auto.
Qed.
Lemma firstn_S {A} (l : list A) k x : nth_error l k = Some x -> firstn (S k) l = firstn k l ++ [x].
Proof.
  revert l. induction k as [|k IH]; intros [|y l] H; cbn in *; try discriminate. { congruence. } f_equal. apply IH; auto.
Qed.
Lemma off_S l k x : nth_error l k = Some x -> off l (S k) = off l k + 2 * Z.of_nat (length (units x)).
Proof.
  intros H. unfold off. rewrite (firstn_S _ _ _ H), units_of_app, app_length. cbn [units_of flat_map]. rewrite app_nil_r. lia.
Qed.
Lemma code_at_nth code p l k x : nth_error l k = Some x -> code_at code p (units_of l) -> code_at code (p + off l k) (units x).
Proof.
  intros H C. rewrite (split_nth _ _ _ H), units_of_app in C. apply code_at_app in C as (_ & C).
  change (units_of (x :: skipn (S k) l)) with (units x ++ units_of (skipn (S k) l)) in C. apply code_at_app in C as (C & _). exact C.
Qed.
Lemma reach_refl l k s : reach l k s k s. Proof. split; auto. intros. constructor. Qed.
Lemma reach_trans l k1 s1 k2 s2 k3 s3 : reach l k1 s1 k2 s2 -> reach l k2 s2 k3 s3 -> reach l k1 s1 k3 s3.
Proof. intros (A & B) (C & D). split; auto. intros. eapply steps_trans; eauto. Qed.
Lemma reach_does l k x s s' : nth_error l k = Some x -> does [x] s s' -> reach l k s (S k) s'.
Proof.
  intros H (A & B). split; auto. intros code p Hp C.
  specialize (B code (wrap (p + off l k)) (wrap_isw _)). rewrite code_at_wrap in B. cbn [units_of flat_map] in B. rewrite app_nil_r in B.
  specialize (B (code_at_nth _ _ _ _ _ H C)). rewrite wrap_add_l, <- Z.add_assoc, <- (off_S _ _ _ H) in B. exact B.
Qed.
Lemma reach_br l k x s c a b o k' : nth_error l k = Some x -> decode_piece x = Some (IBranch c (reg_map a) (reg_map b) o) ->
  off l k' = off l k + o -> reach l k s (if condb c (rd s a) (rd s b) then k' else S k) s.
Proof.
  intros H D O. split; auto. intros code p Hp C.
  apply steps_one. apply (step_piece code x _ _ _ D).
  - apply wrap_isw.
  - cbn [pc setpc]. rewrite code_at_wrap. apply (code_at_nth _ _ _ _ _ H C).
  - cbn [exec]. change (getr (setpc s ?q) ?r) with (getr s r). fold (rd s a) (rd s b).
    change (pc (setpc s ?q)) with q. destruct (condb c (rd s a) (rd s b)).
    + rewrite setpc_setpc, wrap_add_l, O, Z.add_assoc. reflexivity.
    + rewrite setpc_setpc, wrap_add_l, (off_S _ _ _ H), Z.add_assoc. reflexivity.
Qed.
Lemma ok_okr e s P : okr (flat e) 0 s P -> ok e s P.
Proof.
  intros (s' & (A & B) & H). exists s'. split; auto. split; auto. intros code p Hp C. specialize (B code p Hp C).
  unfold off in B. rewrite firstn_all in B. cbn in B. rewrite Z.add_0_r, wrap_small in B by auto. exact B.
Qed.
Lemma okr_end l k s (P : mst -> Prop) : k = length l -> P s -> okr l k s P.
Proof. intros -> H. exists s. split; auto. apply reach_refl. Qed.
Lemma okr_step l k e x s P : nth_error l k = Some x -> flat e = [x] -> ok e s (fun s1 => okr l (S k) s1 P) -> okr l k s P.
Proof.
  intros H F (s1 & D & s2 & R & HP). rewrite F in D. exists s2. split; auto. eapply reach_trans; [|eauto]. eapply reach_does; eauto.
Qed.
(** The same for a 32 bit instruction, the frequent case. *)
Lemma okr_32 l k w s P : nth_error l k = Some (P32 w) -> ok (E32 w) s (fun s1 => okr l (S k) s1 P) -> okr l k s P.
Proof. intros H. apply (okr_step l k (E32 w) _ s P H eq_refl). Qed.
Lemma okr_br l k x s c a b o k' (P : mst -> Prop) : nth_error l k = Some x -> decode_piece x = Some (IBranch c (reg_map a) (reg_map b) o) ->
  off l k' = off l k + o -> (condb c (rd s a) (rd s b) = true -> okr l k' s P) -> (condb c (rd s a) (rd s b) = false -> okr l (S k) s P) -> okr l k s P.
Proof.
  intros H D O A B. assert (R := reach_br l k x s c a b o k' H D O).
  destruct (condb c (rd s a) (rd s b)).
  - destruct (A eq_refl) as (s' & R' & HP). exists s'. split; auto. eapply reach_trans; eauto.
  - destruct (B eq_refl) as (s' & R' & HP). exists s'. split; auto. eapply reach_trans; eauto.
Qed.
(** Leaving a fragment does not need the position when the state is known (used for unconditional skips). *)
Lemma okr_mono l k s (P Q : mst -> Prop) : okr l k s P -> (forall s', P s' -> Q s') -> okr l k s Q.
Proof. intros (s' & R & H) I. exists s'. auto. Qed.
