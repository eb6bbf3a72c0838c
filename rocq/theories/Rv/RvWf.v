(** Registers hold 64 bit values: an invariant of the machine. *)
Require Import ZArith List Bool Lia Zify ZifyBool.
From Verif Require Import Rv.RvLib Rv.RvBits Rv.RvIsa Rv.RvEnc Rv.RvRun.
Import ListNotations.
Open Scope Z_scope.
Ltac Zify.zify_post_hook ::= idtac.

(** All registers hold 64 bit values. *)
Definition wf (s : mst) : Prop := forall x, isw (getr s x).
Lemma wf_rd s r : wf s -> isw (rd s r). Proof. intros H. apply H. Qed.

Lemma isw_0 : isw 0. Proof. unfold isw. lia. Qed.
Lemma wf_setr s r v : wf s -> isw v -> wf (setr s r v).
Proof.
  intros H V x. unfold setr, getr. destruct (r =? 0). { apply (H x). }
  destruct (x =? 0) eqn:E. { apply isw_0. }
  cbn [regs]. unfold updf. destruct (x =? r); auto. specialize (H x). unfold getr in H. rewrite E in H. auto.
Qed.
Lemma wf_wr s r v : wf s -> isw v -> wf (wr s r v). Proof. apply wf_setr. Qed.
Lemma b2z_isw b : isw (b2z b). Proof. unfold isw, b2z. destruct b; lia. Qed.
Lemma land_isw a b : isw a -> isw b -> isw (Z.land a b).
Proof. intros. apply land_small; unfold isw in *; lia. Qed.
Lemma lor_isw a b : isw a -> isw b -> isw (Z.lor a b).
Proof. intros. apply lor_lt; unfold isw in *; lia. Qed.
Lemma lxor_isw a b : isw a -> isw b -> isw (Z.lxor a b).
Proof. intros. apply lxor_small; unfold isw in *; lia. Qed.
Lemma div_isw a k : isw a -> 0 <= k -> isw (a / 2 ^ k).
Proof.
  intros (A & B) K. assert (0 < 2 ^ k) by (apply Z.pow_pos_nonneg; lia). split. { apply Z.div_pos; lia. }
  apply Z.div_lt_upper_bound; nia.
Qed.
Lemma mod_isw a b : isw a -> 0 < b -> isw (a mod b).
Proof.
  intros (A & B) P. pose proof (Z.mod_pos_bound a b P). split. { lia. }
  assert (a mod b <= a) by (apply Z.mod_le; lia). lia.
Qed.
Lemma div_isw' a b : isw a -> 0 < b -> isw (a / b).
Proof.
  intros (A & B) P. split. { apply Z.div_pos; lia. }
  assert (a / b <= a). { apply Z.div_le_upper_bound; nia. } lia.
Qed.
Lemma rotl_isw n x k : 0 <= n <= 64 -> isw (rotl n x k).
Proof.
  intros H. unfold rotl, isw. assert (P : 0 < 2 ^ n) by (apply Z.pow_pos_nonneg; lia).
  pose proof (Z.mod_pos_bound (x * 2 ^ k + x / 2 ^ (n - k)) (2 ^ n) P).
  assert (2 ^ n <= 2 ^ 64) by (apply Z.pow_le_mono_r; lia). lia.
Qed.
Lemma rotr_isw n x k : 0 <= n <= 64 -> isw x -> isw (rotr n x k).
Proof. intros. unfold rotr. destruct (k =? 0); auto. apply rotl_isw; auto. Qed.
Lemma zext_isw n x : 0 <= n <= 64 -> isw (zext n x).
Proof.
  intros H. unfold zext, isw. assert (P : 0 < 2 ^ n) by (apply Z.pow_pos_nonneg; lia).
  pose proof (Z.mod_pos_bound x (2 ^ n) P). assert (2 ^ n <= 2 ^ 64) by (apply Z.pow_le_mono_r; lia). lia.
Qed.
Lemma alu_isw o a b : isw a -> isw b -> isw (alu o a b).
Proof.
  intros A B. assert (0 <= b mod 64) by (apply Z.mod_pos_bound; lia).
  assert (M : isw (2 ^ 64 - 1)) by (unfold isw; lia).
  destruct o; cbn [alu]; auto using wrap_isw, b2z_isw, land_isw, lor_isw, lxor_isw, div_isw.
  - unfold isw in *. split. { apply Z.div_pos; nia. } apply Z.div_lt_upper_bound; nia.
  - destruct (b =? 0); auto using wrap_isw.
  - destruct (b =? 0) eqn:E; auto. unfold isw in B. apply div_isw'; auto; lia.
  - destruct (b =? 0); auto using wrap_isw.
  - destruct (b =? 0) eqn:E; auto. unfold isw in B. apply mod_isw; auto; lia.
  - apply rotl_isw; lia.
  - apply rotr_isw; auto; lia.
Qed.
Lemma aluw_isw o a b : isw (aluw o a b).
Proof.
  destruct o; cbn [aluw]; try apply wrap_isw;
    match goal with |- context [if ?c then _ else _] => destruct c end; try apply wrap_isw; unfold isw; lia.
Qed.
Lemma alui_isw o a i : isw a -> isw (alui o a i).
Proof. intros A. destruct o; cbn [alui]; auto using wrap_isw, b2z_isw, land_isw, lor_isw, lxor_isw. apply wrap_isw. Qed.
Lemma alush_isw o a i : isw a -> 0 <= i -> isw (alush o a i).
Proof. intros A I. destruct o; cbn [alush]; auto using wrap_isw, div_isw; try apply wrap_isw. apply rotr_isw; auto; lia. Qed.
Lemma clz_range n x : 0 <= clz_aux n x <= Z.of_nat n.
Proof. induction n as [|n IH]; [cbn; lia|]. rewrite Nat2Z.inj_succ. cbn [clz_aux]. destruct (Z.testbit x (Z.of_nat n)); lia. Qed.
Lemma ctz_range n : forall i x, 0 <= ctz_aux n i x <= Z.of_nat n.
Proof.
  induction n as [|n IH]; intros; [cbn; lia|]. rewrite Nat2Z.inj_succ. cbn [ctz_aux]. specialize (IH (i + 1) x).
  destruct (Z.testbit x i); lia.
Qed.
Lemma rev8_isw x : isw (rev8 x).
Proof.
  unfold rev8. cbn [fold_left].
  assert (B : forall i, 0 <= (x / 2 ^ (8 * i)) mod 256 < 256) by (intros; apply Z.mod_pos_bound; lia).
  pose proof (B 0). pose proof (B 1). pose proof (B 2). pose proof (B 3). pose proof (B 4). pose proof (B 5). pose proof (B 6). pose proof (B 7).
  unfold isw. lia.
Qed.
Lemma aluun_isw o a : isw (aluun o a).
Proof.
  destruct o; cbn [aluun]; try apply wrap_isw; try (apply zext_isw; lia); try apply rev8_isw; unfold isw.
  - pose proof (clz_range 64 a); lia. - pose proof (ctz_range 64 0 a); lia.
  - pose proof (clz_range 32 a); lia. - pose proof (ctz_range 32 0 a); lia.
Qed.
Lemma load_range m n : forall a, 0 <= load m a n < 256 ^ Z.of_nat n.
Proof.
  induction n as [|n IH]; intros a. { cbn. lia. }
  cbn [load]. rewrite Nat2Z.inj_succ, Z.pow_succ_r by lia. specialize (IH (a + 1)).
  pose proof (Z.mod_pos_bound (m (wrap a)) 256 ltac:(lia)). lia.
Qed.
Lemma load_isw m sz a : isw (load m a (bytes sz)).
Proof.
  pose proof (load_range m (bytes sz) a). unfold isw. destruct sz; cbn in *; lia.
Qed.

(** The shift amounts of decoded instructions are not negative. *)
Definition ok_i (i : instr) : Prop := match i with ISh _ _ _ sh => 0 <= sh | _ => True end.
Lemma fld_pos w lo n : 0 <= n -> 0 <= lo -> 0 <= fld w lo n.
Proof. intros. rewrite fld_div by lia. apply Z.mod_pos_bound. apply Z.pow_pos_nonneg; lia. Qed.
Lemma decode32_ok w i : decode32 w = Some i -> ok_i i.
Proof.
  intros D. unfold decode32, decode_fields, dec_imm, dec_immw in D.
  pose proof (fld_pos w 20 6 ltac:(lia) ltac:(lia)). pose proof (fld_pos w 20 5 ltac:(lia) ltac:(lia)).
  repeat match type of D with
  | context [if ?b then _ else _] => destruct b; try discriminate
  | context [match dec_op ?x ?y with _ => _ end] => destruct (dec_op x y); try discriminate
  | context [match dec_opw ?x ?y with _ => _ end] => destruct (dec_opw x y); try discriminate
  | context [match dec_load ?x with _ => _ end] => destruct (dec_load x) as [[? ?]|]; try discriminate
  | context [match dec_store ?x with _ => _ end] => destruct (dec_store x); try discriminate
  | context [match dec_branch ?x with _ => _ end] => destruct (dec_branch x); try discriminate
  end; injection D as <-; cbn [ok_i]; auto.
Qed.
Lemma decode16_ok w i : decode16 w = Some i -> ok_i i.
Proof.
  intros D. unfold decode16, decode_c0, decode_c1, decode_c2 in D.
  assert (0 <= c_uimm6 w).
  { unfold c_uimm6. pose proof (fld_pos w 12 1 ltac:(lia) ltac:(lia)). pose proof (fld_pos w 2 5 ltac:(lia) ltac:(lia)). lia. }
  cbv zeta in D.
  repeat match type of D with
  | context [if ?b then _ else _] => destruct b; try discriminate
  end; injection D as <-; cbn [ok_i]; auto.
Qed.
Lemma exec_wf i len s s' : ok_i i -> wf s -> exec i len s = Some s' -> wf s'.
Proof.
  intros O W E.
  assert (P : forall s p, wf s -> wf (setpc s p)) by (intros ? ? H x; apply (H x)).
  destruct i; cbn [exec] in E; try discriminate; try (injection E as <-);
    try (apply P; apply wf_setr; auto using alu_isw, aluw_isw, alui_isw, alush_isw, aluun_isw, wrap_isw).
  - destruct signed; [apply wrap_isw|apply load_isw].
  - apply P. intros x. apply (W x).
  - apply P. intros x. apply (W x).
  - apply P. intros x. apply (W x).
  - destruct (condb _ _ _); injection E as <-; apply P; auto.
  - auto.
Qed.
Lemma step_wf code s s' : wf s -> step code s = Some s' -> wf s'.
Proof.
  intros W E. unfold step, fetch in E.
  destruct (fld (code (pc s)) 0 2 =? 3).
  - destruct (decode32 _) as [i|] eqn:D; [|discriminate]. eapply exec_wf; eauto. eapply decode32_ok; eauto.
  - destruct (decode16 _) as [i|] eqn:D; [|discriminate]. eapply exec_wf; eauto. eapply decode16_ok; eauto.
Qed.
Lemma steps_wf code s s' : steps code s s' -> wf s -> wf s'.
Proof. induction 1; auto. intros. apply IHsteps. eapply step_wf; eauto. Qed.
Lemma run_wf l : forall s s', run l s = Some s' -> wf s -> wf s'.
Proof.
  induction l as [|p l IH]; intros s s' R W; cbn in R. { injection R as <-. auto. }
  destruct (decode_piece p) as [i|] eqn:D; [|discriminate]. destruct (exec_s i s) as [s1|] eqn:E; [|discriminate].
  apply (IH s1); auto. assert (O : ok_i i).
  { destruct p as [w|w]; cbn in D; [destruct (fld (u16 w) 0 2 =? 3)|destruct (fld w 0 2 =? 3)]; try discriminate.
    - eapply decode16_ok; eauto. - eapply decode32_ok; eauto. }
  destruct (exec_s_exec i s s1 0 E) as (X & _). apply (exec_wf i 0 s _ O W) in X. intros x. apply (X x).
Qed.
