(** Binary operations of the arithmetic unit: BINARY_IMM, emit_cum_binary, emit_non_cum_binary, emit_cmp_binary, emit_test_binary, emit_unary. *)
Require Import ZArith List Bool Lia.
From Verif Require Import Rv.RvLib Rv.RvIsa Rv.RvMem Rv.RvMemProofs Rv.RvEmitOp1 X86.X86Isa X86.X86Emit X86.X86Spec X86.X86Enc X86.X86EncTop X86.X86OpSpec X86.X86Op X86.X86Ins X86.X86Ins2 X86.X86Mov.
Import ListNotations.
Ltac Zify.zify_post_hook ::= idtac.
Open Scope Z_scope.

Lemma alu_fl_same : forall k n x y c s s', alu_fl k n x y c s -> flags_same s s' -> alu_fl k n x y c s'.
Proof. intros k n x y c s s' H (A & B & C & D). unfold alu_fl in *. destruct (alu_res k n x y c) as ((r, cf), of). rewrite A, B, C, D. exact H. Qed.
Lemma cf_in_same : forall k c s s', cf_in k c s -> flags_same s s' -> cf_in k c s'.
Proof. intros k c s s' H (A & _) N. rewrite A. apply H. exact N. Qed.
Definition commutes (k : alu) : bool := match k with Add | Or | Adc | And | Xor => true | _ => false end.
Lemma alu_res_comm : forall k n x y c, commutes k = true -> alu_res k n x y c = alu_res k n y x c.
Proof.
  intros k n x y c H. destruct k; try discriminate; cbn [alu_res]; rewrite ?(Z.add_comm x y), ?(Z.add_comm (sext n x)); try reflexivity.
  - rewrite Z.lor_comm. reflexivity.
  - rewrite Z.land_comm. reflexivity.
  - rewrite Z.lxor_comm. reflexivity.
Qed.
(** Destinations: legal ones, and TMP_REG1 (sljit_emit_op2u). *)
Definition dok (D : arg) (Dw : Z) : Prop := xdst_legal D Dw \/ D = AReg TMP_REG1 /\ Dw = 0.
Lemma dok_sok : forall D Dw, dok D Dw -> sok D Dw /\ is_imm D = false.
Proof. intros D Dw [H|(E & _)]; [apply dst_sok; exact H|]. subst D. simpl. unfold TMP_REG1. split; [lia|reflexivity]. Qed.
Lemma dok_ause : forall D Dw, dok D Dw -> apart (ause D) TMPS.
Proof. intros D Dw H. apply dok_sok in H. apply sok_far_tmp with Dw. tauto. Qed.
Lemma dok_reg : forall d Dw, dok (AReg d) Dw -> 1 <= d <= 15 /\ Dw = 0.
Proof. intros d Dw [H|(E & Q)]; [simpl in H; unfold xureg in H; lia|]. injection E. unfold TMP_REG1. lia. Qed.
Lemma arg_eqb_eq : forall a b, arg_eqb a b = true -> a = b.
Proof.
  intros a b H. destruct a, b; simpl in H; try discriminate; try reflexivity.
  - apply Z.eqb_eq in H. congruence.
  - apply andb_prop in H. destruct H as (A & B). apply Z.eqb_eq in A. apply Z.eqb_eq in B. congruence.
Qed.
Lemma arg_eqb_refl : forall a, arg_eqb a a = true.
Proof. destruct a; simpl; rewrite ?Z.eqb_refl; reflexivity. Qed.
Lemma same_place : forall D Dw S Sw, arg_eqb D S && (Dw =? Sw) = true -> D = S /\ Dw = Sw.
Proof. intros D Dw S Sw H. apply andb_prop in H. destruct H as (A & B). apply arg_eqb_eq in A. apply Z.eqb_eq in B. auto. Qed.
Lemma half_immok : forall m v, is_halfword v || m = true -> immok m v.
Proof. intros m v H N. subst m. rewrite orb_false_r in H. unfold is_halfword in H. apply andb_prop in H. lia. Qed.
Lemma tmps_app : forall L L', incl L TMPS -> incl L' TMPS -> incl (L ++ L') TMPS.
Proof. intros L L' A B. apply incl_app; assumption. Qed.
Ltac tm := first [apply ftmp_TMPS | apply incl_refl | (let x := fresh in let H := fresh in intros x H; simpl in H; unfold TMPS, TMP_REG1, TMP_REG2 in *; simpl; intuition congruence)].
Lemma tmp1_ftmp : forall a imm, incl (TMP_REG1 :: ftmp a imm) TMPS.
Proof. intros a imm x [H|H]; [left; exact H|apply (ftmp_TMPS a imm); exact H]. Qed.
Lemma tmp2_in : incl [TMP_REG2] TMPS. Proof. intros x [H|[]]. right. left. exact H. Qed.
Lemma tmp1_in : incl [TMP_REG1] TMPS. Proof. intros x [H|[]]. left. exact H. Qed.
Definition not_tmp2 (a : arg) : Prop := a <> AReg TMP_REG2.

Section U.
Variables (u : Z) (w m : bool).
Notation n := (size_of m).
Notation rv s r := (xr s (reg_map w r)).
Lemma imm64_mod : forall v, m = false -> v mod 2 ^ 64 = v mod 2 ^ n. Proof. intros v H. rewrite H. reflexivity. Qed.
Lemma rmod : forall r s, xwf s -> xval w n s (AReg r) 0 = rv s r mod 2 ^ n. Proof. reflexivity. Qed.
(** ** BINARY_IMM *)
Lemma bin_imm_ok : forall k imm a aw s c, k <> Cmp -> sok a aw -> is_imm a = false -> not_tmp2 a -> a <> AReg TMP_REG1 \/ True -> xwf s -> cf_in k c s ->
  does u (binary_imm w m (b_imm (bop_of k)) (b_mr (bop_of k)) imm a aw) s (fun s' =>
    wrote w n TMPS s a aw (alu_val k n (xval w n s a aw) (imm mod 2 ^ n) c) s' /\ alu_fl k n (xval w n s a aw) (imm mod 2 ^ n) c s').
Proof.
  intros k imm a aw s c KC K I NT _ W C. unfold binary_imm. destruct (is_halfword imm || m) eqn:H.
  - eapply does_conseq; [apply alu_imm_ok with (c := c); [exact KC|apply half_immok; exact H|apply sok_gop; auto|exact W|exact C]|].
    intros s' _ (A & B). split; [|exact B]. eapply wrote_weaken; [exact A|tm].
  - apply orb_false_elim in H. destruct H as (_ & M).
    set (t := if is_reg a then TMP_REG2 else TMP_REG1).
    assert (T : 1 <= t <= 16) by (unfold t; destruct (is_reg a); unfold TMP_REG1, TMP_REG2; lia).
    assert (TI : incl [t] TMPS) by (unfold t; destruct (is_reg a); [apply tmp2_in|apply tmp1_in]).
    cbv zeta. fold t. eapply does_seq; [apply load_imm_ok; [exact T|exact W]|]. intros s1 W1 (A & B).
    destruct (wrote_reg_only _ _ _ _ _ _ _ _ A) as (A1 & A2).
    assert (V : xval w n s1 a aw = xval w n s a aw).
    { eapply xval_keep; [exact K|exact A1|]. unfold t. destruct a as [r| |b o]; cbn [is_reg].
      - intros x [X|[]] _ [Y|[]]. apply NT. congruence.
      - discriminate.
      - eapply apart_incl; [apply (sok_far_tmp _ _ K)|]. apply tmp1_in. }
    eapply does_conseq; [apply alu_mr_ok with (c := c); [exact KC| |apply sok_gop; auto|exact W1|eapply cf_in_same; eauto]|].
    { split; [exact T|]. intros F. unfold t. destruct a; [discriminate F|discriminate F|discriminate]. }
    intros s2 _ (D & E). rewrite V, A2, (imm64_mod imm M), nsize_mod in D, E. split; [|exact E].
    eapply wrote_weaken; [eapply wrote_trans; [exact K|exact A1| |exact D]|].
    + eapply apart_incl; [apply (sok_far_tmp _ _ K)|exact TI].
    + apply tmps_app; [exact TI|tm].
Qed.
Lemma cmp_bin_imm_ok : forall imm a aw s c, sok a aw -> is_imm a = false -> not_tmp2 a -> xwf s ->
  does u (binary_imm w m 0x38 0x39 imm a aw) s (fun s' => only w TMPS s s' /\ alu_fl Cmp n (xval w n s a aw) (imm mod 2 ^ n) c s').
Proof.
  intros imm a aw s c K I NT W. unfold binary_imm. destruct (is_halfword imm || m) eqn:H.
  - eapply does_conseq; [apply cmp_imm_ok with (c := c); [apply half_immok; exact H|apply sok_gop; auto|exact W]|].
    intros s' _ (A & B). split; [|exact B]. eapply only_weaken; [exact A|tm].
  - apply orb_false_elim in H. destruct H as (_ & M).
    set (t := if is_reg a then TMP_REG2 else TMP_REG1).
    assert (T : 1 <= t <= 16) by (unfold t; destruct (is_reg a); unfold TMP_REG1, TMP_REG2; lia).
    assert (TI : incl [t] TMPS) by (unfold t; destruct (is_reg a); [apply tmp2_in|apply tmp1_in]).
    cbv zeta. fold t. eapply does_seq; [apply load_imm_ok; [exact T|exact W]|]. intros s1 W1 (A & B).
    destruct (wrote_reg_only _ _ _ _ _ _ _ _ A) as (A1 & A2).
    assert (V : xval w n s1 a aw = xval w n s a aw).
    { eapply xval_keep; [exact K|exact A1|]. unfold t. destruct a as [r| |b o]; cbn [is_reg].
      - intros x [X|[]] _ [Y|[]]. apply NT. congruence.
      - discriminate.
      - eapply apart_incl; [apply (sok_far_tmp _ _ K)|]. apply tmp1_in. }
    eapply does_conseq; [apply cmp_mr_ok with (c := c); [|apply sok_gop; auto|exact W1]|].
    { split; [exact T|]. intros F. unfold t. destruct a; [discriminate F|discriminate F|discriminate]. }
    intros s2 _ (D & E). rewrite V, A2, (imm64_mod imm M), nsize_mod in E. split; [|exact E].
    eapply only_weaken; [eapply only_trans; [exact A1|exact D]|]. apply tmps_app; [exact TI|tm].
Qed.
Lemma test_imm_ok : forall t imm a aw s c, sok a aw -> is_imm a = false -> (t = TMP_REG1 \/ t = TMP_REG2 /\ is_reg a = true) -> a <> AReg t -> xwf s ->
  does u (test_imm w m t a aw imm) s (fun s' => only w TMPS s s' /\ alu_fl And n (xval w n s a aw) (imm mod 2 ^ n) c s').
Proof.
  intros t imm a aw s c K I T0 NT W. unfold test_imm. destruct (is_halfword imm || m) eqn:H.
  - eapply does_conseq; [apply test_i_ok with (c := c); [apply half_immok; exact H|apply sok_gop; auto|exact W]|].
    intros s' _ (A & B). split; [|exact B]. eapply only_weaken; [exact A|tm].
  - apply orb_false_elim in H. destruct H as (_ & M).
    assert (T : 1 <= t <= 16) by (destruct T0 as [->|(-> & _)]; unfold TMP_REG1, TMP_REG2; lia).
    assert (TI : incl [t] TMPS) by (destruct T0 as [->|(-> & _)]; [apply tmp1_in|apply tmp2_in]).
    eapply does_seq; [apply load_imm_ok; [exact T|exact W]|]. intros s1 W1 (A & B).
    destruct (wrote_reg_only _ _ _ _ _ _ _ _ A) as (A1 & A2).
    assert (V : xval w n s1 a aw = xval w n s a aw).
    { eapply xval_keep; [exact K|exact A1|]. destruct a as [r| |b o].
      - intros x [X|[]] _ [Y|[]]. apply NT. congruence.
      - discriminate.
      - eapply apart_incl; [apply (sok_far_tmp _ _ K)|exact TI]. }
    eapply does_conseq; [apply test_ok with (c := c); [|apply sok_gop; auto|exact W1]|].
    { split; [exact T|]. intros F. destruct T0 as [->|(-> & Q)]; [discriminate|]. destruct a; [discriminate F|discriminate F|discriminate Q]. }
    intros s2 _ (D & E). rewrite V, A2, (imm64_mod imm M), nsize_mod in E. split; [|exact E].
    eapply only_weaken; [eapply only_trans; [exact A1|exact D]|]. apply tmps_app; [exact TI|tm].
Qed.
(** ** dst op= src *)
Lemma same_dst_ok : forall k D Dw S Sw s c, k <> Cmp -> xdst_legal D Dw -> xsrc_legal S Sw -> xwf s -> cf_in k c s ->
  does u (same_dst w m (bop_of k) D Dw S Sw) s (fun s' =>
    wrote w n TMPS s D Dw (alu_val k n (xval w n s D Dw) (xval w n s S Sw) c) s' /\ alu_fl k n (xval w n s D Dw) (xval w n s S Sw) c s').
Proof.
  intros k D Dw S Sw s c KC DL SL W C. destruct (dst_sok _ _ DL) as (DK & DI). pose proof (src_sok _ _ SL) as SK.
  assert (GD : gop D Dw) by (apply sok_gop; auto).
  assert (NT : not_tmp2 D). { intros Q. subst D. simpl in DL. unfold xureg, TMP_REG2 in DL. lia. }
  unfold same_dst. destruct S as [r| |b o].
  - destruct D as [d| |b' o']; [|discriminate|]; cbn [is_reg].
    + simpl in DL. destruct DL as (DU & ->).
      eapply does_conseq; [apply alu_rm_ok with (c := c); auto|].
      { split; [simpl in DK; exact DK|discriminate]. } { apply sok_gop; auto. }
      intros s' _ (A & B). split; [eapply wrote_weaken; [exact A|tm]|]. exact B.
    + simpl in SL. destruct SL as (SU & ->). eapply does_conseq; [apply alu_mr_ok with (c := c); auto|].
      { split; [simpl in SK; exact SK|]. intros _. unfold xureg, TMP_REG2 in *. lia. }
      intros s' _ (A & B). split; [eapply wrote_weaken; [exact A|tm]|]. exact B.
  - destruct (arg_eqb D (AReg R0) && ((127 <? Sw) || (Sw <? -128)) && (m || is_halfword Sw)) eqn:E.
    + apply andb_prop in E. destruct E as (E & H). apply andb_prop in E. destruct E as (E & _). apply arg_eqb_eq in E. subst D.
      simpl in DL. destruct DL as (_ & ->).
      eapply does_conseq; [apply (alu_eax_ok u w m k) with (c := c); auto|]. { apply half_immok. rewrite orb_comm. exact H. }
      intros s' _ (A & B). split; [eapply wrote_weaken; [exact A|intros x []]|]. exact B.
    + apply bin_imm_ok with (c := c); auto.
  - destruct D as [d| |b' o']; [|discriminate|]; cbn [is_reg].
    + simpl in DL. destruct DL as (DU & ->).
      eapply does_conseq; [apply alu_rm_ok with (c := c); auto|].
      { split; [simpl in DK; exact DK|]. intros _. unfold xureg, TMP_REG2 in *. lia. } { apply sok_gop; auto. }
      intros s' _ (A & B). split; [eapply wrote_weaken; [exact A|tm]|]. exact B.
    + eapply does_seq; [apply movr_ok; [unfold TMP_REG1; lia|exact SK|exact W]|]. intros s1 W1 (A & B & F).
      pose proof (tmp1_ftmp (AMem b o) Sw) as TI.
      assert (V : xval w n s1 (AMem b' o') Dw = xval w n s (AMem b' o') Dw).
      { eapply xval_keep; [exact DK|exact A|]. eapply apart_incl; [apply (sok_far_tmp _ _ DK)|exact TI]. }
      eapply does_conseq; [apply alu_mr_ok with (c := c); [exact KC| |exact GD|exact W1|eapply cf_in_same; eauto]|].
      { split; [unfold TMP_REG1; lia|]. intros _. discriminate. }
      assert (V2 : rv s1 TMP_REG1 mod 2 ^ n = xval w n s (AMem b o) Sw) by (rewrite B; apply Z.mod_small; apply xval_range; exact W).
      intros s2 _ (D & E). rewrite V, V2 in D, E. split; [|exact E].
      eapply wrote_weaken; [eapply wrote_trans; [exact DK|exact A| |exact D]|].
      * eapply apart_incl; [apply (sok_far_tmp _ _ DK)|exact TI].
      * apply tmps_app; [exact TI|tm].
Qed.
(** ** The general version on a register [d] *)
Lemma gen_reg_ok : forall k d S1 S1w S2 S2w s c, k <> Cmp -> 1 <= d <= 15 -> xsrc_legal S1 S1w -> xsrc_legal S2 S2w -> ~ In d (uses S2) -> xwf s -> cf_in k c s ->
  does u (gen_reg w m (bop_of k) d S1 S1w S2 S2w) s (fun s' =>
    wrote w n TMPS s (AReg d) 0 (alu_val k n (xval w n s S1 S1w) (xval w n s S2 S2w) c) s' /\ alu_fl k n (xval w n s S1 S1w) (xval w n s S2 S2w) c s').
Proof.
  intros k d S1 S1w S2 S2w s c KC D S1L S2L NU W C. pose proof (src_sok _ _ S1L) as SK1. pose proof (src_sok _ _ S2L) as SK2.
  unfold gen_reg. eapply does_seq; [apply movr_ok; [lia|exact SK1|exact W]|]. intros s1 W1 (A & B & F).
  assert (V : xval w n s1 S2 S2w = xval w n s S2 S2w).
  { eapply xval_keep; [exact SK2|exact A|]. intros x X X0 [Y|Y]; [subst x; contradiction|].
    apply (src_apart _ _ S2L x X X0). apply (ftmp_TMPS _ _ _ Y). }
  assert (V1 : rv s1 d mod 2 ^ n = xval w n s S1 S1w) by (rewrite B; apply Z.mod_small; apply xval_range; exact W).
  assert (FIN : forall L v s2, incl L TMPS -> wrote w n L s1 (AReg d) 0 v s2 -> wrote w n TMPS s (AReg d) 0 v s2).
  { intros L v s2 IL (H1 & H2 & H3). destruct A as (A1 & A2). split; [exact H1|]. split; [congruence|].
    intros q Q N. rewrite H3, A2; auto.
    - intros [X|X]; apply N; [left; exact X|right; apply (ftmp_TMPS _ _ _ X)].
    - intros [X|X]; apply N; [left; exact X|right; apply IL; exact X]. }
  assert (CF : cf_in k c s1) by (eapply cf_in_same; eauto).
  destruct S2 as [r| |b o].
  - eapply does_conseq; [apply alu_rm_ok with (c := c); [exact KC| |apply sok_gop; auto|exact W1|exact CF]|]. { split; [lia|discriminate]. }
    intros s2 _ (H1 & H2). rewrite V, V1 in H1, H2. split; [|exact H2]. eapply FIN; [|exact H1]. tm.
  - eapply does_conseq; [apply bin_imm_ok with (c := c); [exact KC| | | | |exact W1|exact CF]|].
    { simpl. lia. } { reflexivity. } { intros Q. injection Q. unfold TMP_REG2. lia. } { auto. }
    intros s2 _ (H1 & H2). cbn [xval] in H1, H2 |- *. rewrite V1 in H1, H2. split; [|exact H2]. eapply FIN; [|exact H1]. tm.
  - eapply does_conseq; [apply alu_rm_ok with (c := c); [exact KC| |apply sok_gop; auto|exact W1|exact CF]|].
    { split; [lia|]. intros _. unfold TMP_REG2. lia. }
    intros s2 _ (H1 & H2). rewrite V, V1 in H1, H2. split; [|exact H2]. eapply FIN; [|exact H1]. tm.
Qed.
(** A result in TMP_REG1 is moved to the destination. *)
Lemma fin_tmp : forall D Dw s s1 v, dok D Dw -> wrote w n TMPS s (AReg TMP_REG1) 0 v s1 -> xwf s1 ->
  does u (emit_mov w m D Dw (AReg TMP_REG1) 0) s1 (fun s' => wrote w n TMPS s D Dw v s' /\ flags_same s1 s').
Proof.
  intros D Dw s s1 v DK H W1. destruct (dok_sok _ _ DK) as (DS & DI). destruct (wrote_reg_only _ _ _ _ _ _ _ _ H) as (A1 & A2).
  assert (TI : incl (TMP_REG1 :: TMPS) TMPS) by tm.
  eapply does_conseq; [apply mov_from_tmp; auto|]. intros s2 _ (E & F). split; [|exact F].
  eapply wrote_val; [eapply wrote_weaken; [eapply wrote_trans; [exact DS|exact A1| |exact E]|]|].
  - eapply apart_incl; [apply (sok_far_tmp _ _ DS)|exact TI].
  - apply tmps_app; [exact TI|tm].
  - rewrite A2. apply nsize_mod.
Qed.
(** The address of the second operand does not depend on a register that is written before. *)
Definition dep_bad (D S1 S2 : arg) : bool := is_reg D && negb (arg_eqb D S1) && depends S2 (reg_of D).
Lemma depends_uses : forall S r, depends S r = false -> S <> AReg r -> ~ In r (uses S).
Proof.
  intros S r H N I. destruct S as [q| |b o]; simpl in *.
  - destruct I as [I|[]]. apply N. congruence.
  - exact I.
  - apply orb_false_elim in H. destruct H as (A & B). apply Z.eqb_neq in A. apply Z.eqb_neq in B. intuition.
Qed.
Lemma dep_free : forall d S1 S1w S2, dep_bad (AReg d) S1 S2 = false -> arg_eqb (AReg d) S1 && (0 =? S1w) = false -> xsrc_legal S1 S1w -> S2 <> AReg d -> ~ In d (uses S2).
Proof.
  intros d S1 S1w S2 DB E L N. apply depends_uses; [|exact N]. unfold dep_bad in DB. cbn [is_reg reg_of] in DB.
  destruct (arg_eqb (AReg d) S1) eqn:Q; [|exact DB]. apply arg_eqb_eq in Q. subst S1. simpl in L. destruct L as (_ & ->). discriminate.
Qed.
Lemma src_not_tmp : forall S Sw r, xsrc_legal S Sw -> r = 15 \/ r = 16 -> ~ In r (uses S).
Proof. intros S Sw r H R I. apply (src_apart _ _ H r I); [lia|]. unfold TMPS. simpl. lia. Qed.
Lemma dok_place : forall D Dw S Sw, dok D Dw -> xsrc_legal S Sw -> D = S -> xdst_legal D Dw.
Proof. intros D Dw S Sw [H|(E & Q)] SL EQ; [exact H|]. subst. simpl in SL. unfold xureg, TMP_REG1 in SL. lia. Qed.
Lemma via_tmp : forall k D Dw S1 S1w S2 S2w s c, k <> Cmp -> dok D Dw -> xsrc_legal S1 S1w -> xsrc_legal S2 S2w -> xwf s -> cf_in k c s ->
  does u (gen_reg w m (bop_of k) TMP_REG1 S1 S1w S2 S2w +++ emit_mov w m D Dw (AReg TMP_REG1) 0) s (fun s' =>
    wrote w n TMPS s D Dw (alu_val k n (xval w n s S1 S1w) (xval w n s S2 S2w) c) s' /\ alu_fl k n (xval w n s S1 S1w) (xval w n s S2 S2w) c s').
Proof.
  intros k D Dw S1 S1w S2 S2w s c KC DK S1L S2L W C.
  eapply does_seq; [apply gen_reg_ok with (c := c); eauto; [unfold TMP_REG1; lia|eapply src_not_tmp; [eauto|auto]]|].
  intros s1 W1 (A & B). eapply does_conseq; [eapply fin_tmp; eauto|]. intros s2 _ (E & F). split; [exact E|eapply alu_fl_same; eauto].
Qed.
Lemma cum_ok : forall k D Dw S1 S1w S2 S2w s c, commutes k = true -> dok D Dw -> xsrc_legal S1 S1w -> xsrc_legal S2 S2w -> dep_bad D S1 S2 = false -> xwf s -> cf_in k c s ->
  does u (emit_cum_binary w m (bop_of k) D Dw S1 S1w S2 S2w) s (fun s' =>
    wrote w n TMPS s D Dw (alu_val k n (xval w n s S1 S1w) (xval w n s S2 S2w) c) s' /\ alu_fl k n (xval w n s S1 S1w) (xval w n s S2 S2w) c s').
Proof.
  intros k D Dw S1 S1w S2 S2w s c KC DK S1L S2L DB W C. assert (KN : k <> Cmp) by (intros ->; discriminate).
  unfold emit_cum_binary. destruct (arg_eqb D S1 && (Dw =? S1w)) eqn:E1.
  - apply same_place in E1. destruct E1 as (-> & ->). apply same_dst_ok; auto. eapply dok_place; [exact DK|exact S1L|reflexivity].
  - destruct (arg_eqb D S2 && (Dw =? S2w)) eqn:E2.
    + apply same_place in E2. destruct E2 as (-> & ->).
      eapply does_conseq; [apply same_dst_ok with (c := c); [exact KN|eapply dok_place; [exact DK|exact S2L|reflexivity]|exact S1L|exact W|exact C]|].
      intros s' _ (A & B). unfold alu_fl, alu_val in *. rewrite alu_res_comm in A, B by exact KC. split; assumption.
    + destruct D as [d| |b o]; cbn [is_reg reg_of].
      * destruct (dok_reg _ _ DK) as (DR & ->). eapply does_conseq; [apply gen_reg_ok with (c := c); eauto|]; [|intros s' _ H; exact H].
        eapply dep_free; eauto. intros ->. simpl in S2L. destruct S2L as (_ & ->). simpl in E2. rewrite Z.eqb_refl in E2. discriminate.
      * exfalso. destruct DK as [H|(H & _)]; [exact H|discriminate].
      * apply via_tmp; auto.
Qed.
Lemma noncum_ok : forall k D Dw S1 S1w S2 S2w s c, k <> Cmp -> dok D Dw -> xsrc_legal S1 S1w -> xsrc_legal S2 S2w -> dep_bad D S1 S2 = false -> xwf s -> cf_in k c s ->
  does u (emit_non_cum_binary w m (bop_of k) D Dw S1 S1w S2 S2w) s (fun s' =>
    wrote w n TMPS s D Dw (alu_val k n (xval w n s S1 S1w) (xval w n s S2 S2w) c) s' /\ alu_fl k n (xval w n s S1 S1w) (xval w n s S2 S2w) c s').
Proof.
  intros k D Dw S1 S1w S2 S2w s c KN DK S1L S2L DB W C.
  unfold emit_non_cum_binary. destruct (arg_eqb D S1 && (Dw =? S1w)) eqn:E1.
  - apply same_place in E1. destruct E1 as (-> & ->). apply same_dst_ok; auto. eapply dok_place; [exact DK|exact S1L|reflexivity].
  - destruct (is_reg D && negb (arg_eqb D S2)) eqn:E2; [|apply via_tmp; auto].
    destruct D as [d| |b o]; try discriminate E2. cbn [reg_of]. simpl in E2. destruct (dok_reg _ _ DK) as (DR & ->).
    eapply does_conseq; [apply gen_reg_ok with (c := c); eauto|]; [|intros s' _ H; exact H].
    assert (N2 : S2 <> AReg d). { intros ->. simpl in E2. rewrite Z.eqb_refl in E2. discriminate. }
    eapply dep_free; eauto.
Qed.
(** ** emit_unary *)
Definition una (neg : bool) (x : Z) : Z := if neg then - x else 2 ^ n - 1 - x.
Definition neg_fl (a : Z) (s' : xst) : Prop := xcf s' = Some (negb (a =? 0)) /\ xzf s' = zfl n (- a) /\ xsf s' = sfl n (- a) /\ xof s' = Some (oor n (- sext n a)).
Lemma neg_fl_same : forall a s s', neg_fl a s -> flags_same s s' -> neg_fl a s'.
Proof. intros a s s' H (A & B & C & D). unfold neg_fl in *. rewrite A, B, C, D. exact H. Qed.
Lemma un_ins_ok : forall (neg : bool) b immb s, gop b immb -> xwf s ->
  does u (insd w m 0xf7 (if neg then 0x18 else 0x10) (AReg 0) 0 b immb) s (fun s' =>
    wrote w n (ftmp b immb) s b immb (una neg (xval w n s b immb)) s' /\ (neg = true -> neg_fl (xval w n s b immb) s')).
Proof.
  intros neg b immb s G W. destruct neg.
  - eapply does_conseq; [apply neg_ok; auto|]. intros s' _ (A & B). split; [exact A|]. intros _. exact B.
  - eapply does_conseq; [apply not_ok; auto|]. intros s' _ A. split; [exact A|discriminate].
Qed.
Lemma unary_ok : forall (neg : bool) D Dw S Sw s, dok D Dw -> xsrc_legal S Sw -> xwf s ->
  does u (emit_unary w m (if neg then 0x18 else 0x10) D Dw S Sw) s (fun s' =>
    wrote w n TMPS s D Dw (una neg (xval w n s S Sw)) s' /\ (neg = true -> neg_fl (xval w n s S Sw) s')).
Proof.
  intros neg D Dw S Sw s DK SL W. destruct (dok_sok _ _ DK) as (DS & DI). pose proof (src_sok _ _ SL) as SK.
  unfold emit_unary. destruct (arg_eqb D S && (Dw =? Sw)) eqn:E1.
  - apply same_place in E1. destruct E1 as (-> & ->).
    eapply does_conseq; [apply un_ins_ok; [apply sok_gop; auto|exact W]|]. intros s' _ (A & B). split; [eapply wrote_weaken; [exact A|tm]|exact B].
  - set (t := if is_reg D then reg_of D else TMP_REG1).
    assert (TT : 1 <= t <= 15).
    { unfold t. destruct D as [d| |b o]; cbn [is_reg reg_of]; unfold TMP_REG1; try lia. apply (dok_reg _ _ DK). }
    assert (ST : does u (emit_mov w m (AReg t) 0 S Sw +++ insd w m 0xf7 (if neg then 0x18 else 0x10) (AReg 0) 0 (AReg t) 0) s (fun s' =>
      wrote w n TMPS s (AReg t) 0 (una neg (xval w n s S Sw)) s' /\ (neg = true -> neg_fl (xval w n s S Sw) s'))).
    { eapply does_seq; [apply movr_ok; [lia|exact SK|exact W]|]. intros s1 W1 (A & B & F).
      eapply does_conseq; [apply un_ins_ok; [apply sok_gop; [simpl; lia|reflexivity]|exact W1]|]. intros s2 _ (H1 & H2).
      cbn [xval] in H1, H2. rewrite B, (Z.mod_small (xval w n s S Sw)) in H1, H2 by (apply xval_range; exact W).
      split; [|exact H2]. destruct H1 as (H1 & H3 & H4). destruct A as (A1 & A2).
      split; [exact H1|]. split; [congruence|]. intros q Q N. rewrite H4, A2; auto.
      - intros [X|X]; apply N; [left; exact X|right; apply (ftmp_TMPS _ _ _ X)].
      - intros [X|[]]; apply N; left; exact X. }
    destruct D as [d| |b o]; cbn [is_reg reg_of] in *.
    + destruct (dok_reg _ _ DK) as (DR & ->). exact ST.
    + discriminate.
    + unfold t in ST. destruct ST as (l & E & s1 & R & (H1 & H2) & W1).
      assert (X : does u (Some l +++ emit_mov w m (AMem b o) Dw (AReg TMP_REG1) 0) s
        (fun s' => wrote w n TMPS s (AMem b o) Dw (una neg (xval w n s S Sw)) s' /\ (neg = true -> neg_fl (xval w n s S Sw) s'))).
      { eapply does_seq with (P := fun t => t = s1).
        - exists l. split; [reflexivity|]. exists s1. auto.
        - intros ? _ ->. eapply does_conseq; [eapply fin_tmp; eauto|]. intros s2 _ (E3 & F). split; [exact E3|]. intros N. eapply neg_fl_same; eauto. }
      rewrite <- E in X. destruct X as (l2 & X1 & X2). exists l2. split; [|exact X2]. rewrite <- X1.
      unfold cat. destruct (emit_mov w m (AReg TMP_REG1) 0 S Sw), (insd w m 247 (if neg then 24 else 16) (AReg 0) 0 (AReg TMP_REG1) 0),
        (emit_mov w m (AMem b o) Dw (AReg TMP_REG1) 0); try reflexivity. rewrite app_assoc. reflexivity.
Qed.
(** ** Comparison and test *)
Lemma cmp_ok : forall S1 S1w S2 S2w s c, sok S1 S1w -> S1 <> AReg TMP_REG2 -> (forall r, S1 = AReg r -> S1w = 0) -> xsrc_legal S2 S2w -> xwf s ->
  does u (emit_cmp_binary w m S1 S1w S2 S2w) s (fun s' => only w TMPS s s' /\ alu_fl Cmp n (xval w n s S1 S1w) (xval w n s S2 S2w) c s').
Proof.
  intros S1 S1w S2 S2w s c SK1 N1 Z1 S2L W. pose proof (src_sok _ _ S2L) as SK2. unfold emit_cmp_binary.
  destruct (arg_eqb S1 (AReg R0) && is_imm S2 && ((127 <? S2w) || (S2w <? -128)) && (m || is_halfword S2w)) eqn:E.
  { rewrite !andb_true_iff in E. destruct E as (((E1 & E2) & _) & E3). apply arg_eqb_eq in E1. subst S1.
    destruct S2; try discriminate. eapply does_conseq; [apply cmp_eax_ok with (c := c); [apply half_immok; rewrite orb_comm; exact E3|exact W]|].
    intros s' _ (A & B). split; [eapply only_weaken; [exact A|intros x []]|]. exact B. }
  clear E. destruct S1 as [r| |b o]; cbn [is_reg is_imm negb].
  - rewrite (Z1 r eq_refl) in *. destruct S2 as [r2| |b2 o2]; cbn [is_imm].
    + eapply does_conseq; [apply cmp_rm_ok with (c := c); [split; [exact SK1|discriminate]|apply sok_gop; auto|exact W]|].
      intros s' _ (A & B). split; [eapply only_weaken; [exact A|tm]|]. exact B.
    + apply cmp_bin_imm_ok; auto.
    + eapply does_conseq; [apply cmp_rm_ok with (c := c); [split; [exact SK1|intros _ Q; apply N1; congruence]|apply sok_gop; auto|exact W]|].
      intros s' _ (A & B). split; [eapply only_weaken; [exact A|tm]|]. exact B.
  - rewrite andb_false_r. destruct S2 as [r2| |b2 o2]; cbn [is_imm].
    2:{ eapply does_seq; [apply movr_ok; [unfold TMP_REG1; lia|exact SK1|exact W]|]. intros s1 W1 (A & B & F).
        eapply does_conseq; [apply cmp_bin_imm_ok with (c := c); [simpl; unfold TMP_REG1; lia|reflexivity|discriminate|exact W1]|].
        intros s2 _ (C & D). change (xval w n s1 (AReg TMP_REG1) 0) with (rv s1 TMP_REG1 mod 2 ^ n) in D.
        rewrite B, (Z.mod_small (xval w n s AImm S1w)) in D by (apply xval_range; exact W).
        split; [|exact D]. eapply only_weaken; [eapply only_trans; eauto|]. apply tmps_app; [apply tmp1_ftmp|tm]. }
    all: eapply does_seq; [apply movr_ok; [unfold TMP_REG1; lia|exact SK1|exact W]|]; intros s1 W1 (A & B & F);
      (eapply does_conseq; [apply cmp_rm_ok with (c := c); [split; [unfold TMP_REG1; lia|intros _; discriminate]|apply sok_gop; auto|exact W1]|]);
      intros s2 _ (C & D); rewrite B, (Z.mod_small (xval w n s AImm S1w)) in D by (apply xval_range; exact W);
      rewrite (xval_keep w n (TMP_REG1 :: ftmp AImm S1w) s s1) in D;
      [split; [eapply only_weaken; [eapply only_trans; eauto|]; apply tmps_app; [apply tmp1_ftmp|tm]|exact D]|exact SK2|exact A|
       eapply apart_incl; [apply (src_apart _ _ S2L)|apply tmp1_ftmp]].
  - destruct S2 as [r2| |b2 o2]; cbn [is_imm is_reg andb].
    + simpl in S2L. destruct S2L as (SU & ->).
      eapply does_conseq; [apply cmp_mr_ok with (c := c); [split; [exact SK2|intros _; unfold xureg, TMP_REG2 in *; lia]|apply sok_gop; auto|exact W]|].
      intros s' _ (A & B). split; [eapply only_weaken; [exact A|tm]|]. exact B.
    + apply cmp_bin_imm_ok; auto.
    + eapply does_seq; [apply movr_ok; [unfold TMP_REG1; lia|exact SK1|exact W]|]; intros s1 W1 (A & B & F);
      (eapply does_conseq; [apply cmp_rm_ok with (c := c); [split; [unfold TMP_REG1; lia|intros _; discriminate]|apply sok_gop; auto|exact W1]|]);
      intros s2 _ (C & D); rewrite B, (Z.mod_small (xval w n s (AMem b o) S1w)) in D by (apply xval_range; exact W);
      rewrite (xval_keep w n (TMP_REG1 :: ftmp (AMem b o) S1w) s s1) in D;
      [split; [eapply only_weaken; [eapply only_trans; eauto|]; apply tmps_app; [apply tmp1_ftmp|tm]|exact D]|exact SK2|exact A|
       eapply apart_incl; [apply (src_apart _ _ S2L)|apply tmp1_ftmp]].
Qed.
Lemma and_comm_fl : forall x y c s, alu_fl And n x y c s -> alu_fl And n y x c s.
Proof. intros x y c s H. unfold alu_fl in *. rewrite alu_res_comm by reflexivity. exact H. Qed.
Lemma testb_ok : forall S1 S1w S2 S2w s c, xsrc_legal S1 S1w -> xsrc_legal S2 S2w -> xwf s ->
  does u (emit_test_binary w m S1 S1w S2 S2w) s (fun s' => only w TMPS s s' /\ alu_fl And n (xval w n s S1 S1w) (xval w n s S2 S2w) c s').
Proof.
  intros S1 S1w S2 S2w s c S1L S2L W. pose proof (src_sok _ _ S1L) as SK1. pose proof (src_sok _ _ S2L) as SK2. unfold emit_test_binary.
  destruct (arg_eqb S1 (AReg R0) && is_imm S2 && ((127 <? S2w) || (S2w <? -128)) && (m || is_halfword S2w)) eqn:E.
  { rewrite !andb_true_iff in E. destruct E as (((E1 & E2) & _) & E3). apply arg_eqb_eq in E1. subst S1.
    destruct S2; try discriminate. eapply does_conseq; [apply test_eax_ok with (c := c); [apply half_immok; rewrite orb_comm; exact E3|exact W]|].
    intros s' _ (A & B). split; [eapply only_weaken; [exact A|intros x []]|]. exact B. }
  clear E.
  destruct (arg_eqb S2 (AReg R0) && is_imm S1 && ((127 <? S1w) || (S1w <? -128)) && (m || is_halfword S1w)) eqn:E.
  { rewrite !andb_true_iff in E. destruct E as (((E1 & E2) & _) & E3). apply arg_eqb_eq in E1. subst S2.
    destruct S1; try discriminate. eapply does_conseq; [apply test_eax_ok with (c := c); [apply half_immok; rewrite orb_comm; exact E3|exact W]|].
    intros s' _ (A & B). split; [eapply only_weaken; [exact A|intros x []]|]. apply and_comm_fl. exact B. }
  clear E.
  assert (U : forall r, xureg r -> 1 <= r <= 16 /\ r <> TMP_REG2 /\ r <> TMP_REG1) by (unfold xureg, TMP_REG1, TMP_REG2; intros; lia).
  destruct (negb (is_imm S1) && is_imm S2) eqn:E1.
  { apply andb_prop in E1. destruct E1 as (E1 & E2). apply negb_true_iff in E1. destruct S2; try discriminate.
    apply test_imm_ok; auto.
    - destruct S1; cbn [is_reg]; auto.
    - destruct S1; cbn [is_reg]; try discriminate. simpl in S1L. destruct S1L as (SU & _). apply U in SU. intros Q. injection Q. tauto. }
  destruct (negb (is_imm S1) && is_reg S1) eqn:E2.
  { destruct S1 as [r| |b o]; try discriminate. simpl in S1L. destruct S1L as (SU & ->). apply U in SU.
    cbn [is_imm negb andb] in E1.
    eapply does_conseq; [apply test_ok with (c := c); [split; [tauto|intros _; tauto]|apply sok_gop; auto|exact W]|].
    intros s' _ (A & B). split; [eapply only_weaken; [exact A|tm]|]. apply and_comm_fl. exact B. }
  destruct (negb (is_imm S2) && is_imm S1) eqn:E3.
  { apply andb_prop in E3. destruct E3 as (E3 & E4). apply negb_true_iff in E3. destruct S1; try discriminate.
    eapply does_conseq; [apply test_imm_ok with (c := c); auto|].
    - intros ->. simpl in S2L. destruct S2L as (SU & _). apply U in SU. tauto.
    - intros s' _ (A & B). split; [exact A|]. apply and_comm_fl. exact B. }
  destruct (negb (is_imm S2) && is_reg S2) eqn:E4.
  { destruct S2 as [r| |b o]; try discriminate. simpl in S2L. destruct S2L as (SU & ->). apply U in SU.
    destruct S1 as [r1| |b1 o1]; try discriminate.
    eapply does_conseq; [apply test_ok with (c := c); [split; [tauto|intros _; tauto]|apply sok_gop; auto|exact W]|].
    intros s' _ (A & B). split; [eapply only_weaken; [exact A|tm]|]. exact B. }
  eapply does_seq; [apply movr_ok; [unfold TMP_REG1; lia|exact SK1|exact W]|]. intros s1 W1 (A & B & F).
  assert (VB : rv s1 TMP_REG1 mod 2 ^ n = xval w n s S1 S1w) by (rewrite B; apply Z.mod_small; apply xval_range; exact W).
  destruct S2 as [r2| |b2 o2]; cbn [is_imm].
  - discriminate.
  - eapply does_conseq; [apply test_imm_ok with (c := c); [simpl; unfold TMP_REG1; lia|reflexivity|right; split; reflexivity|discriminate|exact W1]|].
    intros s2 _ (C & D). change (xval w n s1 (AReg TMP_REG1) 0) with (rv s1 TMP_REG1 mod 2 ^ n) in D. rewrite VB in D.
    split; [|exact D]. eapply only_weaken; [eapply only_trans; eauto|]. apply tmps_app; [apply tmp1_ftmp|tm].
  - eapply does_conseq; [apply test_ok with (c := c); [split; [unfold TMP_REG1; lia|intros _; discriminate]|apply sok_gop; auto|exact W1]|].
    intros s2 _ (C & D). rewrite VB in D.
    rewrite (xval_keep w n (TMP_REG1 :: ftmp S1 S1w) s s1) in D.
    + split; [eapply only_weaken; [eapply only_trans; eauto|]; apply tmps_app; [apply tmp1_ftmp|tm]|apply and_comm_fl; exact D].
    + exact SK2.
    + exact A.
    + eapply apart_incl; [apply (src_apart _ _ S2L)|apply tmp1_ftmp].
Qed.
End U.
