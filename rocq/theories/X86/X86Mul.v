(** Multiplication, LEA and shifts. *)
Require Import ZArith List Bool Lia.
From Verif Require Import Rv.RvLib Rv.RvIsa Rv.RvMem Rv.RvMemProofs Rv.RvEmitOp1 X86.X86Isa X86.X86Emit X86.X86Spec X86.X86Enc X86.X86EncTop X86.X86OpSpec X86.X86Op X86.X86Ins X86.X86Ins2 X86.X86Mov X86.X86Bin.
Import ListNotations.
Ltac Zify.zify_post_hook ::= idtac.
Open Scope Z_scope.

Lemma does_assoc : forall u a b c s P, does u (a +++ b +++ c) s P -> does u ((a +++ b) +++ c) s P.
Proof.
  intros u a b c s P (l & E & H). exists l. split; [|exact H]. rewrite <- E. unfold cat. destruct a, b, c; try reflexivity. rewrite app_assoc. reflexivity.
Qed.
Lemma does_nil_r : forall u a s P, does u a s P -> does u (a +++ Some []) s P.
Proof. intros u a s P (l & E & H). exists l. split; [|exact H]. rewrite E. cbn. rewrite app_nil_r. reflexivity. Qed.

Section U.
Variables (u : Z) (w m : bool).
Notation n := (size_of m).
Notation rv s r := (xr s (reg_map w r)).
(** A register result composed with what happened before. *)
Lemma reg_after : forall L L' d s s1 v s2, only w L s s1 -> incl L (d :: TMPS) -> incl L' (d :: TMPS) -> wrote w n L' s1 (AReg d) 0 v s2 -> wrote w n TMPS s (AReg d) 0 v s2.
Proof.
  intros L L' d s s1 v s2 (A1 & A2) I I' (B1 & B2 & B3). split; [exact B1|]. split; [congruence|].
  intros q Q N. rewrite B3, A2; auto.
  intros [X|X]; [apply N; left; exact X|]. apply N. apply I'. exact X.
Qed.
Lemma xval_small : forall s a imm, xwf s -> xval w n s a imm mod 2 ^ n = xval w n s a imm.
Proof. intros s a imm W. apply Z.mod_small. apply xval_range. exact W. Qed.
Definition imulp (D : arg) (Dw : Z) (s : xst) (x y : Z) (s' : xst) : Prop := wrote w n TMPS s D Dw (imul_val m x y) s' /\ imul_fl m (imul_val m x y) s'.
Lemma imul_comm : forall x y, imul_val m x y = imul_val m y x. Proof. intros. unfold imul_val. apply Z.mul_comm. Qed.
Lemma incl_cons_tmps : forall d a imm, incl (d :: ftmp a imm) (d :: TMPS).
Proof. intros d a imm x [X|X]; [left; exact X|right; apply (ftmp_TMPS a imm); exact X]. Qed.
Lemma mul_imm_ok : forall d S Sw imm s, 1 <= d <= 15 -> sok S Sw -> is_imm S = false -> apart (uses S) [TMP_REG2] -> - 2 ^ 63 <= imm < 2 ^ 63 -> xwf s ->
  does u (mul_imm w m d S Sw imm) s (imulp (AReg d) 0 s (xval w n s S Sw) (imm mod 2 ^ n)).
Proof.
  intros d S Sw imm s D SK SI AP IM W. unfold mul_imm.
  destruct (is_halfword imm) eqn:H.
  - replace (if disp8 imm then ins w m (fl 1) 107 (AReg d) 0 S Sw +++ Some [u8 imm] else ins w m (fl 1) 105 (AReg d) 0 S Sw +++ Some (lebytes 4 imm))
      with (if disp8 imm then ins w m (fl 1) 107 (AReg d) 0 S Sw +++ Some [u8 imm] else ins w m (fl 1) 105 (AReg d) 0 S Sw +++ Some (lebytes 4 imm)) by reflexivity.
    eapply does_conseq; [apply imul_imm_ok; [exact H|lia|apply sok_gop; auto|exact W]|].
    intros s' _ (A & B). split; [eapply wrote_weaken; [exact A|tm]|exact B].
  - assert (D8 : disp8 imm = false) by (unfold disp8, is_halfword in *; lia). rewrite D8.
    assert (IMOD : forall s1 s2, wrote w 64 [] s1 (AReg TMP_REG2) 0 imm s2 -> rv s2 TMP_REG2 mod 2 ^ n = imm mod 2 ^ n).
    { intros s1 s2 (E & _). rewrite E. destruct m; cbn [size_of]; [|apply Z.mod_mod; vm_compute; discriminate].
      change (2 ^ 64) with (2 ^ 32 * 2 ^ 32). rewrite Z.rem_mul_r by lia. rewrite Z.mul_comm, Z.mod_add, Z.mod_mod by lia. reflexivity. }
    assert (TAIL : forall s1, xwf s1 -> only w (d :: TMPS) s s1 -> rv s1 d mod 2 ^ n = xval w n s S Sw ->
      does u (Some (load_imm64 w TMP_REG2 imm) +++ groupf w m false 0xaf d (AReg TMP_REG2) 0) s1 (imulp (AReg d) 0 s (xval w n s S Sw) (imm mod 2 ^ n))).
    { intros s1 W1 O V. eapply does_seq; [apply load_imm_ok; [unfold TMP_REG2; lia|exact W1]|]. intros s2 W2 (A & _).
      destruct (wrote_reg_only _ _ _ _ _ _ _ _ A) as (A1 & _).
      eapply does_conseq; [apply imul_ok; [split; [lia|discriminate]|apply sok_gop; [simpl; unfold TMP_REG2; lia|reflexivity]|exact W2]|].
      intros s3 _ (B & F). change (xval w n s2 (AReg TMP_REG2) 0) with (rv s2 TMP_REG2 mod 2 ^ n) in B, F. rewrite (IMOD _ _ A) in B, F.
      rewrite (reg_keep w [TMP_REG2] s1 s2 d) in B, F; auto; try lia; try (simpl; unfold TMP_REG2; lia). rewrite V in B, F.
      split; [|exact F]. eapply reg_after; [eapply only_trans; [exact O|exact A1]| | |exact B].
      - intros x. rewrite in_app_iff. intros [X|[X|[]]]; [exact X|]. right. right. left. exact X.
      - intros x []. }
    destruct (arg_eqb (AReg d) S) eqn:EQ.
    + apply arg_eqb_eq in EQ. subst S. eapply does_seq; [apply does_nil with (P := fun s' => s' = s); [exact W|reflexivity]|]. intros s1 W1 ->.
      apply (TAIL s W).
      * apply only_refl.
      * reflexivity.
    + eapply does_seq; [apply movr_ok; [lia|exact SK|exact W]|]. intros s1 W1 (A & B & F). apply (TAIL s1 W1).
      * eapply only_weaken; [exact A|apply incl_cons_tmps].
      * rewrite B. apply xval_small. exact W.
Qed.
(** The operands for which the result is lost: X86C:2305-2314. *)
Definition mul_bad (D S1 S2 : arg) : bool := dep_bad D S1 S2 && negb (is_imm S1).
Lemma mul_ok : forall D Dw S1 S1w S2 S2w s, dok D Dw -> xsrc_legal S1 S1w -> xsrc_legal S2 S2w -> mul_bad D S1 S2 = false -> xwf s ->
  does u (emit_mul w m D Dw S1 S1w S2 S2w) s (imulp D Dw s (xval w n s S1 S1w) (xval w n s S2 S2w)).
Proof.
  intros D Dw S1 S1w S2 S2w s DK S1L S2L MB W. pose proof (src_sok _ _ S1L) as SK1. pose proof (src_sok _ _ S2L) as SK2.
  destruct (dok_sok _ _ DK) as (DS & DI).
  unfold emit_mul. set (d := if is_reg D then reg_of D else TMP_REG1).
  assert (DD : 1 <= d <= 15). { unfold d. destruct D as [q| |b o]; cbn [is_reg reg_of]; unfold TMP_REG1; try lia. apply (dok_reg _ _ DK). }
  assert (AP : forall S Sw, xsrc_legal S Sw -> apart (uses S) [TMP_REG2]).
  { intros S Sw L. eapply apart_incl; [apply (src_apart _ _ L)|apply tmp2_in]. }
  assert (OK : forall S Sw, xsrc_legal S Sw -> okr S Sw d) by (intros; split; [lia|intros _; unfold TMP_REG2; lia]).
  match goal with |- does u (?c +++ _) s _ => assert (ST : does u c s (imulp (AReg d) 0 s (xval w n s S1 S1w) (xval w n s S2 S2w))) end.
  { destruct (arg_eqb (AReg d) S1 && negb (is_imm S2)) eqn:E1.
    { apply andb_prop in E1. destruct E1 as (E1 & E2). apply arg_eqb_eq in E1. apply negb_true_iff in E2. subst S1.
      eapply does_conseq; [apply imul_ok; [eapply OK; eauto|apply sok_gop; auto|exact W]|].
      intros s' _ (A & B). split; [eapply wrote_weaken; [exact A|tm]|exact B]. }
    destruct (arg_eqb (AReg d) S2 && negb (is_imm S1)) eqn:E2.
    { apply andb_prop in E2. destruct E2 as (E2 & E3). apply arg_eqb_eq in E2. apply negb_true_iff in E3. subst S2.
      eapply does_conseq; [apply imul_ok; [eapply OK; eauto|apply sok_gop; auto|exact W]|].
      intros s' _ (A & B). unfold imulp. rewrite (imul_comm (xval w n s S1 S1w)). split; [eapply wrote_weaken; [exact A|tm]|exact B]. }
    destruct S1 as [r1| |b1 o1] eqn:ES1; cbn [is_imm] in *.
    - destruct S2 as [r2| |b2 o2] eqn:ES2; cbn [is_imm] in *.
      + cbn [depends]. eapply does_seq; [apply movr_ok; [lia|exact SK1|exact W]|]. intros s1 W1 (A & B & F).
        eapply does_conseq; [apply imul_ok; [eapply OK; eauto|apply sok_gop; auto|exact W1]|]. intros s2 _ (C & E).
        rewrite B in C, E. rewrite xval_small in C, E by exact W.
        assert (d <> r2). { intros ->. cbn [arg_eqb] in E2. rewrite Z.eqb_refl in E2. discriminate. }
        assert (KP : xval w n s1 (AReg r2) S2w = xval w n s (AReg r2) S2w).
        { apply (xval_keep w n (d :: ftmp (AReg r1) S1w) s s1 (AReg r2) S2w SK2 A). intros x [X|[]] _ [Y|[]]. congruence. }
        rewrite KP in C, E. split; [|exact E]. eapply reg_after; [exact A| | |exact C]; [apply incl_cons_tmps|]. intros x [].
      + apply mul_imm_ok; auto. eapply AP; eauto.
      + assert (DEP : depends (AMem b2 o2) d = false).
        { unfold mul_bad, dep_bad in MB. cbn [is_imm negb] in MB. rewrite andb_true_r in MB. unfold d in *. destruct D as [q| |b o]; cbn [is_reg reg_of] in *.
          - destruct (arg_eqb (AReg q) (AReg r1)) eqn:EE.
            + cbn [negb andb] in E1. discriminate.
            + exact MB.
          - discriminate.
          - pose proof (src_not_tmp _ _ 15 S2L (or_introl eq_refl)) as X. unfold uses in X. unfold depends, TMP_REG1. simpl in X.
            destruct (Z.eqb_spec b2 15), (Z.eqb_spec o2 15); try reflexivity; exfalso; apply X; auto. }
        rewrite DEP. eapply does_seq; [apply movr_ok; [lia|exact SK1|exact W]|]. intros s1 W1 (A & B & F).
        eapply does_conseq; [apply imul_ok; [eapply OK; eauto|apply sok_gop; auto|exact W1]|]. intros s2 _ (C & E).
        rewrite B in C, E. rewrite xval_small in C, E by exact W.
        assert (KP : xval w n s1 (AMem b2 o2) S2w = xval w n s (AMem b2 o2) S2w).
        { apply (xval_keep w n (d :: ftmp (AReg r1) S1w) s s1 (AMem b2 o2) S2w SK2 A). intros x X X0 [Y|[]]. subst x. revert X. apply depends_uses; [exact DEP|discriminate]. }
        rewrite KP in C, E. split; [|exact E]. eapply reg_after; [exact A| | |exact C]; apply incl_cons_tmps || (intros x X; right; apply (ftmp_TMPS _ _ _ X)).
    - destruct S2 as [r2| |b2 o2] eqn:ES2; cbn [is_imm] in *.
      + eapply does_conseq; [apply mul_imm_ok; auto; eapply AP; eauto|]. intros s' _ (A & B). unfold imulp. rewrite imul_comm. split; assumption.
      + eapply does_seq; [apply movr_ok; [lia|exact SK2|exact W]|]. intros s1 W1 (A & B & F).
        eapply does_conseq; [apply mul_imm_ok; [exact DD|simpl; lia|reflexivity| |exact SK1|exact W1]|].
        { intros x [X|[]] _ [Y|[]]. unfold TMP_REG2 in Y. lia. }
        intros s2 _ (C & E). change (xval w n s1 (AReg d) 0) with (rv s1 d mod 2 ^ n) in C, E. rewrite B in C, E. rewrite xval_small in C, E by exact W.
        unfold imulp. rewrite imul_comm. split; [|exact E]. eapply reg_after; [exact A| | |exact C].
        * apply incl_cons_tmps.
        * intros x X. right. exact X.
      + eapply does_conseq; [apply mul_imm_ok; auto; eapply AP; eauto|]. intros s' _ (A & B). unfold imulp. rewrite imul_comm. split; assumption.
    - destruct S2 as [r2| |b2 o2] eqn:ES2; cbn [is_imm] in *.
      + cbn [depends]. eapply does_seq; [apply movr_ok; [lia|exact SK1|exact W]|]. intros s1 W1 (A & B & F).
        eapply does_conseq; [apply imul_ok; [eapply OK; eauto|apply sok_gop; auto|exact W1]|]. intros s2 _ (C & E).
        rewrite B in C, E. rewrite xval_small in C, E by exact W.
        assert (d <> r2). { intros ->. cbn [arg_eqb] in E2. rewrite Z.eqb_refl in E2. discriminate. }
        assert (KP : xval w n s1 (AReg r2) S2w = xval w n s (AReg r2) S2w).
        { apply (xval_keep w n (d :: ftmp (AMem b1 o1) S1w) s s1 (AReg r2) S2w SK2 A). intros x [X|[]] _ [Y|Y]; [congruence|]. apply ftmp_TMPS in Y. simpl in S2L. unfold xureg in S2L. simpl in Y. lia. }
        rewrite KP in C, E. split; [|exact E]. eapply reg_after; [exact A| | |exact C]; [apply incl_cons_tmps|]. intros x [].
      + apply mul_imm_ok; auto. eapply AP; eauto.
      + assert (DEP : depends (AMem b2 o2) d = false).
        { unfold mul_bad, dep_bad in MB. cbn [is_imm negb] in MB. rewrite andb_true_r in MB. unfold d in *. destruct D as [q| |b o]; cbn [is_reg reg_of] in *.
          - exact MB.
          - discriminate.
          - pose proof (src_not_tmp _ _ 15 S2L (or_introl eq_refl)) as X. unfold uses in X. unfold depends, TMP_REG1. simpl in X.
            destruct (Z.eqb_spec b2 15), (Z.eqb_spec o2 15); try reflexivity; exfalso; apply X; auto. }
        rewrite DEP. eapply does_seq; [apply movr_ok; [lia|exact SK1|exact W]|]. intros s1 W1 (A & B & F).
        eapply does_conseq; [apply imul_ok; [eapply OK; eauto|apply sok_gop; auto|exact W1]|]. intros s2 _ (C & E).
        rewrite B in C, E. rewrite xval_small in C, E by exact W.
        assert (KP : xval w n s1 (AMem b2 o2) S2w = xval w n s (AMem b2 o2) S2w).
        { apply (xval_keep w n (d :: ftmp (AMem b1 o1) S1w) s s1 (AMem b2 o2) S2w SK2 A). intros x X X0 [Y|Y]; [subst x; revert X; apply depends_uses; [exact DEP|discriminate]|].  apply (src_apart _ _ S2L x X X0). apply (ftmp_TMPS _ _ _ Y). }
        rewrite KP in C, E. split; [|exact E]. eapply reg_after; [exact A| | |exact C]; apply incl_cons_tmps || (intros x X; right; apply (ftmp_TMPS _ _ _ X)). }
  destruct D as [q| |b o]; cbn [is_mem].
  - apply does_nil_r. destruct (dok_reg _ _ DK) as (_ & ->). exact ST.
  - discriminate.
  - eapply does_seq; [exact ST|]. intros s1 W1 (A & B). eapply does_conseq; [eapply fin_tmp; eauto|].
    intros s2 _ (C & E). split; [exact C|]. unfold imul_fl in *. destruct E as (_ & _ & _ & E). rewrite E. exact B.
Qed.
(** ** LEA *)
Lemma lea_bin_ok : forall D Dw S1 S1w S2 S2w s r, dok D Dw -> xsrc_legal S1 S1w -> xsrc_legal S2 S2w -> xwf s ->
  emit_lea_binary w m D Dw S1 S1w S2 S2w = Some r ->
  does u r s (fun s' => wrote w n TMPS s D Dw (xval w n s S1 S1w + xval w n s S2 S2w) s').
Proof.
  intros D Dw S1 S1w S2 S2w s r DK S1L S2L W E. destruct (dok_sok _ _ DK) as (DS & DI). unfold emit_lea_binary in E.
  destruct (arg_eqb D S1 && (Dw =? S1w)); [discriminate|]. destruct (arg_eqb D S2 && (Dw =? S2w)); [discriminate|].
  set (d := if is_reg D then reg_of D else TMP_REG1) in *.
  assert (DD : 1 <= d <= 15). { unfold d. destruct D as [q| |b o]; cbn [is_reg reg_of]; unfold TMP_REG1; try lia. apply (dok_reg _ _ DK). }
  assert (FIN : forall b o imm v, genop (AMem b o) imm -> far (AMem b o) imm = false -> xaddr w s b o imm mod 2 ^ n = v mod 2 ^ n ->
    does u (ins w m (fl 1) 0x8d (AReg d) 0 (AMem b o) imm +++ (if d =? TMP_REG1 then emit_mov w m D Dw (AReg TMP_REG1) 0 else Some [])) s
      (fun s' => wrote w n TMPS s D Dw v s')).
  { intros b o imm v G FR V. eapply does_seq; [apply lea_ok; [lia|exact G|exact W]|]. intros s1 W1 (A & _).
    unfold ftmp in A. rewrite FR in A.
    assert (A' : wrote w n TMPS s (AReg d) 0 v s1) by (eapply wrote_val; [eapply wrote_weaken; [exact A|intros x []]|exact V]).
    destruct (Z.eqb_spec d TMP_REG1) as [ED|ED].
    - eapply does_conseq; [eapply fin_tmp; [exact DK|rewrite <- ED; exact A'|exact W1]|]. intros s2 _ (C & _). exact C.
    - apply does_nil; [exact W1|]. unfold d in *. destruct D as [q| |b' o']; cbn [is_reg reg_of] in *; try contradiction.
      destruct (dok_reg _ _ DK) as (_ & ->). exact A'. }
  assert (SX : forall v, not_halfword (sext 32 v) = false /\ - 2 ^ 31 <= sext 32 v < 2 ^ 31).
  { intros v. pose proof (sext_range 32 v ltac:(lia)) as R. change (2 ^ (32 - 1)) with (2 ^ 31) in R. split; [unfold not_halfword; rewrite orb_false_iff; lia|lia]. }
  assert (IMM : forall rr v, xureg rr -> m || is_halfword v = true ->
    genop (AMem rr 0) (sext 32 v) /\ far (AMem rr 0) (sext 32 v) = false /\ xaddr w s rr 0 (sext 32 v) mod 2 ^ n = (xr s (reg_map w rr) mod 2 ^ n + v mod 2 ^ n) mod 2 ^ n).
  { intros rr v U H. unfold xureg in U. destruct (SX v) as (S1' & S2'). split; [cbn [genop]; unfold isreg; cbn; lia|]. split; [exact S1'|].
    unfold xaddr. destruct (Z.eqb_spec rr 0); [lia|]. change (0 =? 0) with true. cbv iota.
    rewrite Z.add_mod by apply pow2n. rewrite sext32_imm by (apply half_immok; rewrite orb_comm; exact H). reflexivity. }
  destruct S1 as [r1| |b1 o1]; destruct S2 as [r2| |b2 o2]; try discriminate.
  - injection E as <-. simpl in S1L, S2L. destruct S1L as (U1 & ->). destruct S2L as (U2 & ->). unfold xureg in *. apply FIN.
    + cbn [genop]. unfold isreg. destruct (Z.eqb_spec r2 0); lia.
    + unfold far. destruct r2 as [|p|p]; try reflexivity; lia.
    + unfold xaddr. destruct (Z.eqb_spec r1 0); [lia|]. destruct (Z.eqb_spec r2 0); [lia|]. cbn [xval]. change (2 ^ 0) with 1. rewrite Z.mul_1_r.
      apply Z.add_mod. apply pow2n.
  - destruct (m || is_halfword S2w) eqn:H; [|discriminate]. injection E as <-. simpl in S1L. destruct S1L as (U1 & ->).
    destruct (IMM r1 S2w U1 H) as (I1 & I2 & I3). apply FIN; auto.
  - destruct (m || is_halfword S1w) eqn:H; [|discriminate]. injection E as <-. simpl in S2L. destruct S2L as (U2 & ->).
    destruct (IMM r2 S1w U2 H) as (I1 & I2 & I3). apply FIN; auto. cbn [xval]. rewrite I3. f_equal. apply Z.add_comm.
Qed.
End U.
