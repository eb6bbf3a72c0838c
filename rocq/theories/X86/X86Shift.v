(** Shifts and rotations: emit_shift, emit_shift_with_flags. *)
Require Import ZArith List Bool Lia.
From Verif Require Import Rv.RvLib Rv.RvIsa Rv.RvMem Rv.RvMemProofs Rv.RvEmitOp1 X86.X86Isa X86.X86Emit X86.X86Spec X86.X86Enc X86.X86EncTop X86.X86OpSpec X86.X86Op X86.X86Ins X86.X86Ins2 X86.X86Mov X86.X86Bin X86.X86Mul.
Import ListNotations.
Ltac Zify.zify_post_hook ::= idtac.
Open Scope Z_scope.

Section U.
Variables (u : Z) (w m : bool).
Notation n := (size_of m).
Notation rv s r := (xr s (reg_map w r)).
Notation P := PREF_SHIFT_REG.
Notation T := TMP_REG1.
Definition shfl (k : shk) (X c : Z) (s s' : xst) : Prop := (c = 0 -> flags_same s s') /\ (c <> 0 -> is_rot k = false -> xzf s' = zfl n (sh_res k n X c)).
Lemma shfl_pre : forall k X c s s1 s2, flags_same s s1 -> shfl k X c s1 s2 -> shfl k X c s s2.
Proof. intros k X c s s1 s2 F (A & B). split; [intros E; eapply flags_trans; eauto|exact B]. Qed.
Lemma shfl_post : forall k X c s s1 s2, shfl k X c s s1 -> flags_same s1 s2 -> shfl k X c s s2.
Proof. intros k X c s s1 s2 (A & B) F. split; [intros E; eapply flags_trans; eauto|]. intros E R. destruct F as (_ & F & _). rewrite F. auto. Qed.
Lemma sh_reg : forall k d a imma s1 X c, 1 <= d <= 16 -> cntok m a imma -> cntval m s1 a imma = c -> rv s1 d mod 2 ^ n = X -> xwf s1 ->
  does u (shift_ins w m (8 * smode k) a imma (AReg d) 0) s1 (fun s2 => only w [d] s1 s2 /\ rv s2 d = sh_res k n X c mod 2 ^ n /\ shfl k X c s1 s2).
Proof.
  intros k d a imma s1 X c D CO CV XV W. eapply does_conseq; [apply shift_ok; [exact CO|apply sok_gop; [simpl; lia|reflexivity]|exact W]|].
  intros s2 _ (A & B & C). change (xval w n s1 (AReg d) 0) with (rv s1 d mod 2 ^ n) in *. rewrite XV, CV in *.
  destruct (wrote_reg_only _ _ _ _ _ _ _ _ A) as (A1 & A2). split; [exact A1|]. split; [exact A2|]. split; [exact B|exact C].
Qed.
Lemma pref_rcx : reg_map w P = 1. Proof. destruct w; reflexivity. Qed.
Lemma cnt_mod : forall v, (v mod 2 ^ n) mod n = v mod n.
Proof.
  intros v. destruct m; cbn [size_of].
  - change (2 ^ 32) with (32 * 2 ^ 27). rewrite Z.rem_mul_r by lia. rewrite Z.mul_comm, Z.mod_add, Z.mod_mod by lia. reflexivity.
  - change (2 ^ 64) with (64 * 2 ^ 58). rewrite Z.rem_mul_r by lia. rewrite Z.mul_comm, Z.mod_add, Z.mod_mod by lia. reflexivity.
Qed.
Lemma only_reg_wrote : forall L d s s' v, only w L s s' -> incl L (d :: TMPS) -> rv s' d = v mod 2 ^ n -> wrote w n TMPS s (AReg d) 0 v s'.
Proof. intros L d s s' v (A & B) I E. split; [exact E|]. split; [exact A|]. eapply regs_weaken; [exact B|exact I]. Qed.
(** Copying a whole register. *)
Lemma mov64 : forall d e s, 1 <= d <= 16 -> 1 <= e <= 16 -> xwf s ->
  does u (emit_mov w false (AReg d) 0 (AReg e) 0) s (fun s' => only w [d] s s' /\ rv s' d = rv s e /\ flags_same s s').
Proof.
  intros d e s D E W. eapply does_conseq; [apply movr_ok; [lia|simpl; lia|exact W]|]. intros s' _ (A & B & C).
  split; [exact A|]. split; [|exact C]. rewrite B. cbn [xval size_of]. apply Z.mod_small. exact (W _).
Qed.
(** The operands for which SLJIT_R3 is destroyed: X86C:2604-2639. *)
Definition shift_bad (D S2 : arg) (S2w : Z) : bool :=
  far S2 S2w && negb (arg_eqb D (AReg P)) && (negb (is_reg D) || depends S2 (reg_of D) || arg_eqb D (AReg T)).
Definition shcnt (S2 : arg) (S2w : Z) : Prop := match S2 with AImm => 0 <= S2w < n | _ => True end.
Lemma cnt_direct : forall S2 S2w s, xsrc_legal S2 S2w -> shcnt S2 S2w -> is_imm S2 || arg_eqb S2 (AReg P) = true ->
  cntok m S2 S2w /\ cntval m s S2 S2w = xval w n s S2 S2w mod n.
Proof.
  intros S2 S2w s L C E. destruct S2 as [r| |b o]; cbn [is_imm orb] in E; try discriminate.
  - apply arg_eqb_eq in E. injection E as ->. split; [reflexivity|]. cbn [cntval xval]. rewrite pref_rcx, cnt_mod. reflexivity.
  - split; [exact C|]. cbn [cntval xval]. rewrite cnt_mod. reflexivity.
Qed.
Lemma shcnt_eq : forall s S2 S2w s', is_imm S2 || arg_eqb S2 (AReg P) = true -> rv s' P = rv s P -> cntval m s' S2 S2w = cntval m s S2 S2w.
Proof. intros s S2 S2w s' E R. destruct S2; cbn [cntval]; try reflexivity. rewrite pref_rcx in R. rewrite R. reflexivity. Qed.
Lemma cntP : forall s y, rv s P = y -> cntval m s (AReg P) 0 = y mod n.
Proof. intros s y <-. cbn [cntval]. rewrite pref_rcx. reflexivity. Qed.
Lemma shifts_ok : forall k D Dw S1 S1w S2 S2w s, dok D Dw -> xsrc_legal S1 S1w -> xsrc_legal S2 S2w -> shcnt S2 S2w -> shift_bad D S2 S2w = false -> xwf s ->
  let x := xval w n s S1 S1w in let c := xval w n s S2 S2w mod n in
  does u (emit_shift w m (8 * smode k) D Dw S1 S1w S2 S2w) s (fun s' => wrote w n TMPS s D Dw (sh_res k n x c) s' /\ shfl k x c s s').
Proof.
  intros k D Dw S1 S1w S2 S2w s DK S1L S2L SC SB W x c. pose proof (src_sok _ _ S1L) as SK1. pose proof (src_sok _ _ S2L) as SK2.
  destruct (dok_sok _ _ DK) as (DS & DI). pose proof (src_apart _ _ S1L) as AP1. pose proof (src_apart _ _ S2L) as AP2.
  assert (PT : 1 <= P <= 16 /\ 1 <= T <= 16 /\ P <> T /\ P <> TMP_REG2 /\ T <> TMP_REG2) by (unfold PREF_SHIFT_REG, R3, TMP_REG1, TMP_REG2; lia). destruct PT as (P1 & P2 & P3 & P4 & P5).
  assert (XS : x mod 2 ^ n = x) by (apply xval_small; exact W).
  assert (PN : ~ In P TMPS) by (unfold PREF_SHIFT_REG, R3, TMPS; simpl; lia).
  assert (TI : In T TMPS) by (left; reflexivity).
  assert (FT : forall a imm, ~ In P (ftmp a imm)) by (intros a imm I; apply PN; exact (ftmp_TMPS _ _ _ I)).
  assert (FT1 : forall a imm, ~ In T (ftmp a imm)) by (intros a imm; unfold ftmp; destruct (far a imm); simpl; unfold TMP_REG1, TMP_REG2; lia).
  (* the value is computed in TMP_REG1, then moved to the destination *)
  assert (FIN : forall s1, xwf s1 -> only w TMPS s s1 -> rv s1 T = sh_res k n x c mod 2 ^ n -> shfl k x c s s1 ->
    does u (emit_mov w m D Dw (AReg T) 0) s1 (fun s' => wrote w n TMPS s D Dw (sh_res k n x c) s' /\ shfl k x c s s')).
  { intros s1 W1 O V F. eapply does_conseq; [eapply fin_tmp with (s := s); [exact DK| |exact W1]|].
    - eapply only_reg_wrote; [exact O| |exact V]. intros q Q. right. exact Q.
    - intros s2 _ (A & B). split; [exact A|]. eapply shfl_post; eauto. }
  unfold emit_shift. cbv zeta. destruct (is_imm S2 || arg_eqb S2 (AReg P)) eqn:E1.
  - destruct (cnt_direct S2 S2w s S2L SC E1) as (C1 & C2). fold c in C2.
    assert (VIAT : forall q qw, cntok m q qw -> (forall s', rv s' P = rv s P -> cntval m s' q qw = c) ->
      does u (emit_mov w m (AReg T) 0 S1 S1w +++ shift_ins w m (8 * smode k) q qw (AReg T) 0 +++ emit_mov w m D Dw (AReg T) 0) s
        (fun s' => wrote w n TMPS s D Dw (sh_res k n x c) s' /\ shfl k x c s s')).
    { intros q qw CQ CV. eapply does_seq; [apply movr_ok; [lia|exact SK1|exact W]|]. intros s1 W1 (A & B & F). fold x in B.
      eapply does_seq; [apply sh_reg with (X := x) (c := c); [lia|exact CQ| |rewrite B; exact XS|exact W1]|].
      { apply CV. apply (reg_keep _ _ _ _ _ A); [lia|]. intros [Q|Q]; [congruence|apply (FT _ _ Q)]. }
      intros s2 W2 (A2 & B2 & F2). apply FIN; auto.
      - eapply only_weaken; [eapply only_trans; [exact A|exact A2]|]. intros q' Q. apply in_app_or in Q. destruct Q as [[Q|Q]|[Q|[]]]; try (subst; exact TI). exact (ftmp_TMPS _ _ _ Q).
      - eapply shfl_pre; eauto. }
    assert (CV2 : forall s', rv s' P = rv s P -> cntval m s' S2 S2w = c) by (intros s' R; rewrite (shcnt_eq s); auto).
    destruct (arg_eqb D S1 && (Dw =? S1w)) eqn:E2.
    + apply same_place in E2. destruct E2 as (<- & <-).
      eapply does_conseq; [apply shift_ok; [exact C1|apply sok_gop; auto|exact W]|]. intros s' _ (A & B & C). fold x in A, B, C. rewrite C2 in A, B, C.
      split; [eapply wrote_weaken; [exact A|apply ftmp_TMPS]|]. split; assumption.
    + destruct (arg_eqb D (AReg P) && arg_eqb S2 (AReg P)) eqn:E3.
      { apply andb_prop in E3. destruct E3 as (E3 & E4). apply arg_eqb_eq in E3. apply arg_eqb_eq in E4. subst D S2.
        destruct (dok_reg _ _ DK) as (_ & ->). apply VIAT; [reflexivity|exact CV2]. }
      destruct D as [d| |bd od]; cbn [is_reg].
      * destruct (dok_reg _ _ DK) as (D1 & ->).
        eapply does_seq; [apply movr_ok; [lia|exact SK1|exact W]|]. intros s1 W1 (A & B & F). fold x in B.
        eapply does_conseq; [apply sh_reg with (X := x) (c := c); [lia|exact C1| |rewrite B; exact XS|exact W1]|].
        { destruct S2 as [r| |b o]; try exact C2.
          apply CV2. apply (reg_keep _ _ _ _ _ A); [lia|]. intros [Q|Q]; [|apply (FT _ _ Q)].
          cbn [is_imm orb] in E1. subst d. rewrite E1, arg_eqb_refl in E3. discriminate. }
        intros s2 W2 (A2 & B2 & F2). split; [|eapply shfl_pre; eauto].
        eapply only_reg_wrote; [eapply only_trans; [exact A|exact A2]| |exact B2].
        intros q Q. apply in_app_or in Q. destruct Q as [[Q|Q]|[Q|[]]]; try (left; exact Q). right. exact (ftmp_TMPS _ _ _ Q).
      * discriminate.
      * apply VIAT; [exact C1|exact CV2].
  - apply orb_false_elim in E1. destruct E1 as (EI & EP).
    assert (NP : S2 <> AReg P) by (intros ->; rewrite arg_eqb_refl in EP; discriminate).
    destruct (arg_eqb D (AReg P)) eqn:E2.
    + apply arg_eqb_eq in E2. subst D. destruct (dok_reg _ _ DK) as (_ & ->).
      eapply does_seq; [apply movr_ok; [lia|exact SK1|exact W]|]. intros s1 W1 (A & B & F). fold x in B.
      assert (O1 : only w TMPS s s1) by (eapply only_weaken; [exact A|apply tmp1_ftmp]).
      eapply does_seq; [apply movr_ok; [lia|exact SK2|exact W1]|]. intros s2 W2 (A2 & B2 & F2).
      rewrite (xval_keep w n TMPS s s1 S2 S2w SK2 O1 AP2) in B2.
      eapply does_seq; [apply sh_reg with (X := x) (c := c); [lia|reflexivity|apply cntP; exact B2| |exact W2]|].
      { rewrite (reg_keep _ _ _ _ T A2); [rewrite B; exact XS|lia|]. intros [Q|Q]; [congruence|apply (FT1 _ _ Q)]. }
      intros s3 W3 (A3 & B3 & F3).
      eapply does_conseq; [apply movr_ok; [lia|simpl; lia|exact W3]|]. intros s4 _ (A4 & B4 & F4).
      split.
      * eapply only_reg_wrote; [eapply only_trans; [exact O1|eapply only_trans; [exact A2|eapply only_trans; [exact A3|exact A4]]]| |].
        -- intros q Q. rewrite !in_app_iff in Q. simpl in Q. destruct Q as [Q|[[Q|Q]|[[Q|[]]|[Q|[]]]]]; try (left; exact Q); right; try exact Q; try exact (ftmp_TMPS _ _ _ Q). subst q; exact TI.
        -- rewrite B4. cbn [xval]. rewrite B3. apply Z.mod_mod. apply pow2n.
      * eapply shfl_post; [|exact F4]. eapply shfl_pre; [|exact F3]. eapply flags_trans; eauto.
    + destruct (is_reg D && negb (arg_eqb D S2) && negb (arg_eqb D (AReg T)) && negb (depends S2 (reg_of D))) eqn:E3.
      * rewrite !andb_true_iff, !negb_true_iff in E3. destruct E3 as (((E3 & E4) & E5) & E6). destruct D as [d| |bd od]; try discriminate. cbn [reg_of] in *.
        destruct (dok_reg _ _ DK) as (D1 & ->).
        assert (DP : d <> P) by (intros ->; rewrite arg_eqb_refl in E2; discriminate).
        assert (DT : d <> T) by (intros ->; rewrite arg_eqb_refl in E5; discriminate).
        assert (D2 : d <> TMP_REG2) by (unfold TMP_REG2; lia).
        assert (DU : ~ In d (uses S2)) by (apply depends_uses; [exact E6|intros ->; rewrite arg_eqb_refl in E4; discriminate]).
        eapply does_seq with (P := fun s1 => only w (d :: TMPS) s s1 /\ rv s1 d mod 2 ^ n = x /\ rv s1 P = rv s P /\ flags_same s s1).
        { destruct (arg_eqb S1 (AReg d)) eqn:E7.
          - apply arg_eqb_eq in E7. apply does_nil; [exact W|]. split; [apply only_refl|]. split; [unfold x; rewrite E7; reflexivity|]. split; [reflexivity|apply flags_refl].
          - eapply does_conseq; [apply movr_ok; [lia|exact SK1|exact W]|]. intros s1 _ (A & B & F). fold x in B.
            split; [eapply only_weaken; [exact A|apply incl_cons_tmps]|]. split; [rewrite B; exact XS|]. split; [|exact F].
            apply (reg_keep _ _ _ _ _ A); [lia|]. intros [Q|Q]; [congruence|apply (FT _ _ Q)]. }
        intros s1 W1 (A1 & B1 & R1 & F1).
        eapply does_seq; [apply mov64; [lia|lia|exact W1]|]. intros s2 W2 (A2 & B2 & F2).
        assert (O2 : only w (d :: TMPS) s s2).
        { eapply only_weaken; [eapply only_trans; [exact A1|exact A2]|]. intros q Q. apply in_app_or in Q. destruct Q as [Q|[Q|[]]]; [exact Q|]. right; left; exact Q. }
        eapply does_seq; [apply movr_ok; [lia|exact SK2|exact W2]|]. intros s3 W3 (A3 & B3 & F3).
        rewrite (xval_keep w n (d :: TMPS) s s2 S2 S2w SK2 O2) in B3.
        2:{ intros q Q Q0 [I|I]; [subst q; contradiction|]. exact (AP2 q Q Q0 I). }
        assert (KD : forall t t' L, only w L t t' -> ~ In d L -> rv t' d = rv t d) by (intros t t' L O N; apply (reg_keep _ _ _ _ _ O); [lia|exact N]).
        eapply does_seq; [apply sh_reg with (X := x) (c := c); [lia|reflexivity|apply cntP; exact B3| |exact W3]|].
        { rewrite (KD _ _ _ A3), (KD _ _ _ A2); [exact B1| |].
          - intros [Q|[]]. congruence.
          - intros [Q|Q]; [congruence|]. apply ftmp_TMPS in Q. simpl in Q. unfold TMP_REG1, TMP_REG2 in *. lia. }
        intros s4 W4 (A4 & B4 & F4).
        eapply does_conseq; [apply mov64; [lia|lia|exact W4]|]. intros s5 _ (A5 & B5 & F5).
        assert (RT : rv s5 P = rv s P).
        { rewrite B5, <- R1, <- B2. rewrite (reg_keep _ _ _ _ T A4), (reg_keep _ _ _ _ T A3); [reflexivity|lia| |lia|].
          - intros [Q|Q]; [congruence|apply (FT1 _ _ Q)].
          - intros [Q|[]]. congruence. }
        split.
        -- eapply only_reg_wrote with (L := d :: TMPS); [|intros q Q; exact Q|].
           ++ eapply only_reg_drop with (r := P); [|lia|exact RT].
              eapply only_weaken; [eapply only_trans; [exact O2|eapply only_trans; [exact A3|eapply only_trans; [exact A4|exact A5]]]|].
              intros q Q. rewrite !in_app_iff in Q. simpl in Q. destruct Q as [[Q|Q]|[[Q|Q]|[[Q|[]]|[Q|[]]]]]; try (left; exact Q); right; try (left; exact Q); right; [exact Q|exact (ftmp_TMPS _ _ _ Q)].
           ++ rewrite (KD _ _ _ A5); [exact B4|]. intros [Q|[]]. congruence.
        -- eapply shfl_post; [|exact F5]. eapply shfl_pre; [|exact F4]. eapply flags_trans; [exact F1|]. eapply flags_trans; eauto.
      * assert (NF : ftmp S2 S2w = []).
        { unfold ftmp. destruct (far S2 S2w) eqn:FR; [|reflexivity]. unfold shift_bad in SB. rewrite FR, E2 in SB. cbn [negb andb] in SB.
          apply orb_false_elim in SB. destruct SB as (SB & SB3). apply orb_false_elim in SB. destruct SB as (SB1 & SB2). apply negb_false_iff in SB1.
          rewrite SB1, SB2, SB3 in E3. cbn [negb andb] in E3. rewrite !andb_true_r, negb_false_iff in E3. apply arg_eqb_eq in E3.
          rewrite <- E3 in FR. destruct D as [d| |bd od]; discriminate. }
        eapply does_seq; [apply movr_ok; [lia|exact SK1|exact W]|]. intros s1 W1 (A1 & B1 & F1). fold x in B1.
        eapply does_seq; [apply mov64; [unfold TMP_REG2; lia|lia|exact W1]|]. intros s2 W2 (A2 & B2 & F2).
        assert (O1 : only w TMPS s s1) by (eapply only_weaken; [exact A1|apply tmp1_ftmp]).
        assert (O2 : only w TMPS s s2).
        { eapply only_weaken; [eapply only_trans; [exact O1|exact A2]|]. intros q Q. apply in_app_or in Q. destruct Q as [Q|[Q|[]]]; [exact Q|]. right; left; exact Q. }
        eapply does_seq; [apply movr_ok; [lia|exact SK2|exact W2]|]. intros s3 W3 (A3 & B3 & F3). rewrite NF in A3.
        rewrite (xval_keep w n TMPS s s2 S2 S2w SK2 O2 AP2) in B3.
        eapply does_seq; [apply sh_reg with (X := x) (c := c); [lia|reflexivity|apply cntP; exact B3| |exact W3]|].
        { rewrite (reg_keep _ _ _ _ T A3), (reg_keep _ _ _ _ T A2); [rewrite B1; exact XS|lia| |lia|].
          - intros [Q|[]]. congruence.
          - intros [Q|[]]. congruence. }
        intros s4 W4 (A4 & B4 & F4).
        eapply does_seq; [apply mov64; [lia|unfold TMP_REG2; lia|exact W4]|]. intros s5 W5 (A5 & B5 & F5).
        assert (RT : rv s5 P = rv s P).
        { rewrite B5. rewrite (reg_keep _ _ _ _ TMP_REG2 A4), (reg_keep _ _ _ _ TMP_REG2 A3); [|unfold TMP_REG2; lia| |unfold TMP_REG2; lia|].
          - rewrite B2. apply (reg_keep _ _ _ _ _ O1); [lia|exact PN].
          - intros [Q|[]]. congruence.
          - intros [Q|[]]. congruence. }
        assert (O5 : only w TMPS s s5).
        { eapply only_reg_drop with (r := P); [|lia|exact RT].
          eapply only_weaken; [eapply only_trans; [exact O2|eapply only_trans; [exact A3|eapply only_trans; [exact A4|exact A5]]]|].
          intros q Q. rewrite !in_app_iff in Q. simpl in Q. destruct Q as [Q|[[Q|[]]|[[Q|[]]|[Q|[]]]]]; try (left; exact Q); right; [exact Q|]. subst q; exact TI. }
        assert (V5 : rv s5 T = sh_res k n x c mod 2 ^ n).
        { rewrite (reg_keep _ _ _ _ T A5); [exact B4|lia|]. intros [Q|[]]. congruence. }
        assert (F : shfl k x c s s5).
        { eapply shfl_post; [|exact F5]. eapply shfl_pre; [|exact F4]. eapply flags_trans; [exact F1|]. eapply flags_trans; eauto. }
        destruct (arg_eqb D (AReg T)) eqn:E4.
        -- apply arg_eqb_eq in E4. subst D. destruct (dok_reg _ _ DK) as (_ & ->). apply does_nil; [exact W5|]. split; [|exact F].
           eapply only_reg_wrote; [exact O5| |exact V5]. intros q Q. right. exact Q.
        -- apply FIN; assumption.
Qed.
End U.
