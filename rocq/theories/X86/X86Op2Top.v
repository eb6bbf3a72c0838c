(** sljit_emit_op2, sljit_emit_op2u, sljit_emit_op2r: the emitted code. *)
Require Import ZArith List Bool Lia.
From Verif Require Import Rv.RvLib Rv.RvIsa Rv.RvMem Rv.RvMemProofs Rv.RvOp Rv.RvLir Rv.RvCond Rv.RvCondSpec Rv.RvEmitOp1 X86.X86Isa X86.X86Emit X86.X86Spec X86.X86Enc X86.X86EncTop X86.X86OpSpec X86.X86Op X86.X86Cond X86.X86Ins X86.X86Ins2 X86.X86Mov X86.X86Bin X86.X86Mul X86.X86Shift X86.X86Op2.
Import ListNotations.
Ltac Zify.zify_post_hook ::= idtac.
Open Scope Z_scope.

(** Operands for which the emitted code is wrong (findings 22-24 of DESIGN.md): the address of the second source depends on the register
    that receives the first source; a shift amount in memory whose displacement needs a temporary register. *)
Definition op2_bad (o : op) (k : op2k) (D S1 : arg) (S1w : Z) (S2 : arg) (S2w : Z) : bool :=
  match k with
  | O_ADD | O_ADDC | O_SUBC | O_AND | O_OR => dep_bad D S1 S2
  | O_SUB => dep_bad D S1 S2 && negb (is_imm S1 && (S1w =? 0))
  | O_XOR => dep_bad D S1 S2 && negb (negb (has_flags o) && is_imm S1 && (S1w =? -1))
  | O_MUL => mul_bad D S1 S2
  | _ => shift_bad D S2 S2w
  end.

Section U.
Variables (u : Z) (w m : bool).
Notation n := (size_of m).
Notation rv s r := (xr s (reg_map w r)).
Lemma land_mask : forall v, Z.land v (if m then 0x1f else 0x3f) = v mod n.
Proof.
  intros v. destruct m; cbn [size_of].
  - change 0x1f with (Z.ones 5). rewrite Z.land_ones by lia. reflexivity.
  - change 0x3f with (Z.ones 6). rewrite Z.land_ones by lia. reflexivity.
Qed.
Lemma cmp0_ok : forall d s, 1 <= d <= 15 -> xwf s ->
  does u (emit_cmp_binary w m (AReg d) 0 AImm 0) s (fun s' => only w [] s s' /\ xzf s' = zfl n (rv s d)).
Proof.
  intros d s D W. unfold emit_cmp_binary. cbn [is_imm is_reg].
  replace (arg_eqb (AReg d) (AReg R0) && true && ((127 <? 0) || (0 <? -128)) && (m || is_halfword 0)) with false by (change ((127 <? 0) || (0 <? -128)) with false; rewrite !andb_false_r; reflexivity).
  unfold binary_imm. change (is_halfword 0 || m) with true. cbv iota.
  eapply does_conseq; [apply cmp_imm_ok with (c := false); [apply half_immok; reflexivity|apply sok_gop; [simpl; lia|reflexivity]|exact W]|].
  intros s' _ (A & B). split; [exact A|]. cbn [alu_fl alu_res] in B. destruct B as (_ & B & _). rewrite B. unfold zfl. f_equal. f_equal.
  cbn [xval]. rewrite Z.mod_0_l, Z.sub_0_r by apply pow2n. apply Z.mod_mod. apply pow2n.
Qed.
Lemma zfl_mod : forall v v', v mod 2 ^ n = v' mod 2 ^ n -> zfl n v = zfl n v'. Proof. intros v v' E. unfold zfl. rewrite E. reflexivity. Qed.
Lemma swf_ok : forall k (sf : bool) D Dw S1 S1w S2 S2w s, dok D Dw -> xsrc_legal S1 S1w -> xsrc_legal S2 S2w -> shift_bad D S2 S2w = false -> xwf s ->
  (is_rot k = true -> sf = false) ->
  let x := xval w n s S1 S1w in let c := xval w n s S2 S2w mod n in
  does u (emit_shift_with_flags w m (8 * smode k) sf D Dw S1 S1w S2 S2w) s (fun s' =>
    wrote w n TMPS s D Dw (sh_res k n x c) s' /\ (sf = true -> xzf s' = zfl n (sh_res k n x c))).
Proof.
  intros k sf D Dw S1 S1w S2 S2w s DK S1L S2L SB W RT x c. destruct (dok_sok _ _ DK) as (DS & DI). pose proof (src_sok _ _ S1L) as SK1.
  assert (XR : 0 <= x < 2 ^ n) by (apply xval_range; exact W).
  assert (KR : sf = true -> is_rot k = false) by (intros E; destruct (is_rot k); [rewrite RT in E by reflexivity; discriminate|reflexivity]).
  assert (N0 : n <> 0) by (destruct m; discriminate).
  destruct (is_imm S2) eqn:EI.
  - destruct S2 as [r| |b o]; try discriminate. unfold emit_shift_with_flags. rewrite land_mask. cbv zeta.
    assert (CE : c = S2w mod n) by (unfold c; cbn [xval]; apply cnt_mod).
    destruct (Z.eqb_spec (S2w mod n) 0) as [E0|E0]; cbn [negb].
    + assert (C0 : c = 0) by congruence. rewrite C0. destruct sf; cbn [negb].
      * eapply does_conseq; [apply (cum_ok u w m Or) with (c := false); [reflexivity|exact DK|exact S1L|simpl; lia| |exact W|intros Q; discriminate]|].
        { unfold dep_bad. cbn [depends]. apply andb_false_r. }
        intros s' _ (A & B). fold x in A, B. cbn [xval] in A, B. rewrite Z.mod_0_l in A, B by apply pow2n.
        unfold alu_val in A. cbn [alu_res fst] in A. cbn [alu_fl alu_res] in B. destruct B as (_ & B & _). rewrite Z.lor_0_r in A, B.
        assert (V : x mod 2 ^ n = sh_res k n x 0 mod 2 ^ n) by (rewrite (sh_res_0 m k x XR); apply Z.mod_small; exact XR).
        split; [eapply wrote_val; [exact A|exact V]|]. intros _. rewrite B. apply zfl_mod. exact V.
      * eapply does_conseq; [apply mov_ok; auto|].
        { intros _ Q. subst S1. simpl in S1L. unfold xureg, TMP_REG2 in S1L. lia. }
        intros s' _ (A & B). fold x in A. split; [|discriminate]. eapply wrote_val; [eapply wrote_weaken; [exact A|apply mov_tmps_TMPS]|].
        rewrite (sh_res_0 m k x XR). apply Z.mod_small; exact XR.
    + pose proof (Z.mod_pos_bound S2w n ltac:(destruct m; vm_compute; reflexivity)) as MB.
      eapply does_conseq; [apply shifts_ok; [exact DK|exact S1L| |simpl; exact MB|reflexivity|exact W]|].
      { cbn [xsrc_legal]. clear - MB. destruct m; cbn [size_of] in *; change (2 ^ 63) with 9223372036854775808; lia. }
      intros s' _ (A & (_ & B)). fold x in A, B. cbn [xval] in A, B. rewrite cnt_mod, Z.mod_mod in A, B by exact N0. rewrite <- CE in A, B.
      split; [exact A|]. intros E. apply B; [congruence|auto].
  - assert (EQ : emit_shift_with_flags w m (8 * smode k) sf D Dw S1 S1w S2 S2w =
      if negb sf then emit_shift w m (8 * smode k) D Dw S1 S1w S2 S2w
      else (if is_reg D then Some [] else emit_cmp_binary w m S1 S1w AImm 0) +++ emit_shift w m (8 * smode k) D Dw S1 S1w S2 S2w
        +++ (if is_reg D then emit_cmp_binary w m D Dw AImm 0 else Some [])) by (destruct S2; [reflexivity|discriminate|reflexivity]).
    rewrite EQ. clear EQ.
    assert (SC : shcnt m S2 S2w) by (destruct S2; simpl; auto; discriminate).
    destruct sf; cbn [negb].
    + destruct D as [d| |bd od]; cbn [is_reg].
      * destruct (dok_reg _ _ DK) as (D1 & ->).
        eapply does_seq; [apply does_nil with (P := fun s' => s' = s); [exact W|reflexivity]|]. intros s0 _ ->.
        eapply does_seq; [apply shifts_ok; eauto|]. intros s1 W1 (A & _). fold x c in A.
        eapply does_conseq; [apply cmp0_ok; [exact D1|exact W1]|]. intros s2 _ ((B1 & B2) & F).
        destruct A as (A1 & A2 & A3). split.
        -- split; [|split; [congruence|]].
           ++ rewrite B2; [exact A1|lia|intros []].
           ++ intros q Q N. rewrite B2; auto.
        -- intros _. rewrite F. apply zfl_mod. rewrite A1. apply Z.mod_mod. apply pow2n.
      * discriminate.
      * assert (NT2 : S1 <> AReg TMP_REG2) by (intros ->; simpl in S1L; unfold xureg, TMP_REG2 in S1L; lia).
        eapply does_seq; [apply cmp_ok with (c := false); [exact SK1|exact NT2| |simpl; lia|exact W]|].
        { intros r ->. simpl in S1L. apply S1L. }
        intros s1 W1 (O & F). fold x in F. cbn [xval] in F. rewrite Z.mod_0_l in F by apply pow2n. cbn [alu_fl alu_res] in F. destruct F as (_ & F & _). rewrite Z.sub_0_r in F.
        apply does_nil_r. eapply does_conseq; [apply shifts_ok; eauto|]. intros s2 _ (A & (B1 & B2)).
        rewrite (xval_keep w n TMPS s s1 S1 S1w SK1 O (src_apart _ _ S1L)) in A, B2.
        rewrite (xval_keep w n TMPS s s1 S2 S2w (src_sok _ _ S2L) O (src_apart _ _ S2L)) in A, B1, B2. fold x c in A, B1, B2.
        split.
        -- eapply wrote_weaken; [eapply wrote_trans; [exact DS|exact O|apply (dok_ause _ _ DK)|exact A]|]. intros q Q. apply in_app_or in Q. tauto.
        -- intros _. destruct (Z.eq_dec c 0) as [C0|C0].
           ++ destruct (B1 C0) as (_ & B & _). rewrite B, F. apply zfl_mod. rewrite C0. rewrite (sh_res_0 m k x XR). apply Z.mod_small; exact XR.
           ++ apply B2; auto.
    + eapply does_conseq; [apply shifts_ok; eauto|]. intros s' _ (A & _). split; [exact A|discriminate].
Qed.
Lemma add_mods : forall a b a' b', a mod 2 ^ n = a' mod 2 ^ n -> b mod 2 ^ n = b' mod 2 ^ n -> (a + b) mod 2 ^ n = (a' + b') mod 2 ^ n.
Proof. intros a b a' b' A B. rewrite (Z.add_mod a), (Z.add_mod a') by apply pow2n. rewrite A, B. reflexivity. Qed.
Lemma opp_mods : forall a a', a mod 2 ^ n = a' mod 2 ^ n -> (- a) mod 2 ^ n = (- a') mod 2 ^ n.
Proof.
  intros a a' A. replace (- a) with (0 - a) by lia. replace (- a') with (0 - a') by lia.
  rewrite (Zminus_mod 0 a), (Zminus_mod 0 a'), A. reflexivity.
Qed.
Lemma sext64_mod : forall v, sext 64 v mod 2 ^ n = v mod 2 ^ n.
Proof.
  intros v. destruct (sext_mod 64 v ltac:(lia)) as (k & E). rewrite E at 2. destruct m; cbn [size_of].
  - replace (k * 2 ^ 64) with (k * 2 ^ 32 * 2 ^ 32) by ring. rewrite Z.mod_add by lia. reflexivity.
  - rewrite Z.mod_add by lia. reflexivity.
Qed.
Definition op2_post (o : op) (k : op2k) (c : bool) (D : arg) (Dw x y : Z) (s s' : xst) : Prop :=
  wrote w n TMPS s D Dw (res2 k n x y c) s' /\ conds (requested o) k n x y c s'.
Lemma op2_ok : forall o k c D Dw S1 S1w S2 S2w s, f32 o = m -> dok D Dw -> xsrc_legal S1 S1w -> xsrc_legal S2 S2w -> flags_legal k (setz o) (vf o) ->
  op2_bad o k D S1 S1w S2 S2w = false -> (k = O_ADDC \/ k = O_SUBC -> xcf s = Some c) -> xwf s ->
  does u (emit_op2 w o k D Dw S1 S1w S2 S2w) s (op2_post o k c D Dw (xval w n s S1 S1w) (xval w n s S2 S2w) s).
Proof.
  intros o k c D Dw S1 S1w S2 S2w s M DK S1L S2L FL NB CI W. set (x := xval w n s S1 S1w). set (y := xval w n s S2 S2w).
  assert (X : inr m x) by (apply xval_range; exact W). assert (Y : inr m y) by (apply xval_range; exact W).
  assert (ALU : forall kk, is_alu kk = true -> flags_legal kk (setz o) (vf o) -> forall s', wrote w n TMPS s D Dw (alu_val (aluk kk) n x y c) s' /\ alu_fl (aluk kk) n x y c s' -> op2_post o kk c D Dw x y s s').
  { intros kk K F s' (A & B). split; [rewrite <- alu_res2; auto|]. apply alu_conds; auto. }
  assert (CUM : forall kk, is_alu kk = true -> commutes (aluk kk) = true -> flags_legal kk (setz o) (vf o) -> dep_bad D S1 S2 = false -> (needs_cf (aluk kk) = true -> xcf s = Some c) ->
    does u (emit_cum_binary w m (bop_of (aluk kk)) D Dw S1 S1w S2 S2w) s (op2_post o kk c D Dw x y s)).
  { intros kk K C F B CF. eapply does_conseq; [apply cum_ok with (c := c); auto|]. intros s' _ H. apply ALU; auto. }
  assert (NCUM : forall kk, is_alu kk = true -> flags_legal kk (setz o) (vf o) -> dep_bad D S1 S2 = false -> (needs_cf (aluk kk) = true -> xcf s = Some c) ->
    does u (emit_non_cum_binary w m (bop_of (aluk kk)) D Dw S1 S1w S2 S2w) s (op2_post o kk c D Dw x y s)).
  { intros kk K F B CF. eapply does_conseq; [apply noncum_ok with (c := c); auto; destruct kk; discriminate|]. intros s' _ H. apply ALU; auto. }
  assert (SH : forall kk sf, is_sh kk = true -> flags_legal kk (setz o) (vf o) -> shift_bad D S2 S2w = false -> sf = (if is_rot (shkof kk) then false else has_flags o) ->
    does u (emit_shift_with_flags w m (8 * smode (shkof kk)) sf D Dw S1 S1w S2 S2w) s (op2_post o kk c D Dw x y s)).
  { intros kk sf K F B SF. eapply does_conseq; [apply swf_ok; auto|].
    { intros R. rewrite R in SF. exact SF. }
    intros s' _ (A & ZF). fold x y in A, ZF. pose proof (sh_res2 m kk x y c K X Y) as V.
    split; [eapply wrote_val; [exact A|exact V]|].
    assert (VN : vf o = VNone) by (destruct kk; cbn [flags_legal] in F; try discriminate; intuition).
    destruct (has_flags o) eqn:HF; [|apply none_conds; exact HF].
    assert (SZ : setz o = true). { unfold has_flags, has_v, is_v in HF. rewrite VN in HF. destruct (setz o); [reflexivity|discriminate]. }
    apply flag_conds; auto; try (intros Q; congruence); [intros ->; discriminate|].
    intros _. assert (R : is_rot (shkof kk) = false) by (destruct kk; try discriminate K; try reflexivity; cbn [flags_legal] in F; destruct F; congruence).
    rewrite R in SF. rewrite (ZF SF). unfold zfl. rewrite V. reflexivity. }
  unfold emit_op2. rewrite M. destruct k; cbn [op2_bad] in NB.
  - destruct (has_flags o) eqn:HF.
    + apply (CUM O_ADD); auto. discriminate.
    + destruct (emit_lea_binary w m D Dw S1 S1w S2 S2w) as [r|] eqn:EL.
      * eapply does_conseq; [eapply lea_bin_ok; [exact DK|exact S1L|exact S2L|exact W|exact EL]|]. intros s' _ A. fold x y in A. split; [|apply none_conds; exact HF].
        unfold res2. rewrite (inr_mod m x X), (inr_mod m y Y). exact A.
      * apply (CUM O_ADD); auto. discriminate.
  - apply (CUM O_ADDC); auto.
  - destruct (is_imm S1 && (S1w =? 0)) eqn:E0.
    + apply andb_prop in E0. destruct E0 as (E0 & E1). apply Z.eqb_eq in E1. destruct S1 as [r| |b oo]; try discriminate.
      assert (X0 : x = 0) by (unfold x; cbn [xval]; rewrite E1; apply Z.mod_0_l; apply pow2n).
      eapply does_conseq; [apply (unary_ok u w m true); auto|]. intros s' _ (A & F). fold y in A, F. specialize (F eq_refl). unfold una in A.
      split; [unfold res2; rewrite X0, Z.mod_0_l, (inr_mod m y Y) by apply pow2n; replace (0 - y) with (- y) by lia; exact A|].
      apply (conds_weaken m (fun _ => True)); [|auto]. apply sub_conds; auto. rewrite X0. destruct F as (F1 & F2 & F3 & F4).
      assert (S0 : sext n 0 = 0) by (destruct m; reflexivity). rewrite S0. replace (0 - y) with (- y) by lia. replace (0 - sext n y) with (- sext n y) by lia.
      split; [|split; [exact F2|split; [exact F3|exact F4]]]. rewrite F1. f_equal. unfold inr in Y. destruct (Z.eqb_spec y 0), (Z.ltb_spec 0 y); cbn; reflexivity || lia.
    + cbn [negb] in NB. rewrite andb_true_r in NB.
      destruct (has_flags o || negb (is_imm S2)) eqn:E1; [destruct (negb (has_flags o) && is_reg D && arg_eqb S2 D) eqn:E2|].
      * rewrite !andb_true_iff, negb_true_iff in E2. destruct E2 as ((E2 & E3) & E4). apply arg_eqb_eq in E4. subst S2. destruct D as [d| |b oo]; try discriminate.
        destruct (dok_reg _ _ DK) as (D1 & ->). simpl in S2L. destruct S2L as (U2 & ->).
        assert (DL : xsrc_legal (AReg d) 0) by (split; [exact U2|reflexivity]).
        eapply does_seq; [apply (noncum_ok u w m Sub) with (c := c); [discriminate|exact DK|exact DL|exact S1L| |exact W|intros Q; discriminate]|].
        { unfold dep_bad. rewrite arg_eqb_refl. reflexivity. }
        intros s1 W1 (A & _). change (xval w n s (AReg d) 0) with y in A. fold x in A. unfold alu_val in A. cbn [alu_res fst] in A.
        eapply does_conseq; [apply (unary_ok u w m true); auto|]. intros s2 _ (B & _).
        split; [|apply none_conds; exact E2].
        destruct (wrote_reg_only _ _ _ _ _ _ _ _ A) as (A1 & A2). 
        eapply wrote_val; [eapply reg_after; [exact A1| | |exact B]|].
        -- apply incl_refl.
        -- intros q Q. right. exact Q.
        -- cbn [xval]. rewrite A2. unfold una, res2. rewrite (inr_mod m x X), (inr_mod m y Y).
           replace (x - y) with (- (y - x)) by lia. apply opp_mods. rewrite !Z.mod_mod by apply pow2n. reflexivity.
      * apply (NCUM O_SUB); auto. discriminate.
      * apply orb_false_elim in E1. destruct E1 as (HF & E1). apply negb_false_iff in E1. destruct S2 as [r2| |b2 o2]; try discriminate.
        destruct (emit_lea_binary w m D Dw S1 S1w AImm (sext 64 (- S2w))) as [r|] eqn:EL.
        -- eapply does_conseq; [eapply lea_bin_ok; [exact DK|exact S1L| |exact W|exact EL]|].
           { simpl. pose proof (sext_range 64 (- S2w) ltac:(lia)) as R. change (64 - 1) with 63 in R. exact R. }
           intros s' _ A. fold x in A. split; [|apply none_conds; exact HF]. eapply wrote_val; [exact A|].
           unfold res2. rewrite (inr_mod m x X), (inr_mod m y Y). unfold y. cbn [xval]. rewrite sext64_mod.
           replace (x - S2w mod 2 ^ n) with (x + - (S2w mod 2 ^ n)) by lia. apply add_mods; [reflexivity|].
           rewrite Z.mod_mod by apply pow2n. apply opp_mods. rewrite Z.mod_mod by apply pow2n. reflexivity.
        -- destruct (negb (has_flags o) && is_reg D && arg_eqb AImm D) eqn:E2.
           ++ rewrite !andb_true_iff in E2. destruct E2 as ((_ & E3) & E4). destruct D; discriminate.
           ++ apply (NCUM O_SUB); auto. discriminate.
  - apply (NCUM O_SUBC); auto.
  - eapply does_conseq; [apply mul_ok; auto|]. intros s' _ (A & B). fold x y in A, B.
    assert (V : imul_val m x y mod 2 ^ n = (x * y) mod 2 ^ n).
    { unfold imul_val. rewrite Z.mul_mod, !sext_mod_eq, <- Z.mul_mod by apply pow2n. reflexivity. }
    split; [eapply wrote_val; [exact A|]; unfold res2; rewrite (inr_mod m x X), (inr_mod m y Y); exact V|].
    cbn [flags_legal] in FL. destruct FL as (FZ & FV).
    apply flag_conds; [discriminate|cbn [flags_legal]; auto|intros Q; congruence| |intros Q; destruct FV; congruence].
    intros _. unfold imul_fl in B. rewrite B. unfold cond. rewrite (inr_mod m x X), (inr_mod m y Y). reflexivity.
  - apply (CUM O_AND); auto. discriminate.
  - apply (CUM O_OR); auto. discriminate.
  - destruct (negb (has_flags o) && is_imm S2 && (S2w =? -1)) eqn:E1; [|destruct (negb (has_flags o) && is_imm S1 && (S1w =? -1)) eqn:E2].
    + rewrite !andb_true_iff, negb_true_iff in E1. destruct E1 as ((E1 & E2) & E3). apply Z.eqb_eq in E3. destruct S2; try discriminate.
      eapply does_conseq; [apply (unary_ok u w m false); auto|]. intros s' _ (A & _). fold x in A. split; [|apply none_conds; exact E1].
      unfold res2. rewrite (inr_mod m x X), (inr_mod m y Y). assert (y = 2 ^ n - 1) as -> by (unfold y; cbn [xval]; rewrite E3; destruct m; reflexivity).
      rewrite not_xor by exact X. exact A.
    + rewrite !andb_true_iff, negb_true_iff in E2. destruct E2 as ((E2 & E3) & E4). apply Z.eqb_eq in E4. destruct S1; try discriminate.
      eapply does_conseq; [apply (unary_ok u w m false); auto|]. intros s' _ (A & _). fold y in A. split; [|apply none_conds; exact E2].
      unfold res2. rewrite (inr_mod m x X), (inr_mod m y Y). assert (x = 2 ^ n - 1) as -> by (unfold x; cbn [xval]; rewrite E4; destruct m; reflexivity).
      rewrite Z.lxor_comm, not_xor by exact Y. exact A.
    + cbn [negb] in NB. rewrite andb_true_r in NB. apply (CUM O_XOR); auto. discriminate.
  - apply (SH O_SHL); auto.
  - apply (SH O_MSHL); auto.
  - apply (SH O_LSHR); auto.
  - apply (SH O_MLSHR); auto.
  - apply (SH O_ASHR); auto.
  - apply (SH O_MASHR); auto.
  - apply (SH O_ROTL); auto.
  - apply (SH O_ROTR); auto.
Qed.
End U.
