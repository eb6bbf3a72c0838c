(** MIPS64: jumps and addresses (C50). *)
Require Import ZArith List Bool Lia Zify ZifyBool.
From Verif Require Import Rv.RvLib Rv.RvBits Imm.ImmLib Imm.MsIsa Imm.MsModel Imm.MsSpec Imm.MsProofs.
Import ListNotations.
Open Scope Z_scope.
Ltac Zify.zify_post_hook ::= idtac.

(** ** Words by their fields *)
Definition W (op rs rt off : Z) : Z := op * 2 ^ 26 + rs * 2 ^ 21 + rt * 2 ^ 16 + off.
Definition wf (op rs rt : Z) : Prop := 0 <= op < 64 /\ 0 <= rs < 32 /\ 0 <= rt < 32.
Lemma W_fields op rs rt off : wf op rs rt -> 0 <= off < 2 ^ 16 ->
  fld (W op rs rt off) 26 6 = op /\ fld (W op rs rt off) 21 5 = rs /\ fld (W op rs rt off) 16 5 = rt /\ fld (W op rs rt off) 0 16 = off.
Proof.
  intros (H1 & H2 & H3) H4. unfold W.
  assert (D16 : (op * 2 ^ 26 + rs * 2 ^ 21 + rt * 2 ^ 16 + off) / 2 ^ 16 = op * 2 ^ 10 + rs * 2 ^ 5 + rt).
  { symmetry. apply Z.div_unique with off; lia. }
  assert (D21 : (op * 2 ^ 26 + rs * 2 ^ 21 + rt * 2 ^ 16 + off) / 2 ^ 21 = op * 2 ^ 5 + rs).
  { symmetry. apply Z.div_unique with (rt * 2 ^ 16 + off); lia. }
  assert (D26 : (op * 2 ^ 26 + rs * 2 ^ 21 + rt * 2 ^ 16 + off) / 2 ^ 26 = op).
  { symmetry. apply Z.div_unique with (rs * 2 ^ 21 + rt * 2 ^ 16 + off); lia. }
  rewrite !fld_div by lia. rewrite D16, D21, D26. change (2 ^ 0) with 1. rewrite Z.div_1_r.
  repeat split.
  - apply Z.mod_small. lia.
  - symmetry. apply Z.mod_unique with op; lia.
  - symmetry. apply Z.mod_unique with (op * 2 ^ 5 + rs); lia.
  - symmetry. apply Z.mod_unique with (op * 2 ^ 10 + rs * 2 ^ 5 + rt); lia.
Qed.
Lemma W_mask op rs rt off x : wf op rs rt -> 0 <= off < 2 ^ 16 -> 0 <= x < 2 ^ 16 -> (W op rs rt off .& 0xffff0000) .| x = W op rs rt x.
Proof.
  intros (H1 & H2 & H3) H4 Hx. rewrite (land_mask _ 16 16) by (auto; lia). unfold W.
  replace ((op * 2 ^ 26 + rs * 2 ^ 21 + rt * 2 ^ 16 + off) / 2 ^ 16) with (op * 2 ^ 10 + rs * 2 ^ 5 + rt) by (apply Z.div_unique with off; lia).
  rewrite Z.mod_small by lia. rewrite <- add_lor by lia. lia.
Qed.
Lemma W_sub op rs rt off d : wf op rs rt -> 0 <= d <= off -> off < 2 ^ 16 -> u32 (W op rs rt off - d) = W op rs rt (off - d).
Proof. intros (H1 & H2 & H3) H4 Hx. unfold u32, W. rewrite Z.mod_small by lia. lia. Qed.
Lemma lxor_bit a k : 0 <= k -> Z.lxor a (2 ^ k) = if Z.testbit a k then a - 2 ^ k else a + 2 ^ k.
Proof.
  intros Hk. assert (N : forall b, Z.testbit b k = false -> Z.lxor b (2 ^ k) = b + 2 ^ k).
  { intros b T. symmetry. apply Z.add_nocarry_lxor. apply Z.bits_inj'. intros m Hm. rewrite Z.land_spec, Z.bits_0, Z.pow2_bits_eqb by lia.
    destruct (k =? m) eqn:E; [replace m with k by lia; rewrite T; reflexivity|apply andb_false_r]. }
  destruct (Z.testbit a k) eqn:T; [|apply N; exact T].
  assert (T' : Z.testbit (Z.lxor a (2 ^ k)) k = false) by (rewrite Z.lxor_spec, T, Z.pow2_bits_true by lia; reflexivity).
  specialize (N _ T'). rewrite Z.lxor_assoc, Z.lxor_nilpotent, Z.lxor_0_r in N. lia.
Qed.
Lemma bit_of a k q r b : 0 <= k -> 0 <= r < 2 ^ k -> a = (2 * q + Z.b2z b) * 2 ^ k + r -> Z.testbit a k = b.
Proof.
  intros Hk Hr ->. rewrite Z.testbit_eqb by lia. rewrite Z.div_add_l by lia. rewrite (Z.div_small r) by lia. rewrite Z.add_0_r, Z.add_comm, Z.mul_comm, Z_mod_plus_full.
  destruct b; reflexivity.
Qed.

(** ** The branch of a condition *)
Definition branch_of (r6 : bool) (c : jcond) (w : Z) (k : bkind) : Prop :=
  exists op rs rt l op' rs' rt' bc bc',
    wf op rs rt /\ wf op' rs' rt' /\ l = (if r6 && is_float c then 0 else 8) /\ w = W op rs rt l /\ Z.lxor w (invert_branch r6 k) = W op' rs' rt' l /\
    (forall off, 0 <= off < 2 ^ 16 -> decode r6 (W op rs rt off) = Some (Branch bc off)) /\
    (forall off, 0 <= off < 2 ^ 16 -> decode r6 (W op' rs' rt' off) = Some (Branch bc' off)) /\
    (forall s, bcond_holds s bc = negb (jcond_holds r6 s c)) /\ (forall s, bcond_holds s bc' = jcond_holds r6 s c).
Lemma reg_map_b0 r : 0 <= r <= 27 -> 0 <= reg_map r < 32.
Proof. intros. destruct (Z.eq_dec r 0) as [-> | N]; [vm_compute; split; congruence|]. pose proof (reg_map_b r ltac:(lia)). lia. Qed.
Ltac dec_W := intros off Hoff; match goal with |- decode _ (W ?op ?rs ?rt off) = _ =>
  destruct (W_fields op rs rt off ltac:(unfold wf; lia) Hoff) as (F1 & F2 & F3 & F4); unfold decode; cbv zeta; rewrite F1, ?F2, ?F3, ?F4; reflexivity end.
Lemma W_2 op rs rt : 0 <= op < 64 -> 0 <= rs < 32 -> 0 <= rt < 32 -> HI op .| SA rs .| TA rt .| 8 = W op rs rt 8.
Proof.
  intros. unfold HI, SA, TA, W. rewrite !Z.shiftl_mul_pow2 by lia.
  rewrite <- (add_lor 26 op (rs * 2 ^ 21)) by lia.
  replace (op * 2 ^ 26 + rs * 2 ^ 21) with ((op * 2 ^ 5 + rs) * 2 ^ 21) by lia. rewrite <- add_lor by lia.
  replace ((op * 2 ^ 5 + rs) * 2 ^ 21 + rt * 2 ^ 16) with ((op * 2 ^ 10 + rs * 2 ^ 5 + rt) * 2 ^ 16) by lia. rewrite <- add_lor by lia. lia.
Qed.
Lemma eqb_inv (b v : bool) : Bool.eqb b v = if v then b else negb b.
Proof. destruct b, v; reflexivity. Qed.
Lemma lor_swap a b c : a .| b .| c = a .| c .| b.
Proof. rewrite <- !Z.lor_assoc. f_equal. apply Z.lor_comm. Qed.
Lemma branch_of_ok r6 c jal w k : jcond_legal c jal -> jcond_branch r6 c = Some (w, k) -> branch_of r6 c w k.
Proof.
  intros L E. destruct c as [|f|e x y|z x]; cbn [jcond_branch] in E; [discriminate E| | |].
  - destruct r6, f; cbv in E; apply (f_equal (fun o => match o with Some x => x | None => (0, K26) end)) in E;
      pose proof (f_equal fst E) as E1; pose proof (f_equal snd E) as E2; cbv [fst snd] in E1, E2; subst w k; clear E L; unfold branch_of.
    all: cbn [is_float andb]; cbv iota.
    + exists 5, 3, 0, 8, 4, 3, 0, (Bne_ 3 0), (Beq_ 3 0). repeat split; try lia; try dec_W; intros s; cbn; auto.
    + exists 4, 3, 0, 8, 5, 3, 0, (Beq_ 3 0), (Bne_ 3 0). repeat split; try lia; try dec_W; intros s; cbn; rewrite ?negb_involutive; auto.
    + exists 4, 1, 0, 8, 5, 1, 0, (Beq_ 1 0), (Bne_ 1 0). repeat split; try lia; try dec_W; intros s; cbn; rewrite ?negb_involutive; auto.
    + exists 5, 1, 0, 8, 4, 1, 0, (Bne_ 1 0), (Beq_ 1 0). repeat split; try lia; try dec_W; intros s; cbn; auto.
    + exists 17, 9, 10, 0, 17, 13, 10, (Bfpr_ false 10), (Bfpr_ true 10). repeat split; try lia; try dec_W; intros s; cbn [bcond_holds jcond_holds]; rewrite eqb_inv; reflexivity.
    + exists 17, 13, 10, 0, 17, 9, 10, (Bfpr_ true 10), (Bfpr_ false 10). repeat split; try lia; try dec_W; intros s; cbn [bcond_holds jcond_holds]; rewrite eqb_inv, ?negb_involutive; reflexivity.
    + exists 5, 3, 0, 8, 4, 3, 0, (Bne_ 3 0), (Beq_ 3 0). repeat split; try lia; try dec_W; intros s; cbn; auto.
    + exists 4, 3, 0, 8, 5, 3, 0, (Beq_ 3 0), (Bne_ 3 0). repeat split; try lia; try dec_W; intros s; cbn; rewrite ?negb_involutive; auto.
    + exists 4, 1, 0, 8, 5, 1, 0, (Beq_ 1 0), (Bne_ 1 0). repeat split; try lia; try dec_W; intros s; cbn; rewrite ?negb_involutive; auto.
    + exists 5, 1, 0, 8, 4, 1, 0, (Bne_ 1 0), (Beq_ 1 0). repeat split; try lia; try dec_W; intros s; cbn; auto.
    + exists 17, 8, 0, 8, 17, 8, 1, (Bfcc_ false), (Bfcc_ true). repeat split; try lia; try dec_W; intros s; cbn [bcond_holds jcond_holds]; rewrite eqb_inv; reflexivity.
    + exists 17, 8, 1, 8, 17, 8, 0, (Bfcc_ true), (Bfcc_ false). repeat split; try lia; try dec_W; intros s; cbn [bcond_holds jcond_holds]; rewrite eqb_inv, ?negb_involutive; reflexivity.
  - destruct L as (Hx & Hy & _). apply reg_map_b0 in Hx, Hy. unfold cmp_eq, S_, T_, BRANCH_LENGTH in E.
    assert (I : invert_branch r6 K26 = 2 ^ 26) by reflexivity.
    unfold branch_of. rewrite andb_false_r. destruct e; unfold BNE, BEQ in E; rewrite W_2 in E by lia; injection E as <- <-.
    + exists 5, (reg_map x), (reg_map y), 8, 4, (reg_map x), (reg_map y), (Bne_ (reg_map x) (reg_map y)), (Beq_ (reg_map x) (reg_map y)).
      repeat split; try lia; try dec_W; try (intros s; cbn [bcond_holds jcond_holds]; unfold value; rewrite ?negb_involutive; reflexivity).
      rewrite I, lxor_bit by lia. rewrite (bit_of _ 26 2 (reg_map x * 2 ^ 21 + reg_map y * 2 ^ 16 + 8) true) by (unfold W; cbn [Z.b2z]; lia). unfold W. lia.
    + exists 4, (reg_map x), (reg_map y), 8, 5, (reg_map x), (reg_map y), (Beq_ (reg_map x) (reg_map y)), (Bne_ (reg_map x) (reg_map y)).
      repeat split; try lia; try dec_W; try (intros s; cbn [bcond_holds jcond_holds]; unfold value; rewrite ?negb_involutive; reflexivity).
      rewrite I, lxor_bit by lia. rewrite (bit_of _ 26 2 (reg_map x * 2 ^ 21 + reg_map y * 2 ^ 16 + 8) false) by (unfold W; cbn [Z.b2z]; lia). unfold W. lia.
  - destruct L as (Hx & _). apply reg_map_b0 in Hx. unfold S_, BRANCH_LENGTH in E.
    assert (I : invert_branch r6 K26 = 2 ^ 26) by reflexivity. assert (I' : invert_branch r6 K16 = 2 ^ 16) by reflexivity.
    unfold branch_of. rewrite andb_false_r. destruct z; cbn [cmp_zero] in E; unfold S_, BRANCH_LENGTH, BGEZ, BLTZ, BGTZ, BLEZ in E.
    + change (Z.shiftl 1 16) with (TA 1) in E. rewrite (lor_swap (HI 1) (TA 1) (SA (reg_map x))) in E. rewrite W_2 in E by lia. injection E as <- <-.
      exists 1, (reg_map x), 1, 8, 1, (reg_map x), 0, (Bgez_ (reg_map x)), (Bltz_ (reg_map x)).
      repeat split; try lia; try dec_W; try (intros s; cbn [bcond_holds jcond_holds]; unfold value; lia).
      rewrite I', lxor_bit by lia. rewrite (bit_of _ 16 (2 ^ 9 + reg_map x * 2 ^ 4) 8 true) by (unfold W; cbn [Z.b2z]; lia). unfold W. lia.
    + change (Z.shiftl 0 16) with (TA 0) in E. rewrite (lor_swap (HI 1) (TA 0) (SA (reg_map x))) in E. rewrite W_2 in E by lia. injection E as <- <-.
      exists 1, (reg_map x), 0, 8, 1, (reg_map x), 1, (Bltz_ (reg_map x)), (Bgez_ (reg_map x)).
      repeat split; try lia; try dec_W; try (intros s; cbn [bcond_holds jcond_holds]; unfold value; lia).
      rewrite I', lxor_bit by lia. rewrite (bit_of _ 16 (2 ^ 9 + reg_map x * 2 ^ 4) 8 false) by (unfold W; cbn [Z.b2z]; lia). unfold W. lia.
    + replace (HI 6 .| SA (reg_map x) .| 8) with (HI 6 .| SA (reg_map x) .| TA 0 .| 8) in E by (change (TA 0) with 0; rewrite Z.lor_0_r; reflexivity).
      rewrite W_2 in E by lia. injection E as <- <-.
      exists 6, (reg_map x), 0, 8, 7, (reg_map x), 0, (Blez_ (reg_map x)), (Bgtz_ (reg_map x)).
      repeat split; try lia; try dec_W; try (intros s; cbn [bcond_holds jcond_holds]; unfold value; lia).
      rewrite I, lxor_bit by lia. rewrite (bit_of _ 26 3 (reg_map x * 2 ^ 21 + 0 * 2 ^ 16 + 8) false) by (unfold W; cbn [Z.b2z]; lia). unfold W. lia.
    + replace (HI 7 .| SA (reg_map x) .| 8) with (HI 7 .| SA (reg_map x) .| TA 0 .| 8) in E by (change (TA 0) with 0; rewrite Z.lor_0_r; reflexivity).
      rewrite W_2 in E by lia. injection E as <- <-.
      exists 7, (reg_map x), 0, 8, 6, (reg_map x), 0, (Bgtz_ (reg_map x)), (Blez_ (reg_map x)).
      repeat split; try lia; try dec_W; try (intros s; cbn [bcond_holds jcond_holds]; unfold value; lia).
      rewrite I, lxor_bit by lia. rewrite (bit_of _ 26 3 (reg_map x * 2 ^ 21 + 0 * 2 ^ 16 + 8) true) by (unfold W; cbn [Z.b2z]; lia). unfold W. lia.
Qed.

(** ** Steps with a delay slot *)
Lemma go_slot r6 mem code a s u s1 w i s2 : step r6 mem code (wrap a, None, s) = Some (pc4 (wrap a), Some u, s1) ->
  code (wrap (a + 4)) = w -> decode r6 w = Some (Alu i) -> exec_alu mem i s1 = Some s2 -> runs (step r6 mem code) (wrap a, None, s) (u, None, s2).
Proof.
  intros S1 C D E. eapply runs_trans; [apply runs_1; exact S1|]. apply runs_1. unfold step, pc4. rewrite wrap_add_l, C, D, E. reflexivity.
Qed.
Lemma sext18 off : sext 18 (Z.shiftl off 2) = 4 * sext 16 off.
Proof.
  rewrite Z.shiftl_mul_pow2 by lia. destruct (sext_mod 16 off ltac:(lia)) as (k & K). pose proof (sext_range 16 off ltac:(lia)) as R.
  change (2 ^ (16 - 1)) with (2 ^ 15) in R. apply sext_unique with k; [lia|change (2 ^ (18 - 1)) with (2 ^ 17); lia|lia].
Qed.
Lemma btarget_eq a off : btarget (wrap a) off = wrap (a + 4 + 4 * sext 16 off).
Proof. unfold btarget. rewrite sext18. rewrite <- !Z.add_assoc. apply wrap_add_l. Qed.
Lemma go_branch r6 mem code a s bc off w i s1 : decode r6 (code (wrap a)) = Some (Branch bc off) ->
  code (wrap (a + 4)) = w -> decode r6 w = Some (Alu i) -> exec_alu mem i s = Some s1 ->
  goes r6 mem code a s (if bcond_holds s bc then a + 4 + 4 * sext 16 off else a + 8) s1.
Proof.
  intros D C DW E. unfold goes. eapply go_slot; eauto. unfold step. rewrite D. rewrite btarget_eq. unfold pc8. rewrite wrap_add_l.
  destruct (bcond_holds s bc); reflexivity.
Qed.
Lemma dec_nop r6 : decode r6 NOP = Some (Alu Nop_).
Proof. destruct r6; vm_compute; reflexivity. Qed.

(** The targets. *)
Lemma boff_ok a t : isw t -> t mod 4 = 0 -> a mod 4 = 0 -> within16 (Z.shiftr (sgn (wrap (t - a - 4))) 2) = true ->
  0 <= boff a t < 2 ^ 16 /\ wrap (a + 4 + 4 * sext 16 (boff a t)) = t.
Proof.
  intros Ht T4 A4 WI. unfold boff. set (D := sgn (wrap (t - a - 4))) in *.
  assert (ED : exists k, D = t - a - 4 + k * 2 ^ 64).
  { unfold D. unfold sgn, wrap. rewrite sext_low by lia. destruct (sext_mod 64 (t - a - 4) ltac:(lia)) as (k & K). exists (- k). lia. }
  destruct ED as (k & ED). clearbody D.
  assert (D4 : D mod 4 = 0).
  { rewrite ED. change (2 ^ 64) with (2 ^ 62 * 4). rewrite Z.mul_assoc, Z_mod_plus_full. rewrite Zminus_mod, (Zminus_mod t), T4, A4. reflexivity. }
  rewrite shr_div in * by lia. change (2 ^ 2) with 4 in *. pose proof (Z.div_mod D 4 ltac:(lia)). unfold within16 in WI.
  unfold u32. rewrite (land_low _ 16) by (auto; lia). change (2 ^ 32) with (2 ^ (16 + 16)). rewrite mod_back by lia.
  split; [apply mod_b; lia|]. rewrite sext_low by lia. rewrite sext_small by (change (2 ^ (16 - 1)) with (2 ^ 15); lia).
  replace (a + 4 + 4 * (D / 4)) with (t + k * 2 ^ 64) by lia. unfold wrap. rewrite Z_mod_plus_full. apply Z.mod_small. exact Ht.
Qed.
Lemma region_eq x : region x = wrap x / 2 ^ 28 * 2 ^ 28.
Proof. unfold region. apply land_lnot_low; [lia|reflexivity]. Qed.
Lemma jidx_eq t : jidx t = (t / 4) mod 2 ^ 26.
Proof. unfold jidx, u32. rewrite shr_div by lia. rewrite (land_low _ 26) by (auto; lia). change (2 ^ 32) with (2 ^ (26 + 6)). apply mod_back. lia. Qed.
Lemma jtarget_ok a t : isw t -> t mod 4 = 0 -> region t = region (a + 4) -> jtarget (wrap a) (jidx t) = t.
Proof.
  intros Ht T4 R. unfold jtarget, pc4. rewrite wrap_add_l. rewrite !region_eq in R. rewrite (wrap_small t) in R by exact Ht.
  rewrite shr_div, !Z.shiftl_mul_pow2 by lia. rewrite <- R, jidx_eq. change (2 ^ 2) with 4.
  pose proof (Z.div_mod t (2 ^ 28) ltac:(lia)) as D. pose proof (Z.div_mod t 4 ltac:(lia)) as D4.
  assert (M : (t / 4) mod 2 ^ 26 * 4 = t mod 2 ^ 28).
  { change (2 ^ 28) with (4 * 2 ^ 26). rewrite Z.rem_mul_r by lia. lia. }
  lia.
Qed.

(** ** The instruction before the jump *)
Lemma wG_other s x v r : r <> x -> wG s x v r = s r.
Proof. intros. unfold wG, upd. destruct (x =? 0); [reflexivity|]. replace (r =? x) with false by lia. reflexivity. Qed.
Lemma exec_frame mem i s s1 : exec_alu mem i s = Some s1 -> forall r, ~ In r (writes i) -> s1 r = s r.
Proof.
  intros E r N. destruct i; cbn [exec_alu writes In] in *.
  4: destruct (rG s rs =? wrap (sext 32 (rG s rs))); [|discriminate E].
  all: injection E as <-.
  - reflexivity.
  - apply wG_other. intros ->. tauto.
  - apply wG_other. intros ->. tauto.
  - apply wG_other. intros ->. tauto.
  - apply wG_other. intros ->. tauto.
  - apply wG_other. intros ->. tauto.
  - apply wG_other. intros ->. tauto.
Qed.
Lemma exec_other mem i s s1 q v : exec_alu mem i s = Some s1 -> ~ In q (reads i) -> ~ In q (writes i) ->
  exists s2, exec_alu mem i (upd s q v) = Some s2 /\ (forall r, r <> q -> s2 r = s1 r) /\ s2 q = v.
Proof.
  intros E NR NW.
  assert (RD : forall x, In x (reads i) -> rG (upd s q v) x = rG s x).
  { intros x I. unfold rG, upd. destruct (x =? 0); [reflexivity|]. destruct (x =? q) eqn:Q; [|reflexivity]. replace x with q in I by lia. contradiction. }
  assert (WR : forall x y, ~ x = q -> (forall r, r <> q -> wG (upd s q v) x y r = wG s x y r) /\ wG (upd s q v) x y q = v).
  { intros x y Hx. unfold wG, upd. destruct (x =? 0).
    - split; [intros r Hr; replace (r =? q) with false by lia; reflexivity|rewrite Z.eqb_refl; reflexivity].
    - split; [intros r Hr; destruct (r =? x); [reflexivity|]; replace (r =? q) with false by lia; reflexivity|].
      replace (q =? x) with false by lia. rewrite Z.eqb_refl. reflexivity. }
  destruct i; cbn [exec_alu writes reads In] in *; rewrite ?RD by tauto.
  - injection E as <-. eexists. split; [reflexivity|]. unfold upd. split; [intros r Hr; replace (r =? q) with false by lia; reflexivity|rewrite Z.eqb_refl; reflexivity].
  - injection E as <-. eexists. split; [reflexivity|]. apply WR. tauto.
  - injection E as <-. eexists. split; [reflexivity|]. apply WR. tauto.
  - destruct (_ =? _) in *; [|discriminate E]. injection E as <-. eexists. split; [reflexivity|]. apply WR. tauto.
  - injection E as <-. eexists. split; [reflexivity|]. apply WR. tauto.
  - injection E as <-. eexists. split; [reflexivity|]. apply WR. tauto.
  - injection E as <-. eexists. split; [reflexivity|]. apply WR. tauto.
Qed.
Lemma jcond_ext r6 c s s1 : (forall r, In r (jcond_regs c) -> s1 r = s r) -> (forall r, 32 <= r -> s1 r = s r) -> jcond_holds r6 s1 c = jcond_holds r6 s c.
Proof.
  intros H F. assert (FF : fp_flag r6 s1 = fp_flag r6 s) by (unfold fp_flag; rewrite F; [reflexivity|destruct r6; unfold FPR, FCC; lia]).
  assert (V : forall x, In (reg_map x) (jcond_regs c) -> value s1 x = value s x).
  { intros x I. unfold value, rG. rewrite H by exact I. reflexivity. }
  destruct c as [|f|e x y|z x]; cbn [jcond_holds jcond_regs In] in *; [reflexivity| | |].
  - destruct f; rewrite ?FF, ?H by (cbn; auto); reflexivity.
  - rewrite !V by auto. reflexivity.
  - rewrite V by auto. reflexivity.
Qed.
Lemma before_cond r6 mem prev c s s1 : before r6 mem prev c s s1 -> jcond_holds r6 s1 c = jcond_holds r6 s c.
Proof.
  destruct prev as [w|]; cbn [before]; [|intros ->; reflexivity]. intros (i & D & E & N). apply jcond_ext; intros r I; apply (exec_frame mem i); auto; intros X.
  - apply (proj1 (N r X) I).
  - pose proof (N r X). lia.
Qed.
(** As the instruction of a delay slot, and as an instruction of its own. *)
Definition slot_word (prev : option Z) : Z := match prev with None => NOP | Some w => w end.
Lemma before_slot r6 mem prev c s s1 : before r6 mem prev c s s1 -> exists i, decode r6 (slot_word prev) = Some (Alu i) /\ exec_alu mem i s = Some s1.
Proof.
  destruct prev as [w|]; cbn [before slot_word].
  - intros (i & D & E & _). eauto.
  - intros ->. exists Nop_. split; [apply dec_nop|reflexivity].
Qed.
Definition pre_len (prev : option Z) : Z := match prev with None => 0 | Some _ => 4 end.
Definition pre_words (prev : option Z) : list Z := match prev with None => [] | Some w => [w] end.
Lemma before_pre r6 mem code prev c s s1 p tl : before r6 mem prev c s s1 -> code_at 4 (pre_words prev ++ tl) p code ->
  goes r6 mem code p s (p + pre_len prev) s1 /\ code_at 4 tl (p + pre_len prev) code.
Proof.
  destruct prev as [w|]; cbn [before pre_words pre_len app code_at].
  - intros (i & D & E & _) (C & C'). split; [|exact C']. eapply goes_alu; eauto.
  - intros -> C. rewrite Z.add_0_r. split; [apply goes_0|exact C].
Qed.
Lemma no_link_slot r6 mem prev c s s1 v : before r6 mem prev c s s1 -> no_link r6 prev ->
  exists i s2, decode r6 (slot_word prev) = Some (Alu i) /\ exec_alu mem i (wG s 31 v) = Some s2 /\ (forall r, r <> 31 -> s2 r = s1 r) /\ s2 31 = v.
Proof.
  destruct prev as [w|]; cbn [before slot_word no_link].
  - intros (i & D & E & _) N. destruct (N i D) as (N1 & N2). destruct (exec_other mem i s s1 31 v E N1 N2) as (s2 & E2 & R & L). exists i, s2. auto.
  - intros -> _. exists Nop_. eexists. split; [apply dec_nop|]. split; [reflexivity|]. unfold wG, upd. cbn [Z.eqb].
    split; [intros r Hr; replace (r =? 31) with false by lia; reflexivity|reflexivity].
Qed.

(** ** Addresses in a register *)
Lemma load_addr_ok r6 mem code a s reg f t tl : 1 <= reg <= 27 -> isw t ->
  match f with FAbs32 => t < 0x80000000 | FAbs48 => t < 0x800000000000 | _ => True end ->
  code_at 4 (load_addr f reg t ++ tl) a code ->
  exists s', goes r6 mem code a s (a + 4 * Z.of_nat (length (load_addr f reg t))) s' /\ only s s' (reg_map reg) t /\
    code_at 4 tl (a + 4 * Z.of_nat (length (load_addr f reg t))) code.
Proof.
  intros Hr Ht Hf C. apply reg_map_b in Hr. unfold isw in Ht.
  assert (F : forall w : list Z, (exists s', goes r6 mem code a s (a + 24) s' /\ only s s' (reg_map reg) (wrap t) /\ code_at 4 tl (a + 24) code) -> length w = 6%nat ->
     exists s', goes r6 mem code a s (a + 4 * Z.of_nat (length w)) s' /\ only s s' (reg_map reg) t /\ code_at 4 tl (a + 4 * Z.of_nat (length w)) code).
  { intros w (s' & G & O & C') ->. rewrite wrap_small in O by exact Ht. exists s'. auto. }
  destruct f; unfold load_addr in C; rewrite ?IMM_mask in C; cbn [app] in C.
  1,2,5: apply F; [eapply go_64; eauto|reflexivity].
  - destruct (go_32 r6 mem code a s _ t tl Hr C) as (s' & G & O & C'). exists s'.
    rewrite sext_small, wrap_small in O by (unfold isw; change (2 ^ (32 - 1)) with (2 ^ 31); lia). auto.
  - destruct (go_48 r6 mem code a s _ t tl Hr C) as (s' & G & O & C'). exists s'.
    assert (B : t / 2 ^ 16 < 2 ^ 31) by (apply Z.div_lt_upper_bound; lia). assert (0 <= t / 2 ^ 16) by (apply Z.div_pos; lia).
    rewrite sext_small in O by (change (2 ^ (32 - 1)) with (2 ^ 31); lia). pose proof (Z.div_mod t (2 ^ 16) ltac:(lia)).
    replace (t / 2 ^ 16 * 2 ^ 16 + t mod 2 ^ 16) with t in O by lia. rewrite wrap_small in O by exact Ht. auto.
Qed.
Lemma link_addr_ok r6 mem code a s reg t : 1 <= reg <= 27 -> isw t -> code_at 4 (link_addr reg t) a code ->
  exists s', goes r6 mem code a s (a + 4 * Z.of_nat (length (link_addr reg t))) s' /\ only s s' (reg_map reg) t.
Proof.
  intros Hr Ht C. unfold link_addr in *. rewrite <- (app_nil_r (load_addr _ _ _)) in C.
  destruct (load_addr_ok r6 mem code a s reg (mov_addr_form t) t [] Hr Ht) as (s' & G & O & _); auto; [|exists s'; auto].
  unfold mov_addr_form. destruct (t <? 0x80000000) eqn:E1; [lia|]. destruct (t <? 0x800000000000) eqn:E2; [lia|exact I].
Qed.

(** ** Jumps *)
Definition ends_of (prev : option Z) (k : Z) : Z := pre_len prev + k.
(** A branch which takes the address [u], with the instruction before the jump in its delay slot. *)
Lemma jump_core r6 mem code q s s1 prev c u : step r6 mem code (wrap q, None, s) = Some (pc4 (wrap q), Some u, s) ->
  before r6 mem prev c s s1 -> code (wrap (q + 4)) = slot_word prev -> runs (step r6 mem code) (wrap q, None, s) (u, None, s1).
Proof. intros S1 B C. destruct (before_slot _ _ _ _ _ _ B) as (i & D & E). eapply go_slot; eauto. Qed.
Lemma call_core r6 mem code q s s1 prev c u : step r6 mem code (wrap q, None, s) = Some (pc4 (wrap q), Some u, wG s 31 (pc8 (wrap q))) ->
  before r6 mem prev c s s1 -> no_link r6 prev -> code (wrap (q + 4)) = slot_word prev ->
  exists s', runs (step r6 mem code) (wrap q, None, s) (u, None, s') /\ jumped true (q + 8) s1 s'.
Proof.
  intros S1 B N C. destruct (no_link_slot _ _ _ _ _ _ (pc8 (wrap q)) B N) as (i & s2 & D & E & R & L).
  exists s2. split; [eapply go_slot; eauto|]. split; [intros r _ H; apply R; apply H; reflexivity|]. intros _. rewrite L. unfold pc8. apply wrap_add_l.
Qed.
Lemma jumped_refl ret s : jumped false ret s s.
Proof. split; [reflexivity|discriminate]. Qed.
Lemma goes_to r6 mem code p s q s1 t s' : isw t -> goes r6 mem code p s q s1 -> runs (step r6 mem code) (wrap q, None, s1) (t, None, s') -> goes r6 mem code p s t s'.
Proof. intros Ht G R. unfold goes. rewrite (wrap_small t) by exact Ht. eapply runs_trans; eauto. Qed.

(** The words of the unconditional jumps and of the calls. *)
Lemma dec_b r6 off : 0 <= off < 2 ^ 16 -> decode r6 ((B .& 0xffff0000) .| off) = Some (Branch (Beq_ 0 0) off).
Proof. intros H. change B with (W 4 0 0 0). rewrite W_mask by (unfold wf; lia). revert off H. dec_W. Qed.
Lemma dec_bal r6 off : 0 <= off < 2 ^ 16 -> decode r6 ((BAL .& 0xffff0000) .| off) = Some (Bal_ off).
Proof. intros H. change BAL with (W 1 0 17 0). rewrite W_mask by (unfold wf; lia). revert off H. dec_W. Qed.
Lemma fld_J op x : 0 <= op < 64 -> 0 <= x < 2 ^ 26 -> fld (HI op .| x) 26 6 = op /\ fld (HI op .| x) 0 26 = x.
Proof.
  intros Ho Hx. unfold HI. rewrite Z.shiftl_mul_pow2 by lia. rewrite <- add_lor by lia. rewrite !fld_div by lia.
  split.
  - rewrite Z.div_add_l by lia. rewrite (Z.div_small x) by lia. rewrite Z.add_0_r. apply Z.mod_small. lia.
  - change (2 ^ 0) with 1. rewrite Z.div_1_r. rewrite Z.add_comm, Z_mod_plus_full. apply Z.mod_small. lia.
Qed.
Lemma dec_j r6 x : 0 <= x < 2 ^ 26 -> decode r6 (J .| x) = Some (J_ x).
Proof. intros H. destruct (fld_J 2 x ltac:(lia) H) as (F1 & F2). unfold decode, J. cbv zeta. rewrite F1, F2. reflexivity. Qed.
Lemma dec_jal r6 x : 0 <= x < 2 ^ 26 -> decode r6 (JAL .| x) = Some (Jal_ x).
Proof. intros H. destruct (fld_J 3 x ltac:(lia) H) as (F1 & F2). unfold decode, JAL. cbv zeta. rewrite F1, F2. reflexivity. Qed.
Lemma dec_jr r6 : decode r6 (JR r6 .| S_ PIC_ADDR_REG) = Some (Jr_ 25).
Proof. destruct r6; vm_compute; reflexivity. Qed.
Lemma dec_jalr r6 : decode r6 (JALR .| S_ PIC_ADDR_REG .| DA RETURN_ADDR_REG) = Some (Jalr_ 31 25).
Proof. destruct r6; vm_compute; reflexivity. Qed.

Lemma runs_inv {C} (f : C -> option C) c e : runs f c e -> c = e \/ exists d, f c = Some d /\ runs f d e.
Proof. intros H. destruct H; eauto. Qed.
(** The delay slot of a branch which is not taken. *)
Lemma not_taken r6 mem code a s bc off i L s' : decode r6 (code (wrap a)) = Some (Branch bc off) -> bcond_holds s bc = false ->
  decode r6 (code (wrap (a + 4))) = Some (Alu i) -> 0 < L < 2 ^ 64 -> goes r6 mem code (a + 4) s (a + 4 + L) s' -> goes r6 mem code a s (a + 4 + L) s'.
Proof.
  intros D H DA HL G. apply runs_inv in G. destruct G as [E | (d & S1 & R)].
  - exfalso. apply (f_equal (fun c => fst (fst c))) in E. cbn [fst] in E. unfold wrap in E.
    assert (M : (a + 4 + L - (a + 4)) mod 2 ^ 64 = 0) by (rewrite Zminus_mod, E, Z.sub_diag; reflexivity).
    replace (a + 4 + L - (a + 4)) with L in M by lia. rewrite Z.mod_small in M by lia. lia.
  - unfold goes. eapply runs_trans; [apply runs_1|].
    + unfold step. rewrite D, H. reflexivity.
    + eapply runs_trans; [|exact R]. apply runs_1. unfold step in *. unfold pc4, pc8 in *. rewrite wrap_add_l. rewrite DA in *.
      destruct (exec_alu mem i s); [|discriminate S1]. injection S1 as <-. rewrite !wrap_add_l. replace (a + 4 + 4) with (a + 8) by lia. reflexivity.
Qed.
Lemma load_addr_first r6 f t : isw t -> exists x, 0 <= x < 2 ^ 16 /\ hd 0 (load_addr f PIC_ADDR_REG t) = (LUI .| TA 25 .| x) /\ decode r6 (LUI .| TA 25 .| x) = Some (Alu (Lui_ 25 x)).
Proof.
  intros _. assert (K : forall y, 0 <= IMM y < 2 ^ 16) by (intros; rewrite IMM_eq; apply mod_b; lia).
  destruct f; cbn [load_addr hd]; eexists; (split; [|split; [reflexivity|apply dec_lui; [lia|]]]; apply K).
Qed.
Lemma addr_len f r t : length (load_addr f r t) = match f with FAbs32 => 2%nat | FAbs48 => 4%nat | _ => 6%nat end.
Proof. destruct f; reflexivity. Qed.

Definition skip_of (f : form) : Z := match f with FAbs32 => 4 | FAbs48 => 2 | _ => 0 end.
Definition jr_word (r6 jal : bool) : Z := if jal then JALR .| S_ PIC_ADDR_REG .| DA RETURN_ADDR_REG else JR r6 .| S_ PIC_ADDR_REG.
Lemma far_words r6 f prev br jal p t : far_form f = true ->
  jump_words r6 f prev br jal p t = pre_words prev ++ (match br with None => [] | Some (w, _) => [u32 (w - skip_of f)] end) ++ load_addr f PIC_ADDR_REG t ++ [jr_word r6 jal; NOP].
Proof. destruct f; intros F; try discriminate F; destruct prev; reflexivity. Qed.

Theorem jump_ok r6 mem code p s s1 f prev c jal t :
  jcond_legal c jal -> isw t -> t mod 4 = 0 -> p mod 4 = 0 -> before r6 mem prev c s s1 ->
  form_ok f (jump_at f prev c p) t -> (jal = true -> no_link r6 prev) -> (r6 && is_float c && far_form f = false) ->
  let ws := jump_words r6 f prev (jcond_branch r6 c) jal p t in
  code_at 4 ws p code ->
  if jcond_holds r6 s1 c
  then exists s', goes r6 mem code p s t s' /\ jumped jal (p + 4 * Z.of_nat (length ws)) s1 s'
  else exists s', goes r6 mem code p s (p + 4 * Z.of_nat (length ws)) s' /\ jumped false 0 s1 s'.
Proof.
  intros L Ht T4 P4 B F NL RF ws C.
  assert (LP : length (pre_words prev) = Z.to_nat (pre_len prev / 4)) by (destruct prev; reflexivity).
  assert (PL : pre_len prev = 0 \/ pre_len prev = 4) by (destruct prev; cbn; auto).
  assert (LP4 : 4 * Z.of_nat (length (pre_words prev)) = pre_len prev) by (destruct prev; reflexivity). clear LP.
  assert (Bn : before r6 mem None c s1 s1) by reflexivity.
  destruct (far_form f) eqn:FF.
  - (* the address is loaded *)
    assert (EW : ws = jump_words r6 f prev (jcond_branch r6 c) jal p t) by reflexivity. rewrite far_words in EW by exact FF.
    rewrite EW in C. destruct (before_pre r6 mem code prev c s s1 p _ B C) as (G1 & C1). set (q := p + pre_len prev) in *.
    assert (Hf : match f with FAbs32 => t < 0x80000000 | FAbs48 => t < 0x800000000000 | _ => True end) by (destruct f; exact F || exact I).
    (* from the first word of the address to the target *)
    assert (T : forall b, code_at 4 (load_addr f PIC_ADDR_REG t ++ [jr_word r6 jal; NOP]) b code ->
      exists s2 s', goes r6 mem code b s1 (b + 4 * Z.of_nat (length (load_addr f PIC_ADDR_REG t))) s2 /\
         runs (step r6 mem code) (wrap (b + 4 * Z.of_nat (length (load_addr f PIC_ADDR_REG t))), None, s2) (t, None, s') /\
         jumped jal (b + 4 * Z.of_nat (length (load_addr f PIC_ADDR_REG t)) + 8) s1 s').
    { intros b Cb. destruct (load_addr_ok r6 mem code b s1 PIC_ADDR_REG f t _ ltac:(unfold PIC_ADDR_REG, TMP_REG1; lia) Ht Hf Cb) as (s2 & G2 & O2 & CJ & CN & _).
      change (reg_map PIC_ADDR_REG) with 25 in O2. set (e := b + 4 * Z.of_nat (length (load_addr f PIC_ADDR_REG t))) in *. clearbody e.
      exists s2. destruct jal; unfold jr_word in CJ.
      - destruct (call_core r6 mem code e s2 s2 None c t) as (s' & R & (J1 & J2)); [|reflexivity|exact I|exact CN|].
        { unfold step. rewrite CJ, dec_jalr. cbn [Z.eqb]. unfold rG. cbn [Z.eqb]. rewrite (proj1 O2). reflexivity. }
        exists s'. split; [exact G2|]. split; [exact R|]. split; [|exact J2]. intros r N1 N2. rewrite J1 by auto. apply O2. exact N1.
      - exists s2. split; [exact G2|]. split.
        + eapply (jump_core r6 mem code e s2 s2 None c t); [|reflexivity|exact CN]. unfold step. rewrite CJ, dec_jr. unfold rG. cbn [Z.eqb]. rewrite (proj1 O2). reflexivity.
        + split; [|discriminate]. intros r N1 _. apply O2. exact N1. }
    destruct (jcond_branch r6 c) as [(w, k)|] eqn:EB.
    + assert (jal = false) as -> by (destruct c; cbn in L, EB; [discriminate EB| | |]; tauto).
      rewrite andb_true_r in RF.
      destruct (branch_of_ok r6 c false w k L EB) as (op & rs & rt & l & op' & rs' & rt' & bc & bc' & W1 & W1' & Hl & Ew & _ & Db & _ & Hb & _).
      rewrite RF in Hl. subst l w. cbn [app code_at] in C1. destruct C1 as (Cb & C2).
      assert (SK : 0 <= skip_of f <= 4) by (destruct f; cbn; lia).
      rewrite W_sub in Cb by (auto; lia). specialize (Db (8 - skip_of f) ltac:(lia)). rewrite <- Cb in Db.
      destruct (T (q + 4) C2) as (s2 & s' & G2 & R2 & J2).
      destruct (load_addr_first r6 f t Ht) as (x & Hx & EX & DX).
      assert (CX : code (wrap (q + 4)) = (LUI .| TA 25 .| x)).
      { rewrite <- EX. destruct f; cbn [load_addr app code_at hd] in *; apply C2. }
      assert (LEN : p + 4 * Z.of_nat (length ws) = q + 4 + 4 * Z.of_nat (length (load_addr f PIC_ADDR_REG t)) + 8).
      { rewrite EW, !app_length. cbn [length]. unfold q. lia. }
      rewrite LEN. clear LEN.
      destruct (jcond_holds r6 s1 c) eqn:HC; cbn [negb] in *.
      * exists s'. split; [|exact J2]. eapply goes_to; [exact Ht| |exact R2]. eapply goes_trans; [exact G1|].
        eapply not_taken; [exact Db| |rewrite CX; exact DX| |exact G2].
        -- rewrite Hb, HC. reflexivity.
        -- rewrite addr_len. destruct f; lia.
      * eexists. split.
        -- eapply goes_trans; [exact G1|]. pose proof (go_branch r6 mem code q s1 bc _ _ _ _ Db CX DX eq_refl) as G. rewrite Hb, HC in G. cbn [negb] in G.
           rewrite sext_small in G by (change (2 ^ (16 - 1)) with (2 ^ 15); lia).
           replace (q + 4 + 4 * Z.of_nat (length (load_addr f PIC_ADDR_REG t)) + 8) with (q + 4 + 4 * (8 - skip_of f)); [exact G|].
           rewrite addr_len. destruct f; try discriminate FF; cbn [skip_of]; lia.
        -- split; [|discriminate]. intros r N _. apply wG_other. exact N.
    + assert (c = JAlways) as -> by (destruct c; [reflexivity|discriminate EB..]). cbn [app] in C1. cbn [jcond_holds].
      destruct (T q C1) as (s2 & s' & G2 & R2 & J2). exists s'. split.
      * eapply goes_to; [exact Ht| |exact R2]. eapply goes_trans; eauto.
      * replace (p + 4 * Z.of_nat (length ws)) with (q + 4 * Z.of_nat (length (load_addr f PIC_ADDR_REG t)) + 8); [exact J2|].
        rewrite EW, !app_length. cbn [length]. unfold q. lia.
  - (* B and J: first the state before the first word which is not the one before the jump *)
    assert (CORE : exists q s0 prev0, goes r6 mem code p s q s0 /\ before r6 mem prev0 c s0 s1 /\ (jal = true -> no_link r6 prev0) /\ q mod 4 = 0 /\
      (match f, c with FJ _, JAlways => q | FJ _, _ => q + 8 | _, _ => q end) = jump_at f prev c p /\
      match f with
      | FB _ => code_at 4 [((match jcond_branch r6 c with None => if jal then BAL else MsModel.B | Some (w, k) => Z.lxor w (invert_branch r6 k) end) .& 0xffff0000) .| boff q t; slot_word prev0] q code /\
                p + 4 * Z.of_nat (length ws) = q + 8
      | _ => match jcond_branch r6 c with
             | None => code_at 4 [(if jal then JAL else MsModel.J) .| jidx t; slot_word prev0] q code /\ p + 4 * Z.of_nat (length ws) = q + 8
             | Some (w, _) => code_at 4 [(w .& 0xffff0000) .| 3; slot_word prev0; MsModel.J .| jidx t; NOP] q code /\ p + 4 * Z.of_nat (length ws) = q + 16
             end
      end).
    { destruct f as [m|m| | |]; try discriminate FF; destruct m.
      - exists p, s, prev. split; [apply goes_0|]. split; [exact B|]. split; [exact NL|]. split; [exact P4|]. split; [unfold jump_at; destruct prev; lia|].
        subst ws. destruct prev; (split; [exact C|cbn [jump_words length]; lia]).
      - subst ws. assert (EW : jump_words r6 (FB false) prev (jcond_branch r6 c) jal p t = pre_words prev ++
          [((match jcond_branch r6 c with None => if jal then BAL else MsModel.B | Some (w, k) => Z.lxor w (invert_branch r6 k) end) .& 0xffff0000) .| boff (p + pre_len prev) t; NOP]) by (destruct prev; reflexivity).
        rewrite EW in *. destruct (before_pre r6 mem code prev c s s1 p _ B C) as (G1 & C1).
        exists (p + pre_len prev), s1, None. split; [exact G1|]. split; [reflexivity|]. split; [intros _; exact I|].
        split; [rewrite Z.add_mod, P4 by lia; destruct PL as [-> | ->]; reflexivity|].
        split; [unfold jump_at; destruct prev; cbn [pre_len]; lia|]. split; [exact C1|]. rewrite app_length. cbn [length]. lia.
      - exists p, s, prev. split; [apply goes_0|]. split; [exact B|]. split; [exact NL|]. split; [exact P4|]. split; [unfold jump_at; destruct prev, c; lia|].
        subst ws. unfold jump_words in *. destruct (jcond_branch r6 c) as [(w, k)|]; (split; [exact C|cbn [length]; lia]).
      - subst ws. assert (EW : jump_words r6 (FJ false) prev (jcond_branch r6 c) jal p t = pre_words prev ++
          match jcond_branch r6 c with None => [(if jal then JAL else MsModel.J) .| jidx t; NOP] | Some (w, _) => [(w .& 0xffff0000) .| 3; NOP; MsModel.J .| jidx t; NOP] end)
          by (destruct prev; unfold jump_words; destruct (jcond_branch r6 c) as [(w, k)|]; reflexivity).
        rewrite EW in *. destruct (before_pre r6 mem code prev c s s1 p _ B C) as (G1 & C1).
        exists (p + pre_len prev), s1, None. split; [exact G1|]. split; [reflexivity|]. split; [intros _; exact I|].
        split; [rewrite Z.add_mod, P4 by lia; destruct PL as [-> | ->]; reflexivity|].
        split; [unfold jump_at; destruct prev, c; cbn [pre_len]; lia|]. rewrite app_length.
        destruct (jcond_branch r6 c) as [(w, k)|]; (split; [exact C1|cbn [length]; lia]). }
    destruct CORE as (q & s0 & prev0 & G & B0 & N0 & Q4 & JA & REST). clear C B NL. rewrite <- JA in F. clear JA.
    pose proof (before_cond _ _ _ _ _ _ B0) as BC. destruct (before_slot _ _ _ _ _ _ B0) as (i & Di & Ei).
    destruct f as [m|m| | |]; try discriminate FF; cbn [form_ok] in F.
    + replace (match c with JAlways => q | _ => q end) with q in F by (destruct c; reflexivity).
      destruct REST as ((C1 & C2 & _) & ->). destruct (boff_ok q t Ht T4 Q4 F) as (BO & BT).
      destruct (jcond_branch r6 c) as [(w, k)|] eqn:EB.
      * assert (jal = false) as -> by (destruct c; cbn in L, EB; [discriminate EB| | |]; tauto).
        destruct (branch_of_ok r6 c false w k L EB) as (op & rs & rt & l & op' & rs' & rt' & bc & bc' & W1 & W1' & Hl & Ew & Ex & _ & Db & _ & Hb).
        rewrite Ex, W_mask in C1 by (auto; destruct (r6 && is_float c); lia). specialize (Db _ BO). rewrite <- C1 in Db.
        pose proof (go_branch r6 mem code q s0 bc' _ _ _ _ Db C2 Di Ei) as GB. rewrite Hb, <- BC in GB.
        destruct (jcond_holds r6 s1 c).
        -- exists s1. split; [|apply jumped_refl]. eapply goes_to; [exact Ht|exact G|]. unfold goes in GB. rewrite BT in GB. exact GB.
        -- exists s1. split; [|apply jumped_refl]. eapply goes_trans; eauto.
      * assert (c = JAlways) as -> by (destruct c; [reflexivity|discriminate EB..]). cbn [jcond_holds]. destruct jal.
        -- destruct (call_core r6 mem code q s0 s1 prev0 JAlways t) as (s' & R & JJ); auto.
           { unfold step. rewrite C1, dec_bal by exact BO. rewrite btarget_eq, BT. reflexivity. }
           exists s'. split; [eapply goes_to; eauto|exact JJ].
        -- exists s1. split; [|apply jumped_refl]. eapply goes_to; [exact Ht|exact G|]. eapply jump_core; eauto.
           unfold step. rewrite C1, dec_b by exact BO. cbn [bcond_holds]. rewrite Z.eqb_refl, btarget_eq, BT. reflexivity.
    + assert (JX : 0 <= jidx t < 2 ^ 26) by (rewrite jidx_eq; apply mod_b; lia).
      destruct (jcond_branch r6 c) as [(w, k)|] eqn:EB.
      * assert (jal = false) as -> by (destruct c; cbn in L, EB; [discriminate EB| | |]; tauto).
        destruct (branch_of_ok r6 c false w k L EB) as (op & rs & rt & l & op' & rs' & rt' & bc & bc' & W1 & W1' & Hl & Ew & _ & Db & _ & Hb & _).
        destruct REST as ((C1 & C2 & C3 & C4 & _) & ->).
        rewrite Ew, W_mask in C1 by (auto; try lia; destruct (r6 && is_float c); lia). specialize (Db 3 ltac:(lia)). rewrite <- C1 in Db.
        pose proof (go_branch r6 mem code q s0 bc _ _ _ _ Db C2 Di Ei) as GB. rewrite Hb, <- BC in GB. replace (q + 4 + 4) with (q + 8) in * by lia.
        replace (match c with JAlways => q | _ => q + 8 end) with (q + 8) in F by (destruct c; [discriminate EB|reflexivity..]).
        destruct (jcond_holds r6 s1 c); cbn [negb] in GB.
        -- exists s1. split; [|apply jumped_refl]. eapply goes_to; [exact Ht|eapply goes_trans; [exact G|exact GB]|].
           eapply (jump_core r6 mem code (q + 8) s1 s1 None c t); [|reflexivity|exact C4].
           unfold step. rewrite C3, dec_j by exact JX. rewrite jtarget_ok by auto. reflexivity.
        -- exists s1. split; [|apply jumped_refl]. eapply goes_trans; [exact G|]. change (sext 16 3) with 3 in GB.
           replace (q + 16) with (q + 4 + 4 * 3) by lia. exact GB.
      * assert (c = JAlways) as -> by (destruct c; [reflexivity|discriminate EB..]). cbn [jcond_holds]. destruct REST as ((C1 & C2 & _) & ->). destruct jal.
        -- destruct (call_core r6 mem code q s0 s1 prev0 JAlways t) as (s' & R & JJ); auto.
           { unfold step. rewrite C1, dec_jal by exact JX. rewrite jtarget_ok by auto. reflexivity. }
           exists s'. split; [eapply goes_to; eauto|exact JJ].
        -- exists s1. split; [|apply jumped_refl]. eapply goes_to; [exact Ht|exact G|]. eapply jump_core; eauto.
           unfold step. rewrite C1, dec_j by exact JX. rewrite jtarget_ok by auto. reflexivity.
Qed.

(** ** The forms which detect_jump_type chooses *)
Lemma region_next a : (a + 4) mod 2 ^ 28 <> 0 -> a mod 4 = 0 -> region (a + 4) = region a.
Proof.
  intros N A4. rewrite !region_eq. f_equal. unfold wrap. change 64 with (28 + 36). rewrite <- !div_mod_swap by lia. f_equal.
  pose proof (Z.div_mod a (2 ^ 28) ltac:(lia)). pose proof (mod_b a 28 ltac:(lia)).
  destruct (Z.eq_dec (a mod 2 ^ 28) (2 ^ 28 - 4)) as [E | E].
  - exfalso. apply N. replace (a + 4) with ((a / 2 ^ 28 + 1) * 2 ^ 28) by lia. apply Z_mod_mult.
  - symmetry. apply Z.div_unique with (a mod 2 ^ 28 + 4); [|lia].
    assert ((a mod 2 ^ 28) mod 4 = 0) by (change 4 with (2 ^ 2) in *; rewrite mod_back by lia; exact A4).
    pose proof (Z.div_mod (a mod 2 ^ 28) 4 ltac:(lia)). lia.
Qed.
Lemma detect_ok r6 rw iscall prev c p t : p mod 4 = 0 -> inside c p ->
  let f := link_form rw iscall prev (jcond_branch r6 c) p 0 t in form_ok f (jump_at f prev c p) t.
Proof.
  intros P4 HI. cbv zeta. unfold link_form. set (br := jcond_branch r6 c).
  set (cond := match br with None => false | _ => true end). set (mov := match prev with None => false | Some _ => true end).
  set (ja := p - 0 + match prev with None => 0 | Some _ => 4 end + match br with None => 0 | Some _ => 4 end).
  assert (FAR : form_ok (if t <=? 0x7fffffff then FAbs32 else if t <=? 0x7fffffffffff then FAbs48 else FFull)
    (jump_at (if t <=? 0x7fffffff then FAbs32 else if t <=? 0x7fffffffffff then FAbs48 else FFull) prev c p) t).
  { destruct (t <=? 0x7fffffff) eqn:E1; [cbn [form_ok]; lia|]. destruct (t <=? 0x7fffffffffff) eqn:E2; [cbn [form_ok]; lia|exact I]. }
  unfold detect_jump_type. cbv zeta. destruct rw; [exact I|]. destruct iscall; [exact FAR|].
  assert (IN : (if cond then ja - 4 else ja) = p + match prev with None => 0 | Some _ => 4 end) by (unfold cond, ja; destruct br, prev; lia).
  rewrite IN.
  destruct (mov && within16 (Z.shiftr (sgn (wrap (t - (p + match prev with None => 0 | Some _ => 4 end) - 0))) 2)) eqn:E1.
  { apply andb_true_iff in E1. destruct E1 as (M & E1). destruct prev; [|discriminate M]. cbn [form_ok jump_at].
    match goal with |- within16 (Z.shiftr (sgn (wrap ?x)) 2) = true => replace x with (t - (p + 4) - 0) by (unfold jump_at; destruct c; lia) end. exact E1. }
  destruct (negb mov && within16 (Z.shiftr (sgn (wrap (t - (p + match prev with None => 0 | Some _ => 4 end + 4) - 0))) 2)) eqn:E2.
  { apply andb_true_iff in E2. destruct E2 as (M & E2). destruct prev; [discriminate M|]. cbn [form_ok].
    match goal with |- within16 (Z.shiftr (sgn (wrap ?x)) 2) = true => replace x with (t - (p + 0 + 4) - 0) by (unfold jump_at; destruct c; lia) end. exact E2. }
  clear E1 E2. destruct cond eqn:EC.
  - assert (CN : c <> JAlways) by (intros ->; discriminate EC). destruct HI as [HI | HI]; [contradiction|].
    assert (EB : ja = p + 4 + match prev with None => 0 | Some _ => 4 end) by (unfold ja; unfold cond in EC; destruct br; [destruct prev; lia|discriminate EC]).
    assert (JA : forall m, jump_at (FJ m) prev c p = p + (if m then 0 else match prev with None => 0 | Some _ => 4 end) + 8) by (intros; unfold jump_at; destruct m, prev, c; try contradiction; lia).
    assert (RN : forall k, 0 < k <= 20 -> k mod 4 = 0 -> region (p + k) = region (p + k - 4)).
    { intros k Hk K4. replace (p + k) with (p + k - 4 + 4) at 1 by lia. apply region_next.
      - replace (p + k - 4 + 4) with (p + k) by lia. apply HI. lia.
      - replace (p + k - 4) with (p + k + (-1) * 4) by lia. rewrite Z_mod_plus_full, Z.add_mod, P4, K4 by lia. reflexivity. }
    destruct (mov && (region t =? region (ja + 8))) eqn:E1.
    + apply andb_true_iff in E1. destruct E1 as (M & E1). apply Z.eqb_eq in E1. destruct prev; [|discriminate M]. cbn [form_ok]. rewrite E1, JA, EB.
      replace (p + 4 + 4 + 8) with (p + 16) by lia. rewrite RN by (lia || reflexivity). f_equal. lia.
    + destruct (region t =? region (ja + 12)) eqn:E2; [|exact FAR]. apply Z.eqb_eq in E2. cbn [form_ok]. rewrite E2, JA, EB. destruct prev.
      * replace (p + 4 + 4 + 12) with (p + 20) by lia. rewrite RN by (lia || reflexivity). f_equal. lia.
      * replace (p + 4 + 0 + 12) with (p + 16) by lia. rewrite RN by (lia || reflexivity). f_equal. lia.
  - assert (CA : c = JAlways) by (destruct c; [reflexivity|discriminate EC..]).
    assert (EB : ja = p + match prev with None => 0 | Some _ => 4 end) by (unfold ja; unfold cond in EC; destruct br; [discriminate EC|destruct prev; lia]).
    assert (JA : forall m, jump_at (FJ m) prev c p = p + (if m then 0 else match prev with None => 0 | Some _ => 4 end)) by (intros; unfold jump_at; rewrite CA; destruct m, prev; lia).
    destruct (mov && (region t =? region ja)) eqn:E1.
    + apply andb_true_iff in E1. destruct E1 as (M & E1). apply Z.eqb_eq in E1. destruct prev; [|discriminate M]. cbn [form_ok]. rewrite E1, JA, EB. f_equal. lia.
    + destruct (region t =? region (ja + 4)) eqn:E2; [|exact FAR]. apply Z.eqb_eq in E2. cbn [form_ok]. rewrite E2, JA, EB. reflexivity.
Qed.
Lemma link_jump_ok r6 mem code p s s1 rw iscall prev c jal t :
  jcond_legal c jal -> isw t -> t mod 4 = 0 -> p mod 4 = 0 -> before r6 mem prev c s s1 -> inside c p -> (jal = true -> no_link r6 prev) ->
  (r6 && is_float c && far_form (link_form rw iscall prev (jcond_branch r6 c) p 0 t) = false) ->
  let ws := link_jump r6 rw iscall prev (jcond_branch r6 c) jal p 0 t in
  code_at 4 ws p code ->
  if jcond_holds r6 s1 c
  then exists s', goes r6 mem code p s t s' /\ jumped jal (p + 4 * Z.of_nat (length ws)) s1 s'
  else exists s', goes r6 mem code p s (p + 4 * Z.of_nat (length ws)) s' /\ jumped false 0 s1 s'.
Proof. intros. unfold ws, link_jump in *. apply jump_ok; auto. apply detect_ok; assumption. Qed.

(** Rewritable jumps and addresses. *)
Lemma set_addr_ok reg t t' tl : 1 <= reg <= 27 -> sljit_set_jump_addr (load_addr FFull reg t ++ tl) t' = load_addr FFull reg t' ++ tl.
Proof.
  intros Hd. destruct (bases reg Hd) as ((A1 & A2 & A3) & (B1 & B2 & B3) & _). unfold sljit_set_jump_addr, put, load_addr. rewrite !IMM_mask. cbn [firstn skipn app].
  rewrite !put_imm by assumption. reflexivity.
Qed.
Lemma rewritable_words r6 iscall prev c jal p eo :
  exists pre tl, length pre = (length (pre_words prev) + match c with JAlways => 0 | _ => 1 end)%nat /\
    forall t', link_jump r6 true iscall prev (jcond_branch r6 c) jal p eo t' = pre ++ load_addr FFull PIC_ADDR_REG t' ++ tl.
Proof.
  exists (pre_words prev ++ match jcond_branch r6 c with None => [] | Some (w, _) => [u32 (w - 0)] end), [jr_word r6 jal; NOP]. split.
  - rewrite app_length. f_equal. destruct c; cbn [jcond_branch]; [reflexivity| | |].
    + destruct (jump_branch r6 f). reflexivity.
    + destruct (cmp_eq eq x y). reflexivity.
    + destruct (cmp_zero c x). reflexivity.
  - intros t'. unfold link_jump. change (link_form true iscall prev (jcond_branch r6 c) p eo t') with FFull. rewrite far_words by reflexivity. rewrite <- app_assoc. reflexivity.
Qed.
Lemma set_rewritable_ok r6 iscall prev c jal p eo t t' :
  let k := (length (pre_words prev) + match c with JAlways => 0 | _ => 1 end)%nat in
  let ws := link_jump r6 true iscall prev (jcond_branch r6 c) jal p eo t in
  firstn k ws ++ sljit_set_jump_addr (skipn k ws) t' = link_jump r6 true iscall prev (jcond_branch r6 c) jal p eo t'.
Proof.
  intros k ws. unfold ws, k. destruct (rewritable_words r6 iscall prev c jal p eo) as (pre & tl & L & E). rewrite !E, <- L.
  rewrite firstn_app, Nat.sub_diag, firstn_all, skipn_app, Nat.sub_diag, skipn_all. cbn [firstn skipn app]. rewrite app_nil_r.
  rewrite set_addr_ok by (unfold PIC_ADDR_REG, TMP_REG1; lia). reflexivity.
Qed.
