(** ARM64: the flags of additions, subtractions and comparisons decide the conditions. *)
Require Import ZArith List Bool Lia Zify ZifyBool.
From Verif Require Import Rv.RvLib Rv.RvBits Imm.ImmLib Imm.PpProofs Arm.ArmIsa Arm.ArmBr Arm.ArmEnc Arm.ArmBits Arm.ArmLoadImm Arm.ArmJump Arm.ArmJumpSpec Arm.ArmJumpProofs.
Import ListNotations.
Open Scope Z_scope.
Ltac Zify.zify_post_hook ::= idtac.

Lemma sext_cases n x : 1 <= n -> 0 <= x < 2 ^ n -> (x < 2 ^ (n - 1) /\ sext n x = x) \/ (2 ^ (n - 1) <= x /\ sext n x = x - 2 ^ n).
Proof.
  intros Hn Hx. assert (P : 2 ^ n = 2 * 2 ^ (n - 1)) by (rewrite <- Z.pow_succ_r by lia; f_equal; lia). pose proof (pow_pos (n - 1) ltac:(lia)).
  destruct (Z_lt_le_dec x (2 ^ (n - 1))); [left; split; [lia|apply sext_small; lia]|right; split; [lia|]]. apply (sext_unique n _ _ 1); lia.
Qed.
Lemma top_bit n x : 1 <= n -> 0 <= x < 2 ^ n -> Z.testbit x (n - 1) = (2 ^ (n - 1) <=? x).
Proof.
  intros Hn Hx. assert (P : 2 ^ n = 2 * 2 ^ (n - 1)) by (rewrite <- Z.pow_succ_r by lia; f_equal; lia). pose proof (pow_pos (n - 1) ltac:(lia)) as PP.
  apply Bool.eq_iff_eq_true. rewrite Z.testbit_true by lia. pose proof (Z.div_mod x (2 ^ (n - 1)) ltac:(lia)). pose proof (Z.mod_pos_bound x (2 ^ (n - 1)) ltac:(lia)).
  assert (D : 0 <= x / 2 ^ (n - 1) < 2) by (split; [apply Z.div_pos; lia|apply Z.div_lt_upper_bound; lia]).
  rewrite Z.mod_small by lia. nia.
Qed.
Lemma lo_lnot n b : 1 <= n -> 0 <= b < 2 ^ n -> lo n (Z.lnot b) = 2 ^ n - 1 - b.
Proof. intros Hn Hb. unfold lo, Z.lnot. replace (Z.pred (- b)) with (2 ^ n - 1 - b + (-1) * 2 ^ n) by lia. rewrite Z_mod_plus_full. apply Z.mod_small. lia. Qed.
Lemma mod_cases n x : 1 <= n -> 0 <= x < 2 * 2 ^ n -> (x < 2 ^ n /\ x mod 2 ^ n = x) \/ (2 ^ n <= x /\ x mod 2 ^ n = x - 2 ^ n).
Proof.
  intros Hn Hx. destruct (Z_lt_le_dec x (2 ^ n)); [left; split; [lia|apply Z.mod_small; lia]|right; split; [lia|]].
  replace x with (x - 2 ^ n + 1 * 2 ^ n) at 1 by lia. rewrite Z_mod_plus_full. apply Z.mod_small. lia.
Qed.
(** The flags of a subtraction. *)
Lemma sub_flags n a b : 1 <= n -> 0 <= a < 2 ^ n -> 0 <= b < 2 ^ n ->
  awc n a (lo n (Z.lnot b)) true = ((a - b) mod 2 ^ n, (sext n (a - b) <? 0, a =? b, b <=? a, negb (sext n (a - b) =? sext n a - sext n b))).
Proof.
  intros Hn Ha Hb. rewrite lo_lnot by assumption. unfold awc. cbn [Z.b2z]. pose proof (pow_pos (n - 1) ltac:(lia)) as PP.
  assert (P : 2 ^ n = 2 * 2 ^ (n - 1)) by (rewrite <- Z.pow_succ_r by lia; f_equal; lia).
  assert (ER : (a + (2 ^ n - 1 - b) + 1) mod 2 ^ n = (a - b) mod 2 ^ n) by (replace (a + (2 ^ n - 1 - b) + 1) with (a - b + 1 * 2 ^ n) by lia; apply Z_mod_plus_full).
  rewrite ER. pose proof (mod_b (a - b) n ltac:(lia)) as RB. rewrite (top_bit n _ Hn RB), sext_low by lia.
  assert (RS : sext n (a - b) = sext n ((a - b) mod 2 ^ n)) by (symmetry; apply sext_low; lia).
  destruct (mod_cases n (a - b + 2 ^ n) Hn ltac:(lia)) as [(M1 & M2) | (M1 & M2)];
    (assert (M3 : (a - b + 2 ^ n) mod 2 ^ n = (a - b) mod 2 ^ n) by (replace (a - b + 2 ^ n) with (a - b + 1 * 2 ^ n) by lia; apply Z_mod_plus_full)); rewrite M3 in M2;
    destruct (sext_cases n _ Hn RB) as [(S1 & S2) | (S1 & S2)]; destruct (sext_cases n a Hn Ha) as [(A1 & A2) | (A1 & A2)];
    destruct (sext_cases n b Hn Hb) as [(B1 & B2) | (B1 & B2)]; destruct (sext_cases n (2 ^ n - 1 - b) Hn ltac:(lia)) as [(C1 & C2) | (C1 & C2)]; try (exfalso; lia);
    rewrite RS, S2, A2, B2, C2; repeat match goal with |- (_, _) = (_, _) => apply f_equal2 end; lia.
Qed.
Lemma add_flags n a b c : 1 <= n -> 0 <= a < 2 ^ n -> 0 <= b < 2 ^ n ->
  awc n a b c = ((a + b + Z.b2z c) mod 2 ^ n, (sext n (a + b + Z.b2z c) <? 0, (a + b + Z.b2z c) mod 2 ^ n =? 0, 2 ^ n <=? a + b + Z.b2z c,
    negb (sext n (a + b + Z.b2z c) =? sext n a + sext n b + Z.b2z c))).
Proof.
  intros Hn Ha Hb. unfold awc. assert (Hc : 0 <= Z.b2z c <= 1) by (destruct c; cbn; lia). set (k := Z.b2z c) in *. clearbody k. pose proof (pow_pos (n - 1) ltac:(lia)) as PP.
  assert (P : 2 ^ n = 2 * 2 ^ (n - 1)) by (rewrite <- Z.pow_succ_r by lia; f_equal; lia).
  pose proof (mod_b (a + b + k) n ltac:(lia)) as RB. rewrite (top_bit n _ Hn RB), sext_low by lia.
  assert (RS : sext n (a + b + k) = sext n ((a + b + k) mod 2 ^ n)) by (symmetry; apply sext_low; lia).
  destruct (mod_cases n (a + b + k) Hn ltac:(lia)) as [(M1 & M2) | (M1 & M2)]; destruct (sext_cases n _ Hn RB) as [(S1 & S2) | (S1 & S2)];
    rewrite RS; repeat match goal with |- (_, _) = (_, _) => apply f_equal2 end; lia.
Qed.
Lemma sub_cond_ok n a b ty s v : 1 <= n -> 0 <= a < 2 ^ n -> 0 <= b < 2 ^ n -> flags_are s (snd (awc n a (lo n (Z.lnot b)) true)) ->
  sub_meaning n a b ty = Some v -> flag_holds SSub ty s = v.
Proof.
  intros Hn Ha Hb. rewrite sub_flags by assumption. cbn [snd flags_are]. intros (N & Zf & C & V) M.
  assert (P : 2 ^ n = 2 * 2 ^ (n - 1)) by (rewrite <- Z.pow_succ_r by lia; f_equal; lia). pose proof (pow_pos (n - 1) ltac:(lia)) as PP.
  pose proof (mod_b (a - b) n ltac:(lia)) as RB. assert (RS : sext n (a - b) = sext n ((a - b) mod 2 ^ n)) by (symmetry; apply sext_low; lia).
  destruct (mod_cases n (a - b + 2 ^ n) Hn ltac:(lia)) as [(M1 & M2) | (M1 & M2)];
    (assert (M3 : (a - b + 2 ^ n) mod 2 ^ n = (a - b) mod 2 ^ n) by (replace (a - b + 2 ^ n) with (a - b + 1 * 2 ^ n) by lia; apply Z_mod_plus_full)); rewrite M3 in M2;
    destruct (sext_cases n _ Hn RB) as [(S1 & S2) | (S1 & S2)]; destruct (sext_cases n a Hn Ha) as [(A1 & A2) | (A1 & A2)];
    destruct (sext_cases n b Hn Hb) as [(B1 & B2) | (B1 & B2)]; try (exfalso; lia);
    rewrite RS, S2, A2, B2 in *; unfold sub_meaning in M; rewrite ?RS, ?S2, ?A2, ?B2 in M;
    destruct ty; try discriminate M; injection M as <-; unfold flag_holds; cbv zeta; rewrite ?N, ?Zf, ?C, ?V; lia.
Qed.
Lemma add_cond_ok n a b c ty s v : 1 <= n -> 0 <= a < 2 ^ n -> 0 <= b < 2 ^ n -> flags_are s (snd (awc n a b c)) ->
  add_meaning n a b (Z.b2z c) ty = Some v -> flag_holds SAdd ty s = v.
Proof.
  intros Hn Ha Hb. rewrite add_flags by assumption. cbn [snd flags_are]. intros (N & Zf & C & V) M. unfold add_meaning in M.
  destruct ty; try discriminate M; injection M as <-; unfold flag_holds; cbv zeta; rewrite ?N, ?Zf, ?C, ?V; rewrite ?negb_involutive; try reflexivity; lia.
Qed.
Lemma fcmp_cond_ok f r ty s v : needs_equal_words ty = false -> flags_are s (fcmp_flags r) -> fcmp_meaning r ty = Some v -> flag_holds f ty s = v.
Proof.
  intros E F M. destruct r; cbn [fcmp_flags flags_are] in F; destruct F as (N & Zf & C & V);
  destruct ty; try discriminate E; try discriminate M; injection M as <-; unfold flag_holds; cbv zeta; rewrite ?N, ?Zf, ?C, ?V; reflexivity.
Qed.
Lemma equal_words_ok code a s r : code_at 4 unordered_or_equal_words a code -> flags_are s (fcmp_flags r) ->
  exists s', goes code a s (a + 8) s' /\ (forall k, k <> 9 -> xr s' k = xr s k) /\ mm s' = mm s /\
    forall f ty v, needs_equal_words ty = true -> fcmp_meaning r ty = Some v -> flag_holds f ty s' = v.
Proof.
  intros (C1 & C2 & _) F. unfold unordered_or_equal_words in *.
  set (w := if cond_holds s 0 then 0 else 1).
  assert (G1 : goes code a s (a + 4) (wX s 9 w)).
  { apply runs_1. unfold step. rewrite C1.
    assert (D1 : decode_br (CSINC .| Z.shiftl 0 12 .| RD TMP_REG1 .| RN TMP_ZERO .| RM TMP_ZERO) = None) by (vm_compute; reflexivity).
    assert (D2 : decode (CSINC .| Z.shiftl 0 12 .| RD TMP_REG1 .| RN TMP_ZERO .| RM TMP_ZERO) = Some (ICsel true 0 1 31 0 31 9)) by (vm_compute; reflexivity).
    rewrite D1, D2. unfold exec. cbn [dsz]. unfold rX. change (31 =? 31) with true. cbv iota zeta. unfold w. rewrite wrap_add_l.
    destruct (cond_holds s 0); reflexivity. }
  assert (D3 : decode_br (CCMPI .| Z.shiftl 0 16 .| Z.shiftl 7 12 .| RN TMP_REG1 .| 4) = Some (ICcmpI true true 0 7 9 4)) by (vm_compute; reflexivity).
  assert (F1 : flags_are (wX s 9 w) (fcmp_flags r)) by exact F.
  assert (X : rX (wX s 9 w) 9 = w) by reflexivity.
  assert (R9 : forall k, k <> 9 -> xr (wX s 9 w) k = xr s k) by (intros k Hk; cbn; unfold upd; replace (k =? 9) with false by lia; reflexivity).
  set (s1 := wX s 9 w) in *. assert (MM : mm s1 = mm s) by reflexivity.
  assert (W : w = if zf s then 0 else 1) by reflexivity. assert (Z1 : zf s1 = zf s) by reflexivity. clearbody s1 w.
  assert (G2 : exists s2, goes code (a + 4) s1 (a + 8) s2 /\ (forall k, xr s2 k = xr s1 k) /\ mm s2 = mm s1 /\ zf s2 = (vf s1 || zf s1)).
  { unfold goes, step. rewrite (wrap_eq (a + 8) (a + 4 + 4) 0) by lia.
    pose proof (sub_flags 64 w 0 ltac:(lia) ltac:(subst w; destruct (zf s); lia) ltac:(lia)) as SF.
    destruct (vf s1) eqn:V.
    - exists (wFl s1 false true false false). split; [|auto]. apply runs_1. rewrite C2, D3. cbn [dsz]. cbv zeta.
      replace (cond_holds s1 7) with false by (unfold cond_holds; cbn; rewrite V; reflexivity). rewrite wrap_add_l. reflexivity.
    - eexists. split; [apply runs_1; rewrite C2, D3; cbn [dsz]; cbv zeta;
        replace (cond_holds s1 7) with true by (unfold cond_holds; cbn; rewrite V; reflexivity); rewrite X; unfold lo at 1; rewrite (Z.mod_small w) by (subst w; destruct (zf s); lia);
        rewrite SF, wrap_add_l; reflexivity|]. cbn [wFl xr mm zf]. split; [auto|]. split; [auto|]. rewrite Z1, W. destruct (zf s); reflexivity. }
  destruct G2 as (s2 & G2 & R2 & M2 & Zf). exists s2. split; [eapply goes_trans; eauto|]. split; [intros k Hk; rewrite R2; auto|]. split; [congruence|].
  intros f ty v E M. destruct r; cbn [fcmp_flags flags_are] in F1; destruct F1 as (N & Z0 & C & V); rewrite V, Z0 in Zf;
  destruct ty; try discriminate E; injection M as <-; unfold flag_holds; cbv zeta; rewrite Zf; reflexivity.
Qed.

(** ** Conditional jumps after an operation *)
Definition jumps_if (v : bool) (rw : bool) (f : fstate) (ty : ctype) (code : Z -> Z) (p t : Z) (s : st) : Prop :=
  let e := p + 4 * Z.of_nat (length (link_jump rw (Some (JFlag f ty)) false p t)) in
  if v then exists s', goes code p s t s' /\ same_but (fun k => k = 10) s s' else goes code p s e s.
Lemma jumps_if_ok rw f ty code p t s v : isw t -> t mod 4 = 0 -> p mod 4 = 0 -> code_at 4 (link_jump rw (Some (JFlag f ty)) false p t) p code ->
  flag_holds f ty s = v -> jumps_if v rw f ty code p t s.
Proof.
  intros Ht T4 P4 C F. pose proof (link_jump_ok rw (Some (JFlag f ty)) false p t code s (conj (fun _ => eq_refl) I) Ht T4 P4 C) as J. unfold jumps_if.
  cbn [jcond_holds] in J. cbv zeta in *. rewrite F in J. destruct v; [|exact J]. destruct J as (s' & G & SB & _). exists s'. split; [exact G|].
  destruct SB as (A & B). split; [|exact B]. intros k Hk. apply A. intros [-> | (D & _)]; [auto|discriminate D].
Qed.
Lemma sub_jump_ok rw ty code p t s n a b v : 1 <= n -> 0 <= a < 2 ^ n -> 0 <= b < 2 ^ n -> isw t -> t mod 4 = 0 -> p mod 4 = 0 ->
  flags_are s (snd (awc n a (lo n (Z.lnot b)) true)) -> sub_meaning n a b ty = Some v ->
  code_at 4 (link_jump rw (Some (JFlag SSub ty)) false p t) p code -> jumps_if v rw SSub ty code p t s.
Proof. intros. apply jumps_if_ok; auto. apply (sub_cond_ok n a b); assumption. Qed.
Lemma add_jump_ok rw ty code p t s n a b c v : 1 <= n -> 0 <= a < 2 ^ n -> 0 <= b < 2 ^ n -> isw t -> t mod 4 = 0 -> p mod 4 = 0 ->
  flags_are s (snd (awc n a b c)) -> add_meaning n a b (Z.b2z c) ty = Some v ->
  code_at 4 (link_jump rw (Some (JFlag SAdd ty)) false p t) p code -> jumps_if v rw SAdd ty code p t s.
Proof. intros. apply jumps_if_ok; auto. apply (add_cond_ok n a b c); assumption. Qed.
Lemma fcmp_jump_ok rw f ty code p t s r v : needs_equal_words ty = false -> isw t -> t mod 4 = 0 -> p mod 4 = 0 ->
  flags_are s (fcmp_flags r) -> fcmp_meaning r ty = Some v -> code_at 4 (link_jump rw (Some (JFlag f ty)) false p t) p code -> jumps_if v rw f ty code p t s.
Proof. intros. apply jumps_if_ok; auto. apply (fcmp_cond_ok f r); assumption. Qed.
Lemma fcmp_equal_jump_ok rw f ty code a p t s r v : needs_equal_words ty = true -> isw t -> t mod 4 = 0 -> p mod 4 = 0 ->
  flags_are s (fcmp_flags r) -> fcmp_meaning r ty = Some v -> code_at 4 unordered_or_equal_words a code -> code_at 4 (link_jump rw (Some (JFlag f ty)) false p t) p code ->
  exists s1, goes code a s (a + 8) s1 /\ (forall k, k <> 9 -> xr s1 k = xr s k) /\ mm s1 = mm s /\ jumps_if v rw f ty code p t s1.
Proof.
  intros E Ht T4 P4 F M C1 C2. destruct (equal_words_ok code a s r C1 F) as (s1 & G & X & MM & FH). exists s1. split; [exact G|]. split; [exact X|]. split; [exact MM|].
  apply jumps_if_ok; auto.
Qed.
