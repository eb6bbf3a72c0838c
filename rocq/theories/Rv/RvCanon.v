(** Arithmetic of the register format of 32 and 64 bit values. *)
Require Import ZArith List Bool Lia Zify ZifyBool.
From Verif Require Import Rv.RvLib Rv.RvBits Rv.RvIsa Rv.RvEnc Rv.RvRun Rv.RvWf Rv.RvMem Rv.RvOp Rv.RvLir.
Import ListNotations.
Open Scope Z_scope.
Ltac Zify.zify_post_hook ::= idtac.

Lemma sext_bit n x i : 1 <= n -> 0 <= i -> Z.testbit (sext n x) i = Z.testbit x (if i <? n then i else n - 1).
Proof.
  intros Hn Hi. assert (P : 0 < 2 ^ n) by (apply Z.pow_pos_nonneg; lia). pose proof (Z.mod_pos_bound x (2 ^ n) P).
  rewrite sext_split by lia. rewrite tb_parts by lia. destruct (i <? n) eqn:E.
  - apply Z.mod_pow2_bits_low. lia.
  - assert (T : (x mod 2 ^ n <? 2 ^ (n - 1)) = negb (Z.testbit x (n - 1))).
    { assert (P1 : 0 < 2 ^ (n - 1)) by (apply Z.pow_pos_nonneg; lia).
      replace (2 ^ n) with (2 ^ (n - 1) * 2). 2:{ rewrite Z.mul_comm, <- Z.pow_succ_r by lia. f_equal. lia. }
      rewrite Z.rem_mul_r by lia. rewrite <- (Z.testbit_spec' x (n - 1)) by lia.
      pose proof (Z.mod_pos_bound x (2 ^ (n - 1)) P1). destruct (Z.testbit x (n - 1)); cbn [Z.b2z negb]; lia. }
    rewrite T. destruct (Z.testbit x (n - 1)); cbn [negb]. { apply Z.bits_m1. lia. } apply Z.bits_0.
Qed.
Lemma sext_land n x y : 1 <= n -> sext n (Z.land x y) = Z.land (sext n x) (sext n y).
Proof. intros Hn. apply Z.bits_inj'. intros i Hi. rewrite Z.land_spec, !sext_bit, Z.land_spec by lia. reflexivity. Qed.
Lemma sext_lor n x y : 1 <= n -> sext n (Z.lor x y) = Z.lor (sext n x) (sext n y).
Proof. intros Hn. apply Z.bits_inj'. intros i Hi. rewrite Z.lor_spec, !sext_bit, Z.lor_spec by lia. reflexivity. Qed.
Lemma sext_lxor n x y : 1 <= n -> sext n (Z.lxor x y) = Z.lxor (sext n x) (sext n y).
Proof. intros Hn. apply Z.bits_inj'. intros i Hi. rewrite Z.lxor_spec, !sext_bit, Z.lxor_spec by lia. reflexivity. Qed.

(** [nb f]: the facts about the operation length. *)
Lemma nb f : 1 <= nbits f /\ nbits f <= 64 /\ 32 <= nbits f. Proof. destruct f; cbn; lia. Qed.
Lemma nb_pos f : 0 < 2 ^ nbits f. Proof. apply Z.pow_pos_nonneg; destruct f; cbn; lia. Qed.

Lemma canon_isw n x : isw (canon n x). Proof. apply wrap_isw. Qed.
Lemma canon64 x : canon 64 x = wrap x.
Proof. unfold canon. destruct (sext_mod 64 x ltac:(lia)) as (k & E). symmetry. apply wrap_eq with k. lia. Qed.
Lemma canon32 x : canon 32 x = sx32 x. Proof. reflexivity. Qed.
Lemma canon_cong f x y : x mod 2 ^ nbits f = y mod 2 ^ nbits f -> canon (nbits f) x = canon (nbits f) y.
Proof.
  intros E. unfold canon. f_equal. rewrite <- (sext_mod_id (nbits f) x), <- (sext_mod_id (nbits f) y), E by apply nb. reflexivity.
Qed.
Lemma sext_canon f x : sext (nbits f) (canon (nbits f) x) = sext (nbits f) x.
Proof.
  destruct (nb f) as (N1 & N2 & _). unfold canon, wrap. pose proof (Z.div_mod (sext (nbits f) x) (2 ^ 64)) as D.
  destruct (sext_mod (nbits f) x N1) as (k & E).
  apply sext_eq with (- (sext (nbits f) x / 2 ^ 64) * 2 ^ (64 - nbits f) - k); [lia|].
  rewrite Z.mul_sub_distr_r, <- Z.mul_assoc, <- Z.pow_add_r by lia. replace (64 - nbits f + nbits f) with 64 by lia. lia.
Qed.
Lemma sext_inj f x y : sext (nbits f) x = sext (nbits f) y -> x mod 2 ^ nbits f = y mod 2 ^ nbits f.
Proof.
  intros E. destruct (sext_mod (nbits f) x ltac:(apply nb)) as (k & E1). destruct (sext_mod (nbits f) y ltac:(apply nb)) as (k' & E2).
  rewrite E1, E2, E. rewrite !Z_mod_plus_full. reflexivity.
Qed.
Lemma canon_mod f x : canon (nbits f) x mod 2 ^ nbits f = x mod 2 ^ nbits f.
Proof. apply sext_inj. apply sext_canon. Qed.
Lemma canon_canon f x : canon (nbits f) (canon (nbits f) x) = canon (nbits f) x.
Proof. apply canon_cong. apply canon_mod. Qed.
Lemma canon_of_mod f x : canon (nbits f) (x mod 2 ^ nbits f) = canon (nbits f) x.
Proof. apply canon_cong. apply Zmod_mod. Qed.
Lemma canon_inj f x y : canon (nbits f) x = canon (nbits f) y -> x mod 2 ^ nbits f = y mod 2 ^ nbits f.
Proof. intros E. rewrite <- (canon_mod f x), <- (canon_mod f y), E. reflexivity. Qed.
Lemma canon_eqb f x y : (canon (nbits f) x =? canon (nbits f) y) = (x mod 2 ^ nbits f =? y mod 2 ^ nbits f).
Proof.
  destruct (x mod 2 ^ nbits f =? y mod 2 ^ nbits f) eqn:E.
  - apply Z.eqb_eq in E. apply Z.eqb_eq. apply canon_cong; auto.
  - apply Z.eqb_neq in E. apply Z.eqb_neq. intros H. apply E. apply canon_inj; auto.
Qed.
Lemma canon_0 f : canon (nbits f) 0 = 0. Proof. destruct f; reflexivity. Qed.
Lemma canon_eqb0 f x : (canon (nbits f) x =? 0) = (x mod 2 ^ nbits f =? 0).
Proof. rewrite <- (canon_0 f) at 1. rewrite canon_eqb. rewrite Zmod_0_l. reflexivity. Qed.
(** The value as a number. *)
Lemma canon_val f x : canon (nbits f) x =
  if x mod 2 ^ nbits f <? 2 ^ (nbits f - 1) then x mod 2 ^ nbits f else x mod 2 ^ nbits f + 2 ^ 64 - 2 ^ nbits f.
Proof.
  unfold canon, sext. cbv zeta. pose proof (Z.mod_pos_bound x (2 ^ nbits f) (nb_pos f)).
  destruct (x mod 2 ^ nbits f <? 2 ^ (nbits f - 1)) eqn:E.
  - apply wrap_small. unfold isw. destruct f; cbn [nbits] in *; lia.
  - transitivity (wrap (x mod 2 ^ nbits f + 2 ^ 64 - 2 ^ nbits f)). { apply wrap_eq with (-1). lia. }
    apply wrap_small. unfold isw. destruct f; cbn [nbits] in *; lia.
Qed.
Lemma canon_ltu f x y : (canon (nbits f) x <? canon (nbits f) y) = (x mod 2 ^ nbits f <? y mod 2 ^ nbits f).
Proof.
  rewrite !canon_val. pose proof (Z.mod_pos_bound x (2 ^ nbits f) (nb_pos f)). pose proof (Z.mod_pos_bound y (2 ^ nbits f) (nb_pos f)).
  destruct f; cbn [nbits] in *; change (32 - 1) with 31 in *; change (64 - 1) with 63 in *;
  destruct (x mod _ <? 2 ^ _) eqn:E1, (y mod _ <? 2 ^ _) eqn:E2; lia.
Qed.
Lemma sgn_canon f x : sgn (canon (nbits f) x) = sext (nbits f) x.
Proof.
  unfold canon. pose proof (sext_range (nbits f) x ltac:(apply nb)). apply sgn_wrap.
  destruct f; cbn [nbits] in *; change (32 - 1) with 31 in *; change (64 - 1) with 63 in *; lia.
Qed.
Lemma canon_small f x : - 2 ^ 31 <= x < 2 ^ 31 -> canon (nbits f) x = wrap x.
Proof. intros. unfold canon. f_equal. apply sext_small; destruct f; cbn [nbits]; lia. Qed.
Lemma canon_land f x y : Z.land (canon (nbits f) x) (canon (nbits f) y) = canon (nbits f) (Z.land x y).
Proof. unfold canon. rewrite land_wrap, sext_land by apply nb. reflexivity. Qed.
Lemma canon_lor f x y : Z.lor (canon (nbits f) x) (canon (nbits f) y) = canon (nbits f) (Z.lor x y).
Proof. unfold canon. rewrite lor_wrap, sext_lor by apply nb. reflexivity. Qed.
Lemma canon_lxor f x y : Z.lxor (canon (nbits f) x) (canon (nbits f) y) = canon (nbits f) (Z.lxor x y).
Proof. unfold canon. rewrite lxor_wrap, sext_lxor by apply nb. reflexivity. Qed.
Lemma canon_b2z f b : canon (nbits f) (b2z b) = b2z b. Proof. destruct f, b; reflexivity. Qed.
Lemma canon_wrap f x : canon (nbits f) (wrap x) = canon (nbits f) x.
Proof. destruct f; cbn [nbits]. { apply sx32_wrap. } rewrite !canon64. apply wrap_wrap. Qed.

(** Canonical operands may be replaced by any representative. *)
Lemma canon_add_l f x y : canon (nbits f) (canon (nbits f) x + y) = canon (nbits f) (x + y).
Proof. apply canon_cong. rewrite Zplus_mod, canon_mod, <- Zplus_mod. reflexivity. Qed.
Lemma canon_add_r f x y : canon (nbits f) (x + canon (nbits f) y) = canon (nbits f) (x + y).
Proof. apply canon_cong. rewrite Zplus_mod, canon_mod, <- Zplus_mod. reflexivity. Qed.
Lemma canon_sub_l f x y : canon (nbits f) (canon (nbits f) x - y) = canon (nbits f) (x - y).
Proof. apply canon_cong. rewrite Zminus_mod, canon_mod, <- Zminus_mod. reflexivity. Qed.
Lemma canon_sub_r f x y : canon (nbits f) (x - canon (nbits f) y) = canon (nbits f) (x - y).
Proof. apply canon_cong. rewrite Zminus_mod, canon_mod, <- Zminus_mod. reflexivity. Qed.
Lemma canon_mul_l f x y : canon (nbits f) (canon (nbits f) x * y) = canon (nbits f) (x * y).
Proof. apply canon_cong. rewrite Zmult_mod, canon_mod, <- Zmult_mod. reflexivity. Qed.
Lemma canon_mul_r f x y : canon (nbits f) (x * canon (nbits f) y) = canon (nbits f) (x * y).
Proof. apply canon_cong. rewrite Zmult_mod, canon_mod, <- Zmult_mod. reflexivity. Qed.

(** The amount of a shift. *)
Lemma mod_n f y : (y mod 2 ^ nbits f) mod nbits f = y mod nbits f.
Proof.
  destruct f; cbn [nbits].
  - change (2 ^ 32) with (32 * 2 ^ 27). rewrite Z.rem_mul_r by lia. rewrite Z.mul_comm, Z_mod_plus_full, Zmod_mod. reflexivity.
  - change (2 ^ 64) with (64 * 2 ^ 58). rewrite Z.rem_mul_r by lia. rewrite Z.mul_comm, Z_mod_plus_full, Zmod_mod. reflexivity.
Qed.
Lemma canon_mod_n f y : canon (nbits f) y mod nbits f = y mod nbits f.
Proof. rewrite <- (mod_n f), canon_mod, mod_n. reflexivity. Qed.

(** ** Carry and overflow *)
(** The sign bit. *)
Definition sb (n x : Z) : bool := Z.testbit x (n - 1).
Lemma sb_mod f x : sb (nbits f) (x mod 2 ^ nbits f) = sb (nbits f) x.
Proof. unfold sb. apply Z.mod_pow2_bits_low. lia. Qed.
Lemma sb_canon f x : sb (nbits f) (canon (nbits f) x) = sb (nbits f) x.
Proof. rewrite <- sb_mod, canon_mod, sb_mod. reflexivity. Qed.
Lemma sb_le f x : 0 <= x < 2 ^ nbits f -> sb (nbits f) x = (2 ^ (nbits f - 1) <=? x).
Proof.
  intros H. unfold sb. destruct (nb f) as (N & _). assert (P : 0 < 2 ^ (nbits f - 1)) by (apply Z.pow_pos_nonneg; lia).
  assert (E : 2 ^ nbits f = 2 * 2 ^ (nbits f - 1)). { rewrite <- Z.pow_succ_r by lia. f_equal. lia. }
  assert (T := Z.testbit_spec' x (nbits f - 1) ltac:(lia)).
  destruct (2 ^ (nbits f - 1) <=? x) eqn:C.
  - assert (x / 2 ^ (nbits f - 1) = 1) as Q. { symmetry. apply Z.div_unique with (x - 2 ^ (nbits f - 1)); lia. }
    rewrite Q in T. change (1 mod 2) with 1 in T. destruct (Z.testbit x (nbits f - 1)); auto; discriminate.
  - rewrite Z.div_small in T by lia. change (0 mod 2) with 0 in T. destruct (Z.testbit x (nbits f - 1)); auto; discriminate.
Qed.
(** SRLI by n - 1 isolates the sign bit. *)
Lemma top_bit f x : (x mod 2 ^ nbits f) / 2 ^ (nbits f - 1) = b2z (sb (nbits f) x).
Proof.
  pose proof (Z.mod_pos_bound x (2 ^ nbits f) (nb_pos f)) as B. rewrite <- sb_mod, sb_le by auto. revert B.
  generalize (x mod 2 ^ nbits f). intros y B. destruct (nb f) as (N & _).
  assert (P : 0 < 2 ^ (nbits f - 1)) by (apply Z.pow_pos_nonneg; lia).
  assert (E : 2 ^ nbits f = 2 * 2 ^ (nbits f - 1)). { rewrite <- Z.pow_succ_r by lia. f_equal. lia. }
  destruct (2 ^ (nbits f - 1) <=? y) eqn:C; cbn [b2z].
  - symmetry. apply Z.div_unique with (y - 2 ^ (nbits f - 1)); lia.
  - apply Z.div_small. lia.
Qed.
Lemma sb_lxor n x y : sb n (Z.lxor x y) = xorb (sb n x) (sb n y). Proof. apply Z.lxor_spec. Qed.
Lemma lxor_b2z p q : Z.lxor (b2z p) (b2z q) = b2z (xorb p q). Proof. destruct p, q; reflexivity. Qed.
Lemma lor_b2z p q : Z.lor (b2z p) (b2z q) = b2z (p || q). Proof. destruct p, q; reflexivity. Qed.
Lemma b2z_eqb0 p : (b2z p =? 0) = negb p. Proof. destruct p; reflexivity. Qed.

Lemma carry_add N a b : 0 <= a < N -> 0 <= b < N -> ((a + b) mod N <? a) = (N <=? a + b).
Proof.
  intros Ha Hb. destruct (N <=? a + b) eqn:E.
  - replace ((a + b) mod N) with (a + b - N). { lia. } apply Z.mod_unique with 1; lia.
  - rewrite Z.mod_small by lia. lia.
Qed.
Lemma carry_add' N a b : 0 <= a < N -> 0 <= b < N -> ((a + b) mod N <? b) = (N <=? a + b).
Proof. intros. rewrite Z.add_comm, carry_add by auto. rewrite (Z.add_comm b a). reflexivity. Qed.
Lemma carry_addc N a b c : 0 <= a < N -> 0 <= b < N -> 0 <= c <= 1 -> 1 < N ->
  ((a + b + c) mod N <? c) || (N <=? a + b) = (N <=? a + b + c).
Proof.
  intros Ha Hb Hc Hn. destruct (N <=? a + b) eqn:E; [rewrite orb_true_r; lia|]. rewrite orb_false_r.
  destruct (N <=? a + b + c) eqn:E1.
  - replace ((a + b + c) mod N) with 0. { lia. } apply Z.mod_unique with 1; lia.
  - rewrite Z.mod_small by lia. lia.
Qed.
Lemma carry_subc N a b c : 0 <= a < N -> 0 <= b < N -> 0 <= c <= 1 -> 1 < N ->
  (a <? b) || ((a - b) mod N <? c) = (a <? b + c).
Proof.
  intros Ha Hb Hc Hn. destruct (a <? b) eqn:E; cbn [orb]; [lia|]. rewrite Z.mod_small by lia. lia.
Qed.

Lemma sext_sb f x : 0 <= x < 2 ^ nbits f -> sext (nbits f) x = if sb (nbits f) x then x - 2 ^ nbits f else x.
Proof.
  intros H. rewrite sb_le by auto. unfold sext. cbv zeta. rewrite Z.mod_small by auto.
  destruct (x <? 2 ^ (nbits f - 1)) eqn:E, (2 ^ (nbits f - 1) <=? x) eqn:E1; auto; lia.
Qed.
Lemma ovf_add f a b : 0 <= a < 2 ^ nbits f -> 0 <= b < 2 ^ nbits f ->
  out_of_range (nbits f) (sext (nbits f) a + sext (nbits f) b) =
  xorb (xorb (sb (nbits f) (a + b)) (xorb (sb (nbits f) a) (sb (nbits f) b))) (2 ^ nbits f <=? a + b).
Proof.
  intros Ha Hb. rewrite !sext_sb by auto. rewrite <- (sb_mod f (a + b)).
  pose proof (Z.mod_pos_bound (a + b) (2 ^ nbits f) (nb_pos f)).
  assert (M : (a + b) mod 2 ^ nbits f = if 2 ^ nbits f <=? a + b then a + b - 2 ^ nbits f else a + b).
  { destruct (2 ^ nbits f <=? a + b) eqn:E; [symmetry; apply Z.mod_unique with 1; lia|apply Z.mod_small; lia]. }
  rewrite !sb_le by auto. rewrite M. unfold out_of_range. destruct f; cbn [nbits] in *;
  change (32 - 1) with 31 in *; change (64 - 1) with 63 in *;
  destruct (_ <=? a) eqn:E1, (_ <=? b) eqn:E2, (_ <=? a + b) eqn:E3; cbn [xorb];
  match goal with |- _ = ?x => destruct x eqn:E4 end; lia.
Qed.
Lemma ovf_sub f a b : 0 <= a < 2 ^ nbits f -> 0 <= b < 2 ^ nbits f ->
  out_of_range (nbits f) (sext (nbits f) a - sext (nbits f) b) =
  xorb (xorb (sb (nbits f) (a - b)) (xorb (sb (nbits f) a) (sb (nbits f) b))) (a <? b).
Proof.
  intros Ha Hb. rewrite !sext_sb by auto. rewrite <- (sb_mod f (a - b)).
  pose proof (Z.mod_pos_bound (a - b) (2 ^ nbits f) (nb_pos f)).
  assert (M : (a - b) mod 2 ^ nbits f = if a <? b then a - b + 2 ^ nbits f else a - b).
  { destruct (a <? b) eqn:E; [symmetry; apply Z.mod_unique with (-1); lia|apply Z.mod_small; lia]. }
  rewrite !sb_le by auto. rewrite M. unfold out_of_range. destruct f; cbn [nbits] in *;
  change (32 - 1) with 31 in *; change (64 - 1) with 63 in *;
  destruct (_ <=? a) eqn:E1, (_ <=? b) eqn:E2, (a <? b) eqn:E3; cbn [xorb];
  match goal with |- _ = ?x => destruct x eqn:E4 end; lia.
Qed.
