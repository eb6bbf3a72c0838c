(** Bitwise facts. *)
Require Import ZArith List Bool Lia Zify ZifyBool.
From Verif Require Import Rv.RvLib.
Open Scope Z_scope.

Lemma tb_mul_pow2 a n k : 0 <= n -> Z.testbit (a * 2 ^ n) k = if k <? n then false else Z.testbit a (k - n).
Proof.
  intros Hn. destruct (k <? n) eqn:E.
  - apply Z.mul_pow2_bits_low. lia.
  - apply Z.mul_pow2_bits. lia.
Qed.
Lemma small_bits_high b n k : 0 <= b < 2 ^ n -> n <= k -> 0 <= n -> Z.testbit b k = false.
Proof.
  intros Hb Hk Hn. destruct (Z.eq_dec b 0) as [->|N]; [apply Z.bits_0|].
  apply Z.bits_above_log2; [lia|]. apply Z.lt_le_trans with n; [|lia]. apply Z.log2_lt_pow2; lia.
Qed.
Lemma land_parts0 n a b : 0 <= n -> 0 <= b < 2 ^ n -> Z.land (a * 2 ^ n) b = 0.
Proof.
  intros Hn Hb. apply Z.bits_inj'. intros i Hi. rewrite Z.land_spec, Z.bits_0, tb_mul_pow2 by lia.
  destruct (i <? n) eqn:C; [reflexivity|]. rewrite (small_bits_high b n i) by lia. apply andb_false_r.
Qed.
Lemma add_lor n a b : 0 <= n -> 0 <= b < 2 ^ n -> a * 2 ^ n + b = Z.lor (a * 2 ^ n) b.
Proof.
  intros Hn Hb. rewrite Z.add_nocarry_lxor by (apply land_parts0; auto).
  rewrite Z.lxor_lor by (apply land_parts0; auto). reflexivity.
Qed.
Lemma tb_parts n a b k : 0 <= n -> 0 <= b < 2 ^ n -> 0 <= k ->
  Z.testbit (a * 2 ^ n + b) k = if k <? n then Z.testbit b k else Z.testbit a (k - n).
Proof.
  intros Hn Hb Hk. rewrite add_lor by auto. rewrite Z.lor_spec, tb_mul_pow2 by lia.
  destruct (k <? n) eqn:C; [reflexivity|]. rewrite (small_bits_high b n k) by lia. apply orb_false_r.
Qed.

Lemma lxor_small n b d : 0 <= n -> 0 <= b < 2 ^ n -> 0 <= d < 2 ^ n -> 0 <= Z.lxor b d < 2 ^ n.
Proof.
  intros Hn Hb Hd. assert (0 <= Z.lxor b d) by (apply Z.lxor_nonneg; lia). split; auto.
  destruct (Z.eq_dec (Z.lxor b d) 0) as [->|N]; [lia|].
  apply Z.log2_lt_pow2; [lia|]. 
  destruct (Z.lt_ge_cases (Z.log2 (Z.lxor b d)) n) as [|G]; auto. exfalso.
  assert (T : Z.testbit (Z.lxor b d) (Z.log2 (Z.lxor b d)) = true) by (apply Z.bit_log2; lia).
  rewrite Z.lxor_spec, (small_bits_high b n), (small_bits_high d n) in T by lia. discriminate.
Qed.
Lemma land_small n b d : 0 <= n -> 0 <= b < 2 ^ n -> 0 <= d -> 0 <= Z.land b d < 2 ^ n.
Proof.
  intros Hn Hb Hd. assert (0 <= Z.land b d) by (apply Z.land_nonneg; lia). split; auto.
  assert (Z.land b d <= b); [|lia].
  pose proof (Z.ldiff_le (Z.land b d) b). assert (Z.ldiff (Z.land b d) b = 0). 2: lia.
  apply Z.bits_inj'. intros k Hk. rewrite Z.ldiff_spec, Z.land_spec, Z.bits_0. destruct (Z.testbit b k), (Z.testbit d k); reflexivity.
Qed.
Lemma lxor_parts n a b c d : 0 <= n -> 0 <= b < 2 ^ n -> 0 <= d < 2 ^ n ->
  Z.lxor (a * 2 ^ n + b) (c * 2 ^ n + d) = Z.lxor a c * 2 ^ n + Z.lxor b d.
Proof.
  intros Hn Hb Hd. apply Z.bits_inj'. intros k Hk.
  rewrite Z.lxor_spec, !tb_parts by (auto using lxor_small).
  destruct (k <? n); rewrite Z.lxor_spec; reflexivity.
Qed.
Lemma land_parts n a b c d : 0 <= n -> 0 <= b < 2 ^ n -> 0 <= d < 2 ^ n ->
  Z.land (a * 2 ^ n + b) (c * 2 ^ n + d) = Z.land a c * 2 ^ n + Z.land b d.
Proof.
  intros Hn Hb Hd. apply Z.bits_inj'. intros k Hk.
  rewrite Z.land_spec, !tb_parts by (auto using land_small; apply land_small; lia).
  destruct (k <? n); rewrite Z.land_spec; reflexivity.
Qed.

Lemma wrap_land x : wrap x = Z.land x (Z.ones 64).
Proof. unfold wrap. rewrite Z.land_ones by lia. reflexivity. Qed.
Lemma lxor_wrap a b : Z.lxor (wrap a) (wrap b) = wrap (Z.lxor a b).
Proof.
  rewrite !wrap_land. apply Z.bits_inj'. intros k Hk. rewrite !Z.lxor_spec, !Z.land_spec, Z.lxor_spec.
  destruct (Z.testbit a k), (Z.testbit b k), (Z.testbit (Z.ones 64) k); reflexivity.
Qed.
Lemma land_wrap a b : Z.land (wrap a) (wrap b) = wrap (Z.land a b).
Proof.
  rewrite !wrap_land. apply Z.bits_inj'. intros k Hk. rewrite !Z.land_spec.
  destruct (Z.testbit a k), (Z.testbit b k), (Z.testbit (Z.ones 64) k); reflexivity.
Qed.
Lemma lor_wrap a b : Z.lor (wrap a) (wrap b) = wrap (Z.lor a b).
Proof.
  rewrite !wrap_land. apply Z.bits_inj'. intros k Hk. rewrite !Z.lor_spec, !Z.land_spec, Z.lor_spec.
  destruct (Z.testbit a k), (Z.testbit b k), (Z.testbit (Z.ones 64) k); reflexivity.
Qed.

(** Masks. *)
Lemma land_mask x k n m : 0 <= k -> 0 <= n -> m = (2 ^ n - 1) * 2 ^ k -> Z.land x m = (x / 2 ^ k) mod 2 ^ n * 2 ^ k.
Proof.
  intros Hk Hn ->. replace (2 ^ n - 1) with (Z.ones n) by (rewrite Z.ones_equiv; lia).
  pose proof (Z.div_mod x (2 ^ k)) as D. assert (P : 0 < 2 ^ k) by (apply Z.pow_pos_nonneg; lia).
  pose proof (Z.mod_pos_bound x (2 ^ k) P).
  replace x with (x / 2 ^ k * 2 ^ k + x mod 2 ^ k) at 1 by lia.
  replace (Z.ones n * 2 ^ k) with (Z.ones n * 2 ^ k + 0) by lia.
  rewrite land_parts by lia. rewrite Z.land_0_r, Z.land_ones by lia. lia.
Qed.
Lemma land_bit x k m : 0 <= k -> m = 2 ^ k -> Z.land x m = (x / 2 ^ k) mod 2 * 2 ^ k.
Proof. intros Hk ->. apply (land_mask x k 1); lia. Qed.
Lemma land_low x n m : 0 <= n -> m = 2 ^ n - 1 -> Z.land x m = x mod 2 ^ n.
Proof. intros Hn ->. rewrite (land_mask x 0 n) by lia. rewrite Z.pow_0_r, Z.div_1_r, Z.mul_1_r. reflexivity. Qed.
Lemma land_lnot_low x n m : 0 <= n -> m = - 2 ^ n -> Z.land x m = x / 2 ^ n * 2 ^ n.
Proof.
  intros Hn ->. pose proof (Z.div_mod x (2 ^ n)) as D. assert (P : 0 < 2 ^ n) by (apply Z.pow_pos_nonneg; lia).
  pose proof (Z.mod_pos_bound x (2 ^ n) P).
  replace x with (x / 2 ^ n * 2 ^ n + x mod 2 ^ n) at 1 by lia.
  replace (- 2 ^ n) with (-1 * 2 ^ n + 0) by lia.
  rewrite land_parts by lia. rewrite Z.land_0_r, Z.land_m1_r. lia.
Qed.

(** Sign tests of the form (x & 0x800) != 0. *)
Lemma bit_test x k m : 0 <= k -> m = 2 ^ k -> (Z.land x m =? 0) = (x mod 2 ^ (k + 1) <? 2 ^ k).
Proof.
  intros Hk E. rewrite (land_bit x k m Hk E). assert (P : 0 < 2 ^ k) by (apply Z.pow_pos_nonneg; lia).
  rewrite Z.pow_add_r by lia. change (2 ^ 1) with 2. rewrite Z.rem_mul_r by lia.
  pose proof (Z.mod_pos_bound x (2 ^ k) P). pose proof (Z.mod_pos_bound (x / 2 ^ k) 2 ltac:(lia)).
  destruct (Z.eq_dec ((x / 2 ^ k) mod 2) 0) as [->|N]; [rewrite Z.mul_0_l; lia|].
  assert (E1 : (x / 2 ^ k) mod 2 = 1) by lia. rewrite E1. lia.
Qed.

(** h << 12 xor a sign extended 12 bit immediate. *)
Lemma sext_split n x : 1 <= n -> sext n x = (if x mod 2 ^ n <? 2 ^ (n - 1) then 0 else -1) * 2 ^ n + x mod 2 ^ n.
Proof. intros. unfold sext. cbv zeta. destruct (x mod 2 ^ n <? 2 ^ (n - 1)); lia. Qed.
Lemma lxor_sext n h x : 1 <= n ->
  Z.lxor (h * 2 ^ n) (sext n x) = (if x mod 2 ^ n <? 2 ^ (n - 1) then h else Z.lnot h) * 2 ^ n + x mod 2 ^ n.
Proof.
  intros Hn. assert (P : 0 < 2 ^ n) by (apply Z.pow_pos_nonneg; lia). pose proof (Z.mod_pos_bound x (2 ^ n) P).
  rewrite sext_split by lia. replace (h * 2 ^ n) with (h * 2 ^ n + 0) by lia.
  rewrite lxor_parts by lia. rewrite Z.lxor_0_l.
  destruct (x mod 2 ^ n <? 2 ^ (n - 1)); [rewrite Z.lxor_0_r|rewrite Z.lxor_m1_r]; reflexivity.
Qed.
