(** Machine words as integers: wrap-around, sign extension, bit fields. *)
Require Import ZArith List Bool Lia Zify ZifyBool.
Import ListNotations.
Open Scope Z_scope.

(** The value of a 64 bit register: 0 <= x < 2^64. *)
Definition wrap (x : Z) : Z := x mod 2 ^ 64.
(** The signed value of the low [n] bits. *)
Definition sext (n x : Z) : Z := let y := x mod 2 ^ n in if y <? 2 ^ (n - 1) then y else y - 2 ^ n.
(** Low [n] bits, zero extended. *)
Definition zext (n x : Z) : Z := x mod 2 ^ n.
(** The signed reading of a register. *)
Definition sgn (x : Z) : Z := sext 64 x.
(** The low 32 bits, sign extended to a register. *)
Definition sx32 (x : Z) : Z := wrap (sext 32 x).
Definition isw (x : Z) : Prop := 0 <= x < 2 ^ 64.

(** [n] bits from bit [lo]. *)
Definition fld (w lo n : Z) : Z := Z.land (Z.shiftr w lo) (Z.ones n).

Lemma fld_lor a b lo n : fld (Z.lor a b) lo n = Z.lor (fld a lo n) (fld b lo n).
Proof. unfold fld. rewrite Z.shiftr_lor, Z.land_lor_distr_l. reflexivity. Qed.
Lemma fld_div w lo n : 0 <= lo -> 0 <= n -> fld w lo n = (w / 2 ^ lo) mod 2 ^ n.
Proof. intros. unfold fld. rewrite Z.shiftr_div_pow2, Z.land_ones; auto. Qed.

Lemma wrap_isw x : isw (wrap x).
Proof. unfold isw, wrap. apply Z.mod_pos_bound. lia. Qed.
Lemma wrap_small x : isw x -> wrap x = x.
Proof. unfold isw, wrap. apply Z.mod_small. Qed.
Lemma wrap_wrap x : wrap (wrap x) = wrap x.
Proof. apply wrap_small, wrap_isw. Qed.
Lemma wrap_eq x y k : x = y + k * 2 ^ 64 -> wrap x = wrap y.
Proof. intros ->. unfold wrap. apply Z_mod_plus_full. Qed.
Lemma wrap_add_l x y : wrap (wrap x + y) = wrap (x + y).
Proof. unfold wrap. apply Zplus_mod_idemp_l. Qed.
Lemma wrap_add_r x y : wrap (x + wrap y) = wrap (x + y).
Proof. unfold wrap. apply Zplus_mod_idemp_r. Qed.
Lemma wrap_sub_l x y : wrap (wrap x - y) = wrap (x - y).
Proof. unfold wrap. apply Zminus_mod_idemp_l. Qed.
Lemma wrap_sub_r x y : wrap (x - wrap y) = wrap (x - y).
Proof. unfold wrap. apply Zminus_mod_idemp_r. Qed.
Lemma wrap_mul_l x y : wrap (wrap x * y) = wrap (x * y).
Proof. unfold wrap. apply Zmult_mod_idemp_l. Qed.
Lemma wrap_mul_r x y : wrap (x * wrap y) = wrap (x * y).
Proof. unfold wrap. apply Zmult_mod_idemp_r. Qed.

Lemma sext_range n x : 1 <= n -> - 2 ^ (n - 1) <= sext n x < 2 ^ (n - 1).
Proof.
  intros Hn. unfold sext. pose proof (Z.mod_pos_bound x (2 ^ n)).
  assert (E : 2 ^ n = 2 * 2 ^ (n - 1)). { rewrite <- Z.pow_succ_r by lia. f_equal. lia. }
  assert (0 < 2 ^ (n - 1)) by (apply Z.pow_pos_nonneg; lia).
  cbv zeta. destruct (x mod 2 ^ n <? 2 ^ (n - 1)) eqn:C; [apply Z.ltb_lt in C|apply Z.ltb_ge in C]; lia.
Qed.
Lemma sext_mod n x : 1 <= n -> exists k, x = sext n x + k * 2 ^ n.
Proof.
  intros Hn. unfold sext. cbv zeta.
  assert (0 < 2 ^ n) by (apply Z.pow_pos_nonneg; lia).
  pose proof (Z.div_mod x (2 ^ n)).
  destruct (x mod 2 ^ n <? 2 ^ (n - 1)); [exists (x / 2 ^ n)|exists (x / 2 ^ n + 1)]; lia.
Qed.
Lemma sext_unique n x y k : 1 <= n -> - 2 ^ (n - 1) <= y < 2 ^ (n - 1) -> x = y + k * 2 ^ n -> sext n x = y.
Proof.
  intros Hn Hy E. destruct (sext_mod n x Hn) as (k' & E'). pose proof (sext_range n x Hn).
  assert (E2 : 2 ^ n = 2 * 2 ^ (n - 1)). { rewrite <- Z.pow_succ_r by lia. f_equal. lia. }
  assert (0 < 2 ^ (n - 1)) by (apply Z.pow_pos_nonneg; lia).
  rewrite E2 in *. assert (k = k') by nia. subst. lia.
Qed.
Lemma sext_small n y : 1 <= n -> - 2 ^ (n - 1) <= y < 2 ^ (n - 1) -> sext n y = y.
Proof. intros. apply sext_unique with 0; lia. Qed.

Lemma wrap_sgn x : isw x -> wrap (sgn x) = x.
Proof.
  intros H. destruct (sext_mod 64 x ltac:(lia)) as (k & E). fold (sgn x) in E.
  rewrite <- (wrap_small x H) at 2. symmetry. apply wrap_eq with k. lia.
Qed.
Lemma sgn_wrap x : - 2 ^ 63 <= x < 2 ^ 63 -> sgn (wrap x) = x.
Proof.
  intros H. unfold sgn. unfold wrap. pose proof (Z.div_mod x (2 ^ 64)).
  apply sext_unique with (- (x / 2 ^ 64)); lia.
Qed.
Lemma sx32_isw x : isw (sx32 x). Proof. apply wrap_isw. Qed.
Lemma sgn_sx32 x : sgn (sx32 x) = sext 32 x.
Proof. unfold sx32. apply sgn_wrap. pose proof (sext_range 32 x ltac:(lia)). lia. Qed.
Lemma sext_eq n x y k : 1 <= n -> x = y + k * 2 ^ n -> sext n x = sext n y.
Proof.
  intros Hn E. destruct (sext_mod n y Hn) as (k' & E'). apply sext_unique with (k + k'); auto.
  - apply sext_range; auto. - lia.
Qed.
Lemma sx32_eq x y k : x = y + k * 2 ^ 32 -> sx32 x = sx32 y.
Proof. intros. unfold sx32. f_equal. apply sext_eq with k; auto; lia. Qed.
Lemma sx32_sx32 x : sx32 (sx32 x) = sx32 x.
Proof.
  unfold sx32. unfold wrap at 2. destruct (sext_mod 32 x ltac:(lia)) as (k & E).
  f_equal. pose proof (Z.div_mod (sext 32 x) (2 ^ 64)) as D.
  transitivity (sext 32 (sext 32 x)).
  - apply sext_eq with (- (sext 32 x / 2 ^ 64) * 2 ^ 32); lia.
  - apply sext_small; [lia|]. apply (sext_range 32 x). lia.
Qed.
Lemma sx32_wrap x : sx32 (wrap x) = sx32 x.
Proof. pose proof (Z.div_mod x (2 ^ 64)). unfold wrap. apply sx32_eq with (- (x / 2 ^ 64) * 2 ^ 32); lia. Qed.
