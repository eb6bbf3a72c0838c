(** Fields of instruction words, decoding of words built with "or". *)
Require Import ZArith List Bool Lia Zify ZifyBool.
From Verif Require Import Rv.RvLib Rv.RvBits Arm.ArmIsa.
Import ListNotations.
Open Scope Z_scope.
Ltac Zify.zify_post_hook ::= idtac.

Lemma fld_shl_out x s k l n : 0 <= x < 2 ^ k -> 0 <= k -> 0 <= s -> 0 <= l -> 0 <= n ->
  (s + k <= l \/ l + n <= s) -> fld (Z.shiftl x s) l n = 0.
Proof.
  intros Hx Hk Hs Hl Hn H. unfold fld. apply Z.bits_inj'. intros i Hi.
  rewrite Z.land_spec, Z.bits_0, Z.shiftr_spec, Z.shiftl_spec by lia.
  destruct (Z.lt_ge_cases i n) as [L|G].
  - destruct H as [H|H].
    + rewrite (small_bits_high x k) by lia. reflexivity.
    + rewrite Z.testbit_neg_r by lia. reflexivity.
  - rewrite Z.ones_spec_high by lia. apply andb_false_r.
Qed.
Lemma fld_shl_in x s k l n : 0 <= x < 2 ^ k -> 0 <= k -> 0 <= s -> 0 <= l -> 0 <= n ->
  l <= s -> s + k <= l + n -> fld (Z.shiftl x s) l n = Z.shiftl x (s - l).
Proof.
  intros Hx Hk Hs Hl Hn H1 H2. unfold fld. rewrite <- (Z.add_opp_r s l), <- Z.shiftl_shiftl by lia.
  rewrite Z.shiftl_opp_r. rewrite Z.land_ones by lia. apply Z.mod_small.
  rewrite <- Z.shiftl_opp_r, Z.shiftl_shiftl, Z.shiftl_mul_pow2 by lia.
  replace (s + - l) with (s - l) by lia.
  assert (P : 0 < 2 ^ (s - l)) by (apply Z.pow_pos_nonneg; lia).
  split; [nia|]. assert (2 ^ k * 2 ^ (s - l) <= 2 ^ n).
  { rewrite <- Z.pow_add_r by lia. apply Z.pow_le_mono_r; lia. }
  nia.
Qed.
Lemma fld_var_out x k l n : 0 <= x < 2 ^ k -> 0 <= k -> k <= l -> 0 <= n -> fld x l n = 0.
Proof. intros. rewrite <- (Z.shiftl_0_r x). apply fld_shl_out with k; lia. Qed.
Lemma fld_var_in x k n : 0 <= x < 2 ^ k -> 0 <= k -> k <= n -> fld x 0 n = x.
Proof. intros. rewrite <- (Z.shiftl_0_r x) at 1. rewrite (fld_shl_in x 0 k) by lia. apply Z.shiftl_0_r. Qed.
Lemma fld_0 l n : fld 0 l n = 0.
Proof. unfold fld. rewrite Z.shiftr_0_l. apply Z.land_0_l. Qed.
Lemma bit_fld w k : 0 <= k -> bit w k = (fld w k 1 =? 1).
Proof.
  intros Hk. unfold bit. rewrite fld_div by lia. rewrite <- Z.testbit_spec' by lia.
  destruct (Z.testbit w k); reflexivity.
Qed.

(** [bnd x] gives [k] for a hypothesis [0 <= x < 2^k] (with the power as a numeral). *)
Ltac bnd x := match goal with H : 0 <= x < ?B |- _ => let k := eval compute in (Z.log2 B) in k end.
Ltac fld1 :=
  match goal with
  | |- context [bit ?w ?k] => rewrite (bit_fld w k) by lia
  | |- context [fld ?x ?l ?n] =>
      lazymatch x with
      | Z.lor _ _ => rewrite fld_lor
      | Z.shiftl ?y ?s =>
          tryif is_var y then
            (let k := bnd y in
             first [ rewrite (fld_shl_out y s k l n) by lia | rewrite (fld_shl_in y s k l n) by lia ])
          else (let v := eval compute in (fld x l n) in change (fld x l n) with v)
      | _ =>
          tryif is_var x then
            (let k := bnd x in first [ rewrite (fld_var_out x k l n) by lia | rewrite (fld_var_in x k n) by lia ])
          else
            (let v := eval compute in (fld x l n) in change (fld x l n) with v)
      end
  end.
Ltac lor0 :=
  repeat match goal with
  | |- context [Z.lor ?a 0] => rewrite (Z.lor_0_r a)
  | |- context [Z.lor 0 ?a] => rewrite (Z.lor_0_l a)
  end.
Ltac flds := repeat fld1; lor0; rewrite ?Z.sub_diag, ?Z.shiftl_0_r; reflexivity.
(** Decode a word which is an "or" of a constant and bounded fields. *)
Ltac dec :=
  unfold decode; cbv zeta;
  repeat match goal with
  | |- (if ?c then _ else _) = _ =>
      first [ replace c with true by (symmetry; flds) | replace c with false by (symmetry; flds) ]; cbv iota
  end;
  flds.
