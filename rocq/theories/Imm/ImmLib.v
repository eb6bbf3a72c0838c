(** Registers as a function, runs of a processor, fields of instruction words. *)
Require Import ZArith List Bool Lia Zify ZifyBool.
From Verif Require Import Rv.RvLib Rv.RvBits.
Import ListNotations.
Open Scope Z_scope.
Ltac Zify.zify_post_hook ::= idtac.

(** A register file: the value of each register by its number. *)
Definition regs := Z -> Z.
Definition upd (f : regs) (a v : Z) : regs := fun x => if x =? a then v else f x.

(** Only register [r] has changed, and it holds [v]. *)
Definition only (s s' : regs) (r v : Z) : Prop := s' r = v /\ (forall k, k <> r -> s' k = s k).

Lemma only_upd s r v : only s (upd s r v) r v.
Proof.
  unfold only, upd. rewrite Z.eqb_refl. split; [reflexivity|].
  intros k Hk. replace (k =? r) with false by lia. reflexivity.
Qed.
Lemma only_trans s s' s'' r v w : only s s' r v -> only s' s'' r w -> only s s'' r w.
Proof. intros (A & B) (A' & B'). split; [auto|]. intros k Hk. rewrite B', B; auto. Qed.

(** The bytes, halfwords or words of the code by their address; [code_at n ws a code]: the code holds [ws] from [a], [n] addresses each. *)
Fixpoint code_at (n : Z) (ws : list Z) (a : Z) (code : Z -> Z) : Prop :=
  match ws with
  | [] => True
  | w :: tl => code (wrap a) = w /\ code_at n tl (a + n) code
  end.

Lemma code_at_app n us vs a code : code_at n (us ++ vs) a code <-> code_at n us a code /\ code_at n vs (a + n * Z.of_nat (length us)) code.
Proof.
  revert a. induction us as [|u us IH]; intros a; cbn [app code_at length].
  - replace (a + n * Z.of_nat 0) with a by lia. tauto.
  - rewrite IH. replace (a + n + n * Z.of_nat (length us)) with (a + n * Z.of_nat (S (length us))) by lia. tauto.
Qed.

(** Executions: any number of steps. *)
Section Runs.
  Context {C : Type}.
  Variable step : C -> option C.
  Inductive runs : C -> C -> Prop :=
  | runs_0 : forall c, runs c c
  | runs_S : forall c d e, step c = Some d -> runs d e -> runs c e.
  Lemma runs_trans c d e : runs c d -> runs d e -> runs c e.
  Proof. induction 1; auto. intros. econstructor; eauto. Qed.
  Lemma runs_1 c d : step c = Some d -> runs c d.
  Proof. intros. econstructor; eauto. constructor. Qed.
End Runs.

(** ** Fields *)
Lemma fld_shl_out x s k l n : 0 <= x < 2 ^ k -> 0 <= k -> 0 <= s -> 0 <= l -> 0 <= n ->
  (s + k <= l \/ l + n <= s) -> fld (Z.shiftl x s) l n = 0.
Proof.
  intros Hx Hk Hs Hl Hn H. unfold fld. apply Z.bits_inj'. intros i Hi.
  rewrite Z.land_spec, Z.bits_0, Z.shiftr_spec, Z.shiftl_spec by lia.
  destruct (Z.lt_ge_cases i n) as [L|G].
  - destruct H as [H|H].
    + rewrite (small_bits_high x k) by lia. reflexivity.
    + rewrite Z.testbit_neg_r by lia. reflexivity.
  - rewrite Z.ones_spec_high by lia. apply andb_false_r.
Qed.
Lemma fld_shl_in x s k l n : 0 <= x < 2 ^ k -> 0 <= k -> 0 <= s -> 0 <= l -> 0 <= n ->
  l <= s -> s + k <= l + n -> fld (Z.shiftl x s) l n = Z.shiftl x (s - l).
Proof.
  intros Hx Hk Hs Hl Hn H1 H2. unfold fld. rewrite <- (Z.add_opp_r s l), <- Z.shiftl_shiftl by lia.
  rewrite Z.shiftl_opp_r. rewrite Z.land_ones by lia. apply Z.mod_small.
  rewrite <- Z.shiftl_opp_r, Z.shiftl_shiftl, Z.shiftl_mul_pow2 by lia.
  replace (s + - l) with (s - l) by lia.
  assert (P : 0 < 2 ^ (s - l)) by (apply Z.pow_pos_nonneg; lia).
  split; [nia|]. assert (2 ^ k * 2 ^ (s - l) <= 2 ^ n).
  { rewrite <- Z.pow_add_r by lia. apply Z.pow_le_mono_r; lia. }
  nia.
Qed.
Lemma fld_var_out x k l n : 0 <= x < 2 ^ k -> 0 <= k -> k <= l -> 0 <= n -> fld x l n = 0.
Proof. intros. rewrite <- (Z.shiftl_0_r x). apply fld_shl_out with k; lia. Qed.
Lemma fld_var_in x k n : 0 <= x < 2 ^ k -> 0 <= k -> k <= n -> fld x 0 n = x.
Proof. intros. rewrite <- (Z.shiftl_0_r x) at 1. rewrite (fld_shl_in x 0 k) by lia. apply Z.shiftl_0_r. Qed.

(** [bnd x] gives [k] for a hypothesis [0 <= x < 2^k] (with the power as a numeral). *)
Ltac bnd x := match goal with H : 0 <= x < ?B |- _ => let k := eval compute in (Z.log2 B) in k end.
Ltac fld1 :=
  match goal with
  | |- context [fld ?x ?l ?n] =>
      lazymatch x with
      | Z.lor _ _ => rewrite fld_lor
      | Z.shiftl ?y ?s =>
          tryif is_var y then
            (let k := bnd y in
             first [ rewrite (fld_shl_out y s k l n) by lia | rewrite (fld_shl_in y s k l n) by lia ])
          else (let v := eval compute in (fld x l n) in change (fld x l n) with v)
      | _ =>
          tryif is_var x then
            (let k := bnd x in first [ rewrite (fld_var_out x k l n) by lia | rewrite (fld_var_in x k n) by lia ])
          else
            (let v := eval compute in (fld x l n) in change (fld x l n) with v)
      end
  end.
Ltac lor0 :=
  repeat match goal with
  | |- context [Z.lor ?a 0] => rewrite (Z.lor_0_r a)
  | |- context [Z.lor 0 ?a] => rewrite (Z.lor_0_l a)
  end.
Ltac flds := repeat fld1; lor0; rewrite ?Z.sub_diag, ?Z.shiftl_0_r; reflexivity.
(** Decode a word which is an "or" of a constant and bounded fields. *)
Ltac ifs :=
  cbv zeta;
  repeat match goal with
  | |- (if ?c then _ else _) = _ =>
      first [ replace c with true by (symmetry; flds) | replace c with false by (symmetry; flds) ]; cbv iota
  end;
  flds.

(** ** Arithmetic *)
Lemma lor_add a b s : 0 <= s -> 0 <= b < 2 ^ s -> Z.lor (a * 2 ^ s) b = a * 2 ^ s + b.
Proof. intros. symmetry. apply add_lor; auto. Qed.
Lemma pow_pos s : 0 <= s -> 0 < 2 ^ s.
Proof. intros. apply Z.pow_pos_nonneg; lia. Qed.
(** An "or" into the low bits, in a register. *)
Lemma lor_wrap_low a b s : 0 <= s <= 64 -> 0 <= b < 2 ^ s -> Z.lor (wrap (a * 2 ^ s)) b = wrap (a * 2 ^ s + b).
Proof.
  intros Hs Hb.
  assert (B : b = wrap b).
  { symmetry. apply wrap_small. unfold isw. assert (2 ^ s <= 2 ^ 64) by (apply Z.pow_le_mono_r; lia). lia. }
  rewrite B at 1. rewrite lor_wrap, lor_add by lia. reflexivity.
Qed.
Lemma shr_div a k : 0 <= k -> Z.shiftr a k = a / 2 ^ k.
Proof. apply Z.shiftr_div_pow2. Qed.

(** ** Masks *)
Lemma land_out x s k M : 0 <= x < 2 ^ k -> 0 <= k -> 0 <= s -> fld M s k = 0 -> Z.land (Z.shiftl x s) M = 0.
Proof.
  intros Hx Hk Hs E. apply Z.bits_inj'. intros i Hi. rewrite Z.land_spec, Z.bits_0, Z.shiftl_spec by lia.
  destruct (Z.lt_ge_cases i s) as [L|G]; [rewrite Z.testbit_neg_r by lia; reflexivity|].
  destruct (Z.lt_ge_cases (i - s) k) as [L|G2]; [|rewrite (small_bits_high x k) by lia; reflexivity].
  assert (T : Z.testbit (fld M s k) (i - s) = Z.testbit M i).
  { unfold fld. rewrite Z.land_spec, Z.shiftr_spec, Z.ones_spec_low by lia. rewrite andb_true_r. f_equal. lia. }
  rewrite E, Z.bits_0 in T. rewrite <- T. apply andb_false_r.
Qed.
Lemma land_keep x s k M : 0 <= x < 2 ^ k -> 0 <= k -> 0 <= s -> fld M s k = Z.ones k -> Z.land (Z.shiftl x s) M = Z.shiftl x s.
Proof.
  intros Hx Hk Hs E. apply Z.bits_inj'. intros i Hi. rewrite Z.land_spec, Z.shiftl_spec by lia.
  destruct (Z.lt_ge_cases i s) as [L|G]; [rewrite Z.testbit_neg_r by lia; reflexivity|].
  destruct (Z.lt_ge_cases (i - s) k) as [L|G2]; [|rewrite (small_bits_high x k) by lia; reflexivity].
  assert (T : Z.testbit (fld M s k) (i - s) = Z.testbit M i).
  { unfold fld. rewrite Z.land_spec, Z.shiftr_spec, Z.ones_spec_low by lia. rewrite andb_true_r. f_equal. lia. }
  rewrite E, Z.ones_spec_low in T by lia. rewrite <- T. apply andb_true_r.
Qed.
Lemma land_keep0 x k M : 0 <= x < 2 ^ k -> 0 <= k -> fld M 0 k = Z.ones k -> Z.land x M = x.
Proof. intros. rewrite <- (Z.shiftl_0_r x). apply land_keep with k; auto; lia. Qed.
Lemma land_out0 x k M : 0 <= x < 2 ^ k -> 0 <= k -> fld M 0 k = 0 -> Z.land x M = 0.
Proof. intros. rewrite <- (Z.shiftl_0_r x). apply land_out with k; auto; lia. Qed.
(** Masking a word which is an "or" of a constant and bounded fields. *)
Ltac mask1 :=
  match goal with
  | |- context [Z.land (Z.lor _ _) _] => rewrite Z.land_lor_distr_l
  | |- context [Z.land (Z.shiftl ?x ?s) ?M] => is_var x; let k := bnd x in
      first [ rewrite (land_out x s k M) by (reflexivity || lia) | rewrite (land_keep x s k M) by (reflexivity || lia) ]
  | |- context [Z.land ?x ?M] => is_var x; let k := bnd x in
      first [ rewrite (land_out0 x k M) by (reflexivity || lia) | rewrite (land_keep0 x k M) by (reflexivity || lia) ]
  | |- context [Z.land ?c ?M] => let v := eval compute in (Z.land c M) in change (Z.land c M) with v
  end.
Ltac masks := repeat mask1; lor0.
