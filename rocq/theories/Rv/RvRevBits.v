(** Bytes and bits of words. *)
Require Import ZArith List Bool Lia Zify ZifyBool.
From Verif Require Import Rv.RvLib Rv.RvBits Rv.RvIsa Rv.RvEnc Rv.RvImm Rv.RvRun Rv.RvImmProofs Rv.RvCtl Rv.RvWf Rv.RvMem Rv.RvRunMem Rv.RvOp Rv.RvLir Rv.RvCanon Rv.RvOpLib Rv.RvSx.
Import ListNotations.
Open Scope Z_scope.
Ltac Zify.zify_post_hook ::= idtac.

(** ** Bits *)
Lemma tb_wrap x i : 0 <= i < 64 -> Z.testbit (wrap x) i = Z.testbit x i.
Proof. intros. unfold wrap. apply Z.mod_pow2_bits_low. lia. Qed.
Lemma tb_div x k i : 0 <= i -> 0 <= k -> Z.testbit (x / 2 ^ k) i = Z.testbit x (i + k).
Proof. intros. apply Z.div_pow2_bits; lia. Qed.
Lemma tb_mod x n i : 0 <= i -> 0 <= n -> Z.testbit (x mod 2 ^ n) i = (i <? n) && Z.testbit x i.
Proof.
  intros. destruct (i <? n) eqn:E; cbn [andb]. { apply Z.mod_pow2_bits_low. lia. } apply Z.mod_pow2_bits_high. lia.
Qed.
Lemma tb_byte x i j : 0 <= i -> 0 <= j -> Z.testbit (byte x i) j = (j <? 8) && Z.testbit x (j + 8 * i).
Proof. intros. unfold byte. change 256 with (2 ^ 8). rewrite tb_mod, tb_div by lia. reflexivity. Qed.
Lemma rev_bytes_lt m x : 0 <= rev_bytes m x < 2 ^ (8 * Z.of_nat m).
Proof.
  revert x. induction m as [|m IH]; intros x; cbn [rev_bytes]. { cbn. lia. }
  specialize (IH (x / 256)). rewrite Nat2Z.inj_succ. replace (8 * Z.succ (Z.of_nat m)) with (8 + 8 * Z.of_nat m) by lia.
  rewrite Z.pow_add_r by lia. unfold byte. pose proof (Z.mod_pos_bound (x / 2 ^ (8 * 0)) 256 ltac:(lia)). change (2 ^ 8) with 256. nia.
Qed.
Lemma tb_rev m : forall x i, 0 <= i < 8 * Z.of_nat m ->
  Z.testbit (rev_bytes m x) i = Z.testbit x (8 * (Z.of_nat m - 1 - i / 8) + i mod 8).
Proof.
  induction m as [|m IH]; intros x i Hi; [lia|]. cbn [rev_bytes]. rewrite Nat2Z.inj_succ in *.
  rewrite add_lor by (try apply rev_bytes_lt; lia). rewrite Z.lor_spec, tb_mul_pow2 by lia.
  replace (Z.succ (Z.of_nat m) - 1 - i / 8) with (Z.of_nat m - i / 8) by lia.
  pose proof (Z.div_mod i 8 ltac:(lia)). pose proof (Z.mod_pos_bound i 8 ltac:(lia)).
  destruct (i <? 8 * Z.of_nat m) eqn:E; cbn [orb].
  - rewrite IH by lia. change 256 with (2 ^ 8). rewrite tb_div by lia. f_equal. lia.
  - rewrite tb_byte by lia. rewrite (small_bits_high (rev_bytes m (x / 256)) (8 * Z.of_nat m)) by (try apply rev_bytes_lt; lia).
    rewrite orb_false_r. replace (i - 8 * Z.of_nat m <? 8) with true by lia. cbn [andb]. f_equal. lia.
Qed.
Lemma tb_high_isw x i : isw x -> 64 <= i -> Z.testbit x i = false.
Proof. intros. apply (small_bits_high x 64); auto. lia. Qed.
Lemma byte_shift x i : 0 <= i -> byte (x / 256) i = byte x (i + 1).
Proof.
  intros. unfold byte. change 256 with (2 ^ 8) at 1. rewrite Z.div_div by (try apply Z.pow_pos_nonneg; try apply Z.pow_nonzero; lia).
  rewrite <- Z.pow_add_r by lia. f_equal. f_equal. f_equal. lia.
Qed.
Lemma rev8_rev x : rev8 x = rev_bytes 8 x.
Proof.
  unfold rev8. cbn [fold_left].
  fold (byte x 0) (byte x 1) (byte x 2) (byte x 3) (byte x 4) (byte x 5) (byte x 6) (byte x 7).
  cbn [rev_bytes]. rewrite !byte_shift by lia. cbn [Z.add Pos.add Pos.succ].
  generalize (byte x 0) (byte x 1) (byte x 2) (byte x 3) (byte x 4) (byte x 5) (byte x 6) (byte x 7). intros.
  change (2 ^ (8 * Z.of_nat 7)) with (256 * 256 * 256 * 256 * 256 * 256 * 256). change (2 ^ (8 * Z.of_nat 6)) with (256 * 256 * 256 * 256 * 256 * 256).
  change (2 ^ (8 * Z.of_nat 5)) with (256 * 256 * 256 * 256 * 256). change (2 ^ (8 * Z.of_nat 4)) with (256 * 256 * 256 * 256).
  change (2 ^ (8 * Z.of_nat 3)) with (256 * 256 * 256). change (2 ^ (8 * Z.of_nat 2)) with (256 * 256). change (2 ^ (8 * Z.of_nat 1)) with 256.
  change (2 ^ (8 * Z.of_nat 0)) with 1. ring.
Qed.
Definition upto64 : list Z := map Z.of_nat (seq 0 64).
Lemma bits64 x y : isw x -> isw y -> (forall i, In i upto64 -> Z.testbit x i = Z.testbit y i) -> x = y.
Proof.
  intros Hx Hy H. apply Z.bits_inj'. intros i Hi. destruct (Z.lt_ge_cases i 64).
  - apply H. unfold upto64. apply in_map_iff. exists (Z.to_nat i). split; [lia|]. apply in_seq. lia.
  - rewrite !tb_high_isw by auto. reflexivity.
Qed.
Lemma rev_isw m x : (m <= 8)%nat -> isw (rev_bytes m x).
Proof.
  intros. pose proof (rev_bytes_lt m x). unfold isw. split; [lia|]. eapply Z.lt_le_trans; [apply H0|]. apply Z.pow_le_mono_r; lia.
Qed.
Lemma tb_rev_high m x i : 8 * Z.of_nat m <= i -> Z.testbit (rev_bytes m x) i = false.
Proof. intros. apply (small_bits_high _ (8 * Z.of_nat m)); auto; [apply rev_bytes_lt|lia]. Qed.

Ltac numb := repeat match goal with
  | |- context [Z.testbit (Zpos ?p) ?i] => let b := eval vm_compute in (Z.testbit (Zpos p) i) in change (Z.testbit (Zpos p) i) with b
  | |- context [?a <? ?b] => let c := eval vm_compute in (a <? b) in match c with true => idtac | false => idtac end; change (a <? b) with c
  | |- context [Z.testbit ?x (?a + ?b)] => let c := eval vm_compute in (a + b) in change (Z.testbit x (a + b)) with (Z.testbit x c)
  | |- context [Z.testbit ?x (?a - ?b)] => let c := eval vm_compute in (a - b) in change (Z.testbit x (a - b)) with (Z.testbit x c)
  end.
Ltac bit1 :=
  match goal with
  | |- context [Z.testbit (Z.lor _ _) _] => rewrite Z.lor_spec
  | |- context [Z.testbit (Z.land _ _) _] => rewrite Z.land_spec
  | |- context [Z.testbit (wrap ?v) ?i] => first [ rewrite (tb_wrap v i) by lia | rewrite (tb_high_isw (wrap v) i (wrap_isw v)) by lia ]
  | |- context [Z.testbit (_ * 2 ^ _) _] => rewrite tb_mul_pow2 by lia
  | |- context [Z.testbit (_ / 2 ^ _) _] => rewrite tb_div by lia
  | |- context [Z.testbit (_ mod 2 ^ _) _] => rewrite tb_mod by lia
  | |- context [Z.testbit (sext _ _) _] => rewrite sext_bit by lia
  | |- context [Z.testbit (rev_bytes ?m ?x) ?i] =>
    let c := eval vm_compute in (8 * (Z.of_nat m - 1 - i / 8) + i mod 8) in
    first [ replace (Z.testbit (rev_bytes m x) i) with (Z.testbit x c) by (symmetry; apply (tb_rev m x i); cbn; lia)
          | rewrite (tb_rev_high m x i) by (cbn; lia) ]
  | H : isw ?v |- context [Z.testbit ?v (Zpos ?k)] => let b := eval vm_compute in (64 <=? Zpos k) in match b with true => rewrite (tb_high_isw v (Zpos k) H) by lia end
  end; numb; cbv iota; cbn [andb orb].
Ltac bits := repeat bit1; rewrite ?andb_true_r, ?andb_false_r, ?orb_false_r; first [reflexivity | repeat (match goal with |- context [Z.testbit ?v ?i] => destruct (Z.testbit v i) end); reflexivity].
Ltac bits_all := intros bi HB; unfold upto64 in HB; cbn [map seq Z.of_nat Pos.of_succ_nat Pos.succ] in HB;
  repeat (destruct HB as [<-|HB]; [bits|]); contradiction.

Ltac isws := repeat first [apply land_isw | apply lor_isw | apply wrap_isw | apply div_isw | apply rev_isw | assumption | lia | (unfold isw; lia)].
