(** Operations in generated programs, and memory accesses byte by byte. *)
Require Import ZArith List Bool Lia Zify ZifyBool.
From Verif Require Import Rv.RvLib Rv.RvBits Rv.RvIsa Rv.RvEnc Rv.RvImm Rv.RvRun Rv.RvImmProofs Rv.RvCtl Rv.RvWf Rv.RvMem Rv.RvRunMem Rv.RvOp Rv.RvLir Rv.RvCanon Rv.RvMemProofs Rv.RvEmitOp Rv.RvEmitOp2 Rv.RvEmitOp1 Rv.RvLink Rv.RvLinkApi Rv.RvLinkSpec.
Import ListNotations.
Open Scope Z_scope.
Ltac Zify.zify_post_hook ::= idtac.

Lemma store_at n : forall m a v x, isw x -> Z.of_nat n < 2 ^ 64 ->
  store m a v n x = let i := wrap (x - a) in if i <? Z.of_nat n then (v / 256 ^ i) mod 256 else m x.
Proof.
  induction n; intros m a v x X N; cbn [store]; cbv zeta; assert (I := wrap_isw (x - a)); unfold isw in I.
  - destruct (wrap (x - a) <? Z.of_nat 0) eqn:E; [lia|reflexivity].
  - rewrite IHn by (auto; lia). cbv zeta. unfold updf. set (i := wrap (x - a)) in *.
    destruct (x =? wrap a) eqn:E.
    + assert (i = 0). { assert (E' : x = wrap a) by lia. unfold i. rewrite E'. unfold wrap. rewrite Zminus_mod_idemp_l, Z.sub_diag. reflexivity. }
      assert (W1 : wrap (x - (a + 1)) = 2 ^ 64 - 1).
      { replace (x - (a + 1)) with (x - a + -1) by lia. rewrite <- wrap_add_l. fold i. rewrite H. reflexivity. }
      assert (B : (wrap (x - (a + 1)) <? Z.of_nat n) = false) by (rewrite W1; lia). rewrite B, H. change (256 ^ 0) with 1. rewrite (Z.div_1_r v). destruct (0 <? Z.of_nat (S n)) eqn:?; [reflexivity|lia].
    + assert (i <> 0). { intros H. unfold i, wrap in H. apply Z.div_exact in H; [|lia]. assert (x - a = 2 ^ 64 * ((x - a) / 2 ^ 64)) by exact H.
        assert (wrap a = wrap x). { apply wrap_eq with (- ((x - a) / 2 ^ 64)). lia. } rewrite (wrap_small x) in H1 by auto. lia. }
      assert (W1 : wrap (x - (a + 1)) = i - 1).
      { replace (x - (a + 1)) with (x - a + -1) by lia. rewrite <- wrap_add_l. fold i. rewrite wrap_small; unfold isw; lia. }
      rewrite W1. destruct (i - 1 <? Z.of_nat n) eqn:?, (i <? Z.of_nat (S n)) eqn:?; try lia; auto.
      f_equal. rewrite Z.div_div by (try apply Z.pow_pos_nonneg; lia). f_equal. replace i with (1 + (i - 1)) at 2 by lia. rewrite Z.pow_add_r by lia. reflexivity.
Qed.

(** A fragment emitted in a program. *)
Lemma ok_in_program cf calls code eo g codef pos i e s P :
  program_at cf calls code eo g codef pos -> nth_error calls i = Some (KIns (flat e)) -> ok e s P -> isw (xaddr code eo (pos i)) -> isw (xaddr code eo (pos (S i))) ->
  pc s = xaddr code eo (pos i) -> exists s1, steps codef s (setpc s1 (xaddr code eo (pos (S i)))) /\ P s1.
Proof.
  intros (_ & _ & H) N (s1 & (_ & D) & HP) W0 W1 PC. destruct (H _ _ N) as (_ & _ & C & E). exists s1. split; auto.
  specialize (D codef (xaddr code eo (pos i)) W0 C). rewrite <- PC in D at 1. replace (setpc s (pc s)) with s in D by (destruct s; reflexivity).
  replace (xaddr code eo (pos (S i))) with (wrap (xaddr code eo (pos i) + 2 * Z.of_nat (length (units_of (flat e))))); auto.
  rewrite <- (wrap_small (xaddr code eo (pos (S i)))) by auto. f_equal. rewrite E. unfold xaddr. lia.
Qed.

(** Nothing but the destination changes: memory bytes outside of it and registers other than it keep their value. *)
Definition frame (s s' : mst) (m : nat) (d : arg) (w : Z) : Prop :=
  (forall q, visible q -> d <> AReg q -> rd s' q = rd s q) /\ fregs s' = fregs s /\
  (forall x, isw x -> match d with AMem b o => Z.of_nat m <= wrap (x - addr s b o w) | _ => True end -> mem s' x = mem s x).
Lemma dest_frame s s' m d w v : (m <= 8)%nat -> dest s s' m d w v -> frame s s' m d w.
Proof.
  intros M (F & D). unfold frame. destruct d as [r| |b o]; [|destruct D|].
  - destruct D as (_ & E & K). repeat split; auto. { intros q V N. apply K; auto. congruence. } intros. rewrite E. reflexivity.
  - destruct D as (E & K). repeat split; auto. intros x X H. rewrite E, store_at by (auto; lia). cbv zeta. destruct (_ <? _) eqn:?; [lia|reflexivity].
Qed.
Lemma size1_le k is32 : (size1 k is32 <= 8)%nat. Proof. destruct k, is32; cbn; lia. Qed.
Lemma load_sum m n : forall a, load m a n = fold_right (fun i v => m (wrap (a + Z.of_nat i)) mod 256 * 256 ^ Z.of_nat i + v) 0 (seq 0 n).
Proof.
  assert (G : forall n a j, 256 ^ Z.of_nat j * load m (a + Z.of_nat j) n = fold_right (fun i v => m (wrap (a + Z.of_nat i)) mod 256 * 256 ^ Z.of_nat i + v) 0 (seq j n)).
  { clear n. induction n; intros a j; cbn [load seq fold_right]. { lia. }
    rewrite <- (IHn a (S j)). rewrite Nat2Z.inj_succ, Z.pow_succ_r by lia. unfold Z.succ. rewrite Z.add_assoc. ring. }
  intros a. specialize (G n a 0%nat). cbn [Z.of_nat] in G. change (256 ^ 0) with 1 in G. rewrite Z.mul_1_l, Z.add_0_r in G. exact G.
Qed.
Lemma mval_low k a : is_move k = true -> mval k a mod 2 ^ (8 * Z.of_nat (size1 k false)) = a mod 2 ^ (8 * Z.of_nat (size1 k false)).
Proof.
  intros M. unfold mval. pose proof (mext_mod k a false M) as H. destruct k; try discriminate; cbn [mkind] in *; auto; cbn [size1]; apply Zmod_mod.
Qed.
