(** Shifts and rotations. *)
Require Import ZArith List Bool Lia Zify ZifyBool.
From Verif Require Import Rv.RvLib Rv.RvBits Rv.RvIsa Rv.RvEnc Rv.RvImm Rv.RvRun Rv.RvImmProofs Rv.RvCtl Rv.RvWf Rv.RvMem Rv.RvRunMem Rv.RvOp Rv.RvLir Rv.RvCanon Rv.RvOpLib Rv.RvSx.
Import ListNotations.
Open Scope Z_scope.
Ltac Zify.zify_post_hook ::= idtac.


Lemma Zmod_opp_mod_aux b n : (- (b mod n)) mod n = (- b) mod n.
Proof. rewrite <- (Z.sub_0_l b), Zminus_mod, <- (Z.sub_0_l (b mod n)), Zminus_mod, Zmod_mod. reflexivity. Qed.
Lemma mod_neg_aux b n : 0 < n -> (- b) mod n = (n - b mod n) mod n.
Proof.
  intros. rewrite <- (Z.sub_0_l b), Zminus_mod. rewrite (Zminus_mod n), Z_mod_same_full, Zmod_0_l, Zmod_mod. reflexivity.
Qed.
Lemma mod_neg_aux2 b n : 0 < n -> b mod n = (- ((n - b mod n) mod n)) mod n.
Proof.
  intros. rewrite <- mod_neg_aux by auto. rewrite Zmod_opp_mod_aux, Z.opp_involutive. reflexivity.
Qed.

(** ** Rotations *)
Lemma rot_or f a k : 0 <= a < 2 ^ nbits f -> 0 <= k < nbits f ->
  canon (nbits f) (Z.lor (a * 2 ^ k) (a / 2 ^ ((- k) mod nbits f))) = canon (nbits f) (rot_left (nbits f) a k).
Proof.
  intros Ha Hk. set (n := nbits f) in *. unfold rot_left. destruct (Z.eq_dec k 0) as [->|Nk].
  - change (- 0) with 0. rewrite Zmod_0_l. change (2 ^ 0) with 1. rewrite Z.mul_1_r, Z.div_1_r, Z.lor_diag, Z.sub_0_r.
    rewrite Z.mod_small, Z.div_small, Z.add_0_r by auto. reflexivity.
  - replace ((- k) mod n) with (n - k) by (apply Z.mod_unique with (-1); lia).
    assert (P : 0 < 2 ^ (n - k)) by (apply Z.pow_pos_nonneg; lia).
    assert (E : 2 ^ n = 2 ^ (n - k) * 2 ^ k) by (rewrite <- Z.pow_add_r by lia; f_equal; lia).
    assert (D : 0 <= a / 2 ^ (n - k) < 2 ^ k).
    { split. { apply Z.div_pos; lia. } apply Z.div_lt_upper_bound; lia. }
    rewrite <- add_lor by (auto; lia). apply canon_cong. fold n. rewrite (Zplus_mod (_ mod _)), Zmod_mod, <- Zplus_mod. reflexivity.
Qed.
Lemma rotl_canon f a k : 0 <= a < 2 ^ nbits f -> 0 <= k < nbits f ->
  canon (nbits f) (rotl (nbits f) a k) = canon (nbits f) (rot_left (nbits f) a k).
Proof.
  intros Ha Hk. unfold rotl, rot_left. apply canon_cong. rewrite Zmod_mod, (Zplus_mod ((_ * _) mod _)), Zmod_mod, <- Zplus_mod. reflexivity.
Qed.
Lemma rotr_canon f a k : 0 <= a < 2 ^ nbits f -> 0 <= k < nbits f ->
  canon (nbits f) (rotr (nbits f) a k) = canon (nbits f) (rot_left (nbits f) a ((nbits f - k) mod nbits f)).
Proof.
  intros Ha Hk. unfold rotr. destruct (k =? 0) eqn:E.
  - assert (k = 0) by lia. subst. rewrite Z.sub_0_r, Z_mod_same_full. unfold rot_left. rewrite Z.sub_0_r. change (2 ^ 0) with 1.
    rewrite Z.mul_1_r, Z.mod_small, Z.div_small, Z.add_0_r by auto. reflexivity.
  - rewrite (Z.mod_small (nbits f - k)) by lia. apply rotl_canon; lia.
Qed.

Section X.
Variables (s : mst) (P : mst -> Prop) (f : bool) (d r q a : Z).
Notation n := (nbits f).
Hypotheses (Hd : vreg d) (Hr : vreg r) (Hq : vreg q) (Va : rd s r = canon n a) (Ba : 0 <= a < 2 ^ n).
Lemma x_ROL : P (wr s d (canon n (rot_left n a (rd s q mod n)))) -> ok (E32 (ROL .| wd f .| RD d .| RS1 r .| RS2 q)) s P.
Proof.
  pose proof (canon_mod f a) as M. rewrite (Z.mod_small a) in M by auto.
  assert (K : 0 <= rd s q mod n < n) by (apply Z.mod_pos_bound; destruct f; cbn; lia).
  rewrite <- rotl_canon by auto. revert Va Ba M K. destruct f; cbn [wd nbits]; intros Va' Ba' M K H.
  - apply (x_RW _ _ (ROL .| 8) Rolw); auto. cbn [aluw]. unfold zext. rewrite Va', M. exact H.
  - apply (x_R _ _ (ROL .| 0) Rol); auto. cbn [alu]. rewrite Va'. rewrite canon64, wrap_small by auto.
    rewrite canon64, wrap_small in H; auto. apply rotl_isw; lia.
Qed.
Lemma x_ROR : P (wr s d (canon n (rot_left n a ((n - rd s q mod n) mod n)))) -> ok (E32 (ROR .| wd f .| RD d .| RS1 r .| RS2 q)) s P.
Proof.
  pose proof (canon_mod f a) as M. rewrite (Z.mod_small a) in M by auto.
  assert (K : 0 <= rd s q mod n < n) by (apply Z.mod_pos_bound; destruct f; cbn; lia).
  rewrite <- rotr_canon by auto. revert Va Ba M K. destruct f; cbn [wd nbits]; intros Va' Ba' M K H.
  - apply (x_RW _ _ (ROR .| 8) Rorw); auto. cbn [aluw]. unfold zext. rewrite Va', M. exact H.
  - apply (x_R _ _ (ROR .| 0) Ror); auto. cbn [alu]. rewrite Va'. rewrite canon64, wrap_small by auto.
    rewrite canon64, wrap_small in H; auto. apply rotr_isw; auto; lia.
Qed.
Lemma x_RORI k : 0 <= k < n -> P (wr s d (canon n (rot_left n a ((n - k) mod n)))) -> ok (E32 (RORI .| wd f .| RD d .| RS1 r .| IMM_I k)) s P.
Proof.
  pose proof (canon_mod f a) as M. rewrite (Z.mod_small a) in M by auto. intros K.
  rewrite <- rotr_canon by auto. revert Va Ba M K. destruct f; cbn [wd nbits]; intros Va' Ba' M K H.
  - apply (x_ShW _ _ (RORI .| 8) Roriw); auto. cbn [alush]. unfold zext. rewrite Va', M. exact H.
  - apply (x_Sh _ _ (RORI .| 0) Rori); auto. cbn [alush]. rewrite Va'. rewrite canon64, wrap_small by auto.
    rewrite canon64, wrap_small in H; auto. apply rotr_isw; auto; lia.
Qed.
End X.

Section S2.
Variables (c : cfg) (o : op) (u : bool) (dst src1 src2 : Z) (s : mst) (a b : Z).
Notation f := (f32 o).
Notation n := (nbits (f32 o)).
Notation N := (2 ^ nbits (f32 o)).
Hypothesis W : wf s.
Hypothesis Hd : dreg dst.
Hypothesis H1 : s1reg src1.
Hypothesis Va : rd s src1 = canon n a.
Hypothesis Ba : 0 <= a < N.
Hypothesis Bb : 0 <= b < N.
Notation post := (post2 o u dst s).
Notation opn i2 := (opnd s (f32 o) i2 src2 b).
Ltac go := RvSx.go (f32 o).
Ltac prep := RvSx.prep o.

(** The amount of a shift or rotation. *)
Definition opsh (i2 : bool) : Prop := if i2 then 0 < src2 < n /\ b = src2 else s2reg src2 /\ rd s src2 = canon n b.
Ltac shn := rewrite ?canon_mul_l, ?canon_mod_n, ?sext_canon, ?(modN f a) by auto.

Lemma so_shl_ok i2 : opsh i2 -> vf o = VNone -> ok (so_shift c o i2 u SLLI SLL dst src1 src2) s (post (a * 2 ^ (b mod n)) false).
Proof.
  intros O V. unfold opsh in O. destruct (nb f) as (Nb1 & Nb2 & Nb3). prep.
  destruct i2.
  - destruct O as (R2 & Eb). rewrite Eb, (Z.mod_small src2) by lia. set (P := post _ _).
    assert (F : forall s1, rd s1 src1 = canon n a -> P (wr s1 dst (canon n (a * 2 ^ src2))) ->
      ok (if cC c && (wd f =? 0) && (dst =? src1) && (SLLI =? SLLI) then E16 (C_SLLI .| C_RD dst .| C_IMM_I src2)
       else if cC c && (wd f =? 0) && (dst =? src1) && C_IS_R3 dst
       then E16 ((if SLLI =? SRLI then C_SRLI else C_SRAI) .| C_RS1_R3 dst .| C_IMM_I src2)
       else E32 (SLLI .| wd f .| RD dst .| RS1 src1 .| IMM_I src2)) s1 P).
    { intros s1 V1 H. change (SLLI =? SLLI) with true. rewrite andb_true_r. destruct (cC c && (wd f =? 0) && (dst =? src1)) eqn:E; cbn [andb].
      - assert (E1 : dst = src1) by lia. apply x_C_SLLI; [vl|lia|]. rewrite E1 at 2. rewrite V1.
        destruct f; cbn [wd nbits] in *; [lia|]. rewrite <- canon64, (canon_mul_l false). auto.
      - apply x_SLLI; [vl|vl|lia|]. rewrite V1. shn. auto. }
    destruct (setz o) eqn:EZ, u eqn:EU; cbn [negb ifE].
    + go. shn. subst P; fin.
    + apply ok_then. sx1 (f32 o). shn. cn (f32 o). shn. apply F. { rdw. auto. } subst P; fin.
    + repeat sx1 (f32 o). subst P; fin.
    + apply ok_then. apply ok_nop. apply F; auto. subst P; fin.
  - destruct O as (R2 & E2). set (P := post _ _). destruct (setz o) eqn:EZ, u eqn:EU; go; shn; subst P; fin.
Qed.
Lemma so_lshr_ok i2 : opsh i2 -> vf o = VNone -> ok (so_shift c o i2 u SRLI SRL dst src1 src2) s (post (a / 2 ^ (b mod n)) false).
Proof.
  intros O V. unfold opsh in O. destruct (nb f) as (Nb1 & Nb2 & Nb3). prep.
  destruct i2.
  - destruct O as (R2 & Eb). rewrite Eb, (Z.mod_small src2) by lia. set (P := post _ _).
    assert (F : forall s1, rd s1 src1 = canon n a -> P (wr s1 dst (canon n (a / 2 ^ src2))) ->
      ok (if cC c && (wd f =? 0) && (dst =? src1) && (SRLI =? SLLI) then E16 (C_SLLI .| C_RD dst .| C_IMM_I src2)
       else if cC c && (wd f =? 0) && (dst =? src1) && C_IS_R3 dst
       then E16 ((if SRLI =? SRLI then C_SRLI else C_SRAI) .| C_RS1_R3 dst .| C_IMM_I src2)
       else E32 (SRLI .| wd f .| RD dst .| RS1 src1 .| IMM_I src2)) s1 P).
    { intros s1 V1 H. change (SRLI =? SLLI) with false. change (SRLI =? SRLI) with true. rewrite andb_false_r. destruct (cC c && (wd f =? 0) && (dst =? src1) && C_IS_R3 dst) eqn:E; cbn [andb].
      - apply andb_prop in E as (E & R3). assert (E1 : dst = src1) by lia. apply x_C_SRLI; [vl|auto|lia|]. rewrite E1 at 2. rewrite V1.
        destruct f; cbn [wd nbits] in *; [lia|]. rewrite canon64, wrap_small in H |- *; auto. apply div_isw; auto; lia.
      - apply x_SRLI; [vl|vl|lia|rewrite V1; iw|]. rewrite V1, canon_mod. shn. auto. }
    destruct (setz o) eqn:EZ, u eqn:EU; cbn [negb ifE].
    + go. shn. subst P; fin.
    + apply ok_then. sx1 (f32 o). shn. cn (f32 o). shn. apply F. { rdw. auto. } subst P; fin.
    + repeat sx1 (f32 o). subst P; fin.
    + apply ok_then. apply ok_nop. apply F; auto. subst P; fin.
  - destruct O as (R2 & E2). set (P := post _ _). destruct (setz o) eqn:EZ, u eqn:EU; go; shn; subst P; fin.
Qed.
Lemma so_ashr_ok i2 : opsh i2 -> vf o = VNone -> ok (so_shift c o i2 u SRAI SRA dst src1 src2) s (post (sext n a / 2 ^ (b mod n)) false).
Proof.
  intros O V. unfold opsh in O. destruct (nb f) as (Nb1 & Nb2 & Nb3). prep.
  destruct i2.
  - destruct O as (R2 & Eb). rewrite Eb, (Z.mod_small src2) by lia. set (P := post _ _).
    assert (F : forall s1, rd s1 src1 = canon n a -> P (wr s1 dst (canon n (sext n a / 2 ^ src2))) ->
      ok (if cC c && (wd f =? 0) && (dst =? src1) && (SRAI =? SLLI) then E16 (C_SLLI .| C_RD dst .| C_IMM_I src2)
       else if cC c && (wd f =? 0) && (dst =? src1) && C_IS_R3 dst
       then E16 ((if SRAI =? SRLI then C_SRLI else C_SRAI) .| C_RS1_R3 dst .| C_IMM_I src2)
       else E32 (SRAI .| wd f .| RD dst .| RS1 src1 .| IMM_I src2)) s1 P).
    { intros s1 V1 H. change (SRAI =? SLLI) with false. change (SRAI =? SRLI) with false. rewrite andb_false_r. destruct (cC c && (wd f =? 0) && (dst =? src1) && C_IS_R3 dst) eqn:E; cbn [andb].
      - apply andb_prop in E as (E & R3). assert (E1 : dst = src1) by lia. apply x_C_SRAI; [vl|auto|lia|]. rewrite E1 at 2. rewrite V1, sgn_canon.
        destruct f; cbn [wd nbits] in *; [lia|]. rewrite <- canon64. auto.
      - apply x_SRAI; [vl|vl|lia|]. rewrite V1, sext_canon. auto. }
    destruct (setz o) eqn:EZ, u eqn:EU; cbn [negb ifE].
    + go. shn. subst P; fin.
    + apply ok_then. sx1 (f32 o). shn. cn (f32 o). shn. apply F. { rdw. auto. } subst P; fin.
    + repeat sx1 (f32 o). subst P; fin.
    + apply ok_then. apply ok_nop. apply F; auto. subst P; fin.
  - destruct O as (R2 & E2). set (P := post _ _). destruct (setz o) eqn:EZ, u eqn:EU; go; shn; subst P; fin.
Qed.

Ltac gr := cnz; repeat (sx1 (f32 o); cnz; shn; rewrite ?canon_mod, ?(modN f a) by auto; cnz).
Lemma so_rot_ok left i2 : opsh i2 -> setz o = false -> vf o = VNone ->
  ok (so_rot c o left i2 dst src1 src2) s (post (rot_left n a (if left then b mod n else (n - b mod n) mod n)) false).
Proof.
  intros O Z0 V. unfold opsh in O. destruct (nb f) as (Nb1 & Nb2 & Nb3). prep. set (P := post _ _).
  change (if f32 o then 32 else 64) with n.
  assert (FIN : forall v s1, keeps s s1 [dst;29;28] -> v = canon n (rot_left n a (if left then b mod n else (n - b mod n) mod n)) -> P (wr s1 dst v)).
  { intros v s1 K ->. assert (K' : keeps s s1 [dst; 25; 26; 28; 29]) by (eapply keeps_incl; [|exact K]; intros ? [<-|[<-|[<-|[]]]]; cbn; tauto). subst P; fin. }
  assert (Bm : 0 <= b mod n < n) by (apply Z.mod_pos_bound; lia).
  destruct i2.
  - destruct O as (R2 & Eb). rewrite Eb in *. rewrite (Z.mod_small src2) in * by lia.
    destruct (cB c).
    + destruct left; (apply x_RORI with (a := a); [vl|vl|auto|auto|lia|]); apply FIN; try (apply keeps_refl); auto.
      f_equal. f_equal. rewrite Z.mod_small; lia.
    + destruct left.
      * gr. apply FIN. { kps. } replace (n - src2) with ((- src2) mod n) by (symmetry; apply Z.mod_unique with (-1); lia).
        rewrite Z.lor_comm. apply rot_or; auto.
      * gr. apply FIN. { kps. } rewrite (Z.mod_small (n - src2)) by lia.
        rewrite <- rot_or by (auto; lia). f_equal. f_equal. f_equal. f_equal. apply Z.mod_unique with (-1); lia.
  - destruct O as (R2 & E2). destruct (cB c).
    + destruct left.
      * apply x_ROL with (a := a); [vl|vl|vl|auto|auto|]. apply FIN. { apply keeps_refl. } rewrite E2, canon_mod_n. reflexivity.
      * apply x_ROR with (a := a); [vl|vl|vl|auto|auto|]. apply FIN. { apply keeps_refl. } rewrite E2, canon_mod_n. reflexivity.
    + destruct (src2 =? 0) eqn:E0.
      * assert (src2 = 0) as Q by lia. rewrite Q in E2. assert (b = 0) as Qb.
        { assert (Q1 : canon n b = canon n 0) by (rewrite canon_0, <- E2; apply rd_0). apply canon_inj in Q1. rewrite !(modN f) in Q1 by lia. auto. }
        assert (R0 : rot_left n a (if left then b mod n else (n - b mod n) mod n) = a).
        { rewrite Qb, Zmod_0_l, Z.sub_0_r, Z_mod_same_full. replace (if left then 0 else 0) with 0 by (destruct left; auto).
          unfold rot_left. rewrite Z.sub_0_r. change (2 ^ 0) with 1. rewrite Z.mul_1_r, Z.mod_small, Z.div_small, Z.add_0_r by auto. reflexivity. }
        destruct (dst =? src1) eqn:ED.
        { cbn [negb ifE]. apply ok_nop. assert (ED' : dst = src1) by lia. subst P. rewrite R0. unfold post2. split. { kps. } rewrite Z0.
          split. { intros _. rewrite ED'. auto. } unfold has_v, is_v. rewrite V. cbn. split; discriminate. }
        cbn [negb ifE]. go. apply FIN. { kps. } rewrite R0. reflexivity.
      * destruct left.
        -- gr. apply FIN. { kps. } rewrite Z.lor_comm.
           change (0 - b) with (- b). rewrite <- rot_or by auto. f_equal. f_equal. f_equal. f_equal. symmetry. apply Zmod_opp_mod_aux.
        -- gr. apply FIN. { kps. }
           assert (Bm2 : 0 <= (n - b mod n) mod n < n) by (apply Z.mod_pos_bound; lia).
           rewrite <- rot_or by auto. f_equal. f_equal.
           ++ f_equal. f_equal. change (0 - b) with (- b). apply mod_neg_aux; lia.
           ++ f_equal. f_equal. apply mod_neg_aux2; lia.
Qed.
End S2.
