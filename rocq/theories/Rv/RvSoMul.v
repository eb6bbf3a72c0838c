(** SLJIT_MUL. *)
Require Import ZArith List Bool Lia Zify ZifyBool.
From Verif Require Import Rv.RvLib Rv.RvBits Rv.RvIsa Rv.RvEnc Rv.RvImm Rv.RvRun Rv.RvImmProofs Rv.RvCtl Rv.RvWf Rv.RvMem Rv.RvRunMem Rv.RvOp Rv.RvLir Rv.RvCanon Rv.RvOpLib Rv.RvSx.
Import ListNotations.
Open Scope Z_scope.
Ltac Zify.zify_post_hook ::= idtac.

Section S2.
Variables (c : cfg) (o : op) (u : bool) (dst src1 src2 : Z) (s : mst) (a b : Z).
Notation f := (f32 o).
Notation n := (nbits (f32 o)).
Notation N := (2 ^ nbits (f32 o)).
Hypothesis W : wf s.
Hypothesis Hd : dreg dst.
Hypothesis H1 : s1reg src1.
Hypothesis Va : rd s src1 = canon n a.
Hypothesis Ba : 0 <= a < N.
Hypothesis Bb : 0 <= b < N.
Notation post := (post2 o u dst s).
Notation opn i2 := (opnd s (f32 o) i2 src2 b).
Ltac go := RvSx.go (f32 o).
Ltac prep := RvSx.prep o.

(** For SLJIT_MUL the overflow flag register is non-zero when the flag is set. *)
Lemma mul32 x y : - 2 ^ 31 <= x < 2 ^ 31 -> - 2 ^ 31 <= y < 2 ^ 31 ->
  (wrap (sx32 (x * y) - wrap (x * y)) =? 0) = negb (out_of_range 32 (x * y)).
Proof.
  intros Hx Hy. assert (B : - 2 ^ 62 <= x * y <= 2 ^ 62) by nia. set (p := x * y) in *. clearbody p. clear Hx Hy.
  unfold out_of_range. change (32 - 1) with 31. rewrite negb_involutive.
  destruct ((- 2 ^ 31 <=? p) && (p <? 2 ^ 31)) eqn:E.
  - rewrite sx32_small by lia. rewrite Z.sub_diag. reflexivity.
  - unfold sx32. rewrite wrap_sub_l, wrap_sub_r. pose proof (sext_range 32 p ltac:(lia)) as R. change (2 ^ (32 - 1)) with (2 ^ 31) in R.
    destruct (wrap (sext 32 p - p) =? 0) eqn:D; auto. exfalso. unfold wrap in D.
    assert (M := Z.div_mod (sext 32 p - p) (2 ^ 64) ltac:(lia)). set (q := (sext 32 p - p) / 2 ^ 64) in *. lia.
Qed.
Lemma mul64 x y : - 2 ^ 63 <= x < 2 ^ 63 -> - 2 ^ 63 <= y < 2 ^ 63 ->
  (wrap (wrap (x * y / 2 ^ 64) - wrap (sgn (wrap (x * y)) / 2 ^ 63)) =? 0) = negb (out_of_range 64 (x * y)).
Proof.
  intros Hx Hy. assert (B : - 2 ^ 126 <= x * y <= 2 ^ 126) by nia. set (p := x * y) in *. clearbody p. clear Hx Hy.
  unfold out_of_range. change (64 - 1) with 63. rewrite negb_involutive. rewrite wrap_sub_l, wrap_sub_r.
  assert (D := Z.div_mod p (2 ^ 64) ltac:(lia)). assert (R := Z.mod_pos_bound p (2 ^ 64) ltac:(lia)).
  set (h := p / 2 ^ 64) in *. set (l := p mod 2 ^ 64) in *.
  assert (S : sgn (wrap p) / 2 ^ 63 = if l <? 2 ^ 63 then 0 else -1).
  { unfold sgn, sext, wrap. fold l. rewrite (Z.mod_small l) by lia. cbv zeta. change (64 - 1) with 63. destruct (l <? 2 ^ 63) eqn:E.
    - apply Z.div_small. lia.
    - symmetry. apply Z.div_unique with (l - 2 ^ 63); lia. }
  rewrite S. clearbody h l. assert (- 2 ^ 62 <= h <= 2 ^ 62) by lia.
  destruct (l <? 2 ^ 63) eqn:E.
  - rewrite Z.sub_0_r. destruct (Z.eq_dec h 0) as [->|Nh].
    { change (wrap 0 =? 0) with true. symmetry. lia. }
    transitivity false; [|symmetry; lia]. apply Z.eqb_neq. unfold wrap. intros Q. apply Z.mod_divide in Q; [|lia]. destruct Q as (q & Q). lia.
  - destruct (Z.eq_dec h (-1)) as [->|Nh].
    { change (wrap (-1 - -1) =? 0) with true. symmetry. lia. }
    transitivity false; [|symmetry; lia]. apply Z.eqb_neq. unfold wrap. intros Q. apply Z.mod_divide in Q; [|lia]. destruct Q as (q & Q). lia.
Qed.

Definition post_mul (res : Z) (fl : bool) (s' : mst) : Prop :=
  keeps s s' [dst; 25; 26; 28; 29] /\
  rd s' dst = canon n res /\
  (has_v o = true -> (rd s' 29 =? 0) = negb fl).

Lemma so_mul_ok : s2reg src2 -> rd s src2 = canon n b -> vf o = VNone \/ vf o = VOverflow ->
  ok (so_mul o dst src1 src2) s (post_mul (a * b) (out_of_range n (sext n a * sext n b))).
Proof.
  intros R2 E2 V. destruct (nb f) as (Nb1 & Nb2 & Nb3). prep. unfold is_v. set (P := post_mul _ _).
  destruct V as [V|V]; rewrite V in *; cbn [negb].
  - go. rewrite canon_mul_l, canon_mul_r. subst P. unfold post_mul. split; [kps|]. rdw. split; auto. unfold has_v, is_v. rewrite V. discriminate.
  - assert (SA := sgn_canon f a). assert (SBB := sgn_canon f b).
    pose proof (sext_range n a Nb1) as RA. pose proof (sext_range n b Nb1) as RB.
    destruct (f32 o) eqn:F.
    + go. subst P. unfold post_mul. rewrite F. split; [kps|]. rdw.
      assert (EM : forall x y, sx32 (canon 32 x * canon 32 y) = canon 32 (x * y)).
      { intros. change (canon 32 (canon (nbits true) x * canon (nbits true) y) = canon (nbits true) (x * y)). rewrite (canon_mul_l true), (canon_mul_r true). reflexivity. }
      cbn [nbits] in *. change (32 - 1) with 31 in *. rewrite EM. split; auto. intros _.
      assert (EW : wrap (canon 32 a * canon 32 b) = wrap (sext 32 a * sext 32 b)).
      { unfold canon. rewrite wrap_mul_l, wrap_mul_r. reflexivity. }
      rewrite EW. replace (canon 32 (a * b)) with (sx32 (sext 32 a * sext 32 b)). { apply mul32; auto. }
      rewrite <- (EM a b). transitivity (sx32 (wrap (sext 32 a * sext 32 b))). { symmetry. apply sx32_wrap. } rewrite <- EW. apply sx32_wrap.
    + go. subst P. unfold post_mul. rewrite F. split; [kps|]. rdw. cbn [nbits] in *. change (64 - 1) with 63 in *.
      rewrite SA, SBB. rewrite (canon64 a), (canon64 b), wrap_mul_l, wrap_mul_r, <- canon64. split; auto. intros _.
      replace (canon 64 (a * b)) with (wrap (sext 64 a * sext 64 b)). { apply mul64; auto. }
      rewrite canon64. rewrite <- (wrap_mul_l a b), <- (wrap_mul_r (wrap a) b), <- (canon64 a), <- (canon64 b).
      unfold canon. rewrite wrap_mul_l, wrap_mul_r. reflexivity.
Qed.
End S2.
