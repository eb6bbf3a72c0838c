(** SLJIT_ADDC. *)
Require Import ZArith List Bool Lia Zify ZifyBool.
From Verif Require Import Rv.RvLib Rv.RvBits Rv.RvIsa Rv.RvEnc Rv.RvImm Rv.RvRun Rv.RvImmProofs Rv.RvCtl Rv.RvWf Rv.RvMem Rv.RvRunMem Rv.RvOp Rv.RvLir Rv.RvCanon Rv.RvOpLib Rv.RvSx.
Import ListNotations.
Open Scope Z_scope.
Ltac Zify.zify_post_hook ::= idtac.

Section S2.
Variables (c : cfg) (o : op) (u : bool) (dst src1 src2 : Z) (s : mst) (a b : Z).
Notation f := (f32 o).
Notation n := (nbits (f32 o)).
Notation N := (2 ^ nbits (f32 o)).
Hypothesis W : wf s.
Hypothesis Hd : dreg dst.
Hypothesis H1 : s1reg src1.
Hypothesis Va : rd s src1 = canon n a.
Hypothesis Ba : 0 <= a < N.
Hypothesis Bb : 0 <= b < N.
Notation post := (post2 o u dst s).
Notation opn i2 := (opnd s (f32 o) i2 src2 b).
Ltac go := RvSx.go (f32 o).
Ltac prep := RvSx.prep o.

Lemma x_addc d s' (P : mst -> Prop) : vreg d -> P (wr s' d (canon n (rd s' d + rd s' 29))) ->
  ok (if cC c && (wd f =? 0) then E16 (C_ADD .| C_RD d .| C_RS2 29) else E32 (ADD .| wd f .| RD d .| RS1 d .| RS2 29)) s' P.
Proof.
  intros V H. destruct (cC c && (wd f =? 0)) eqn:E.
  - apply x_C_ADD; [vl|vl|lia|]. rewrite <- canon64. destruct f; cbn [wd nbits] in *; [lia|auto].
  - apply x_ADD; auto. vl.
Qed.
Lemma so_addc_ok i2 cin : opn i2 -> rd s 29 = b2z cin -> u = false -> setz o = false -> vf o = VNone \/ vf o = VCarry ->
  (vf o = VCarry -> i2 = false -> (if src1 =? dst then src2 else src1) <> 0) ->
  ok (so_addc c o i2 dst src1 src2) s (post (a + b + b2z cin) (N <=? a + b + b2z cin)).
Proof.
  intros O C29 U Z0 V X2. unfold opnd in O. destruct (nb f) as (Nb1 & Nb2 & Nb3). rewrite <- (canon_b2z f cin) in C29.
  assert (Bc : 0 <= b2z cin <= 1) by (destruct cin; cbn; lia).
  assert (Bn : 1 < N) by (destruct f; cbn [nbits]; lia).
  prep. unfold is_v. set (P := post (a + b + b2z cin) (N <=? a + b + b2z cin)).
  destruct i2.
  - destruct O as (R2 & N2 & E2). assert (S12 : sext 12 src2 = src2) by (apply sext12_small; lia).
    assert (I2 := imm_add f b src2 a R2 E2).
    destruct V as [V|V]; rewrite V in *; cbn [negb orb].
    + destruct (Z.eq_dec dst src1) as [ED|ED]; go; (apply x_addc; [vl|]); rdw; go; subst P; fin.
    + destruct (Z.eq_dec dst src1) as [ED|ED]; go; (apply x_addc; [vl|]); rdw; go;
      rewrite (modN f b), carry_add', (modN f (b2z cin)), carry_addc by (auto; lia); subst P; fin.
  - destruct O as (R2 & E2).
    destruct V as [V|V]; rewrite V in *; cbn [negb orb].
    + go; (apply x_addc; [vl|]); rdw; go; subst P; fin.
    + specialize (X2 eq_refl eq_refl). destruct (src1 =? dst) eqn:D1, (src2 =? dst) eqn:D2; cbn [negb].
      * go; (apply x_addc; [vl|]); rdw; go; rewrite (modN f a), carry_add, (modN f (b2z cin)), carry_addc by (auto; lia); subst P; fin.
      * replace (src2 =? 0) with false by lia.
        go; (apply x_addc; [vl|]); rdw; go; rewrite (modN f b), carry_add', (modN f (b2z cin)), carry_addc by (auto; lia); subst P; fin.
      * replace (src1 =? 0) with false by lia.
        go; (apply x_addc; [vl|]); rdw; go; rewrite (modN f a), carry_add, (modN f (b2z cin)), carry_addc by (auto; lia); subst P; fin.
      * replace (src1 =? 0) with false by lia.
        go; (apply x_addc; [vl|]); rdw; go; rewrite (modN f a), carry_add, (modN f (b2z cin)), carry_addc by (auto; lia); subst P; fin.
Qed.
End S2.
