(** SLJIT_SUBC. *)
Require Import ZArith List Bool Lia Zify ZifyBool.
From Verif Require Import Rv.RvLib Rv.RvBits Rv.RvIsa Rv.RvEnc Rv.RvImm Rv.RvRun Rv.RvImmProofs Rv.RvCtl Rv.RvWf Rv.RvMem Rv.RvRunMem Rv.RvOp Rv.RvLir Rv.RvCanon Rv.RvOpLib Rv.RvSx Rv.RvSoSub.
Import ListNotations.
Open Scope Z_scope.
Ltac Zify.zify_post_hook ::= idtac.

Section S2.
Variables (c : cfg) (o : op) (u : bool) (dst src1 src2 : Z) (s : mst) (a b : Z).
Notation f := (f32 o).
Notation n := (nbits (f32 o)).
Notation N := (2 ^ nbits (f32 o)).
Hypothesis W : wf s.
Hypothesis Hd : dreg dst.
Hypothesis H1 : s1reg src1.
Hypothesis Va : rd s src1 = canon n a.
Hypothesis Ba : 0 <= a < N.
Hypothesis Bb : 0 <= b < N.
Notation post := (post2 o u dst s).
Notation opn i2 := (opnd s (f32 o) i2 src2 b).
Ltac go := RvSx.go (f32 o).
Ltac prep := RvSx.prep o.

Lemma subc_body_ok s0 i2 cin : keeps s0 s [26] -> opn i2 -> rd s 29 = b2z cin -> u = false -> setz o = false -> vf o = VNone \/ vf o = VCarry ->
  (i2 = true -> src2 <> -2048) ->
  ok ((if i2 then
     ifE (is_v o VCarry) (E32 (SLTUI .| RD EQUAL_FLAG .| RS1 src1 .| IMM_I src2)) ;;
     add_imm c (word o) dst src1 (- src2)
   else
     ifE (is_v o VCarry) (E32 (SLTU .| RD EQUAL_FLAG .| RS1 src1 .| RS2 src2)) ;;
     sub_reg c (word o) dst src1 src2) ;;
  ifE (is_v o VCarry) (E32 (SLTU .| RD TMP_REG1 .| RS1 dst .| RS2 OTHER_FLAG)) ;;
  E32 (SUB .| word o .| RD dst .| RS1 dst .| RS2 OTHER_FLAG) ;;
  ifE (is_v o VCarry) (E32 (OR .| RD OTHER_FLAG .| RS1 EQUAL_FLAG .| RS2 TMP_REG1))) s
    (post2 o u dst s0 (a - b - b2z cin) (a <? b + b2z cin)).
Proof.
  intros K O C29 U Z0 V XM. unfold opnd in O. destruct (nb f) as (Nb1 & Nb2 & Nb3). rewrite <- (canon_b2z f cin) in C29.
  assert (Bc : 0 <= b2z cin <= 1) by (destruct cin; cbn; lia).
  assert (Bn : 1 < N) by (destruct f; cbn [nbits]; lia).
  assert (K' : keeps s0 s [dst; 25; 26; 28; 29]) by (eapply keeps_incl; [|exact K]; intros ? [<-|[]]; cbn; tauto).
  prep. unfold is_v. set (P := post2 o u dst s0 (a - b - b2z cin) (a <? b + b2z cin)).
  destruct i2.
  - destruct O as (R2 & N2 & E2). specialize (XM eq_refl). assert (S12 : sext 12 src2 = src2) by (apply sext12_small; lia).
    assert (I2 := imm_sub f b src2 a R2 E2).
    destruct V as [V|V]; rewrite V in *; go; rewrite ?(modN f a), ?(modN f b), ?(modN f (b2z cin)), ?carry_subc by (auto; lia); subst P; fin.
  - destruct O as (R2 & E2).
    destruct V as [V|V]; rewrite V in *; go; rewrite ?(modN f a), ?(modN f b), ?(modN f (b2z cin)), ?carry_subc by (auto; lia); subst P; fin.
Qed.
End S2.

Lemma so_subc_ok c o u dst src1 src2 s a b i2 cin :
  wf s -> dreg dst -> s1reg src1 -> rd s src1 = canon (nbits (f32 o)) a -> 0 <= a < 2 ^ nbits (f32 o) -> 0 <= b < 2 ^ nbits (f32 o) ->
  opnd s (f32 o) i2 src2 b -> rd s 29 = b2z cin -> u = false -> setz o = false -> vf o = VNone \/ vf o = VCarry ->
  ok (so_subc c o i2 dst src1 src2) s (post2 o u dst s (a - b - b2z cin) (a <? b + b2z cin)).
Proof.
  intros W Hd H1 Va Ba Bb O C29 U Z0 V. unfold so_subc. cbv zeta.
  assert (T := sub_pre_ok (f32 o) i2 src2 s b (fun i2 src2 s1 => ok
    ((if i2 then
     ifE (is_v o VCarry) (E32 (SLTUI .| RD EQUAL_FLAG .| RS1 src1 .| IMM_I src2)) ;;
     add_imm c (word o) dst src1 (- src2)
   else
     ifE (is_v o VCarry) (E32 (SLTU .| RD EQUAL_FLAG .| RS1 src1 .| RS2 src2)) ;;
     sub_reg c (word o) dst src1 src2) ;;
  ifE (is_v o VCarry) (E32 (SLTU .| RD TMP_REG1 .| RS1 dst .| RS2 OTHER_FLAG)) ;;
  E32 (SUB .| word o .| RD dst .| RS1 dst .| RS2 OTHER_FLAG) ;;
  ifE (is_v o VCarry) (E32 (OR .| RD OTHER_FLAG .| RS1 EQUAL_FLAG .| RS2 TMP_REG1))) s1 (post2 o u dst s (a - b - b2z cin) (a <? b + b2z cin))) W O).
  destruct (so_sub_pre i2 src2) as ((e & i2') & src2'). apply ok_then. apply T. clear T i2' src2'.
  intros i2' src2' s1 W1 K1 O1 X1 _ _.
  assert (KR : forall r, 0 <= r <= 31 -> r <> 26 -> rd s1 r = rd s r).
  { intros r Hr N. apply K1. { vl. } intros [Q|[]]. lia. }
  apply subc_body_ok; auto.
  - rewrite KR; auto; unfold s1reg in H1; lia.
  - rewrite KR; auto; lia.
  - intros Q; destruct (X1 Q) as (? & -> & ?); auto.
Qed.
