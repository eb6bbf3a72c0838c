(** SLJIT_SUB. *)
Require Import ZArith List Bool Lia Zify ZifyBool.
From Verif Require Import Rv.RvLib Rv.RvBits Rv.RvIsa Rv.RvEnc Rv.RvImm Rv.RvRun Rv.RvImmProofs Rv.RvCtl Rv.RvWf Rv.RvMem Rv.RvRunMem Rv.RvOp Rv.RvLir Rv.RvCanon Rv.RvOpLib Rv.RvSx.
Import ListNotations.
Open Scope Z_scope.
Ltac Zify.zify_post_hook ::= idtac.

Section S2.
Variables (c : cfg) (o : op) (u : bool) (dst src1 src2 : Z) (s : mst) (a b : Z).
Notation f := (f32 o).
Notation n := (nbits (f32 o)).
Notation N := (2 ^ nbits (f32 o)).
Hypothesis W : wf s.
Hypothesis Hd : dreg dst.
Hypothesis H1 : s1reg src1.
Hypothesis Va : rd s src1 = canon n a.
Hypothesis Ba : 0 <= a < N.
Hypothesis Bb : 0 <= b < N.
Notation post := (post2 o u dst s).
Notation opn i2 := (opnd s (f32 o) i2 src2 b).
Ltac go := RvSx.go (f32 o).
Ltac prep := RvSx.prep o.

Definition flag_sub (v : vflag) : bool :=
  match v with
  | VLess | VCarry => a <? b
  | VGreater => b <? a
  | VSigLess => sext n a <? sext n b
  | VSigGreater => sext n b <? sext n a
  | VOverflow => out_of_range n (sext n a - sext n b)
  | VNone => false
  end.

Lemma sub_other_ok s0 i2 : keeps s0 s [26] -> opn i2 -> vf o = VNone \/ vf o = VCarry \/ vf o = VOverflow ->
  (cC c = true -> vf o = VOverflow -> i2 = true -> 0 <= src2 -> src1 <> 0) -> (i2 = true -> src2 <> -2048) ->
  ok (so_sub_other c o i2 u dst src1 src2) s (post2 o u dst s0 (a - b) (flag_sub (vf o))).
Proof.
  intros K O V X1 XM. unfold opnd in O. destruct (nb f) as (Nb1 & Nb2 & Nb3). prep. unfold has_v, is_v. set (P := post2 o u dst s0 (a - b) (flag_sub (vf o))).
  assert (K' : keeps s0 s [dst; 25; 26; 28; 29]) by (eapply keeps_incl; [|exact K]; intros ? [<-|[]]; cbn; tauto).
  destruct i2.
  - destruct O as (R2 & N2 & E2). specialize (XM eq_refl). assert (S12 : sext 12 src2 = src2) by (apply sext12_small; lia).
    assert (S12' : sext 12 (- src2) = - src2) by (apply sext12_small; lia).
    assert (I2 := imm_sub f b src2 a R2 E2). assert (SB := sb_imm f b src2 Bb R2 E2).
    destruct V as [V|[V|V]]; rewrite V in *; cbn [negb orb].
    + destruct (setz o) eqn:EZ, u eqn:EU; go; subst P; fin.
    + destruct (setz o) eqn:EZ; go; rewrite (modN f a), (modN f b) by auto; subst P; fin.
    + assert (X1' : cC c = true -> 0 <= src2 -> src1 <> 0) by auto.
      destruct (src2 >=? 0) eqn:ES, (setz o) eqn:EZ, (Z.eq_dec dst src1) as [ED|ED]; go; subst P; fin; cbn [flag_sub];
        rewrite ovf_sub, (modN f b), (modN f a), !sb_lxor, SB by auto; f_equal; replace (src2 <? 0) with (negb (src2 >=? 0)) by lia; rewrite ES;
        rewrite ?sb_m1; cbn [negb]; rewrite ?xorb_false_r; reflexivity.
  - destruct O as (R2 & E2).
    destruct V as [V|[V|V]]; rewrite V in *; cbn [negb orb].
    + destruct (setz o) eqn:EZ, u eqn:EU; go; subst P; fin.
    + destruct (setz o) eqn:EZ; go; rewrite (modN f a), (modN f b) by auto; subst P; fin.
    + destruct (setz o) eqn:EZ; go; subst P; fin; cbn [flag_sub];
      rewrite ovf_sub, (modN f a), (modN f b), !sb_lxor by auto; reflexivity.
Qed.

Lemma sub_cmp_ok s0 i2 : keeps s0 s [26] -> opn i2 -> vf o = VLess \/ vf o = VGreater \/ vf o = VSigLess \/ vf o = VSigGreater ->
  (i2 = true -> src2 <> -2048) ->
  ok (so_sub_cmp c o i2 u dst src1 src2) s (post2 o u dst s0 (a - b) (flag_sub (vf o))).
Proof.
  intros K O V XM. unfold opnd in O. destruct (nb f) as (Nb1 & Nb2 & Nb3). prep. unfold is_v. set (P := post2 o u dst s0 (a - b) (flag_sub (vf o))).
  assert (K' : keeps s0 s [dst; 25; 26; 28; 29]) by (eapply keeps_incl; [|exact K]; intros ? [<-|[]]; cbn; tauto).
  assert (LI : forall s' r (P : mst -> Prop), i2 = true -> 0 < r <= 31 -> P (wr s' r (canon n b)) ->
    ok (if cC c && (src2 <=? SIMM16_MAX) && (src2 >=? SIMM16_MIN) then E16 (C_LI .| C_RD r .| C_IMM_I src2)
            else E32 (ADDI .| RD r .| RS1 0 .| IMM_I src2)) s' P).
  { clear P. intros s' r P -> Hr H. destruct O as (R2 & N2 & E2). unfold SIMM16_MAX, SIMM16_MIN.
    destruct (cC c && (src2 <=? 31) && (src2 >=? -32)) eqn:E.
    - apply x_C_LI; [vl|]. rewrite sext6_small, E2 by lia. auto.
    - apply (x_I _ _ ADDI Addi); [reflexivity|vl|vl|]. cbn [alui]. rewrite rd_0, Z.add_0_l, sext12_small, E2 by lia. auto. }
  destruct i2.
  - destruct O as (R2 & N2 & E2). specialize (XM eq_refl). assert (S12 : sext 12 src2 = src2) by (apply sext12_small; lia).
    assert (S12' : sext 12 (- src2) = - src2) by (apply sext12_small; lia).
    assert (I2 := imm_sub f b src2 a R2 E2). assert (SI := sext_imm f b src2 R2 E2).
    destruct V as [V|[V|[V|V]]]; rewrite V in *; cbn [andb].
    + destruct (setz o) eqn:EZ, u eqn:EU; go; rewrite ?(modN f a), ?(modN f b) by auto; subst P; fin.
    + destruct (src1 =? 25) eqn:E25, (setz o) eqn:EZ, u eqn:EU; cbn [negb ifE]; apply ok_then; apply ok_then;
       (apply LI; [auto|lia|]); rdw; go; rewrite ?(modN f a), ?(modN f b) by auto; subst P; fin.
    + destruct (setz o) eqn:EZ, u eqn:EU; go; rewrite ?sgn_canon; subst P; fin; cbn [flag_sub]; rewrite SI; reflexivity.
    + destruct (src1 =? 25) eqn:E25, (setz o) eqn:EZ, u eqn:EU; cbn [negb ifE]; apply ok_then; apply ok_then;
       (apply LI; [auto|lia|]); rdw; go; rewrite ?sgn_canon; subst P; fin.
  - destruct O as (R2 & E2).
    destruct V as [V|[V|[V|V]]]; rewrite V in *; cbn [andb];
    destruct (setz o) eqn:EZ, u eqn:EU; go; rewrite ?(modN f a), ?(modN f b), ?sgn_canon by auto; subst P; fin.
Qed.
End S2.

(** SLJIT_SUB with the replacement of the immediate SIMM_MIN. *)
Lemma sub_pre_ok f i2 src2 s b (P : bool -> Z -> mst -> Prop) :
  wf s -> opnd s f i2 src2 b ->
  (forall i2' src2' s1, wf s1 -> keeps s s1 [26] -> opnd s1 f i2' src2' b -> (i2' = true -> i2 = true /\ src2' = src2 /\ src2 <> -2048) ->
     (i2 = false -> i2' = false /\ src2' = src2) -> (i2' = false -> i2 = true -> src2' = 26 /\ src2 = -2048) -> P i2' src2' s1) ->
  let '(e, i2', src2') := so_sub_pre i2 src2 in ok e s (P i2' src2').
Proof.
  intros W O H. unfold so_sub_pre, SIMM_MIN. destruct (i2 && (src2 =? - 0x800)) eqn:E.
  - assert (i2 = true) by (destruct i2; auto). subst i2. assert (src2 = -2048) by lia. subst src2. unfold opnd in O. destruct O as (R2 & N2 & E2).
    apply (x_I _ _ ADDI Addi); [reflexivity|unfold TMP_REG2; vl|unfold TMP_ZERO; vl|]. cbn [alui]. change (rd s TMP_ZERO) with 0. rewrite Z.add_0_l, sext12_small, E2 by lia.
    unfold TMP_REG2. apply H.
    + apply wf_wr; auto. apply canon_isw.
    + kps.
    + unfold opnd, s2reg. split. { lia. } rewrite rd_wr_same by vl. reflexivity.
    + discriminate.
    + discriminate.
    + auto.
  - apply ok_nop. apply H; auto.
    + apply keeps_refl.
    + intros ->. split; auto. split; auto. cbn in E. lia.
    + intros -> ?. discriminate.
Qed.

Lemma so_sub_ok c o u dst src1 src2 s a b i2 :
  wf s -> dreg dst -> s1reg src1 -> rd s src1 = canon (nbits (f32 o)) a -> 0 <= a < 2 ^ nbits (f32 o) -> 0 <= b < 2 ^ nbits (f32 o) ->
  opnd s (f32 o) i2 src2 b ->
  (cC c = true -> vf o = VOverflow -> i2 = true -> 0 <= src2 -> src1 <> 0) ->
  ok (so_sub c o i2 u dst src1 src2) s (post2 o u dst s (a - b) (flag_sub o a b (vf o))).
Proof.
  intros W Hd H1 Va Ba Bb O X. unfold so_sub.
  assert (T := sub_pre_ok (f32 o) i2 src2 s b (fun i2' src2' s1 => ok
    (match vf o with
     | VLess | VGreater | VSigLess | VSigGreater => so_sub_cmp c o i2' u dst src1 src2'
     | _ => so_sub_other c o i2' u dst src1 src2'
     end) s1 (post2 o u dst s (a - b) (flag_sub o a b (vf o)))) W O).
  destruct (so_sub_pre i2 src2) as ((e & i2') & src2'). apply ok_then. apply T. clear T i2' src2'.
  intros i2' src2' s1 W1 K1 O1 X1 _ _.
  assert (Va1 : rd s1 src1 = canon (nbits (f32 o)) a).
  { rewrite <- Va. apply K1. { unfold s1reg in H1. vl. } intros [Q|[]]. unfold s1reg in H1. lia. }
  destruct (vf o) eqn:V; rewrite <- V.
  - apply sub_other_ok; auto. { rewrite V. discriminate. } intros Q; destruct (X1 Q) as (? & -> & ?); auto.
  - apply sub_cmp_ok; auto. intros Q; destruct (X1 Q) as (? & -> & ?); auto.
  - apply sub_cmp_ok; auto. intros Q; destruct (X1 Q) as (? & -> & ?); auto.
  - apply sub_cmp_ok; auto. intros Q; destruct (X1 Q) as (? & -> & ?); auto.
  - apply sub_cmp_ok; auto. intros Q; destruct (X1 Q) as (? & -> & ?); auto.
  - apply sub_other_ok; auto.
    + intros C _ Q P2. destruct (X1 Q) as (Q1 & -> & _). auto.
    + intros Q; destruct (X1 Q) as (? & -> & ?); auto.
  - apply sub_other_ok; auto. { rewrite V. discriminate. } intros Q; destruct (X1 Q) as (? & -> & ?); auto.
Qed.
