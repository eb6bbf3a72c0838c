(** SLJIT_ADD. *)
Require Import ZArith List Bool Lia Zify ZifyBool.
From Verif Require Import Rv.RvLib Rv.RvBits Rv.RvIsa Rv.RvEnc Rv.RvImm Rv.RvRun Rv.RvImmProofs Rv.RvCtl Rv.RvWf Rv.RvMem Rv.RvRunMem Rv.RvOp Rv.RvLir Rv.RvCanon Rv.RvOpLib Rv.RvSx.
Import ListNotations.
Open Scope Z_scope.
Ltac Zify.zify_post_hook ::= idtac.

Section S2.
Variables (c : cfg) (o : op) (u : bool) (dst src1 src2 : Z) (s : mst) (a b : Z).
Notation f := (f32 o).
Notation n := (nbits (f32 o)).
Notation N := (2 ^ nbits (f32 o)).
Hypothesis W : wf s.
Hypothesis Hd : dreg dst.
Hypothesis H1 : s1reg src1.
Hypothesis Va : rd s src1 = canon n a.
Hypothesis Ba : 0 <= a < N.
Hypothesis Bb : 0 <= b < N.
Notation post := (post2 o u dst s).
Notation opn i2 := (opnd s (f32 o) i2 src2 b).
Ltac go := RvSx.go (f32 o).
Ltac prep := RvSx.prep o.
Definition flag_add (v : vflag) : bool :=
  match v with VCarry => N <=? a + b | VOverflow => out_of_range n (sext n a + sext n b) | _ => false end.

Lemma so_add_ok i2 : opn i2 -> vf o = VNone \/ vf o = VCarry \/ vf o = VOverflow ->
  (cC c = true -> vf o = VOverflow -> i2 = true -> 0 <= src2 -> src1 <> 0) ->
  (vf o = VCarry -> i2 = false -> (if src1 =? dst then src2 else src1) <> 0) ->
  ok (so_add c o i2 u dst src1 src2) s (post (a + b) (flag_add (vf o))).
Proof.
  intros O V X1 X2. unfold opnd in O. destruct (nb f) as (Nb1 & Nb2 & Nb3). prep. unfold has_v, is_v. set (P := post (a + b) (flag_add (vf o))).
  destruct i2.
  - destruct O as (R2 & N2 & E2). assert (S12 : sext 12 src2 = src2) by (apply sext12_small; lia).
    assert (I2 := imm_add f b src2 a R2 E2).
    assert (SB := sb_imm f b src2 Bb R2 E2).
    destruct V as [V|[V|V]]; rewrite V in *; cbn [negb orb].
    + destruct (setz o) eqn:EZ, u eqn:EU; go; subst P; fin.
    + destruct (setz o) eqn:EZ, (Z.eq_dec dst src1) as [ED|ED]; go; rewrite (modN f b), carry_add' by auto; subst P; fin.
    + assert (X1' : cC c = true -> 0 <= src2 -> src1 <> 0) by auto.
      destruct (src2 >=? 0) eqn:ES, (setz o) eqn:EZ, (Z.eq_dec dst src1) as [ED|ED]; go; subst P; fin; cbn [flag_add];
        rewrite ovf_add, (modN f b), carry_add', !sb_lxor, SB by auto; f_equal; replace (src2 <? 0) with (negb (src2 >=? 0)) by lia; rewrite ES;
        rewrite ?sb_m1; cbn [negb]; rewrite ?xorb_false_r; reflexivity.
  - destruct O as (R2 & E2).
    destruct V as [V|[V|V]]; rewrite V in *; cbn [negb orb].
    + destruct (setz o) eqn:EZ, u eqn:EU; go; subst P; fin.
    + specialize (X2 eq_refl eq_refl). destruct (src1 =? dst) eqn:D1, (src2 =? dst) eqn:D2; cbn [negb].
      * destruct (setz o) eqn:EZ; go; rewrite ?(modN f a), carry_add by auto; subst P; fin.
      * replace (src2 =? 0) with false by lia.
        destruct (setz o) eqn:EZ; go; rewrite (modN f b), carry_add' by auto; subst P; fin.
      * replace (src1 =? 0) with false by lia.
        destruct (setz o) eqn:EZ; go; rewrite (modN f a), carry_add by auto; subst P; fin.
      * replace (src1 =? 0) with false by lia.
        destruct (setz o) eqn:EZ; go; rewrite (modN f a), carry_add by auto; subst P; fin.
    + destruct (src1 =? dst) eqn:D1, (src2 =? dst) eqn:D2, (setz o) eqn:EZ; cbn [negb]; go; subst P; fin; cbn [flag_add];
      rewrite ovf_add, ?(modN f a), ?(modN f b), ?carry_add, ?carry_add', !sb_lxor by auto; reflexivity.
Qed.
End S2.
