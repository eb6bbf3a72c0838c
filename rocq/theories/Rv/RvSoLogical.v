(** SLJIT_AND, SLJIT_OR, SLJIT_XOR. *)
Require Import ZArith List Bool Lia Zify ZifyBool.
From Verif Require Import Rv.RvLib Rv.RvBits Rv.RvIsa Rv.RvEnc Rv.RvImm Rv.RvRun Rv.RvImmProofs Rv.RvCtl Rv.RvWf Rv.RvMem Rv.RvRunMem Rv.RvOp Rv.RvLir Rv.RvCanon Rv.RvOpLib Rv.RvSx.
Import ListNotations.
Open Scope Z_scope.
Ltac Zify.zify_post_hook ::= idtac.

(** sljit_emit_op_flags passes OTHER_FLAG as the second operand, so this register is allowed here. *)
Definition opnd9 (s : mst) (f : bool) (i2 : bool) (src2 b : Z) : Prop :=
  if i2 then -2048 <= src2 <= 2047 /\ src2 <> 0 /\ wrap src2 = canon (nbits f) b else (s2reg src2 \/ src2 = 29) /\ rd s src2 = canon (nbits f) b.
Lemma opnd_9 s f i2 src2 b : opnd s f i2 src2 b -> opnd9 s f i2 src2 b.
Proof. unfold opnd, opnd9. destruct i2; intuition. Qed.

Section S2.
Variables (c : cfg) (o : op) (u : bool) (dst src1 src2 : Z) (s : mst) (a b : Z).
Notation f := (f32 o).
Notation n := (nbits (f32 o)).
Notation N := (2 ^ nbits (f32 o)).
Hypothesis W : wf s.
Hypothesis Hd : dreg dst.
Hypothesis H1 : s1reg src1.
Hypothesis Va : rd s src1 = canon n a.
Hypothesis Ba : 0 <= a < N.
Hypothesis Bb : 0 <= b < N.
Notation post := (post2 o u dst s).
Notation opn i2 := (opnd9 s (f32 o) i2 src2 b).
Ltac go := RvSx.go (f32 o).
Ltac prep := RvSx.prep o.
Lemma so_logical_ok i2 op_imm oi (op_c_imm : Z) op_reg oreg op_c_reg (g : Z -> Z -> Z) :
  opn i2 -> vf o = VNone ->
  dec_I op_imm = Some oi -> dec_R op_reg = Some oreg ->
  (forall x i, alui oi x i = g x (wrap i)) -> (forall x y, alu oreg x y = g x y) ->
  (forall x y, g x y = g y x) ->
  (forall x y, g (canon n x) (canon n y) = canon n (g x y)) ->
  (forall s d r (P : mst -> Prop), vreg d -> vreg r -> C_IS_R3 d = true -> C_IS_R3 r = true -> P (wr s d (g (rd s d) (rd s r))) ->
     ok (E16 (op_c_reg .| C_RS1_R3 d .| C_RS2_R3 r)) s P) ->
  (op_c_imm <> 0 -> forall s d i (P : mst -> Prop), vreg d -> C_IS_R3 d = true -> -32 <= i <= 31 -> P (wr s d (g (rd s d) (wrap i))) ->
     ok (E16 (op_c_imm .| C_RS1_R3 d .| C_IMM_I i)) s P) ->
  ok (emit_logical c o i2 u op_imm op_c_imm op_reg op_c_reg dst src1 src2) s (post (g a b) false).
Proof.
  intros O V DI DR GI GR GC GN XR XI. unfold opnd9 in O. prep.
  assert (HV : has_v o = false) by (unfold has_v, is_v; rewrite V; reflexivity).
  destruct i2.
  - destruct O as (R2 & N2 & E2).
    assert (F : forall s1, rd s1 src1 = canon n a -> keeps s s1 [28] -> (setz o = true -> rd s1 28 = canon n (g a b)) ->
      ok (ifE (negb u) (if negb (op_c_imm =? 0) && cC c && (dst =? src1) && (src2 <=? SIMM16_MAX) && (src2 >=? SIMM16_MIN) && C_IS_R3 dst
         then E16 (op_c_imm .| C_RS1_R3 dst .| C_IMM_I src2) else E32 (op_imm .| RD dst .| RS1 src1 .| IMM_I src2))) s1 (post (g a b) false)).
    { intros s1 A K Z1. assert (P1 : forall v, v = canon n (g a b) -> post (g a b) false (wr s1 dst v)).
      { intros v ->. unfold post2. split.
        { apply keeps_wr; [vl|cbn; tauto|]. eapply keeps_incl; [|exact K]. intros ? [<-|[]]. cbn; tauto. }
        split. { intros _. rewrite rd_wr_same by vl. reflexivity. }
        split. { intros Sz. rewrite rd_wr_other by vl. rewrite Z1, canon_eqb0 by auto. reflexivity. }
        rewrite HV. discriminate. }
      destruct u eqn:Eu; cbn [negb ifE].
      { apply ok_nop. unfold post2. split.
        { eapply keeps_incl; [|exact K]. intros ? [<-|[]]. cbn; tauto. }
        split. { intros; congruence. } split. { intros Sz. rewrite Z1, canon_eqb0 by auto. reflexivity. } rewrite HV. discriminate. }
      unfold SIMM16_MAX, SIMM16_MIN.
      destruct (negb (op_c_imm =? 0) && cC c && (dst =? src1) && (src2 <=? 31) && (src2 >=? -32) && C_IS_R3 dst) eqn:E.
      - apply andb_prop in E as (E & R3). assert (dst = src1) as Ed by lia. apply XI; [vl|vl|auto|vl|]. apply P1. rewrite Ed, A, E2, GN. reflexivity.
      - apply (x_I _ _ op_imm oi); [auto|vl|vl|]. apply P1. rewrite GI, sext12_small, A, E2, GN by lia. reflexivity. }
    apply ok_then. apply ok_if; intros Sz.
    + apply (x_I _ _ op_imm oi); [auto|vl|vl|]. apply F.
      * rewrite rd_wr_other by vl. auto.
      * apply keeps_wr; [vl|cbn; tauto|apply keeps_refl].
      * intros _. rewrite rd_wr_same by vl. rewrite GI, sext12_small, Va, E2, GN by lia. reflexivity.
    + apply F; auto. { apply keeps_refl. } congruence.
  - destruct O as (R2 & E2).
    assert (SW : exists p q x y, (if dst =? src2 then (dst, src1) else (src1, src2)) = (p, q) /\ rd s p = canon n x /\ rd s q = canon n y /\ vreg p /\ vreg q /\ p <> 28 /\ q <> 28 /\ g x y = g a b).
    { destruct (dst =? src2) eqn:E.
      - exists dst, src1, b, a. assert (dst = src2) as -> by lia. repeat split; auto; vl.
      - exists src1, src2, a, b. repeat split; auto; vl. }
    destruct SW as (p & q & x & y & -> & Vp & Vq & Hp & Hq & Np & Nq & G). rewrite <- G.
    assert (F : forall s1, rd s1 p = canon n x -> rd s1 q = canon n y -> keeps s s1 [28] -> (setz o = true -> rd s1 28 = canon n (g x y)) ->
      ok (ifE (negb u) (if cC c && (dst =? p) && C_IS_R3 dst && C_IS_R3 q
         then E16 (op_c_reg .| C_RS1_R3 dst .| C_RS2_R3 q) else E32 (op_reg .| RD dst .| RS1 p .| RS2 q))) s1 (post (g x y) false)).
    { intros s1 A1 A2 K Z1. assert (P1 : forall v, v = canon n (g x y) -> post (g x y) false (wr s1 dst v)).
      { intros v ->. unfold post2. split.
        { apply keeps_wr; [vl|cbn; tauto|]. eapply keeps_incl; [|exact K]. intros ? [<-|[]]. cbn; tauto. }
        split. { intros _. rewrite rd_wr_same by vl. reflexivity. }
        split. { intros Sz. rewrite rd_wr_other by vl. rewrite Z1, canon_eqb0 by auto. reflexivity. }
        rewrite HV. discriminate. }
      destruct u eqn:Eu; cbn [negb ifE].
      { apply ok_nop. unfold post2. split.
        { eapply keeps_incl; [|exact K]. intros ? [<-|[]]. cbn; tauto. }
        split. { intros; congruence. } split. { intros Sz. rewrite Z1, canon_eqb0 by auto. reflexivity. } rewrite HV. discriminate. }
      destruct (cC c && (dst =? p) && C_IS_R3 dst && C_IS_R3 q) eqn:E.
      - apply andb_prop in E as (E & R3). apply andb_prop in E as (E & R4). assert (dst = p) as Ed by lia. apply XR; [vl|auto|auto|auto|]. apply P1. rewrite Ed, A1, A2, GN. reflexivity.
      - apply (x_R _ _ op_reg oreg); [auto|vl|auto|auto|]. apply P1. rewrite GR, A1, A2, GN by lia. reflexivity. }
    apply ok_then. apply ok_if; intros Sz.
    + apply (x_R _ _ op_reg oreg); [auto|vl|auto|auto|]. unfold vreg in *. apply F.
      * rewrite rd_wr_other by vl. auto.
      * rewrite rd_wr_other by vl. auto.
      * apply keeps_wr; [vl|cbn; tauto|apply keeps_refl].
      * intros _. rewrite rd_wr_same by vl. rewrite GR, Vp, Vq, GN by lia. reflexivity.
    + apply F; auto. { apply keeps_refl. } congruence.
Qed.
End S2.
