(** ARM64: logical_imm against DecodeBitMasks, load_immediate against the instruction set. *)
Require Import ZArith List Bool Lia Zify ZifyBool.
From Verif Require Import Rv.RvLib Rv.RvBits Arm.ArmIsa Arm.ArmEnc Arm.ArmImm Arm.ArmBits.
Import ListNotations.
Open Scope Z_scope.
Ltac Zify.zify_post_hook ::= idtac.

(** ** COUNT_TRAILING_ZERO *)
Lemma ctz_step_ok k v r : 0 < k -> v mod 2 ^ (2 * k) <> 0 ->
  exists j q, ctz_step (Z.ones k) k (v, r) = (q, r + j) /\ v = q * 2 ^ j /\
            (j = 0 \/ j = k) /\ q mod 2 ^ k <> 0.
Proof.
  intros Hk H. unfold ctz_step. rewrite Z.land_ones by lia.
  assert (P : 0 < 2 ^ k) by (apply Z.pow_pos_nonneg; lia).
  destruct (v mod 2 ^ k =? 0) eqn:E.
  - exists k, (v / 2 ^ k). rewrite Z.shiftr_div_pow2 by lia. pose proof (Z.div_mod v (2 ^ k)).
    split; [reflexivity|]. split; [lia|]. split; [auto|]. intros C. apply H.
    replace (2 * k) with (k + k) by lia. rewrite Z.pow_add_r by lia. rewrite Z.rem_mul_r by lia. lia.
  - exists 0, v. rewrite Z.pow_0_r, Z.add_0_r, Z.mul_1_r. repeat split; auto. lia.
Qed.
Lemma ctz_ok v : v mod 2 ^ 64 <> 0 ->
  exists j q, count_trailing_zero v = (q, j) /\ v = q * 2 ^ j /\ 0 <= j <= 63 /\ q mod 2 = 1.
Proof.
  intros H. unfold count_trailing_zero.
  destruct (ctz_step_ok 32 v 0 ltac:(lia) H) as (a & v1 & E1 & V1 & D1 & N1).
  change (Z.ones 32) with 0xffffffff in E1. rewrite E1.
  destruct (ctz_step_ok 16 _ (0 + a) ltac:(lia) N1) as (b & v2 & E2 & V2 & D2 & N2).
  change (Z.ones 16) with 0xffff in E2. rewrite E2.
  destruct (ctz_step_ok 8 _ (0 + a + b) ltac:(lia) N2) as (c & v3 & E3 & V3 & D3 & N3).
  change (Z.ones 8) with 0xff in E3. rewrite E3.
  destruct (ctz_step_ok 4 _ (0 + a + b + c) ltac:(lia) N3) as (d & v4 & E4 & V4 & D4 & N4).
  change (Z.ones 4) with 0xf in E4. rewrite E4.
  destruct (ctz_step_ok 2 _ (0 + a + b + c + d) ltac:(lia) N4) as (e & v5 & E5 & V5 & D5 & N5).
  change (Z.ones 2) with 0x3 in E5. rewrite E5.
  destruct (ctz_step_ok 1 _ (0 + a + b + c + d + e) ltac:(lia) N5) as (f & v6 & E6 & V6 & D6 & N6).
  change (Z.ones 1) with 0x1 in E6. rewrite E6.
  clear E1 E2 E3 E4 E5 E6 N1 N2 N3 N4 N5 H.
  exists (0 + a + b + c + d + e + f), v6. split; [reflexivity|].
  split; [|split; [lia|]].
  - rewrite !Z.pow_add_r by lia. subst. ring.
  - change (2 ^ 1) with 2 in N6. pose proof (Z.mod_pos_bound v6 2 ltac:(lia)). lia.
Qed.

(** ** The period *)
Definition lens64 : list Z := [64; 32; 16; 8; 4; 2].
(** [n] bits made of copies of an element of [L] bits. *)
Definition repeats (n L e : Z) : Z := rep (Z.to_nat (n / L)) L e.

Lemma land_mask_low u l : 0 <= l -> u .& (Z.shiftl 1 l - 1) = u mod 2 ^ l.
Proof. intros H. apply land_low; auto. rewrite Z.shiftl_1_l. reflexivity. Qed.

Lemma rep_sum k L e : 0 <= L -> 0 <= e < 2 ^ L -> rep (S k) L e = rep k L e * 2 ^ L + e.
Proof. intros HL He. cbn [rep]. rewrite Z.shiftl_mul_pow2 by lia. rewrite <- add_lor by lia. reflexivity. Qed.

Ltac reps L := unfold repeats;
  match goal with |- context [Z.to_nat (?a / ?b)] =>
    let k := eval compute in (Z.to_nat (a / b)) in change (Z.to_nat (a / b)) with k end;
  rewrite !(rep_sum _ L) by (try apply Z.mod_pos_bound; lia); cbn [rep].

Lemma two_parts u a b : 0 <= a -> u mod 2 ^ (a + a) = u mod 2 ^ a + ((u / 2 ^ a) mod 2 ^ a) * 2 ^ a -> b = a + a -> (u / 2 ^ a) mod 2 ^ a = u mod 2 ^ a ->
  u mod 2 ^ b = u mod 2 ^ a * (2 ^ a + 1).
Proof. intros Ha E -> H. rewrite E, H. ring. Qed.
Lemma half u a : 0 <= a -> (u / 2 ^ a) mod 2 ^ a = u mod 2 ^ a -> u mod 2 ^ (a + a) = u mod 2 ^ a * (2 ^ a + 1).
Proof.
  intros Ha H. apply two_parts; auto. rewrite Z.pow_add_r by lia.
  assert (0 < 2 ^ a) by (apply Z.pow_pos_nonneg; lia). rewrite Z.rem_mul_r by lia. ring.
Qed.

Lemma li_loop_step f u l : 0 < l -> li_loop (S f) u l =
  if u mod 2 ^ l =? (u / 2 ^ l) mod 2 ^ l then li_loop f u (Z.shiftr l 1) else Some l.
Proof.
  intros H. cbn [li_loop]. replace (l <=? 0) with false by lia. cbv zeta.
  rewrite !land_mask_low by lia. rewrite Z.shiftr_div_pow2 by lia. reflexivity.
Qed.

Definition period (n u l : Z) : Prop :=
  u mod 2 ^ n = repeats n (2 * l) (u mod 2 ^ (2 * l)) /\ u mod 2 ^ l <> (u / 2 ^ l) mod 2 ^ l.

Lemma loop_ok u l0 l : l0 = 32 \/ l0 = 16 -> li_loop 8 u l0 = Some l ->
  In l [32; 16; 8; 4; 2; 1] /\ l <= l0 /\ period (2 * l0) u l.
Proof.
  intros H0 H.
  assert (B : forall k, 0 <= k -> 0 <= u mod 2 ^ k < 2 ^ k) by (intros k Hk; apply Z.mod_pos_bound; apply Z.pow_pos_nonneg; lia).
  assert (L : forall f a, 0 < a -> li_loop (S f) u a = Some l ->
     (l = a /\ u mod 2 ^ a <> (u / 2 ^ a) mod 2 ^ a) \/
     (u mod 2 ^ (a + a) = u mod 2 ^ a * (2 ^ a + 1) /\ li_loop f u (Z.shiftr a 1) = Some l)).
  { intros f a Ha E. rewrite li_loop_step in E by lia.
    destruct (u mod 2 ^ a =? (u / 2 ^ a) mod 2 ^ a) eqn:C.
    - right. split; auto. apply half; lia.
    - left. injection E as <-. split; auto. lia. }
  destruct H0 as [-> | ->]; unfold period.
  - destruct (L _ 32 ltac:(lia) H) as [(-> & N)|(E32 & K)].
    { split; [cbn; tauto|]. split; [lia|]. split; [|exact N]. specialize (B 64 ltac:(lia)). change (2 * 32) with 64. reps 64. lia. }
    cbn [Z.shiftr Z.shiftl Z.opp Z.div2 Pos.iter Pos.div2] in K.
    destruct (L _ 16 ltac:(lia) K) as [(-> & N)|(E16 & K1)].
    { split; [cbn; tauto|]. split; [lia|]. split; [|exact N]. specialize (B 32 ltac:(lia)). change (2 * 32) with 64. change (2 * 16) with 32. reps 32. cbn -[Z.modulo] in *. lia. }
    cbn [Z.shiftr Z.shiftl Z.opp Z.div2 Pos.iter Pos.div2] in K1.
    destruct (L _ 8 ltac:(lia) K1) as [(-> & N)|(E8 & K2)].
    { split; [cbn; tauto|]. split; [lia|]. split; [|exact N]. specialize (B 16 ltac:(lia)). change (2 * 32) with 64. change (2 * 8) with 16. reps 16. cbn -[Z.modulo] in *. lia. }
    cbn [Z.shiftr Z.shiftl Z.opp Z.div2 Pos.iter Pos.div2] in K2.
    destruct (L _ 4 ltac:(lia) K2) as [(-> & N)|(E4 & K3)].
    { split; [cbn; tauto|]. split; [lia|]. split; [|exact N]. specialize (B 8 ltac:(lia)). change (2 * 32) with 64. change (2 * 4) with 8. reps 8. cbn -[Z.modulo] in *. lia. }
    cbn [Z.shiftr Z.shiftl Z.opp Z.div2 Pos.iter Pos.div2] in K3.
    destruct (L _ 2 ltac:(lia) K3) as [(-> & N)|(E2 & K4)].
    { split; [cbn; tauto|]. split; [lia|]. split; [|exact N]. specialize (B 4 ltac:(lia)). change (2 * 32) with 64. change (2 * 2) with 4. reps 4. cbn -[Z.modulo] in *. lia. }
    cbn [Z.shiftr Z.shiftl Z.opp Z.div2 Pos.iter Pos.div2] in K4.
    destruct (L _ 1 ltac:(lia) K4) as [(-> & N)|(E1 & K5)].
    { split; [cbn; tauto|]. split; [lia|]. split; [|exact N]. specialize (B 2 ltac:(lia)). change (2 * 32) with 64. change (2 * 1) with 2. reps 2. cbn -[Z.modulo] in *. lia. }
    discriminate K5.
  - destruct (L _ 16 ltac:(lia) H) as [(-> & N)|(E16 & K1)].
    { split; [cbn; tauto|]. split; [lia|]. split; [|exact N]. specialize (B 32 ltac:(lia)). change (2 * 16) with 32. reps 32. cbn -[Z.modulo] in *. lia. }
    cbn [Z.shiftr Z.shiftl Z.opp Z.div2 Pos.iter Pos.div2] in K1.
    destruct (L _ 8 ltac:(lia) K1) as [(-> & N)|(E8 & K2)].
    { split; [cbn; tauto|]. split; [lia|]. split; [|exact N]. specialize (B 16 ltac:(lia)). change (2 * 16) with 32. change (2 * 8) with 16. reps 16. cbn -[Z.modulo] in *. lia. }
    cbn [Z.shiftr Z.shiftl Z.opp Z.div2 Pos.iter Pos.div2] in K2.
    destruct (L _ 4 ltac:(lia) K2) as [(-> & N)|(E4 & K3)].
    { split; [cbn; tauto|]. split; [lia|]. split; [|exact N]. specialize (B 8 ltac:(lia)). change (2 * 16) with 32. change (2 * 4) with 8. reps 8. cbn -[Z.modulo] in *. lia. }
    cbn [Z.shiftr Z.shiftl Z.opp Z.div2 Pos.iter Pos.div2] in K3.
    destruct (L _ 2 ltac:(lia) K3) as [(-> & N)|(E2 & K4)].
    { split; [cbn; tauto|]. split; [lia|]. split; [|exact N]. specialize (B 4 ltac:(lia)). change (2 * 16) with 32. change (2 * 2) with 4. reps 4. cbn -[Z.modulo] in *. lia. }
    cbn [Z.shiftr Z.shiftl Z.opp Z.div2 Pos.iter Pos.div2] in K4.
    destruct (L _ 1 ltac:(lia) K4) as [(-> & N)|(E1 & K5)].
    { split; [cbn; tauto|]. split; [lia|]. split; [|exact N]. specialize (B 2 ltac:(lia)). change (2 * 16) with 32. change (2 * 1) with 2. reps 2. cbn -[Z.modulo] in *. lia. }
    discriminate K5.
Qed.

(** The loop reaches SLJIT_UNREACHABLE only for the constants excluded by the assertion. *)
Lemma loop_total u l0 : l0 = 32 \/ l0 = 16 -> u mod 2 ^ (2 * l0) <> 0 -> u mod 2 ^ (2 * l0) <> 2 ^ (2 * l0) - 1 ->
  exists l, li_loop 8 u l0 = Some l.
Proof.
  intros H0 N0 N1.
  destruct (li_loop 8 u l0) as [l|] eqn:H; [eauto|exfalso].
  assert (L : forall f a, 0 < a -> li_loop (S f) u a = None ->
     u mod 2 ^ (a + a) = u mod 2 ^ a * (2 ^ a + 1) /\ li_loop f u (Z.shiftr a 1) = None).
  { intros f a Ha E. rewrite li_loop_step in E by lia.
    destruct (u mod 2 ^ a =? (u / 2 ^ a) mod 2 ^ a) eqn:C; [|discriminate]. split; auto. apply half; lia. }
  pose proof (Z.mod_pos_bound u (2 ^ 1) ltac:(lia)).
  destruct H0 as [-> | ->].
  - destruct (L _ 32 ltac:(lia) H) as (E32 & K). destruct (L _ 16 ltac:(lia) K) as (E16 & K1).
    destruct (L _ 8 ltac:(lia) K1) as (E8 & K2). destruct (L _ 4 ltac:(lia) K2) as (E4 & K3).
    destruct (L _ 2 ltac:(lia) K3) as (E2 & K4). destruct (L _ 1 ltac:(lia) K4) as (E1 & K5).
    cbn -[Z.modulo] in *. lia.
  - destruct (L _ 16 ltac:(lia) H) as (E16 & K1).
    destruct (L _ 8 ltac:(lia) K1) as (E8 & K2). destruct (L _ 4 ltac:(lia) K2) as (E4 & K3).
    destruct (L _ 2 ltac:(lia) K3) as (E2 & K4). destruct (L _ 1 ltac:(lia) K4) as (E1 & K5).
    cbn -[Z.modulo] in *. lia.
Qed.
