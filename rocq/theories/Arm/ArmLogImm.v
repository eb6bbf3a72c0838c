(** ARM64: logical_imm against DecodeBitMasks, load_immediate against the instruction set. *)
Require Import ZArith List Bool Lia Zify ZifyBool.
From Verif Require Import Rv.RvLib Rv.RvBits Arm.ArmIsa Arm.ArmEnc Arm.ArmImm Arm.ArmBits Arm.ArmImmProofs.
Import ListNotations.
Open Scope Z_scope.
Ltac Zify.zify_post_hook ::= idtac.


(** ** The run of ones *)
(** The element found by the tail: a run of [ones] ones above [r] zeros, or its complement. *)
Definition element (L : Z) (negated : bool) (ones r : Z) : Z :=
  if negated then 2 ^ L - 1 - (2 ^ ones - 1) * 2 ^ r else (2 ^ ones - 1) * 2 ^ r.
(** The field for these parameters. *)
Definition li_ins (L : Z) (negated : bool) (ones r : Z) : Z :=
  let ins := if L =? 64 then Z.shiftl 1 22 else u32 (Z.shiftl (u32 (0x3f - (Z.shiftl L 1 - 1))) 10) in
  if negated then ins .| u32 (Z.shiftl (u32 (L - ones - 1)) 10) .| u32 (Z.shiftl (u32 (L - ones - r)) 16)
  else ins .| u32 (Z.shiftl (u32 (ones - 1)) 10) .| u32 (Z.shiftl (u32 (L - r)) 16).

Lemma land1 u : u .& 0x1 = u mod 2.
Proof. apply (land_low u 1); lia. Qed.

Lemma tail_ok u L : In L lens64 -> isw u -> u mod 2 ^ (L / 2) <> (u / 2 ^ (L / 2)) mod 2 ^ (L / 2) ->
  exists r, li_tail u L = Some r /\
  (r = 0 \/ exists negated ones rg, 1 <= ones /\ 1 <= rg /\ ones + rg <= L /\
            u mod 2 ^ L = element L negated ones rg /\ r = li_ins L negated ones rg).
Proof.
  intros HL Hu HN.
  assert (L2 : L = L / 2 + L / 2 /\ 1 <= L / 2 /\ 2 <= L <= 64).
  { cbn in HL. repeat destruct HL as [<-|HL]; try (split; [reflexivity|]; cbn; lia). destruct HL. }
  destruct L2 as (L2 & Lh & LB).
  assert (PL : 0 < 2 ^ L) by (apply Z.pow_pos_nonneg; lia).
  assert (PH : 0 < 2 ^ (L / 2)) by (apply Z.pow_pos_nonneg; lia).
  assert (PLH : 2 ^ L = 2 ^ (L / 2) * 2 ^ (L / 2)) by (rewrite <- Z.pow_add_r by lia; f_equal; lia).
  assert (M : u mod 2 ^ L = u mod 2 ^ (L / 2) + (u / 2 ^ (L / 2)) mod 2 ^ (L / 2) * 2 ^ (L / 2)).
  { rewrite PLH, Z.rem_mul_r by lia. ring. }
  pose proof (Z.mod_pos_bound u (2 ^ (L / 2)) PH) as B1.
  pose proof (Z.mod_pos_bound (u / 2 ^ (L / 2)) (2 ^ (L / 2)) PH) as B2.
  pose proof (Z.mod_pos_bound u (2 ^ L) PL) as BL.
  assert (LE64 : 2 ^ L <= 2 ^ 64) by (apply Z.pow_le_mono_r; lia).
  assert (NZ : u mod 2 ^ L <> 0) by nia.
  assert (NO : u mod 2 ^ L <> 2 ^ L - 1) by nia.
  assert (MM : forall x, x mod 2 ^ L mod 2 = x mod 2).
  { intros x. replace (2 ^ L) with (2 * 2 ^ (L - 1)). 2: { rewrite <- Z.pow_succ_r by lia. f_equal. lia. }
    rewrite Z.rem_mul_r by (try apply Z.pow_nonzero; try apply Z.pow_pos_nonneg; lia).
    rewrite Z.mul_comm, Z_mod_plus_full. apply Z.mod_mod. lia. }
  unfold li_tail. rewrite land1. cbv zeta.
  set (neg := negb (u mod 2 =? 0)).
  set (u1 := if neg then wrap (Z.lnot u) else u).
  set (u2 := if L <? 64 then u1 .& (Z.shiftl 1 L - 1) else u1).
  assert (B1' : isw u1) by (unfold u1; destruct neg; [apply wrap_isw|auto]).
  assert (E2 : u2 = if neg then 2 ^ L - 1 - u mod 2 ^ L else u mod 2 ^ L).
  { assert (A : u2 = u1 mod 2 ^ L).
    { unfold u2. destruct (L <? 64) eqn:C; [apply land_mask_low; lia|].
      assert (L = 64) by lia. subst L. symmetry. apply Z.mod_small. exact B1'. }
    rewrite A. unfold u1. destruct neg; [|reflexivity]. unfold wrap.
    replace (2 ^ 64) with (2 ^ L * 2 ^ (64 - L)) by (rewrite <- Z.pow_add_r by lia; f_equal; lia).
    rewrite Z.rem_mul_r by (try apply Z.pow_nonzero; try apply Z.pow_pos_nonneg; lia).
    rewrite Z.mul_comm, Z_mod_plus_full, Z.mod_mod by lia.
    pose proof (Z.div_mod u (2 ^ L) ltac:(lia)).
    unfold Z.lnot. symmetry. apply Z.mod_unique with (- (u / 2 ^ L) - 1); [left; lia|]. lia. }
  assert (R2 : 0 < u2 < 2 ^ L) by (rewrite E2; destruct neg; lia).
  assert (EV : u2 mod 2 = 0).
  { rewrite E2. unfold neg. destruct (u mod 2 =? 0) eqn:C; cbn [negb]; [rewrite MM; lia|].
    pose proof (Z.mod_pos_bound u 2 ltac:(lia)). pose proof (MM u).
    assert (X : 2 ^ L = 2 * 2 ^ (L - 1)) by (rewrite <- Z.pow_succ_r by lia; f_equal; lia).
    pose proof (Z.div_mod (u mod 2 ^ L) 2 ltac:(lia)).
    symmetry. apply Z.mod_unique with (2 ^ (L - 1) - 1 - (u mod 2 ^ L) / 2); lia. }
  clearbody u2. clear u1 B1'.
  assert (W2 : isw u2) by (unfold isw; lia).
  destruct (ctz_ok u2) as (rg & q & C1 & V1 & J1 & O1). { fold (wrap u2). rewrite wrap_small by auto. lia. }
  rewrite C1.
  assert (P1 : 0 < 2 ^ rg) by (apply Z.pow_pos_nonneg; lia).
  assert (Q0 : 0 < q) by nia.
  assert (RG : 1 <= rg). { destruct (Z.eq_dec rg 0) as [->|]; [|lia]. rewrite Z.pow_0_r, Z.mul_1_r in V1. subst q. lia. }
  assert (X1 : 2 ^ rg = 2 * 2 ^ (rg - 1)) by (rewrite <- Z.pow_succ_r by lia; f_equal; lia).
  assert (P3 : 0 < 2 ^ (rg - 1)) by (apply Z.pow_pos_nonneg; lia).
  assert (Q1 : q < 2 ^ 63) by nia.
  assert (I1 : sw (Z.lnot q) = - q - 1) by (unfold sw, Z.lnot; rewrite sext_small by lia; lia).
  rewrite I1. replace (- q - 1 <? 0) with true by lia. cbn [negb].
  destruct (ctz_ok (- q - 1)) as (ones & q' & C2 & V2 & J2 & O2).
  { rewrite <- (Z.mod_add _ 1) by lia. rewrite Z.mod_small by lia. lia. }
  rewrite C2. destruct (Z.lnot q' =? 0) eqn:Z0; cbn [negb].
  2: { exists 0. auto. }
  exists (li_ins L neg ones rg). split.
  { unfold li_ins. destruct neg; reflexivity. }
  right. exists neg, ones, rg.
  assert (Q' : q' = -1) by (unfold Z.lnot in Z0; lia). subst q'.
  assert (P4 : 0 < 2 ^ ones) by (apply Z.pow_pos_nonneg; lia).
  assert (EQ : q = 2 ^ ones - 1) by lia.
  assert (ON : 1 <= ones). { destruct (Z.eq_dec ones 0) as [->|]; [|lia]. rewrite Z.pow_0_r in EQ. lia. }
  split; [auto|]. split; [auto|]. split; [|split; [|reflexivity]].
  - assert (X2 : 2 ^ ones = 2 * 2 ^ (ones - 1)) by (rewrite <- Z.pow_succ_r by lia; f_equal; lia).
    assert (P5 : 0 < 2 ^ (ones - 1)) by (apply Z.pow_pos_nonneg; lia).
    assert (2 ^ (ones - 1 + rg) < 2 ^ L) by (rewrite Z.pow_add_r by lia; nia).
    apply Z.pow_lt_mono_r_iff in H; lia.
  - unfold element. rewrite EQ in V1. rewrite <- V1, E2. destruct neg; lia.
Qed.

(** ** The specification *)
(** The field [f] (bits 22 to 10 of a logical instruction with immediate: N, immr, imms) stands
    for the constant [v] of an operation of [n] bits. *)
Definition encodes (n f v : Z) : Prop :=
  exists N imms immr t, 0 <= N < 2 /\ 0 <= imms < 64 /\ 0 <= immr < 64 /\
    f = N * 2 ^ 22 + immr * 2 ^ 16 + imms * 2 ^ 10 /\
    decode_bit_masks N imms immr true n = Some (v, t).

Definition zseq (a k : Z) : list Z := map (fun i => a + Z.of_nat i) (seq 0 (Z.to_nat k)).
Lemma in_zseq a k x : a <= x < a + k -> In x (zseq a k).
Proof.
  intros H. unfold zseq. apply in_map_iff. exists (Z.to_nat (x - a)). split; [lia|]. apply in_seq. lia.
Qed.

Definition ins_ok (n L : Z) (negated : bool) (ones r : Z) : bool :=
  let f := li_ins L negated ones r in
  match decode_bit_masks (fld f 22 1) (fld f 10 6) (fld f 16 6) true n with
  | Some (v, _) => v =? repeats n L (element L negated ones r)
  | None => false
  end && (f =? fld f 22 1 * 2 ^ 22 + fld f 16 6 * 2 ^ 16 + fld f 10 6 * 2 ^ 10).
Definition all_ins (n : Z) : bool :=
  forallb (fun L => if n <? L then true else
    forallb (fun r => forallb (fun ones => ins_ok n L true ones r && ins_ok n L false ones r) (zseq 1 (L - r))) (zseq 1 L)) lens64.
Lemma all_ins64 : all_ins 64 = true.
Proof. vm_compute. reflexivity. Qed.
Lemma all_ins32 : all_ins 32 = true.
Proof. vm_compute. reflexivity. Qed.

Lemma ins_good n L negated ones r : n = 64 \/ n = 32 -> In L lens64 -> L <= n -> 1 <= ones -> 1 <= r -> ones + r <= L ->
  ins_ok n L negated ones r = true.
Proof.
  intros Hn HL HLn Ho Hr Hs.
  assert (A : all_ins n = true) by (destruct Hn as [-> | ->]; [apply all_ins64|apply all_ins32]).
  unfold all_ins in A. rewrite forallb_forall in A. specialize (A L HL). replace (n <? L) with false in A by lia.
  rewrite forallb_forall in A. specialize (A r (in_zseq 1 L r ltac:(lia))).
  rewrite forallb_forall in A. specialize (A ones (in_zseq 1 (L - r) ones ltac:(lia))).
  apply andb_prop in A. destruct A, negated; auto.
Qed.

Lemma fld_range w a b k : k = 2 ^ b -> 0 <= a -> 0 <= b -> 0 <= fld w a b < k.
Proof. intros -> Ha Hb. rewrite fld_div by lia. apply Z.mod_pos_bound. apply Z.pow_pos_nonneg; lia. Qed.

(** The element size [n] in bits of the two operation sizes. *)
Lemma core_ok u l0 : l0 = 32 \/ l0 = 16 -> isw u ->
  u mod 2 ^ (2 * l0) <> 0 -> u mod 2 ^ (2 * l0) <> 2 ^ (2 * l0) - 1 ->
  exists l r, li_loop 8 u l0 = Some l /\ li_tail u (Z.shiftl l 1) = Some r /\
    (r = 0 \/ r <> 0 /\ encodes (2 * l0) r (u mod 2 ^ (2 * l0))).
Proof.
  intros H0 Hu N0 N1. destruct (loop_total u l0 H0 N0 N1) as (l & El).
  destruct (loop_ok u l0 l H0 El) as (Il & Ll & P & D).
  assert (HL : In (2 * l) lens64 /\ Z.shiftl l 1 = 2 * l /\ 2 * l / 2 = l).
  { cbn in Il. repeat destruct Il as [<-|Il]; try (split; [cbn; tauto|split; reflexivity]). destruct Il. }
  destruct HL as (HL & E2 & E3).
  destruct (tail_ok u (2 * l) HL Hu) as (r & Er & C). { rewrite E3. exact D. }
  exists l, r. split; auto. rewrite E2. split; auto.
  destruct C as [->|(negated & ones & rg & C1 & C2 & C3 & C4 & C5)]; [auto|].
  assert (G : ins_ok (2 * l0) (2 * l) negated ones rg = true) by (apply ins_good; auto; lia).
  unfold ins_ok in G. rewrite <- C5 in G.
  apply andb_prop in G. destruct G as (G2 & G3). destruct (Z.eq_dec r 0) as [->|Nr]; [auto|right]. split; [auto|].
  destruct (decode_bit_masks (fld r 22 1) (fld r 10 6) (fld r 16 6) true (2 * l0)) as [(v, t)|] eqn:Ed; [|discriminate].
  exists (fld r 22 1), (fld r 10 6), (fld r 16 6), t.
  split; [apply fld_range; lia|]. split; [apply fld_range; lia|]. split; [apply fld_range; lia|].
  split; [lia|]. rewrite Ed. f_equal. f_equal. rewrite P, C4. lia.
Qed.

(** The constant whose field is zero: it looks like a refusal. *)
Definition li_zero (n : Z) : Z := if n =? 64 then 0x100000001 else 1.
(** Every other constant with an encoding is accepted. *)
Definition accepts (n l0 : Z) : bool :=
  forallb (fun N => forallb (fun imms => forallb (fun immr =>
    match decode_bit_masks N imms immr true n with
    | None => true
    | Some (v, _) =>
        negb (v =? 0) && negb (v =? 2 ^ n - 1) &&
        match li_loop 8 v l0 with
        | None => false
        | Some l => match li_tail v (Z.shiftl l 1) with Some r => negb (r =? 0) || (v =? li_zero n) | None => false end
        end && (0 <=? v) && (v <? 2 ^ n)
    end) (zseq 0 64)) (zseq 0 64)) (zseq 0 2).
Lemma accepts64 : accepts 64 32 = true.
Proof. vm_compute. reflexivity. Qed.
Lemma accepts32 : accepts 32 16 = true.
Proof. vm_compute. reflexivity. Qed.

Lemma encodes_accepted l0 f v : l0 = 32 \/ l0 = 16 -> encodes (2 * l0) f v ->
  0 < v < 2 ^ (2 * l0) - 1 /\
  exists l r, li_loop 8 v l0 = Some l /\ li_tail v (Z.shiftl l 1) = Some r /\ (r <> 0 \/ v = li_zero (2 * l0)).
Proof.
  intros H0 (N & imms & immr & t & HN & Hs & Hr & _ & E).
  assert (A : accepts (2 * l0) l0 = true) by (destruct H0 as [-> | ->]; [apply accepts64|apply accepts32]).
  unfold accepts in A. rewrite forallb_forall in A. specialize (A N (in_zseq 0 2 N ltac:(lia))).
  rewrite forallb_forall in A. specialize (A imms (in_zseq 0 64 imms ltac:(lia))).
  rewrite forallb_forall in A. specialize (A immr (in_zseq 0 64 immr ltac:(lia))).
  rewrite E in A.
  apply andb_prop in A. destruct A as (A & A5). apply andb_prop in A. destruct A as (A & A4).
  apply andb_prop in A. destruct A as (A & A3). apply andb_prop in A. destruct A as (A1 & A2).
  split; [lia|]. destruct (li_loop 8 v l0) as [l|]; [|discriminate].
  destruct (li_tail v (Z.shiftl l 1)) as [r|] eqn:Er; [|discriminate]. exists l, r. repeat split; auto. lia.
Qed.

(** In the 32 bit mode only the low half of the constant matters. *)
Lemma mod_div_low a b u : 0 <= a -> 0 <= b -> (u mod 2 ^ (a + b) / 2 ^ a) mod 2 ^ b = (u / 2 ^ a) mod 2 ^ b.
Proof.
  intros Ha Hb. rewrite Z.pow_add_r by lia.
  assert (0 < 2 ^ a) by (apply Z.pow_pos_nonneg; lia). assert (0 < 2 ^ b) by (apply Z.pow_pos_nonneg; lia).
  rewrite Z.rem_mul_r by lia. rewrite (Z.mul_comm (2 ^ a)), Z.div_add by lia.
  rewrite (Z.div_small (u mod 2 ^ a)) by (apply Z.mod_pos_bound; lia). rewrite Z.add_0_l. apply Z.mod_mod. lia.
Qed.
Lemma mod_mod_low a b u : 0 <= a <= b -> u mod 2 ^ b mod 2 ^ a = u mod 2 ^ a.
Proof.
  intros H. replace b with (a + (b - a)) by lia. rewrite Z.pow_add_r by lia.
  assert (0 < 2 ^ a) by (apply Z.pow_pos_nonneg; lia). assert (0 < 2 ^ (b - a)) by (apply Z.pow_pos_nonneg; lia).
  rewrite Z.rem_mul_r by lia. rewrite Z.mul_comm, Z_mod_plus_full. apply Z.mod_mod. lia.
Qed.
Lemma li_loop_low f u l : 0 <= l <= 16 -> li_loop f (u mod 2 ^ 32) l = li_loop f u l.
Proof.
  revert l. induction f as [|f IH]; intros l Hl; [reflexivity|].
  destruct (Z.eq_dec l 0) as [->|N]; [reflexivity|].
  rewrite !li_loop_step by lia. rewrite mod_mod_low by lia.
  assert (E : (u mod 2 ^ 32 / 2 ^ l) mod 2 ^ l = (u / 2 ^ l) mod 2 ^ l).
  { rewrite <- (mod_mod_low l (32 - l) (u mod 2 ^ 32 / 2 ^ l)) by lia.
    replace (2 ^ 32) with (2 ^ (l + (32 - l))) by (f_equal; lia).
    rewrite mod_div_low by lia. apply mod_mod_low. lia. }
  rewrite E, IH; [reflexivity|].
  rewrite Z.shiftr_div_pow2 by lia. split; [apply Z.div_pos; lia|]. apply Z.div_le_upper_bound; lia.
Qed.
Lemma li_tail_low u L : In L [32; 16; 8; 4; 2] -> isw u -> li_tail (u mod 2 ^ 32) L = li_tail u L.
Proof.
  intros HL Hu. assert (B : 2 <= L <= 32) by (cbn in HL; lia).
  assert (E2 : u mod 2 ^ 32 mod 2 = u mod 2) by (apply (mod_mod_low 1 32); lia).
  unfold li_tail. rewrite !land1, E2. cbv zeta.
  set (neg := negb (u mod 2 =? 0)). replace (L <? 64) with true by lia. rewrite !land_mask_low by lia.
  replace ((if neg then wrap (Z.lnot (u mod 2 ^ 32)) else u mod 2 ^ 32) mod 2 ^ L) with
    ((if neg then wrap (Z.lnot u) else u) mod 2 ^ L); [reflexivity|].
  destruct neg; [|symmetry; apply mod_mod_low; lia].
  unfold wrap. rewrite !mod_mod_low by lia. rewrite <- (mod_mod_low L 32 (Z.lnot u)) by lia.
  rewrite <- (mod_mod_low L 32 (Z.lnot (u mod 2 ^ 32))) by lia. f_equal. unfold Z.lnot.
  pose proof (Z.div_mod u (2 ^ 32) ltac:(lia)). pose proof (Z.mod_pos_bound u (2 ^ 32) ltac:(lia)).
  transitivity (2 ^ 32 - 1 - u mod 2 ^ 32).
  - symmetry. apply Z.mod_unique with (- (u / 2 ^ 32) - 1); [left|]; lia.
  - apply Z.mod_unique with (-1); [left|]; lia.
Qed.

(** ** logical_imm *)
Definition sword (x : Z) : Prop := - 2 ^ 63 <= x < 2 ^ 63.
(** The argument [len] of a call for an operation of [n] bits, with or without the check. *)
Definition li_len (n : Z) (check : bool) : Z := (if check then LOGICAL_IMM_CHECK else 0) + n / 2.

Lemma s32_eq0 x : (s32 x =? 0) = (x mod 2 ^ 32 =? 0).
Proof.
  unfold s32, sext. cbv zeta. pose proof (Z.mod_pos_bound x (2 ^ 32) ltac:(lia)).
  destruct (x mod 2 ^ 32 <? 2 ^ (32 - 1)) eqn:C; lia.
Qed.
Lemma s32_eqm1 x : (s32 x =? -1) = (x mod 2 ^ 32 =? 2 ^ 32 - 1).
Proof.
  unfold s32, sext. cbv zeta. pose proof (Z.mod_pos_bound x (2 ^ 32) ltac:(lia)).
  destruct (x mod 2 ^ 32 <? 2 ^ (32 - 1)) eqn:C; lia.
Qed.
Lemma sword_eq0 x : sword x -> (x =? 0) = (x mod 2 ^ 64 =? 0).
Proof. unfold sword. intros H. Z.div_mod_to_equations. lia. Qed.
Lemma sword_eqm1 x : sword x -> (x =? -1) = (x mod 2 ^ 64 =? 2 ^ 64 - 1).
Proof. unfold sword. intros H. Z.div_mod_to_equations. lia. Qed.

(** logical_imm with the special cases in terms of the low [n] bits. *)
Lemma logical_imm_eq imm n check : n = 64 \/ n = 32 -> sword imm ->
  logical_imm imm (li_len n check) =
  if (imm mod 2 ^ n =? 0) || (imm mod 2 ^ n =? 2 ^ n - 1) then (if check then Some 0 else None)
  else match li_loop 8 (wrap imm) (n / 2) with None => None | Some l => li_tail (wrap imm) (Z.shiftl l 1) end.
Proof.
  intros [-> | ->] H; unfold logical_imm, li_len; destruct check;
    change (LOGICAL_IMM_CHECK + 64 / 2) with 0x120; change (LOGICAL_IMM_CHECK + 32 / 2) with 0x110;
    change (0 + 64 / 2) with 32; change (0 + 32 / 2) with 16;
    change (negb (0x120 .& LOGICAL_IMM_CHECK =? 0)) with true; change (negb (0x110 .& LOGICAL_IMM_CHECK =? 0)) with true;
    change (negb (32 .& LOGICAL_IMM_CHECK =? 0)) with false; change (negb (16 .& LOGICAL_IMM_CHECK =? 0)) with false;
    cbv beta iota zeta;
    try change (Z.ldiff 0x120 LOGICAL_IMM_CHECK) with 32; try change (Z.ldiff 0x110 LOGICAL_IMM_CHECK) with 16;
    rewrite ?s32_eq0, ?s32_eqm1, ?(sword_eq0 imm H), ?(sword_eqm1 imm H); cbn [Z.eqb Pos.eqb andb orb].
  - destruct (imm mod 2 ^ 64 =? 0), (imm mod 2 ^ 64 =? 2 ^ 64 - 1); reflexivity.
  - destruct (imm mod 2 ^ 64 =? 0), (imm mod 2 ^ 64 =? 2 ^ 64 - 1); reflexivity.
  - destruct (imm mod 2 ^ 32 =? 0), (imm mod 2 ^ 32 =? 2 ^ 32 - 1); reflexivity.
  - destruct (imm mod 2 ^ 32 =? 0), (imm mod 2 ^ 32 =? 2 ^ 32 - 1); reflexivity.
Qed.

Theorem logical_imm_total imm n check : n = 64 \/ n = 32 -> sword imm ->
  check = true \/ imm mod 2 ^ n <> 0 /\ imm mod 2 ^ n <> 2 ^ n - 1 ->
  exists r, logical_imm imm (li_len n check) = Some r.
Proof.
  intros Hn H C. rewrite logical_imm_eq by auto.
  destruct ((imm mod 2 ^ n =? 0) || (imm mod 2 ^ n =? 2 ^ n - 1)) eqn:E.
  - destruct check; [eauto|]. destruct C as [C|C]; [discriminate|]. lia.
  - assert (X : wrap imm mod 2 ^ n = imm mod 2 ^ n) by (unfold wrap; apply mod_mod_low; lia).
    replace n with (2 * (n / 2)) in E, X by (destruct Hn as [-> | ->]; reflexivity).
    destruct (core_ok (wrap imm) (n / 2)) as (l & r & -> & -> & _); eauto.
    + destruct Hn as [-> | ->]; auto.
    + apply wrap_isw.
    + lia.
    + lia.
Qed.

Theorem logical_imm_sound imm n check r : n = 64 \/ n = 32 -> sword imm ->
  logical_imm imm (li_len n check) = Some r -> r <> 0 -> encodes n r (imm mod 2 ^ n).
Proof.
  intros Hn H E N0. rewrite logical_imm_eq in E by auto.
  destruct ((imm mod 2 ^ n =? 0) || (imm mod 2 ^ n =? 2 ^ n - 1)) eqn:E0.
  - destruct check; congruence.
  - assert (X : wrap imm mod 2 ^ n = imm mod 2 ^ n) by (unfold wrap; apply mod_mod_low; lia).
    assert (N2 : n = 2 * (n / 2)) by (destruct Hn as [-> | ->]; reflexivity).
    destruct (core_ok (wrap imm) (n / 2)) as (l & r' & E1 & E2 & C).
    + destruct Hn as [-> | ->]; auto.
    + apply wrap_isw.
    + rewrite <- N2. lia.
    + rewrite <- N2. lia.
    + rewrite E1, E2 in E. injection E as ->. rewrite <- N2, X in C. destruct C as [C|(_ & C)]; [lia|exact C].
Qed.

Theorem logical_imm_complete imm n check : n = 64 \/ n = 32 -> sword imm ->
  logical_imm imm (li_len n check) = Some 0 -> 
  forall f, encodes n f (imm mod 2 ^ n) -> imm mod 2 ^ n = li_zero n.
Proof.
  intros Hn H E f He. rewrite logical_imm_eq in E by auto.
  assert (N2 : n = 2 * (n / 2)) by (destruct Hn as [-> | ->]; reflexivity).
  assert (He' := He). rewrite N2 in He'.
  destruct (encodes_accepted (n / 2) f _ ltac:(destruct Hn as [-> | ->]; auto) He') as (B & l & r & E1 & E2 & Nr).
  rewrite <- N2 in B, E1, E2, Nr. destruct Nr as [Nr|Nr]; [exfalso|exact Nr].
  replace ((imm mod 2 ^ n =? 0) || (imm mod 2 ^ n =? 2 ^ n - 1)) with false in E by lia.
  destruct Hn as [-> | ->].
  - fold (wrap imm) in E1, E2. change (64 / 2) with 32 in *. rewrite E1, E2 in E. congruence.
  - change (32 / 2) with 16 in *.
    replace (imm mod 2 ^ 32) with (wrap imm mod 2 ^ 32) in E1, E2 by (unfold wrap; apply mod_mod_low; lia).
    rewrite li_loop_low in E1 by lia. rewrite E1 in E.
    destruct (loop_ok (wrap imm) 16 l ltac:(auto) E1) as (Il & Ll & _).
    rewrite li_tail_low in E2; [congruence| |apply wrap_isw].
    cbn in Il. repeat destruct Il as [<-|Il]; try (cbn; tauto); try lia.
Qed.

Lemma logical_imm_only_zero imm n check : n = 64 \/ n = 32 -> sword imm ->
  logical_imm imm (li_len n check) = Some 0 ->
  (exists N imms immr t, 0 <= N < 2 /\ 0 <= imms < 64 /\ 0 <= immr < 64 /\
     decode_bit_masks N imms immr true n = Some (imm mod 2 ^ n, t)) ->
  imm mod 2 ^ n = li_zero n.
Proof.
  intros Hn H E (N & imms & immr & t & A & B & C & D).
  apply (logical_imm_complete imm n check Hn H E (N * 2 ^ 22 + immr * 2 ^ 16 + imms * 2 ^ 10)).
  exists N, imms, immr, t. auto.
Qed.
Lemma logical_imm_zero_refuted : exists imm n, n = 64 /\ sword imm /\ logical_imm imm (li_len n true) = Some 0 /\
  exists t, decode_bit_masks 0 0 0 true n = Some (imm mod 2 ^ n, t).
Proof.
  exists 0x100000001, 64. split; [reflexivity|]. split; [unfold sword; lia|].
  split; [vm_compute; reflexivity|]. exists 0x100000001. vm_compute. reflexivity.
Qed.
Lemma logical_imm_zero32_refuted : exists imm n, n = 32 /\ sword imm /\ logical_imm imm (li_len n true) = Some 0 /\
  exists t, decode_bit_masks 0 0 0 true n = Some (imm mod 2 ^ n, t).
Proof.
  exists 1, 32. split; [reflexivity|]. split; [unfold sword; lia|].
  split; [vm_compute; reflexivity|]. exists 1. vm_compute. reflexivity.
Qed.
