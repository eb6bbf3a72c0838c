(** PowerPC64: words, values of the instructions, immediates and constants (C51). *)
Require Import ZArith List Bool Lia Zify ZifyBool.
From Verif Require Import Rv.RvLib Rv.RvBits Imm.ImmLib Imm.PpIsa Imm.PpModel Imm.PpSpec.
From Verif Require Imm.MsModel Imm.MsProofs.
Import ListNotations.
Open Scope Z_scope.
Ltac Zify.zify_post_hook ::= idtac.

Definition mod_b := MsProofs.mod_b.
Definition sext_low := MsProofs.sext_low.
Definition div_back := MsProofs.div_back.
Definition mod_back := MsProofs.mod_back.
Definition two16 := MsProofs.two16.
Definition low_test : forall x n m, 0 <= n -> m = Z.ones n -> (x .& m =? 0) = (x mod 2 ^ n =? 0) := MsProofs.low_test.
Definition div_mod_swap := MsProofs.div_mod_swap.
Lemma IMM_eq x : IMM x = x mod 2 ^ 16.
Proof. exact (MsProofs.IMM_eq x). Qed.

(** ** Decoding *)
Lemma dec_addi d i : 0 <= d < 32 -> 0 <= i < 65536 -> decode (ADDI .| Dn d .| An 0 .| i) = Some (Addi_ d 0 i).
Proof. intros. unfold decode, Dn, An. ifs. Qed.
Lemma dec_addis d i : 0 <= d < 32 -> 0 <= i < 65536 -> decode (ADDIS .| Dn d .| An 0 .| i) = Some (Addis_ d 0 i).
Proof. intros. unfold decode, Dn, An. ifs. Qed.
Lemma dec_ori d j i : 0 <= d < 32 -> 0 <= j < 32 -> 0 <= i < 65536 -> decode (ORI .| Dn j .| An d .| i) = Some (Ori_ d j i).
Proof. intros. unfold decode, Dn, An. ifs. Qed.
Lemma dec_oris d j i : 0 <= d < 32 -> 0 <= j < 32 -> 0 <= i < 65536 -> decode (ORIS .| Dn j .| An d .| i) = Some (Oris_ d j i).
Proof. intros. unfold decode, Dn, An. ifs. Qed.
Lemma fin64 (P : Z -> bool) : forallb (fun n => P (Z.of_nat n)) (seq 0 64) = true -> forall n, 0 <= n < 64 -> P n = true.
Proof. intros H n Hn. rewrite forallb_forall in H. specialize (H (Z.to_nat n) ltac:(apply in_seq; lia)). rewrite Z2Nat.id in H by lia. exact H. Qed.
Lemma sh_eq n : 0 <= n < 64 -> RLDI_SH n = Z.shiftl (n mod 32) 11 .| Z.shiftl (n / 32) 1.
Proof. intros H. apply Z.eqb_eq. revert n H. apply (fin64 (fun n => RLDI_SH n =? (Z.shiftl (n mod 32) 11 .| Z.shiftl (n / 32) 1))). vm_compute. reflexivity. Qed.
Lemma me_eq n : 0 <= n < 64 -> RLDI_ME n = Z.shiftl (n mod 32) 6 .| Z.shiftl (n / 32) 5.
Proof. intros H. apply Z.eqb_eq. revert n H. apply (fin64 (fun n => RLDI_ME n =? (Z.shiftl (n mod 32) 6 .| Z.shiftl (n / 32) 5))). vm_compute. reflexivity. Qed.
Lemma dec_rldicr d j n m : 0 <= d < 32 -> 0 <= j < 32 -> 0 <= n < 64 -> 0 <= m < 64 ->
  decode (RLDICR .| Dn j .| An d .| RLDI_SH n .| RLDI_ME m) = Some (Rldicr_ d j n m).
Proof.
  intros Hd Hj Hn Hm. rewrite sh_eq, me_eq by lia.
  pose proof (Z.div_mod n 32 ltac:(lia)) as Dn'. pose proof (Z.div_mod m 32 ltac:(lia)) as Dm'.
  pose proof (Z.mod_pos_bound n 32 ltac:(lia)) as B1. pose proof (Z.mod_pos_bound m 32 ltac:(lia)) as B2.
  assert (B3 : 0 <= n / 32 < 2) by lia. assert (B4 : 0 <= m / 32 < 2) by lia.
  assert (E1 : n = n mod 32 + 32 * (n / 32)) by lia. assert (E2 : m = m mod 32 + 32 * (m / 32)) by lia.
  rewrite E1 at 3. rewrite E2 at 3. clear E1 E2 Dn' Dm'.
  set (l := n mod 32) in *. set (h := n / 32) in *. set (l' := m mod 32) in *. set (h' := m / 32) in *. clearbody l h l' h'. clear Hn Hm.
  unfold decode, Dn, An. ifs.
Qed.

(** ** Single instructions *)
Lemma goes_trans so code a s b s' c s'' : goes so code a s b s' -> goes so code b s' c s'' -> goes so code a s c s''.
Proof. apply runs_trans. Qed.
Lemma goes_0 so code a s : goes so code a s a s.
Proof. constructor. Qed.
Lemma shl_val x n : isw x -> 0 <= n < 64 -> Z.land (rotl x n) (mask (63 - n)) = wrap (x * 2 ^ n).
Proof.
  intros Hx Hn. unfold rotl, mask. replace (63 - (63 - n)) with n by lia. rewrite Z.land_lor_distr_l. rewrite Z.shiftl_mul_pow2, shr_div by lia.
  pose proof (pow_pos n ltac:(lia)) as Pn. pose proof (pow_pos (64 - n) ltac:(lia)) as Pm.
  assert (P : 2 ^ 64 = 2 ^ (64 - n) * 2 ^ n) by (rewrite <- Z.pow_add_r by lia; f_equal; lia).
  assert (M : 2 ^ 64 - 2 ^ n = (2 ^ (64 - n) - 1) * 2 ^ n) by lia. unfold isw in Hx.
  rewrite !(land_mask _ n (64 - n) (2 ^ 64 - 2 ^ n)) by lia.
  replace (x / 2 ^ (64 - n) / 2 ^ n) with 0.
  2:{ rewrite Z.div_div by lia. rewrite <- P. symmetry. apply Z.div_small. lia. }
  rewrite Z.mod_0_l, Z.mul_0_l, Z.lor_0_r by lia.
  unfold wrap. rewrite P. rewrite Z.mul_mod_distr_r by lia. rewrite Z.div_mul by lia. rewrite Z.mod_mod by lia. reflexivity.
Qed.
Section Instr.
  Variables (so : Z) (code : Z -> Z) (a : Z) (s : regs) (d : Z).
  Hypothesis Hd : 0 <= d < 32.
  Notation "'ends' v" := (exists s', goes so code a s (a + 4) s' /\ only s s' d v) (at level 10).
  Lemma go_upd w v : code (wrap a) = w -> step so (fun _ => w) (wrap a, s) = Some (wrap (wrap a + 4), upd s d v) -> ends v.
  Proof.
    intros C D. exists (upd s d v). split; [|apply only_upd]. apply runs_1. unfold step in *. rewrite C. rewrite D, wrap_add_l. reflexivity.
  Qed.
  Lemma go_addi v : 0 <= v < 65536 -> code (wrap a) = (ADDI .| Dn d .| An 0 .| v) -> ends (wrap (sext 16 v)).
  Proof. intros Hv C. apply (go_upd _ _ C). unfold step. rewrite dec_addi by lia. reflexivity. Qed.
  Lemma go_addis v : 0 <= v < 65536 -> code (wrap a) = (ADDIS .| Dn d .| An 0 .| v) -> ends (wrap (sext 16 v * 2 ^ 16)).
  Proof. intros Hv C. apply (go_upd _ _ C). unfold step. rewrite dec_addis by lia. reflexivity. Qed.
  Lemma go_ori v q k : 0 <= v < 65536 -> 0 <= k <= 64 -> v < 2 ^ k -> s d = wrap (q * 2 ^ k) -> code (wrap a) = (ORI .| Dn d .| An d .| v) ->
    ends (wrap (q * 2 ^ k + v)).
  Proof. intros Hv Hk Hx V C. apply (go_upd _ _ C). unfold step. rewrite dec_ori by lia. cbv zeta. rewrite V, lor_wrap_low by lia. reflexivity. Qed.
  Lemma go_oris v q k : 0 <= v < 65536 -> 0 <= k <= 64 -> v * 2 ^ 16 < 2 ^ k -> s d = wrap (q * 2 ^ k) -> code (wrap a) = (ORIS .| Dn d .| An d .| v) ->
    ends (wrap (q * 2 ^ k + v * 2 ^ 16)).
  Proof. intros Hv Hk Hx V C. apply (go_upd _ _ C). unfold step. rewrite dec_oris by lia. cbv zeta. rewrite V, lor_wrap_low by lia. reflexivity. Qed.
  Lemma go_oriz v : 0 <= v < 65536 -> s 31 = 0 -> code (wrap a) = (ORI .| D_ TMP_ZERO .| An d .| v) -> ends v.
  Proof. intros Hv Z0 C. apply (go_upd _ _ C). change (D_ TMP_ZERO) with (Dn 31). unfold step. rewrite dec_ori by lia. cbv zeta. rewrite Z0, Z.lor_0_l. reflexivity. Qed.
  Lemma go_orisz v : 0 <= v < 65536 -> s 31 = 0 -> code (wrap a) = (ORIS .| D_ TMP_ZERO .| An d .| v) -> ends (v * 2 ^ 16).
  Proof. intros Hv Z0 C. apply (go_upd _ _ C). change (D_ TMP_ZERO) with (Dn 31). unfold step. rewrite dec_oris by lia. cbv zeta. rewrite Z0, Z.lor_0_l. reflexivity. Qed.
  Lemma go_sldi sh X n : 0 <= sh < 64 -> s d = wrap X -> code (wrap a) = SLDI_NEG d sh -> n = 63 - sh -> ends (wrap (X * 2 ^ n)).
  Proof.
    intros Hn V C ->. apply (go_upd _ _ C). unfold step, SLDI_NEG. rewrite dec_rldicr by lia. cbv zeta.
    replace sh with (63 - (63 - sh)) at 2 by lia. rewrite V, shl_val by (try apply wrap_isw; lia). rewrite wrap_mul_l. reflexivity.
  Qed.
End Instr.
Lemma imm_b x : 0 <= IMM x < 65536.
Proof. rewrite IMM_eq. change 65536 with (2 ^ 16). apply mod_b. lia. Qed.

(** ORI left out when it would add nothing. *)
Lemma go_opt so code a s d x q k ws tl : 0 <= d < 32 -> 0 <= k <= 64 -> x mod 2 ^ 16 < 2 ^ k -> s d = wrap (q * 2 ^ k) ->
  ws = (if x mod 2 ^ 16 =? 0 then [] else [ORI .| Dn d .| An d .| IMM x]) -> code_at 4 (ws ++ tl) a code ->
  exists s', goes so code a s (a + 4 * Z.of_nat (length ws)) s' /\ only s s' d (wrap (q * 2 ^ k + x mod 2 ^ 16)) /\ code_at 4 tl (a + 4 * Z.of_nat (length ws)) code.
Proof.
  intros Hd Hk Hx V -> C. apply code_at_app in C. destruct C as (C & Ct). destruct (x mod 2 ^ 16 =? 0) eqn:E.
  - exists s. split; [|split; [|exact Ct]].
    + replace (a + 4 * Z.of_nat (length (@nil Z))) with a by (cbn [length]; lia). apply goes_0.
    + apply Z.eqb_eq in E. rewrite E, Z.add_0_r. split; auto.
  - destruct C as (C & _). rewrite <- (IMM_eq x) in *. destruct (go_ori so code a s d Hd (IMM x) q k (imm_b x) Hk Hx V C) as (s1 & G1 & O1). exists s1. auto.
Qed.
Lemma log2_span t : 0 < t -> 2 ^ Z.log2 t <= t < 2 ^ (Z.log2 t + 1).
Proof. intros H. pose proof (Z.log2_spec t H). replace (Z.log2 t + 1) with (Z.succ (Z.log2 t)) by lia. exact H0. Qed.
(** The shifted immediate: the first bit is directly below the sign. *)
Lemma clz1_ok imm : - 2 ^ 63 <= imm < 2 ^ 63 -> ~ - 2 ^ 31 <= imm < 2 ^ 31 ->
  let sh := clz (if 0 <=? imm then imm else - imm - 1) - 1 in
  0 <= sh <= 31 /\ - 2 ^ 63 <= imm * 2 ^ sh < 2 ^ 63.
Proof.
  intros Hi Ho. set (t := if 0 <=? imm then imm else - imm - 1). assert (Et : t = if 0 <=? imm then imm else - imm - 1) by reflexivity. clearbody t.
  assert (Ht : 2 ^ 31 <= t < 2 ^ 63) by (destruct (0 <=? imm) eqn:E; lia). unfold clz. cbv zeta.
  pose proof (log2_span t ltac:(lia)) as L. assert (L1 : Z.log2 t < 63) by (apply Z.log2_lt_pow2; lia). assert (L2 : 31 <= Z.log2 t) by (apply Z.log2_le_pow2; lia).
  split; [lia|]. set (sh := 63 - Z.log2 t - 1). assert (Esh : sh = 62 - Z.log2 t) by (unfold sh; lia). clearbody sh.
  assert (P : 2 ^ 63 = 2 ^ (Z.log2 t + 1) * 2 ^ sh) by (rewrite <- Z.pow_add_r by lia; f_equal; lia).
  pose proof (pow_pos sh ltac:(lia)). assert (t * 2 ^ sh < 2 ^ 63) by nia. destruct (0 <=? imm) eqn:E.
  - subst t. split; [|lia]. nia.
  - assert (t + 1 <= 2 ^ (Z.log2 t + 1)) by lia. assert ((t + 1) * 2 ^ sh <= 2 ^ 63) by nia. replace imm with (- (t + 1)) by lia. nia.
Qed.
Lemma top16 T : - 2 ^ 63 <= T < 2 ^ 63 -> sext 16 (wrap T / 2 ^ 48) = T / 2 ^ 48 /\ u32 (Z.shiftr (wrap T) 48) = wrap T / 2 ^ 48 /\ 0 <= wrap T / 2 ^ 48 < 65536.
Proof.
  intros HT. pose proof (wrap_isw T) as W. unfold isw in W.
  assert (B : 0 <= wrap T / 2 ^ 48 < 65536) by (split; [apply Z.div_pos; lia|apply Z.div_lt_upper_bound; lia]).
  split; [|split; [|exact B]].
  - unfold wrap. change 64 with (48 + 16). rewrite <- div_mod_swap by lia. rewrite sext_low by lia. apply sext_small; [lia|].
    change (2 ^ (16 - 1)) with (2 ^ 15). split; [apply Z.div_le_lower_bound; lia|apply Z.div_lt_upper_bound; lia].
  - unfold u32. rewrite shr_div by lia. apply Z.mod_small. lia.
Qed.
Lemma mul_div x a b : 0 <= a -> 0 <= b -> (x * 2 ^ a) / 2 ^ (b + a) = x / 2 ^ b.
Proof. intros. rewrite Z.pow_add_r by lia. apply Z.div_mul_cancel_r; pose proof (pow_pos a); pose proof (pow_pos b); lia. Qed.
Lemma mul_mod x a b : 0 <= a -> 0 <= b -> (x * 2 ^ a) mod 2 ^ (b + a) = x mod 2 ^ b * 2 ^ a.
Proof. intros. rewrite Z.pow_add_r by lia. apply Z.mul_mod_distr_r; pose proof (pow_pos a); pose proof (pow_pos b); lia. Qed.
Lemma low_zero T x a b n m : 0 <= a -> 0 <= b -> n = b + a -> T = x * 2 ^ a -> m = Z.ones n -> n <= 64 -> (wrap T .& m =? 0) = (x mod 2 ^ b =? 0).
Proof.
  intros Ha Hb -> -> -> Hn. rewrite Z.land_ones by lia. unfold wrap. rewrite mod_back by lia. rewrite mul_mod by lia. pose proof (pow_pos a Ha).
  pose proof (mod_b x b Hb). nia.
Qed.

(** addis, ori, sldi 32, oris, ori. *)
Lemma go_32 so code a s d v tl : 0 <= d < 32 ->
  code_at 4 ((ADDIS .| Dn d .| An 0 .| IMM (Z.shiftr v 16)) :: (ORI .| Dn d .| An d .| IMM v) :: tl) a code ->
  exists s', goes so code a s (a + 8) s' /\ only s s' d (wrap (sext 32 v)) /\ code_at 4 tl (a + 8) code.
Proof.
  intros Hd (C1 & C2 & C3). destruct (go_addis so code a s d Hd _ (imm_b _) C1) as (s1 & G1 & O1).
  destruct (go_ori so code _ s1 d Hd _ _ 16 (imm_b _) ltac:(lia) (proj2 (imm_b _)) (proj1 O1) C2) as (s2 & G2 & O2).
  rewrite !IMM_eq, sext_low, shr_div, two16 in O2 by lia. exists s2. replace (a + 8) with (a + 4 + 4) by lia.
  split; [eapply goes_trans; eauto|]. split; [eapply only_trans; eauto|exact C3].
Qed.
Lemma go_48 so code a s d v tl w : 0 <= d < 32 -> w = SLDI_NEG d 47 ->
  code_at 4 ((ADDIS .| Dn d .| An 0 .| IMM (Z.shiftr v 32)) :: (ORI .| Dn d .| An d .| IMM (Z.shiftr v 16)) :: w :: (ORI .| Dn d .| An d .| IMM v) :: tl) a code ->
  exists s', goes so code a s (a + 16) s' /\ only s s' d (wrap (sext 32 (v / 2 ^ 16) * 2 ^ 16 + v mod 2 ^ 16)) /\ code_at 4 tl (a + 16) code.
Proof.
  intros Hd -> C. replace (Z.shiftr v 32) with (Z.shiftr (Z.shiftr v 16) 16) in C by (rewrite Z.shiftr_shiftr by lia; reflexivity).
  destruct (go_32 so code a s d _ _ Hd C) as (s1 & G1 & O1 & (C1 & C2 & C3)).
  destruct (go_sldi so code _ s1 d Hd 47 _ 16 ltac:(lia) (proj1 O1) C1 eq_refl) as (s2 & G2 & O2).
  destruct (go_ori so code _ s2 d Hd _ _ 16 (imm_b _) ltac:(lia) (proj2 (imm_b _)) (proj1 O2) C2) as (s3 & G3 & O3).
  rewrite IMM_eq, shr_div in O3 by lia. exists s3. replace (a + 16) with (a + 8 + 4 + 4) by lia.
  split; [eapply goes_trans; [exact G1|]; eapply goes_trans; eauto|]. split; [eapply only_trans; [exact O1|]; eapply only_trans; eauto|exact C3].
Qed.
Lemma go_64 so code a s d v tl w : 0 <= d < 32 -> w = SLDI_NEG d 31 ->
  code_at 4 ((ADDIS .| Dn d .| An 0 .| IMM (Z.shiftr v 48)) :: (ORI .| Dn d .| An d .| IMM (Z.shiftr v 32)) :: w ::
             (ORIS .| Dn d .| An d .| IMM (Z.shiftr v 16)) :: (ORI .| Dn d .| An d .| IMM v) :: tl) a code ->
  exists s', goes so code a s (a + 20) s' /\ only s s' d (wrap v) /\ code_at 4 tl (a + 20) code.
Proof.
  intros Hd -> C. replace (Z.shiftr v 48) with (Z.shiftr (Z.shiftr v 32) 16) in C by (rewrite Z.shiftr_shiftr by lia; reflexivity).
  destruct (go_32 so code a s d _ _ Hd C) as (s1 & G1 & O1 & (C1 & C2 & C3 & C4)).
  destruct (go_sldi so code _ s1 d Hd 31 _ 32 ltac:(lia) (proj1 O1) C1 eq_refl) as (s2 & G2 & O2).
  destruct (go_oris so code _ s2 d Hd (IMM (Z.shiftr v 16)) _ 32 (imm_b _) ltac:(lia) ltac:(pose proof (imm_b (Z.shiftr v 16)); lia) (proj1 O2) C2) as (s3 & G3 & O3).
  set (X := sext 32 (Z.shiftr v 32) * 2 ^ 32 + IMM (Z.shiftr v 16) * 2 ^ 16) in *.
  assert (EX : X = (sext 32 (Z.shiftr v 32) * 2 ^ 16 + IMM (Z.shiftr v 16)) * 2 ^ 16) by (unfold X; lia).
  pose proof O3 as O3'. rewrite EX in O3'.
  destruct (go_ori so code _ s3 d Hd _ _ 16 (imm_b _) ltac:(lia) (proj2 (imm_b _)) (proj1 O3') C3) as (s4 & G4 & O4).
  exists s4. replace (a + 20) with (a + 8 + 4 + 4 + 4) by lia.
  split; [eapply goes_trans; [exact G1|]; eapply goes_trans; [exact G2|]; eapply goes_trans; eauto|].
  split; [|exact C4]. eapply only_trans; [exact O1|]. eapply only_trans; [exact O2|]. eapply only_trans; [exact O3|].
  rewrite !IMM_eq, !shr_div in O4 by lia.
  destruct (sext_mod 32 (v / 2 ^ 32) ltac:(lia)) as (k & K).
  pose proof (Z.div_mod v (2 ^ 16) ltac:(lia)). pose proof (Z.div_mod (v / 2 ^ 16) (2 ^ 16) ltac:(lia)).
  assert (DD : v / 2 ^ 16 / 2 ^ 16 = v / 2 ^ 32) by (rewrite Z.div_div by lia; reflexivity). rewrite DD in *.
  replace (wrap v) with (wrap ((sext 32 (v / 2 ^ 32) * 2 ^ 16 + (v / 2 ^ 16) mod 2 ^ 16) * 2 ^ 16 + v mod 2 ^ 16)); [exact O4|].
  replace v with ((sext 32 (v / 2 ^ 32) * 2 ^ 16 + (v / 2 ^ 16) mod 2 ^ 16) * 2 ^ 16 + v mod 2 ^ 16 + k * 2 ^ 64) at 4 by lia.
  unfold wrap. rewrite Z_mod_plus_full. reflexivity.
Qed.

Lemma clz2_ok x h : 2 ^ 32 <= x < 2 ^ h -> h <= 48 -> 64 - h <= clz x <= 31 /\ 2 ^ 63 <= x * 2 ^ clz x < 2 ^ 64.
Proof.
  intros Hx Hh. pose proof (log2_span x ltac:(lia)) as L.
  assert (0 < h). { destruct (Z.le_gt_cases h 0) as [N|G]; [|lia]. assert (2 ^ h <= 2 ^ 0) by (apply Z.pow_le_mono_r; lia). lia. }
  assert (L1 : Z.log2 x < h) by (apply Z.log2_lt_pow2; lia). assert (L2 : 32 <= Z.log2 x) by (apply Z.log2_le_pow2; lia).
  unfold clz. split; [lia|]. set (n := 63 - Z.log2 x). pose proof (pow_pos n ltac:(lia)).
  assert (P1 : 2 ^ 63 = 2 ^ Z.log2 x * 2 ^ n) by (rewrite <- Z.pow_add_r by lia; f_equal; lia).
  assert (P2 : 2 ^ 64 = 2 ^ (Z.log2 x + 1) * 2 ^ n) by (rewrite <- Z.pow_add_r by lia; f_equal; lia). rewrite P1, P2. split.
  - apply Z.mul_le_mono_nonneg_r; lia.
  - apply Z.mul_lt_mono_pos_r; lia.
Qed.

Lemma load_immediate_ok so code a s d imm : 0 <= d < 32 -> - 2 ^ 63 <= imm < 2 ^ 63 -> s 31 = 0 -> code_at 4 (load_immediate d imm) a code ->
  exists s', goes so code a s (a + 4 * Z.of_nat (length (load_immediate d imm))) s' /\ only s s' d (wrap imm).
Proof.
  intros Hd Hi Z0. unfold load_immediate. cbv zeta.
  pose proof (Z.div_mod imm (2 ^ 16) ltac:(lia)) as DM. pose proof (mod_b imm 16 ltac:(lia)) as B16.
  destruct ((imm <=? 0x7fff) && (-0x8000 <=? imm)) eqn:R1.
  { intros (C & _). destruct (go_addi so code a s d Hd _ (imm_b _) C) as (s1 & G1 & O1). exists s1. split; [exact G1|].
    rewrite IMM_eq, sext_low, sext_small in O1 by (try lia; change (2 ^ (16 - 1)) with 32768; lia). exact O1. }
  assert (NEG : imm < 0 -> 2 ^ 63 <= wrap imm).
  { intros N. unfold wrap. rewrite <- (Z_mod_plus_full imm 1), Z.mod_small by lia. lia. }
  assert (POS : 0 <= imm -> wrap imm = imm) by (intros N; apply wrap_small; unfold isw; lia).
  rewrite !shr_div by lia.
  destruct (wrap imm / 2 ^ 16 =? 0) eqn:R2.
  { assert (W : wrap imm < 2 ^ 16) by (pose proof (Z.div_mod (wrap imm) (2 ^ 16) ltac:(lia)); pose proof (mod_b (wrap imm) 16 ltac:(lia)); lia).
    intros (C & _). destruct (go_oriz so code a s d Hd _ (imm_b _) Z0 C) as (s1 & G1 & O1). exists s1. split; [exact G1|].
    rewrite IMM_eq in O1. rewrite Z.mod_small in O1 by lia. rewrite POS by lia. exact O1. }
  destruct ((imm <=? 0x7fffffff) && (-0x80000000 <=? imm)) eqn:R3.
  { intros C. cbn [app code_at] in C. destruct C as (C1 & C2).
    destruct (go_addis so code a s d Hd _ (imm_b _) C1) as (s1 & G1 & O1). rewrite (low_test imm 16) in * by (auto; lia).
    rewrite <- (app_nil_r (if _ =? 0 then _ else _)) in C2.
    destruct (go_opt so code _ s1 d imm _ 16 _ [] Hd ltac:(lia) ltac:(lia) (proj1 O1) eq_refl C2) as (s2 & G2 & O2 & _).
    exists s2. split; [|eapply only_trans; [exact O1|]].
    - eapply goes_trans; [exact G1|]. cbn [app length]. rewrite Nat2Z.inj_succ.
      match goal with |- goes _ _ _ _ ?x _ => replace x with (a + 4 + 4 * Z.of_nat (length (if imm mod 2 ^ 16 =? 0 then [] else [ORI .| Dn d .| An d .| IMM imm]))) by lia end. exact G2.
    - rewrite IMM_eq, sext_low, two16, sext_small in O2 by (try lia; change (2 ^ (32 - 1)) with (2 ^ 31); lia). exact O2. }
  destruct (wrap imm / 2 ^ 32 =? 0) eqn:R4.
  { assert (W : wrap imm < 2 ^ 32) by (pose proof (Z.div_mod (wrap imm) (2 ^ 32) ltac:(lia)); pose proof (mod_b (wrap imm) 32 ltac:(lia)); lia).
    assert (N : 0 <= imm < 2 ^ 32) by lia.
    intros C. cbn [app code_at] in C. destruct C as (C1 & C2).
    destruct (go_orisz so code a s d Hd _ (imm_b _) Z0 C1) as (s1 & G1 & O1). rewrite (low_test imm 16) in * by (auto; lia).
    rewrite <- (app_nil_r (if _ =? 0 then _ else _)) in C2.
    assert (E1 : IMM (imm / 2 ^ 16) = imm / 2 ^ 16).
    { rewrite IMM_eq. apply Z.mod_small. split; [apply Z.div_pos; lia|apply Z.div_lt_upper_bound; lia]. }
    rewrite E1 in O1. assert (V : s1 d = wrap (imm / 2 ^ 16 * 2 ^ 16)). { rewrite (proj1 O1), wrap_small; [reflexivity|unfold isw; lia]. }
    destruct (go_opt so code _ s1 d imm _ 16 _ [] Hd ltac:(lia) ltac:(lia) V eq_refl C2) as (s2 & G2 & O2 & _).
    exists s2. split; [|eapply only_trans; [exact O1|]].
    - eapply goes_trans; [exact G1|]. cbn [app length]. rewrite Nat2Z.inj_succ.
      match goal with |- goes _ _ _ _ ?x _ => replace x with (a + 4 + 4 * Z.of_nat (length (if imm mod 2 ^ 16 =? 0 then [] else [ORI .| Dn d .| An d .| IMM imm]))) by lia end. exact G2.
    - replace (imm / 2 ^ 16 * 2 ^ 16 + imm mod 2 ^ 16) with imm in O2 by lia. exact O2. }
  destruct (clz1_ok imm Hi ltac:(lia)) as (Hsh & HT). set (sh := clz (if 0 <=? imm then imm else - imm - 1) - 1) in *. clearbody sh.
  assert (ET : wrap (Z.shiftl (wrap imm) sh) = wrap (imm * 2 ^ sh)) by (rewrite Z.shiftl_mul_pow2, wrap_mul_l by lia; reflexivity).
  rewrite !ET. clear ET. set (T := imm * 2 ^ sh) in *.
  destruct (top16 T HT) as (T1 & T2 & T3). rewrite shr_div in T2 by lia. rewrite T2.
  assert (TD : T / 2 ^ 48 = imm / 2 ^ (48 - sh)) by (unfold T; replace 48 with (48 - sh + sh) at 1 by lia; apply mul_div; lia).
  rewrite TD in T1. clear TD.
  rewrite (low_zero T imm sh (48 - sh) 48) by (try reflexivity; lia).
  rewrite (low_zero T imm sh (32 - sh) 32) by (try reflexivity; lia).
  pose proof (pow_pos (48 - sh) ltac:(lia)) as P48. pose proof (pow_pos (32 - sh) ltac:(lia)) as P32.
  pose proof (Z.div_mod imm (2 ^ (48 - sh)) ltac:(lia)) as D48. pose proof (Z.div_mod imm (2 ^ (32 - sh)) ltac:(lia)) as D32.
  destruct (imm mod 2 ^ (48 - sh) =? 0) eqn:R5.
  { intros (C1 & C2 & _). destruct (go_addi so code a s d Hd _ T3 C1) as (s1 & G1 & O1).
    destruct (go_sldi so code _ s1 d Hd (sh + 15) _ (48 - sh) ltac:(lia) (proj1 O1) C2 ltac:(lia)) as (s2 & G2 & O2).
    exists s2. split; [cbn [length]; replace (a + 4 * Z.of_nat 2) with (a + 4 + 4) by lia; eapply goes_trans; eauto|].
    eapply only_trans; [exact O1|]. rewrite T1 in O2. replace (imm / 2 ^ (48 - sh) * 2 ^ (48 - sh)) with imm in O2 by lia. exact O2. }
  destruct (imm mod 2 ^ (32 - sh) =? 0) eqn:R6.
  { intros (C1 & C2 & C3 & _). destruct (go_addis so code a s d Hd _ T3 C1) as (s1 & G1 & O1).
    destruct (go_ori so code _ s1 d Hd _ _ 16 (imm_b _) ltac:(lia) (proj2 (imm_b _)) (proj1 O1) C2) as (s2 & G2 & O2).
    destruct (go_sldi so code _ s2 d Hd (sh + 31) _ (32 - sh) ltac:(lia) (proj1 O2) C3 ltac:(lia)) as (s3 & G3 & O3).
    exists s3. split; [cbn [length]; replace (a + 4 * Z.of_nat 3) with (a + 4 + 4 + 4) by lia; eapply goes_trans; [exact G1|]; eapply goes_trans; eauto|].
    eapply only_trans; [exact O1|]. eapply only_trans; [exact O2|].
    assert (A : sext 16 (wrap T / 2 ^ 48) * 2 ^ 16 + IMM (wrap T / 2 ^ 32) = imm / 2 ^ (32 - sh)).
    { rewrite IMM_eq. change 48 with (32 + 16). rewrite Z.pow_add_r by lia. rewrite <- Z.div_div by lia. rewrite two16.
      unfold wrap. change 64 with (32 + 32). rewrite <- div_mod_swap by lia. rewrite sext_low by lia.
      assert (BT : - 2 ^ 31 <= T / 2 ^ 32 < 2 ^ 31) by (split; [apply Z.div_le_lower_bound; lia|apply Z.div_lt_upper_bound; lia]).
      rewrite sext_small by (try lia; change (2 ^ (32 - 1)) with (2 ^ 31); lia).
      unfold T. replace 32 with (32 - sh + sh) at 1 by lia. apply mul_div; lia. }
    rewrite A in O3. replace (imm / 2 ^ (32 - sh) * 2 ^ (32 - sh)) with imm in O3 by lia. exact O3. }
  replace (63 - (sh + 15)) with (48 - sh) by lia. rewrite Z.shiftl_mul_pow2, Z.mul_1_l by lia. rewrite (land_low (wrap imm) (48 - sh)) by (auto; lia).
  assert (WM : wrap imm mod 2 ^ (48 - sh) = imm mod 2 ^ (48 - sh)) by (unfold wrap; apply mod_back; lia). rewrite !WM. clear WM.
  set (h := 48 - sh) in *. set (l := imm mod 2 ^ h) in *. assert (Bl : 0 <= l < 2 ^ h) by (apply mod_b; lia).
  destruct (l <=? 0xffff) eqn:R7.
  { intros (C1 & C2 & C3 & _). destruct (go_addi so code a s d Hd _ T3 C1) as (s1 & G1 & O1).
    destruct (go_sldi so code _ s1 d Hd (sh + 15) _ h ltac:(lia) (proj1 O1) C2 ltac:(lia)) as (s2 & G2 & O2). rewrite T1 in O2.
    assert (E : u32 l = l) by (unfold u32; apply Z.mod_small; lia). rewrite E in C3.
    destruct (go_ori so code _ s2 d Hd l _ h ltac:(lia) ltac:(lia) ltac:(lia) (proj1 O2) C3) as (s3 & G3 & O3).
    exists s3. split; [cbn [length]; replace (a + 4 * Z.of_nat 3) with (a + 4 + 4 + 4) by lia; eapply goes_trans; [exact G1|]; eapply goes_trans; eauto|].
    eapply only_trans; [exact O1|]. eapply only_trans; [exact O2|].
    replace (imm / 2 ^ h * 2 ^ h + l) with imm in O3 by lia. exact O3. }
  pose proof (pow_pos (h - 16) ltac:(lia)) as Ph.
  assert (PH : 2 ^ h = 2 ^ (h - 16) * 2 ^ 16) by (rewrite <- Z.pow_add_r by lia; f_equal; lia).
  destruct (l <=? 0xffffffff) eqn:R8.
  { intros C. cbn [app code_at] in C. destruct C as (C1 & C2 & C3 & C4).
    assert (E0 : IMM (wrap T / 2 ^ 48) = wrap T / 2 ^ 48) by (rewrite IMM_eq; apply Z.mod_small; lia). rewrite E0 in *.
    destruct (go_addi so code a s d Hd _ T3 C1) as (s1 & G1 & O1).
    destruct (go_sldi so code _ s1 d Hd (sh + 15) _ h ltac:(lia) (proj1 O1) C2 ltac:(lia)) as (s2 & G2 & O2). rewrite T1 in O2.
    pose proof (Z.div_mod l (2 ^ 16) ltac:(lia)) as DL. pose proof (mod_b l 16 ltac:(lia)) as BL16.
    assert (E : u32 (l / 2 ^ 16) = l / 2 ^ 16) by (unfold u32; apply Z.mod_small; lia). rewrite E in *.
    destruct (go_oris so code _ s2 d Hd (l / 2 ^ 16) _ h ltac:(lia) ltac:(lia) ltac:(lia) (proj1 O2) C3) as (s3 & G3 & O3).
    assert (Q : imm / 2 ^ h * 2 ^ h + l / 2 ^ 16 * 2 ^ 16 = imm / 2 ^ 16 * 2 ^ 16).
    { pose proof (div_back imm 16 h ltac:(lia)) as DB. fold l in DB. rewrite <- DB. rewrite PH. lia. }
    rewrite Q in O3. rewrite (low_test imm 16) in * by (auto; lia).
    assert (ML : l mod 2 ^ 16 = imm mod 2 ^ 16) by (apply mod_back; lia).
    assert (MI : IMM l = IMM imm) by (rewrite !IMM_eq; exact ML). rewrite MI in *.
    rewrite <- (app_nil_r (if _ =? 0 then _ else _)) in C4.
    destruct (go_opt so code _ s3 d imm _ 16 _ [] Hd ltac:(lia) ltac:(lia) (proj1 O3) eq_refl C4) as (s4 & G4 & O4 & _).
    exists s4. split.
    - eapply goes_trans; [exact G1|]. eapply goes_trans; [exact G2|]. eapply goes_trans; [exact G3|]. cbn [app length]. rewrite !Nat2Z.inj_succ.
      match goal with |- goes _ _ _ _ ?x _ => replace x with (a + 4 + 4 + 4 + 4 * Z.of_nat (length (if imm mod 2 ^ 16 =? 0 then [] else [ORI .| Dn d .| An d .| IMM imm]))) by lia end. exact G4.
    - eapply only_trans; [exact O1|]. eapply only_trans; [exact O2|]. eapply only_trans; [exact O3|].
      replace (imm / 2 ^ 16 * 2 ^ 16 + imm mod 2 ^ 16) with imm in O4 by lia. exact O4. }
  destruct (clz2_ok l h ltac:(lia) ltac:(lia)) as (Hc & Hl). set (c2 := clz l) in *. clearbody c2.
  rewrite !(Z.shiftl_mul_pow2 l) by lia. rewrite (wrap_small (l * 2 ^ c2)) by (unfold isw; lia).
  assert (LZ : (l * 2 ^ c2 .& 281474976710655 =? 0) = (l mod 2 ^ (48 - c2) =? 0)).
  { rewrite <- (low_zero (l * 2 ^ c2) l c2 (48 - c2) 48 281474976710655) by (try reflexivity; lia). rewrite wrap_small by (unfold isw; lia). reflexivity. }
  rewrite LZ. clear LZ.
  pose proof (pow_pos (48 - c2) ltac:(lia)) as Pc.
  destruct (l mod 2 ^ (48 - c2) =? 0) eqn:R9.
  { intros (C1 & C2 & C3 & C4 & _). destruct (go_addi so code a s d Hd _ T3 C1) as (s1 & G1 & O1).
    destruct (go_sldi so code _ s1 d Hd (sh + 15 + (63 - (c2 + 15))) _ (c2 - sh) ltac:(lia) (proj1 O1) C2 ltac:(lia)) as (s2 & G2 & O2). rewrite T1 in O2.
    assert (E2 : (l * 2 ^ c2) / 2 ^ 48 = l / 2 ^ (48 - c2)) by (replace 48 with (48 - c2 + c2) at 1 by lia; apply mul_div; lia).
    assert (B2 : 0 <= l / 2 ^ (48 - c2) < 65536).
    { rewrite <- E2. split; [apply Z.div_pos; lia|apply Z.div_lt_upper_bound; lia]. }
    assert (E : u32 ((l * 2 ^ c2) / 2 ^ 48) = l / 2 ^ (48 - c2)) by (rewrite E2; unfold u32; apply Z.mod_small; lia). rewrite E in C3.
    assert (2 ^ 16 <= 2 ^ (c2 - sh)) by (apply Z.pow_le_mono_r; lia).
    destruct (go_ori so code _ s2 d Hd _ _ (c2 - sh) B2 ltac:(lia) ltac:(lia) (proj1 O2) C3) as (s3 & G3 & O3).
    replace (imm / 2 ^ h * 2 ^ (c2 - sh) + l / 2 ^ (48 - c2)) with (imm / 2 ^ (48 - c2)) in O3.
    2:{ pose proof (div_back imm (48 - c2) h ltac:(lia)) as DB. fold l in DB. replace (h - (48 - c2)) with (c2 - sh) in DB by lia. symmetry. exact DB. }
    destruct (go_sldi so code _ s3 d Hd (c2 + 15) _ (48 - c2) ltac:(lia) (proj1 O3) C4 ltac:(lia)) as (s4 & G4 & O4).
    exists s4. split; [cbn [length]; replace (a + 4 * Z.of_nat 4) with (a + 4 + 4 + 4 + 4) by lia; eapply goes_trans; [exact G1|]; eapply goes_trans; [exact G2|]; eapply goes_trans; eauto|].
    eapply only_trans; [exact O1|]. eapply only_trans; [exact O2|]. eapply only_trans; [exact O3|].
    assert (MZ : l mod 2 ^ (48 - c2) = imm mod 2 ^ (48 - c2)) by (apply mod_back; lia).
    pose proof (Z.div_mod imm (2 ^ (48 - c2)) ltac:(lia)). replace (imm / 2 ^ (48 - c2) * 2 ^ (48 - c2)) with imm in O4 by lia. exact O4. }
  intros C. assert (E : u32 (wrap imm / 2 ^ 48) = IMM (Z.shiftr imm 48)).
  { rewrite IMM_eq, shr_div by lia. destruct (top16 imm Hi) as (_ & U2 & U3). rewrite shr_div in U2 by lia. rewrite U2. unfold wrap. change 64 with (48 + 16).
    rewrite <- div_mod_swap by lia. reflexivity. }
  rewrite E in C. rewrite <- !shr_div in C by lia.
  destruct (go_64 so code a s d imm [] _ Hd eq_refl C) as (s1 & G1 & O1 & _). exists s1. auto.
Qed.

(** ** Constants *)
Lemma reg_map_b r : 0 <= r <= 28 -> 0 <= reg_map r < 32.
Proof.
  intros H. assert (K : forallb (fun n => (0 <=? reg_map (Z.of_nat n)) && (reg_map (Z.of_nat n) <? 32)) (seq 0 29) = true) by (vm_compute; reflexivity).
  rewrite forallb_forall in K. specialize (K (Z.to_nat r) ltac:(apply in_seq; lia)). rewrite Z2Nat.id in K by lia. lia.
Qed.
Lemma sldi_eq n r : 0 <= n < 64 -> SLDI n .| D_ r .| A_ r = SLDI_NEG (reg_map r) (63 - n).
Proof.
  intros H. unfold SLDI, SLDI_NEG, D_, A_. replace (63 - (63 - n)) with n by lia.
  rewrite <- !Z.lor_assoc. f_equal.
  rewrite (Z.lor_comm (RLDI_ME (63 - n))). rewrite !Z.lor_assoc. f_equal. rewrite <- !Z.lor_assoc. rewrite Z.lor_comm. rewrite <- !Z.lor_assoc. reflexivity.
Qed.
Lemma u8val_mod v : sext 16 (u8val v) = sext 9 v.
Proof. exact (MsProofs.u8val_mod v). Qed.
Lemma sljit_emit_const_ok so code a s op dst v : 1 <= dst <= 28 -> code_at 4 (sljit_emit_const op dst v) a code ->
  exists s', goes so code a s (a + 4 * Z.of_nat (length (sljit_emit_const op dst v))) s' /\ only s s' (reg_map dst) (const_value op v).
Proof.
  intros Hd C. pose proof (reg_map_b dst ltac:(lia)) as Hr. destruct op; cbn [sljit_emit_const const_value length] in *.
  - unfold emit_const in C. rewrite (sldi_eq 32 dst) in C by lia.
    destruct (go_64 so code a s (reg_map dst) v [] _ Hr eq_refl C) as (s' & G & O & _). exists s'. auto.
  - destruct (go_32 so code a s (reg_map dst) v [] Hr C) as (s' & G & O & _). exists s'. auto.
  - destruct C as (C1 & _). destruct (go_addi so code a s _ Hr _ (imm_b _) C1) as (s1 & G1 & O1). exists s1. split; [exact G1|].
    rewrite IMM_eq, sext_low, u8val_mod in O1 by lia. exact O1.
Qed.

(** Changing the immediate of a word. *)
Definition base_ok (w : Z) : Prop := 0 <= w /\ w mod 2 ^ 16 = 0 /\ w < 2 ^ 32.
Lemma put_imm w x y : base_ok w -> ((w .| IMM x) .& 0xffff0000) .| IMM y = (w .| IMM y).
Proof. intros (A & B & C). exact (MsProofs.put_imm w x y A B C). Qed.
Lemma bases r : 1 <= r <= 28 -> base_ok (ADDI .| D_ r .| An 0) /\ base_ok (ADDIS .| D_ r .| An 0) /\ base_ok (ORI .| D_ r .| A_ r) /\ base_ok (ORIS .| D_ r .| A_ r).
Proof.
  intros H. assert (K : forallb (fun n => let ok w := (0 <=? w) && (w mod 2 ^ 16 =? 0) && (w <? 2 ^ 32) in let r := Z.of_nat n in
    ok (ADDI .| D_ r .| An 0) && ok (ADDIS .| D_ r .| An 0) && ok (ORI .| D_ r .| A_ r) && ok (ORIS .| D_ r .| A_ r)) (seq 1 28) = true) by (vm_compute; reflexivity).
  rewrite forallb_forall in K. specialize (K (Z.to_nat r) ltac:(apply in_seq; lia)). cbv zeta in K. rewrite Z2Nat.id in K by lia. unfold base_ok.
  rewrite !andb_true_iff, !Z.leb_le, !Z.ltb_lt, !Z.eqb_eq in K. tauto.
Qed.
Lemma set_jump_addr_ok dst v v' : 1 <= dst <= 28 -> sljit_set_jump_addr (emit_const dst v) v' = emit_const dst v'.
Proof.
  intros Hd. destruct (bases dst Hd) as (_ & A & B & C). unfold sljit_set_jump_addr, put, emit_const. cbn [firstn skipn app].
  rewrite !put_imm by assumption. reflexivity.
Qed.
Lemma set_const_ok op dst v v' : 1 <= dst <= 28 -> sljit_set_const op (sljit_emit_const op dst v) v' = sljit_emit_const op dst v'.
Proof.
  intros Hd. destruct (bases dst Hd) as (A & B & C & D). destruct op; cbn [sljit_set_const sljit_emit_const].
  - apply set_jump_addr_ok. exact Hd.
  - unfold put. cbn [firstn skipn app]. rewrite !put_imm by assumption. reflexivity.
  - unfold put. cbn [firstn skipn app]. rewrite !put_imm by assumption. reflexivity.
Qed.
