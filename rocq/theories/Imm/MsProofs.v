(** MIPS64: words, values of the instructions, immediates and constants. *)
Require Import ZArith List Bool Lia Zify ZifyBool.
From Verif Require Import Rv.RvLib Rv.RvBits Imm.ImmLib Imm.MsIsa Imm.MsModel Imm.MsSpec.
Import ListNotations.
Open Scope Z_scope.
Ltac Zify.zify_post_hook ::= idtac.

Lemma mod_b x n : 0 <= n -> 0 <= x mod 2 ^ n < 2 ^ n.
Proof. intros. apply Z.mod_pos_bound. apply pow_pos. auto. Qed.
Lemma u32_mod x n : 0 <= n <= 32 -> u32 x mod 2 ^ n = x mod 2 ^ n.
Proof.
  intros Hn. unfold u32. replace 32 with (n + (32 - n)) by lia. rewrite Z.pow_add_r by lia.
  rewrite Z.rem_mul_r by (pose proof (pow_pos n); pose proof (pow_pos (32 - n)); lia).
  rewrite Z.mul_comm, Z_mod_plus_full. apply Z.mod_mod. pose proof (pow_pos n). lia.
Qed.
Lemma IMM_eq x : IMM x = x mod 2 ^ 16.
Proof. unfold IMM. rewrite (land_low _ 16) by lia. apply u32_mod. lia. Qed.

(** ** Decoding *)
Lemma dec_lui r6 d i : 0 <= d < 32 -> 0 <= i < 65536 -> decode r6 (LUI .| TA d .| i) = Some (Alu (Lui_ d i)).
Proof. intros. unfold decode, TA. ifs. Qed.
Lemma dec_ori r6 d j i : 0 <= d < 32 -> 0 <= j < 32 -> 0 <= i < 65536 -> decode r6 (ORI .| SA j .| TA d .| i) = Some (Alu (Ori_ d j i)).
Proof. intros. unfold decode, TA, SA. ifs. Qed.
Lemma dec_addiu r6 d i : 0 <= d < 32 -> 0 <= i < 65536 -> decode r6 (ADDIU .| SA 0 .| TA d .| i) = Some (Alu (Addiu_ d 0 i)).
Proof. intros. unfold decode, TA, SA. ifs. Qed.
Lemma dec_dsll r6 d t i : 0 <= d < 32 -> 0 <= t < 32 -> 0 <= i < 32 -> decode r6 (DSLL .| TA t .| DA d .| SH_IMM i) = Some (Alu (Dsll_ d t i)).
Proof. intros. unfold decode, TA, DA, SH_IMM. ifs. Qed.
Lemma dec_dsll' r6 d t i : 0 <= d < 32 -> 0 <= t < 32 -> 0 <= i < 32 -> decode r6 (DSLL .| SH_IMM i .| TA t .| DA d) = Some (Alu (Dsll_ d t i)).
Proof. intros. unfold decode, TA, DA, SH_IMM. ifs. Qed.
Lemma dec_dsll32 r6 d t : 0 <= d < 32 -> 0 <= t < 32 -> decode r6 (DSLL32 .| 0 .| TA t .| DA d) = Some (Alu (Dsll_ d t 32)).
Proof. intros. unfold decode, TA, DA. ifs. Qed.

(** ** Single instructions *)
Lemma goes_trans r6 mem code a s b s' c s'' : goes r6 mem code a s b s' -> goes r6 mem code b s' c s'' -> goes r6 mem code a s c s''.
Proof. apply runs_trans. Qed.
Lemma goes_0 r6 mem code a s : goes r6 mem code a s a s.
Proof. constructor. Qed.
Lemma goes_alu r6 mem code a s w i s' : code (wrap a) = w -> decode r6 w = Some (Alu i) -> exec_alu mem i s = Some s' -> goes r6 mem code a s (a + 4) s'.
Proof. intros C D E. apply runs_1. unfold step. rewrite C, D, E. unfold pc4. rewrite wrap_add_l. reflexivity. Qed.
Lemma wG_only s r v : r <> 0 -> only s (wG s r v) r v.
Proof. intros H. unfold wG. replace (r =? 0) with false by lia. apply only_upd. Qed.
Lemma rG_nz s r : r <> 0 -> rG s r = s r.
Proof. intros. unfold rG. replace (r =? 0) with false by lia. reflexivity. Qed.
Lemma sext_low n x : 0 <= n -> sext n (x mod 2 ^ n) = sext n x.
Proof. intros. unfold sext. rewrite Z.mod_mod by (pose proof (pow_pos n H); lia). reflexivity. Qed.
Lemma val_lui x : wrap (sext 32 (Z.shiftl (x mod 2 ^ 16) 16)) = wrap (sext 16 x * 2 ^ 16).
Proof.
  f_equal. rewrite Z.shiftl_mul_pow2 by lia. destruct (sext_mod 16 x ltac:(lia)) as (k & K).
  pose proof (sext_range 16 x ltac:(lia)) as R. apply sext_unique with (k - x / 2 ^ 16); [lia| |].
  - change (2 ^ (16 - 1)) with (2 ^ 15) in R. change (2 ^ (32 - 1)) with (2 ^ 31). lia.
  - pose proof (Z.div_mod x (2 ^ 16) ltac:(lia)). lia.
Qed.

Section Instr.
  Variables (r6 : bool) (mem code : Z -> Z) (a : Z) (s : regs) (d : Z).
  Hypothesis Hd : 1 <= d < 32.
  Notation "'ends' v" := (exists s', goes r6 mem code a s (a + 4) s' /\ only s s' d v) (at level 10).
  Lemma go_lui x : code (wrap a) = (LUI .| TA d .| IMM x) -> ends (wrap (sext 16 x * 2 ^ 16)).
  Proof.
    intros C. rewrite IMM_eq in C. pose proof (mod_b x 16 ltac:(lia)). eexists. split.
    - eapply goes_alu; [exact C|apply dec_lui; lia|reflexivity].
    - rewrite val_lui. apply wG_only. lia.
  Qed.
  Lemma go_ori x q k : 0 <= k <= 64 -> x mod 2 ^ 16 < 2 ^ k -> s d = wrap (q * 2 ^ k) -> code (wrap a) = (ORI .| SA d .| TA d .| IMM x) ->
    ends (wrap (q * 2 ^ k + x mod 2 ^ 16)).
  Proof.
    intros Hk Hx V C. rewrite IMM_eq in C. pose proof (mod_b x 16 ltac:(lia)). eexists. split.
    - eapply goes_alu; [exact C|apply dec_ori; lia|reflexivity].
    - rewrite rG_nz, V, lor_wrap_low by lia. apply wG_only. lia.
  Qed.
  Lemma go_ori0 x : code (wrap a) = (ORI .| SA 0 .| TA d .| IMM x) -> ends (x mod 2 ^ 16).
  Proof.
    intros C. rewrite IMM_eq in C. pose proof (mod_b x 16 ltac:(lia)). eexists. split.
    - eapply goes_alu; [exact C|apply dec_ori; lia|reflexivity].
    - change (rG s 0) with 0. rewrite Z.lor_0_l. apply wG_only. lia.
  Qed.
  Lemma go_addiu x : code (wrap a) = (ADDIU .| SA 0 .| TA d .| IMM x) -> ends (wrap (sext 16 x)).
  Proof.
    intros C. rewrite IMM_eq in C. pose proof (mod_b x 16 ltac:(lia)). eexists. split.
    - eapply goes_alu; [exact C|apply dec_addiu; lia|reflexivity].
    - change (rG s 0) with 0. rewrite Z.add_0_l, sext_low by lia. pose proof (sext_range 16 x ltac:(lia)) as R.
      change (2 ^ (16 - 1)) with (2 ^ 15) in R. rewrite (sext_small 32) by (change (2 ^ (32 - 1)) with (2 ^ 31); lia). apply wG_only. lia.
  Qed.
  Lemma go_shift i n X : s d = wrap X -> 0 <= n -> decode r6 (code (wrap a)) = Some (Alu (Dsll_ d d i)) -> i = n -> ends (wrap (X * 2 ^ n)).
  Proof.
    intros V Hn D ->. eexists. split.
    - eapply goes_alu; [reflexivity|exact D|reflexivity].
    - rewrite rG_nz, V, Z.shiftl_mul_pow2, wrap_mul_l by lia. apply wG_only. lia.
  Qed.
  Lemma go_dsll n X : 0 <= n < 32 -> s d = wrap X -> code (wrap a) = (DSLL .| TA d .| DA d .| SH_IMM n) -> ends (wrap (X * 2 ^ n)).
  Proof. intros Hn V C. apply go_shift with n; auto; [lia|]. rewrite C. apply dec_dsll; lia. Qed.
End Instr.

(** ** Arithmetic of the immediates *)
Lemma div_back v a b : 0 <= a <= b -> v / 2 ^ b * 2 ^ (b - a) + (v mod 2 ^ b) / 2 ^ a = v / 2 ^ a.
Proof.
  intros H. pose proof (pow_pos a ltac:(lia)). pose proof (pow_pos (b - a) ltac:(lia)).
  assert (P : 2 ^ b = 2 ^ a * 2 ^ (b - a)) by (rewrite <- Z.pow_add_r by lia; f_equal; lia).
  rewrite P. rewrite <- Z.div_div by lia. rewrite Z.rem_mul_r by lia. rewrite (Z.mul_comm (2 ^ a)), Z.div_add by lia.
  rewrite (Z.div_small (v mod 2 ^ a)) by (apply mod_b; lia). pose proof (Z.div_mod (v / 2 ^ a) (2 ^ (b - a)) ltac:(lia)). lia.
Qed.
Lemma mod_back v a b : 0 <= a <= b -> (v mod 2 ^ b) mod 2 ^ a = v mod 2 ^ a.
Proof.
  intros H. assert (P : 2 ^ b = 2 ^ a * 2 ^ (b - a)) by (rewrite <- Z.pow_add_r by lia; f_equal; lia).
  pose proof (pow_pos a ltac:(lia)). pose proof (pow_pos (b - a) ltac:(lia)).
  rewrite P, Z.rem_mul_r by lia. rewrite (Z.mul_comm (2 ^ a)), Z_mod_plus_full. apply Z.mod_mod. lia.
Qed.
Lemma two16 v : sext 16 (v / 2 ^ 16) * 2 ^ 16 + v mod 2 ^ 16 = sext 32 v.
Proof.
  symmetry. destruct (sext_mod 16 (v / 2 ^ 16) ltac:(lia)) as (k & K). pose proof (sext_range 16 (v / 2 ^ 16) ltac:(lia)) as R.
  change (2 ^ (16 - 1)) with (2 ^ 15) in R. pose proof (mod_b v 16 ltac:(lia)).
  apply sext_unique with k; [lia|change (2 ^ (32 - 1)) with (2 ^ 31); lia|]. pose proof (Z.div_mod v (2 ^ 16) ltac:(lia)). lia.
Qed.
Lemma low_test x n m : 0 <= n -> m = Z.ones n -> (x .& m =? 0) = (x mod 2 ^ n =? 0).
Proof. intros H ->. rewrite Z.land_ones by lia. reflexivity. Qed.
Lemma top_test u n m : 0 <= n <= 64 -> m = 2 ^ 64 - 2 ^ (64 - n) -> 0 <= u < 2 ^ 64 -> (u .& m =? 0) = (u <? 2 ^ (64 - n)).
Proof.
  intros Hn -> Hu. rewrite (land_mask u (64 - n) n).
  2,3: lia.
  2:{ replace (2 ^ 64) with (2 ^ n * 2 ^ (64 - n)) by (rewrite <- Z.pow_add_r by lia; f_equal; lia). lia. }
  pose proof (pow_pos (64 - n) ltac:(lia)). pose proof (Z.div_mod u (2 ^ (64 - n)) ltac:(lia)). pose proof (mod_b u (64 - n) ltac:(lia)).
  rewrite Z.mod_small.
  - destruct (u <? 2 ^ (64 - n)) eqn:E.
    + rewrite Z.div_small by lia. reflexivity.
    + assert (0 < u / 2 ^ (64 - n)) by (apply Z.div_str_pos; lia). nia.
  - split; [apply Z.div_pos; lia|]. apply Z.div_lt_upper_bound; [lia|]. rewrite <- Z.pow_add_r by lia. replace (64 - n + n) with 64 by lia. lia.
Qed.
(** The result of shifting up: [u * 2^j], and [j] has been subtracted. *)
Definition upto (u sh n : Z) (r : Z * Z) : Prop := exists j, 0 <= j /\ r = (u * 2 ^ j, sh - j) /\ 2 ^ (64 - n) <= u * 2 ^ j < 2 ^ 64.
Lemma up_ok n m fuel : 0 < n <= 64 -> m = 2 ^ 64 - 2 ^ (64 - n) -> forall u sh, 0 <= u < 2 ^ 64 -> 2 ^ (64 - n) <= u * 2 ^ (n * Z.of_nat fuel) ->
  upto u sh n (shift_up fuel m n u sh).
Proof.
  intros Hn Hm. induction fuel as [|f IH]; intros u sh Hu Hb; cbn [shift_up].
  - exists 0. replace (n * Z.of_nat 0) with 0 in Hb by lia. change (2 ^ 0) with 1 in *. rewrite Z.mul_1_r in *. rewrite Z.sub_0_r. split; [lia|]. split; [reflexivity|lia].
  - rewrite (top_test u n m) by (auto; lia). destruct (u <? 2 ^ (64 - n)) eqn:E.
    + rewrite Z.shiftl_mul_pow2 by lia. pose proof (pow_pos n ltac:(lia)).
      assert (P : 2 ^ 64 = 2 ^ (64 - n) * 2 ^ n) by (rewrite <- Z.pow_add_r by lia; f_equal; lia).
      assert (B : 0 <= u * 2 ^ n < 2 ^ 64) by nia. rewrite wrap_small by (unfold isw; lia).
      destruct (IH (u * 2 ^ n) (sh - n) B) as (j & Hj & -> & R).
      { rewrite <- Z.mul_assoc, <- Z.pow_add_r by lia. replace (n + n * Z.of_nat f) with (n * Z.of_nat (Datatypes.S f)) by lia. exact Hb. }
      exists (n + j). rewrite Z.pow_add_r by lia. rewrite <- Z.mul_assoc in *. split; [lia|]. split; [f_equal; lia|exact R].
    + exists 0. change (2 ^ 0) with 1. rewrite Z.mul_1_r, Z.sub_0_r. split; [lia|]. split; [reflexivity|lia].
Qed.
Lemma once_ok n m u sh : 0 < n <= 64 -> m = 2 ^ 64 - 2 ^ (64 - n) -> 0 <= u < 2 ^ 64 -> 2 ^ (64 - n) <= u * 2 ^ n ->
  upto u sh n (shift_once m n u sh).
Proof. intros. replace (shift_once m n u sh) with (shift_up 1 m n u sh) by reflexivity. apply up_ok; auto. replace (n * Z.of_nat 1) with n by lia. auto. Qed.

Lemma normal1_ok imm : - 2 ^ 63 <= imm < 2 ^ 63 -> ~ - 2 ^ 31 <= imm < 2 ^ 31 ->
  exists j junk, 0 <= j <= 31 /\ 0 <= junk < 2 ^ j /\ - 2 ^ 63 <= imm * 2 ^ j + junk < 2 ^ 63 /\ normal1 imm = (wrap (imm * 2 ^ j + junk), 32 - j).
Proof.
  intros Hi Ho. unfold normal1.
  set (u := if imm <? 0 then - imm - 1 else imm).
  replace (if imm <? 0 then wnot (wrap imm) else wrap imm) with u.
  2:{ unfold u, wnot. destruct (imm <? 0) eqn:E.
      - unfold wrap. rewrite <- (Z_mod_plus_full imm 1), Z.mod_small by lia. lia.
      - rewrite wrap_small by (unfold isw; lia). reflexivity. }
  assert (Hu : 2 ^ 31 <= u < 2 ^ 63) by (unfold u; destruct (imm <? 0) eqn:E; lia).
  assert (Eu : u = if imm <? 0 then - imm - 1 else imm) by reflexivity. clearbody u.
  destruct (up_ok 8 0xff00000000000000 8 ltac:(lia) eq_refl u 32 ltac:(lia)) as (j1 & J1 & -> & R1).
  { change (64 - 8) with 56. change (8 * Z.of_nat 8) with 64. lia. }
  destruct (once_ok 4 0xf000000000000000 (u * 2 ^ j1) (32 - j1) ltac:(lia) eq_refl ltac:(lia)) as (j2 & J2 & -> & R2).
  { change (64 - 8) with 56 in R1. change (64 - 4) with 60. lia. }
  destruct (once_ok 2 0xc000000000000000 (u * 2 ^ j1 * 2 ^ j2) (32 - j1 - j2) ltac:(lia) eq_refl ltac:(lia)) as (j3 & J3 & -> & R3).
  { change (64 - 4) with 60 in R2. change (64 - 2) with 62. lia. }
  rewrite <- !Z.mul_assoc, <- !Z.pow_add_r in * by lia. set (k := j1 + (j2 + j3)) in *. assert (K : 0 <= k) by lia. assert (Ek : k = j1 + (j2 + j3)) by reflexivity. clearbody k.
  change (64 - 2) with 62 in R3.
  assert (F : exists j, 0 <= j /\ (if sgn (u * 2 ^ k) <? 0 then (Z.shiftr (u * 2 ^ k) 1, 32 - j1 - j2 - j3 + 1) else (u * 2 ^ k, 32 - j1 - j2 - j3)) = (u * 2 ^ j, 32 - j) /\ 2 ^ 62 <= u * 2 ^ j < 2 ^ 63).
  { assert (Sg : (sgn (u * 2 ^ k) <? 0) = (2 ^ 63 <=? u * 2 ^ k)).
    { unfold sgn, sext. cbv zeta. change (64 - 1) with 63. rewrite Z.mod_small by lia.
      destruct (2 ^ 63 <=? u * 2 ^ k) eqn:E; destruct (u * 2 ^ k <? 2 ^ 63) eqn:E2; lia. }
    rewrite Sg. destruct (2 ^ 63 <=? u * 2 ^ k) eqn:E.
    - destruct (Z.eq_dec k 0) as [Z0|NZ]; [rewrite Z0 in *; change (2 ^ 0) with 1 in *; lia|].
      assert (P : 2 ^ k = 2 ^ (k - 1) * 2) by (replace k with (k - 1 + 1) at 1 by lia; rewrite Z.pow_add_r by lia; reflexivity).
      exists (k - 1). split; [lia|]. rewrite P in *. rewrite Z.mul_assoc in *. split; [|lia].
      rewrite shr_div by lia. change (2 ^ 1) with 2. rewrite Z.div_mul by lia. f_equal. lia.
    - exists k. split; [lia|]. split; [f_equal; lia|lia]. }
  destruct F as (j & J & -> & R).
  assert (J31 : j <= 31).
  { destruct (Z.le_gt_cases j 31) as [L|G]; [auto|]. assert (2 ^ 32 <= 2 ^ j) by (apply Z.pow_le_mono_r; lia). nia. }
  pose proof (pow_pos j J). destruct (imm <? 0) eqn:E; subst u.
  - exists j, (2 ^ j - 1). split; [lia|]. split; [lia|]. split; [lia|]. f_equal. unfold wnot, wrap.
    rewrite <- (Z_mod_plus_full (imm * 2 ^ j + (2 ^ j - 1)) 1), Z.mod_small by lia. lia.
  - exists j, 0. split; [lia|]. split; [lia|]. split; [lia|]. f_equal. rewrite Z.add_0_r. rewrite wrap_small; [reflexivity|unfold isw; lia].
Qed.

(** The bits which normal2 finds: the 16 bits of [l] above [shift2]. *)
Lemma normal2_ok S l j junk : 0 <= j <= 31 -> 0 <= junk < 2 ^ j -> 2 ^ 16 <= l < 2 ^ (32 - j) -> S mod 2 ^ 32 = l * 2 ^ j + junk ->
  exists V sh2, normal2 (wrap S) (32 - j) = (V, sh2) /\ 1 <= sh2 /\ 1 <= 32 - j - sh2 < 32 /\ 16 <= 32 - j - sh2 /\ sh2 <= 16 /\ V / 2 ^ 48 = l / 2 ^ sh2 /\ l / 2 ^ sh2 < 2 ^ 16.
Proof.
  intros Hj Hk Hl HS. unfold normal2. rewrite Z.shiftl_mul_pow2 by lia.
  pose proof (pow_pos j ltac:(lia)) as Pj.
  assert (V0 : wrap (wrap S * 2 ^ 32) = (l * 2 ^ j + junk) * 2 ^ 32).
  { rewrite wrap_mul_l. unfold wrap. change (2 ^ 64) with (2 ^ 32 * 2 ^ 32). rewrite Z.mul_mod_distr_r by lia. rewrite HS. reflexivity. }
  rewrite V0. set (x := l * 2 ^ j + junk) in *.
  assert (Px : 2 ^ 32 = 2 ^ (32 - j) * 2 ^ j) by (rewrite <- Z.pow_add_r by lia; f_equal; lia).
  assert (Hx : 2 ^ 16 * 2 ^ j <= x < 2 ^ 32) by (unfold x; nia).
  destruct (up_ok 4 0xf000000000000000 16 ltac:(lia) eq_refl (x * 2 ^ 32) (32 - j - 16) ltac:(lia)) as (j1 & J1 & -> & R1).
  { change (64 - 4) with 60. change (4 * Z.of_nat 16) with 64. lia. }
  destruct (once_ok 2 0xc000000000000000 (x * 2 ^ 32 * 2 ^ j1) (32 - j - 16 - j1) ltac:(lia) eq_refl ltac:(lia)) as (j2 & J2 & -> & R2).
  { change (64 - 4) with 60 in R1. change (64 - 2) with 62. lia. }
  destruct (once_ok 1 0x8000000000000000 (x * 2 ^ 32 * 2 ^ j1 * 2 ^ j2) (32 - j - 16 - j1 - j2) ltac:(lia) eq_refl ltac:(lia)) as (j3 & J3 & -> & R3).
  { change (64 - 2) with 62 in R2. change (64 - 1) with 63. lia. }
  rewrite <- !Z.mul_assoc, <- !Z.pow_add_r in * by lia. set (m := j1 + (j2 + j3)) in *. change (64 - 1) with 63 in R3.
  replace (32 + (j1 + (j2 + j3))) with (32 + m) in * by lia.
  assert (Mj : m + j < 16).
  { destruct (Z.lt_ge_cases (m + j) 16) as [L|G]; [auto|].
    assert (2 ^ 16 <= 2 ^ (m + j)) by (apply Z.pow_le_mono_r; lia). rewrite Z.pow_add_r in H by lia. rewrite Z.pow_add_r in R3 by lia.
    change (2 ^ 64) with (2 ^ 16 * 2 ^ 16 * 2 ^ 32) in R3. pose proof (pow_pos m ltac:(lia)). nia. }
  eexists _, (16 - j - m). split; [f_equal; lia|]. split; [lia|]. split; [lia|]. split; [lia|]. split; [lia|].
  assert (D : (x * 2 ^ (32 + m)) / 2 ^ 48 = l / 2 ^ (16 - j - m)).
  { replace (2 ^ 48) with (2 ^ (16 - m) * 2 ^ (32 + m)) by (rewrite <- Z.pow_add_r by lia; f_equal; lia).
    rewrite Z.div_mul_cancel_r by (pose proof (pow_pos (16 - m)); pose proof (pow_pos (32 + m)); lia).
    replace (16 - m) with (j + (16 - j - m)) by lia. rewrite Z.pow_add_r by lia. rewrite <- Z.div_div by (pose proof (pow_pos (16 - j - m)); lia).
    f_equal. unfold x. symmetry. apply Z.div_unique with junk; lia. }
  split; [exact D|]. rewrite <- D. apply Z.div_lt_upper_bound; lia.
Qed.

Lemma div_mod_swap v a b : 0 <= a -> 0 <= b -> (v / 2 ^ a) mod 2 ^ b = (v mod 2 ^ (a + b)) / 2 ^ a.
Proof.
  intros. pose proof (pow_pos a ltac:(lia)). pose proof (pow_pos b ltac:(lia)). rewrite Z.pow_add_r, Z.rem_mul_r by lia.
  rewrite (Z.mul_comm (2 ^ a)), Z.div_add by lia. rewrite (Z.div_small (v mod 2 ^ a)) by (apply mod_b; lia). reflexivity.
Qed.

(** ORI left out when it would add nothing. *)
Lemma go_opt r6 mem code a s d x q k ws tl : 1 <= d < 32 -> 0 <= k <= 64 -> x mod 2 ^ 16 < 2 ^ k -> s d = wrap (q * 2 ^ k) ->
  ws = (if x mod 2 ^ 16 =? 0 then [] else [ORI .| SA d .| TA d .| IMM x]) -> code_at 4 (ws ++ tl) a code ->
  exists s', goes r6 mem code a s (a + 4 * Z.of_nat (length ws)) s' /\ only s s' d (wrap (q * 2 ^ k + x mod 2 ^ 16)) /\ code_at 4 tl (a + 4 * Z.of_nat (length ws)) code.
Proof.
  intros Hd Hk Hx V -> C. apply code_at_app in C. destruct C as (C & Ct). destruct (x mod 2 ^ 16 =? 0) eqn:E.
  - exists s. split; [|split; [|exact Ct]].
    + replace (a + 4 * Z.of_nat (length (@nil Z))) with a by (cbn [length]; lia). apply goes_0.
    + apply Z.eqb_eq in E. rewrite E, Z.add_0_r. split; auto.
  - destruct C as (C & _). destruct (go_ori r6 mem code a s d Hd x q k Hk Hx V C) as (s1 & G1 & O1). exists s1. auto.
Qed.

Lemma load_immediate_ok r6 mem code a s d imm : 1 <= d < 32 -> - 2 ^ 63 <= imm < 2 ^ 63 -> code_at 4 (load_immediate d imm) a code ->
  exists s', goes r6 mem code a s (a + 4 * Z.of_nat (length (load_immediate d imm))) s' /\ only s s' d (wrap imm).
Proof.
  intros Hd Hi. unfold load_immediate. cbv zeta.
  rewrite (land_lnot_low imm 16) by (auto; lia). pose proof (Z.div_mod imm (2 ^ 16) ltac:(lia)) as DM. pose proof (mod_b imm 16 ltac:(lia)) as B16.
  destruct (imm / 2 ^ 16 * 2 ^ 16 =? 0) eqn:R0.
  { intros (C & _). destruct (go_ori0 r6 mem code a s d Hd imm C) as (s1 & G1 & O1). exists s1. split; [exact G1|].
    replace (imm mod 2 ^ 16) with imm in O1 by lia. rewrite wrap_small by (unfold isw; lia). exact O1. }
  destruct ((imm <? 0) && (-0x8000 <=? imm)) eqn:R1.
  { intros (C & _). destruct (go_addiu r6 mem code a s d Hd imm C) as (s1 & G1 & O1). exists s1. split; [exact G1|].
    rewrite sext_small in O1 by (change (2 ^ (16 - 1)) with 32768; lia). exact O1. }
  destruct ((imm <=? 0x7fffffff) && (-0x80000000 <=? imm)) eqn:R2.
  { intros C. cbn [app code_at] in C. destruct C as (C1 & C2).
    destruct (go_lui r6 mem code a s d Hd _ C1) as (s1 & G1 & O1). rewrite (low_test imm 16) in * by (auto; lia).
    rewrite <- (app_nil_r (if _ =? 0 then _ else _)) in C2.
    destruct (go_opt r6 mem code _ s1 d imm _ 16 _ [] Hd ltac:(lia) ltac:(lia) (proj1 O1) eq_refl C2) as (s2 & G2 & O2 & _).
    exists s2. split; [|eapply only_trans; [exact O1|]].
    - eapply goes_trans; [exact G1|]. cbn [app length]. rewrite Nat2Z.inj_succ.
      match goal with |- goes _ _ _ _ _ ?x _ => replace x with (a + 4 + 4 * Z.of_nat (length (if imm mod 2 ^ 16 =? 0 then [] else [ORI .| SA d .| TA d .| IMM imm]))) by lia end. exact G2.
    - rewrite shr_div, two16, sext_small in O2 by (try lia; change (2 ^ (32 - 1)) with (2 ^ 31); lia). exact O2. }
  destruct (normal1_ok imm Hi ltac:(lia)) as (j & junk & Hj & Hk & HS & ->).
  set (S := imm * 2 ^ j + junk) in *. assert (ES : S = imm * 2 ^ j + junk) by reflexivity. clearbody S.
  pose proof (pow_pos j ltac:(lia)) as Pj. pose proof (pow_pos (32 - j) ltac:(lia)) as Ps.
  assert (P32 : 2 ^ 32 = 2 ^ j * 2 ^ (32 - j)) by (rewrite <- Z.pow_add_r by lia; f_equal; lia).
  assert (Sj : S / 2 ^ j = imm) by (symmetry; apply Z.div_unique with junk; lia).
  assert (S32 : S / 2 ^ 32 = imm / 2 ^ (32 - j)) by (rewrite P32, <- Z.div_div, Sj by lia; reflexivity).
  assert (SM : S mod 2 ^ 32 = imm mod 2 ^ (32 - j) * 2 ^ j + junk).
  { pose proof (Z.div_mod S (2 ^ 32) ltac:(lia)). pose proof (Z.div_mod imm (2 ^ (32 - j)) ltac:(lia)). rewrite S32 in H. rewrite ES, P32 in H.
    assert (Q : imm * 2 ^ j = (2 ^ (32 - j) * (imm / 2 ^ (32 - j)) + imm mod 2 ^ (32 - j)) * 2 ^ j) by (f_equal; assumption). rewrite <- P32 in H at 2. rewrite <- ES in H at 2. lia. }
  set (l := imm mod 2 ^ (32 - j)) in *. assert (El : l = imm mod 2 ^ (32 - j)) by reflexivity. clearbody l.
  assert (Bl : 0 <= l < 2 ^ (32 - j)) by (rewrite El; apply mod_b; lia).
  replace (imm .& (Z.shiftl 1 (32 - j) - 1)) with l.
  2:{ rewrite Z.shiftl_mul_pow2, Z.mul_1_l by lia. rewrite (land_low imm (32 - j)) by (auto; lia). exact El. }
  intros C. cbn [app code_at] in C. destruct C as (C1 & C2).
  destruct (go_lui r6 mem code a s d Hd _ C1) as (s1 & G1 & O1).
  assert (T1 : (wrap S .& 0x0000ffff00000000 =? 0) = (Z.shiftr (wrap S) 32 mod 2 ^ 16 =? 0)).
  { rewrite (land_mask (wrap S) 32 16) by (auto; lia). rewrite shr_div by lia. pose proof (mod_b (wrap S / 2 ^ 32) 16 ltac:(lia)). lia. }
  rewrite T1 in *.
  destruct (go_opt r6 mem code _ s1 d (Z.shiftr (wrap S) 32) _ 16 _ _ Hd ltac:(lia) (proj2 (mod_b _ 16 ltac:(lia))) (proj1 O1) eq_refl C2) as (s2 & G2 & O2 & C3).
  set (w1 := if Z.shiftr (wrap S) 32 mod 2 ^ 16 =? 0 then [] else [ORI .| SA d .| TA d .| IMM (Z.shiftr (wrap S) 32)]) in *.
  assert (A : sext 16 (Z.shiftr (wrap S) 48) * 2 ^ 16 + Z.shiftr (wrap S) 32 mod 2 ^ 16 = imm / 2 ^ (32 - j)).
  { rewrite <- S32. rewrite !shr_div by lia. change 48 with (32 + 16). rewrite Z.pow_add_r by lia. rewrite <- Z.div_div by lia. rewrite two16.
    unfold wrap. change 64 with (32 + 32). rewrite <- div_mod_swap by lia. rewrite sext_low by lia.
    apply sext_small; [lia|]. change (2 ^ (32 - 1)) with (2 ^ 31). split; [apply Z.div_le_lower_bound; lia|apply Z.div_lt_upper_bound; lia]. }
  rewrite A in O2. clear A T1. clearbody w1.
  assert (O12 : only s s2 d (wrap (imm / 2 ^ (32 - j)))) by (eapply only_trans; eauto).
  assert (G12 : goes r6 mem code a s (a + 4 + 4 * Z.of_nat (length w1)) s2) by (eapply goes_trans; eauto).
  clear G1 G2 C1 C2 O1 O2 s1. set (b := a + 4 + 4 * Z.of_nat (length w1)) in *. assert (Eb : b = a + 4 + 4 * Z.of_nat (length w1)) by reflexivity. clearbody b.
  assert (LEN : forall ws, a + 4 * Z.of_nat (length ([LUI .| TA d .| IMM (Z.shiftr (wrap S) 48)] ++ w1 ++ ws)) = b + 4 * Z.of_nat (length ws)).
  { intros ws. rewrite !app_length. cbn [length]. lia. }
  rewrite LEN. clear LEN.
  rewrite (land_lnot_low l 16) in * by (auto; lia). pose proof (Z.div_mod l (2 ^ 16) ltac:(lia)) as DL. pose proof (mod_b l 16 ltac:(lia)) as BL.
  destruct (l / 2 ^ 16 * 2 ^ 16 =? 0) eqn:R3.
  - cbn [app code_at] in C3. destruct C3 as (C3 & C4).
    assert (E3 : exists s3, goes r6 mem code b s2 (b + 4) s3 /\ only s2 s3 d (wrap (imm / 2 ^ (32 - j) * 2 ^ (32 - j)))).
    { apply go_shift with (32 - j); auto; [apply O12|lia|]. rewrite C3. destruct (32 - j =? 32) eqn:E32.
      - replace (32 - j <? 32) with false by lia. replace (32 - j) with 32 by lia. apply dec_dsll32; lia.
      - replace (32 - j <? 32) with true by lia. apply dec_dsll'; lia. }
    destruct E3 as (s3 & G3 & O3). rewrite (low_test l 16) in * by (auto; lia). rewrite <- (app_nil_r (if _ =? 0 then _ else _)) in C4.
    destruct (go_opt r6 mem code _ s3 d l (imm / 2 ^ (32 - j)) (32 - j) _ [] Hd ltac:(lia) ltac:(lia) (proj1 O3) eq_refl C4) as (s4 & G4 & O4 & _).
    exists s4. split.
    + eapply goes_trans; [exact G12|]. eapply goes_trans; [exact G3|]. cbn [app length]. rewrite Nat2Z.inj_succ.
      match goal with |- goes _ _ _ _ _ ?x _ => replace x with (b + 4 + 4 * Z.of_nat (length (if l mod 2 ^ 16 =? 0 then [] else [ORI .| SA d .| TA d .| IMM l]))) by lia end. exact G4.
    + eapply only_trans; [exact O12|]. eapply only_trans; [exact O3|].
      replace (imm / 2 ^ (32 - j) * 2 ^ (32 - j) + l mod 2 ^ 16) with imm in O4; [exact O4|].
      pose proof (Z.div_mod imm (2 ^ (32 - j)) ltac:(lia)). lia.
  - destruct (normal2_ok S l j junk Hj Hk ltac:(lia) SM) as (V & sh2 & EN & N1 & N2 & N3 & N4 & NV & NL).
    rewrite EN in *. cbn [app code_at] in C3. destruct C3 as (C3 & C4 & C5 & C6).
    destruct (go_dsll r6 mem code b s2 d Hd (32 - j - sh2) _ ltac:(lia) (proj1 O12) C3) as (s3 & G3 & O3).
    assert (X3 : s3 d = wrap (imm / 2 ^ (32 - j) * 2 ^ (32 - j - sh2 - 16) * 2 ^ 16)).
    { rewrite (proj1 O3). rewrite <- Z.mul_assoc, <- Z.pow_add_r by lia. f_equal. f_equal. f_equal. lia. }
    destruct (go_ori r6 mem code _ s3 d Hd (Z.shiftr V 48) _ 16 ltac:(lia) (proj2 (mod_b _ 16 ltac:(lia))) X3 C4) as (s4 & G4 & O4).
    rewrite shr_div, NV in O4 by lia. rewrite (Z.mod_small (l / 2 ^ sh2)) in O4 by (split; [apply Z.div_pos; [lia|apply pow_pos; lia]|lia]).
    replace (imm / 2 ^ (32 - j) * 2 ^ (32 - j - sh2 - 16) * 2 ^ 16 + l / 2 ^ sh2) with (imm / 2 ^ sh2) in O4.
    2:{ rewrite <- (div_back imm sh2 (32 - j)) by lia. rewrite <- El. rewrite <- Z.mul_assoc, <- Z.pow_add_r by lia. f_equal. f_equal. f_equal. lia. }
    destruct (go_dsll r6 mem code _ s4 d Hd sh2 _ ltac:(lia) (proj1 O4) C5) as (s5 & G5 & O5).
    set (y := l .& (Z.shiftl 1 sh2 - 1)) in *.
    assert (Ey : y = imm mod 2 ^ sh2).
    { unfold y. rewrite Z.shiftl_mul_pow2, Z.mul_1_l by lia. rewrite (land_low l sh2) by (auto; lia). rewrite El. apply mod_back. lia. }
    assert (By : 0 <= y < 2 ^ sh2) by (rewrite Ey; apply mod_b; lia).
    assert (2 ^ sh2 <= 2 ^ 16) by (apply Z.pow_le_mono_r; lia).
    assert (Ym : y mod 2 ^ 16 = y) by (apply Z.mod_small; lia). clearbody y.
    rewrite (low_test y 16) in * by (auto; lia). rewrite <- (app_nil_r (if _ =? 0 then _ else _)) in C6.
    destruct (go_opt r6 mem code _ s5 d y (imm / 2 ^ sh2) sh2 _ [] Hd ltac:(lia) ltac:(lia) (proj1 O5) eq_refl C6) as (s6 & G6 & O6 & _).
    exists s6. split.
    + eapply goes_trans; [exact G12|]. eapply goes_trans; [exact G3|]. eapply goes_trans; [exact G4|]. eapply goes_trans; [exact G5|]. cbn [app length]. rewrite !Nat2Z.inj_succ.
      match goal with |- goes _ _ _ _ _ ?x _ => replace x with (b + 4 + 4 + 4 + 4 * Z.of_nat (length (if y mod 2 ^ 16 =? 0 then [] else [ORI .| SA d .| TA d .| IMM y]))) by lia end. exact G6.
    + eapply only_trans; [exact O12|]. eapply only_trans; [exact O3|]. eapply only_trans; [exact O4|]. eapply only_trans; [exact O5|].
      rewrite Ym in O6. replace (imm / 2 ^ sh2 * 2 ^ sh2 + y) with imm in O6; [exact O6|].
      pose proof (Z.div_mod imm (2 ^ sh2) ltac:(pose proof (pow_pos sh2); lia)). lia.
Qed.

(** ** Constants *)
Lemma reg_map_b r : 1 <= r <= 27 -> 1 <= reg_map r < 32.
Proof.
  intros H. assert (K : forallb (fun n => (1 <=? reg_map (Z.of_nat n)) && (reg_map (Z.of_nat n) <? 32)) (seq 1 27) = true) by (vm_compute; reflexivity).
  rewrite forallb_forall in K. specialize (K (Z.to_nat r) ltac:(apply in_seq; lia)). rewrite Z2Nat.id in K by lia. lia.
Qed.
Lemma IMM_mask x : IMM (x .& 0xffff) = IMM x.
Proof. rewrite !IMM_eq. rewrite (land_low x 16) by (auto; lia). apply Z.mod_mod. lia. Qed.
(** lui, ori. *)
Lemma go_32 r6 mem code a s d v tl : 1 <= d < 32 ->
  code_at 4 ((LUI .| TA d .| IMM (Z.shiftr v 16)) :: (ORI .| SA d .| TA d .| IMM v) :: tl) a code ->
  exists s', goes r6 mem code a s (a + 8) s' /\ only s s' d (wrap (sext 32 v)) /\ code_at 4 tl (a + 8) code.
Proof.
  intros Hd (C1 & C2 & C3). destruct (go_lui r6 mem code a s d Hd _ C1) as (s1 & G1 & O1).
  destruct (go_ori r6 mem code _ s1 d Hd v _ 16 ltac:(lia) (proj2 (mod_b _ 16 ltac:(lia))) (proj1 O1) C2) as (s2 & G2 & O2).
  rewrite shr_div, two16 in O2 by lia. exists s2. replace (a + 8) with (a + 4 + 4) by lia.
  split; [eapply goes_trans; eauto|]. split; [eapply only_trans; eauto|exact C3].
Qed.
(** dsll 16, ori. *)
Lemma go_more r6 mem code a s d X v tl : 1 <= d < 32 -> s d = wrap X ->
  code_at 4 ((DSLL .| TA d .| DA d .| SH_IMM 16) :: (ORI .| SA d .| TA d .| IMM v) :: tl) a code ->
  exists s', goes r6 mem code a s (a + 8) s' /\ only s s' d (wrap (X * 2 ^ 16 + v mod 2 ^ 16)) /\ code_at 4 tl (a + 8) code.
Proof.
  intros Hd V (C1 & C2 & C3). destruct (go_dsll r6 mem code a s d Hd 16 X ltac:(lia) V C1) as (s1 & G1 & O1).
  destruct (go_ori r6 mem code _ s1 d Hd v _ 16 ltac:(lia) (proj2 (mod_b _ 16 ltac:(lia))) (proj1 O1) C2) as (s2 & G2 & O2).
  exists s2. replace (a + 8) with (a + 4 + 4) by lia.
  split; [eapply goes_trans; eauto|]. split; [eapply only_trans; eauto|exact C3].
Qed.
(** Both, for 48 bits. *)
Lemma go_48 r6 mem code a s d v tl : 1 <= d < 32 ->
  code_at 4 ((LUI .| TA d .| IMM (Z.shiftr v 32)) :: (ORI .| SA d .| TA d .| IMM (Z.shiftr v 16)) :: (DSLL .| TA d .| DA d .| SH_IMM 16) :: (ORI .| SA d .| TA d .| IMM v) :: tl) a code ->
  exists s', goes r6 mem code a s (a + 16) s' /\ only s s' d (wrap (sext 32 (v / 2 ^ 16) * 2 ^ 16 + v mod 2 ^ 16)) /\ code_at 4 tl (a + 16) code.
Proof.
  intros Hd C. replace (Z.shiftr v 32) with (Z.shiftr (Z.shiftr v 16) 16) in C by (rewrite Z.shiftr_shiftr by lia; reflexivity).
  destruct (go_32 r6 mem code a s d _ _ Hd C) as (s1 & G1 & O1 & C1). destruct (go_more r6 mem code _ s1 d _ _ _ Hd (proj1 O1) C1) as (s2 & G2 & O2 & C2).
  rewrite shr_div in O2 by lia. exists s2. replace (a + 16) with (a + 8 + 8) by lia.
  split; [eapply goes_trans; eauto|]. split; [eapply only_trans; eauto|exact C2].
Qed.
Lemma go_64 r6 mem code a s d v tl : 1 <= d < 32 ->
  code_at 4 ((LUI .| TA d .| IMM (Z.shiftr v 48)) :: (ORI .| SA d .| TA d .| IMM (Z.shiftr v 32)) :: (DSLL .| TA d .| DA d .| SH_IMM 16) ::
             (ORI .| SA d .| TA d .| IMM (Z.shiftr v 16)) :: (DSLL .| TA d .| DA d .| SH_IMM 16) :: (ORI .| SA d .| TA d .| IMM v) :: tl) a code ->
  exists s', goes r6 mem code a s (a + 24) s' /\ only s s' d (wrap v) /\ code_at 4 tl (a + 24) code.
Proof.
  intros Hd C. replace (Z.shiftr v 48) with (Z.shiftr (Z.shiftr v 16) 32) in C by (rewrite Z.shiftr_shiftr by lia; reflexivity).
  replace (Z.shiftr v 32) with (Z.shiftr (Z.shiftr v 16) 16) in C by (rewrite Z.shiftr_shiftr by lia; reflexivity).
  destruct (go_48 r6 mem code a s d _ _ Hd C) as (s1 & G1 & O1 & C1). destruct (go_more r6 mem code _ s1 d _ _ _ Hd (proj1 O1) C1) as (s2 & G2 & O2 & C2).
  exists s2. replace (a + 24) with (a + 16 + 8) by lia. split; [eapply goes_trans; eauto|]. split; [|exact C2].
  eapply only_trans; [exact O1|]. replace (wrap v) with (wrap ((sext 32 (Z.shiftr v 16 / 2 ^ 16) * 2 ^ 16 + Z.shiftr v 16 mod 2 ^ 16) * 2 ^ 16 + v mod 2 ^ 16)); [exact O2|].
  rewrite !shr_div by lia. destruct (sext_mod 32 (v / 2 ^ 16 / 2 ^ 16) ltac:(lia)) as (k & K).
    pose proof (Z.div_mod v (2 ^ 16) ltac:(lia)). pose proof (Z.div_mod (v / 2 ^ 16) (2 ^ 16) ltac:(lia)).
  replace v with ((sext 32 (v / 2 ^ 16 / 2 ^ 16) * 2 ^ 16 + (v / 2 ^ 16) mod 2 ^ 16) * 2 ^ 16 + v mod 2 ^ 16 + k * 2 ^ 64) at 4 by lia.
  unfold wrap. rewrite Z_mod_plus_full. reflexivity.
Qed.

Lemma u8val_mod v : sext 16 (u8val v) = sext 9 v.
Proof.
  unfold u8val. rewrite (bit_test v 8) by lia. change (2 ^ (8 + 1)) with (2 ^ 9).
  pose proof (mod_b v 9 ltac:(lia)) as B9.
  destruct (v mod 2 ^ 9 <? 2 ^ 8) eqn:E.
  - rewrite (land_low v 8) by lia.
    assert (M : v mod 2 ^ 8 = v mod 2 ^ 9).
    { change 9 with (8 + 1) at 1. rewrite Z.pow_add_r by lia. rewrite Z.rem_mul_r by lia.
      pose proof (div_mod_swap v 8 1 ltac:(lia) ltac:(lia)) as D. change (8 + 1) with 9 in D.
      change (2 ^ 1) with 2 in *. rewrite D. rewrite Z.div_small by lia. lia. }
    rewrite M. rewrite sext_small by (change (2 ^ (16 - 1)) with 32768; lia). unfold sext. cbv zeta. change (2 ^ (9 - 1)) with (2 ^ 8). rewrite E. reflexivity.
  - assert (E9 : sext 9 v = v mod 2 ^ 9 - 2 ^ 9). { unfold sext. cbv zeta. change (2 ^ (9 - 1)) with (2 ^ 8). rewrite E. reflexivity. }
    assert (L : Z.lor v 0xff00 mod 2 ^ 16 = v mod 2 ^ 9 + 0xfe00).
    { rewrite <- Z.land_ones by lia. rewrite <- (Z.land_ones v 9) in * by lia.
      apply Z.ltb_ge in E.
      assert (T8 : Z.testbit v 8 = true).
      { assert (T : Z.testbit (Z.land v (Z.ones 9)) 8 = Z.testbit v 8) by (rewrite Z.land_spec; rewrite Z.ones_spec_low by lia; apply andb_true_r).
        rewrite <- T. apply Z.testbit_true; [lia|].
        assert (Z.land v (Z.ones 9) / 2 ^ 8 = 1). { symmetry. apply Z.div_unique with (Z.land v (Z.ones 9) - 2 ^ 8); lia. }
        rewrite H. reflexivity. }
      change 0xfe00 with (127 * 2 ^ 9). rewrite Z.add_comm. rewrite add_lor by lia.
      apply Z.bits_inj'. intros k Hk. rewrite Z.land_spec, !Z.lor_spec, Z.land_spec.
      assert (K : k = 0 \/ k = 1 \/ k = 2 \/ k = 3 \/ k = 4 \/ k = 5 \/ k = 6 \/ k = 7 \/ k = 8 \/ k = 9 \/ k = 10 \/ k = 11 \/ k = 12 \/ k = 13 \/ k = 14 \/ k = 15 \/ 16 <= k) by lia.
      destruct K as [-> | [-> | [-> | [-> | [-> | [-> | [-> | [-> | [-> | [-> | [-> | [-> | [-> | [-> | [-> | [-> | K]]]]]]]]]]]]]]]];
        try (rewrite ?T8; cbn; rewrite ?orb_false_r, ?andb_true_r, ?andb_false_r, ?orb_true_r; reflexivity).
      rewrite (Z.ones_spec_high 16), (Z.ones_spec_high 9) by lia.
      rewrite (small_bits_high (127 * 2 ^ 9) 16) by lia. rewrite !andb_false_r. reflexivity. }
    unfold sext at 1. cbv zeta. rewrite L, E9. change (2 ^ (16 - 1)) with 32768. change (2 ^ 16) with 65536. change (2 ^ 9) with 512 in *.
    change (2 ^ 8) with 256 in *. replace (v mod 512 + 65024 <? 32768) with false by lia. lia.
Qed.
Lemma sljit_emit_const_ok r6 mem code a s op dst v : 1 <= dst <= 27 -> code_at 4 (sljit_emit_const op dst v) a code ->
  exists s', goes r6 mem code a s (a + 4 * Z.of_nat (length (sljit_emit_const op dst v))) s' /\ only s s' (reg_map dst) (const_value op v).
Proof.
  intros Hd C. apply reg_map_b in Hd. destruct op; cbn [sljit_emit_const const_value length] in *.
  - destruct (go_64 r6 mem code a s (reg_map dst) v [] Hd C) as (s' & G & O & _). exists s'. auto.
  - destruct (go_32 r6 mem code a s (reg_map dst) v [] Hd C) as (s' & G & O & _). exists s'. auto.
  - destruct C as (C1 & _). destruct (go_addiu r6 mem code a s _ Hd _ C1) as (s1 & G1 & O1). exists s1. split; [exact G1|].
    rewrite u8val_mod in O1. exact O1.
Qed.

(** Changing the immediate of a word. *)
Lemma put_imm w x y : 0 <= w -> w mod 2 ^ 16 = 0 -> w < 2 ^ 32 -> ((w .| IMM x) .& 0xffff0000) .| IMM y = (w .| IMM y).
Proof.
  intros W0 W1 W2. rewrite Z.land_lor_distr_l. f_equal. rewrite IMM_eq.
  assert (A : w .& 0xffff0000 = w).
  { rewrite (land_mask w 16 16) by (auto; lia). pose proof (Z.div_mod w (2 ^ 16) ltac:(lia)). rewrite Z.mod_small; [lia|]. split; [apply Z.div_pos; lia|apply Z.div_lt_upper_bound; lia]. }
  assert (Z0 : x mod 2 ^ 16 .& 0xffff0000 = 0).
  { rewrite (land_mask _ 16 16) by (auto; lia). rewrite (Z.div_small (x mod 2 ^ 16)) by (apply mod_b; lia). reflexivity. }
  rewrite A, Z0. apply Z.lor_0_r.
Qed.
Definition base_ok (w : Z) : Prop := 0 <= w /\ w mod 2 ^ 16 = 0 /\ w < 2 ^ 32.
Lemma bases r : 1 <= r <= 27 -> base_ok (LUI .| T_ r) /\ base_ok (ORI .| S_ r .| T_ r) /\ base_ok (ADDIU .| SA 0 .| T_ r).
Proof.
  intros H. assert (K : forallb (fun n => let ok w := (0 <=? w) && (w mod 2 ^ 16 =? 0) && (w <? 2 ^ 32) in let r := Z.of_nat n in
    ok (LUI .| T_ r) && ok (ORI .| S_ r .| T_ r) && ok (ADDIU .| SA 0 .| T_ r)) (seq 1 27) = true) by (vm_compute; reflexivity).
  rewrite forallb_forall in K. specialize (K (Z.to_nat r) ltac:(apply in_seq; lia)). cbv zeta in K. rewrite Z2Nat.id in K by lia. unfold base_ok.
  rewrite !andb_true_iff, !Z.leb_le, !Z.ltb_lt, !Z.eqb_eq in K. tauto.
Qed.
Lemma set_jump_addr_ok dst v v' : 1 <= dst <= 27 -> sljit_set_jump_addr (emit_const dst v) v' = emit_const dst v'.
Proof.
  intros Hd. destruct (bases dst Hd) as ((A1 & A2 & A3) & (B1 & B2 & B3) & _). unfold sljit_set_jump_addr, put, emit_const. cbn [firstn skipn app].
  rewrite !put_imm by assumption. reflexivity.
Qed.
Lemma set_const_ok op dst v v' : 1 <= dst <= 27 -> sljit_set_const op (sljit_emit_const op dst v) v' = sljit_emit_const op dst v'.
Proof.
  intros Hd. destruct op; cbn [sljit_set_const sljit_emit_const].
  - apply set_jump_addr_ok. exact Hd.
  - destruct (bases dst Hd) as ((A1 & A2 & A3) & (B1 & B2 & B3) & _). unfold put. cbn [firstn skipn app]. rewrite !put_imm by assumption. reflexivity.
  - destruct (bases dst Hd) as (_ & _ & (A1 & A2 & A3)). unfold put. cbn [firstn skipn app]. rewrite !put_imm by assumption. reflexivity.
Qed.
