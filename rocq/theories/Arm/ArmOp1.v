(** ARM64: operations with one operand and with none. *)
Require Import ZArith List Bool Lia Zify ZifyBool.
From Verif Require Import Rv.RvLib Rv.RvBits Imm.ImmLib Imm.MsProofs Imm.PpProofs Arm.ArmIsa Arm.ArmBr Arm.ArmEnc Arm.ArmBits Arm.ArmImm Arm.ArmImmProofs Arm.ArmLogImm Arm.ArmLoadImm
  Arm.ArmJump Arm.ArmJumpSpec Arm.ArmJumpProofs Arm.ArmCondProofs Arm.ArmOp Arm.ArmOpSpec Arm.ArmOpDec Arm.ArmOpProofs Arm.ArmOpImm.
Import ListNotations.
Open Scope Z_scope.
Ltac Zify.zify_post_hook ::= idtac.

(** ** Extension *)
Lemma ext_val n x k (sg : bool) : 1 <= k < n ->
  Z.lor (Z.ldiff (if sg then if Z.testbit x (k - 1) then Z.ones n else 0 else 0) (Z.ones k)) (Z.land (Z.land (ror n x 0) (Z.ones k)) (Z.ones k)) = (if sg then sext k x else x mod 2 ^ k) mod 2 ^ n.
Proof.
  intros K. apply Z.bits_inj'. intros i I. rewrite Z.lor_spec, Z.ldiff_spec, !Z.land_spec, tb_ror, Z.testbit_ones, tb_lo by lia. replace (0 <=? i) with true by lia. rewrite Z.add_0_r. cbn [andb].
  assert (E : (if sg then if Z.testbit x (k - 1) then Z.ones n else 0 else 0) = if sg && Z.testbit x (k - 1) then Z.ones n else 0) by (destruct sg; reflexivity). rewrite E.
  assert (E2 : Z.testbit (if sg && Z.testbit x (k - 1) then Z.ones n else 0) i = (i <? n) && (sg && Z.testbit x (k - 1))).
  { destruct (sg && Z.testbit x (k - 1)); [rewrite Z.testbit_ones by lia; replace (0 <=? i) with true by lia; rewrite andb_true_r; reflexivity|rewrite Z.bits_0, andb_false_r; reflexivity]. }
  rewrite E2.
  assert (E3 : Z.testbit (if sg then sext k x else x mod 2 ^ k) i = if i <? k then Z.testbit x i else sg && Z.testbit x (k - 1)).
  { destruct sg.
    - rewrite <- (sext_low k x ltac:(lia)). rewrite tb_sext by (try lia; apply mod_b; lia). rewrite tb_lo by (destruct (i <? k); lia). destruct (i <? k) eqn:C; [rewrite C; reflexivity|]. replace (k - 1 <? k) with true by lia. reflexivity.
    - rewrite tb_lo by lia. destruct (i <? k); reflexivity. }
  rewrite E3. destruct (i <? k) eqn:C.
  - replace (i <? n) with true by lia. rewrite (Z.testbit_neg_r x (i - (n - 0))) by lia. cbn [negb andb]. rewrite !andb_true_r, andb_false_r, !orb_false_r. reflexivity.
  - cbn [negb]. rewrite !andb_false_r, andb_true_r, orb_false_r. reflexivity.
Qed.
Lemma ext_word w32 sg dst src k s : 1 <= k < len w32 -> run [bfm w32 sg .| RD dst .| RN src .| Z.shiftl (k - 1) 10] s =
  Some (wX s (reg_map dst) ((if sg then sext k (rX s (reg_map src)) else rX s (reg_map src) mod 2 ^ k) mod 2 ^ len w32)).
Proof.
  intros K. assert (L : len w32 <= 64) by (destruct w32; cbn; lia). eapply run1; [apply dec_ext; lia|].
  destruct (mask_cases w32 (k - 1) ltac:(lia)) as (_ & _ & M). replace (k - 1 + 1) with k in M by lia.
  rewrite (ex_bfm w32 sg 0 (k - 1) (reg_map src) (reg_map dst) s _ _ ltac:(lia) ltac:(lia) M). cbv zeta. do 2 f_equal. rewrite ext_val by exact K. f_equal. unfold lo. destruct sg.
  - rewrite <- (sext_low k (_ mod _)) by lia. rewrite mod_mod_low by lia. apply sext_low. lia.
  - apply mod_mod_low. lia.
Qed.
Lemma sxtw_word dst src s : run [SBFM .| Z.shiftl 1 22 .| RD dst .| RN src .| Z.shiftl 31 10] s = Some (wX s (reg_map dst) (sext 32 (rX s (reg_map src)) mod 2 ^ 64)).
Proof.
  eapply run1; [apply dec_sxtw|]. destruct (mask_cases false 31 ltac:(cbn; lia)) as (_ & _ & M). cbn [len nbit] in M.
  assert (X := ex_bfm false true 0 31 (reg_map src) (reg_map dst) s _ _ ltac:(cbn; lia) ltac:(cbn; lia) M). cbn [negb nbit len] in X. rewrite X. cbv zeta. do 2 f_equal. rewrite (ext_val 64 _ 32 true ltac:(lia)). f_equal. unfold lo.
  rewrite <- (sext_low 32 (_ mod _)) by lia. rewrite mod_mod_low by lia. apply sext_low. lia.
Qed.
Lemma mov_word w32 dst src s : run [Z.lxor MOV (inv_bits w32) .| RD dst .| RM src] s = Some (wX s (reg_map dst) (rX s (reg_map src) mod 2 ^ len w32)).
Proof.
  eapply run1; [apply dec_mov|]. rewrite ex_logr by (cbn; auto). cbv zeta. cbn [Z.eqb Pos.eqb]. change (rX s 31) with 0. unfold lo at 1. rewrite Z.mod_0_l by (pose proof (len_pow w32); lia). rewrite Z.lor_0_l. reflexivity.
Qed.

(** ** Counting zeros *)
Lemma clz_leading n x : 1 <= n -> 0 <= x < 2 ^ n -> leading n x (clz n x).
Proof.
  intros N X. unfold leading, clz. destruct (x =? 0) eqn:E.
  - assert (x = 0) by lia. subst x. split; [lia|]. split; [apply Z.div_0_l; rewrite Z.sub_diag; discriminate|lia].
  - assert (P : 0 < x) by lia. pose proof (Z.log2_nonneg x). assert (LT : Z.log2 x < n) by (apply Z.log2_lt_pow2; lia). pose proof (Z.log2_spec x P) as (S1 & S2). rewrite <- Z.add_1_r in S2.
    split; [lia|]. split; [replace (n - (n - 1 - Z.log2 x)) with (Z.log2 x + 1) by lia; apply Z.div_small; lia|].
    intros _. replace (n - 1 - (n - 1 - Z.log2 x)) with (Z.log2 x) by lia. apply Z.bit_log2. exact P.
Qed.
Lemma tb_rbits : forall m x i, 0 <= i -> Z.testbit (rbits m x) i = (i <? Z.of_nat m) && Z.testbit x (Z.of_nat m - 1 - i).
Proof.
  induction m as [|m IH]; intros x i I.
  - cbn [rbits]. rewrite Z.bits_0. replace (i <? Z.of_nat 0) with false by lia. reflexivity.
  - cbn [rbits]. rewrite Z.lor_spec, IH by exact I. rewrite Z.shiftl_spec by exact I.
    destruct (i =? Z.of_nat m) eqn:E.
    + assert (i = Z.of_nat m) by lia. subst i. rewrite Z.sub_diag, Z.ltb_irrefl, orb_false_r. replace (Z.of_nat m <? Z.of_nat (S m)) with true by lia. replace (Z.of_nat (S m) - 1 - Z.of_nat m) with 0 by lia.
      rewrite Z.bit0_odd. rewrite Z.bit0_odd. destruct (Z.odd x); reflexivity.
    + assert (Z0 : Z.testbit (Z.b2z (Z.odd x)) (i - Z.of_nat m) = false).
      { destruct (Z.lt_ge_cases i (Z.of_nat m)); [apply Z.testbit_neg_r; lia|]. apply (small_bits_high _ 1); [lia|destruct (Z.odd x); cbn; lia|lia]. }
      rewrite Z0, orb_false_l. destruct (i <? Z.of_nat m) eqn:C.
      * replace (i <? Z.of_nat (S m)) with true by lia. cbn [andb]. rewrite Z.shiftr_spec by lia. f_equal. lia.
      * replace (i <? Z.of_nat (S m)) with false by lia. reflexivity.
Qed.
Lemma rbits_b m x : 0 <= rbits m x < 2 ^ Z.of_nat m.
Proof.
  apply bits_b; [lia| |].
  - revert x. induction m as [|m IH]; intros x; cbn [rbits]; [lia|]. apply Z.lor_nonneg. split; [|apply IH]. rewrite Z.shiftl_mul_pow2 by lia. pose proof (pow_pos (Z.of_nat m) ltac:(lia)). destruct (Z.odd x); cbn [Z.b2z]; nia.
  - intros i I. rewrite tb_rbits by lia. replace (i <? Z.of_nat m) with false by lia. reflexivity.
Qed.
Lemma ctz_trailing m x : (0 < m)%nat -> 0 <= x < 2 ^ Z.of_nat m -> trailing (Z.of_nat m) x (clz (Z.of_nat m) (rbits m x)).
Proof.
  intros M X. set (n := Z.of_nat m) in *. pose proof (rbits_b m x) as RB. fold n in RB. set (r := rbits m x) in *. assert (N : 1 <= n) by lia.
  assert (TB : forall i, 0 <= i < n -> Z.testbit x i = Z.testbit r (n - 1 - i)).
  { intros i I. unfold r. rewrite tb_rbits by lia. fold n. replace (n - 1 - i <? n) with true by lia. cbn [andb]. f_equal. lia. }
  assert (LOW : forall z, 0 <= z <= n -> (forall i, 0 <= i < z -> Z.testbit x i = false) -> x mod 2 ^ z = 0).
  { intros z Hz H. apply Z.bits_inj'. intros i I. rewrite tb_lo, Z.bits_0 by lia. destruct (i <? z) eqn:C; [|reflexivity]. rewrite H by lia. reflexivity. }
  unfold trailing, clz. destruct (r =? 0) eqn:E.
  - split; [lia|]. split; [|lia]. apply LOW; [lia|]. intros i I. rewrite TB by lia. replace r with 0 by lia. apply Z.bits_0.
  - assert (P : 0 < r) by lia. pose proof (Z.log2_nonneg r). assert (LT : Z.log2 r < n) by (apply Z.log2_lt_pow2; lia). split; [lia|]. split.
    + apply LOW; [lia|]. intros i I. rewrite TB by lia. apply Z.bits_above_log2; lia.
    + intros _. rewrite TB by lia. replace (n - 1 - (n - 1 - Z.log2 r)) with (Z.log2 r) by lia. apply Z.bit_log2. exact P.
Qed.

(** ** Byte order *)
Lemma swapped_b : forall m x, 0 <= swapped m x < 2 ^ (8 * Z.of_nat m).
Proof.
  induction m as [|m IH]; intros x; cbn [swapped]; [cbn; lia|]. specialize (IH (x / 2 ^ 8)). unfold byte. pose proof (mod_b (x / 2 ^ (8 * 0)) 8 ltac:(lia)) as B. replace (8 * Z.of_nat (S m)) with (8 + 8 * Z.of_nat m) by lia. rewrite Z.pow_add_r by lia. nia.
Qed.
Lemma rbytes_swapped : forall m x, rbytes m x = swapped m x.
Proof.
  induction m as [|m IH]; intros x; cbn [rbytes swapped]; [reflexivity|]. rewrite IH. rewrite Z.shiftr_div_pow2, Z.shiftl_mul_pow2 by lia. rewrite (land_low x 8) by lia. rewrite <- add_lor by (try lia; apply swapped_b).
  unfold byte. rewrite Z.mul_0_r, Z.pow_0_r, Z.div_1_r. reflexivity.
Qed.
Lemma swapped_mod : forall m x, swapped m (x mod 2 ^ (8 * Z.of_nat m)) = swapped m x.
Proof.
  induction m as [|m IH]; intros x; cbn [swapped]; [reflexivity|]. replace (8 * Z.of_nat (S m)) with (8 + 8 * Z.of_nat m) by lia. rewrite Z.pow_add_r by lia. pose proof (pow_pos (8 * Z.of_nat m) ltac:(lia)) as P.
  rewrite Z.rem_mul_r by lia. set (q := (x / 2 ^ 8) mod 2 ^ (8 * Z.of_nat m)). pose proof (mod_b x 8 ltac:(lia)) as B.
  assert (D : (x mod 2 ^ 8 + 2 ^ 8 * q) / 2 ^ 8 = q) by (rewrite Z.mul_comm, Z.div_add by lia; rewrite Z.div_small by lia; reflexivity).
  rewrite D. unfold q. rewrite IH. f_equal. f_equal. unfold byte. rewrite Z.mul_0_r, Z.pow_0_r, !Z.div_1_r. rewrite Z.mul_comm, Z_mod_plus_full. apply Z.mod_mod. lia.
Qed.
Lemma swapped_low m n x : 8 * Z.of_nat m <= n -> swapped m (x mod 2 ^ n) = swapped m x.
Proof. intros H. rewrite <- (swapped_mod m (x mod 2 ^ n)). rewrite mod_mod_low by lia. apply swapped_mod. Qed.
Lemma rgroups_low k g x : rgroups (S k) (Z.of_nat g) x mod 2 ^ (8 * Z.of_nat g) = swapped g x.
Proof.
  cbn [rgroups]. rewrite Nat2Z.id, rbytes_swapped, Z.land_ones by lia. rewrite swapped_mod. rewrite Z.lor_comm, Z.shiftl_mul_pow2 by lia. rewrite <- add_lor by (try lia; apply swapped_b).
  rewrite Z.add_comm, Z_mod_plus_full. apply Z.mod_small. apply swapped_b.
Qed.
Lemma rgroups_1 g x : rgroups 1 (Z.of_nat g) x = swapped g x.
Proof. cbn [rgroups]. rewrite Nat2Z.id, rbytes_swapped, Z.land_ones by lia. rewrite swapped_mod. rewrite Z.shiftl_0_l, Z.lor_0_r. reflexivity. Qed.

(** ** One operand *)
Lemma same_wX s d v : same_but (fun k => k = d) s (wX s d v).
Proof. pose proof (flags_wX s d v) as (A & B & C & D). split; [intros k K; apply xr_wX_ne; exact K|]. rewrite mm_wX. repeat split; assumption. Qed.
Lemma same_refl (f : Z -> Prop) s : same_but f s s.
Proof. unfold same_but. repeat split; reflexivity. Qed.
Lemma same_trans (f : Z -> Prop) s s1 s2 : same_but f s s1 -> same_but f s1 s2 -> same_but f s s2.
Proof. intros (A & B & C & D & E & F) (A' & B' & C' & D' & E' & F'). split; [intros k K; rewrite A' by exact K; apply A; exact K|]. repeat split; congruence. Qed.
Lemma same_weak (f g : Z -> Prop) s s1 : (forall k, f k -> g k) -> same_but f s s1 -> same_but g s s1.
Proof. intros H (A & B). split; [|exact B]. intros k K. apply A. intros F. apply K. apply H. exact F. Qed.
Lemma reg_ok r : 1 <= r <= 26 -> reg_map r <> 31 /\ reg_map r <> 9 /\ reg_map r <> 10 /\ (r =? TMP_REG1) = false /\ (r =? TMP_REG2) = false.
Proof.
  intros H. assert (F : forallb (fun d => negb (reg_map d =? 9) && negb (reg_map d =? 10) && negb (reg_map d =? 31) && negb (d =? TMP_REG1) && negb (d =? TMP_REG2)) (zseq 1 26) = true) by (vm_compute; reflexivity).
  rewrite forallb_forall in F. specialize (F r (in_zseq 1 26 r ltac:(lia))). lia.
Qed.
Lemma bfm_eq w32 sg : Z.lxor (if sg : bool then SBFM else UBFM) (inv_bits w32 .| Z.shiftr (inv_bits w32) 9) = bfm w32 sg.
Proof. destruct w32, sg; reflexivity. Qed.
Lemma len64 w32 x y : x mod 2 ^ 64 = y mod 2 ^ 64 -> x mod 2 ^ len w32 = y mod 2 ^ len w32.
Proof. intros E. rewrite <- (mod_mod_low (len w32) 64 x), <- (mod_mod_low (len w32) 64 y) by (destruct w32; cbn; lia). rewrite E. reflexivity. Qed.

Lemma did_wX op w32 dst src s v : reg_map dst <> 31 -> result1 op w32 (xr s (reg_map src)) v -> did_op1 op w32 dst (AReg src) s (wX s (reg_map dst) v).
Proof. intros D R. split; [cbn [val1]; rewrite xr_wX_eq by exact D; exact R|apply same_wX]. Qed.
Lemma rX_xr s r : r <> 31 -> rX s r = xr s r.
Proof. intros H. unfold rX. replace (r =? 31) with false by lia. reflexivity. Qed.
Lemma clz_mod n z : 1 <= n -> 0 <= z <= n -> z mod 2 ^ n = z.
Proof. intros N H. apply Z.mod_small. split; [lia|]. assert (n < 2 ^ n) by (apply Z.pow_gt_lin_r; lia). lia. Qed.
(** Where the second word of REV_U16 and the like is left out for operands in memory. *)
Definition whole (op : op1) (dst src : Z) : Prop :=
  match op with ORevU16 => (dst =? TMP_REG1) = false /\ (src =? TMP_REG2) = false | ORevS16 | ORevS32 => (dst =? TMP_REG1) = false | _ => True end.
Theorem reg1_gen op w32 dst src s : reg_map dst <> 31 -> reg_map src <> 31 -> whole op dst src -> exists s', run (reg1_form op (op1_w32 op w32) dst src) s = Some s' /\ did_op1 op w32 dst (AReg src) s s'.
Proof.
  intros D31 S31 WH. pose proof (len1 w32) as L. pose proof (len_pow w32) as LP.
  assert (N0 : forall n, 0 <= n -> 2 ^ n <> 0) by (intros n H; pose proof (pow_pos n H); lia).
  assert (EXT : forall (sg : bool) k, 1 <= k < len w32 -> result1 op w32 (xr s (reg_map src)) ((if sg then sext k (xr s (reg_map src)) else xr s (reg_map src) mod 2 ^ k) mod 2 ^ len w32) ->
    exists s', run [Z.lxor (if sg then SBFM else UBFM) (inv_bits w32 .| Z.shiftr (inv_bits w32) 9) .| RD dst .| RN src .| Z.shiftl (k - 1) 10] s = Some s' /\ did_op1 op w32 dst (AReg src) s s').
  { intros sg k K R. rewrite bfm_eq. eexists. split; [apply ext_word; exact K|]. rewrite rX_xr by exact S31. apply did_wX; assumption. }
  assert (K8 : 1 <= 8 < len w32) by (destruct w32; cbn; lia). assert (K16 : 1 <= 16 < len w32) by (destruct w32; cbn; lia).
  assert (SAME : did_op1 OMov w32 src (AReg src) s s) by (split; [reflexivity|apply same_refl]).
  assert (REV2 : forall (sg : bool), exists s', run [Z.lxor REV16 0x80000000 .| RD dst .| RN src; Z.lxor (if sg then SBFM else UBFM) (inv_bits false .| Z.shiftr (inv_bits false) 9) .| RD dst .| RN dst .| Z.shiftl 15 10] s = Some s' /\
    did_op1 (if sg then ORevS16 else ORevU16) w32 dst (AReg src) s s').
  { intros sg. assert (E1 : run [Z.lxor REV16 0x80000000 .| RD dst .| RN src] s = Some (wX s (reg_map dst) (rgroups 2 2 (lo 32 (xr s (reg_map src)))))).
    { eapply run1; [apply dec_rev16|]. cbn [exec Z.eqb Pos.eqb dsz]. rewrite rX_xr by exact S31. reflexivity. }
    set (y := rgroups 2 2 (lo 32 (xr s (reg_map src)))) in *. assert (Y : y mod 2 ^ 16 = swapped 2 (xr s (reg_map src))).
    { unfold y. change 2 with (Z.of_nat 2) at 1. rewrite (rgroups_low 1 2). apply (swapped_low 2 32). lia. }
    eexists. split; [eapply run2; [exact E1|]; rewrite bfm_eq; apply (ext_word false sg dst dst 16); cbn; lia|]. rewrite rX_wX_eq by exact D31.
    split; [|eapply same_trans; apply same_wX]. rewrite xr_wX_eq by exact D31. cbn [val1 len]. destruct sg; cbn [result1].
    - rewrite <- (sext_low 16 y) by lia. rewrite Y. apply len64. apply Z.mod_mod. lia.
    - rewrite Y. apply len64. apply Z.mod_mod. lia. }
  destruct op; cbn [op1_w32 reg1_form]; cbn [whole] in WH.
  - (* MOV *) destruct (dst =? src) eqn:E; [assert (dst = src) by lia; subst dst; exists s; split; [reflexivity|exact SAME]|].
    eexists. split; [apply (mov_word false)|]. rewrite rX_xr by exact S31. apply did_wX; [exact D31|]. cbn [result1 len]. apply Z.mod_mod. lia.
  - apply (EXT false 8 K8). cbn [result1]. apply Z.mod_mod. lia.
  - apply (EXT true 8 K8). cbn [result1]. apply Z.mod_mod. lia.
  - apply (EXT false 16 K16). cbn [result1]. apply Z.mod_mod. lia.
  - apply (EXT true 16 K16). cbn [result1]. apply Z.mod_mod. lia.
  - eexists. split; [apply (mov_word true)|]. rewrite rX_xr by exact S31. apply did_wX; [exact D31|]. cbn [result1 len]. reflexivity.
  - eexists. split; [apply sxtw_word|]. rewrite rX_xr by exact S31. apply did_wX; [exact D31|]. cbn [result1]. apply Z.mod_mod. lia.
  - (* MOV32 *) destruct (dst =? src) eqn:E; [assert (dst = src) by lia; subst dst; exists s; split; [reflexivity|split; [reflexivity|apply same_refl]]|].
    eexists. split; [apply (mov_word true)|]. rewrite rX_xr by exact S31. apply did_wX; [exact D31|]. cbn [result1 len]. apply Z.mod_mod. lia.
  - (* MOV_P *) destruct (dst =? src) eqn:E; [assert (dst = src) by lia; subst dst; exists s; split; [reflexivity|split; [reflexivity|apply same_refl]]|].
    eexists. split; [apply (mov_word false)|]. rewrite rX_xr by exact S31. apply did_wX; [exact D31|]. cbn [result1 len]. apply Z.mod_mod. lia.
  - (* CLZ *) assert (CL := clz_leading (len w32) (xr s (reg_map src) mod 2 ^ len w32) L (mod_b _ (len w32) ltac:(lia))).
    eexists. split; [eapply run1; [apply dec_clz|]; cbn [exec Z.eqb Pos.eqb]; rewrite dsz_len, rX_xr by exact S31; reflexivity|]. apply did_wX; [exact D31|]. cbn [result1]. unfold lo.
    rewrite (clz_mod (len w32) (clz _ _)); [exact CL|exact L|destruct CL as (B & _); exact B].
  - (* CTZ *) assert (LN : len w32 = Z.of_nat (Z.to_nat (len w32))) by lia.
    assert (CT := ctz_trailing (Z.to_nat (len w32)) (xr s (reg_map src) mod 2 ^ len w32) ltac:(lia) ltac:(rewrite <- LN; apply mod_b; lia)). rewrite <- LN in CT.
    assert (E1 : run [Z.lxor RBIT (inv_bits w32) .| RD dst .| RN src] s = Some (wX s (reg_map dst) (rbits (Z.to_nat (len w32)) (xr s (reg_map src) mod 2 ^ len w32)))).
    { eapply run1; [apply dec_rbit|]. cbn [exec Z.eqb Pos.eqb]. rewrite dsz_len, rX_xr by exact S31. reflexivity. }
    eexists. split; [eapply run2; [exact E1|]; eapply run1; [apply dec_clz|]; cbn [exec Z.eqb Pos.eqb]; rewrite dsz_len, rX_wX_eq by exact D31; reflexivity|].
    pose proof (rbits_b (Z.to_nat (len w32)) (xr s (reg_map src) mod 2 ^ len w32)) as RB. rewrite <- LN in RB. rewrite (lo_small _ _ RB).
    split; [|eapply same_trans; apply same_wX]. rewrite xr_wX_eq by exact D31. cbn [val1 result1]. rewrite (clz_mod (len w32) (clz _ _)); [exact CT|exact L|destruct CT as (B & _); exact B].
  - (* REV *) destruct w32.
    + eexists. split; [eapply run1; [apply (dec_rev true)|]; cbn [exec Z.eqb Pos.eqb negb dsz]; rewrite rX_xr by exact S31; reflexivity|]. apply did_wX; [exact D31|]. cbn [result1 len].
      change (Z.to_nat (32 / 32)) with 1%nat. change 4 with (Z.of_nat 4) at 1. rewrite rgroups_1. f_equal. apply (swapped_low 4 32). lia.
    + eexists. split; [eapply run1; [apply (dec_rev false)|]; cbn [exec Z.eqb Pos.eqb negb dsz]; rewrite rX_xr by exact S31; reflexivity|]. apply did_wX; [exact D31|]. cbn [result1 len].
      change 8 with (Z.of_nat 8) at 1. rewrite rgroups_1. f_equal. apply (swapped_low 8 64). lia.
  - (* REV_U16 *) destruct WH as (DT1 & ST2). rewrite DT1, ST2. cbn [orb andb]. apply (REV2 false).
  - (* REV_S16 *) rewrite WH, andb_false_r. cbn [orb]. apply (REV2 true).
  - (* REV_U32 *) eexists. split; [eapply run1; [apply dec_rev32|]; cbn [exec Z.eqb Pos.eqb dsz]; rewrite rX_xr by exact S31; reflexivity|]. apply did_wX; [exact D31|]. cbn [result1].
    change (Z.to_nat (32 / 32)) with 1%nat. change 4 with (Z.of_nat 4) at 1. rewrite rgroups_1. f_equal. apply (swapped_low 4 32). lia.
  - (* REV_S32 *) rewrite WH.
    assert (E1 : run [Z.lxor REV 0x80000400 .| RD dst .| RN src] s = Some (wX s (reg_map dst) (swapped 4 (xr s (reg_map src))))).
    { eapply run1; [apply dec_rev32|]. cbn [exec Z.eqb Pos.eqb dsz]. rewrite rX_xr by exact S31. change (Z.to_nat (32 / 32)) with 1%nat. change 4 with (Z.of_nat 4) at 1. rewrite rgroups_1. do 2 f_equal. apply (swapped_low 4 32). lia. }
    eexists. split; [eapply run2; [exact E1|apply sxtw_word]|]. rewrite rX_wX_eq by exact D31. split; [|eapply same_trans; apply same_wX]. rewrite xr_wX_eq by exact D31. cbn [val1 result1]. apply Z.mod_mod. lia.
Qed.
Theorem reg1_ok op w32 dst src s : 1 <= dst <= 26 -> 1 <= src <= 26 -> exists s', run (reg1_form op (op1_w32 op w32) dst src) s = Some s' /\ did_op1 op w32 dst (AReg src) s s'.
Proof. intros HD HS. destruct (reg_ok dst HD) as (D31 & _ & _ & DT1 & DT2). destruct (reg_ok src HS) as (S31 & _ & _ & ST1 & ST2). apply reg1_gen; [exact D31|exact S31|]. destruct op; cbn [whole]; auto. Qed.
Theorem op1_ok op w32 dst a s : 1 <= dst <= 26 -> match a with AReg r => 1 <= r <= 26 | AImm i => - 2 ^ 63 <= i < 2 ^ 63 /\ is_mov op = true end ->
  exists ws s', sljit_emit_op1 op w32 dst a = Some ws /\ run ws s = Some s' /\ did_op1 op w32 dst a s s'.
Proof.
  intros HD HA. destruct a as [r|i]; cbn [sljit_emit_op1].
  - destruct (reg1_ok op w32 dst r s HD HA) as (s' & R & W). eexists _, s'. split; [reflexivity|]. split; assumption.
  - destruct HA as (HI & HM). rewrite HM. assert (SW : sword (conv1 op i)).
    { unfold sword. pose proof (sext_range 8 i ltac:(lia)). pose proof (sext_range 16 i ltac:(lia)). pose proof (sext_range 32 i ltac:(lia)). pose proof (mod_b i 8 ltac:(lia)). pose proof (mod_b i 16 ltac:(lia)). pose proof (mod_b i 32 ltac:(lia)). destruct op; cbn [conv1]; lia. }
    destruct (load_immediate_ok dst (conv1 op i) s (or_introl HD) SW) as (ws & s' & E & R & O). exists ws, s'. split; [exact E|]. split; [exact R|]. destruct O as (V & K & N1 & N2 & N3 & N4 & M).
    split; [|split; [exact K|repeat split; assumption]]. rewrite V. cbn [val1]. unfold wrap.
    destruct op; try discriminate HM; cbn [result1 conv1]; try (apply len64; apply Z.mod_mod; lia); try (apply Z.mod_mod; lia).
    rewrite mod_mod_low by lia. apply sext_low_mod. lia.
Qed.

(** ** No operand *)
Lemma quot_range n a b : 1 <= n -> - 2 ^ (n - 1) <= a < 2 ^ (n - 1) -> - 2 ^ (n - 1) <= b < 2 ^ (n - 1) -> b <> 0 -> ~ (b = -1 /\ a = - 2 ^ (n - 1)) -> - 2 ^ (n - 1) <= Z.quot a b < 2 ^ (n - 1).
Proof.
  intros N A B B0 NO. pose proof (pow_pos (n - 1) ltac:(lia)) as P. pose proof (Z.quot_rem' a b) as QR. pose proof (Z.rem_bound_abs a b B0) as RB.
  destruct (Z.eq_dec b (-1)) as [-> | B1].
  - change (-1) with (- (1)). rewrite Z.quot_opp_r, Z.quot_1_r by lia. lia.
  - assert (LE : Z.abs (Z.quot a b) <= Z.abs a).
    { rewrite Z.quot_abs_l in * || idtac. rewrite <- (Z.quot_abs a b B0). apply Z.quot_le_upper_bound; [lia|]. nia. }
    destruct (Z.eq_dec b 1) as [-> | B2]; [rewrite Z.quot_1_r; lia|].
    destruct (Z.eq_dec a 0) as [-> | A0]; [rewrite Z.quot_0_l by exact B0; lia|].
    assert (LT : Z.abs (Z.quot a b) < Z.abs a) by (rewrite <- (Z.quot_abs a b B0); apply Z.quot_lt; lia). lia.
Qed.
Lemma sext_zero_iff n b : 1 <= n -> 0 <= b < 2 ^ n -> sext n b = 0 -> b = 0.
Proof. intros N B E. destruct (sext_cases n b N B) as [(A & E') | (A & E')]; lia. Qed.
Lemma div_word w32 (sg : bool) s : run [Z.lxor (if sg then SDIV else UDIV) (inv_bits w32) .| RD 1 .| RN 1 .| RM 2] s =
  Some (wX s 0 (let n := len w32 in let a := xr s 0 mod 2 ^ n in let b := xr s 1 mod 2 ^ n in
    if b =? 0 then 0 else if sg then Z.quot (sext n a) (sext n b) mod 2 ^ n else a / b)).
Proof.
  eapply run1; [apply dec_div|]. cbn [exec]. rewrite dsz_len. change (rX s (reg_map 1)) with (xr s 0). change (rX s (reg_map 2)) with (xr s 1). unfold lo. destruct sg; cbn [Z.eqb Pos.eqb]; reflexivity.
Qed.
Lemma madd_word w32 d a b s : run [Z.lxor MADD (inv_bits w32) .| RD d .| RN a .| RM b .| RT2 TMP_ZERO] s = Some (wX s (reg_map d) ((rX s (reg_map a) * rX s (reg_map b)) mod 2 ^ len w32)).
Proof.
  eapply run1; [apply dec_madd|]. cbn [exec Z.eqb]. rewrite dsz_len. change (rX s (reg_map TMP_ZERO)) with 0. do 2 f_equal. unfold lo. rewrite Z.mod_0_l by (pose proof (len_pow w32); lia). rewrite Z.add_0_l. symmetry. apply Z.mul_mod. pose proof (len_pow w32). lia.
Qed.
Lemma sub_word w32 d a b s : run [Z.lxor SUB (inv_bits w32) .| RD d .| RN a .| RM b] s = Some (wX s (reg_map d) ((rX s (reg_map a) - rX s (reg_map b)) mod 2 ^ len w32)).
Proof.
  pose proof (len1 w32) as L. pose proof (len_pow w32) as LP. eapply run1; [apply (dec_add true w32 false)|]. rewrite (ex_addr w32 false) by lia. cbv zeta. unfold fl_of. cbn [after]. do 2 f_equal.
  rewrite (AB_result false (len w32) _ _ true 0) by (try apply lo_b; lia). cbn [result]. unfold lo. rewrite <- Zminus_mod. reflexivity.
Qed.
Lemma umulh x y : 0 <= x < 2 ^ 64 -> 0 <= y < 2 ^ 64 -> (x * y) / 2 ^ 64 mod 2 ^ 64 * 2 ^ 64 + (x * y) mod 2 ^ 64 = x * y.
Proof.
  intros X Y. assert (B : 0 <= (x * y) / 2 ^ 64 < 2 ^ 64) by (split; [apply Z.div_pos; nia|apply Z.div_lt_upper_bound; nia]). rewrite (Z.mod_small (_ / _)) by exact B. pose proof (Z.div_mod (x * y) (2 ^ 64) ltac:(lia)). lia.
Qed.
Theorem op0_ok op w32 s : let n := match op with OLmulU | OLmulS => 64 | _ => len w32 end in isw (xr s 0) -> isw (xr s 1) -> div_ok op n (xr s 0 mod 2 ^ n) (xr s 1 mod 2 ^ n) ->
  exists s', run (sljit_emit_op0 op w32) s = Some s' /\ did_op0 op w32 s s'.
Proof.
  cbv zeta. intros W0 W1 DO. unfold isw in W0, W1. pose proof (len1 w32) as L. pose proof (len_pow w32) as LP.
  assert (LMUL : forall sg : bool, op = (if sg then OLmulS else OLmulU) ->
    exists s', run [MOV .| RD TMP_REG1 .| RM 1; MADD .| RD 1 .| RN 1 .| RM 2 .| RT2 TMP_ZERO; (if sg then SMULH else UMULH) .| RD 2 .| RN TMP_REG1 .| RM 2] s = Some s' /\ did_op0 op w32 s s').
  { intros sg Hop. set (a := xr s 0) in *. set (b := xr s 1) in *. set (s1 := wX s 9 (a mod 2 ^ 64)). set (s2 := wX s1 0 ((a * b) mod 2 ^ 64)).
    set (h := (if sg then (sgn a * sgn b) / 2 ^ 64 else (a * b) / 2 ^ 64) mod 2 ^ 64).
    assert (E1 : run [MOV .| RD TMP_REG1 .| RM 1] s = Some s1) by exact (mov_word false TMP_REG1 1 s).
    assert (E2 : run [MADD .| RD 1 .| RN 1 .| RM 2 .| RT2 TMP_ZERO] s1 = Some s2) by exact (madd_word false 1 1 2 s1).
    assert (E3 : run [(if sg then SMULH else UMULH) .| RD 2 .| RN TMP_REG1 .| RM 2] s2 = Some (wX s2 1 h)).
    { eapply run1; [apply dec_mulh|]. assert (X9 : rX s2 (reg_map TMP_REG1) = a) by (change (rX s2 (reg_map TMP_REG1)) with (a mod 2 ^ 64); apply Z.mod_small; lia). change (rX s2 (reg_map 2)) with b in *.
      destruct sg; cbn [exec Z.eqb Pos.eqb negb andb]; rewrite X9; change (rX s2 (reg_map 2)) with b; rewrite Z.shiftr_div_pow2 by lia; reflexivity. }
    exists (wX s2 1 h). split; [eapply run3; [exact E1|exact E2|exact E3]|]. split; [|split; [|repeat split]].
    - change (xr (wX s2 1 h) 0) with ((a * b) mod 2 ^ 64). change (xr (wX s2 1 h) 1) with h. fold a b. assert (HB : 0 <= h < 2 ^ 64) by (apply mod_b; lia). subst op. destruct sg; cbn [result0].
      + rewrite !(Z.mod_small a), !(Z.mod_small b), (Z.mod_small h), Z.mod_mod by lia. pose proof (sext_range 64 a ltac:(lia)) as RA. pose proof (sext_range 64 b ltac:(lia)) as RB. unfold h, sgn.
        set (p := sext 64 a * sext 64 b). assert (PB : - 2 ^ 126 <= p <= 2 ^ 126) by (unfold p; nia). assert (SH : sext 64 ((p / 2 ^ 64) mod 2 ^ 64) = p / 2 ^ 64).
        { rewrite sext_low by lia. apply sext_small; [lia|]. split; [apply Z.div_le_lower_bound; lia|apply Z.div_lt_upper_bound; lia]. }
        rewrite SH. assert (PM : (a * b) mod 2 ^ 64 = p mod 2 ^ 64) by (unfold p; rewrite Z.mul_mod by lia; rewrite <- (sext_low_mod 64 a), <- (sext_low_mod 64 b) by lia; rewrite <- Z.mul_mod by lia; reflexivity).
        rewrite PM. pose proof (Z.div_mod p (2 ^ 64) ltac:(lia)). lia.
      + rewrite !(Z.mod_small a), !(Z.mod_small b), (Z.mod_small h), Z.mod_mod by lia. apply umulh; lia.
    - intros k K. assert (k <> 0 /\ k <> 1 /\ k <> 9) as (K0 & K1 & K9) by (repeat split; intros ->; apply K; auto). rewrite xr_wX_ne by exact K1. unfold s2. rewrite xr_wX_ne by exact K0. unfold s1. apply xr_wX_ne. exact K9. }
  set (n := len w32) in *. 
  assert (DIV : forall sg : bool, op = (if sg then ODivS else ODivU) -> exists s', run [Z.lxor (if sg then SDIV else UDIV) (inv_bits w32) .| RD 1 .| RN 1 .| RM 2] s = Some s' /\ did_op0 op w32 s s').
  { intros sg Hop. eexists. split; [apply div_word|]. cbv zeta. fold n. split; [|eapply same_weak; [|apply same_wX]; intros k ->; auto].
    assert (HN : match op with OLmulU | OLmulS => 64 | _ => len w32 end = n) by (subst op; destruct sg; reflexivity). rewrite HN. rewrite xr_wX_eq by lia. rewrite xr_wX_ne by lia.
    assert (DO' : div_ok op n (xr s 0 mod 2 ^ n) (xr s 1 mod 2 ^ n)) by (subst op; destruct sg; exact DO). clear DO.
    pose proof (mod_b (xr s 0) n ltac:(lia)) as A. pose proof (mod_b (xr s 1) n ltac:(lia)) as B. set (a := xr s 0 mod 2 ^ n) in *. set (b := xr s 1 mod 2 ^ n) in *. clearbody a b.
    subst op. destruct sg; cbn [result0 div_ok] in *.
    - destruct DO' as (B0 & NO). replace (b =? 0) with false by lia. split; [|reflexivity]. rewrite Z.mod_mod by lia. rewrite sext_low by lia. apply sext_small; [exact L|].
      apply quot_range; [exact L|apply sext_range; exact L|apply sext_range; exact L|intros E; apply B0; apply (sext_zero_iff n b L B E)|].
      intros (E1 & E2). apply NO. destruct (sext_cases n a L A) as [(X & X') | (X & X')]; destruct (sext_cases n b L B) as [(Y & Y') | (Y & Y')]; pose proof (pow_pos (n - 1) ltac:(lia)); assert (2 ^ n = 2 * 2 ^ (n - 1)) by (rewrite <- Z.pow_succ_r by lia; f_equal; lia); lia.
    - replace (b =? 0) with false by lia. split; [|reflexivity]. apply Z.mod_small. split; [apply Z.div_pos; lia|]. apply Z.div_lt_upper_bound; nia. }
  assert (DIVMOD : forall sg : bool, op = (if sg then ODivmodS else ODivmodU) ->
    exists s', run [Z.lxor MOV (inv_bits w32) .| RD TMP_REG1 .| RM 1; Z.lxor (if sg then SDIV else UDIV) (inv_bits w32) .| RD 1 .| RN 1 .| RM 2;
       Z.lxor MADD (inv_bits w32) .| RD 2 .| RN 1 .| RM 2 .| RT2 TMP_ZERO; Z.lxor SUB (inv_bits w32) .| RD 2 .| RN TMP_REG1 .| RM 2] s = Some s' /\ did_op0 op w32 s s').
  { intros sg Hop. set (s1 := wX s 9 (xr s 0 mod 2 ^ n)). assert (E1 : run [Z.lxor MOV (inv_bits w32) .| RD TMP_REG1 .| RM 1] s = Some s1) by exact (mov_word w32 TMP_REG1 1 s).
    pose proof (div_word w32 sg s1) as E2. cbv zeta in E2. change (xr s1 0) with (xr s 0) in E2. change (xr s1 1) with (xr s 1) in E2. fold n in E2.
    assert (DO' : div_ok op n (xr s 0 mod 2 ^ n) (xr s 1 mod 2 ^ n)) by (subst op; destruct sg; exact DO). clear DO.
    pose proof (mod_b (xr s 0) n ltac:(lia)) as A. pose proof (mod_b (xr s 1) n ltac:(lia)) as B.
    set (q := if xr s 1 mod 2 ^ n =? 0 then 0 else if sg then Z.quot (sext n (xr s 0 mod 2 ^ n)) (sext n (xr s 1 mod 2 ^ n)) mod 2 ^ n else (xr s 0 mod 2 ^ n) / (xr s 1 mod 2 ^ n)) in *.
    set (s2 := wX s1 0 q) in *. pose proof (madd_word w32 2 1 2 s2) as E3. change (rX s2 (reg_map 1)) with q in E3. change (rX s2 (reg_map 2)) with (xr s 1) in E3. change (reg_map 2) with 1 in E3. fold n in E3.
    set (m := (q * xr s 1) mod 2 ^ n) in *. set (s3 := wX s2 1 m) in *. pose proof (sub_word w32 2 TMP_REG1 2 s3) as E4. change (rX s3 (reg_map TMP_REG1)) with (xr s 0 mod 2 ^ n) in E4. change (rX s3 (reg_map 2)) with m in E4. change (reg_map 2) with 1 in E4. fold n in E4.
    set (r := (xr s 0 mod 2 ^ n - m) mod 2 ^ n) in *. exists (wX s3 1 r). split.
    { match goal with |- run [?a; ?b; ?c; ?d] _ = _ => change [a; b; c; d] with ([a] ++ [b] ++ [c] ++ [d]) end. rewrite run_app, E1. rewrite run_app, E2. rewrite run_app, E3. exact E4. }
    split; [|split; [|repeat split]].
    2: { intros k K. assert (k <> 0 /\ k <> 1 /\ k <> 9) as (K0 & K1 & K9) by (repeat split; intros ->; apply K; auto). unfold s3, s2, s1. rewrite !xr_wX_ne by assumption. reflexivity. }
    assert (HN : match op with OLmulU | OLmulS => 64 | _ => len w32 end = n) by (subst op; destruct sg; reflexivity). rewrite HN. change (xr (wX s3 1 r) 0) with q. change (xr (wX s3 1 r) 1) with r.
    set (a := xr s 0 mod 2 ^ n) in *. set (b := xr s 1 mod 2 ^ n) in *. assert (RE : r = (a - q * b) mod 2 ^ n).
    { unfold r, m, b. rewrite Zminus_mod_idemp_r. rewrite <- (Zminus_mod_idemp_r _ (q * (xr s 1 mod 2 ^ n))). rewrite Zmult_mod_idemp_r. rewrite Zminus_mod_idemp_r. reflexivity. }
    clearbody r. clearbody a b. subst op. destruct sg; cbn [result0 div_ok] in *.
    - destruct DO' as (B0 & NO). assert (QE : q = Z.quot (sext n a) (sext n b) mod 2 ^ n) by (unfold q; replace (b =? 0) with false by lia; reflexivity). clearbody q. set (sa := sext n a) in *. set (sb := sext n b) in *.
      assert (SB0 : sb <> 0) by (intros E; apply B0; apply (sext_zero_iff n b L B E)).
      assert (QR : - 2 ^ (n - 1) <= Z.quot sa sb < 2 ^ (n - 1)).
      { apply quot_range; [exact L|apply sext_range; exact L|apply sext_range; exact L|exact SB0|].
        intros (F1 & F2). apply NO. unfold sa, sb in *. destruct (sext_cases n a L A) as [(X & X') | (X & X')]; destruct (sext_cases n b L B) as [(Y & Y') | (Y & Y')]; pose proof (pow_pos (n - 1) ltac:(lia)); assert (2 ^ n = 2 * 2 ^ (n - 1)) by (rewrite <- Z.pow_succ_r by lia; f_equal; lia); lia. }
      assert (SQ : sext n (q mod 2 ^ n) = Z.quot sa sb) by (rewrite sext_low by lia; rewrite QE, sext_low by lia; apply sext_small; assumption).
      assert (RR : sext n (r mod 2 ^ n) = Z.rem sa sb).
      { rewrite sext_low by lia. rewrite RE, sext_low by lia. destruct (sext_mod n a L) as (ka & Ea). destruct (sext_mod n b L) as (kb & Eb). destruct (sext_mod n q L) as (kq & Eq). rewrite sext_low in SQ by lia. rewrite SQ in Eq.
        fold sa in Ea. fold sb in Eb. pose proof (Z.quot_rem' sa sb) as D. pose proof (Z.rem_bound_abs sa sb SB0) as RB. pose proof (sext_range n b L) as BR. fold sb in BR.
        set (P := 2 ^ n) in *. set (qq := Z.quot sa sb) in *.
        apply sext_unique with (k := ka - kq * sb - qq * kb - kq * kb * P); [exact L|lia|]. fold P. assert (RM : Z.rem sa sb = sa - sb * qq) by lia. rewrite RM, Ea, Eq, Eb. ring. }
      rewrite SQ, RR. split; [pose proof (Z.quot_rem' sa sb); lia|]. split; [apply Z.rem_bound_abs; exact SB0|].
      destruct (Z.eq_dec (Z.rem sa sb) 0) as [Z0 | Z0]; [left; exact Z0|right; apply Z.rem_sign_nz; assumption].
    - assert (QE : q = a / b) by (unfold q; replace (b =? 0) with false by lia; reflexivity). clearbody q. subst q. pose proof (Z.div_mod a b DO') as D. pose proof (Z.mod_pos_bound a b ltac:(lia)) as MB.
      assert (QB : 0 <= a / b < 2 ^ n) by (split; [apply Z.div_pos; lia|apply Z.div_lt_upper_bound; nia]). rewrite (Z.mod_small (a / b)) by exact QB.
      assert (RA : a - a / b * b = a mod b) by lia. rewrite RE, Z.mod_mod by lia. rewrite RA. rewrite Z.mod_small by lia. split; [lia|exact MB]. }
  destruct op; cbn [sljit_emit_op0].
  - apply (LMUL false eq_refl).
  - apply (LMUL true eq_refl).
  - apply (DIVMOD false eq_refl).
  - apply (DIVMOD true eq_refl).
  - apply (DIV false eq_refl).
  - apply (DIV true eq_refl).
Qed.
