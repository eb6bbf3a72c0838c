(** ARM64: double shifts (sljit_emit_shift_into). *)
Require Import ZArith List Bool Lia Zify ZifyBool.
From Verif Require Import Rv.RvLib Rv.RvBits Imm.ImmLib Imm.MsProofs Imm.PpProofs Arm.ArmIsa Arm.ArmBr Arm.ArmEnc Arm.ArmBits Arm.ArmImm Arm.ArmImmProofs Arm.ArmLogImm Arm.ArmLoadImm
  Arm.ArmJump Arm.ArmJumpSpec Arm.ArmJumpProofs Arm.ArmCondProofs Arm.ArmOp Arm.ArmOpSpec Arm.ArmOpDec Arm.ArmOpProofs Arm.ArmOpImm Arm.ArmOp1 Arm.ArmMem Arm.ArmMemSpec Arm.ArmMemProofs Arm.ArmMemOps Arm.ArmMemOp2.
Import ListNotations.
Open Scope Z_scope.
Ltac Zify.zify_post_hook ::= idtac.

(** ** Values *)
Lemma si_parts (left : bool) n a b k : 1 <= n -> 0 <= a < 2 ^ n -> 0 <= b < 2 ^ n -> 0 <= k < n -> shift_into left n a b k =
  Z.lor (if left then (a * 2 ^ k) mod 2 ^ n else a / 2 ^ k) (if left then b / 2 ^ (n - k) else (b * 2 ^ (n - k)) mod 2 ^ n).
Proof.
  intros N A B K. unfold shift_into. pose proof (pow_pos k ltac:(lia)) as P1. pose proof (pow_pos (n - k) ltac:(lia)) as P2.
  assert (P : 2 ^ n = 2 ^ k * 2 ^ (n - k)) by (rewrite <- Z.pow_add_r by lia; f_equal; lia). destruct left.
  - assert (Q : 0 <= b / 2 ^ (n - k) < 2 ^ k) by (split; [apply Z.div_pos; lia|apply Z.div_lt_upper_bound; lia]).
    assert (E : (a * 2 ^ k) mod 2 ^ n = (a mod 2 ^ (n - k)) * 2 ^ k) by (rewrite P, (Z.mul_comm (2 ^ k) (2 ^ (n - k))); apply Z.mul_mod_distr_r; lia).
    rewrite E. rewrite <- (add_lor k) by lia. rewrite <- Z.add_mod_idemp_l by lia. rewrite E. apply Z.mod_small. pose proof (Z.mod_pos_bound a (2 ^ (n - k)) P2). nia.
  - assert (Q : 0 <= a / 2 ^ k < 2 ^ (n - k)) by (split; [apply Z.div_pos; lia|apply Z.div_lt_upper_bound; lia]).
    assert (E : (b * 2 ^ (n - k)) mod 2 ^ n = (b mod 2 ^ k) * 2 ^ (n - k)) by (rewrite P; apply Z.mul_mod_distr_r; lia).
    rewrite E, Z.lor_comm. rewrite <- (add_lor (n - k)) by lia. lia.
Qed.
Lemma si_range left n a b k : 1 <= n -> 0 <= a < 2 ^ n -> 0 <= b < 2 ^ n -> 0 <= k < n -> 0 <= shift_into left n a b k < 2 ^ n.
Proof.
  intros N A B K. unfold shift_into. destruct left; [apply mod_b; lia|]. pose proof (pow_pos k ltac:(lia)) as P1. pose proof (pow_pos (n - k) ltac:(lia)) as P2.
  assert (P : 2 ^ n = 2 ^ k * 2 ^ (n - k)) by (rewrite <- Z.pow_add_r by lia; f_equal; lia).
  assert (Q : 0 <= a / 2 ^ k < 2 ^ (n - k)) by (split; [apply Z.div_pos; lia|apply Z.div_lt_upper_bound; lia]).
  assert (E : (b * 2 ^ (n - k)) mod 2 ^ n = (b mod 2 ^ k) * 2 ^ (n - k)) by (rewrite P; apply Z.mul_mod_distr_r; lia). rewrite E. pose proof (Z.mod_pos_bound b (2 ^ k) P1). nia.
Qed.
Lemma si_extr (left : bool) n a b k : 1 <= n -> 0 <= a < 2 ^ n -> 0 <= b < 2 ^ n -> 0 < k < n ->
  lo n (Z.shiftr ((if left then a else b) * 2 ^ n + (if left then b else a)) (if left : bool then n - k else k)) = shift_into left n a b k.
Proof.
  intros N A B K. rewrite Z.shiftr_div_pow2 by (destruct left; lia). unfold lo. pose proof (pow_pos k ltac:(lia)) as P1. pose proof (pow_pos (n - k) ltac:(lia)) as P2.
  assert (P : 2 ^ n = 2 ^ k * 2 ^ (n - k)) by (rewrite <- Z.pow_add_r by lia; f_equal; lia). destruct left.
  - unfold shift_into. rewrite P at 1. rewrite Z.mul_assoc, Z.div_add_l by lia. reflexivity.
  - rewrite <- (Z.mod_small (shift_into false n a b k) (2 ^ n)) by (apply si_range; lia). unfold shift_into. rewrite Z.add_mod_idemp_r by lia.
    rewrite P at 1. rewrite (Z.mul_comm (2 ^ k)), Z.mul_assoc, Z.div_add_l by lia. f_equal. lia.
Qed.
(** A shift by one and by the complement. *)
Lemma xor_mask w32 c : Z.lxor (lo (len w32) c) (len w32 - 1) mod len w32 = len w32 - 1 - c mod len w32.
Proof.
  assert (E : exists m, len w32 = 2 ^ m /\ 0 <= m < 7 /\ 0 < len w32 - 1 /\ Z.ones m = len w32 - 1) by (destruct w32; [exists 5|exists 6]; cbn; repeat split; lia). destruct E as (m & E & M & L & O).
  rewrite <- O. rewrite E at 2. rewrite <- Z.land_ones by lia. rewrite <- (lo_mod w32 c). rewrite E at 3. rewrite <- Z.land_ones by lia. set (x := lo (len w32) c).
  assert (X : Z.land (Z.lxor x (Z.ones m)) (Z.ones m) = Z.lxor (Z.land x (Z.ones m)) (Z.ones m)).
  { apply Z.bits_inj'. intros i I. rewrite Z.land_spec, !Z.lxor_spec, Z.land_spec. destruct (Z.testbit x i), (Z.testbit (Z.ones m) i); reflexivity. }
  rewrite X. replace (Z.lxor (Z.land x (Z.ones m)) (Z.ones m)) with (Z.ldiff (Z.ones m) (Z.land x (Z.ones m))).
  2: { apply Z.bits_inj'. intros i I. rewrite Z.ldiff_spec, Z.lxor_spec, Z.land_spec. destruct (Z.testbit x i), (Z.testbit (Z.ones m) i); reflexivity. }
  rewrite <- Z.sub_nocarry_ldiff; [lia|]. apply Z.bits_inj'. intros i I. rewrite Z.ldiff_spec, Z.land_spec, Z.bits_0. destruct (Z.testbit x i), (Z.testbit (Z.ones m) i); reflexivity.
Qed.

(** ** Words *)
Lemma one_word1 (left w32 : bool) src s : run [Z.lxor UBFM (inv_bits w32 .| Z.shiftr (inv_bits w32) 9) .| RD TMP_REG1 .| RN src .|
    (if left then (if w32 then Z.shiftl 1 16 .| Z.shiftl 31 10 else Z.shiftl 1 16 .| Z.shiftl 63 10 .| Z.shiftl 1 22)
     else (if w32 then Z.shiftl 31 16 .| Z.shiftl 30 10 else Z.shiftl 63 16 .| Z.shiftl 62 10 .| Z.shiftl 1 22))] s =
  Some (wX s 9 (if left then rv (len w32) s src / 2 else (rv (len w32) s src * 2) mod 2 ^ len w32)).
Proof.
  destruct left.
  - assert (X := shr_word w32 false TMP_REG1 src 1 s 0 false). cbv zeta iota in X. change (reg_map TMP_REG1) with 9 in X. cbn [result] in X. replace (1 mod len w32) with 1 in X by (destruct w32; reflexivity). change (2 ^ 1) with 2 in X. rewrite <- X. destruct w32; reflexivity.
  - assert (X := shl_word w32 TMP_REG1 src 1 s 0 false). cbv zeta in X. change (reg_map TMP_REG1) with 9 in X. cbn [result] in X. cbv zeta in X. replace (1 mod len w32) with 1 in X by (destruct w32; reflexivity). change (2 ^ 1) with 2 in X. rewrite <- X. destruct w32; reflexivity.
Qed.
Lemma eori_word (w32 : bool) src s : run [Z.lxor EORI (inv_bits w32) .| RD TMP_REG2 .| RN src .| (if w32 then Z.shiftl 4 10 else Z.shiftl 5 10 .| Z.shiftl 1 22)] s = Some (wX s 10 (Z.lxor (rv (len w32) s src) (len w32 - 1))).
Proof.
  assert (D : decode (Z.lxor EORI (inv_bits w32) .| RD TMP_REG2 .| RN src .| (if w32 then Z.shiftl 4 10 else Z.shiftl 5 10 .| Z.shiftl 1 22)) = Some (ILogI (negb w32) 2 (nbit w32) 0 (if w32 then 4 else 5) (reg_map src) 10)).
  { change (RD TMP_REG2) with 10. unfold RN. regs. destruct w32; dec. }
  assert (M : exists t, decode_bit_masks (nbit w32) (if w32 then 4 else 5) 0 true (len w32) = Some (len w32 - 1, t)) by (destruct w32; eexists; vm_compute; reflexivity). destruct M as (t & M).
  eapply run1; [exact D|]. rewrite (ex_logi w32 2 (nbit w32) 0 (if w32 then 4 else 5) (reg_map src) 10 s _ _ ltac:(destruct w32; cbn; lia) ltac:(destruct w32; lia) ltac:(right; discriminate) ltac:(cbn; auto) M). reflexivity.
Qed.
Lemma or_word w32 d a b s : run [Z.lxor ORR (inv_bits w32) .| RD d .| RN a .| RM b] s = Some (wX s (reg_map d) (Z.lor (rv (len w32) s a) (rv (len w32) s b))).
Proof. eapply run1; [apply (dec_or w32 false)|]. rewrite ex_logr by (cbn; auto). reflexivity. Qed.
Lemma div_b a p m : 0 <= a < m -> 0 < p -> 0 <= a / p < m.
Proof. intros A P. split; [apply Z.div_pos; lia|]. apply Z.div_lt_upper_bound; [exact P|]. nia. Qed.
Lemma mod_one w32 c : lo (len w32) c mod len w32 = c mod len w32.
Proof. apply lo_mod. Qed.

(** The count in a register. *)
Lemma shift_reg_ok (left w32 nz : bool) dst src1 src2 src3 s : 1 <= dst <= 26 -> 1 <= src1 <= 26 -> 1 <= src2 <= 26 -> (1 <= src3 <= 26 /\ src3 <> dst \/ src3 = TMP_REG2) -> dst <> src2 ->
  let n := len w32 in (nz = true -> xr s (reg_map src3) mod n <> 0) -> exists s', run (shift_into_reg left w32 nz dst src1 src2 src3) s = Some s' /\
  xr s' (reg_map dst) = shift_into left n (xr s (reg_map src1) mod 2 ^ n) (xr s (reg_map src2) mod 2 ^ n) (xr s (reg_map src3) mod n) /\ same_but (fun k => k = reg_map dst \/ k = 9 \/ k = 10) s s'.
Proof.
  intros HD H1 H2 H3 ND n NZ. destruct (reg_ok dst HD) as (D31 & D9 & D10 & _). destruct (reg_ok src1 H1) as (A31 & A9 & A10 & _). destruct (reg_ok src2 H2) as (B31 & B9 & B10 & _).
  assert (C3 : reg_map src3 <> 31 /\ reg_map src3 <> 9 /\ reg_map src3 <> reg_map dst).
  { destruct H3 as [(H3 & N) | ->]; [|change (reg_map TMP_REG2) with 10; repeat split; try discriminate; auto]. destruct (reg_ok src3 H3) as (C31 & C9 & _). repeat split; try assumption. apply reg_inj; [lia|lia|exact N]. }
  destruct C3 as (C31 & C9 & CD). assert (BD : reg_map src2 <> reg_map dst) by (apply reg_inj; [lia|lia|congruence]).
  pose proof (len1 w32) as L. pose proof (len_pow w32) as LP. fold n in L, LP.
  set (a := xr s (reg_map src1) mod 2 ^ n). set (b := xr s (reg_map src2) mod 2 ^ n). set (c := xr s (reg_map src3)). set (k := c mod n).
  assert (A : 0 <= a < 2 ^ n) by (apply mod_b; lia). assert (B : 0 <= b < 2 ^ n) by (apply mod_b; lia). assert (K : 0 <= k < n) by (apply Z.mod_pos_bound; lia).
  (* the first word *)
  set (v1 := if left then (a * 2 ^ k) mod 2 ^ n else a / 2 ^ k). set (s1 := wX s (reg_map dst) v1).
  assert (R1 : run [Z.lxor (if left then LSLV else LSRV) (inv_bits w32) .| RD dst .| RN src1 .| RM src3] s = Some s1).
  { unfold s1, v1. destruct left.
    - assert (X := shift_run OShl w32 dst src1 src3 s 0 eq_refl). unfold rv in X. rewrite !rX_xr in X by assumption. cbn [shift_ty] in X. change (shv 0) with LSLV in X. rewrite X. cbn [result]. cbv zeta. rewrite mod_one. reflexivity.
    - assert (X := shift_run OLshr w32 dst src1 src3 s 0 eq_refl). unfold rv in X. rewrite !rX_xr in X by assumption. cbn [shift_ty] in X. change (shv 1) with LSRV in X. rewrite X. cbn [result]. cbv zeta. rewrite mod_one. reflexivity. }
  assert (S1 : forall j, j <> reg_map dst -> xr s1 j = xr s j) by (intros j J; apply xr_wX_ne; exact J).
  (* the second part *)
  set (rb := if nz then src2 else TMP_REG1).
  assert (R2 : exists s2, run (if nz then [Z.lxor SUB (inv_bits w32) .| RD TMP_REG2 .| RN TMP_ZERO .| RM src3]
     else [Z.lxor UBFM (inv_bits w32 .| Z.shiftr (inv_bits w32) 9) .| RD TMP_REG1 .| RN src2 .|
        (if left then (if w32 then Z.shiftl 1 16 .| Z.shiftl 31 10 else Z.shiftl 1 16 .| Z.shiftl 63 10 .| Z.shiftl 1 22)
         else (if w32 then Z.shiftl 31 16 .| Z.shiftl 30 10 else Z.shiftl 63 16 .| Z.shiftl 62 10 .| Z.shiftl 1 22));
      Z.lxor EORI (inv_bits w32) .| RD TMP_REG2 .| RN src3 .| (if w32 then Z.shiftl 4 10 else Z.shiftl 5 10 .| Z.shiftl 1 22)]) s1 = Some s2 /\
    same_but (fun j => j = 9 \/ j = 10) s1 s2 /\ exists b' k', xr s2 (reg_map rb) mod 2 ^ n = b' /\ xr s2 10 mod n = k' /\ 0 <= b' < 2 ^ n /\ (if left then b' / 2 ^ k' else (b' * 2 ^ k') mod 2 ^ n) = if left then b / 2 ^ (n - k) else (b * 2 ^ (n - k)) mod 2 ^ n).
  { unfold rb. destruct nz.
    - specialize (NZ eq_refl). fold c k in NZ. eexists. split; [apply (sub_word w32 TMP_REG2 TMP_ZERO src3)|]. change (reg_map TMP_REG2) with 10. split; [eapply same_weak; [|apply same_wX]; cbv beta; auto|].
      change (rX s1 (reg_map TMP_ZERO)) with 0. exists b, (n - k). rewrite (xr_wX_ne s1 10), xr_wX_eq, (S1 (reg_map src2) BD) by (try discriminate; exact B10). split; [reflexivity|]. split; [|split; [exact B|reflexivity]].
      rewrite rX_xr, (S1 (reg_map src3) CD) by exact C31. fold c. change (len w32) with n. rewrite (lo_mod w32 (0 - c) : ((0 - c) mod 2 ^ n) mod n = (0 - c) mod n). rewrite Z.sub_0_l. apply Z_mod_nz_opp_full. exact NZ.
    - eexists. split; [eapply run2; [apply one_word1|apply eori_word]|]. change (len w32) with n.
      assert (RB : rv n s1 src2 = b) by (unfold rv; rewrite rX_xr, (S1 (reg_map src2) BD) by exact B31; reflexivity). rewrite RB. set (b1 := if left then b / 2 else (b * 2) mod 2 ^ n).
      assert (RC : rv n (wX s1 9 b1) src3 = lo n c) by (unfold rv; rewrite rX_wX_ne, rX_xr, (S1 (reg_map src3) CD) by assumption; reflexivity). rewrite RC.
      split; [eapply same_trans; (eapply same_weak; [|apply same_wX]; cbv beta; auto)|]. change (reg_map TMP_REG1) with 9. exists b1, (n - 1 - k).
      assert (B1 : 0 <= b1 < 2 ^ n) by (unfold b1; destruct left; [split; [apply Z.div_pos; lia|apply Z.div_lt_upper_bound; lia]|apply mod_b; lia]).
      rewrite (xr_wX_ne _ 10), xr_wX_eq, xr_wX_eq by discriminate. split; [apply Z.mod_small; exact B1|]. split; [apply (xor_mask w32 c)|]. split; [exact B1|]. unfold b1.
      assert (P : 2 ^ (n - k) = 2 * 2 ^ (n - 1 - k)) by (rewrite <- Z.pow_succ_r by lia; f_equal; lia). pose proof (pow_pos (n - 1 - k) ltac:(lia)) as P1. destruct left.
      + rewrite Z.div_div by lia. rewrite <- P. reflexivity.
      + rewrite Z.mul_mod_idemp_l by lia. rewrite <- Z.mul_assoc, <- P. reflexivity. }
  destruct R2 as (s2 & R2 & (S2 & F21 & F22 & F23 & F24 & M2) & b' & k' & E1 & E2 & B' & E3).
  (* the third word *)
  set (v3 := if left then b / 2 ^ (n - k) else (b * 2 ^ (n - k)) mod 2 ^ n) in *. set (s3 := wX s2 9 v3).
  assert (RB31 : reg_map rb <> 31) by (unfold rb; destruct nz; [exact B31|discriminate]).
  assert (R3 : run [Z.lxor (if left then LSRV else LSLV) (inv_bits w32) .| RD TMP_REG1 .| RN rb .| RM TMP_REG2] s2 = Some s3).
  { unfold s3. rewrite <- E3. destruct left.
    - assert (X := shift_run OLshr w32 TMP_REG1 rb TMP_REG2 s2 0 eq_refl). unfold rv in X. rewrite !rX_xr in X by (try exact RB31; discriminate). cbn [shift_ty] in X. change (shv 1) with LSRV in X. rewrite X. cbn [result]. cbv zeta. rewrite mod_one.
      change (reg_map TMP_REG2) with 10. change (reg_map TMP_REG1) with 9. unfold lo. fold n. rewrite E1, E2. reflexivity.
    - assert (X := shift_run OShl w32 TMP_REG1 rb TMP_REG2 s2 0 eq_refl). unfold rv in X. rewrite !rX_xr in X by (try exact RB31; discriminate). cbn [shift_ty] in X. change (shv 0) with LSLV in X. rewrite X. cbn [result]. cbv zeta. rewrite mod_one.
      change (reg_map TMP_REG2) with 10. change (reg_map TMP_REG1) with 9. unfold lo. fold n. rewrite E1, E2. reflexivity. }
  assert (R4 := or_word w32 dst dst TMP_REG1 s3). change (reg_map TMP_REG1) with 9 in R4.
  assert (V3 : 0 <= v3 < 2 ^ n) by (unfold v3; pose proof (pow_pos (n - k) ltac:(lia)); destruct left; [apply div_b; assumption|apply mod_b; lia]).
  assert (V1 : 0 <= v1 < 2 ^ n) by (unfold v1; pose proof (pow_pos k ltac:(lia)); destruct left; [apply mod_b; lia|apply div_b; assumption]).
  assert (X1 : rv n s3 dst = v1). { unfold rv. rewrite rX_xr by exact D31. unfold s3. rewrite xr_wX_ne by exact D9. rewrite S2 by lia. unfold s1. rewrite xr_wX_eq by exact D31. apply lo_small. exact V1. }
  assert (X2 : rv n s3 TMP_REG1 = v3). { unfold rv. change (reg_map TMP_REG1) with 9. unfold s3. rewrite rX_wX_eq by discriminate. apply lo_small. exact V3. }
  fold n in R4. rewrite X1, X2 in R4.
  exists (wX s3 (reg_map dst) (Z.lor v1 v3)). split; [|split].
  - unfold shift_into_reg. fold rb. rewrite run_app, R1. rewrite run_app, R2. apply (run2 _ _ s2 s3 _ R3 R4).
  - rewrite xr_wX_eq by exact D31. symmetry. apply si_parts; assumption.
  - eapply same_trans; [|eapply same_weak; [|apply same_wX]; cbv beta; auto]. unfold s3. eapply same_trans; [|eapply same_weak; [|apply same_wX]; cbv beta; auto].
    apply (same_trans _ s s1 s2); [unfold s1; eapply same_weak; [|apply same_wX]; cbv beta; auto|]. split; [intros j J; apply S2; tauto|auto].
Qed.

(** The count is an immediate. *)
Lemma extr2_word w32 d a b k s : 0 <= k < len w32 ->
  run [Z.lxor EXTR (inv_bits w32 .| Z.shiftr (inv_bits w32) 9) .| RD d .| RN a .| RM b .| Z.shiftl k 10] s = Some (wX s (reg_map d) (lo (len w32) (Z.shiftr (rv (len w32) s a * 2 ^ len w32 + rv (len w32) s b) k))).
Proof.
  intros K. assert (K6 : 0 <= k < 64) by (destruct w32; cbn [len] in K; lia). eapply run1; [apply dec_extr; exact K6|]. cbn [exec]. rewrite dsz_len.
  replace (negb (nbit w32 =? (if negb w32 then 1 else 0)) || (len w32 <=? k)) with false by (destruct w32; cbn [nbit negb Z.eqb Pos.eqb orb len] in *; lia). reflexivity.
Qed.
Lemma neg_mask (w32 : bool) k : 0 <= k < len w32 -> Z.lxor k (if w32 then 0x1f else 0x3f) + 1 = len w32 - k.
Proof.
  intros K. assert (X := xor_mask w32 k). replace (if w32 then 0x1f else 0x3f) with (len w32 - 1) by (destruct w32; reflexivity). rewrite lo_small in X.
  2: { destruct w32; cbn [len] in *; lia. }
  rewrite (Z.mod_small k) in X by exact K. rewrite Z.mod_small in X; [lia|].
  assert (E : exists m, len w32 = 2 ^ m /\ 0 <= m) by (destruct w32; [exists 5|exists 6]; cbn; lia). destruct E as (m & E & M).
  split; [apply Z.lxor_nonneg; lia|]. rewrite E in *. replace (Z.lxor k (2 ^ m - 1)) with (Z.lxor k (2 ^ m - 1) mod 2 ^ m); [apply mod_b; exact M|].
  apply Z.bits_inj'. intros i I. rewrite <- Z.land_ones by exact M. rewrite Z.land_spec, Z.lxor_spec. rewrite <- (Z.mod_small k (2 ^ m)) by exact K. rewrite <- Z.land_ones, Z.land_spec by exact M.
  replace (2 ^ m - 1) with (Z.ones m) by (rewrite Z.ones_equiv; lia). destruct (Z.testbit k i), (Z.testbit (Z.ones m) i); reflexivity.
Qed.
Lemma shift_imm_ok (left w32 : bool) dst src1 src2 k s : 1 <= dst <= 26 -> 1 <= src1 <= 26 -> 1 <= src2 <= 26 -> let n := len w32 in (k mod n = 0 -> dst = src1) ->
  exists s', run (shift_into_imm left w32 dst src1 src2 k) s = Some s' /\
  xr s' (reg_map dst) mod 2 ^ n = shift_into left n (xr s (reg_map src1) mod 2 ^ n) (xr s (reg_map src2) mod 2 ^ n) (k mod n) /\ same_but (fun j => j = reg_map dst) s s'.
Proof.
  intros HD H1 H2 n Z0. destruct (reg_ok dst HD) as (D31 & _). destruct (reg_ok src1 H1) as (A31 & _). destruct (reg_ok src2 H2) as (B31 & _).
  pose proof (len1 w32) as L. pose proof (len_pow w32) as LP. fold n in L, LP. unfold shift_into_imm. cbv zeta.
  replace (k .& (if w32 then 0x1f else 0x3f)) with (k mod n) by (unfold n; destruct w32; cbn [len]; [change 31 with (Z.ones 5)|change 63 with (Z.ones 6)]; rewrite Z.land_ones by lia; reflexivity).
  set (a := xr s (reg_map src1) mod 2 ^ n). set (b := xr s (reg_map src2) mod 2 ^ n). set (q := k mod n) in *.
  assert (A : 0 <= a < 2 ^ n) by (apply mod_b; lia). assert (B : 0 <= b < 2 ^ n) by (apply mod_b; lia). assert (K : 0 <= q < n) by (apply Z.mod_pos_bound; lia).
  destruct (Z.eqb_spec q 0) as [E|E].
  - exists s. split; [reflexivity|]. split; [|apply same_refl]. rewrite (Z0 E). fold a. rewrite si_parts by assumption. rewrite E, Z.sub_0_r. destruct left.
    + rewrite Z.pow_0_r, Z.mul_1_r, Z.mod_small, Z.div_small, Z.lor_0_r by assumption. reflexivity.
    + rewrite Z.pow_0_r, Z.div_1_r, Z.mod_mul, Z.lor_0_r by lia. reflexivity.
  - assert (RA : rv n s src1 = a) by (unfold rv; rewrite rX_xr by exact A31; reflexivity). assert (RB : rv n s src2 = b) by (unfold rv; rewrite rX_xr by exact B31; reflexivity).
    assert (X := si_extr left n a b q ltac:(lia) A B ltac:(lia)). exists (wX s (reg_map dst) (shift_into left n a b q)). split; [|split].
    + rewrite <- X. destruct left; [rewrite neg_mask by exact K|]; rewrite extr2_word by (fold n; lia); fold n; rewrite RA, RB; reflexivity.
    + rewrite xr_wX_eq by exact D31. apply Z.mod_small, si_range; lia.
    + eapply same_weak; [|apply same_wX]. cbv beta. auto.
Qed.

(** ** The function *)
Definition zero_ok (w32 : bool) (dst src1 src2 : Z) (src3 : opd) : Prop :=
  match src3 with DImm k => k mod len w32 = 0 -> dst = src1 \/ src1 = src2 | _ => True end.
Theorem emit_shift_into_ok (left w32 nz : bool) dst src1 src2 src3 s : 1 <= dst <= 26 -> 1 <= src1 <= 26 -> 1 <= src2 <= 26 -> dst <> src2 -> legal_src src3 -> byte_mem (mm s) ->
  zero_ok w32 dst src1 src2 src3 -> (nz = true -> vald (len w32) s src3 mod len w32 <> 0) ->
  exists ws s', emit_shift_into left w32 nz dst src1 src2 src3 = Some ws /\ run ws s = Some s' /\ did_shift_into left w32 dst src1 src2 src3 s s'.
Proof.
  intros HD H1 H2 ND H3 BM Z0 NZ. pose proof (len1 w32) as L. pose proof (len_pow w32) as LP. unfold emit_shift_into, did_shift_into. set (n := len w32) in *. cbv zeta.
  assert (REG : forall r3 s1, (1 <= r3 <= 26 /\ r3 <> dst \/ r3 = TMP_REG2) -> xr s1 (reg_map r3) mod n = vald n s src3 mod n -> same_flags s s1 -> mm s1 = mm s -> (forall k, 1 <= k <= 27 -> xr s1 (reg_map k) = xr s (reg_map k)) ->
    exists s', run (shift_into_reg left w32 nz dst src1 src2 r3) s1 = Some s' /\ xr s' (reg_map dst) mod 2 ^ n = shift_into left n (xr s (reg_map src1) mod 2 ^ n) (xr s (reg_map src2) mod 2 ^ n) (vald n s src3 mod n) /\
      (forall k, k <> dst -> 1 <= k <= 27 -> xr s' (reg_map k) = xr s (reg_map k)) /\ mm s' = mm s /\ same_flags s s').
  { intros r3 s1 R3 V F M K. destruct (shift_reg_ok left w32 nz dst src1 src2 r3 s1 HD H1 H2 R3 ND) as (s' & R & X & (SK & S1 & S2 & S3 & S4 & S5)). { fold n. rewrite V. exact NZ. }
    fold n in X. exists s'. split; [exact R|]. split; [|split; [|split]].
    - rewrite X, V, !K by lia. apply Z.mod_small. apply si_range; [lia| | |]; try (apply mod_b; lia). apply Z.mod_pos_bound. lia.
    - intros k NK K27. destruct (reg27 k K27) as (K9 & K10 & _). rewrite SK; [apply K; exact K27|]. intros [E | [E | E]]; try contradiction. exact (reg_inj k dst K27 ltac:(lia) NK E).
    - congruence.
    - apply (flags_trans s s1 s' F). unfold same_flags. auto. }
  destruct (Z.eqb_spec src1 src2) as [E|E].
  - subst src2. destruct (emit_op2_ok (if left then ORotl else ORotr) w32 false (DReg dst) (DReg src1) src3 s) as (ws & s' & E & R & (X & M) & K & F & _); try assumption.
    + cbn. left. exact HD.
    + intros E; discriminate E.
    + fold n in X. exists ws, s'. split; [exact E|]. split; [exact R|]. split; [|split; [|split; [exact M|apply F; reflexivity]]].
      * rewrite X by (cbn [dst_reg]; unfold TMP_REG2; lia). cbn [vald]. set (a := xr s (reg_map src1) mod 2 ^ n).
        assert (A : 0 <= a < 2 ^ n) by (apply mod_b; lia). set (b := vald n s src3). assert (Q : 0 <= b mod n < n) by (apply Z.mod_pos_bound; lia).
        destruct left; cbn [result]; cbv zeta; [reflexivity|]. rewrite <- (Z.mod_small (shift_into false n a a (b mod n)) (2 ^ n)) by (apply si_range; lia). unfold shift_into. rewrite Z.add_mod_idemp_r by lia. f_equal. lia.
      * intros k NK K27. apply K; [intros Q; injection Q; intros; congruence|exact K27].
  - destruct src3 as [r3|i|m].
    + cbn [legal_src] in H3. destruct (reg_ok r3 H3) as (C31 & _). destruct (Z.eqb_spec dst r3) as [D|D].
      * subst r3. set (s1 := wX s 10 (xr s (reg_map dst) mod 2 ^ 64)).
        assert (R1 : run [MOV .| RD TMP_REG2 .| RM dst] s = Some s1) by (assert (Q := mov_word false TMP_REG2 dst s); rewrite rX_xr in Q by exact C31; exact Q).
        destruct (REG TMP_REG2 s1) as (s' & R & X).
        { right. reflexivity. }
        { change (reg_map TMP_REG2) with 10. unfold s1. rewrite xr_wX_eq by discriminate. cbn [vald]. rewrite (mod_one w32 (xr s (reg_map dst)) : (xr s (reg_map dst) mod 2 ^ n) mod n = xr s (reg_map dst) mod n).
          unfold n. destruct w32; cbn [len]; [apply (mod_mod_low 5 64); lia|apply (mod_mod_low 6 64); lia]. }
        { apply flags_wX. } { apply mm_wX. } { intros k K. unfold s1. apply xr_wX_ne. apply reg27. exact K. }
        eexists _, s'. split; [reflexivity|]. split; [rewrite run_app, R1; exact R|exact X].
      * destruct (REG r3 s) as (s' & R & X).
        { left. split; [exact H3|congruence]. }
        { cbn [vald]. symmetry. apply mod_one. }
        { apply flags_refl. } { reflexivity. } { intros; reflexivity. }
        exists (shift_into_reg left w32 nz dst src1 src2 r3), s'. split; [reflexivity|]. split; [exact R|exact X].
    + cbn [zero_ok] in Z0. destruct (shift_imm_ok left w32 dst src1 src2 i s HD H1 H2) as (s' & R & X & (SK & S1 & S2 & S3 & S4 & S5)). { intros Q. destruct (Z0 Q) as [Q1|Q1]; [exact Q1|contradiction]. }
      fold n in X. exists (shift_into_imm left w32 dst src1 src2 i), s'. split; [reflexivity|]. split; [exact R|]. split; [|split; [|split; [exact S5|unfold same_flags; auto]]].
      * rewrite X. cbn [vald]. f_equal. symmetry. apply (mod_one w32 i).
      * intros k NK K27. apply SK. exact (reg_inj k dst K27 ltac:(lia) NK).
    + assert (Q := load_opd_ok w32 TMP_REG2 (DMem m) s (or_intror eq_refl) H3 BM). destruct Q as (w1 & s1 & E1 & R1 & _ & V & F & M & K). cbn [load_opd fst snd] in E1, V, K.
      destruct (REG TMP_REG2 s1) as (s' & R & X).
      { right. reflexivity. }
      { fold n in V. cbn [val] in V. rewrite <- V. symmetry. apply mod_one. }
      { exact F. } { exact M. } { intros k K27. apply K. apply reg27. exact K27. }
      destruct (both_run _ _ _ _ _ _ _ E1 eq_refl R1 R) as (ws & E2 & R2). exists ws, s'. split; [exact E2|]. split; [exact R2|exact X].
Qed.
