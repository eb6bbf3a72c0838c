(** ARM64: operators with immediates. *)
Require Import ZArith List Bool Lia Zify ZifyBool.
From Verif Require Import Rv.RvLib Rv.RvBits Imm.ImmLib Imm.MsProofs Imm.PpProofs Arm.ArmIsa Arm.ArmBr Arm.ArmEnc Arm.ArmBits Arm.ArmImm Arm.ArmImmProofs Arm.ArmLogImm Arm.ArmLoadImm
  Arm.ArmJump Arm.ArmJumpSpec Arm.ArmJumpProofs Arm.ArmCondProofs Arm.ArmOp Arm.ArmOpSpec Arm.ArmOpDec Arm.ArmOpProofs.
Import ListNotations.
Open Scope Z_scope.
Ltac Zify.zify_post_hook ::= idtac.

(** ** Bit fields *)
Definition masks_ok (n : Z) : bool :=
  forallb (fun k =>
    (match decode_bit_masks (if n =? 64 then 1 else 0) (n - 1 - k) ((- k) mod n) false n with Some (w, t) => (w =? Z.shiftl (Z.ones (n - k)) k) && (t =? Z.ones n) | None => false end) &&
    (match decode_bit_masks (if n =? 64 then 1 else 0) (n - 1) k false n with Some (w, t) => (w =? Z.ones n) && (t =? Z.ones (n - k)) | None => false end) &&
    (match decode_bit_masks (if n =? 64 then 1 else 0) k 0 false n with Some (w, t) => (w =? Z.ones (k + 1)) && (t =? Z.ones (k + 1)) | None => false end)) (zseq 0 n).
Lemma masks : masks_ok 32 = true /\ masks_ok 64 = true.
Proof. split; vm_compute; reflexivity. Qed.
Lemma nbit_len w32 : nbit w32 = if len w32 =? 64 then 1 else 0.
Proof. destruct w32; reflexivity. Qed.
Lemma mask_cases w32 k : 0 <= k < len w32 ->
  decode_bit_masks (nbit w32) (len w32 - 1 - k) ((- k) mod len w32) false (len w32) = Some (Z.shiftl (Z.ones (len w32 - k)) k, Z.ones (len w32)) /\
  decode_bit_masks (nbit w32) (len w32 - 1) k false (len w32) = Some (Z.ones (len w32), Z.ones (len w32 - k)) /\
  decode_bit_masks (nbit w32) k 0 false (len w32) = Some (Z.ones (k + 1), Z.ones (k + 1)).
Proof.
  intros K. assert (M : masks_ok (len w32) = true) by (destruct w32; apply masks). unfold masks_ok in M. rewrite forallb_forall in M. specialize (M k (in_zseq 0 (len w32) k ltac:(lia))).
  rewrite <- nbit_len in M. apply andb_prop in M. destruct M as (M & M3). apply andb_prop in M. destruct M as (M1 & M2).
  split; [|split].
  - destruct (decode_bit_masks _ _ _ _ _) as [[w t]|]; [|discriminate M1]. apply andb_prop in M1. destruct M1 as (A & B). apply Z.eqb_eq in A, B. subst. reflexivity.
  - destruct (decode_bit_masks _ (len w32 - 1) k _ _) as [[w t]|]; [|discriminate M2]. apply andb_prop in M2. destruct M2 as (A & B). apply Z.eqb_eq in A, B. subst. reflexivity.
  - destruct (decode_bit_masks _ k 0 _ _) as [[w t]|]; [|discriminate M3]. apply andb_prop in M3. destruct M3 as (A & B). apply Z.eqb_eq in A, B. subst. reflexivity.
Qed.
Lemma ex_bfm w32 (sg : bool) immr imms rn rd s w t : 0 <= immr < len w32 -> 0 <= imms < len w32 -> decode_bit_masks (nbit w32) imms immr false (len w32) = Some (w, t) ->
  exec (IBfm (negb w32) (if sg then 0 else 2) (nbit w32) immr imms rn rd) s =
  let x := lo (len w32) (rX s rn) in
  Some (wX s rd (Z.lor (Z.ldiff (if sg then if Z.testbit x imms then Z.ones (len w32) else 0 else 0) t) (Z.land (Z.land (ror (len w32) x immr) w) t))).
Proof.
  intros R S D. unfold exec. rewrite dsz_len.
  assert (G : (if negb w32 then negb (nbit w32 =? 1) else negb (nbit w32 =? 0) || (32 <=? immr) || (32 <=? imms)) = false) by (destruct w32; cbn [len negb nbit Z.eqb Pos.eqb orb] in *; lia).
  rewrite G, D. cbv zeta. destruct sg; cbn [Z.eqb Pos.eqb]; rewrite Z.ldiff_0_l, Z.lor_0_l; reflexivity.
Qed.
Lemma tb_ror n x r i : 0 < n -> 0 <= r < n -> 0 <= i -> Z.testbit (ror n x r) i = Z.testbit x (i + r) || ((i <? n) && Z.testbit x (i - (n - r))).
Proof.
  intros N R I. unfold ror. rewrite (Z.mod_small r n) by lia. rewrite Z.lor_spec, Z.shiftr_spec by lia. f_equal. unfold lo. rewrite <- Z.land_ones by lia.
  rewrite Z.land_spec, Z.shiftl_spec by lia. rewrite Z.testbit_ones by lia. replace (0 <=? i) with true by lia. rewrite andb_true_l. apply andb_comm.
Qed.
Lemma tb_sext n x i : 1 <= n -> 0 <= x < 2 ^ n -> 0 <= i -> Z.testbit (sext n x) i = Z.testbit x (if i <? n then i else n - 1).
Proof.
  intros N X I. destruct (sext_cases n x N X) as [(A & ->) | (A & ->)].
  - destruct (i <? n) eqn:C; [reflexivity|]. rewrite (small_bits_high x n) by lia. rewrite (small_bits_high x (n - 1)) by lia. reflexivity.
  - replace (x - 2 ^ n) with ((-1) * 2 ^ n + x) by lia. rewrite tb_parts by lia. destruct (i <? n) eqn:C; [reflexivity|]. rewrite Z.bits_m1 by lia. symmetry. rewrite top_bit by assumption. lia.
Qed.
Lemma tb_lo n x i : 0 <= n -> 0 <= i -> Z.testbit (x mod 2 ^ n) i = (i <? n) && Z.testbit x i.
Proof. intros N I. rewrite <- Z.land_ones, Z.land_spec, Z.testbit_ones by lia. replace (0 <=? i) with true by lia. rewrite andb_true_l. apply andb_comm. Qed.

Lemma shl_val n x k : 0 < n -> 0 <= k < n -> 0 <= x < 2 ^ n -> Z.land (Z.land (ror n x ((- k) mod n)) (Z.shiftl (Z.ones (n - k)) k)) (Z.ones n) = (x * 2 ^ k) mod 2 ^ n.
Proof.
  intros N K X. apply Z.bits_inj'. intros i I. pose proof (Z.mod_pos_bound (- k) n N) as B. rewrite !Z.land_spec, tb_ror, Z.shiftl_spec, !Z.testbit_ones, tb_lo, tb_mul_pow2 by lia.
  destruct (i <? n) eqn:C1; [|rewrite !andb_false_r; reflexivity]. replace (0 <=? i) with true by lia. cbn [andb]. rewrite andb_true_r.
  destruct (i <? k) eqn:C2; [replace (0 <=? i - k) with false by lia; apply andb_false_r|]. replace (0 <=? i - k) with true by lia. replace (i - k <? n - k) with true by lia. cbn [andb]. rewrite andb_true_r.
  destruct (Z.eq_dec k 0) as [-> | K0].
  - rewrite Z.mod_0_l by lia. rewrite Z.add_0_r, !Z.sub_0_r. rewrite (Z.testbit_neg_r x (i - n)) by lia. apply orb_false_r.
  - assert (E : (- k) mod n = n - k) by (symmetry; apply Z.mod_unique with (-1); lia). rewrite E. replace (i - (n - (n - k))) with (i - k) by lia.
    rewrite (small_bits_high x n (i + (n - k))) by lia. reflexivity.
Qed.
Lemma shr_val n x k : 0 < n -> 0 <= k < n -> 0 <= x < 2 ^ n -> Z.land (Z.land (ror n x k) (Z.ones n)) (Z.ones (n - k)) = x / 2 ^ k.
Proof.
  intros N K X. rewrite <- Z.shiftr_div_pow2 by lia. apply Z.bits_inj'. intros i I. rewrite !Z.land_spec, tb_ror, !Z.testbit_ones, Z.shiftr_spec by lia. replace (0 <=? i) with true by lia. cbn [andb].
  destruct (i <? n - k) eqn:C1.
  - replace (i <? n) with true by lia. rewrite (Z.testbit_neg_r x (i - (n - k))) by lia. cbn [andb]. rewrite orb_false_r, !andb_true_r. reflexivity.
  - rewrite andb_false_r. symmetry. apply (small_bits_high x n); lia.
Qed.
Lemma sar_val n x k : 1 <= n -> 0 <= k < n -> 0 <= x < 2 ^ n ->
  Z.lor (Z.ldiff (if Z.testbit x (n - 1) then Z.ones n else 0) (Z.ones (n - k))) (x / 2 ^ k) = (sext n x / 2 ^ k) mod 2 ^ n.
Proof.
  intros N K X. rewrite <- !Z.shiftr_div_pow2 by lia. apply Z.bits_inj'. intros i I. rewrite Z.lor_spec, Z.ldiff_spec, Z.shiftr_spec, tb_lo, Z.shiftr_spec, tb_sext, Z.testbit_ones by lia. replace (0 <=? i) with true by lia. cbn [andb].
  assert (E : Z.testbit (if Z.testbit x (n - 1) then Z.ones n else 0) i = (i <? n) && Z.testbit x (n - 1)).
  { destruct (Z.testbit x (n - 1)); [rewrite Z.testbit_ones by lia; replace (0 <=? i) with true by lia; rewrite andb_true_r; reflexivity|rewrite Z.bits_0, andb_false_r; reflexivity]. }
  rewrite E. destruct (i + k <? n) eqn:C1.
  - replace (i <? n - k) with true by lia. replace (i <? n) with true by lia. cbn [negb andb]. rewrite andb_false_r. reflexivity.
  - replace (i <? n - k) with false by lia. rewrite (small_bits_high x n (i + k)) by lia. cbn [negb]. rewrite andb_true_r, orb_false_r. reflexivity.
Qed.
Lemma land_len w32 x : x .& (if w32 : bool then 0x1f else 0x3f) = x mod len w32.
Proof. destruct w32; cbn [len]; [apply (land_low x 5)|apply (land_low x 6)]; lia. Qed.

Lemma shl_word w32 dst r imm s d c : let n := len w32 in
  run [Z.lxor UBFM (inv_bits w32 .| Z.shiftr (inv_bits w32) 9) .| RD dst .| RN r .| shl_bits w32 imm] s = Some (wX s (reg_map dst) (result OShl n (rv n s r) imm c d)).
Proof.
  cbv zeta. pose proof (len1 w32) as L. pose proof (Z.mod_pos_bound imm (len w32) ltac:(lia)) as K. destruct (mask_cases w32 (imm mod len w32) K) as (M & _).
  pose proof (Z.mod_pos_bound (- (imm mod len w32)) (len w32) ltac:(lia)) as K2.
  assert (D : decode (Z.lxor UBFM (inv_bits w32 .| Z.shiftr (inv_bits w32) 9) .| RD dst .| RN r .| shl_bits w32 imm) =
    Some (IBfm (negb w32) 2 (nbit w32) ((- (imm mod len w32)) mod len w32) (len w32 - 1 - imm mod len w32) (reg_map r) (reg_map dst))).
  { unfold shl_bits. destruct w32; cbv zeta.
    - rewrite !(land_len true). apply (dec_bfm true false); cbn [len] in *; lia.
    - rewrite !(land_len false). apply (dec_bfm22 false); cbn [len] in *; lia. }
  eapply run1; [exact D|]. rewrite (ex_bfm w32 false ((- (imm mod len w32)) mod len w32) (len w32 - 1 - imm mod len w32) (reg_map r) (reg_map dst) s _ _ K2 ltac:(lia) M). cbv zeta. rewrite Z.ldiff_0_l, Z.lor_0_l. do 2 f_equal. cbn [result]. apply shl_val; [lia|lia|apply lo_b; lia].
Qed.
Lemma shr_word w32 (sg : bool) dst r imm s d c : let n := len w32 in
  run [Z.lxor UBFM (let v := inv_bits w32 .| Z.shiftr (inv_bits w32) 9 in if sg then v .| Z.shiftl 1 30 else v) .| RD dst .| RN r .| shr_bits w32 imm] s =
  Some (wX s (reg_map dst) (result (if sg then OAshr else OLshr) n (rv n s r) imm c d)).
Proof.
  cbv zeta. pose proof (len1 w32) as L. pose proof (Z.mod_pos_bound imm (len w32) ltac:(lia)) as K. destruct (mask_cases w32 (imm mod len w32) K) as (_ & M & _).
  assert (D : decode (Z.lxor UBFM (if sg then (inv_bits w32 .| Z.shiftr (inv_bits w32) 9) .| Z.shiftl 1 30 else inv_bits w32 .| Z.shiftr (inv_bits w32) 9) .| RD dst .| RN r .| shr_bits w32 imm) =
    Some (IBfm (negb w32) (if sg then 0 else 2) (nbit w32) (imm mod len w32) (len w32 - 1) (reg_map r) (reg_map dst))).
  { replace (Z.lxor UBFM (if sg then (inv_bits w32 .| Z.shiftr (inv_bits w32) 9) .| Z.shiftl 1 30 else inv_bits w32 .| Z.shiftr (inv_bits w32) 9)) with (bfm w32 sg) by (destruct w32, sg; reflexivity).
    unfold shr_bits. destruct w32.
    - rewrite (land_len true). apply (dec_bfm true sg); cbn [len] in *; lia.
    - rewrite (land_len false). apply (dec_bfm22 sg); cbn [len] in *; lia. }
  eapply run1; [exact D|]. rewrite (ex_bfm w32 sg (imm mod len w32) (len w32 - 1) (reg_map r) (reg_map dst) s _ _ K ltac:(lia) M). cbv zeta. do 2 f_equal. pose proof (lo_b (len w32) (rX s (reg_map r)) ltac:(lia)) as B. rewrite shr_val by lia. destruct sg; cbn [result]; cbv zeta.
  - apply sar_val; [lia|lia|exact B].
  - rewrite Z.ldiff_0_l, Z.lor_0_l. reflexivity.
Qed.
Lemma extr_word w32 dst r k s : 0 <= k < len w32 -> let n := len w32 in
  run [Z.lxor EXTR (inv_bits w32 .| Z.shiftr (inv_bits w32) 9) .| RD dst .| RN r .| RM r .| Z.shiftl k 10] s = Some (wX s (reg_map dst) (result ORotr n (rv n s r) k true 0)).
Proof.
  intros K. cbv zeta. assert (K6 : 0 <= k < 64) by (destruct w32; cbn [len] in K; lia). eapply run1; [apply dec_extr; exact K6|]. cbn [exec]. rewrite dsz_len.
  replace (negb (nbit w32 =? (if negb w32 then 1 else 0)) || (len w32 <=? k)) with false by (destruct w32; cbn [nbit negb Z.eqb Pos.eqb orb len] in *; lia).
  do 2 f_equal. fold (rv (len w32) s r). cbn [result]. cbv zeta. rewrite (Z.mod_small k) by lia. unfold lo. f_equal. rewrite Z.shiftr_div_pow2 by lia.
  replace (2 ^ len w32) with (2 ^ (len w32 - k) * 2 ^ k) by (rewrite <- Z.pow_add_r by lia; f_equal; lia). rewrite Z.mul_assoc, Z.add_comm. rewrite Z.div_add by (pose proof (pow_pos k); lia). ring.
Qed.

(** ** Logical operations *)
Lemma ex_logi w32 opc N immr imms rn rd s v t : 0 <= N < 2 -> 0 <= imms < 64 -> opc = 3 \/ rd <> 31 -> In opc [0; 1; 2; 3] -> decode_bit_masks N imms immr true (len w32) = Some (v, t) ->
  exec (ILogI (negb w32) opc N immr imms rn rd) s =
  let x := lo (len w32) (rX s rn) in let r := if opc =? 1 then Z.lor x v else if opc =? 2 then Z.lxor x v else Z.land x v in
  Some (after s rd r (if opc =? 3 then Some (Z.testbit r (len w32 - 1), r =? 0, false, false) else None)).
Proof.
  intros HN HI R O D. unfold exec. rewrite dsz_len.
  assert (G : negb (negb w32) && (N =? 1) = false).
  { destruct w32; [|reflexivity]. cbn [negb andb len] in *. destruct (N =? 1) eqn:E1; [|reflexivity]. assert (N = 1) by lia. subst N. exfalso. revert D. unfold decode_bit_masks.
    assert (LG : Z.log2 (1 * 64 + (63 - imms)) = 6) by (apply Z.log2_unique; lia). cbv zeta. replace (1 * 64 + (63 - imms) =? 0) with false by lia. rewrite LG. intros D; discriminate D. }
  rewrite G, D. cbv zeta. cbn [In] in O. destruct O as [<- | [<- | [<- | [<- | []]]]]; cbn [Z.eqb Pos.eqb after]; try reflexivity; f_equal; apply wSP_wX; destruct R as [R|R]; try discriminate R; exact R.
Qed.
Lemma ex_orn w32 rm rd s : exec (ILogR (negb w32) 1 0 true rm 0 31 rd) s = Some (wX s rd (Z.lxor (lo (len w32) (rX s rm)) ((-1) mod 2 ^ len w32))).
Proof.
  unfold exec. rewrite dsz_len. pose proof (len1 w32) as L. pose proof (lo_b (len w32) (rX s rm) ltac:(lia)) as B. replace (len w32 <=? 0) with false by lia. cbv zeta. rewrite shreg0 by (try lia; exact B).
  cbn [Z.eqb Pos.eqb]. change (rX s 31) with 0. unfold lo at 1. rewrite Z.mod_0_l by (pose proof (len_pow w32); lia). rewrite Z.lor_0_l. do 2 f_equal. unfold lo at 1.
  apply Z.bits_inj'. intros i I. rewrite Z.lxor_spec, !tb_lo, Z.lnot_spec, Z.bits_m1 by lia. destruct (i <? len w32) eqn:C; cbn [andb]; [destruct (Z.testbit _ _); reflexivity|].
  rewrite (small_bits_high _ (len w32)) by lia. reflexivity.
Qed.
Lemma li_arg_eq w32 : li_arg w32 = li_len (len w32) true.
Proof. destruct w32; reflexivity. Qed.

(** ** Additions and subtractions *)
Lemma AB_signed (add p : bool) w32 x m : 0 <= x < 2 ^ len w32 -> 0 < m < 2 ^ 24 -> AB p (len w32) x m = AB add (len w32) x ((if Bool.eqb add p then m else - m) mod 2 ^ len w32).
Proof.
  intros X M. pose proof (len_pow w32) as LP. destruct (Bool.eqb add p) eqn:E.
  - apply Bool.eqb_prop in E. subst p. rewrite Z.mod_small by lia. reflexivity.
  - assert (p = negb add) as -> by (destruct add, p; try discriminate E; reflexivity). apply AB_neg; [destruct w32; cbn; lia|exact X|]. destruct w32; cbn [len]; lia.
Qed.
Lemma did_AB (add : bool) w32 setf unused dst r b s : reg_map dst <> 31 -> 0 <= b < 2 ^ len w32 -> let n := len w32 in let p := AB add n (rv n s r) b in
  did_op2 (if add then OAdd else OSub) w32 setf unused dst (rv n s r) b s (after s (reg_map (flag_dst setf unused dst)) (fst p) (fl_of setf p)).
Proof.
  intros D B. cbv zeta. pose proof (len1 w32) as L. pose proof (rv_b w32 s r) as A. unfold fl_of. apply did_flagged; [exact D| |].
  - rewrite (AB_result add (len w32) _ b (cf s) (xr s (reg_map dst) mod 2 ^ len w32)) by assumption. apply Z.mod_small. apply result_b; assumption.
  - intros _ f ty v s' F M. apply (AB_flags add (len w32) (rv (len w32) s r) b (cf s) s' f ty v); assumption.
Qed.
Lemma sw_neg i : sword i -> (i = - 2 ^ 63 /\ sw (- i) = - 2 ^ 63) \/ (i <> - 2 ^ 63 /\ sw (- i) = - i).
Proof.
  unfold sword, sw. intros H. destruct (Z.eq_dec i (- 2 ^ 63)) as [-> | N]; [left; split; [reflexivity|vm_compute; reflexivity]|right; split; [exact N|]]. apply sext_small; lia.
Qed.
Lemma idone a b : IDone a = IDone b -> b = a.
Proof. congruence. Qed.
Lemma add_form_ok (add : bool) w32 setf unused dst r imm s ws : reg_map dst <> 31 -> reg_map r <> 31 -> (setf = false -> reg_map (flag_dst setf unused dst) <> 31) -> sword imm ->
  add_form add w32 setf unused dst r imm = IDone ws ->
  exists s', run ws s = Some s' /\ did_op2 (if add then OAdd else OSub) w32 setf unused dst (rv (len w32) s r) ((if add then imm else - imm) mod 2 ^ len w32) s s'.
Proof.
  intros D31 R31 DF SW. pose proof (len1 w32) as L. pose proof (len_pow w32) as LP. pose proof (rv_b w32 s r) as A.
  assert (DD : reg_map (flag_dst setf unused dst) <> 31 \/ setf = true) by (destruct setf; [right; reflexivity|left; apply DF; reflexivity]).
  assert (ONE : forall (p : bool) m w sh im, 0 <= im < 4096 -> m = (if sh =? 1 then im * 4096 else im) -> 0 < m < 2 ^ 24 ->
    decode w = Some (IAddI (negb w32) (negb p) setf sh im (reg_map r) (reg_map (flag_dst setf unused dst))) -> (if Bool.eqb add p then m else - m) mod 2 ^ len w32 = (if add then imm else - imm) mod 2 ^ len w32 ->
    exists s', run [w] s = Some s' /\ did_op2 (if add then OAdd else OSub) w32 setf unused dst (rv (len w32) s r) ((if add then imm else - imm) mod 2 ^ len w32) s s').
  { intros p m w sh im Him Em Hm Dw Eb. eexists. split; [eapply run1; [exact Dw|apply ex_addi; [exact DD|exact R31|lia|lia]]|]. cbv zeta. rewrite <- Em. fold (rv (len w32) s r).
    rewrite (AB_signed add p w32 _ m A Hm), Eb. apply did_AB; [exact D31|apply mod_b; lia]. }
  destruct (sw_neg imm SW) as [(I1 & I2) | (I1 & I2)].
  { subst imm. unfold add_form. cbv zeta. rewrite I2. cbn. intros E; discriminate E. }
  unfold sword in SW. unfold add_form. cbv zeta. rewrite I2.
  assert (TWO : forall (p : bool) m, 0 < m < 2 ^ 24 -> setf = false -> (if Bool.eqb add p then m else - m) mod 2 ^ len w32 = (if add then imm else - imm) mod 2 ^ len w32 ->
    exists s', run [Z.lxor (if p then ADDI else SUBI) (inv_bits w32) .| RD dst .| RN r .| Z.shiftl (Z.shiftr m 12) 10 .| Z.shiftl 1 22;
                    Z.lxor (if p then ADDI else SUBI) (inv_bits w32) .| RD dst .| RN dst .| Z.shiftl (m .& 0xfff) 10] s = Some s' /\
      did_op2 (if add then OAdd else OSub) w32 setf unused dst (rv (len w32) s r) ((if add then imm else - imm) mod 2 ^ len w32) s s').
  { intros p m Hm -> Eb. rewrite (land_low m 12) by lia. rewrite Z.shiftr_div_pow2 by lia. pose proof (Z.div_mod m (2 ^ 12) ltac:(lia)) as DM. pose proof (Z.mod_pos_bound m (2 ^ 12) ltac:(lia)) as MB.
    assert (HB : 0 <= m / 2 ^ 12 < 4096) by (split; [apply Z.div_pos; lia|apply Z.div_lt_upper_bound; lia]). set (h := m / 2 ^ 12) in *. set (l := m mod 2 ^ 12) in *. clearbody h l.
    assert (D1 : decode (Z.lxor (if p then ADDI else SUBI) (inv_bits w32) .| RD dst .| RN r .| Z.shiftl h 10 .| Z.shiftl 1 22) = Some (IAddI (negb w32) (negb p) false 1 h (reg_map r) (reg_map dst)))
      by (destruct p; [apply (dec_addi12 false w32 false dst r h HB)|apply (dec_addi12 true w32 false dst r h HB)]).
    assert (D2 : decode (Z.lxor (if p then ADDI else SUBI) (inv_bits w32) .| RD dst .| RN dst .| Z.shiftl l 10) = Some (IAddI (negb w32) (negb p) false 0 l (reg_map dst) (reg_map dst)))
      by (destruct p; [apply (dec_addi false w32 false dst dst l ltac:(lia))|apply (dec_addi true w32 false dst dst l ltac:(lia))]).
    set (a := rv (len w32) s r) in *.
    assert (E1 := run1 _ _ s _ D1 (ex_addi w32 p false 1 h (reg_map r) (reg_map dst) s (or_introl D31) R31 ltac:(lia) ltac:(cbn; lia))).
    cbv zeta in E1. fold (rv (len w32) s r) in E1. fold a in E1. cbn [Z.eqb Pos.eqb fl_of after] in E1. rewrite (AB_result p (len w32) a (h * 4096) true 0 L A ltac:(lia)) in E1.
    set (x := result (if p then OAdd else OSub) (len w32) a (h * 4096) true 0) in *. set (s1 := wX s (reg_map dst) x) in *.
    assert (XB : 0 <= x < 2 ^ len w32) by (apply result_b; lia).
    assert (E2 := run1 _ _ s1 _ D2 (ex_addi w32 p false 0 l (reg_map dst) (reg_map dst) s1 (or_introl D31) D31 ltac:(lia) ltac:(cbn; lia))).
    cbv zeta in E2. unfold s1 in E2 at 2 3. rewrite rX_wX_eq in E2 by exact D31. rewrite (lo_small _ _ XB) in E2. cbn [Z.eqb Pos.eqb fl_of after] in E2. rewrite (AB_result p (len w32) x l true 0 L XB ltac:(lia)) in E2.
    eexists. split; [eapply run2; [exact E1|exact E2]|].
    set (y := result (if p then OAdd else OSub) (len w32) x l true 0) in *.
    assert (EY : y = result (if add then OAdd else OSub) (len w32) a ((if add then imm else - imm) mod 2 ^ len w32) (cf s) (xr s (reg_map dst) mod 2 ^ len w32)).
    { rewrite <- Eb. unfold y, x. destruct p, add; cbn [result Bool.eqb]; rewrite ?Zplus_mod_idemp_l, ?Zplus_mod_idemp_r, ?Zminus_mod_idemp_l, ?Zminus_mod_idemp_r; f_equal; lia. }
    split; [|split; [|split; [|split]]].
    - intros _. rewrite xr_wX_eq by exact D31. rewrite EY. apply Z.mod_small. apply result_b; [exact A|apply mod_b; lia].
    - intros k K _ _ _. rewrite xr_wX_ne by exact K. unfold s1. apply xr_wX_ne. exact K.
    - rewrite mm_wX. unfold s1. apply mm_wX.
    - intros _. pose proof (flags_wX s1 (reg_map dst) y) as (A1 & A2 & A3 & A4). pose proof (flags_wX s (reg_map dst) x) as (C1 & C2 & C3 & C4). unfold same_flags. unfold s1 in *. repeat split; congruence.
    - intros E; discriminate E. }
  destruct (imm =? 0) eqn:Z0.
  { assert (imm = 0) by lia. subst imm. intros E; apply idone in E; subst ws. replace ((if add then 0 else - 0) mod 2 ^ len w32) with 0 by (destruct add; rewrite ?Z.opp_0, Z.mod_0_l by lia; reflexivity).
    eexists. split.
    - eapply run1; [|apply (ex_addi w32 add setf 0 0 (reg_map r) (reg_map (flag_dst setf unused dst)) s DD R31); cbn; lia]. destruct add; [apply (dec_addi0 false)|apply (dec_addi0 true)].
    - cbv zeta. cbn [Z.eqb]. apply (did_AB add w32 setf unused dst r 0 s D31). lia. }
  destruct ((0 <? imm) && (imm <=? 0xfff)) eqn:C1.
  { intros E; apply idone in E; subst ws. apply (ONE true imm _ 0 imm ltac:(lia) eq_refl ltac:(lia) (dec_addi false w32 setf _ r imm ltac:(lia))). destruct add; reflexivity. }
  destruct ((0 <? - imm) && (- imm <=? 0xfff)) eqn:C2.
  { intros E; apply idone in E; subst ws. apply (ONE false (- imm) _ 0 (- imm) ltac:(lia) eq_refl ltac:(lia) (dec_addi true w32 setf _ r (- imm) ltac:(lia))). destruct add; cbn [Bool.eqb]; rewrite ?Z.opp_involutive; reflexivity. }
  destruct ((0 <? imm) && (imm <=? 0xffffff) && (imm .& 0xfff =? 0)) eqn:C3.
  { intros E; apply idone in E; subst ws. rewrite (land_low imm 12) in C3 by lia. rewrite Z.shiftr_div_pow2 by lia. pose proof (Z.div_mod imm (2 ^ 12) ltac:(lia)) as DM.
    assert (HB : 0 <= imm / 2 ^ 12 < 4096) by (split; [apply Z.div_pos; lia|apply Z.div_lt_upper_bound; lia]).
    apply (ONE true imm _ 1 (imm / 2 ^ 12) HB ltac:(cbn [Z.eqb Pos.eqb]; lia) ltac:(lia) (dec_addi12 false w32 setf _ r _ HB)). destruct add; reflexivity. }
  destruct ((0 <? - imm) && (- imm <=? 0xffffff) && (- imm .& 0xfff =? 0)) eqn:C4.
  { intros E; apply idone in E; subst ws. rewrite (land_low (- imm) 12) in C4 by lia. rewrite Z.shiftr_div_pow2 by lia. pose proof (Z.div_mod (- imm) (2 ^ 12) ltac:(lia)) as DM.
    assert (HB : 0 <= - imm / 2 ^ 12 < 4096) by (split; [apply Z.div_pos; lia|apply Z.div_lt_upper_bound; lia]).
    apply (ONE false (- imm) _ 1 (- imm / 2 ^ 12) HB ltac:(cbn [Z.eqb Pos.eqb]; lia) ltac:(lia) (dec_addi12 true w32 setf _ r _ HB)). destruct add; cbn [Bool.eqb]; rewrite ?Z.opp_involutive; reflexivity. }
  destruct ((0 <? imm) && (imm <=? 0xffffff) && negb setf) eqn:C5.
  { intros E; apply idone in E; subst ws. apply (TWO true imm ltac:(lia) ltac:(destruct setf; [lia|reflexivity])). destruct add; reflexivity. }
  destruct ((0 <? - imm) && (- imm <=? 0xffffff) && negb setf) eqn:C6; [|intros E; discriminate E].
  intros E; apply idone in E; subst ws. apply (TWO false (- imm) ltac:(lia) ltac:(destruct setf; [lia|reflexivity])). destruct add; cbn [Bool.eqb]; rewrite ?Z.opp_involutive; reflexivity.
Qed.

(** ** The forms with an immediate *)
Lemma result_lo op w32 a b c d : is_shift op = true \/ op = ORotl -> result op (len w32) a (lo (len w32) b) c d = result op (len w32) a b c d.
Proof. intros H. unfold result. rewrite lo_mod. destruct op; destruct H as [H|H]; try discriminate H; reflexivity. Qed.
Definition comm (op : op2) : bool := match op with OAdd | OAnd | OOr | OXor => true | _ => false end.
Lemma result_comm op n a b c d : comm op = true -> result op n a b c d = result op n b a c d.
Proof. destruct op; intros H; try discriminate H; cbn [result]; cbv zeta; [f_equal; lia|apply Z.land_comm|apply Z.lor_comm|apply Z.lxor_comm]. Qed.
Lemma meaning_comm op n a b c ty : comm op = true -> meaning op n a b c ty = meaning op n b a c ty.
Proof.
  intros H. destruct op; try discriminate H; cbn [meaning].
  - unfold add_meaning. rewrite (Z.add_comm a b), (Z.add_comm (sext n a)). reflexivity.
  - rewrite result_comm by reflexivity. reflexivity.
  - rewrite result_comm by reflexivity. reflexivity.
  - rewrite result_comm by reflexivity. reflexivity.
Qed.
Lemma did_comm op w32 setf unused dst a b s s' : comm op = true -> did_op2 op w32 setf unused dst a b s s' -> did_op2 op w32 setf unused dst b a s s'.
Proof.
  intros H (A1 & A2 & A3 & A4 & A5). unfold did_op2. cbv zeta. rewrite (result_comm op _ b a) by exact H. split; [exact A1|]. split; [exact A2|]. split; [exact A3|]. split; [exact A4|].
  intros E f ty v M. rewrite meaning_comm in M by exact H. exact (A5 E f ty v M).
Qed.
Lemma flag_dst_31 setf unused dst : reg_map dst <> 31 -> setf = false -> reg_map (flag_dst setf unused dst) <> 31.
Proof. intros D ->. exact D. Qed.
Lemma logi_sound w32 imm b : sword imm -> logical_imm imm (li_arg w32) = Some b -> b <> 0 ->
  exists N imms immr t, 0 <= N < 2 /\ 0 <= imms < 64 /\ 0 <= immr < 64 /\ b = N * 2 ^ 22 + immr * 2 ^ 16 + imms * 2 ^ 10 /\ decode_bit_masks N imms immr true (len w32) = Some (imm mod 2 ^ len w32, t).
Proof. intros SW E N0. rewrite li_arg_eq in E. apply (logical_imm_sound imm (len w32) true b); [destruct w32; auto|exact SW|exact E|exact N0]. Qed.
Lemma sw_mod w32 i : sw i mod 2 ^ len w32 = i mod 2 ^ len w32.
Proof.
  unfold sw. destruct (sext_mod 64 i ltac:(lia)) as (k & E). rewrite E at 2. assert (P : exists q, 2 ^ 64 = q * 2 ^ len w32) by (destruct w32; cbn [len]; [exists (2 ^ 32)|exists 1]; reflexivity).
  destruct P as (q & ->). rewrite Z.mul_assoc. symmetry. apply Z_mod_plus_full.
Qed.
Lemma sw_sword i : sword (sw i).
Proof. unfold sword, sw. pose proof (sext_range 64 i ltac:(lia)). lia. Qed.
Lemma sw_mod_len w32 i : sw i mod len w32 = i mod len w32.
Proof. rewrite <- (lo_mod w32 (sw i)), <- (lo_mod w32 i). unfold lo. rewrite sw_mod. reflexivity. Qed.

Lemma imm_form_ok op w32 setf unused (a1i : bool) dst r imm s : legal_dst op dst -> (reg_map r <> 31 \/ is_add_sub op = false) -> sword imm -> (setf = true -> has_flags op = true) ->
  match imm_form op w32 setf unused a1i dst r imm with
  | IFail => False | IBreak => True
  | IDone ws => exists s', run ws s = Some s' /\
      did_op2 op w32 setf unused dst (if a1i then imm mod 2 ^ len w32 else rv (len w32) s r) (if a1i then rv (len w32) s r else imm mod 2 ^ len w32) s s'
  end.
Proof.
  intros LD R31 SW HF. destruct (dst_31 op dst LD) as (D31 & D30). pose proof (len1 w32) as L. pose proof (len_pow w32) as LP.
  pose proof (rv_b w32 s r) as A. assert (IB : 0 <= imm mod 2 ^ len w32 < 2 ^ len w32) by (apply mod_b; lia).
  assert (LM : forall x, 0 <= x < 2 ^ len w32 -> x mod 2 ^ len w32 = x) by (intros; apply Z.mod_small; assumption).
  destruct (logical_imm_total imm (len w32) true ltac:(destruct w32; auto) SW (or_introl eq_refl)) as (b & LI). rewrite <- li_arg_eq in LI.
  assert (CM : comm op = true -> forall ws, (exists s', run ws s = Some s' /\ did_op2 op w32 setf unused dst (rv (len w32) s r) (imm mod 2 ^ len w32) s s') ->
    exists s', run ws s = Some s' /\ did_op2 op w32 setf unused dst (if a1i then imm mod 2 ^ len w32 else rv (len w32) s r) (if a1i then rv (len w32) s r else imm mod 2 ^ len w32) s s').
  { intros C ws (s' & R & W). exists s'. split; [exact R|]. destruct a1i; [apply did_comm; assumption|exact W]. }
  assert (LO : forall x : bool, op = (if x then OXor else OOr) -> b <> 0 ->
    exists s', run ([Z.lxor (b .| (if x then EORI else ORRI)) (inv_bits w32) .| RD dst .| RN r] ++ set_flags setf (inv_bits w32) dst) s = Some s' /\
      did_op2 op w32 setf unused dst (rv (len w32) s r) (imm mod 2 ^ len w32) s s').
  { intros x Hop B0. destruct (logi_sound w32 imm b SW LI B0) as (N & imms & immr & t & HN & HI & HR & -> & DM).
    eapply did_zero with (r := if x then Z.lxor (rv (len w32) s r) (imm mod 2 ^ len w32) else Z.lor (rv (len w32) s r) (imm mod 2 ^ len w32)); [destruct x; subst op; reflexivity|left; reflexivity|exact D31| |].
    - eapply run1; [apply dec_ori; assumption|]. rewrite (ex_logi w32 (if x then 2 else 1) N immr imms (reg_map r) (reg_map dst) s _ t HN HI (or_intror D31) ltac:(destruct x; cbn; auto) DM). cbv zeta.
      destruct x; cbn [Z.eqb Pos.eqb after]; reflexivity.
    - destruct x; subst op; cbn [result]; apply LM; [apply lxor_b|apply lor_b]; lia. }
  assert (ROT : forall k, op = ORotr \/ op = ORotl -> 0 <= k < len w32 -> result ORotr (len w32) (rv (len w32) s r) k true 0 = result op (len w32) (rv (len w32) s r) (imm mod 2 ^ len w32) (cf s) (xr s (reg_map dst) mod 2 ^ len w32) ->
    exists s', run [Z.lxor EXTR (inv_bits w32 .| Z.shiftr (inv_bits w32) 9) .| RD dst .| RN r .| RM r .| Z.shiftl k 10] s = Some s' /\
      did_op2 op w32 setf unused dst (rv (len w32) s r) (imm mod 2 ^ len w32) s s').
  { intros k Hop K V. assert (setf = false) as -> by (destruct setf; [specialize (HF eq_refl); destruct Hop; subst op; discriminate HF|reflexivity]).
    eexists. split; [apply (extr_word w32 dst r k s K)|]. cbv zeta.
    match goal with |- did_op2 _ _ _ _ _ _ _ _ (wX _ _ ?v) => change (did_op2 op w32 false unused dst (rv (len w32) s r) (imm mod 2 ^ len w32) s (after s (reg_map (flag_dst false unused dst)) v (if false then Some (false, false, false, false) else None))) end.
    apply did_flagged; [exact D31| |intros E; discriminate E]. rewrite V. apply LM. apply result_b; assumption. }
  destruct op; cbn [imm_form]; try exact I.
  - (* ADD *)
    destruct (add_form true w32 setf unused dst r imm) as [| |ws] eqn:E; [|exact I|].
    { exfalso. revert E. unfold add_form. cbv zeta. repeat match goal with |- context [if ?c then IDone _ else _] => destruct c end; intros E; discriminate E. }
    apply (CM eq_refl). destruct R31 as [R31|R31]; [|discriminate R31]. exact (add_form_ok true w32 setf unused dst r imm s ws D31 R31 (flag_dst_31 setf unused dst D31) SW E).
  - (* SUB *)
    destruct a1i; [exact I|]. destruct (add_form false w32 setf unused dst r (sw (- imm))) as [| |ws] eqn:E; [|exact I|].
    { exfalso. revert E. unfold add_form. cbv zeta. repeat match goal with |- context [if ?c then IDone _ else _] => destruct c end; intros E; discriminate E. }
    destruct R31 as [R31|R31]; [|discriminate R31]. destruct (add_form_ok false w32 setf unused dst r (sw (- imm)) s ws D31 R31 (flag_dst_31 setf unused dst D31) (sw_sword _) E) as (s' & R & W).
    exists s'. split; [exact R|]. replace (imm mod 2 ^ len w32) with ((- sw (- imm)) mod 2 ^ len w32); [exact W|].
    rewrite <- (Z.opp_involutive imm) at 2. rewrite <- !(Z.sub_0_l (_ : Z)). rewrite <- (Zminus_mod_idemp_r 0 (sw (0 - imm))), <- (Zminus_mod_idemp_r 0 (0 - imm)). rewrite sw_mod. reflexivity.
  - (* AND *)
    rewrite LI. destruct (b =? 0) eqn:B0; [exact I|]. apply (CM eq_refl). destruct (logi_sound w32 imm b SW LI ltac:(lia)) as (N & imms & immr & t & HN & HI & HR & -> & DM).
    eexists. split.
    { eapply run1; [apply dec_andi; assumption|].
      rewrite (ex_logi w32 (if setf then 3 else 0) N immr imms (reg_map r) (reg_map (flag_dst setf unused dst)) s _ t HN HI
        ltac:(destruct setf; [left; reflexivity|right; exact D31]) ltac:(destruct setf; cbn; auto) DM). reflexivity. }
    cbv zeta. fold (rv (len w32) s r). set (v := Z.land (rv (len w32) s r) (imm mod 2 ^ len w32)) in *.
    assert (VB : 0 <= v < 2 ^ len w32) by (apply land_b; lia).
    replace (if (if setf then 3 else 0) =? 1 then Z.lor (rv (len w32) s r) (imm mod 2 ^ len w32) else if (if setf then 3 else 0) =? 2 then Z.lxor (rv (len w32) s r) (imm mod 2 ^ len w32) else v) with v by (destruct setf; reflexivity).
    replace (if (if setf then 3 else 0) =? 3 then Some (Z.testbit v (len w32 - 1), v =? 0, false, false) else None) with (if setf then Some (Z.testbit v (len w32 - 1), v =? 0, false, false) else None) by (destruct setf; reflexivity).
    apply did_flagged; [exact D31|apply LM; exact VB|]. intros _ f ty vv s' F M. eapply (zero_flags OAnd); [reflexivity|reflexivity| |exact M]. destruct F as (_ & Zf & _). exact Zf.
  - (* OR *)
    rewrite LI. destruct (b =? 0) eqn:B0; [exact I|]. apply (CM eq_refl). apply (LO false eq_refl). lia.
  - (* XOR *)
    destruct (imm =? -1) eqn:E1.
    + apply (CM eq_refl). assert (imm = -1) by lia. subst imm. eapply did_zero; [reflexivity|left; reflexivity|exact D31| |].
      * eapply run1; [apply dec_orn|]. apply ex_orn.
      * cbn [result]. apply LM. apply lxor_b; lia.
    + rewrite LI. destruct (b =? 0) eqn:B0; [exact I|]. apply (CM eq_refl). apply (LO true eq_refl). lia.
  - destruct a1i; [exact I|]. eapply did_zero; [reflexivity|right; left; reflexivity|exact D31|apply (shl_word w32 dst r imm s 0 (cf s))|]. cbv zeta. rewrite <- (result_lo OShl w32 _ imm) by (left; reflexivity). apply LM. apply result_b; assumption.
  - destruct a1i; [exact I|]. eapply did_zero; [reflexivity|right; left; reflexivity|exact D31|apply (shl_word w32 dst r imm s 0 (cf s))|]. cbv zeta. rewrite <- (result_lo OShl w32 _ imm) by (left; reflexivity). apply LM. apply (result_b OShl w32 (rv (len w32) s r) (imm mod 2 ^ len w32) (cf s) 0); assumption.
  - destruct a1i; [exact I|]. eapply did_zero; [reflexivity|right; left; reflexivity|exact D31|apply (shr_word w32 false dst r imm s 0 (cf s))|]. cbv zeta. rewrite <- (result_lo OLshr w32 _ imm) by (left; reflexivity). apply LM. apply (result_b OLshr w32 (rv (len w32) s r) (imm mod 2 ^ len w32) (cf s) 0); assumption.
  - destruct a1i; [exact I|]. eapply did_zero; [reflexivity|right; left; reflexivity|exact D31|apply (shr_word w32 false dst r imm s 0 (cf s))|]. cbv zeta. rewrite <- (result_lo OLshr w32 _ imm) by (left; reflexivity). apply LM. apply (result_b OLshr w32 (rv (len w32) s r) (imm mod 2 ^ len w32) (cf s) 0); assumption.
  - destruct a1i; [exact I|]. eapply did_zero; [reflexivity|right; right; reflexivity|exact D31|apply (shr_word w32 true dst r imm s 0 (cf s))|]. cbv zeta. rewrite <- (result_lo OAshr w32 _ imm) by (left; reflexivity). apply LM. apply (result_b OAshr w32 (rv (len w32) s r) (imm mod 2 ^ len w32) (cf s) 0); assumption.
  - destruct a1i; [exact I|]. eapply did_zero; [reflexivity|right; right; reflexivity|exact D31|apply (shr_word w32 true dst r imm s 0 (cf s))|]. cbv zeta. rewrite <- (result_lo OAshr w32 _ imm) by (left; reflexivity). apply LM. apply (result_b OAshr w32 (rv (len w32) s r) (imm mod 2 ^ len w32) (cf s) 0); assumption.
  - (* ROTL *)
    destruct a1i; [exact I|]. cbv zeta. rewrite land_len, sw_mod_len. apply ROT; [right; reflexivity|apply Z.mod_pos_bound; lia|].
    rewrite rotl_eq by exact A. fold (lo (len w32) imm). rewrite (result_lo ORotl w32 _ imm (cf s)) by (right; reflexivity). reflexivity.
  - (* ROTR *)
    destruct a1i; [exact I|]. cbv zeta. rewrite land_len. apply ROT; [left; reflexivity|apply Z.mod_pos_bound; lia|].
    fold (lo (len w32) imm). rewrite (result_lo ORotr) by (left; reflexivity). cbn [result]. cbv zeta. rewrite Z.mod_mod by lia. reflexivity.
Qed.

(** ** The operands in temporary registers *)
Lemma rv_temp w32 s s1 t v r : only s s1 t v -> reg_map r = t -> t <> 31 -> rv (len w32) s1 r = v mod 2 ^ len w32.
Proof. intros (V & _) E T. unfold rv, rX. rewrite E. replace (t =? 31) with false by lia. rewrite V. reflexivity. Qed.
Lemma rv_keep n s s1 t v r : only s s1 t v -> reg_map r <> t -> rv n s1 r = rv n s r.
Proof. intros (_ & K & _) E. unfold rv, rX. rewrite K by exact E. reflexivity. Qed.
Lemma did_pre op w32 setf unused dst a b s s1 s' t v : t = 9 \/ t = 10 -> only s s1 t v -> (op = OMuladd -> reg_map dst <> t) -> did_op2 op w32 setf unused dst a b s1 s' -> did_op2 op w32 setf unused dst a b s s'.
Proof.
  intros T (V & K & N1 & N2 & N3 & N4 & M) D (A1 & A2 & A3 & A4 & A5). unfold did_op2. cbv zeta. rewrite N3 in *. split; [|split; [|split; [|split]]].
  - intros E. rewrite (A1 E). destruct op; try reflexivity. rewrite (K (reg_map dst)) by (apply D; reflexivity). reflexivity.
  - intros k K1 K2 K3 K4. rewrite A2 by assumption. apply K. lia.
  - congruence.
  - intros E. destruct (A4 E) as (F1 & F2 & F3 & F4). unfold same_flags. repeat split; congruence.
  - exact A5.
Qed.
Lemma muladd_dst op dst t : legal_dst op dst -> t = 9 \/ t = 10 -> op = OMuladd -> reg_map dst <> t.
Proof.
  intros LD T ->. destruct LD as [H|[]]. assert (F : forallb (fun d => negb (reg_map d =? 9) && negb (reg_map d =? 10)) (zseq 1 26) = true) by (vm_compute; reflexivity).
  rewrite forallb_forall in F. specialize (F dst (in_zseq 1 26 dst ltac:(lia))). lia.
Qed.
Lemma src_regs r tmp : (1 <= r <= 26 \/ r = tmp) -> tmp = TMP_REG1 \/ tmp = TMP_REG2 -> reg_map r <> 31 /\ reg_map r <> 30 /\ (tmp = TMP_REG1 -> reg_map r <> 10) /\ (tmp = TMP_REG2 -> reg_map r <> 9).
Proof.
  intros H T. assert (F : forallb (fun d => negb (reg_map d =? 9) && negb (reg_map d =? 10) && negb (reg_map d =? 30) && negb (reg_map d =? 31)) (zseq 1 26) = true) by (vm_compute; reflexivity).
  destruct H as [H | ->].
  - rewrite forallb_forall in F. specialize (F r (in_zseq 1 26 r ltac:(lia))). lia.
  - destruct T as [-> | ->]; vm_compute; repeat split; discriminate.
Qed.
Lemma rv_val w32 s r : reg_map r <> 31 -> rv (len w32) s r = val (len w32) s (AReg r).
Proof. intros H. unfold rv, rX, val. replace (reg_map r =? 31) with false by lia. reflexivity. Qed.
Lemma wrap_mod w32 i : wrap i mod 2 ^ len w32 = i mod 2 ^ len w32.
Proof.
  unfold wrap. destruct w32; cbn [len]; [|apply Z.mod_mod; lia]. change (2 ^ 64) with (2 ^ 32 * 2 ^ 32). rewrite Z.rem_mul_r by lia. rewrite Z.mul_comm, Z_mod_plus_full. apply Z.mod_mod. lia.
Qed.
(** What imm_reg does. *)
Lemma imm_reg_ok w32 tmp t imm s : tmp = TMP_REG1 /\ t = 9 \/ tmp = TMP_REG2 /\ t = 10 -> sword imm ->
  exists ws r s1 v, imm_reg tmp imm = Some (ws, r) /\ run ws s = Some s1 /\ only s s1 t v /\ rv (len w32) s1 r = imm mod 2 ^ len w32 /\ (reg_map r = t \/ reg_map r = 31).
Proof.
  intros T SW. unfold imm_reg. destruct (imm =? 0) eqn:E.
  - exists [], TMP_ZERO, s, (xr s t). assert (imm = 0) by lia. subst imm. split; [reflexivity|]. split; [reflexivity|]. split; [unfold only; repeat split|]. split; [reflexivity|right; reflexivity].
  - assert (RM : reg_map tmp = t) by (destruct T as [(-> & ->) | (-> & ->)]; reflexivity).
    destruct (load_immediate_ok tmp imm s ltac:(destruct T as [(-> & _) | (-> & _)]; right; vm_compute; split; discriminate) SW) as (ws & s1 & -> & R & O). rewrite RM in O.
    exists ws, tmp, s1, (wrap imm). split; [reflexivity|]. split; [exact R|]. split; [exact O|]. split; [|left; exact RM].
    rewrite (rv_temp w32 s s1 t (wrap imm) tmp O RM) by lia. apply wrap_mod.
Qed.
Lemma one_imm_ok op w32 setf unused dst r imm s : legal_dst op dst -> (reg_map r <> 31 \/ is_add_sub op = false) -> reg_map r <> 30 -> reg_map r <> 10 -> sword imm -> (setf = true -> has_flags op = true) ->
  exists ws s', one_imm op w32 setf unused dst r imm = Some ws /\ run ws s = Some s' /\ did_op2 op w32 setf unused dst (rv (len w32) s r) (imm mod 2 ^ len w32) s s'.
Proof.
  intros LD R31 R30 R10 SW HF. unfold one_imm. pose proof (imm_form_ok op w32 setf unused false dst r imm s LD R31 SW HF) as F.
  destruct (imm_form op w32 setf unused false dst r imm) as [| |ws]; [destruct F| |].
  - destruct (imm_reg_ok w32 TMP_REG2 10 imm s (or_intror (conj eq_refl eq_refl)) SW) as (ws & r2 & s1 & v & -> & R & O & V & RR).
    destruct (reg_form_ok op w32 setf unused dst r r2 s1 LD R30 (or_introl R10) ltac:(unfold src_ok; lia) HF) as (s' & R' & W).
    exists (ws ++ reg_form op w32 setf unused dst r r2), s'. split; [reflexivity|]. split; [rewrite run_app, R; exact R'|].
    rewrite V, (rv_keep _ s s1 10 v r O R10) in W. apply (did_pre _ _ _ _ _ _ _ s s1 s' 10 v (or_intror eq_refl) O (muladd_dst op dst 10 LD (or_intror eq_refl)) W).
  - destruct F as (s' & R & W). exists ws, s'. split; [reflexivity|]. split; assumption.
Qed.

Theorem emit_op_imm_ok op w32 setf unused dst a1 a2 s : legal_dst op dst -> legal_arg TMP_REG1 a1 -> legal_arg TMP_REG2 a2 -> (setf = true -> has_flags op = true) ->
  exists ws s', emit_op_imm op w32 setf unused dst a1 a2 = Some ws /\ run ws s = Some s' /\ did_op2 op w32 setf unused dst (val (len w32) s a1) (val (len w32) s a2) s s'.
Proof.
  intros LD L1 L2 HF. destruct a1 as [r1|i1], a2 as [r2|i2]; cbn [legal_arg] in L1, L2; cbn [emit_op_imm].
  - destruct (src_regs r1 TMP_REG1 L1 (or_introl eq_refl)) as (A31 & A30 & A10 & _). destruct (src_regs r2 TMP_REG2 L2 (or_intror eq_refl)) as (B31 & B30 & _).
    destruct (reg_form_ok op w32 setf unused dst r1 r2 s LD A30 (or_introl (A10 eq_refl)) B30 HF) as (s' & R & W).
    exists (reg_form op w32 setf unused dst r1 r2), s'. split; [reflexivity|]. split; [exact R|]. rewrite <- !rv_val by assumption. exact W.
  - destruct (src_regs r1 TMP_REG1 L1 (or_introl eq_refl)) as (A31 & A30 & A10 & _).
    destruct (one_imm_ok op w32 setf unused dst r1 i2 s LD (or_introl A31) A30 (A10 eq_refl) L2 HF) as (ws & s' & E & R & W).
    exists ws, s'. split; [exact E|]. split; [exact R|]. rewrite <- rv_val by assumption. exact W.
  - destruct (src_regs r2 TMP_REG2 L2 (or_intror eq_refl)) as (B31 & B30 & _ & B9).
    pose proof (imm_form_ok op w32 setf unused true dst r2 i1 s LD (or_introl B31) L1 HF) as F. rewrite <- rv_val by assumption. cbn [val].
    destruct (imm_form op w32 setf unused true dst r2 i1) as [| |ws]; [destruct F| |].
    + destruct (imm_reg_ok w32 TMP_REG1 9 i1 s (or_introl (conj eq_refl eq_refl)) L1) as (ws & r1 & s1 & v & -> & R & O & V & RR).
      destruct (reg_form_ok op w32 setf unused dst r1 r2 s1 LD ltac:(unfold src_ok; lia) ltac:(left; lia) B30 HF) as (s' & R' & W).
      exists (ws ++ reg_form op w32 setf unused dst r1 r2), s'. split; [reflexivity|]. split; [rewrite run_app, R; exact R'|].
      rewrite V, (rv_keep _ s s1 9 v r2 O (B9 eq_refl)) in W. apply (did_pre _ _ _ _ _ _ _ s s1 s' 9 v (or_introl eq_refl) O (muladd_dst op dst 9 LD (or_introl eq_refl)) W).
    + destruct F as (s' & R & W). exists ws, s'. split; [reflexivity|]. split; assumption.
  - destruct ((i1 =? 0) && negb (is_add_sub op)) eqn:C.
    + destruct (one_imm_ok op w32 setf unused dst TMP_ZERO i2 s LD ltac:(right; destruct (is_add_sub op); [lia|reflexivity]) ltac:(vm_compute; discriminate) ltac:(vm_compute; discriminate) L2 HF) as (ws & s' & E & R & W).
      exists ws, s'. split; [exact E|]. split; [exact R|]. cbn [val]. assert (i1 = 0) by lia. subst i1. exact W.
    + destruct (load_immediate_ok TMP_REG1 i1 s ltac:(right; vm_compute; split; discriminate) L1) as (ws & s1 & -> & R & O). change (reg_map TMP_REG1) with 9 in O.
      destruct (one_imm_ok op w32 setf unused dst TMP_REG1 i2 s1 LD ltac:(left; vm_compute; discriminate) ltac:(vm_compute; discriminate) ltac:(vm_compute; discriminate) L2 HF) as (ws2 & s' & -> & R' & W).
      exists (ws ++ ws2), s'. split; [reflexivity|]. split; [rewrite run_app, R; exact R'|]. cbn [val].
      rewrite (rv_temp w32 s s1 9 (wrap i1) TMP_REG1 O eq_refl ltac:(lia)), wrap_mod in W.
      apply (did_pre _ _ _ _ _ _ _ s s1 s' 9 (wrap i1) (or_introl eq_refl) O (muladd_dst op dst 9 LD (or_introl eq_refl)) W).
Qed.

Theorem op2_ok op w32 setf dst a1 a2 s : legal_dst op dst -> legal_arg TMP_REG1 a1 -> legal_arg TMP_REG2 a2 -> (setf = true -> has_flags op = true) ->
  exists ws s', sljit_emit_op2 op w32 setf dst a1 a2 = Some ws /\ run ws s = Some s' /\ did_op2 op w32 setf (dst =? TMP_REG2) dst (val (len w32) s a1) (val (len w32) s a2) s s'.
Proof. apply emit_op_imm_ok. Qed.
(** An operation which sets the flags and the conditional jump after it. *)
Theorem op2_jump_ok op w32 dst a1 a2 s f ty v rw code a ws t : legal_dst op dst -> legal_arg TMP_REG1 a1 -> legal_arg TMP_REG2 a2 -> has_flags op = true ->
  meaning op (len w32) (val (len w32) s a1) (val (len w32) s a2) (cf s) ty = Some v -> sljit_emit_op2 op w32 true dst a1 a2 = Some ws ->
  isw t -> t mod 4 = 0 -> a mod 4 = 0 -> let p := a + 4 * Z.of_nat (length ws) in code_at 4 ws a code -> code_at 4 (link_jump rw (Some (JFlag (state_after op f) ty)) false p t) p code ->
  exists s', goes code a s p s' /\ did_op2 op w32 true (dst =? TMP_REG2) dst (val (len w32) s a1) (val (len w32) s a2) s s' /\ jumps_if v rw (state_after op f) ty code p t s'.
Proof.
  intros LD L1 L2 HF M E T T4 A4. cbv zeta. intros C1 C2. destruct (op2_ok op w32 true dst a1 a2 s LD L1 L2 (fun _ => HF)) as (ws' & s' & E' & R & W). rewrite E in E'. assert (ws' = ws) by congruence. subst ws'.
  exists s'. split; [apply goes_run; [apply (run_not_br ws s s' R)|exact R|exact C1]|]. split; [exact W|]. destruct W as (_ & _ & _ & _ & FL). specialize (FL eq_refl f ty v M).
  apply jumps_if_ok; [exact T|exact T4| |exact C2|exact FL]. rewrite (Z.mul_comm 4). rewrite Z_mod_plus_full. exact A4.
Qed.
