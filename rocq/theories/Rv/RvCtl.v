(** Control instructions: decoding of what the linker stores, and machine steps. *)
Require Import ZArith List Bool Lia Zify ZifyBool.
From Verif Require Import Rv.RvLib Rv.RvBits Rv.RvIsa Rv.RvEnc Rv.RvImm Rv.RvRun Rv.RvImmProofs.
Import ListNotations.
Open Scope Z_scope.
Ltac Zify.zify_post_hook ::= Z.div_mod_to_equations.

(** ** Fields of shifted masks *)
Lemma fld_bits x lo n k : 0 <= lo -> 0 <= n -> 0 <= k -> Z.testbit (fld x lo n) k = (k <? n) && Z.testbit x (k + lo).
Proof.
  intros. unfold fld. rewrite Z.land_spec, Z.shiftr_spec by lia. destruct (k <? n) eqn:E.
  - rewrite Z.ones_spec_low by lia. apply andb_true_r.
  - rewrite Z.ones_spec_high by lia. apply andb_false_r.
Qed.
Lemma mask_bits j n k : 0 <= j -> 0 <= n -> 0 <= k -> Z.testbit ((2 ^ n - 1) * 2 ^ j) k = (j <=? k) && (k <? j + n).
Proof.
  intros. rewrite tb_mul_pow2 by lia. replace (2 ^ n - 1) with (Z.ones n) by (rewrite Z.ones_equiv; lia).
  destruct (k <? j) eqn:E.
  - destruct (j <=? k) eqn:E2; [lia|reflexivity].
  - destruct (Z.lt_ge_cases (k - j) n).
    + rewrite Z.ones_spec_low by lia. lia.
    + rewrite Z.ones_spec_high by lia. lia.
Qed.
Lemma fld_mask_hit x m k j n lo : m = (2 ^ n - 1) * 2 ^ j -> 0 <= j -> 0 <= n -> lo = j + k -> 0 <= lo ->
  fld (Z.shiftl (x .& m) k) lo n = fld x j n.
Proof.
  intros -> Hj Hn -> Hl. apply Z.bits_inj'. intros i Hi. rewrite !fld_bits by lia.
  destruct (i <? n) eqn:E; [|reflexivity]. cbn [andb]. rewrite Z.shiftl_spec by lia.
  replace (i + (j + k) - k) with (i + j) by lia. rewrite Z.land_spec, mask_bits by lia.
  replace (j <=? i + j) with true by lia. replace (i + j <? j + n) with true by lia. apply andb_true_r.
Qed.
Lemma fld_mask_miss x m k j n lo n' : m = (2 ^ n - 1) * 2 ^ j -> 0 <= j -> 0 <= n -> 0 <= lo -> 0 <= n' -> 0 <= j + k ->
  lo + n' <= j + k \/ j + k + n <= lo -> fld (Z.shiftl (x .& m) k) lo n' = 0.
Proof.
  intros -> Hj Hn Hl Hn' Hk D. apply Z.bits_inj'. intros i Hi. rewrite fld_bits, Z.bits_0 by lia.
  destruct (i <? n') eqn:E; [|reflexivity]. cbn [andb]. rewrite Z.shiftl_spec by lia.
  destruct (Z.lt_ge_cases (i + lo - k) 0) as [L|L]; [apply Z.testbit_neg_r; lia|].
  rewrite Z.land_spec, mask_bits by lia.
  replace ((j <=? i + lo - k) && (i + lo - k <? j + n)) with false by lia. apply andb_false_r.
Qed.

(** ** Offsets in instructions *)
(** The bits or-ed into the two halves of a branch, sljitNativeRISCV_common.c:1014-1015. *)
Definition brn_lo (a : Z) : Z := Z.shiftr (a .& 0x800) 4 .| Z.shiftl (a .& 0x1e) 7.
Definition brn_hi (a : Z) : Z := Z.shiftl (a .& 0x7e0) 4 .| Z.shiftl (a .& 0x1000) 3.
Definition brn_imm (a : Z) : Z := brn_lo a .| Z.shiftl (brn_hi a) 16.
(** sljitNativeRISCV_common.c:1034 *)
Definition jal_imm (a : Z) : Z :=
  (a .& 0xff000) .| Z.shiftl (a .& 0x800) 9 .| Z.shiftl (a .& 0x7fe) 20 .| Z.shiftl (a .& 0x100000) 11.

Lemma fld_bit x j : 0 <= j -> fld x j 1 = (x / 2 ^ j) mod 2. Proof. intros. rewrite fld_div by lia. reflexivity. Qed.

Ltac fmask m j n :=
  repeat first [ rewrite (fld_mask_hit _ m _ j n) by (reflexivity || lia)
               | rewrite (fld_mask_miss _ m _ j n) by (reflexivity || lia) ].

Lemma brn_parts a : brn_imm a = Z.shiftl (a .& 0x800) (-4) .| Z.shiftl (a .& 0x1e) 7 .| Z.shiftl (a .& 0x7e0) 20 .| Z.shiftl (a .& 0x1000) 19.
Proof.
  unfold brn_imm, brn_lo, brn_hi. rewrite Z.shiftl_lor, !Z.shiftl_shiftl by lia. rewrite <- Z.shiftl_opp_r, <- !Z.lor_assoc. reflexivity.
Qed.
Lemma brn_fields a lo n : 0 <= lo -> 0 <= n -> lo + n <= 7 \/ 12 <= lo /\ lo + n <= 25 -> fld (brn_imm a) lo n = 0.
Proof.
  intros H1 H2 H3. rewrite brn_parts. rewrite !fld_lor.
  rewrite (fld_mask_miss a 0x800 _ 11 1) by (reflexivity || lia). rewrite (fld_mask_miss a 0x1e _ 1 4) by (reflexivity || lia).
  rewrite (fld_mask_miss a 0x7e0 _ 5 6) by (reflexivity || lia). rewrite (fld_mask_miss a 0x1000 _ 12 1) by (reflexivity || lia).
  reflexivity.
Qed.
Lemma jal_fields a lo n : 0 <= lo -> 0 <= n -> lo + n <= 12 -> fld (jal_imm a) lo n = 0.
Proof.
  intros H1 H2 H3. unfold jal_imm. rewrite !fld_lor. change (a .& 0xff000) with (Z.shiftl (a .& 0xff000) 0).
  rewrite (fld_mask_miss a 0xff000 _ 12 8) by (reflexivity || lia). rewrite (fld_mask_miss a 0x800 _ 11 1) by (reflexivity || lia).
  rewrite (fld_mask_miss a 0x7fe _ 1 10) by (reflexivity || lia). rewrite (fld_mask_miss a 0x100000 _ 20 1) by (reflexivity || lia).
  reflexivity.
Qed.
Lemma imm_b_brn b a : fld b 7 5 = 0 -> fld b 25 7 = 0 -> a mod 2 = 0 -> imm_b (b .| brn_imm a) = sext 13 a.
Proof.
  intros B1 B2 E. unfold imm_b. rewrite !fld_lor.
  assert (C1 : fld b 31 1 = 0) by (apply (fld_sub b 25 7); auto; lia).
  assert (C2 : fld b 7 1 = 0) by (apply (fld_sub b 7 5); auto; lia).
  assert (C3 : fld b 25 6 = 0) by (apply (fld_sub b 25 7); auto; lia).
  assert (C4 : fld b 8 4 = 0) by (apply (fld_sub b 7 5); auto; lia).
  rewrite C1, C2, C3, C4, !Z.lor_0_l.
  assert (F1 : fld (brn_imm a) 31 1 = fld a 12 1).
  { rewrite brn_parts. rewrite !fld_lor.
    rewrite (fld_mask_miss a 0x800 _ 11 1) by (reflexivity || lia). rewrite (fld_mask_miss a 0x1e _ 1 4) by (reflexivity || lia).
    rewrite (fld_mask_miss a 0x7e0 _ 5 6) by (reflexivity || lia). rewrite (fld_mask_hit a 0x1000 _ 12 1) by (reflexivity || lia). reflexivity. }
  assert (F2 : fld (brn_imm a) 7 1 = fld a 11 1).
  { rewrite brn_parts. rewrite !fld_lor.
    rewrite (fld_mask_hit a 0x800 _ 11 1) by (reflexivity || lia). rewrite (fld_mask_miss a 0x1e _ 1 4) by (reflexivity || lia).
    rewrite (fld_mask_miss a 0x7e0 _ 5 6) by (reflexivity || lia). rewrite (fld_mask_miss a 0x1000 _ 12 1) by (reflexivity || lia).
    rewrite !Z.lor_0_r. reflexivity. }
  assert (F3 : fld (brn_imm a) 25 6 = fld a 5 6).
  { rewrite brn_parts. rewrite !fld_lor.
    rewrite (fld_mask_miss a 0x800 _ 11 1) by (reflexivity || lia). rewrite (fld_mask_miss a 0x1e _ 1 4) by (reflexivity || lia).
    rewrite (fld_mask_hit a 0x7e0 _ 5 6) by (reflexivity || lia). rewrite (fld_mask_miss a 0x1000 _ 12 1) by (reflexivity || lia).
    rewrite !Z.lor_0_r. reflexivity. }
  assert (F4 : fld (brn_imm a) 8 4 = fld a 1 4).
  { rewrite brn_parts. rewrite !fld_lor.
    rewrite (fld_mask_miss a 0x800 _ 11 1) by (reflexivity || lia). rewrite (fld_mask_hit a 0x1e _ 1 4) by (reflexivity || lia).
    rewrite (fld_mask_miss a 0x7e0 _ 5 6) by (reflexivity || lia). rewrite (fld_mask_miss a 0x1000 _ 12 1) by (reflexivity || lia).
    rewrite !Z.lor_0_r. reflexivity. }
  rewrite F1, F2, F3, F4. rewrite !fld_div by lia.
  apply sext_eq with (- (a / 2 ^ 13)); [lia|].
  change (2 ^ 13) with 8192. change (2 ^ 12) with 4096. change (2 ^ 11) with 2048. change (2 ^ 5) with 32.
  change (2 ^ 1) with 2. change (2 ^ 6) with 64. change (2 ^ 4) with 16. lia.
Qed.
Lemma imm_j_jal b a : fld b 12 20 = 0 -> a mod 2 = 0 -> imm_j (b .| jal_imm a) = sext 21 a.
Proof.
  intros B E. unfold imm_j. rewrite !fld_lor.
  assert (C1 : fld b 31 1 = 0) by (apply (fld_sub b 12 20); auto; lia).
  assert (C2 : fld b 12 8 = 0) by (apply (fld_sub b 12 20); auto; lia).
  assert (C3 : fld b 20 1 = 0) by (apply (fld_sub b 12 20); auto; lia).
  assert (C4 : fld b 21 10 = 0) by (apply (fld_sub b 12 20); auto; lia).
  rewrite C1, C2, C3, C4, !Z.lor_0_l.
  unfold jal_imm. rewrite !fld_lor. change (a .& 0xff000) with (Z.shiftl (a .& 0xff000) 0).
  rewrite (fld_mask_miss a 0xff000 _ 12 8 31 1), (fld_mask_miss a 0xff000 _ 12 8 20 1), (fld_mask_miss a 0xff000 _ 12 8 21 10) by (reflexivity || lia).
  rewrite (fld_mask_hit a 0xff000 _ 12 8) by (reflexivity || lia).
  rewrite (fld_mask_miss a 0x800 _ 11 1 31 1), (fld_mask_miss a 0x800 _ 11 1 12 8), (fld_mask_miss a 0x800 _ 11 1 21 10) by (reflexivity || lia).
  rewrite (fld_mask_hit a 0x800 _ 11 1) by (reflexivity || lia).
  rewrite (fld_mask_miss a 0x7fe _ 1 10 31 1), (fld_mask_miss a 0x7fe _ 1 10 12 8), (fld_mask_miss a 0x7fe _ 1 10 20 1) by (reflexivity || lia).
  rewrite (fld_mask_hit a 0x7fe _ 1 10) by (reflexivity || lia).
  rewrite (fld_mask_miss a 0x100000 _ 20 1 12 8), (fld_mask_miss a 0x100000 _ 20 1 20 1), (fld_mask_miss a 0x100000 _ 20 1 21 10) by (reflexivity || lia).
  rewrite (fld_mask_hit a 0x100000 _ 20 1) by (reflexivity || lia).
  rewrite !Z.lor_0_r, ?Z.lor_0_l. rewrite !fld_div by lia.
  apply sext_eq with (- (a / 2 ^ 21)); [lia|].
  change (2 ^ 21) with 2097152. change (2 ^ 20) with 1048576. change (2 ^ 12) with 4096. change (2 ^ 11) with 2048. change (2 ^ 8) with 256.
  change (2 ^ 1) with 2. change (2 ^ 10) with 1024. lia.
Qed.

(** ** Decoding *)
Lemma brn_lt a : 0 <= brn_imm a < 2 ^ 32.
Proof.
  rewrite brn_parts. rewrite (land_mask a 11 1 0x800), (land_mask a 1 4 0x1e), (land_mask a 5 6 0x7e0), (land_mask a 12 1 0x1000) by (reflexivity || lia).
  change (2 ^ 4) with 16. change (2 ^ 6) with 64. change (2 ^ 1) with 2.
  pose proof (Z.mod_pos_bound (a / 2 ^ 11) 2 ltac:(lia)). pose proof (Z.mod_pos_bound (a / 2) 16 ltac:(lia)).
  pose proof (Z.mod_pos_bound (a / 2 ^ 5) 64 ltac:(lia)). pose proof (Z.mod_pos_bound (a / 2 ^ 12) 2 ltac:(lia)).
  set (x := (a / 2 ^ 11) mod 2) in *. set (y := (a / 2) mod 16) in *. set (z := (a / 2 ^ 5) mod 64) in *. set (t := (a / 2 ^ 12) mod 2) in *.
  clearbody x y z t.
  repeat apply lor_lt; try lia.
  - change (Z.shiftl (x * 2 ^ 11) (-4)) with (Z.shiftr (x * 2 ^ 11) 4). rewrite Z.shiftr_div_pow2 by lia. lia.
  - rewrite Z.shiftl_mul_pow2 by lia. lia.
  - rewrite Z.shiftl_mul_pow2 by lia. lia.
  - rewrite Z.shiftl_mul_pow2 by lia. lia.
Qed.
Lemma jal_lt a : 0 <= jal_imm a < 2 ^ 32.
Proof.
  unfold jal_imm. rewrite (land_mask a 12 8 0xff000), (land_mask a 11 1 0x800), (land_mask a 1 10 0x7fe), (land_mask a 20 1 0x100000) by (reflexivity || lia).
  change (2 ^ 8) with 256. change (2 ^ 1) with 2. change (2 ^ 10) with 1024.
  pose proof (Z.mod_pos_bound (a / 2 ^ 12) 256 ltac:(lia)). pose proof (Z.mod_pos_bound (a / 2 ^ 11) 2 ltac:(lia)).
  pose proof (Z.mod_pos_bound (a / 2) 1024 ltac:(lia)). pose proof (Z.mod_pos_bound (a / 2 ^ 20) 2 ltac:(lia)).
  set (x := (a / 2 ^ 12) mod 256) in *. set (y := (a / 2 ^ 11) mod 2) in *. set (z := (a / 2) mod 1024) in *. set (t := (a / 2 ^ 20) mod 2) in *.
  clearbody x y z t.
  repeat apply lor_lt; rewrite ?Z.shiftl_mul_pow2 by lia; lia.
Qed.

(** A conditional branch without its offset: c | rs1 | rs2. *)
Definition dec_Br (c : Z) : option cond :=
  if cst c && (fld c 7 5 =? 0) && (fld c 15 17 =? 0) && (fld c 0 7 =? 0x63) then dec_branch (fld c 12 3) else None.
Lemma decode_br c o a b off : dec_Br c = Some o -> vreg a -> vreg b -> off mod 2 = 0 ->
  decode_piece (P32 (c .| RS1 a .| RS2 b .| brn_imm off)) = Some (IBranch o (reg_map a) (reg_map b) (sext 13 off)).
Proof.
  intros D Ha Hb Ho. unfold dec_Br in D.
  destruct (cst c && (fld c 7 5 =? 0) && (fld c 15 17 =? 0) && (fld c 0 7 =? 0x63)) eqn:E; [|discriminate].
  apply andb_prop in E as (E & E0). apply andb_prop in E as (E & E15). apply andb_prop in E as (C & E7).
  apply cst_lt in C. apply Z.eqb_eq in E0, E15, E7.
  assert (E1 : fld c 15 5 = 0) by (apply (fld_sub c 15 17); auto; lia).
  assert (E2 : fld c 20 5 = 0) by (apply (fld_sub c 15 17); auto; lia).
  assert (E3 : fld c 25 7 = 0) by (apply (fld_sub c 15 17); auto; lia).
  assert (E4 : fld c 0 2 = 3).
  { rewrite !fld_div in * by lia. rewrite Z.pow_0_r, Z.div_1_r in *. change (2 ^ 7) with 128 in *. change (2 ^ 2) with 4. lia. }
  unfold decode_piece. rewrite !fld_lor, (brn_fields off 0 2) by lia. flds. rewrite E4. change (3 =? 3) with true. cbv iota.
  rewrite u32_small by (apply lor_lt; [lia|wlt|apply brn_lt]).
  unfold decode32. rewrite (fld_lor _ (brn_imm off) 0 7), (fld_lor _ (brn_imm off) 12 3), (fld_lor _ (brn_imm off) 15 5), (fld_lor _ (brn_imm off) 20 5).
  rewrite (brn_fields off 0 7), (brn_fields off 12 3), (brn_fields off 15 5), (brn_fields off 20 5) by lia.
  rewrite !Z.lor_0_r.
  assert (F0 : fld (c .| RS1 a .| RS2 b) 0 7 = 0x63) by (flds; rewrite ?Z.lor_0_r; auto).
  assert (F3 : fld (c .| RS1 a .| RS2 b) 12 3 = fld c 12 3) by (flds; rewrite ?Z.lor_0_r; auto).
  assert (F1 : fld (c .| RS1 a .| RS2 b) 15 5 = reg_map a) by (flds; rewrite E1; rewrite ?Z.lor_0_r, ?Z.lor_0_l; auto).
  assert (F2 : fld (c .| RS1 a .| RS2 b) 20 5 = reg_map b) by (flds; rewrite E2; rewrite ?Z.lor_0_r, ?Z.lor_0_l; auto).
  rewrite F0, F3, F1, F2.
  assert (I : imm_b (c .| RS1 a .| RS2 b .| brn_imm off) = sext 13 off).
  { apply imm_b_brn; auto.
    - flds. rewrite E7. reflexivity.
    - flds. rewrite E3. reflexivity. }
  unfold decode_fields. change (99 =? 0x33) with false. change (99 =? 0x3b) with false. change (99 =? 0x13) with false.
  change (99 =? 0x1b) with false. change (99 =? 0x37) with false. change (99 =? 0x17) with false. change (99 =? 0x03) with false.
  change (99 =? 0x23) with false. change (99 =? 0x07) with false. change (99 =? 0x27) with false. change (99 =? 0x6f) with false.
  change (99 =? 0x67) with false. change (99 =? 0x63) with true. cbv iota.
  rewrite D, I. reflexivity.
Qed.

Lemma decode_jal d off : vreg d -> off mod 2 = 0 ->
  decode_piece (P32 (JAL .| RD d .| jal_imm off)) = Some (IJal (reg_map d) (sext 21 off)).
Proof.
  intros Hd Ho. assert (CJ : 0 <= JAL < 2 ^ 32) by (unfold JAL; lia).
  unfold decode_piece. rewrite !fld_lor, (jal_fields off 0 2) by lia. flds. change (fld JAL 0 2 .| 0 =? 3) with true. cbv iota.
  rewrite u32_small by (apply lor_lt; [lia|wlt|apply jal_lt]).
  unfold decode32. rewrite (fld_lor _ (jal_imm off) 0 7), (fld_lor _ (jal_imm off) 7 5).
  rewrite (jal_fields off 0 7), (jal_fields off 7 5) by lia. rewrite !Z.lor_0_r.
  assert (F0 : fld (JAL .| RD d) 0 7 = 0x6f) by (flds; reflexivity).
  assert (F1 : fld (JAL .| RD d) 7 5 = reg_map d) by (flds; change (fld JAL 7 5) with 0; apply Z.lor_0_l).
  rewrite F0, F1.
  assert (I : imm_j (JAL .| RD d .| jal_imm off) = sext 21 off).
  { apply imm_j_jal; auto. flds. reflexivity. }
  unfold decode_fields. change (111 =? 0x33) with false. change (111 =? 0x3b) with false. change (111 =? 0x13) with false.
  change (111 =? 0x1b) with false. change (111 =? 0x37) with false. change (111 =? 0x17) with false. change (111 =? 0x03) with false.
  change (111 =? 0x23) with false. change (111 =? 0x07) with false. change (111 =? 0x27) with false. change (111 =? 0x6f) with true.
  cbv iota. rewrite I. reflexivity.
Qed.

Lemma decode_jalr d a imm : vreg d -> vreg a ->
  decode_piece (P32 (JALR .| RD d .| RS1 a .| IMM_I imm)) = Some (IJalr (reg_map d) (reg_map a) (sext 12 imm)).
Proof.
  intros Hd Ha. assert (CJ : 0 <= JALR < 2 ^ 32) by (unfold JALR; lia).
  unfold decode_piece. flds. change (fld JALR 0 2 =? 3) with true. cbv iota. rewrite u32_small by wlt.
  assert (I : imm_i (JALR .| RD d .| RS1 a .| IMM_I imm) = sext 12 imm).
  { unfold imm_i. flds. change (fld JALR 20 12) with 0. rewrite ?Z.lor_0_l. apply sext_mod_id. lia. }
  unfold decode32. flds. unfold decode_fields.
  change (fld JALR 0 7) with 103. change (fld JALR 12 3) with 0. change (fld JALR 7 5) with 0. change (fld JALR 15 5) with 0. rewrite ?Z.lor_0_l.
  change (103 =? 0x33) with false. change (103 =? 0x3b) with false. change (103 =? 0x13) with false.
  change (103 =? 0x1b) with false. change (103 =? 0x37) with false. change (103 =? 0x17) with false. change (103 =? 0x03) with false.
  change (103 =? 0x23) with false. change (103 =? 0x07) with false. change (103 =? 0x27) with false. change (103 =? 0x6f) with false.
  change (103 =? 0x67) with true. change (0 =? 0) with true. cbv iota. rewrite I. reflexivity.
Qed.

Lemma decode_auipc d u : vreg d -> 0 <= u < 2 ^ 32 -> u mod 2 ^ 12 = 0 ->
  decode_piece (P32 (AUIPC .| RD d .| u)) = Some (IAuipc (reg_map d) (sext 32 u)).
Proof.
  intros Hd Hu Mu. unfold decode_piece.
  assert (U0 : fld u 0 2 = 0) by (apply fld_mult; lia). assert (U1 : fld u 0 7 = 0) by (apply fld_mult; lia).
  assert (U2 : fld u 7 5 = 0) by (apply fld_mult; lia).
  flds. rewrite U0. change (fld AUIPC 0 2 .| 0 =? 3) with true. cbv iota.
  rewrite u32_small. 2:{ apply lor_lt; [lia| |auto]. apply lor_lt; [lia|unfold AUIPC; lia|apply RD_lt; auto]. }
  assert (I : imm_u (AUIPC .| RD d .| u) = sext 32 u).
  { unfold imm_u. flds. change (fld AUIPC 12 20) with 0. rewrite ?Z.lor_0_l. rewrite fld_div by lia.
    rewrite Z.mod_small. 2:{ split. apply Z.div_pos; lia. apply Z.div_lt_upper_bound; lia. }
    symmetry. destruct (sext_mod 20 (u / 2 ^ 12) ltac:(lia)) as (k & K).
    pose proof (sext_range 20 (u / 2 ^ 12) ltac:(lia)). pose proof (Z.div_mod u (2 ^ 12)).
    apply sext_unique with k; lia. }
  unfold decode32. flds. rewrite U1, U2. change (fld AUIPC 0 7 .| 0) with 0x17. change (fld AUIPC 7 5) with 0. rewrite ?Z.lor_0_l, ?Z.lor_0_r.
  unfold decode_fields.
  change (23 =? 0x33) with false. change (23 =? 0x3b) with false. change (23 =? 0x13) with false.
  change (23 =? 0x1b) with false. change (23 =? 0x37) with false. change (23 =? 0x17) with true. cbv iota. rewrite I. reflexivity.
Qed.

Lemma C_BRN16_mod off : C_BRN16 off = C_BRN16 (off mod 512).
Proof.
  unfold C_BRN16.
  assert (L : forall m, 0 <= m < 512 -> off .& m = (off mod 512) .& m).
  { intros m Hm. change 512 with (2 ^ 9). rewrite <- Z.land_ones by lia. rewrite <- Z.land_assoc. f_equal.
    rewrite Z.land_comm, Z.land_ones by lia. symmetry. apply Z.mod_small. change (2 ^ 9) with 512. lia. }
  rewrite !L by lia. reflexivity.
Qed.
Lemma C_JMP16_mod off : C_JMP16 off = C_JMP16 (off mod 4096).
Proof.
  unfold C_JMP16.
  assert (L : forall m, 0 <= m < 4096 -> off .& m = (off mod 4096) .& m).
  { intros m Hm. change 4096 with (2 ^ 12). rewrite <- Z.land_ones by lia. rewrite <- Z.land_assoc. f_equal.
    rewrite Z.land_comm, Z.land_ones by lia. symmetry. apply Z.mod_small. change (2 ^ 12) with 4096. lia. }
  rewrite !L by lia. reflexivity.
Qed.
Lemma decode_c_brn (eq : bool) a off : vreg a -> C_IS_R3 a = true -> off mod 2 = 0 ->
  decode_piece (P16 ((if eq then C_BEQZ else C_BNEZ) .| C_RS1_R3 a .| C_BRN16 off)) =
  Some (IBranch (if eq then Beq else Bne) (reg_map a) 0 (sext 9 off)).
Proof.
  intros Ha R3 Ho. rewrite C_BRN16_mod. replace (sext 9 off) with (sext 9 (off mod 512)).
  2:{ apply (sext_mod_id 9). lia. }
  assert (B : forallb (fun a => forallb (fun i => forallb (fun eq : bool => negb (C_IS_R3 a) || negb (i mod 2 =? 0) ||
    dec_is ((if eq then C_BEQZ else C_BNEZ) .| C_RS1_R3 a .| C_BRN16 i) (IBranch (if eq then Beq else Bne) (reg_map a) 0 (sext 9 i)))
    [true; false]) (upto 512)) vregs = true) by (vm_compute; reflexivity).
  rewrite forallb_forall in B. specialize (B a (vregs_in a Ha)). rewrite forallb_forall in B.
  assert (I : In (off mod 512) (upto 512)). { apply upto_in. change (Z.of_nat 512) with 512. lia. }
  specialize (B (off mod 512) I). rewrite forallb_forall in B.
  specialize (B eq ltac:(destruct eq; cbn; auto)). rewrite R3 in B. replace ((off mod 512) mod 2 =? 0) with true in B by lia.
  cbn [negb orb] in B. apply dec_is_ok in B. exact B.
Qed.
Lemma decode_c_j off : off mod 2 = 0 -> decode_piece (P16 (C_J .| C_JMP16 off)) = Some (IJal 0 (sext 12 off)).
Proof.
  intros Ho. rewrite C_JMP16_mod. replace (sext 12 off) with (sext 12 (off mod 4096)).
  2:{ apply (sext_mod_id 12). lia. }
  assert (B : forallb (fun i => negb (i mod 2 =? 0) || dec_is (C_J .| C_JMP16 i) (IJal 0 (sext 12 i))) (upto (2 ^ 12)) = true) by (vm_compute; reflexivity).
  rewrite forallb_forall in B. specialize (B (off mod 4096)).
  assert (I : In (off mod 4096) (upto (2 ^ 12))). { apply upto_in. change (Z.of_nat (2 ^ 12)) with 4096. lia. }
  specialize (B I). replace ((off mod 4096) mod 2 =? 0) with true in B by lia. cbn [negb orb] in B. apply dec_is_ok in B. exact B.
Qed.
Lemma decode_c_jr (call : bool) a : vreg a -> a <> 0 ->
  decode_piece (P16 ((if call then C_JALR else C_JR) .| C_RD a)) = Some (IJalr (if call then 1 else 0) (reg_map a) 0).
Proof.
  intros Ha Na.
  assert (B : forallb (fun a => forallb (fun call : bool => (a =? 0) || dec_is ((if call then C_JALR else C_JR) .| C_RD a) (IJalr (if call then 1 else 0) (reg_map a) 0))
    [true; false]) vregs = true) by (vm_compute; reflexivity).
  rewrite forallb_forall in B. specialize (B a (vregs_in a Ha)). rewrite forallb_forall in B.
  specialize (B call ltac:(destruct call; cbn; auto)). replace (a =? 0) with false in B by lia. cbn [orb] in B. apply dec_is_ok in B. exact B.
Qed.

(** ** Machine steps *)
Lemma steps_trans code s1 s2 s3 : steps code s1 s2 -> steps code s2 s3 -> steps code s1 s3.
Proof. induction 1; auto. intros. econstructor; eauto. Qed.
Lemma steps_one code s s' : step code s = Some s' -> steps code s s'.
Proof. intros. econstructor; [eauto|constructor]. Qed.
Lemma step_piece code p i s s' : decode_piece p = Some i -> isw (pc s) -> code_at code (pc s) (units p) ->
  exec i (2 * Z.of_nat (length (units p))) s = Some s' -> step code s = Some s'.
Proof. intros D W C X. unfold step. rewrite (fetch_piece code (pc s) p i D W C). exact X. Qed.
