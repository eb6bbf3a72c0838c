(** ARM64: the operators with one operand and memory; double shifts. *)
Require Import ZArith List Bool Lia Zify ZifyBool.
From Verif Require Import Rv.RvLib Rv.RvBits Imm.ImmLib Imm.MsProofs Imm.PpProofs Arm.ArmIsa Arm.ArmBr Arm.ArmEnc Arm.ArmBits Arm.ArmImm Arm.ArmImmProofs Arm.ArmLogImm Arm.ArmLoadImm
  Arm.ArmJump Arm.ArmJumpSpec Arm.ArmJumpProofs Arm.ArmCondProofs Arm.ArmOp Arm.ArmOpSpec Arm.ArmOpDec Arm.ArmOpProofs Arm.ArmOpImm Arm.ArmOp1 Arm.ArmMem Arm.ArmMemSpec Arm.ArmMemProofs Arm.ArmMemOps Arm.ArmMemOp2.
Import ListNotations.
Open Scope Z_scope.
Ltac Zify.zify_post_hook ::= idtac.

(** ** Moves *)
Definition mov_bits (op : op1) : Z := 8 * 2 ^ fst (mov_size op).
Definition mov_y (op : op1) (x : Z) : Z := if snd (mov_size op) then sext (mov_bits op) x else x mod 2 ^ mov_bits op.
Lemma mov_result op w32 x y : is_mov op = true -> y mod 2 ^ 64 = mov_y op x mod 2 ^ 64 -> result1 op w32 x y.
Proof.
  intros M E. destruct op; try discriminate M; cbn [result1]; unfold mov_y, mov_bits in E; cbn [mov_size fst snd] in E;
    try change (8 * 2 ^ 3) with 64 in E; try change (8 * 2 ^ 2) with 32 in E; try change (8 * 2 ^ 1) with 16 in E; try change (8 * 2 ^ 0) with 8 in E; try (apply len64; exact E); try exact E.
  - rewrite E. apply Z.mod_mod. lia.
  - apply (len64 true) in E. cbn [len] in E. rewrite E. apply sext_low_mod. lia.
  - rewrite E. apply Z.mod_mod. lia.
Qed.
Lemma mov_y_mod op x : mov_y op x mod 2 ^ mov_bits op = x mod 2 ^ mov_bits op.
Proof.
  assert (1 <= mov_bits op) by (destruct op; cbn; lia). unfold mov_y. destruct (snd (mov_size op)); [apply sext_low_mod; assumption|]. apply Z.mod_mod. pose proof (pow_pos (mov_bits op)). lia.
Qed.
Lemma mov_bits_b op : 8 <= mov_bits op <= 64 /\ 8 * (mov_bits op / 8) = mov_bits op /\ 2 ^ fst (mov_size op) = mov_bits op / 8.
Proof. destruct op; cbn; lia. Qed.
Lemma mov_bytes op w32 : is_mov op = true -> bytes1 op w32 = 2 ^ fst (mov_size op).
Proof. intros M. destruct op; try discriminate M; reflexivity. Qed.
Lemma mov_size_b op : 0 <= fst (mov_size op) <= 3 /\ (snd (mov_size op) = true -> fst (mov_size op) <= 2).
Proof. destruct op; cbn; split; try lia; intros E; try discriminate E; lia. Qed.
Lemma conv_y op i : is_mov op = true -> wrap (conv1 op i) mod 2 ^ 64 = mov_y op i mod 2 ^ 64.
Proof. intros M. unfold wrap. rewrite Z.mod_mod by lia. destruct op; try discriminate M; try reflexivity; unfold mov_y, mov_bits; cbn [mov_size fst snd conv1]; change (8 * 2 ^ 3) with 64; rewrite Z.mod_mod by lia; reflexivity. Qed.
Lemma conv_sword op i : - 2 ^ 63 <= i < 2 ^ 63 -> sword (conv1 op i).
Proof.
  intros HI. unfold sword. pose proof (sext_range 8 i ltac:(lia)). pose proof (sext_range 16 i ltac:(lia)). pose proof (sext_range 32 i ltac:(lia)). pose proof (mod_b i 8 ltac:(lia)). pose proof (mod_b i 16 ltac:(lia)). pose proof (mod_b i 32 ltac:(lia)). destruct op; cbn [conv1]; lia.
Qed.

Definition legal_dest1 (d : opd) : Prop := match d with DReg r => 1 <= r <= 26 | DImm _ => False | DMem m => legal_place m end.
Definition legal_src1 (op : op1) (a : opd) : Prop := match a with DImm i => - 2 ^ 63 <= i < 2 ^ 63 /\ is_mov op = true | _ => legal_src a end.

(** The last part of a move: the value [y] is in [r] (low bytes), which is stored. *)
Lemma store_ok sh sg r m y s : 0 <= sh <= 3 -> (sg = true -> sh <= 2) -> (1 <= r <= 26 \/ r = TMP_REG1) -> legal_place m -> (forall i, 0 <= i < 2 ^ sh -> byte (xr s (reg_map r)) i = byte y i) ->
  exists ws s', emit_op_mem sh sg true r (adjust m) TMP_REG2 = Some ws /\ run ws s = Some s' /\ stored (mm s) (mm s') (place s m) (2 ^ sh) y /\ same27 s s' /\ same_flags s s'.
Proof.
  intros SH SG R L Y. destruct (adjust_ok m L) as (L' & P).
  destruct (emit_op_mem_ok sh sg true r TMP_REG2 SH SG ltac:(destruct R as [R | ->]; [left; exact R|right; left; reflexivity]) ltac:(right; reflexivity) ltac:(intros _; unfold TMP_REG1, TMP_REG2 in *; lia) (adjust m) s L') as (ws & s' & W & Ru & F & K & ST).
  exists ws, s'. split; [exact W|]. split; [exact Ru|]. rewrite P in ST. split; [apply (stored_cong _ _ (place s m) _ _ _ _ eq_refl Y ST)|]. split; [|exact F].
  intros k KB. apply K; [apply (reg27 k KB)|intros E; discriminate E].
Qed.
Lemma mov_ok op w32 d a s : is_mov op = true -> legal_dest1 d -> legal_src1 op a -> byte_mem (mm s) -> exists ws s', emit_op1 op w32 d a = Some ws /\ run ws s = Some s' /\ did_op1m op w32 d a s s'.
Proof.
  intros M LD LA B. unfold emit_op1. rewrite M. destruct (mov_size op) as (sh & sg) eqn:MS.
  pose proof (mov_size_b op) as (SH & SG). pose proof (mov_bits_b op) as (MB & M8 & MP). pose proof (mov_bytes op w32 M) as BY. pose proof (mov_y_mod op) as MY.
  assert (BITS : mov_bits op = 8 * 2 ^ sh) by (unfold mov_bits; rewrite MS; reflexivity). assert (YE : forall x, mov_y op x = if sg then sext (8 * 2 ^ sh) x else x mod 2 ^ (8 * 2 ^ sh)) by (intros x; unfold mov_y; rewrite BITS, MS; reflexivity).
  rewrite MS in SH, SG, MP, BY. cbn [fst snd] in *.
  (* the source is in a register at the end of the first part *)
  assert (SRC : forall rd, (1 <= rd <= 26 \/ rd = TMP_REG1) -> forall a', (exists i, a' = DImm i) \/ (exists m, a' = DMem m) -> legal_src1 op a' ->
    exists ws s1, match a' with DImm i => load_immediate rd (conv1 op i) | DMem m => emit_op_mem sh sg false rd (adjust m) TMP_REG2 | DReg _ => Some [] end = Some ws /\ run ws s = Some s1 /\
      xr s1 (reg_map rd) mod 2 ^ 64 = mov_y op (val1m op w32 s a') mod 2 ^ 64 /\ mm s1 = mm s /\ same_flags s s1 /\ forall k, 1 <= k <= 27 -> k <> rd -> xr s1 (reg_map k) = xr s (reg_map k)).
  { intros rd RD a' [(i & ->) | (m & ->)] LA'.
    - destruct LA' as (HI & _). destruct (load_immediate_ok rd (conv1 op i) s ltac:(unfold TMP_REG1 in RD; lia) (conv_sword op i HI)) as (ws & s1 & E & R & O). destruct O as (V & K & N1 & N2 & N3 & N4 & MM).
      exists ws, s1. split; [exact E|]. split; [exact R|]. split; [rewrite V; cbn [val1m]; apply conv_y; exact M|]. split; [exact MM|]. split; [unfold same_flags; auto|].
      intros k KB KN. apply K. destruct RD as [RD | ->]; [apply reg_inj; lia|apply (reg27 k KB)].
    - cbn [legal_src1 legal_src] in LA'. destruct (adjust_ok m LA') as (L' & P).
      destruct (emit_op_mem_ok sh sg false rd TMP_REG2 SH SG ltac:(destruct RD as [RD | ->]; [left; exact RD|right; left; reflexivity]) ltac:(right; reflexivity) ltac:(intros E; discriminate E) (adjust m) s L') as (ws & s1 & E & R & F & K & MM & V).
      exists ws, s1. split; [exact E|]. split; [exact R|]. split; [|split; [exact MM|split; [exact F|]]].
      + rewrite V. cbv zeta. rewrite P. cbn [val1m]. rewrite BY, YE. destruct sg; [apply Z.mod_mod; lia|].
        pose proof (value_b (mm s) (place s m) (Z.to_nat (2 ^ sh)) B) as VB. rewrite Z2Nat.id in VB by (apply Z.lt_le_incl, pow_pos; lia). rewrite (Z.mod_small _ _ VB). reflexivity.
      + intros k KB KN. apply K; [apply (reg27 k KB)|]. intros _. destruct RD as [RD | ->]; [apply reg_inj; lia|apply (reg27 k KB)]. }
  assert (LOW : forall z x, z mod 2 ^ 64 = mov_y op x mod 2 ^ 64 -> forall i, 0 <= i < 2 ^ sh -> byte z i = byte (mov_y op x) i).
  { intros z x E i I. apply (byte_eq (mov_bits op)); [rewrite <- MP; exact I|exact M8|]. rewrite <- (mod_mod_low (mov_bits op) 64 z), <- (mod_mod_low (mov_bits op) 64 (mov_y op x)) by lia. rewrite E. reflexivity. }
  assert (REGD : forall rd, 1 <= rd <= 26 -> d = DReg rd -> (exists i, a = DImm i) \/ (exists m, a = DMem m) -> exists ws s',
      both match a with DImm i => load_immediate rd (conv1 op i) | DMem m => emit_op_mem sh sg false rd (adjust m) TMP_REG2 | DReg _ => Some [] end (Some []) = Some ws /\ run ws s = Some s' /\ did_op1m op w32 d a s s').
  { intros rd RD -> HA. destruct (SRC rd (or_introl RD) a HA LA) as (ws & s1 & E & R & V & MM & F & K). destruct (both_run _ (Some []) ws [] s s1 s1 E eq_refl R eq_refl) as (wa & Wa & Ra).
    exists wa, s1. split; [exact Wa|]. split; [exact Ra|]. split; [split; [apply mov_result; [exact M|exact V]|exact MM]|]. split; [|exact F]. intros k N KB. apply K; [exact KB|congruence]. }
  assert (MEMD : forall m, legal_place m -> d = DMem m -> (exists i, a = DImm i) \/ (exists m, a = DMem m) -> exists ws s',
      both match a with DImm i => load_immediate TMP_REG1 (conv1 op i) | DMem m => emit_op_mem sh sg false TMP_REG1 (adjust m) TMP_REG2 | DReg _ => Some [] end (emit_op_mem sh sg true TMP_REG1 (adjust m) TMP_REG2) = Some ws /\ run ws s = Some s' /\ did_op1m op w32 d a s s').
  { intros m LM -> HA. destruct (SRC TMP_REG1 (or_intror eq_refl) a HA LA) as (ws & s1 & E & R & V & MM & F & K).
    assert (S1 : same27 s s1) by (intros k KB; apply K; [exact KB|unfold TMP_REG1; lia]).
    destruct (store_ok sh sg TMP_REG1 m (mov_y op (val1m op w32 s a)) s1 SH SG (or_intror eq_refl) LM (LOW _ _ V)) as (ws2 & s2 & E2 & R2 & ST & S2 & F2).
    destruct (both_run _ _ ws ws2 s s1 s2 E E2 R R2) as (wa & Wa & Ra). exists wa, s2. split; [exact Wa|]. split; [exact Ra|]. unfold did_op1m. split; [|split].
    - exists (mov_y op (val1m op w32 s a)). split; [apply mov_result; [exact M|reflexivity]|]. rewrite BY. rewrite MM, (place_same s s1 m LM S1) in ST. exact ST.
    - intros k _ KB. rewrite S2, S1 by exact KB. reflexivity.
    - apply (flags_trans s s1 s2 F F2). }
  destruct d as [rd|i|m]; [|destruct LD|]; cbn [legal_dest1 dst_reg] in *.
  - destruct a as [rs|i|ms].
    + destruct (reg1_ok op w32 rd rs s LD LA) as (s' & R & W). replace (op1_w32 op w32) with w32 in R by (destruct op; try discriminate M; reflexivity).
      exists (reg1_form op w32 rd rs), s'. split; [reflexivity|]. split; [exact R|]. destruct W as (V & K & N1 & N2 & N3 & N4 & MM). split; [split; [exact V|exact MM]|]. split; [|unfold same_flags; auto].
      intros k N KB. apply K. apply reg_inj; [lia|lia|congruence].
    + apply (REGD rd LD eq_refl). eauto.
    + apply (REGD rd LD eq_refl). eauto.
  - destruct a as [rs|i|ms].
    + cbn [legal_src1 legal_src] in LA. destruct (store_ok sh sg rs m (mov_y op (xr s (reg_map rs))) s SH SG (or_introl LA) LD) as (ws2 & s2 & E2 & R2 & ST & S2 & F2).
      { intros i I. apply (byte_eq (mov_bits op)); [rewrite <- MP; exact I|exact M8|]. symmetry. apply MY. }
      exists ws2, s2. split; [exact E2|]. split; [exact R2|]. split; [|split; [intros k _ KB; apply S2; exact KB|exact F2]].
      exists (mov_y op (xr s (reg_map rs))). split; [apply mov_result; [exact M|reflexivity]|]. rewrite BY. exact ST.
    + apply (MEMD m LD eq_refl). eauto.
    + apply (MEMD m LD eq_refl). eauto.
Qed.

(** ** Other operations *)
Lemma size1_b op w32 : 0 <= size1 op w32 <= 3.
Proof. destruct op, w32; cbn; lia. Qed.
Lemma size1_bytes op w32 : is_mov op = false -> 2 ^ size1 op w32 = bytes1 op w32.
Proof. intros M. destruct op; try discriminate M; destruct w32; reflexivity. Qed.
Lemma rev16_word dst src s : reg_map src <> 31 -> run [Z.lxor REV16 0x80000000 .| RD dst .| RN src] s = Some (wX s (reg_map dst) (rgroups 2 2 (lo 32 (xr s (reg_map src))))).
Proof. intros S31. eapply run1; [apply dec_rev16|]. cbn [exec Z.eqb Pos.eqb dsz]. rewrite rX_xr by exact S31. reflexivity. Qed.
Lemma rev16_low x : rgroups 2 2 (lo 32 x) mod 2 ^ 16 = swapped 2 x.
Proof. change 2 with (Z.of_nat 2) at 1. rewrite (rgroups_low 1 2). apply (swapped_low 2 32). lia. Qed.
Lemma rev16_small x : 0 <= x < 2 ^ 16 -> rgroups 2 2 (lo 32 x) = swapped 2 x.
Proof.
  intros X. unfold lo. rewrite (Z.mod_small x) by lia. change (rgroups 2 2 x) with (Z.lor (rbytes 2 (Z.land x (Z.ones 16))) (Z.shiftl (rgroups 1 (Z.of_nat 2) (Z.shiftr x 16)) 16)).
  rewrite rgroups_1, Z.shiftr_div_pow2 by lia. rewrite (Z.div_small x) by lia. change (swapped 2 0) with 0. rewrite Z.shiftl_0_l, Z.lor_0_r, rbytes_swapped, Z.land_ones by lia. rewrite Z.mod_small by lia. reflexivity.
Qed.
Lemma rev32_word dst src s : reg_map src <> 31 -> run [Z.lxor REV 0x80000400 .| RD dst .| RN src] s = Some (wX s (reg_map dst) (swapped 4 (xr s (reg_map src)))).
Proof.
  intros S31. eapply run1; [apply dec_rev32|]. cbn [exec Z.eqb Pos.eqb dsz]. rewrite rX_xr by exact S31. change (Z.to_nat (32 / 32)) with 1%nat. change 4 with (Z.of_nat 4) at 1. rewrite rgroups_1. do 2 f_equal. apply (swapped_low 4 32). lia.
Qed.
Lemma reg1_mem op w32 dst src s : is_mov op = false -> (1 <= dst <= 26 \/ dst = TMP_REG1) -> (1 <= src <= 26 \/ (src = TMP_REG2 /\ 0 <= xr s 10 < 2 ^ (8 * bytes1 op w32))) ->
  exists s' y, run (reg1_form op (op1_w32 op w32) dst src) s = Some s' /\ same_but (fun k => k = reg_map dst) s s' /\ result1 op w32 (xr s (reg_map src)) y /\
    (forall i, 0 <= i < bytes1 op w32 -> byte (xr s' (reg_map dst)) i = byte y i) /\ (dst <> TMP_REG1 -> xr s' (reg_map dst) = y).
Proof.
  intros M HD HS.
  assert (D31 : reg_map dst <> 31) by (destruct HD as [HD | ->]; [apply (reg_ok dst HD)|discriminate]). assert (S31 : reg_map src <> 31) by (destruct HS as [HS | (-> & _)]; [apply (reg_ok src HS)|discriminate]).
  assert (GEN : whole op dst src -> exists s' y, run (reg1_form op (op1_w32 op w32) dst src) s = Some s' /\ same_but (fun k => k = reg_map dst) s s' /\ result1 op w32 (xr s (reg_map src)) y /\
    (forall i, 0 <= i < bytes1 op w32 -> byte (xr s' (reg_map dst)) i = byte y i) /\ (dst <> TMP_REG1 -> xr s' (reg_map dst) = y)).
  { intros W. destruct (reg1_gen op w32 dst src s D31 S31 W) as (s' & R & V & K). exists s', (xr s' (reg_map dst)). split; [exact R|]. split; [exact K|]. split; [exact V|]. split; reflexivity. }
  assert (B16 : forall z y i, z mod 2 ^ 16 = y mod 2 ^ 16 -> 0 <= i < 2 -> byte z i = byte y i) by (intros z y i E I; apply (byte_eq 16); [change (16 / 8) with 2; exact I|reflexivity|exact E]).
  assert (SB := swapped_b 2 (xr s (reg_map src))). change (8 * Z.of_nat 2) with 16 in SB.
  destruct op; try discriminate M; try (apply GEN; exact I).
  - (* REV_U16 *) destruct ((dst =? TMP_REG1) || (src =? TMP_REG2)) eqn:C; [|apply GEN; cbn [whole]; apply orb_false_iff in C; exact C].
    cbn [reg1_form op1_w32 bytes1 result1]. rewrite andb_true_r, C. eexists _, (swapped 2 (xr s (reg_map src))). split; [apply rev16_word; exact S31|]. split; [apply same_wX|]. split; [reflexivity|]. rewrite xr_wX_eq by exact D31. split.
    + intros i I0. apply B16; [|exact I0]. rewrite rev16_low. symmetry. apply Z.mod_small. exact SB.
    + intros N. replace (dst =? TMP_REG1) with false in C by lia. cbn [orb] in C. destruct HS as [HS | (-> & X)]; [unfold TMP_REG2 in C; lia|]. apply rev16_small. exact X.
  - (* REV_S16 *) destruct (dst =? TMP_REG1) eqn:C; [|apply GEN; cbn [whole]; exact C].
    cbn [reg1_form op1_w32 bytes1 result1]. rewrite C. cbn [orb]. eexists _, (sext 16 (swapped 2 (xr s (reg_map src)))). split; [apply rev16_word; exact S31|]. split; [apply same_wX|]. split; [reflexivity|]. rewrite xr_wX_eq by exact D31. split; [|lia].
    intros i I0. apply B16; [|exact I0]. rewrite rev16_low, sext_low_mod by lia. symmetry. apply Z.mod_small. exact SB.
  - (* REV_S32 *) destruct (dst =? TMP_REG1) eqn:C; [|apply GEN; cbn [whole]; exact C].
    cbn [reg1_form op1_w32 bytes1 result1]. rewrite C. eexists _, (sext 32 (swapped 4 (xr s (reg_map src)))). split; [apply rev32_word; exact S31|]. split; [apply same_wX|]. split; [reflexivity|]. rewrite xr_wX_eq by exact D31. split; [|lia].
    intros i I0. apply (byte_eq 32); [exact I0|reflexivity|]. rewrite sext_low_mod by lia. reflexivity.
Qed.
Lemma other_ok op w32 d a s : is_mov op = false -> legal_dest1 d -> legal_src1 op a -> byte_mem (mm s) -> exists ws s', emit_op1 op w32 d a = Some ws /\ run ws s = Some s' /\ did_op1m op w32 d a s s'.
Proof.
  intros M LD LA B. unfold emit_op1. rewrite M. pose proof (size1_b op w32) as SH. pose proof (size1_bytes op w32 M) as SZ.
  (* the source *)
  assert (SRC : exists l src ws s1, load_opd (size1 op w32) TMP_REG2 a = (l, AReg src) /\ l = Some ws /\ run ws s = Some s1 /\ (1 <= src <= 26 \/ (src = TMP_REG2 /\ 0 <= xr s1 10 < 2 ^ (8 * bytes1 op w32))) /\
    xr s1 (reg_map src) = val1m op w32 s a /\ mm s1 = mm s /\ same_flags s s1 /\ same27 s s1).
  { destruct a as [r|i|m]; cbn [load_opd legal_src1 legal_src] in *.
    - exists (Some []), r, [], s. split; [reflexivity|]. split; [reflexivity|]. split; [reflexivity|]. split; [left; exact LA|]. split; [reflexivity|]. split; [reflexivity|]. split; [apply flags_refl|apply same27_refl].
    - destruct LA as (_ & E). rewrite E in M. discriminate M.
    - destruct (adjust_ok m LA) as (L' & P).
      destruct (emit_op_mem_ok (size1 op w32) false false TMP_REG2 TMP_REG2 SH ltac:(intros E; discriminate E) ltac:(right; right; left; reflexivity) ltac:(right; reflexivity) ltac:(intros E; discriminate E) (adjust m) s L') as (ws & s1 & E & R & F & K & MM & V).
      cbv zeta in V. cbv iota in V. rewrite P, SZ in V. change (reg_map TMP_REG2) with 10 in *.
      exists (emit_op_mem (size1 op w32) false false TMP_REG2 (adjust m) TMP_REG2), TMP_REG2, ws, s1. split; [reflexivity|]. split; [exact E|]. split; [exact R|].
      split; [right; split; [reflexivity|]; rewrite V; pose proof (value_b (mm s) (place s m) (Z.to_nat (bytes1 op w32)) B) as VB; rewrite Z2Nat.id in VB by (destruct op, w32; cbn; lia); exact VB|].
      split; [exact V|]. split; [exact MM|]. split; [exact F|]. intros k KB. apply K; [apply (reg27 k KB)|intros _; apply (reg27 k KB)]. }
  destruct SRC as (l & src & ws & s1 & EL & W & R & HS & V & MM & F & S1). rewrite EL.
  assert (HD : 1 <= dst_reg d <= 26 \/ dst_reg d = TMP_REG1) by (destruct d as [rd|i|m]; [left; exact LD|destruct LD|right; reflexivity]).
  destruct (reg1_mem op w32 (dst_reg d) src s1 M HD HS) as (s2 & y & R2 & (K2 & N1 & N2 & N3 & N4 & MM2) & V2 & B2 & Y2). rewrite V in V2. assert (F2 : same_flags s1 s2) by (unfold same_flags; auto).
  destruct d as [rd|i|m]; [|destruct LD|]; cbn [legal_dest1 dst_reg store_opd] in *.
  - destruct (both_run (Some (reg1_form op (op1_w32 op w32) rd src)) (Some []) _ [] s1 s2 s2 eq_refl eq_refl R2 eq_refl) as (wa & Wa & Ra). destruct (both_run l _ ws wa s s1 s2 W Wa R Ra) as (wb & Wb & Rb).
    exists wb, s2. split; [exact Wb|]. split; [exact Rb|]. split; [split; [rewrite Y2 by (unfold TMP_REG1; lia); exact V2|congruence]|]. split; [|apply (flags_trans s s1 s2 F F2)].
    intros k N KB. rewrite K2; [apply S1; exact KB|]. apply reg_inj; [lia|lia|congruence].
  - assert (S2 : same27 s1 s2) by (intros k KB; apply K2; apply (reg27 k KB)).
    destruct (store_ok (size1 op w32) false TMP_REG1 m y s2 SH ltac:(intros E; discriminate E) (or_intror eq_refl) LD ltac:(rewrite SZ; exact B2)) as (ws3 & s3 & E3 & R3 & ST & S3 & F3).
    destruct (both_run (Some (reg1_form op (op1_w32 op w32) TMP_REG1 src)) _ _ ws3 s1 s2 s3 eq_refl E3 R2 R3) as (wa & Wa & Ra). destruct (both_run l _ ws wa s s1 s3 W Wa R Ra) as (wb & Wb & Rb).
    exists wb, s3. split; [exact Wb|]. split; [exact Rb|]. pose proof (same27_trans _ _ _ S1 S2) as S12. split; [|split].
    + exists y. split; [exact V2|]. rewrite SZ, MM2, MM, (place_same s s2 m LD S12) in ST. exact ST.
    + intros k _ KB. rewrite S3, S12 by exact KB. reflexivity.
    + apply (flags_trans s s2 s3 (flags_trans s s1 s2 F F2) F3).
Qed.
Theorem emit_op1_ok op w32 d a s : legal_dest1 d -> legal_src1 op a -> byte_mem (mm s) -> exists ws s', emit_op1 op w32 d a = Some ws /\ run ws s = Some s' /\ did_op1m op w32 d a s s'.
Proof. intros LD LA B. destruct (is_mov op) eqn:M; [apply mov_ok; assumption|apply other_ok; assumption]. Qed.
