(** ARM64: conditions as values and the choice between two values. *)
Require Import ZArith List Bool Lia Zify ZifyBool.
From Verif Require Import Rv.RvLib Rv.RvBits Imm.ImmLib Imm.MsProofs Imm.PpProofs Arm.ArmIsa Arm.ArmBr Arm.ArmEnc Arm.ArmBits Arm.ArmImm Arm.ArmImmProofs Arm.ArmLogImm Arm.ArmLoadImm
  Arm.ArmJump Arm.ArmJumpSpec Arm.ArmJumpProofs Arm.ArmCondProofs Arm.ArmOp Arm.ArmOpSpec Arm.ArmOpDec Arm.ArmOpProofs Arm.ArmOpImm Arm.ArmOp1 Arm.ArmMem Arm.ArmMemSpec Arm.ArmMemProofs Arm.ArmMemOps Arm.ArmMemOp2
  Arm.ArmCsel Arm.ArmCselSpec.
Import ListNotations.
Open Scope Z_scope.
Ltac Zify.zify_post_hook ::= idtac.

Lemma dec_csinc cc d : 0 <= cc < 16 -> decode (csinc_word cc d) = Some (ICsel true 0 1 31 cc 31 (reg_map d)).
Proof. intros H. unfold csinc_word. change 31 with (reg_map TMP_ZERO). words. dec. Qed.
Lemma dec_csel w32 cc d a b : 0 <= cc < 16 -> decode (Z.lxor CSEL (inv_bits w32) .| Z.shiftl cc 12 .| RD d .| RN a .| RM b) = Some (ICsel (negb w32) 0 0 (reg_map b) cc (reg_map a) (reg_map d)).
Proof. intros H. words. destruct w32; dec. Qed.

Lemma csinc_run f ty d s : run [csinc_word (get_cc f ty) d] s = Some (wX s (reg_map d) (Z.b2z (flag_holds f ty s))).
Proof.
  pose proof (get_cc_range f ty) as R. apply (run1 _ _ _ _ (dec_csinc (get_cc f ty) d ltac:(lia))). cbn [exec]. cbv zeta. rewrite get_cc_ok. destruct (flag_holds f ty s); reflexivity.
Qed.
Lemma csel_run f ty w32 d a b s : run [Z.lxor CSEL (inv_bits w32) .| Z.shiftl (get_cc f ty) 12 .| RD d .| RN a .| RM b] s =
  Some (wX s (reg_map d) (rX s (if flag_holds f ty s then reg_map b else reg_map a) mod 2 ^ len w32)).
Proof.
  pose proof (get_cc_range f ty) as R. apply (run1 _ _ _ _ (dec_csel w32 (get_cc f ty) d a b ltac:(lia))). cbn [exec]. cbv zeta. rewrite get_cc_ok. unfold lo.
  replace (dsz (negb w32)) with (len w32) by (destruct w32; reflexivity). destruct (flag_holds f ty s); [|reflexivity]. cbn [negb]. change (0 =? 1) with false. cbv iota. rewrite Z.add_0_r, Z.mod_mod by (destruct w32; discriminate). reflexivity.
Qed.

Theorem mov_flags_ok f ty w32 d s : legal_fdest d -> exists ws s', emit_mov_flags f ty w32 d = Some ws /\ run ws s = Some s' /\ did_mov_flags (len w32) d (flag_holds f ty s) s s'.
Proof.
  intros L. unfold emit_mov_flags, did_mov_flags. set (v := flag_holds f ty s). destruct d as [r|i|m]; cbn [legal_fdest dst_reg] in *; [|destruct L|].
  - destruct (reg_ok r L) as (N & _). destruct (both_run (Some [csinc_word (get_cc f ty) r]) (Some []) _ [] s _ _ eq_refl eq_refl (csinc_run f ty r s) eq_refl) as (ws & W & R).
    exists ws, (wX s (reg_map r) (Z.b2z v)). split; [exact W|]. split; [exact R|]. split; [split; [apply xr_wX_eq; exact N|apply mm_wX]|]. split; [apply flags_wX|]. intros k NK K. apply xr_wX_ne. apply reg_inj; [lia|lia|congruence].
  - destruct (adjust_ok m L) as (L' & P). set (s1 := wX s (reg_map TMP_REG1) (Z.b2z v)).
    destruct (emit_op_mem_ok (size2 w32) false true TMP_REG1 TMP_REG2 (size2_b w32) ltac:(intros E; discriminate E) ltac:(right; left; reflexivity) ltac:(right; reflexivity) ltac:(intros _; discriminate) (adjust m) s1 L') as (ws4 & s4 & W4 & R4 & F4 & K4 & ST4).
    destruct (both_run (Some [csinc_word (get_cc f ty) TMP_REG1]) _ _ ws4 s s1 s4 eq_refl W4 (csinc_run f ty TMP_REG1 s) R4) as (ws & W & R).
    assert (S1 : same27 s s1) by (intros k K; apply xr_wX_ne; apply (reg27 k K)).
    exists ws, s4. split; [exact W|]. split; [exact R|]. split; [|split].
    + rewrite P, (place_same s s1 m L S1), (proj2 (size_len w32)) in ST4. subst s1. rewrite mm_wX, xr_wX_eq in ST4 by discriminate. exact ST4.
    + apply (flags_trans s s1 s4); [apply flags_wX|exact F4].
    + intros k _ K. rewrite K4; [apply S1; exact K|apply (reg27 k K)|intros E; discriminate E].
Qed.

Theorem op_flags_ok f ty op w32 setf d s : flag_op op -> legal_fdest d -> byte_mem (mm s) ->
  exists ws s', emit_op_flags f ty op w32 setf d = Some ws /\ run ws s = Some s' /\ did_op2m op w32 setf true d (vald (len w32) s d) (Z.b2z (flag_holds f ty s)) s s'.
Proof.
  intros O LD B. unfold emit_op_flags. assert (HF : setf = true -> has_flags op = true) by (intros _; destruct O as [-> | [-> | ->]]; reflexivity).
  assert (NM : op <> OMuladd) by (destruct O as [-> | [-> | ->]]; discriminate).
  assert (L1 : legal_src d) by (destruct d; [exact LD|destruct LD|exact LD]). set (v := Z.b2z (flag_holds f ty s)).
  assert (Hv : v mod 2 ^ len w32 = v) by (subst v; destruct (flag_holds f ty s), w32; reflexivity).
  destruct (load_opd (size2 w32) TMP_REG1 d) as (l1 & x1) eqn:E1.
  assert (X1 := load_opd_ok w32 TMP_REG1 d s (or_introl eq_refl) L1 B). rewrite E1 in X1. cbn [fst snd] in X1. destruct X1 as (ws1 & s1 & W1 & R1 & LA1 & V1 & F1 & M1 & K1).
  pose proof (csinc_run f ty TMP_REG2 s1) as R2. rewrite (flag_same f ty s s1 F1) in R2. fold v in R2. set (s2 := wX s1 (reg_map TMP_REG2) v) in *.
  assert (K2 : forall k, k <> reg_map TMP_REG2 -> xr s2 k = xr s1 k) by (intros k K; apply xr_wX_ne; exact K).
  assert (F2 : same_flags s1 s2) by apply flags_wX. assert (M2 : mm s2 = mm s1) by apply mm_wX.
  assert (V2' : val (len w32) s2 (AReg TMP_REG2) = v) by (cbn [val]; subst s2; rewrite xr_wX_eq by discriminate; exact Hv). clearbody s2.
  assert (S1 : same27 s s1) by (intros k K; apply K1; apply (reg27 k K)). assert (S2 : same27 s1 s2) by (intros k K; apply K2; apply (reg27 k K)). pose proof (same27_trans _ _ _ S1 S2) as S12. pose proof (flags_trans _ _ _ F1 F2) as F12.
  assert (LD' : legal_dst op (dst_reg d)).
  { destruct d as [r|i|m]; cbn [legal_fdest dst_reg] in *; [left; exact LD|destruct LD|]. right. destruct op; try (left; reflexivity). apply NM. reflexivity. }
  destruct (emit_op_imm_ok op w32 setf false (dst_reg d) x1 (AReg TMP_REG2) s2 LD' LA1 (or_intror eq_refl) HF) as (ws3 & s3 & W3 & R3 & D3 & K3 & M3 & F3 & FL3).
  assert (V1' : val (len w32) s2 x1 = vald (len w32) s d).
  { rewrite <- V1. destruct x1 as [r|i]; [|reflexivity]. cbn [val]. rewrite K2; [reflexivity|]. destruct LA1 as [H | ->]; [apply (reg27 r); lia|discriminate]. }
  rewrite V1', V2' in *. assert (C : cf s2 = cf s) by apply F12. rewrite C in *. specialize (D3 (andb_false_r _)).
  assert (S3 : forall k, dst_reg d <> k -> (dst_reg d = TMP_REG1 \/ 1 <= dst_reg d <= 26) -> 1 <= k <= 27 -> xr s3 (reg_map k) = xr s (reg_map k)).
  { intros k N H K. destruct (reg27 k K) as (N9 & N10 & N30). rewrite K3; [apply S12; exact K| |exact N9|exact N10|exact N30]. destruct H as [-> | H]; [exact N9|apply reg_inj; lia]. }
  destruct d as [r|i|m]; cbn [legal_fdest dst_reg store_opd] in *; [|destruct LD|].
  - destruct (both_run (emit_op_imm op w32 setf false r x1 (AReg TMP_REG2)) (Some []) ws3 [] s2 s3 s3 W3 eq_refl R3 eq_refl) as (wa & Wa & Ra).
    destruct (both_run _ _ _ wa s1 s2 s3 eq_refl Wa R2 Ra) as (wb & Wb & Rb). destruct (both_run l1 _ ws1 wb s s1 s3 W1 Wb R1 Rb) as (wc & Wc & Rc).
    exists wc, s3. split; [exact Wc|]. split; [exact Rc|]. unfold did_op2m. cbv zeta. split; [|split; [|split]].
    + split; [|congruence]. intros _. rewrite D3. rewrite S12 by lia. reflexivity.
    + intros k N K. apply S3; [congruence|right; exact LD|exact K].
    + intros E. apply (flags_trans s s2 s3 F12 (F3 E)).
    + exact FL3.
  - destruct (adjust_ok m LD) as (L' & P).
    destruct (emit_op_mem_ok (size2 w32) false true TMP_REG1 TMP_REG2 (size2_b w32) ltac:(intros E; discriminate E) ltac:(right; left; reflexivity) ltac:(right; reflexivity) ltac:(intros _; discriminate) (adjust m) s3 L') as (ws4 & s4 & W4 & R4 & F4 & K4 & ST4).
    assert (S3' : same27 s s3) by (intros k K; apply S3; [unfold TMP_REG1; lia|left; reflexivity|exact K]).
    destruct (both_run (emit_op_imm op w32 setf false TMP_REG1 x1 (AReg TMP_REG2)) _ ws3 ws4 s2 s3 s4 W3 W4 R3 R4) as (wa & Wa & Ra).
    destruct (both_run _ _ _ wa s1 s2 s4 eq_refl Wa R2 Ra) as (wb & Wb & Rb). destruct (both_run l1 _ ws1 wb s s1 s4 W1 Wb R1 Rb) as (wc & Wc & Rc).
    exists wc, s4. split; [exact Wc|]. split; [exact Rc|]. unfold did_op2m. cbv zeta. rewrite P, (place_same s s3 m LD S3') in ST4. rewrite M3, M2, M1 in ST4. rewrite (proj2 (size_len w32)) in ST4. split; [|split; [|split]].
    + apply (stored_cong _ _ (place s m) _ _ (xr s3 (reg_map TMP_REG1))); [reflexivity| |exact ST4]. intros i I.
      rewrite (result_d op _ _ _ _ _ 0 NM) in D3. rewrite <- D3. symmetry. apply byte_mod; [exact I|destruct w32; reflexivity].
    + intros k _ K. rewrite K4; [apply S3'; exact K|apply (reg27 k K)|intros E; discriminate E].
    + intros E. apply (flags_trans s s3 s4 (flags_trans s s2 s3 F12 (F3 E)) F4).
    + intros E f' ty' v' Me. rewrite (flag_same _ _ s3 s4 F4). apply (FL3 E f' ty' v' Me).
Qed.

(** The low half of eight bytes is the number in the first four. *)
Lemma value_low m a : byte_mem m -> value m a 8 mod 2 ^ 32 = value m a 4.
Proof.
  intros B. pose proof (value_b m a 4 B) as V. change (8 * Z.of_nat 4) with 32 in V.
  assert (E : exists h, value m a 8 = value m a 4 + h * 2 ^ 32).
  { change (value m a 8) with (value m a 4 + m ((a + 4) mod 2 ^ 64) * 2 ^ 32 + m ((a + 5) mod 2 ^ 64) * 2 ^ 40 + m ((a + 6) mod 2 ^ 64) * 2 ^ 48 + m ((a + 7) mod 2 ^ 64) * 2 ^ 56).
    exists (m ((a + 4) mod 2 ^ 64) + m ((a + 5) mod 2 ^ 64) * 2 ^ 8 + m ((a + 6) mod 2 ^ 64) * 2 ^ 16 + m ((a + 7) mod 2 ^ 64) * 2 ^ 24). lia. }
  destruct E as (h & ->). rewrite Z.mod_add by lia. apply Z.mod_small. exact V.
Qed.
Lemma s32_sword i : sword (s32 i).
Proof. unfold sword, s32. pose proof (sext_range 32 i ltac:(lia)). lia. Qed.
Lemma s32_low i : wrap (s32 i) mod 2 ^ 32 = i mod 2 ^ 32.
Proof. unfold wrap, s32. rewrite mod_mod_low by lia. apply sext_low_mod. lia. Qed.

Theorem select_ok f ty w32 dst src1 src2 s : 1 <= dst <= 26 -> legal_src src1 -> 1 <= src2 <= 26 -> byte_mem (mm s) ->
  exists ws s', emit_select f ty w32 dst src1 src2 = Some ws /\ run ws s = Some s' /\
    did_select (len w32) dst (vald (len w32) s src1) (vald (len w32) s (DReg src2)) (flag_holds f ty s) s s'.
Proof.
  intros LD L1 L2 B. unfold emit_select.
  assert (X : let p := match src1 with DReg r => (Some [], r) | DImm i => (load_immediate TMP_REG2 (if w32 then s32 i else i), TMP_REG2) | DMem m => (emit_op_mem 3 false false TMP_REG2 (adjust m) TMP_REG2, TMP_REG2) end in
    exists ws s1, fst p = Some ws /\ run ws s = Some s1 /\ reg_map (snd p) <> 31 /\ xr s1 (reg_map (snd p)) mod 2 ^ len w32 = vald (len w32) s src1 /\ same_flags s s1 /\ mm s1 = mm s /\ same27 s s1).
  { destruct src1 as [r|i|m]; cbn [legal_src fst snd] in *; cbv zeta.
    - exists [], s. split; [reflexivity|]. split; [reflexivity|]. split; [apply (reg_ok r L1)|]. split; [reflexivity|]. split; [apply flags_refl|]. split; [reflexivity|]. intros k _. reflexivity.
    - assert (SW : sword (if w32 then s32 i else i)) by (destruct w32; [apply s32_sword|exact L1]).
      destruct (load_immediate_ok TMP_REG2 _ s ltac:(right; unfold TMP_REG2; lia) SW) as (ws & s1 & E & R & V & K & F1 & F2 & F3 & F4 & M).
      exists ws, s1. split; [exact E|]. split; [exact R|]. split; [discriminate|]. split; [|split; [unfold same_flags; auto|split; [exact M|intros k KB; apply K; apply (reg27 k KB)]]].
      rewrite V. cbn [vald]. destruct w32; [apply s32_low|]. unfold wrap. cbn [len]. apply Z.mod_mod. discriminate.
    - destruct (adjust_ok m L1) as (L' & P).
      destruct (emit_op_mem_ok 3 false false TMP_REG2 TMP_REG2 ltac:(lia) ltac:(intros E; discriminate E) ltac:(right; right; left; reflexivity) ltac:(right; reflexivity) ltac:(intros E; discriminate E) (adjust m) s L') as (ws & s1 & E & R & F & K & M & V).
      exists ws, s1. split; [exact E|]. split; [exact R|]. split; [discriminate|]. split; [|split; [exact F|split; [exact M|intros k KB; apply K; [apply (reg27 k KB)|intros _; apply (reg27 k KB)]]]].
      rewrite V. cbv zeta iota. rewrite P. cbn [vald]. destruct w32; [apply (value_low _ _ B)|]. apply (value_len _ _ false B). }
  cbv zeta in X. destruct (match src1 with DReg r => (Some [], r) | DImm i => (load_immediate TMP_REG2 (if w32 then s32 i else i), TMP_REG2) | DMem m => (emit_op_mem 3 false false TMP_REG2 (adjust m) TMP_REG2, TMP_REG2) end) as (l & r).
  cbn [fst snd] in X. destruct X as (ws1 & s1 & W1 & R1 & N & V & F & M & S1). destruct (reg_ok dst LD) as (ND & _). destruct (reg_ok src2 L2) as (N2 & _).
  pose proof (csel_run f ty w32 dst src2 r s1) as R2. rewrite (flag_same f ty s s1 F) in R2.
  destruct (both_run l (Some [_]) ws1 _ s s1 _ W1 eq_refl R1 R2) as (ws & W & R).
  eexists ws, _. split; [exact W|]. split; [exact R|]. unfold did_select. split; [|split; [rewrite mm_wX; exact M|split; [apply (flags_trans s s1 _ F (flags_wX _ _ _))|]]].
  - rewrite xr_wX_eq by exact ND. rewrite Z.mod_mod by (destruct w32; discriminate). unfold rX. destruct (flag_holds f ty s).
    + replace (reg_map r =? 31) with false by lia. exact V.
    + replace (reg_map src2 =? 31) with false by lia. cbn [vald]. rewrite S1 by lia. reflexivity.
  - intros k NK K. rewrite xr_wX_ne; [apply S1; exact K|]. apply reg_inj; [lia|lia|congruence].
Qed.
