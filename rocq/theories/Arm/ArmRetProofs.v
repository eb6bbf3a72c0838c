(** ARM64: sljit_emit_return_to, SLJIT_GET_RETURN_ADDRESS, SLJIT_FAST_ENTER and SLJIT_FAST_RETURN. *)
Require Import ZArith List Bool Lia Zify ZifyBool.
From Verif Require Import Rv.RvLib Rv.RvBits Imm.ImmLib Imm.MsProofs Imm.PpProofs Arm.ArmIsa Arm.ArmBr Arm.ArmEnc Arm.ArmBits Arm.ArmImm Arm.ArmImmProofs Arm.ArmLogImm Arm.ArmLoadImm
  Arm.ArmJump Arm.ArmJumpSpec Arm.ArmJumpProofs Arm.ArmCondProofs Arm.ArmOp Arm.ArmOpSpec Arm.ArmOpDec Arm.ArmOpProofs Arm.ArmOpImm Arm.ArmOp1 Arm.ArmMem Arm.ArmMemSpec Arm.ArmMemProofs Arm.ArmMemOps Arm.ArmMemOp2
  Arm.ArmCsel Arm.ArmCselSpec Arm.ArmPair Arm.ArmFrame Arm.ArmFrameSpec Arm.ArmFrameDec Arm.ArmFrameRun Arm.ArmFrameMem Arm.ArmFrameSeg Arm.ArmFrameProofs Arm.ArmRet Arm.ArmRetSpec.
Import ListNotations.
Open Scope Z_scope.
Ltac Zify.zify_post_hook ::= idtac.

(** ** The two decoders are for different words *)
Lemma fld_split w a t n b m c : t = n + m -> b = a + n -> c = 2 ^ n -> 0 <= a -> 0 <= n -> 0 <= m -> fld w a t = fld w a n + c * fld w b m.
Proof.
  intros -> -> -> A N M. rewrite !fld_div by lia. rewrite (Z.pow_add_r 2 n m) by lia. pose proof (pow_pos n N). pose proof (pow_pos m M). pose proof (pow_pos a A). rewrite Z.rem_mul_r by lia. rewrite (Z.pow_add_r 2 a n) by lia. rewrite <- Z.div_div by lia. reflexivity.
Qed.
Lemma decode_f_none w i : decode w = Some i -> decode_f w = None.
Proof.
  intros D. assert (B : forall k, 0 <= k -> 0 <= fld w k 1 < 2) by (intros k K; rewrite fld_div by lia; apply Z.mod_pos_bound; lia).
  pose proof (B 21 ltac:(lia)) as B21. pose proof (B 22 ltac:(lia)) as B22. pose proof (B 23 ltac:(lia)) as B23. pose proof (B 24 ltac:(lia)) as B24. pose proof (B 25 ltac:(lia)) as B25. pose proof (B 26 ltac:(lia)) as B26. pose proof (B 27 ltac:(lia)) as B27. pose proof (B 28 ltac:(lia)) as B28.
  pose proof (B 29 ltac:(lia)) as B29. pose proof (B 30 ltac:(lia)) as B30. pose proof (B 31 ltac:(lia)) as B31.
  assert (E27 : fld w 27 3 = fld w 27 1 + 2 * fld w 28 1 + 4 * fld w 29 1) by (rewrite (fld_split w 27 3 1 28 2 2 eq_refl eq_refl eq_refl), (fld_split w 28 2 1 29 1 2 eq_refl eq_refl eq_refl) by lia; ring).
  assert (E26 : fld w 26 3 = fld w 26 1 + 2 * fld w 27 1 + 4 * fld w 28 1) by (rewrite (fld_split w 26 3 1 27 2 2 eq_refl eq_refl eq_refl), (fld_split w 27 2 1 28 1 2 eq_refl eq_refl eq_refl) by lia; ring).
  assert (E24 : fld w 24 5 = fld w 24 1 + 2 * fld w 25 1 + 4 * fld w 26 3) by (rewrite (fld_split w 24 5 1 25 4 2 eq_refl eq_refl eq_refl), (fld_split w 25 4 1 26 3 2 eq_refl eq_refl eq_refl) by lia; ring).
  assert (E246 : fld w 24 6 = fld w 24 5 + 32 * fld w 29 1) by (rewrite (fld_split w 24 6 5 29 1 32 eq_refl eq_refl eq_refl) by lia; reflexivity).
  assert (E21 : fld w 21 8 = fld w 21 1 + 2 * fld w 22 1 + 4 * fld w 23 1 + 8 * fld w 24 5) by (rewrite (fld_split w 21 8 1 22 7 2 eq_refl eq_refl eq_refl), (fld_split w 22 7 1 23 6 2 eq_refl eq_refl eq_refl), (fld_split w 23 6 1 24 5 2 eq_refl eq_refl eq_refl) by lia; ring).
  assert (E213 : fld w 21 3 = fld w 21 1 + 2 * fld w 22 1 + 4 * fld w 23 1) by (rewrite (fld_split w 21 3 1 22 2 2 eq_refl eq_refl eq_refl), (fld_split w 22 2 1 23 1 2 eq_refl eq_refl eq_refl) by lia; ring).
  assert (E25 : fld w 25 7 = fld w 25 1 + 2 * fld w 26 3 + 16 * fld w 29 1 + 32 * fld w 30 1 + 64 * fld w 31 1) by (rewrite (fld_split w 25 7 1 26 6 2 eq_refl eq_refl eq_refl), (fld_split w 26 6 3 29 3 8 eq_refl eq_refl eq_refl), (fld_split w 29 3 1 30 2 2 eq_refl eq_refl eq_refl), (fld_split w 30 2 1 31 1 2 eq_refl eq_refl eq_refl) by lia; ring).
  unfold decode in D. unfold decode_f. cbv zeta in *.
  destruct ((fld w 27 3 =? 5) && (fld w 25 1 =? 0)) eqn:C1.
  { exfalso. replace (fld w 26 3 =? 4) with false in D by lia. replace (fld w 24 5 =? 10) with false in D by lia. replace (fld w 24 5 =? 11) with false in D by lia. replace (fld w 21 8 =? 208) with false in D by lia.
    replace (fld w 21 8 =? 212) with false in D by lia. replace (fld w 21 8 =? 214) with false in D by lia. replace (fld w 24 5 =? 27) with false in D by lia. replace (fld w 24 6 =? 57) with false in D by lia. replace (fld w 24 6 =? 56) with false in D by lia. discriminate D. }
  destruct (fld w 24 6 =? 61) eqn:C2.
  { exfalso. replace (fld w 26 3 =? 4) with false in D by lia. replace (fld w 24 5 =? 10) with false in D by lia. replace (fld w 24 5 =? 11) with false in D by lia. replace (fld w 21 8 =? 208) with false in D by lia.
    replace (fld w 21 8 =? 212) with false in D by lia. replace (fld w 21 8 =? 214) with false in D by lia. replace (fld w 24 5 =? 27) with false in D by lia. replace (fld w 24 6 =? 57) with false in D by lia. replace (fld w 24 6 =? 56) with false in D by lia. discriminate D. }
  destruct (fld w 24 6 =? 56) eqn:C3.
  { destruct ((fld w 30 2 =? 3) && (fld w 21 3 =? 2) && (fld w 10 2 =? 1)) eqn:C; [|reflexivity]. exfalso.
    replace (fld w 26 3 =? 4) with false in D by lia. replace (fld w 24 5 =? 10) with false in D by lia. replace (fld w 24 5 =? 11) with false in D by lia. replace (fld w 21 8 =? 208) with false in D by lia.
    replace (fld w 21 8 =? 212) with false in D by lia. replace (fld w 21 8 =? 214) with false in D by lia. replace (fld w 24 5 =? 27) with false in D by lia. replace (fld w 24 6 =? 57) with false in D by lia.
    replace (fld w 10 2 =? 2) with false in D by lia. replace (fld w 10 2 =? 0) with false in D by lia. destruct (bit w 21); discriminate D. }
  destruct (fld w 25 7 =? 0x6b) eqn:C4; [|reflexivity].
  exfalso. replace (fld w 26 3 =? 4) with false in D by lia. replace (fld w 24 5 =? 10) with false in D by lia. replace (fld w 24 5 =? 11) with false in D by lia. replace (fld w 21 8 =? 208) with false in D by lia.
  replace (fld w 21 8 =? 212) with false in D by lia. replace (fld w 21 8 =? 214) with false in D by lia. replace (fld w 24 5 =? 27) with false in D by lia. replace (fld w 24 6 =? 57) with false in D by lia. discriminate D.
Qed.
Lemma lift ws g g' v : run ws g = Some g' -> run_f ws (mkF g v) = Some (mkF g' v).
Proof.
  revert g. induction ws as [|w ws IH]; intros g R; cbn [run run_f] in *; [injection R as ->; reflexivity|].
  destruct (decode w) as [i|] eqn:D; [|discriminate R]. destruct (exec i g) as [g1|] eqn:E; [|discriminate R].
  unfold step_f. rewrite (decode_f_none w i D), D. cbn [gs vd]. rewrite E. apply IH. exact R.
Qed.
Lemma br_app ws w rn s s' : run_f ws s = Some s' -> decode_br w = Some (IBr false rn) -> br_f (ws ++ [w]) s = Some (rX (gs s') rn, s').
Proof.
  revert s. induction ws as [|a ws IH]; intros s R D; cbn [app br_f run_f] in *; [injection R as ->; rewrite D; reflexivity|].
  destruct (step_f a s) as [s1|]; [|discriminate R]. specialize (IH s1 R D). destruct (ws ++ [w]) as [|b l] eqn:E; [destruct ws; discriminate E|exact IH].
Qed.

(** ** sljit_emit_return_to *)
Lemma rX31 s k : k <> 31 -> rX s k = xr s k.
Proof. intros K. unfold rX. replace (k =? 31) with false by lia. reflexivity. Qed.
Lemma mov_run d b s : reg_map b <> 31 -> 0 <= xr s (reg_map b) < 2 ^ 64 -> run [MOV .| RD d .| RM b] s = Some (wX s (reg_map d) (xr s (reg_map b))).
Proof. intros N R. pose proof (mov_word false d b s) as E. change (Z.lxor MOV (inv_bits false)) with MOV in E. rewrite E, rX31 by exact N. cbn [len]. rewrite Z.mod_small by exact R. reflexivity. Qed.
Lemma lo_reg i : 1 <= i <= 16 -> 0 <= reg_map i <= 17 /\ reg_map i <> 31.
Proof.
  intros H. assert (F : forallb (fun a => (0 <=? reg_map a) && (reg_map a <=? 17)) (zseq 1 16) = true) by (vm_compute; reflexivity). rewrite forallb_forall in F. specialize (F i ltac:(apply in_zseq; lia)). cbv beta in F. lia.
Qed.

Lemma body_tmp c F s1 s2 s2' : body c F s1 s2 -> (forall k, k <> 9 -> gr s2' k = gr s2 k) -> 0 <= gr s2' 9 < 2 ^ 64 -> mem s2' = mem s2 -> vd s2' = vd s2 -> body c F s1 s2'.
Proof.
  intros (B1 & B2 & B3 & B4 & (B5 & B6 & B7)) K V M D. split; [unfold sp in *; fold (gr s2' 31); rewrite K by lia; exact B1|]. split; [intros x X H; rewrite M; apply B2; assumption|].
  split; [intros x X H; rewrite K by (unfold callee_saved in X; lia); apply B3; assumption|]. split; [intros x X H; rewrite D; apply B4; assumption|].
  split; [intros k; destruct (Z.eq_dec k 9) as [-> | N]; [exact V|rewrite K by exact N; apply B5]|]. split; [intros k; rewrite D; apply B6|]. intros a. rewrite M. apply B7.
Qed.
Lemma left_tmp c s s2 s2' s3 : ctx_ok c -> (forall k, k <> 9 -> gr s2' k = gr s2 k) -> mem s2' = mem s2 -> vd s2' = vd s2 -> left_frame c s s2' s3 -> left_to c s s2 s3.
Proof.
  intros O K M D (L1 & L2 & L3 & L4 & L5 & L6 & L7 & L8). unfold left_to.
  assert (G : forall k, k <> 9 -> gr (mkF (wX (gs s2) 9 (gr s3 9)) (vd s2)) k = gr s2' k) by (intros k N; rewrite K by exact N; unfold gr; cbn [gs]; apply xr_wX_ne; exact N).
  split; [exact L1|]. split; [exact L2|]. split; [exact L3|]. split; [exact L4|]. split; [|split; [|split]].
  - intros i I. rewrite G; [apply L5; exact I|]. assert (CK : 0 <= c_kept c <= 3) by apply O. rewrite hi_reg by lia. lia.
  - intros x X. destruct (Z.eq_dec x 9) as [-> | N]; [unfold gr at 2; cbn [gs]; rewrite xr_wX_eq by lia; reflexivity|]. rewrite G by exact N. apply L6. exact X.
  - intros x X. cbn [vd]. rewrite <- D. apply L7. exact X.
  - unfold mem at 2. cbn [gs]. rewrite mm_wX. rewrite L8, M. reflexivity.
Qed.
Lemma keep_src_ok c src s : ctx_ok c -> legal_fdest src -> wf s -> exists ws s', fst (keep_src c src) = Some ws /\ run_f ws s = Some s' /\ (forall k, k <> 9 -> gr s' k = gr s k) /\ 0 <= gr s' 9 < 2 ^ 64 /\ mem s' = mem s /\ vd s' = vd s /\
  gr s' (reg_map (snd (keep_src c src))) = vald 64 (gs s) src /\ let r := snd (keep_src c src) in r = TMP_REG1 \/ 1 <= r <= 16 \/ 26 - c_kept c < r <= 26.
Proof.
  intros O L W. destruct s as (g & v). destruct W as (W1 & W2 & W3). unfold gr, mem in *. cbn [gs vd] in *. destruct src as [r|i|m]; cbn [legal_fdest keep_src vald] in *; [|destruct L|].
  - unfold S0. assert (RB : (17 <=? r) && (r <=? 26 - c_kept c) = true \/ (17 <=? r) && (r <=? 26 - c_kept c) = false) by (destruct ((17 <=? r) && (r <=? 26 - c_kept c)); auto).
    destruct RB as [RB | RB]; rewrite RB; cbn [fst snd].
    + exists [MOV .| RD TMP_REG1 .| RM r], (mkF (wX g 9 (xr g (reg_map r))) v). split; [reflexivity|]. split; [apply lift; apply (mov_run TMP_REG1 r g); [apply (ArmOp1.reg_ok r L)|apply W1]|]. cbn [gs vd].
      split; [intros k K; apply xr_wX_ne; exact K|]. split; [rewrite xr_wX_eq by lia; apply W1|]. split; [apply mm_wX|]. split; [reflexivity|]. split; [change (reg_map TMP_REG1) with 9; rewrite xr_wX_eq by lia; symmetry; apply Z.mod_small; apply W1|left; reflexivity].
    + exists [], (mkF g v). split; [reflexivity|]. split; [reflexivity|]. split; [reflexivity|]. split; [apply W1|]. split; [reflexivity|]. split; [reflexivity|]. split; [symmetry; apply Z.mod_small; apply W1|cbv zeta; right; lia].
  - destruct (adjust_ok m L) as (L' & P). cbn [fst snd].
    destruct (emit_op_mem_ok 3 false false TMP_REG1 TMP_REG1 ltac:(lia) ltac:(intros E; discriminate E) ltac:(right; left; reflexivity) ltac:(left; reflexivity) ltac:(intros E; discriminate E) (adjust m) g L') as (ws & g1 & E & R & F & K & M & V).
    cbv zeta iota in V. rewrite P in V. change (Z.to_nat (2 ^ 3)) with 8%nat in V. change (reg_map TMP_REG1) with 9 in *. pose proof (value_b (mm g) (place g m) 8 W3) as VB. change (8 * Z.of_nat 8) with 64 in VB.
    exists ws, (mkF g1 v). split; [exact E|]. split; [apply lift; exact R|]. cbn [gs vd]. split; [intros k N; apply K; [exact N|intros _; exact N]|]. split; [rewrite V; exact VB|]. split; [exact M|]. split; [reflexivity|]. split; [exact V|left; reflexivity].
Qed.
Theorem return_to_ok c s : ctx_ok c -> wf s -> exists s1, run_f (emit_enter c) s = Some s1 /\ entered c (frame_size c) s s1 /\
  forall s2 src, body c (frame_size c) s1 s2 -> legal_fdest src -> exists ws s3, emit_return_to c src = Some ws /\ br_f ws s2 = Some (vald 64 (gs s2) src, s3) /\ left_to c s s2 s3.
Proof.
  intros O W. destruct (frame_round c s O W) as (s1 & R & EN & H). exists s1. split; [exact R|]. split; [exact EN|]. intros s2 src B L.
  assert (W2 : wf s2) by apply B. destruct (keep_src_ok c src s2 O L W2) as (ws & s2' & E & R2 & K & V & M & D & VR & RR). cbv zeta in RR.
  destruct (H s2' (body_tmp _ _ _ _ _ B K V M D)) as (_ & s3 & R3 & LF). unfold emit_return_to. destruct (keep_src c src) as (l & r). cbn [fst snd] in *. subst l.
  assert (NR : 0 <= reg_map r < 32) by apply reg_lt.
  exists (ws ++ release true c ++ [BR .| RN r]), s3. split; [reflexivity|].
  assert (RA : run_f (ws ++ release true c) s2 = Some s3) by (rewrite run_f_app, R2; exact R3).
  split; [|exact (left_tmp c s s2 s2' s3 O K M D LF)]. rewrite app_assoc. rewrite (br_app _ (BR .| RN r) (reg_map r) _ _ RA (dec_br false (reg_map r) NR)). f_equal. f_equal. rewrite <- VR. destruct LF as (_ & _ & _ & _ & L5 & L6 & _).
  destruct RR as [-> | [RR | RR]].
  - change (reg_map TMP_REG1) with 9. rewrite rX31 by lia. apply L6. lia.
  - destruct (lo_reg r RR) as (A & N). rewrite rX31 by exact N. apply L6. exact A.
  - assert (CK : 0 <= c_kept c <= 3) by apply O. rewrite rX31 by (rewrite hi_reg by lia; lia). apply L5. exact RR.
Qed.

(** ** SLJIT_GET_RETURN_ADDRESS *)
Theorem get_return_ok c s : ctx_ok c -> wf s -> exists s1, run_f (emit_enter c) s = Some s1 /\ entered c (frame_size c) s s1 /\
  forall s2 d, body c (frame_size c) s1 s2 -> legal_fdest d -> exists ws s3, emit_get_return d = Some ws /\ run_f ws s2 = Some s3 /\ did_move d (gr s 30) s2 s3.
Proof.
  intros O W. destruct (enter_ok c s O W) as (s1 & R & EN & SP & L29 & L30 & LS & GR). exists s1. split; [exact R|]. split; [exact EN|]. intros s2 d B L.
  destruct (frame_ok c O) as (F16 & FB & F0). destruct (nsaved_ok c O) as (N & _). assert (CL : 0 <= c_local c) by apply O.
  assert (LD : ld8 s2 (sp s2 + 8) = gr s 30).
  { rewrite <- L30. replace (sp s - frame_size c + 8) with (sp s + (- frame_size c + 8)) by ring. rewrite <- (body_ld c s s1 s2 (- frame_size c + 8) O SP B ltac:(lia) ltac:(lia)). apply ld_cong.
    destruct B as (B1 & _). rewrite B1, SP, Zplus_mod_idemp_l. f_equal. ring. }
  unfold ld8 in LD. rewrite le_value in LD. destruct s2 as (g & v). unfold sp in LD. cbn [gs] in LD.
  unfold emit_get_return, did_move, gr, mem. cbn [gs vd]. fold (gr s 30). set (a := gr s 30) in *.
  assert (LR : legal_reg (dst_reg d)) by (destruct d; cbn [legal_fdest dst_reg] in *; [left; exact L|destruct L|right; left; reflexivity]).
  destruct (emit_op_mem_ok 3 false false (dst_reg d) TMP_REG2 ltac:(lia) ltac:(intros E; discriminate E) LR ltac:(right; reflexivity) ltac:(intros E; discriminate E) (MBase SLJIT_SP 8) g ltac:(cbn [legal_mem]; split; [right; reflexivity|lia])) as (ws & g1 & E & R1 & F & K & M & V).
  cbv zeta iota in V. cbn [ArmMemSpec.addr] in V. change (reg_map SLJIT_SP) with 31 in V. change (Z.to_nat (2 ^ 3)) with 8%nat in V. rewrite LD in V.
  destruct d as [r|i|m]; cbn [legal_fdest dst_reg] in *; [|destruct L|].
  - destruct (both_run _ (Some []) ws [] g g1 g1 E eq_refl R1 eq_refl) as (wa & Wa & Ra). exists wa, (mkF g1 v). split; [exact Wa|]. split; [apply lift; exact Ra|]. cbn [gs vd]. split; [split; [exact V|exact M]|]. split; [exact F|]. split; [reflexivity|].
    intros k NK KB. apply K; [apply (reg27 k KB)|intros _; apply ArmMemOp2.reg_inj; [lia|lia|congruence]].
  - destruct (adjust_ok m L) as (L' & P).
    assert (S1 : same27 g g1) by (intros k KB; apply K; [apply (reg27 k KB)|intros _; apply (reg27 k KB)]).
    destruct (emit_op_mem_ok 3 false true TMP_REG1 TMP_REG2 ltac:(lia) ltac:(intros E'; discriminate E') ltac:(right; left; reflexivity) ltac:(right; reflexivity) ltac:(intros _; discriminate) (adjust m) g1 L') as (ws4 & g4 & W4 & R4 & F4 & K4 & ST4).
    destruct (both_run _ _ ws ws4 g g1 g4 E W4 R1 R4) as (wa & Wa & Ra). exists wa, (mkF g4 v). split; [exact Wa|]. split; [apply lift; exact Ra|]. cbn [gs vd].
    rewrite P, (place_same g g1 m L S1), M, V in ST4. split; [exact ST4|]. split; [apply (flags_trans g g1 g4 F F4)|]. split; [reflexivity|].
    intros k _ KB. rewrite K4; [apply S1; exact KB|apply (reg27 k KB)|intros E'; discriminate E'].
Qed.

(** ** Fast calls *)
Lemma value_bytes m a v n : (forall i, 0 <= i < Z.of_nat n -> m ((a + i) mod 2 ^ 64) = byte v i) -> value m a n = v mod 2 ^ (8 * Z.of_nat n).
Proof.
  intros H. induction n as [|n IH]; [cbn; symmetry; apply Z.mod_1_r|]. cbn [value]. rewrite IH by (intros i I; apply H; lia). rewrite H by lia. unfold byte. replace (8 * Z.of_nat (S n)) with (8 * Z.of_nat n + 8) by lia.
  rewrite Z.pow_add_r by lia. pose proof (pow_pos (8 * Z.of_nat n) ltac:(lia)) as P. rewrite Z.rem_mul_r by lia. change (2 ^ 8) with 256. ring.
Qed.
Lemma moved_value d v s s' : legal_fdest d -> 0 <= v < 2 ^ 64 -> did_move d v s s' -> vald 64 (gs s') d = v.
Proof.
  intros L V (D & F & _ & K). destruct d as [r|i|m]; cbn [legal_fdest vald] in *; [|destruct L|].
  - destruct D as (D & _). unfold gr in D. rewrite D. apply Z.mod_small. exact V.
  - assert (S1 : same27 (gs s) (gs s')) by (intros k KB; apply (K k ltac:(discriminate) KB)). rewrite (place_same (gs s) (gs s') m L S1). change (Z.to_nat (64 / 8)) with 8%nat. rewrite (value_bytes _ _ v 8) by (intros i I; apply D; lia). apply Z.mod_small. exact V.
Qed.
Theorem fast_enter_ok d s : legal_fdest d -> wf s -> exists ws s', emit_fast_enter d = Some ws /\ run_f ws s = Some s' /\ did_move d (gr s 30) s s' /\ vald 64 (gs s') d = gr s 30.
Proof.
  intros L W. assert (X : exists ws s', emit_fast_enter d = Some ws /\ run_f ws s = Some s' /\ did_move d (gr s 30) s s').
  { destruct s as (g & v). destruct W as (W1 & W2 & W3). unfold did_move, gr, mem in *. cbn [gs vd] in *. destruct d as [r|i|m]; cbn [legal_fdest emit_fast_enter] in *; [|destruct L|].
    - replace (r =? TMP_LR) with false by (unfold TMP_LR; lia). destruct (ArmOp1.reg_ok r L) as (N & _). eexists _, (mkF (wX g (reg_map r) (xr g 30)) v). split; [reflexivity|]. split; [apply lift; apply (mov_run r TMP_LR g); [discriminate|apply W1]|].
      cbn [gs vd]. split; [split; [apply xr_wX_eq; exact N|apply mm_wX]|]. split; [apply flags_wX|]. split; [reflexivity|]. intros k NK KB. apply xr_wX_ne. apply ArmMemOp2.reg_inj; [lia|lia|congruence].
    - destruct (adjust_ok m L) as (L' & P).
      destruct (emit_op_mem_ok 3 false true TMP_LR TMP_REG2 ltac:(lia) ltac:(intros E; discriminate E) ltac:(right; right; right; reflexivity) ltac:(right; reflexivity) ltac:(intros _; discriminate) (adjust m) g L') as (ws & g4 & W4 & R4 & F4 & K4 & ST4).
      exists ws, (mkF g4 v). split; [exact W4|]. split; [apply lift; exact R4|]. cbn [gs vd]. rewrite P in ST4. split; [exact ST4|]. split; [exact F4|]. split; [reflexivity|]. intros k _ KB. apply K4; [apply (reg27 k KB)|intros E; discriminate E]. }
  destruct X as (ws & s' & A & B & C). exists ws, s'. split; [exact A|]. split; [exact B|]. split; [exact C|]. apply (moved_value d _ s s' L); [apply W|exact C].
Qed.
Theorem fast_return_ok a s : legal_fdest a -> wf s -> exists ws s', emit_fast_return a = Some ws /\ ret_f ws s = Some (vald 64 (gs s) a, s') /\ same_api s s'.
Proof.
  intros L W. unfold emit_fast_return.
  assert (X : exists ws s', (match a with DReg r => if r =? TMP_LR then Some [] else Some [MOV .| RD TMP_LR .| RM r] | DMem m => emit_op_mem 3 false false TMP_LR (adjust m) TMP_REG1 | DImm _ => None end) = Some ws /\
    run_f ws s = Some s' /\ gr s' 30 = vald 64 (gs s) a /\ same_api s s').
  { destruct s as (g & v). destruct W as (W1 & W2 & W3). unfold same_api, gr, mem in *. cbn [gs vd] in *. destruct a as [r|i|m]; cbn [legal_fdest vald] in *; [|destruct L|].
    - replace (r =? TMP_LR) with false by (unfold TMP_LR; lia). eexists _, (mkF (wX g 30 (xr g (reg_map r))) v). split; [reflexivity|]. split; [apply lift; apply (mov_run TMP_LR r g); [apply (ArmOp1.reg_ok r L)|apply W1]|].
      cbn [gs vd]. split; [rewrite xr_wX_eq by lia; symmetry; apply Z.mod_small; apply W1|]. split; [apply mm_wX|]. split; [apply flags_wX|]. split; [reflexivity|]. intros k KB. apply xr_wX_ne. apply (reg27 k KB).
    - destruct (adjust_ok m L) as (L' & P).
      destruct (emit_op_mem_ok 3 false false TMP_LR TMP_REG1 ltac:(lia) ltac:(intros E; discriminate E) ltac:(right; right; right; reflexivity) ltac:(left; reflexivity) ltac:(intros E; discriminate E) (adjust m) g L') as (ws & g1 & E & R & F & K & M & V).
      cbv zeta iota in V. rewrite P in V. exists ws, (mkF g1 v). split; [exact E|]. split; [apply lift; exact R|]. cbn [gs vd]. split; [exact V|]. split; [exact M|]. split; [exact F|]. split; [reflexivity|]. intros k KB. apply K; [apply (reg27 k KB)|intros _; apply (reg27 k KB)]. }
  destruct X as (ws & s' & -> & B & C & D). exists (ws ++ [RET .| RN TMP_LR]), s'. split; [reflexivity|]. split; [|exact D]. rewrite (ret_app _ _ _ _ B dec_ret), C. reflexivity.
Qed.
