(** ARM64: calls with SLJIT_CALL_RETURN and calls to an address in a register or in memory. *)
Require Import ZArith List Bool Lia Zify ZifyBool.
From Verif Require Import Rv.RvLib Rv.RvBits Imm.ImmLib Imm.MsProofs Imm.PpProofs Arm.ArmIsa Arm.ArmBr Arm.ArmEnc Arm.ArmBits Arm.ArmImm Arm.ArmImmProofs Arm.ArmLogImm Arm.ArmLoadImm
  Arm.ArmJump Arm.ArmJumpSpec Arm.ArmJumpProofs Arm.ArmCondProofs Arm.ArmOp Arm.ArmOpSpec Arm.ArmOpDec Arm.ArmOpProofs Arm.ArmOpImm Arm.ArmOp1 Arm.ArmMem Arm.ArmMemSpec Arm.ArmMemProofs Arm.ArmMemOps Arm.ArmMemOp2
  Arm.ArmCsel Arm.ArmCselSpec Arm.ArmPair Arm.ArmFrame Arm.ArmFrameSpec Arm.ArmFrameDec Arm.ArmFrameRun Arm.ArmFrameMem Arm.ArmFrameSeg Arm.ArmFrameProofs Arm.ArmRet Arm.ArmRetSpec Arm.ArmRetProofs Arm.ArmTail Arm.ArmTailSpec.
Import ListNotations.
Open Scope Z_scope.
Ltac Zify.zify_post_hook ::= idtac.

Theorem tail_ok c s : ctx_ok c -> wf s -> exists s1, run_f (emit_enter c) s = Some s1 /\ entered c (frame_size c) s s1 /\
  forall s2, body c (frame_size c) s1 s2 ->
    (exists s3, run_f (emit_call_return c) s2 = Some s3 /\ gr s3 30 = gr s 30 /\ left_frame c s s2 s3) /\
    (forall src, legal_fdest src -> exists ws s3, emit_icall_return c src = Some ws /\ br_f ws s2 = Some (vald 64 (gs s2) src, s3) /\ gr s3 30 = gr s 30 /\ left_to c s s2 s3).
Proof.
  intros O W. destruct (enter_ok c s O W) as (s1 & R & EN & SP & L29 & L30 & LS & GR). exists s1. split; [exact R|]. split; [exact EN|]. intros s2 B. assert (VD : vd s1 = vd s) by apply EN.
  split; [destruct (return_ok c s s1 s2 false O W SP L29 L30 LS GR VD B) as (s3 & R3 & G3 & LF); exists s3; split; [exact R3|split; [exact (G3 eq_refl)|exact LF]]|].
  intros src L. assert (W2 : wf s2) by apply B. destruct (keep_src_ok c src s2 O L W2) as (ws & s2' & E & R2 & K & V & M & D & VR & RR). cbv zeta in RR.
  destruct (return_ok c s s1 s2' false O W SP L29 L30 LS GR VD (body_tmp _ _ _ _ _ B K V M D)) as (s3 & R3 & G3 & LF). unfold emit_icall_return. destruct (keep_src c src) as (l & r). cbn [fst snd] in *. subst l.
  assert (NR : 0 <= reg_map r < 32) by apply reg_lt.
  exists (ws ++ release false c ++ [BR .| RN r]), s3. split; [reflexivity|].
  assert (RA : run_f (ws ++ release false c) s2 = Some s3) by (rewrite run_f_app, R2; exact R3).
  split; [|split; [exact (G3 eq_refl)|exact (left_tmp c s s2 s2' s3 O K M D LF)]]. rewrite app_assoc. rewrite (br_app _ (BR .| RN r) (reg_map r) _ _ RA (dec_br false (reg_map r) NR)). f_equal. f_equal. rewrite <- VR. destruct LF as (_ & _ & _ & _ & L5 & L6 & _).
  destruct RR as [-> | [RR | RR]].
  - change (reg_map TMP_REG1) with 9. rewrite rX31 by lia. apply L6. lia.
  - destruct (lo_reg r RR) as (A & N). rewrite rX31 by exact N. apply L6. exact A.
  - assert (CK : 0 <= c_kept c <= 3) by apply O. rewrite rX31 by (rewrite hi_reg by lia; lia). apply L5. exact RR.
Qed.

Lemma blr_app ws w rn pc s s' : run_f ws s = Some s' -> decode_br w = Some (IBr true rn) -> blr_f (ws ++ [w]) pc s = Some (rX (gs s') rn, wG s' 30 (wrap (pc + 4 * Z.of_nat (length (ws ++ [w]))))).
Proof.
  revert pc s. induction ws as [|a ws IH]; intros pc s R D; cbn [app blr_f run_f length] in *; [injection R as ->; rewrite D; reflexivity|].
  destruct (step_f a s) as [s1|]; [|discriminate R]. specialize (IH (pc + 4) s1 R D). replace (pc + 4 * Z.of_nat (S (length (ws ++ [w])))) with (pc + 4 + 4 * Z.of_nat (length (ws ++ [w]))) by lia.
  destruct (ws ++ [w]) as [|b l] eqn:E; [destruct ws; discriminate E|exact IH].
Qed.
Theorem icall_ok src s pc : legal_fdest src -> wf s -> exists ws s', emit_icall src = Some ws /\ blr_f ws pc s = Some (vald 64 (gs s) src, s') /\ gr s' 30 = wrap (pc + 4 * Z.of_nat (length ws)) /\ same_api s s'.
Proof.
  intros L (W1 & W2 & W3). destruct src as [r|i|m]; cbn [legal_fdest emit_icall vald] in *; [|destruct L|].
  - destruct (ArmOp1.reg_ok r L) as (N & _). exists [BLR .| RN r]. eexists. split; [reflexivity|]. split; [|].
    + change [BLR .| RN r] with ([] ++ [BLR .| RN r]). rewrite (blr_app [] (BLR .| RN r) (reg_map r) pc s s eq_refl (dec_br true (reg_map r) (reg_lt r))). rewrite rX31 by exact N. rewrite Z.mod_small by apply W1. reflexivity.
    + split; [unfold gr, wG; cbn [gs]; rewrite xr_wX_eq by lia; reflexivity|]. unfold same_api, mem, gr, wG. cbn [gs vd]. split; [apply mm_wX|]. split; [apply flags_wX|]. split; [reflexivity|]. intros k KB. apply xr_wX_ne. apply (reg27 k KB).
  - destruct s as (g & v). unfold gr, mem in W1, W3. cbn [gs vd] in *. destruct (adjust_ok m L) as (L' & P).
    destruct (emit_op_mem_ok 3 false false TMP_REG1 TMP_REG1 ltac:(lia) ltac:(intros E; discriminate E) ltac:(right; left; reflexivity) ltac:(left; reflexivity) ltac:(intros E; discriminate E) (adjust m) g L') as (ws & g1 & E & R & F & K & M & V).
    cbv zeta iota in V. rewrite P in V. change (reg_map TMP_REG1) with 9 in *. rewrite E. cbn [both]. exists (ws ++ [BLR .| RN TMP_REG1]). eexists. split; [reflexivity|]. split.
    + rewrite (blr_app ws (BLR .| RN TMP_REG1) 9 pc (mkF g v) (mkF g1 v) (lift ws g g1 v R) (dec_br true 9 ltac:(lia))). cbn [gs]. rewrite rX31 by lia. rewrite V. reflexivity.
    + split; [unfold gr, wG; cbn [gs]; rewrite xr_wX_eq by lia; reflexivity|]. unfold same_api, mem, gr, wG. cbn [gs vd]. split; [rewrite mm_wX; exact M|]. split; [apply (flags_trans g g1 _ F (flags_wX _ _ _))|]. split; [reflexivity|].
      intros k KB. rewrite xr_wX_ne by apply (reg27 k KB). apply K; [apply (reg27 k KB)|intros _; apply (reg27 k KB)].
Qed.
