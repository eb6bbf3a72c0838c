(** sljit_emit_op_flags and sljit_emit_select on x86-64: the emitted code. *)
Require Import ZArith List Bool Lia Znumtheory.
From Verif Require Import Rv.RvLib Rv.RvBits Rv.RvIsa Rv.RvMem Rv.RvMemProofs Rv.RvOp Rv.RvLir Rv.RvCond Rv.RvCondSpec Rv.RvEmitOp1 X86.X86Isa X86.X86Emit X86.X86Spec X86.X86Enc X86.X86EncTop X86.X86OpSpec X86.X86Op
  X86.X86Cond X86.X86Ins X86.X86Ins2 X86.X86Ins3 X86.X86Mov X86.X86Bin X86.X86Op2 X86.X86Op2Top X86.X86Op1 X86.X86C34 X86.X86Link X86.X86LinkSpec X86.X86LinkRun X86.X86Misc.
Import ListNotations.
Ltac Zify.zify_post_hook ::= idtac.
Open Scope Z_scope.

(** ** Bytes *)
Ltac allregs r := match goal with H : 1 <= r <= 16 |- _ =>
  let K := fresh in assert (r = 1 \/ r = 2 \/ r = 3 \/ r = 4 \/ r = 5 \/ r = 6 \/ r = 7 \/ r = 8 \/ r = 9 \/ r = 10 \/ r = 11 \/ r = 12 \/ r = 13 \/ r = 14 \/ r = 15 \/ r = 16) as K by lia;
  clear H; repeat destruct K as [K|K]; subst r end.
Ltac alltypes t := match goal with H : ctype t |- _ =>
  let K := fresh in assert (t = 0 \/ t = 1 \/ t = 2 \/ t = 3 \/ t = 4 \/ t = 5 \/ t = 6 \/ t = 7 \/ t = 8 \/ t = 9 \/ t = 10 \/ t = 11 \/ t = 12 \/ t = 13) as K by (unfold ctype in H; lia);
  clear H; repeat destruct K as [K|K]; subst t end.
Definition jcc (t : Z) : Z := jump_code t - 0x80.
Lemma jcc_range : forall t, ctype t -> 0 <= jcc t < 16.
Proof. intros t H. alltypes t; vm_compute; split; congruence. Qed.
Lemma dec_setcc : forall w t r rest, ctype t -> 1 <= r <= 16 -> decode (setcc_bytes w (u8 (jump_code t + 0x10)) r ++ rest) = Some (XSetcc (jcc t) (OR (reg_map w r)), rest).
Proof. intros w t r rest T R. alltypes t; allregs r; destruct w; reflexivity. Qed.
Lemma dec_movzx : forall w r rest, 1 <= r <= 16 -> decode (movzx_bytes w r ++ rest) = Some (XMovx false 8 64 (reg_map w r) (OR (reg_map w r)), rest).
Proof. intros w r rest R. allregs r; destruct w; reflexivity. Qed.
Lemma dec_or8 : forall w r rest, 1 <= r <= 16 -> decode (or8_bytes w TMP_REG1 r ++ rest) = Some (XAlu Or 8 (OR (reg_map w r)) (OR (reg_map w TMP_REG1)), rest).
Proof. intros w r rest R. allregs r; destruct w; reflexivity. Qed.
Lemma byte_range : forall x v, isw x -> isw (x / 2 ^ 8 * 2 ^ 8 + v mod 2 ^ 8).
Proof.
  intros x v H. unfold isw in *. pose proof (Z.mod_pos_bound v (2 ^ 8) ltac:(lia)) as A. pose proof (Z.div_mod x (2 ^ 8) ltac:(lia)) as B.
  pose proof (Z.mod_pos_bound x (2 ^ 8) ltac:(lia)) as C. pose proof (Z.div_pos x (2 ^ 8) ltac:(lia) ltac:(lia)) as D.
  assert (x / 2 ^ 8 < 2 ^ 56) by (apply Z.div_lt_upper_bound; lia). change (2 ^ 8) with 256 in *. change (2 ^ 64) with (2 ^ 56 * 256) in *. lia.
Qed.

Section U.
Variables (u : Z) (w : bool).
Notation rv s r := (xr s (reg_map w r)).
(** setcc: the low byte is the condition, the rest is unchanged. *)
Lemma setcc_ok : forall t r s c, ctype t -> 1 <= r <= 16 -> xwf s -> cond_val s (jcc t) = Some c ->
  does u (Some (setcc_bytes w (u8 (jump_code t + 0x10)) r)) s (fun s' =>
    s' = setr s (reg_map w r) (rv s r / 2 ^ 8 * 2 ^ 8 + Z.b2z c)).
Proof.
  intros t r s c T R W C. eexists. split; [reflexivity|]. eexists. split; [|split; [reflexivity|]].
  - eapply runs_instr; [intros rest; apply dec_setcc; auto|discriminate|]. cbn [exec]. rewrite C. cbn [wro]. change (8 <? 32) with true. cbv iota.
    replace (Z.b2z c mod 2 ^ 8) with (Z.b2z c) by (destruct c; reflexivity). reflexivity.
  - apply xwf_setr; [exact W|]. replace (Z.b2z c) with (Z.b2z c mod 2 ^ 8) by (destruct c; reflexivity). apply byte_range. apply W.
Qed.
(** The condition in a register. *)
Lemma setcc_movzx_ok : forall t r s c, ctype t -> 1 <= r <= 16 -> xwf s -> cond_val s (jcc t) = Some c ->
  does u (Some (setcc_bytes w (u8 (jump_code t + 0x10)) r ++ movzx_bytes w r)) s (fun s' => wrote w 64 [] s (AReg r) 0 (Z.b2z c) s' /\ flags_same s s').
Proof.
  intros t r s c T R W C. change (Some (setcc_bytes w (u8 (jump_code t + 0x10)) r ++ movzx_bytes w r)) with (Some (setcc_bytes w (u8 (jump_code t + 0x10)) r) +++ Some (movzx_bytes w r)).
  eapply does_seq; [apply setcc_ok; eauto|]. intros s1 W1 E.
  eexists. split; [reflexivity|]. eexists. split.
  - eapply runs_instr; [intros rest; apply dec_movzx; auto|discriminate|]. cbn [exec rdo wro]. change (64 <? 32) with false. cbv iota. reflexivity.
  - assert (V : (xr s1 (reg_map w r) mod 2 ^ 8) mod 2 ^ 64 = Z.b2z c mod 2 ^ 64).
    { rewrite E, setr_same. rewrite Z.add_comm, Z.mod_add by lia. destruct c; reflexivity. }
    rewrite V. split; [|apply xwf_setr; [exact W1|apply wrap_isw]].
    split; [|rewrite E; repeat split]. cbn [wrote]. rewrite setr_same. split; [reflexivity|]. split; [rewrite E; reflexivity|].
    intros q Q I. simpl in I. rewrite setr_reg by (auto; intros ->; tauto). rewrite E. rewrite setr_reg by (auto; intros ->; tauto). reflexivity.
Qed.
Lemma lor_byte : forall x (c : bool), 0 <= x -> x / 2 ^ 8 * 2 ^ 8 + Z.lor (x mod 2 ^ 8) (Z.b2z c) mod 2 ^ 8 = Z.lor x (Z.b2z c).
Proof.
  intros x c X. pose proof (Z.mod_pos_bound x (2 ^ 8) ltac:(lia)) as B.
  assert (L : 0 <= Z.lor (x mod 2 ^ 8) (Z.b2z c) < 2 ^ 8).
  { split; [apply Z.lor_nonneg; split; [lia|destruct c; simpl; lia]|]. destruct (Z.eq_dec (Z.lor (x mod 2 ^ 8) (Z.b2z c)) 0) as [->|N]; [lia|].
    apply Z.log2_lt_pow2; [|]. { assert (0 <= Z.lor (x mod 2 ^ 8) (Z.b2z c)) by (apply Z.lor_nonneg; split; [lia|destruct c; simpl; lia]). lia. }
    rewrite Z.log2_lor by (try lia; destruct c; simpl; lia). apply Z.max_lub_lt.
    - destruct (Z.eq_dec (x mod 2 ^ 8) 0) as [->|]; [reflexivity|]. apply Z.log2_lt_pow2; lia.
    - destruct c; reflexivity. }
  rewrite (Z.mod_small _ _ L). rewrite add_lor by (auto; lia). rewrite Z.lor_assoc. rewrite <- add_lor by lia. f_equal. pose proof (Z.div_mod x (2 ^ 8) ltac:(lia)). lia.
Qed.
(** or of the condition to a register. *)
Lemma or8_ok : forall t d s c, ctype t -> 1 <= d <= 14 -> xwf s -> cond_val s (jcc t) = Some c ->
  does u (Some (setcc_bytes w (u8 (jump_code t + 0x10)) TMP_REG1 ++ or8_bytes w TMP_REG1 d)) s (fun s' => wrote w 64 TMPS s (AReg d) 0 (Z.lor (rv s d) (Z.b2z c)) s').
Proof.
  intros t d s c T D W C. change (Some (setcc_bytes w (u8 (jump_code t + 0x10)) TMP_REG1 ++ or8_bytes w TMP_REG1 d)) with (Some (setcc_bytes w (u8 (jump_code t + 0x10)) TMP_REG1) +++ Some (or8_bytes w TMP_REG1 d)).
  eapply does_seq; [apply setcc_ok; eauto; unfold TMP_REG1; lia|]. intros s1 W1 E.
  assert (T1 : rv s1 TMP_REG1 mod 2 ^ 8 = Z.b2z c). { rewrite E, setr_same. rewrite Z.add_comm, Z.mod_add by lia. destruct c; reflexivity. }
  assert (D1 : rv s1 d = rv s d) by (rewrite E; apply setr_reg; unfold TMP_REG1; lia).
  assert (IW : isw (rv s d)) by apply W.
  eexists. split; [reflexivity|]. eexists. split.
  - eapply runs_instr; [intros rest; apply dec_or8; lia|discriminate|]. cbn [exec rdo wro needs_cf alu_res]. change (8 <? 32) with true. cbv iota. reflexivity.
  - rewrite T1, D1, lor_byte by (apply IW).
    assert (LW : Z.lor (rv s d) (Z.b2z c) mod 2 ^ 64 = Z.lor (rv s d) (Z.b2z c)).
    { rewrite <- (wrap_small (rv s d)) by exact IW. replace (Z.b2z c) with (wrap (Z.b2z c)) by (destruct c; reflexivity). rewrite lor_wrap. unfold wrap. apply Z.mod_mod. lia. }
    split.
    + cbn [wrote xr setfl xm]. rewrite setr_same. split; [symmetry; exact LW|]. split; [rewrite E; reflexivity|].
      intros q Q I. simpl in I. cbn [xr setfl]. rewrite setr_reg by (auto; try lia; intros ->; tauto). rewrite E. apply setr_reg; [unfold TMP_REG1; lia|exact Q|].
      intros ->. apply I. right. left. reflexivity.
    + apply xwf_setfl. apply xwf_setr; [exact W1|]. rewrite <- LW. apply wrap_isw.
Qed.
(** dst op= TMP_REG1 *)
Lemma same_dst_tmp : forall m k D Dw s, k <> Cmp -> needs_cf k = false -> xdst_legal D Dw -> xwf s ->
  let n := size_of m in let y := rv s TMP_REG1 mod 2 ^ n in
  does u (same_dst w m (bop_of k) D Dw (AReg TMP_REG1) 0) s (fun s' =>
    wrote w n TMPS s D Dw (alu_val k n (xval w n s D Dw) y false) s' /\ alu_fl k n (xval w n s D Dw) y false s').
Proof.
  intros m k D Dw s KC NC DL W n y. destruct (dst_sok _ _ DL) as (DK & DI).
  assert (GD : gop D Dw) by (apply sok_gop; auto). assert (CF : cf_in k false s) by (intros Q; congruence).
  unfold same_dst. destruct D as [d| |b' o']; [|discriminate|]; cbn [is_reg].
  - simpl in DL. destruct DL as (DU & ->). eapply does_conseq; [apply alu_rm_ok with (c := false); auto|].
    { split; [exact DK|discriminate]. } { apply sok_gop; [simpl; unfold TMP_REG1; lia|reflexivity]. }
    intros s' _ (A & B). split; [eapply wrote_weaken; [exact A|tm]|]. exact B.
  - eapply does_conseq; [apply alu_mr_ok with (c := false); auto|].
    { split; [unfold TMP_REG1; lia|]. intros _. discriminate. }
    intros s' _ (A & B). split; [eapply wrote_weaken; [exact A|tm]|]. exact B.
Qed.
Definition is_logic (k : op2k) : bool := match k with O_AND | O_OR | O_XOR => true | _ => false end.
Lemma op2_same_tmp : forall o k D Dw, is_logic k = true -> xdst_legal D Dw ->
  emit_op2 w o k D Dw D Dw (AReg TMP_REG1) 0 = same_dst w (f32 o) (bop_of (aluk k)) D Dw (AReg TMP_REG1) 0.
Proof.
  intros o k D Dw K DL. assert (DI : is_imm D = false) by (apply (dst_sok _ _ DL)).
  assert (E : forall b, emit_cum_binary w (f32 o) b D Dw D Dw (AReg TMP_REG1) 0 = same_dst w (f32 o) b D Dw (AReg TMP_REG1) 0).
  { intros b. unfold emit_cum_binary. rewrite arg_eqb_refl, Z.eqb_refl. reflexivity. }
  destruct k; try discriminate K; cbn [emit_op2 aluk bop_of]; rewrite ?DI; cbn [is_imm]; rewrite ?andb_false_r; apply E.
Qed.
(** What sljit_emit_op_flags does to the destination. *)
Definition flags_post (o : op) (k : option op2k) (D : arg) (Dw : Z) (c : bool) (s s' : xst) : Prop :=
  let n := nbits (f32 o) in
  match k with
  | None => wrote w n TMPS s D Dw (Z.b2z c) s' /\ flags_same s s'
  | Some k =>
    let r := res2 k n (xval w n s D Dw) (Z.b2z c) false in
    wrote1 w n (n / 8) (f32 o = true -> has_flags o = true \/ k <> O_OR \/ is_reg D = false) TMPS s D Dw r s'
    /\ (setz o = true -> xzf s' = Some (r mod 2 ^ n =? 0))
  end.
Lemma b2z_n : forall (c : bool) m, Z.b2z c mod 2 ^ size_of m = Z.b2z c. Proof. intros [] []; reflexivity. Qed.
Lemma only_ause : forall L D Dw s s1, xdst_legal D Dw -> only w L s s1 -> incl L TMPS -> forall n, xval w n s1 D Dw = xval w n s D Dw.
Proof.
  intros L D Dw s s1 DL O I n. apply xval_keep with L; [apply dst_sok; exact DL|exact O|]. eapply apart_incl; [apply (src_apart D Dw); apply dst_src; exact DL|exact I].
Qed.
Lemma op_flags_ok : forall o k D Dw t s c, (forall k', k = Some k' -> is_logic k' = true) -> vf o = VNone -> xdst_legal D Dw -> ctype t -> xwf s -> cond_val s (jcc t) = Some c ->
  does u (emit_op_flags w o k D Dw t) s (flags_post o k D Dw c s).
Proof.
  intros o k D Dw t s c KL VF DL T W C. destruct (dst_sok _ _ DL) as (DK & DI). unfold emit_op_flags, flags_post. change (nbits (f32 o)) with (size_of (f32 o)).
  destruct k as [k|].
  - specialize (KL k eq_refl). cbv zeta. set (n := size_of (f32 o)).
    destruct ((match k with O_OR => true | _ => false end) && negb (has_flags o) && is_reg D) eqn:SP.
    + apply andb_prop in SP. destruct SP as (SP & R). apply andb_prop in SP. destruct SP as (KO & HF). destruct k; try discriminate KO. destruct D as [d| |]; try discriminate R.
      simpl in DL. destruct DL as (DU & ->). cbn [reg_of].
      eapply does_conseq; [apply or8_ok with (c := c); eauto; unfold xureg in DU; lia|]. intros s' W' (A1 & A2 & A3).
      unfold has_flags in HF. apply negb_true_iff in HF. apply orb_false_elim in HF. destruct HF as (HZ & HV). split; [|rewrite HZ; discriminate].
      cbn [wrote1]. split; [|split; [|split; [exact A2|exact A3]]].
      * rewrite A1. cbn [res2 xval]. unfold n. destruct (f32 o); cbn [size_of].
        -- assert (Q : forall a, (a mod 2 ^ 64) mod 2 ^ 32 = a mod 2 ^ 32). { intros a. rewrite <- Znumtheory.Zmod_div_mod; try lia. exists (2 ^ 32). reflexivity. }
           rewrite Q. rewrite <- !Z.land_ones, !Z.land_lor_distr_l by lia. repeat rewrite <- Z.land_assoc, Z.land_diag. reflexivity.
        -- rewrite !Z.mod_mod by lia. rewrite (Z.mod_small (rv s d)) by apply W. destruct c; reflexivity.
      * intros H. destruct (f32 o) eqn:F; [|apply W'].
        destruct (H eq_refl) as [H1|[H1|H1]]; [|congruence|discriminate H1]. exfalso. unfold has_flags in H1. rewrite HZ, HV in H1. discriminate.
    + rewrite (op2_same_tmp o k D Dw KL DL).
      eapply does_seq; [apply setcc_movzx_ok with (c := c); eauto; unfold TMP_REG1; lia|]. intros s1 W1 (A & F).
      destruct (wrote_reg_only _ _ _ _ _ _ _ _ A) as (A1 & A2).
      assert (AK : aluk k <> Cmp /\ needs_cf (aluk k) = false) by (destruct k; try discriminate KL; split; try discriminate; reflexivity). destruct AK as (AK1 & AK2).
      eapply does_conseq; [apply same_dst_tmp; [exact AK1|exact AK2|exact DL|exact W1]|]. intros s2 W2 (B1 & B2). cbv zeta in B1, B2. fold n in B1, B2.
      assert (Y : rv s1 TMP_REG1 mod 2 ^ n = Z.b2z c). { rewrite A2. destruct c, (f32 o); reflexivity. }
      rewrite Y in B1, B2. rewrite (only_ause _ D Dw s s1 DL A1 tmp1_in) in B1, B2.
      assert (AV : alu_val (aluk k) n (xval w n s D Dw) (Z.b2z c) false = res2 k n (xval w n s D Dw) (Z.b2z c) false).
      { unfold n. apply alu_res2; [destruct k; try discriminate KL; reflexivity|apply xval_range; exact W|destruct c, (f32 o); vm_compute; split; congruence]. }
      split.
      * rewrite AV in B1. apply wrote_weaken with (L' := TMPS) in B1; [|apply incl_refl].
        pose proof (wrote_trans w n _ _ s s1 D Dw _ s2 DK A1 ltac:(eapply apart_incl; [apply (sok_far_tmp _ _ DK)|apply tmp1_in]) B1) as B.
        apply wrote_weaken with (L' := TMPS) in B; [|apply tmps_app; [apply tmp1_in|apply incl_refl]].
        set (r := res2 k n (xval w n s D Dw) (Z.b2z c) false) in *. clearbody r. destruct D as [d| |b oo]; cbn [wrote wrote1] in *; [|exact B|].
        -- destruct B as (C1 & C2 & C3). split; [rewrite C1; apply Z.mod_mod; apply pow2n|]. split; [|auto]. intros _. rewrite C1. apply Z.mod_pos_bound. unfold n. destruct (f32 o); reflexivity.
        -- destruct B as (C1 & C2). split; [|exact C2]. rewrite C1. replace (8 * (n / 8)) with n by (unfold n; destruct (f32 o); reflexivity). reflexivity.
      * intros _. rewrite <- AV. clear - B2 AK2 KL. unfold alu_val, alu_fl in *. destruct (alu_res (aluk k) n (xval w n s D Dw) (Z.b2z c) false) as ((r & cf) & ov). cbn [fst] in *. destruct B2 as (_ & B2 & _). exact B2.
  - cbv zeta. set (reg := if is_reg D then reg_of D else TMP_REG1).
    assert (RR : 1 <= reg <= 16). { unfold reg. destruct D; cbn [is_reg reg_of]; try (unfold TMP_REG1; lia). simpl in DL. unfold xureg in DL. lia. }
    destruct D as [d| |b oo]; [|discriminate|]; cbn [is_reg reg_of] in reg.
    + simpl in DL. destruct DL as (DU & ->). unfold xureg in DU.
      replace (reg =? TMP_REG1) with false by (symmetry; apply Z.eqb_neq; unfold reg, TMP_REG1; lia).
      eapply does_seq; [apply setcc_movzx_ok with (c := c); eauto|]. intros s1 W1 ((A1 & A2 & A3) & F). apply does_nil; [exact W1|]. split; [|exact F].
      change reg with d in A1, A3. cbn [wrote]. split; [rewrite A1; destruct c, (f32 o); reflexivity|]. split; [exact A2|]. eapply regs_weaken; [exact A3|]. intros x [X|[]]. left. exact X.
    + change (reg =? TMP_REG1) with true. cbv iota.
      eapply does_seq; [apply setcc_movzx_ok with (c := c); eauto|]. intros s1 W1 (A & F). destruct (wrote_reg_only _ _ _ _ _ _ _ _ A) as (A1 & A2).
      eapply does_conseq; [apply mov_from_tmp; [exact DK|exact DI|exact W1]|]. intros s2 W2 (B & F2). split; [|eapply flags_trans; eauto].
      eapply wrote_val; [eapply wrote_weaken; [eapply wrote_trans; [exact DK|exact A1| |exact B]|]|].
      * eapply apart_incl; [apply (sok_far_tmp _ _ DK)|apply tmp1_in].
      * apply tmps_app; [apply tmp1_in|apply incl_refl].
      * change reg with TMP_REG1 in A2. rewrite A2. destruct c, (f32 o); reflexivity.
Qed.

(** ** Conditional moves *)
Lemma put_b_len : forall f x b immb, (length (put_b w f x b immb) <= 6)%nat.
Proof.
  intros f x b immb. destruct b as [r| |base offs]; cbn [put_b]; [simpl; lia|simpl; lia|]. destruct (base =? 0); [simpl; lia|]. cbv zeta.
  destruct ((offs =? 0) || (offs =? SLJIT_SP)); rewrite app_length.
  - destruct (offs =? 0); destruct (negb (immb =? 0) || (reg_lmap w base =? 5)); try (destruct (disp8 immb)); simpl; lia.
  - destruct (reg_lmap w base =? 5); simpl; lia.
Qed.
Lemma emit_len : forall m f a imma b immb x, emit_x86 w m f a imma b immb = Some x -> (length (o_pre x) <= 10 /\ length (o_head x) <= 2 /\ length (o_tail x) <= 10)%nat.
Proof.
  intros m f a imma b immb x H. unfold emit_x86 in H. destruct (negb (asserts m f a imma)); [discriminate|]. cbv zeta in H.
  destruct (big_disp w b immb) as ((pre & b1) & i1) eqn:EB.
  assert (P : (length pre <= 10)%nat).
  { unfold big_disp in EB. destruct b as [r| |base offs]; [|injection EB as <- _ _; simpl; lia|]; [injection EB as <- _ _; simpl; lia|].
    destruct offs; try (injection EB as <- _ _; simpl; lia). destruct (not_halfword immb); injection EB as <- _ _; simpl; lia. }
  destruct (size_b w f _ b1 i1) as [((b2 & szb) & rex)|]; [|discriminate].
  destruct (f_vex f && negb (Z.land rex 3 =? 0) && negb (f_size f =? 2)); [discriminate|].
  destruct (size_a w m f rex a imma) as [((sza & byte) & rex2)|]; [|discriminate].
  match type of H with (if ?c then _ else _) = _ => destruct c; [|discriminate] end. injection H as <-. cbn [o_pre o_head o_tail].
  split; [exact P|]. split.
  - rewrite app_length. destruct (f_f2 f), (f_f3 f), (f_66 f), (rex2 =? 0); simpl; lia.
  - rewrite app_length. match goal with |- (length (put_b w f ?y b2 i1) + _ <= _)%nat => pose proof (put_b_len f y b2 i1) end.
    match goal with |- (_ + ?y <= _)%nat => assert (y <= 4)%nat; [|lia] end. destruct (is_imm a); [|simpl; lia]. destruct byte; [simpl; lia|]. destruct (f_half f); [simpl; lia|]. destruct (f_shift f); simpl; lia.
Qed.
Lemma ins_len : forall m f op a imma b immb l, ins w m f op a imma b immb = Some l -> (length l <= 30)%nat.
Proof.
  intros m f op a imma b immb l H. unfold ins in H. destruct (emit_x86 w m f a imma b immb) as [x|] eqn:E; [|discriminate]. cbn in H. injection H as <-.
  destruct (emit_len _ _ _ _ _ _ _ E) as (A & B & C). unfold put1. rewrite !app_length. cbn [length]. lia.
Qed.
Lemma mov_len : forall m d A Aw l, emit_mov w m (AReg d) 0 A Aw = Some l -> (length l <= 30)%nat.
Proof.
  intros m d A Aw l H. destruct A as [r| |b oo]; cbn [emit_mov] in H.
  - eapply ins_len; eauto.
  - destruct (negb m); [destruct (not_halfword Aw)|].
    + injection H as <-. simpl. lia.
    + eapply ins_len; eauto.
    + injection H as <-. unfold do_imm32. rewrite app_length. destruct ((if 8 <=? reg_map w d then REX_B else 0) =? 0); simpl; lia.
  - eapply ins_len; eauto.
Qed.
Lemma ctype_inv : forall t, ctype t -> ctype (Z.lxor t 1). Proof. intros t H. alltypes t; vm_compute; split; congruence. Qed.
Lemma jcc_70 : forall t, ctype t -> u8 (jump_code t - 0x10) = 0x70 + jcc t. Proof. intros t H. alltypes t; reflexivity. Qed.
Lemma jcc_40 : forall t, ctype t -> u8 (jump_code t - 0x40) = 0x40 + jcc t. Proof. intros t H. alltypes t; reflexivity. Qed.
Lemma jcc_inv : forall s t c, ctype t -> cond_val s (jcc t) = Some c -> cond_val s (jcc (Z.lxor t 1)) = Some (negb c).
Proof. intros s t c T H. apply cond_inv; [unfold ctype in T; lia|exact H]. Qed.
Notation wr1 m ex L s d v s' := (wrote1 w (size_of m) (size_of m / 8) ex L s (AReg d) 0 v s').
(** The register is moved to if the condition holds. *)
Lemma cmov_generic_ok : forall m t d A Aw s c, ctype t -> xureg d -> sok A Aw -> xwf s -> cond_val s (jcc t) = Some c ->
  does u (emit_cmov_generic w m t d A Aw) s (fun s' =>
    (if c : bool then wrote w (size_of m) TMPS s (AReg d) 0 (xval w (size_of m) s A Aw) s' else s' = s) /\ flags_same s s').
Proof.
  intros m t d A Aw s c T D K W C. unfold xureg in D. unfold emit_cmov_generic.
  destruct (mov_ok u w m (AReg d) 0 A Aw s) as (l & E & s2 & R & (B & F) & W2); [simpl; lia|reflexivity|exact K|discriminate|exact W|]. rewrite E.
  pose proof (mov_len _ _ _ _ _ E) as LL. rewrite jcc_70 by (apply ctype_inv; exact T).
  eexists. split; [reflexivity|]. exists (if c then s2 else s). split; [|split].
  - apply (skip_ok u (jcc (Z.lxor t 1)) l s _ (negb c)); [apply jcc_range, ctype_inv, T|lia|apply jcc_inv; auto|]. destruct c; [exact R|reflexivity].
  - destruct c; [|split; [reflexivity|apply flags_refl]]. split; [|exact F]. eapply wrote_weaken; [exact B|]. apply mov_tmps_TMPS.
  - destruct c; auto.
Qed.
(** The second part of sljit_emit_select. *)
Definition sel_tail (cmov m : bool) (t d : Z) (A : arg) (Aw : Z) : option (list Z) :=
  if cmov then
     let '(c, A, Aw) := if is_imm A then (emit_mov w m (AReg TMP_REG2) 0 A Aw, AReg TMP_REG2, 0) else (Some [], A, Aw) in
     c +++ groupf w m false (u8 (jump_code t - 0x40)) d A Aw
   else emit_cmov_generic w m t d A Aw.
Lemma cat_nil : forall c, Some [] +++ c = c. Proof. intros [l|]; reflexivity. Qed.
Lemma flags_cond : forall s s' cc, flags_same s s' -> cond_val s' cc = cond_val s cc.
Proof. intros s s' cc (F1 & F2 & F3 & F4). unfold cond_val, cond_base. rewrite F1, F2, F3, F4. reflexivity. Qed.
Lemma select_tail : forall cmov m t d A Aw s c, ctype t -> xureg d -> xsrc_legal A Aw -> xwf s -> cond_val s (jcc t) = Some c ->
  let n := size_of m in
  does u (sel_tail cmov m t d A Aw) s (fun s' => only w (d :: TMPS) s s' /\
    rv s' d = (if c : bool then xval w n s A Aw else if cmov then rv s d mod 2 ^ n else rv s d) /\ flags_same s s').
Proof.
  intros cmov m t d A Aw s c T D L W C n. pose proof (src_sok _ _ L) as K. assert (DR : 1 <= d <= 13) by exact D. unfold sel_tail. destruct cmov.
  - assert (G : forall A Aw s, sok A Aw -> is_imm A = false -> okr A Aw d -> xwf s -> cond_val s (jcc t) = Some c -> does u (groupf w m false (u8 (jump_code t - 0x40)) d A Aw) s (fun s' =>
        only w (d :: TMPS) s s' /\ rv s' d = (if c : bool then xval w n s A Aw else rv s d mod 2 ^ n) /\ flags_same s s')).
    { clear - T DR. intros A Aw s K IM OK W C. rewrite jcc_40 by exact T. eapply does_conseq; [apply cmov_ok; [apply jcc_range; exact T|exact OK|apply sok_gop; auto|exact W|exact C]|].
      intros s' _ ((A1 & A2 & A3) & F). split; [|split; [|exact F]].
      - split; [exact A2|]. eapply regs_weaken; [exact A3|]. intros x [X|X]; [left; exact X|right; eapply ftmp_TMPS; exact X].
      - rewrite A1. destruct c; [|reflexivity]. apply Z.mod_small. apply xval_range. exact W. }
    destruct (is_imm A) eqn:IM.
    + eapply does_seq; [apply movr_ok; [unfold TMP_REG2; lia|exact K|exact W]|]. intros s1 W1 (O1 & V1 & F1).
      eapply does_conseq; [apply G; [simpl; unfold TMP_REG2; lia|reflexivity|split; [lia|discriminate]|exact W1|rewrite (flags_cond s s1); [exact C|exact F1]]|].
      intros s2 _ (O2 & V2 & F2). destruct A as [| |]; try discriminate. split; [|split].
      * eapply X86Op1.only_trans; [exact O1|exact O2| |]; [intros x [X|[]]; subst; unfold TMPS, TMP_REG2; simpl; auto|intros x X; exact X].
      * rewrite V2. destruct c.
        -- change (xval w n s1 (AReg TMP_REG2) 0) with (rv s1 TMP_REG2 mod 2 ^ n). rewrite V1. apply Z.mod_small. apply (xval_range w m). exact W.
        -- f_equal. apply (proj2 O1); [lia|]. simpl. unfold TMP_REG2. lia.
      * eapply flags_trans; eauto.
    + cbn [cat]. destruct (G A Aw s K IM) as (l & E & H); auto.
      { split; [lia|]. intros _. unfold TMP_REG2. lia. } rewrite E. exists l. auto.
  - eapply does_conseq; [apply cmov_generic_ok; eauto|]. intros s' _ (B & F). destruct c.
    + destruct B as (B1 & B2 & B3). split; [split; [exact B2|exact B3]|]. split; [|exact F]. rewrite B1. apply Z.mod_small. apply xval_range. exact W.
    + subst s'. split; [split; [reflexivity|intros q Q N; reflexivity]|]. auto.
Qed.
Lemma select_ok : forall cmov m t d A Aw r2 s c, ctype t -> xureg d -> xsrc_legal A Aw -> xureg r2 -> xwf s -> cond_val s (jcc t) = Some c ->
  let n := size_of m in
  does u (emit_select w cmov m t d A Aw r2) s (fun s' =>
    wrote1 w n (n / 8) (cmov = true \/ (d <> r2 /\ A <> AReg d)) TMPS s (AReg d) 0 (if c then xval w n s A Aw else rv s r2) s' /\ flags_same s s').
Proof.
  intros cmov m t d A Aw r2 s c T D L R2 W C n. pose proof (src_sok _ _ L) as K. assert (DR : 1 <= d <= 13) by exact D. assert (RR : 1 <= r2 <= 13) by exact R2.
  assert (T' := ctype_inv t T). assert (C' := jcc_inv s t c T C). assert (LR : xsrc_legal (AReg r2) 0) by (split; [exact R2|reflexivity]).
  assert (PN : 0 < 2 ^ n) by (unfold n, size_of; destruct m; reflexivity).
  assert (XV : forall s0, xwf s0 -> forall A Aw, 0 <= xval w n s0 A Aw < 2 ^ n) by (intros; apply xval_range; auto).
  unfold emit_select. destruct (Z.eqb_spec d r2) as [E|E]; cbn [negb].
  - subst r2. change (does u (Some [] +++ sel_tail cmov m t d A Aw) s (fun s' => wrote1 w n (n / 8) (cmov = true \/ (d <> d /\ A <> AReg d)) TMPS s (AReg d) 0 (if c then xval w n s A Aw else rv s d) s' /\ flags_same s s')).
    rewrite cat_nil. eapply does_conseq; [apply select_tail; eauto|]. intros s' _ ((O1 & O2) & V & F). split; [|exact F]. cbn [wrote1]. rewrite V. fold n.
    split; [destruct c, cmov; try reflexivity; apply Z.mod_mod; lia|]. split; [|split; [exact O1|exact O2]].
    intros [X|(X & _)]; [|congruence]. subst cmov. destruct c; [apply XV; auto|apply Z.mod_pos_bound; lia].
  - destruct (arg_eqb (AReg d) A) eqn:EA.
    + apply arg_eqb_eq in EA. subst A. change (does u (Some [] +++ sel_tail cmov m (Z.lxor t 1) d (AReg r2) 0) s (fun s' => wrote1 w n (n / 8) (cmov = true \/ (d <> r2 /\ AReg d <> AReg d)) TMPS s (AReg d) 0 (if c then xval w n s (AReg d) Aw else rv s r2) s' /\ flags_same s s')).
      rewrite cat_nil. eapply does_conseq; [apply select_tail; eauto|]. intros s' _ ((O1 & O2) & V & F). split; [|exact F]. cbn [wrote1]. rewrite V. fold n. cbn [xval].
      split; [destruct c, cmov; cbn [negb]; rewrite ?Z.mod_mod by lia; reflexivity|]. split; [|split; [exact O1|exact O2]].
      intros [X|(_ & X)]; [|congruence]. subst cmov. destruct c; apply Z.mod_pos_bound; lia.
    + assert (NA : A <> AReg d) by (intros ->; rewrite arg_eqb_refl in EA; discriminate).
      destruct (depends A d) eqn:DE.
      * change (does u (emit_mov w m (AReg d) 0 A Aw +++ sel_tail cmov m (Z.lxor t 1) d (AReg r2) 0) s (fun s' => wrote1 w n (n / 8) (cmov = true \/ (d <> r2 /\ A <> AReg d)) TMPS s (AReg d) 0 (if c then xval w n s A Aw else rv s r2) s' /\ flags_same s s')).
        eapply does_seq; [apply movr_ok; [lia|exact K|exact W]|]. intros s1 W1 (O1 & V1 & F1). rewrite <- (flags_cond s s1) in C' by exact F1.
        eapply does_conseq; [apply select_tail; eauto|]. intros s' _ (O2 & V & F2). split; [|eapply flags_trans; eauto].
        assert (R2V : rv s1 r2 = rv s r2). { apply (proj2 O1); [lia|]. intros [X|X]; [congruence|]. apply ftmp_TMPS in X. unfold TMPS in X. simpl in X. lia. }
        assert (VV : rv s' d = if c then xval w n s A Aw else rv s r2 mod 2 ^ n).
        { rewrite V. cbn [xval]. rewrite R2V. destruct c, cmov; cbn [negb]; fold n in V1; rewrite ?V1; try reflexivity; apply Z.mod_small, XV; auto. }
        destruct (X86Op1.only_trans _ _ _ (d :: TMPS) _ _ _ O1 O2) as (OA & OB); [intros x [X|X]; [left; exact X|right; eapply ftmp_TMPS; exact X]|intros x X; exact X|].
        cbn [wrote1]. rewrite VV. split; [destruct c; [reflexivity|apply Z.mod_mod; lia]|]. split; [|auto]. intros _. destruct c; [apply XV; auto|apply Z.mod_pos_bound; lia].
      * change (does u (emit_mov w m (AReg d) 0 (AReg r2) 0 +++ sel_tail cmov m t d A Aw) s (fun s' => wrote1 w n (n / 8) (cmov = true \/ (d <> r2 /\ A <> AReg d)) TMPS s (AReg d) 0 (if c then xval w n s A Aw else rv s r2) s' /\ flags_same s s')).
        eapply does_seq; [apply (movr_ok u w m d (AReg r2) 0 s); [lia|simpl; lia|exact W]|]. intros s1 W1 (O1 & V1 & F1). rewrite <- (flags_cond s s1) in C by exact F1.
        eapply does_conseq; [apply select_tail; eauto|]. intros s' _ (O2 & V & F2). split; [|eapply flags_trans; eauto].
        assert (AV : xval w n s1 A Aw = xval w n s A Aw).
        { eapply xval_keep; [exact K|exact O1|]. change (ftmp (AReg r2) 0) with (@nil Z). intros r X Y [Z0|[]]. subst r. destruct A as [r0| |b0 o0]; simpl in X; cbn [depends] in DE.
          - destruct X as [X|[]]. subst. contradiction.
          - destruct X.
          - apply orb_false_iff in DE. destruct DE as (D1 & D2). apply Z.eqb_neq in D1, D2. destruct X as [X|[X|[]]]; congruence. }
        assert (VV : rv s' d = if c then xval w n s A Aw else rv s r2 mod 2 ^ n).
        { rewrite V. fold n. rewrite AV. cbn [xval] in V1. fold n in V1. rewrite V1. destruct c; [reflexivity|]. destruct cmov; [apply Z.mod_mod; lia|reflexivity]. }
        destruct (X86Op1.only_trans _ _ _ (d :: TMPS) _ _ _ O1 O2) as (OA & OB); [intros x [X|[]]; left; exact X|intros x X; exact X|].
        cbn [wrote1]. rewrite VV. split; [destruct c; [reflexivity|apply Z.mod_mod; lia]|]. split; [|auto]. intros _. destruct c; [apply XV; auto|apply Z.mod_pos_bound; lia].
Qed.
End U.
