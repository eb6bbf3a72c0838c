(** The effect of each emitted instruction, continued: immediates, unary operations, multiplication, addresses, shifts. *)
Require Import ZArith List Bool Lia.
From Verif Require Import Rv.RvLib Rv.RvIsa Rv.RvMem Rv.RvMemProofs Rv.RvEmitOp1 X86.X86Isa X86.X86Emit X86.X86Spec X86.X86Enc X86.X86EncTop X86.X86OpSpec X86.X86Op X86.X86Ins.
Import ListNotations.
Ltac Zify.zify_post_hook ::= idtac.
Open Scope Z_scope.

Lemma sext_mod_le : forall k n v, 1 <= n -> n <= k -> (sext k v) mod 2 ^ n = v mod 2 ^ n.
Proof.
  intros k n v H K. destruct (sext_mod k v ltac:(lia)) as (q & E). rewrite E at 2.
  replace (2 ^ k) with (2 ^ (k - n) * 2 ^ n) by (rewrite <- Z.pow_add_r by lia; f_equal; lia).
  rewrite Z.mul_assoc, Z.mod_add; [reflexivity|]. apply Z.pow_nonzero; lia.
Qed.
Lemma pow2n : forall m, 2 ^ size_of m <> 0. Proof. destruct m; vm_compute; discriminate. Qed.
Definition immok (m : bool) (v : Z) : Prop := m = false -> - 2 ^ 31 <= v < 2 ^ 31.
Lemma sext32_imm : forall m v, immok m v -> sext 32 v mod 2 ^ size_of m = v mod 2 ^ size_of m.
Proof.
  intros [] v H.
  - apply sext_mod_le; vm_compute; discriminate.
  - rewrite sext_small; [reflexivity|lia|]. unfold immok in H. specialize (H eq_refl). cbv zeta. lia.
Qed.
Lemma sext8_imm : forall v, disp8 v = true -> sext 8 v = v.
Proof. intros v H. unfold disp8 in H. apply andb_prop in H. apply sext_small; lia. Qed.

Section U.
Variables (u : Z) (w m : bool).
Notation n := (size_of m).
Lemma mov_imm_ok : forall imm b immb s, immok m imm -> gop b immb -> xwf s ->
  does u (ins w m (fl 1) 0xc7 AImm imm b immb) s (fun s' => wrote w n (ftmp b immb) s b immb (imm mod 2 ^ n) s' /\ flags_same s s').
Proof.
  intros imm b immb s I (G & G0) W.
  destruct (ins_imm u w m 0xc7 imm b immb (fun r o l =>
    if r mod 8 =? 0 then match sle 4 l with Some (v, l) => Some (XMov n o (OI v), l) | None => None end else None)) as (l & opn & E & S & RUN); auto.
  { opb. } { discriminate. } { intros; apply dec_mov_imm; auto. }
  destruct (same_wr w (fl 1) b immb opn n s (imm mod 2 ^ n) S eq_refl (size_of_cases m) G G0 W) as (s1 & W1 & W2 & W3 & W4).
  exists l. split; [exact E|]. exists s1. split; [|split; [split; assumption|exact W4]].
  eapply RUN; [intros; cbv beta; change (0 mod 8 =? 0) with true; cbv iota; rewrite sle_app by lia; reflexivity|exact Logic.I|].
  cbn [exec rdo]. change (8 * Z.of_nat 4) with 32. rewrite sext32_imm by exact I. exact W1.
Qed.
Lemma load_imm_ok : forall r imm s, 1 <= r <= 16 -> xwf s ->
  does u (Some (load_imm64 w r imm)) s (fun s' => wrote w 64 [] s (AReg r) 0 imm s' /\ flags_same s s').
Proof.
  intros r imm s R W. eexists. split; [reflexivity|]. eexists. split; [apply load_imm64_ok; unfold isreg; lia|].
  split; [|apply xwf_setr; [exact W|apply wrap_isw]].
  split; [|repeat split]. cbn [wrote]. rewrite setr_same. split; [reflexivity|]. split; [reflexivity|].
  intros q Q I. simpl in I. apply setr_reg; auto; intros ->; tauto.
Qed.
Lemma decode_imm32_b8 : forall r imm rest, isreg r ->
  decode (do_imm32 (if 8 <=? reg_map w r then REX_B else 0) (u8 (Z.lor 0xb8 (reg_lmap w r))) imm ++ rest) = Some (XMov 32 (OR (reg_map w r)) (OI (sext 32 imm)), rest).
Proof.
  intros r imm rest R. destruct (reg_facts w r R) as (A & B & C & D).
  unfold do_imm32. rewrite lor_b8 by exact A. set (k := reg_lmap w r) in *. rewrite B. clearbody k.
  rewrite <- app_assoc. change ((184 + k :: lebytes 4 imm) ++ rest) with (184 + k :: lebytes 4 imm ++ rest).
  set (t := lebytes 4 imm ++ rest). assert (T : sle 4 t = Some (sext 32 imm, rest)) by (unfold t; apply sle_app; lia). clearbody t.
  assert (k = 0 \/ k = 1 \/ k = 2 \/ k = 3 \/ k = 4 \/ k = 5 \/ k = 6 \/ k = 7) as K by lia.
  destruct (8 <=? reg_map w r); destruct K as [K | [K | [K | [K | [K | [K | [K | K]]]]]]]; subst k;
    cbv beta iota zeta delta [decode get_pfx get_rex app REX_B Z.add Z.eqb Pos.eqb Pos.add Pos.add_carry Pos.succ decode1 osize rW];
    match goal with |- ?L = Some (XMov 32 (OR ?q) _, _) => change L with (match sle 4 t with Some (v, l) => Some (XMov 32 (OR q) (OI v), l) | None => None end) end;
    rewrite T; reflexivity.
Qed.
Lemma mov_b8_ok : forall r imm s, 1 <= r <= 16 -> xwf s ->
  does u (Some (do_imm32 (if 8 <=? reg_map w r then REX_B else 0) (u8 (Z.lor 0xb8 (reg_lmap w r))) imm)) s
    (fun s' => wrote w 32 [] s (AReg r) 0 imm s' /\ flags_same s s').
Proof.
  intros r imm s R W. eexists. split; [reflexivity|]. eexists. split.
  { eapply runs_instr; [intros; apply decode_imm32_b8; unfold isreg; lia|discriminate|]. cbn [exec wro rdo]. reflexivity. }
  change (32 <? 32) with false. cbv iota. rewrite Z.mod_mod by (vm_compute; discriminate). rewrite sext_mod_le by lia.
  split; [|apply xwf_setr; [exact W|apply isw_mod32]].
  split; [|repeat split]. cbn [wrote]. rewrite setr_same. split; [reflexivity|]. split; [reflexivity|].
  intros q Q I. simpl in I. apply setr_reg; auto; intros ->; tauto.
Qed.
(** Binary operations with immediates *)
Definition acode (k : alu) : Z := match k with Add => 0 | Or => 1 | Adc => 2 | Sbb => 3 | And => 4 | Sub => 5 | Xor => 6 | Cmp => 7 end.
Lemma acode_ok : forall k, b_imm (bop_of k) = 8 * acode k /\ alu_of ((0 + acode k) mod 8) = k /\ 0 <= acode k < 8 /\ b_eax (bop_of k) = 8 * acode k + 5.
Proof. destruct k; repeat split; vm_compute; congruence. Qed.
(** The instruction with an immediate operand [o] on the state after the displacement was loaded. *)
Lemma bin_imm_run : forall k imm b immb, immok m imm -> gop b immb ->
  exists l opn v, binary_imm32 w m (b_imm (bop_of k)) imm b immb = Some l /\ same_operand w (with_bin (fl 1)) b immb opn /\ v mod 2 ^ n = imm mod 2 ^ n
    /\ forall s s', exec u (after_pre w b immb s) (XAlu k n opn (OI v)) = Some s' -> runs u l s s'.
Proof.
  intros k imm b immb I (G & G0). destruct (acode_ok k) as (A1 & A2 & A3 & _). rewrite A1. unfold binary_imm32.
  set (f := with_bin (fl 1)). set (op := if disp8 imm then 0x83 else 0x81).
  set (mk := fun (r : Z) (o : opd) (l : list Z) =>
    if disp8 imm then match sle 1 l with Some (v, l) => Some (XAlu (alu_of (r mod 8)) n o (OI v), l) | None => None end
    else match sle 4 l with Some (v, l) => Some (XAlu (alu_of (r mod 8)) n o (OI v), l) | None => None end).
  destruct (ins_run u w m f AImm imm b immb false op (acode k) [] mk) as (o & opn & E & S & F & RUN).
  - unfold flags_ok, f. cbn. repeat split; auto; try lia; try (intros (A & B); discriminate); intros [A|A]; discriminate.
  - simpl. auto.
  - exact G.
  - split; [exact A3|]. intros Q; discriminate.
  - intros _. unfold op. destruct (disp8 imm); split; try opb; discriminate.
  - intros x H _. cbn in H. rewrite andb_true_r in H. unfold op, mk. destruct (disp8 imm); [apply dec_83|apply dec_81]; exact H.
  - exists (putf (8 * acode k) o), opn, (if disp8 imm then imm else sext 32 imm).
    split. { rewrite E. reflexivity. }
    split; [exact S|]. split.
    { destruct (disp8 imm); [reflexivity|]. apply sext32_imm. exact I. }
    intros s s' EX. rewrite <- (bytes_putf op); [|rewrite F; unfold want_first, f; cbn; reflexivity].
    eapply RUN; [| |exact EX]; [|exact Logic.I].
    intros rest. unfold want_reg, mk, imm_size. unfold f. cbn [with_bin fl f_bin]. rewrite A2.
    change ((-128 <=? imm) && (imm <=? 127)) with ((-128 <=? imm) && (imm <=? 127)). rewrite andb_comm. fold (disp8 imm).
    destruct (disp8 imm) eqn:DD; cbn [app].
    + rewrite sle_app by lia. change (8 * Z.of_nat 1) with 8. rewrite sext8_imm by exact DD. reflexivity.
    + rewrite sle_app by lia. reflexivity.
Qed.
Lemma alu_imm_ok : forall k imm b immb s c, k <> Cmp -> immok m imm -> gop b immb -> xwf s -> cf_in k c s ->
  does u (binary_imm32 w m (b_imm (bop_of k)) imm b immb) s (fun s' =>
    wrote w n (ftmp b immb) s b immb (alu_val k n (xval w n s b immb) (imm mod 2 ^ n) c) s' /\ alu_fl k n (xval w n s b immb) (imm mod 2 ^ n) c s').
Proof.
  intros k imm b immb s c KC I GO W C. destruct (bin_imm_run k imm b immb I GO) as (l & opn & v & E & S & V1 & RUN). destruct GO as (G & G0).
  destruct (same_wr w _ b immb opn n s (alu_val k n (xval w n s b immb) (imm mod 2 ^ n) c) S eq_refl (size_of_cases m) G G0 W) as (s1 & W1 & W2 & W3 & W4).
  pose proof (same_rd w _ b immb opn n s S eq_refl) as V.
  destruct (exec_alu u (after_pre w b immb s) k n opn (OI v) c s1 (cf_after w _ _ _ _ _ C) KC) as (t & T1 & T2 & T3 & T4).
  { cbn [rdo] in *. rewrite V, V1. exact W1. }
  exists l. split; [exact E|]. exists t. split; [apply RUN; exact T1|]. split.
  - split; [eapply wrote_ext; eauto|]. rewrite V in T2. cbn [rdo] in T2. rewrite V1 in T2. exact T2.
  - eapply xwf_ext; eauto.
Qed.
Lemma cmp_imm_ok : forall imm b immb s c, immok m imm -> gop b immb -> xwf s ->
  does u (binary_imm32 w m 0x38 imm b immb) s (fun s' => only w (ftmp b immb) s s' /\ alu_fl Cmp n (xval w n s b immb) (imm mod 2 ^ n) c s').
Proof.
  intros imm b immb s c I GO W. destruct (bin_imm_run Cmp imm b immb I GO) as (l & opn & v & E & S & V1 & RUN). destruct GO as (G & G0).
  pose proof (same_rd w _ b immb opn n s S eq_refl) as V.
  destruct (exec_cmp u (after_pre w b immb s) n opn (OI v) c) as (t & T1 & T2 & T3 & T4).
  exists l. split; [exact E|]. exists t. split; [apply RUN; exact T1|]. split.
  - split; [apply only_after; assumption|]. rewrite V in T2. cbn [rdo] in T2. rewrite V1 in T2. exact T2.
  - eapply xwf_ext; [apply (after_pre_wf w b immb s W)|exact T3].
Qed.
(** The short forms on RAX *)
Lemma decode_eax : forall k imm rest, decode (do_imm32 (if m then 0 else REX_W) (b_eax (bop_of k)) imm ++ rest) = Some (XAlu k n (OR 0) (OI (sext 32 imm)), rest).
Proof.
  intros k imm rest. unfold do_imm32. rewrite <- app_assoc.
  change ((b_eax (bop_of k) :: lebytes 4 imm) ++ rest) with (b_eax (bop_of k) :: lebytes 4 imm ++ rest).
  set (t := lebytes 4 imm ++ rest). assert (T : sle 4 t = Some (sext 32 imm, rest)) by (unfold t; apply sle_app; lia). clearbody t.
  destruct m, k;
    match goal with |- ?L = Some (XAlu ?k ?n (OR 0) (OI _), _) => change L with (match sle 4 t with Some (v, l) => Some (XAlu k n (OR 0) (OI v), l) | None => None end) end;
    rewrite T; reflexivity.
Qed.
Lemma decode_test_eax : forall imm rest, decode (do_imm32 (if m then 0 else REX_W) 0xa9 imm ++ rest) = Some (XTest n (OR 0) (OI (sext 32 imm)), rest).
Proof.
  intros imm rest. unfold do_imm32. rewrite <- app_assoc.
  change ((0xa9 :: lebytes 4 imm) ++ rest) with (0xa9 :: lebytes 4 imm ++ rest).
  set (t := lebytes 4 imm ++ rest). assert (T : sle 4 t = Some (sext 32 imm, rest)) by (unfold t; apply sle_app; lia). clearbody t.
  destruct m;
    match goal with |- ?L = Some (XTest ?n (OR 0) (OI _), _) => change L with (match sle 4 t with Some (v, l) => Some (XTest n (OR 0) (OI v), l) | None => None end) end;
    rewrite T; reflexivity.
Qed.
Lemma r0_rax : reg_map w R0 = 0. Proof. destruct w; reflexivity. Qed.
Lemma rcx_pref : reg_map w PREF_SHIFT_REG = 1. Proof. destruct w; reflexivity. Qed.
Lemma alu_eax_ok : forall k imm s c, k <> Cmp -> immok m imm -> xwf s -> cf_in k c s ->
  does u (binary_eax_imm m (b_eax (bop_of k)) imm) s (fun s' =>
    wrote w n [] s (AReg R0) 0 (alu_val k n (xr s (reg_map w R0) mod 2 ^ n) (imm mod 2 ^ n) c) s'
    /\ alu_fl k n (xr s (reg_map w R0) mod 2 ^ n) (imm mod 2 ^ n) c s').
Proof.
  intros k imm s c KC I W C.
  destruct (reg_wrote w m (AReg R0) 0 s R0 (alu_val k n (xr s (reg_map w R0) mod 2 ^ n) (imm mod 2 ^ n) c)) as (s1 & W1 & W2 & W3 & W4).
  { split; [unfold R0; lia|discriminate]. } { exact W. }
  change (after_pre w (AReg R0) 0 s) with s in W1. change (ftmp (AReg R0) 0) with (@nil Z) in W2.
  destruct (exec_alu u s k n (OR (reg_map w R0)) (OI (sext 32 imm)) c s1 C KC) as (t & T1 & T2 & T3 & T4).
  { cbn [rdo]. rewrite sext32_imm by exact I. exact W1. }
  eexists. split; [reflexivity|]. exists t. split.
  { rewrite r0_rax in T1. eapply runs_instr; [intros; apply decode_eax|discriminate|exact T1]. }
  split; [|eapply xwf_ext; eauto]. split; [eapply wrote_ext; eauto|].
  cbn [rdo] in T2. rewrite sext32_imm in T2 by exact I. exact T2.
Qed.
Lemma cmp_eax_ok : forall imm s c, immok m imm -> xwf s ->
  does u (binary_eax_imm m 0x3d imm) s (fun s' => only w [] s s' /\ alu_fl Cmp n (xr s (reg_map w R0) mod 2 ^ n) (imm mod 2 ^ n) c s').
Proof.
  intros imm s c I W.
  destruct (exec_cmp u s n (OR (reg_map w R0)) (OI (sext 32 imm)) c) as (t & T1 & T2 & T3 & T4).
  eexists. split; [reflexivity|]. exists t. split.
  { rewrite r0_rax in T1. eapply runs_instr; [intros; apply (decode_eax Cmp)|discriminate|exact T1]. }
  split; [|eapply xwf_ext; eauto]. split; [split; [exact T4|intros q Q _; rewrite T3; reflexivity]|].
  cbn [rdo] in T2. rewrite sext32_imm in T2 by exact I. exact T2.
Qed.
Lemma test_eax_ok : forall imm s c, immok m imm -> xwf s ->
  does u (binary_eax_imm m 0xa9 imm) s (fun s' => only w [] s s' /\ alu_fl And n (xr s (reg_map w R0) mod 2 ^ n) (imm mod 2 ^ n) c s').
Proof.
  intros imm s c I W. eexists. split; [reflexivity|]. eexists. split.
  { eapply runs_instr; [intros; apply decode_test_eax|discriminate|]. cbn [exec]. reflexivity. }
  split; [|apply xwf_setfl; exact W]. split; [split; [reflexivity|intros q Q _; reflexivity]|].
  cbn [rdo]. rewrite sext32_imm by exact I. rewrite r0_rax. repeat split.
Qed.
Lemma test_i_ok : forall imm b immb s c, immok m imm -> gop b immb -> xwf s ->
  does u (ins w m (fl 1) 0xf7 AImm imm b immb) s (fun s' => only w (ftmp b immb) s s' /\ alu_fl And n (xval w n s b immb) (imm mod 2 ^ n) c s').
Proof.
  intros imm b immb s c I (G & G0) W.
  destruct (ins_imm u w m 0xf7 imm b immb _ I G ltac:(opb) ltac:(discriminate) (dec_f7 m)) as (l & opn & E & S & RUN).
  pose proof (same_rd w _ b immb opn n s S eq_refl) as V.
  exists l. split; [exact E|]. eexists. split; [|split].
  - eapply RUN; [intros; cbv beta zeta; change (0 mod 8 =? 0) with true; cbv iota; rewrite sle_app by lia; reflexivity|exact Logic.I|].
    cbn [exec]. reflexivity.
  - split; [apply only_after; reflexivity|]. rewrite V. cbn [rdo]. change (8 * Z.of_nat 4) with 32. rewrite sext32_imm by exact I. repeat split.
  - apply xwf_setfl. apply after_pre_wf. exact W.
Qed.
(** NOT and NEG *)
Lemma unary_run : forall d b immb, d = 2 \/ d = 3 -> gop b immb ->
  exists l opn, insd w m 0xf7 (8 * d) (AReg 0) 0 b immb = Some l /\ same_operand w (fl 1) b immb opn
    /\ forall s s', exec u (after_pre w b immb s) (if d =? 2 then XNot n opn else XNeg n opn) = Some s' -> runs u l s s'.
Proof.
  intros d b immb D (G & G0).
  destruct (ins_run u w m (fl 1) (AReg 0) 0 b immb false 0xf7 d []
    (fun r o l =>
      let k := r mod 8 in let n := size_of m in
      if k =? 0 then match sle 4 l with Some (v, l) => Some (XTest n o (OI v), l) | None => None end
      else if k =? 1 then None
      else if k =? 2 then Some (XNot n o, l)
      else if k =? 3 then Some (XNeg n o, l)
      else if k =? 4 then Some (XMul1 false n o, l)
      else if k =? 5 then Some (XMul1 true n o, l)
      else if k =? 6 then Some (XDiv1 false n o, l)
      else Some (XDiv1 true n o, l)))
    as (o & opn & E & S & F & RUN).
  - apply flags_ok_fl; lia.
  - simpl. split; [unfold isreg; lia|discriminate].
  - exact G.
  - split; [lia|]. intros _ _ Q. exfalso. apply Q. reflexivity.
  - intros _. split; [opb|discriminate].
  - intros x H _. apply dec_f7. rewrite H. cbn. apply andb_true_r.
  - exists (put1d 0xf7 (8 * d) o), opn. split. { unfold insd. rewrite E. reflexivity. }
    split; [exact S|]. intros s s' EX. rewrite <- bytes_put1d. eapply RUN; [| |exact EX].
    + intros rest. cbn [want_reg fl f_shift f_sse1 imm_size lebytes app]. replace (reg_map w 0) with 0 by (destruct w; reflexivity).
      destruct D; subst d; reflexivity.
    + destruct D; subst d; exact Logic.I.
Qed.
Lemma not_ok : forall b immb s, gop b immb -> xwf s ->
  does u (insd w m 0xf7 0x10 (AReg 0) 0 b immb) s (fun s' => wrote w n (ftmp b immb) s b immb (2 ^ n - 1 - xval w n s b immb) s').
Proof.
  intros b immb s GO W. destruct (unary_run 2 b immb (or_introl eq_refl) GO) as (l & opn & E & S & RUN). destruct GO as (G & G0).
  pose proof (same_rd w _ b immb opn n s S eq_refl) as V.
  destruct (same_wr w _ b immb opn n s (2 ^ n - 1 - xval w n s b immb) S eq_refl (size_of_cases m) G G0 W) as (s1 & W1 & W2 & W3 & W4).
  exists l. split; [exact E|]. exists s1. split; [|auto]. apply RUN. change (2 =? 2) with true. cbv iota. cbn [exec]. rewrite V. exact W1.
Qed.
Lemma neg_ok : forall b immb s, gop b immb -> xwf s ->
  does u (insd w m 0xf7 0x18 (AReg 0) 0 b immb) s (fun s' => wrote w n (ftmp b immb) s b immb (- xval w n s b immb) s' /\
    let a := xval w n s b immb in
    xcf s' = Some (negb (a =? 0)) /\ xzf s' = zfl n (- a) /\ xsf s' = sfl n (- a) /\ xof s' = Some (oor n (- sext n a))).
Proof.
  intros b immb s GO W. destruct (unary_run 3 b immb (or_intror eq_refl) GO) as (l & opn & E & S & RUN). destruct GO as (G & G0).
  pose proof (same_rd w _ b immb opn n s S eq_refl) as V.
  destruct (same_wr w _ b immb opn n s (- xval w n s b immb) S eq_refl (size_of_cases m) G G0 W) as (s1 & W1 & W2 & W3 & W4).
  exists l. split; [exact E|]. eexists. split.
  { apply RUN. change (3 =? 2) with false. cbv iota. cbn [exec]. rewrite V, W1. reflexivity. }
  split; [|apply xwf_setfl; exact W4]. split; [apply wrote_setfl; exact W2|]. repeat split.
Qed.
(** LEA *)
Lemma lea_ok : forall r base offs imm s, 1 <= r <= 16 -> genop (AMem base offs) imm -> xwf s ->
  does u (ins w m (fl 1) 0x8d (AReg r) 0 (AMem base offs) imm) s (fun s' =>
    wrote w n (ftmp (AMem base offs) imm) s (AReg r) 0 (xaddr w s base offs imm) s' /\ flags_same s s').
Proof.
  intros r base offs imm s R G W.
  destruct (ins_reg u w m 0x8d r (AMem base offs) imm _ ltac:(unfold isreg; lia) G ltac:(opb) ltac:(discriminate) (dec_lea m)) as (l & opn & E & S & RUN).
  destruct opn as [q|e|v]; try contradiction.
  destruct (reg_wrote' w m (AMem base offs) imm s r (xaddr w s base offs imm) R W) as (s1 & W1 & W2 & W3 & W4).
  exists l. split; [exact E|]. exists s1. split; [|auto].
  eapply RUN; [intros; reflexivity|exact Logic.I|]. cbn [exec]. cbn [same_operand] in S. rewrite S.
  replace (wro n (after_pre w (AMem base offs) imm s) (OR (reg_map w r)) (wrap (xaddr w s base offs imm)))
    with (wro n (after_pre w (AMem base offs) imm s) (OR (reg_map w r)) (xaddr w s base offs imm)); [exact W1|].
  cbn [wro]. replace (n <? 32) with false by (destruct m; reflexivity). do 2 f_equal. unfold wrap.
  destruct m; cbn [size_of]; [|rewrite Z.mod_mod by (vm_compute; discriminate); reflexivity].
  change (2 ^ 64) with (2 ^ 32 * 2 ^ 32). rewrite Z.rem_mul_r by lia. rewrite Z.mul_comm, Z.mod_add by lia. rewrite Z.mod_mod by lia. reflexivity.
Qed.
(** Multiplication *)
Definition imul_fl (v : Z) (s' : xst) : Prop := xof s' = Some (oor n v).
Definition imul_val (x y : Z) : Z := sext n x * sext n y.
Lemma imul_ok : forall r b immb s, okr b immb r -> gop b immb -> xwf s ->
  does u (groupf w m false 0xaf r b immb) s (fun s' =>
    wrote w n (ftmp b immb) s (AReg r) 0 (imul_val (xr s (reg_map w r) mod 2 ^ n) (xval w n s b immb)) s'
    /\ imul_fl (imul_val (xr s (reg_map w r) mod 2 ^ n) (xval w n s b immb)) s').
Proof.
  intros r b immb s K (G & G0) W.
  destruct (ins_groupf u w m false 0xaf r b immb (fun r o l => Some (XImul n r (OR r) o, l))) as (l & opn & E & S & RUN); auto.
  { eapply okr_isreg; eauto. } { intros x H _. apply dec_imul. exact H. }
  pose proof (same_rd w _ b immb opn n s S eq_refl) as V. pose proof (rd_reg w b immb n s r K) as V2.
  destruct (reg_wrote w m b immb s r (imul_val (xr s (reg_map w r) mod 2 ^ n) (xval w n s b immb)) K W) as (s1 & W1 & W2 & W3 & W4).
  exists l. split; [exact E|]. eexists. split.
  { eapply RUN; [intros; reflexivity|exact Logic.I|]. cbn [exec]. rewrite V, V2. fold (imul_val (xr s (reg_map w r) mod 2 ^ n) (xval w n s b immb)). rewrite W1. reflexivity. }
  split; [|apply xwf_setfl; exact W4]. split; [apply wrote_setfl; exact W2|]. reflexivity.
Qed.
Lemma imul_imm_ok : forall r b immb imm s, is_halfword imm = true -> 1 <= r <= 16 -> gop b immb -> xwf s ->
  does u (if disp8 imm then ins w m (fl 1) 0x6b (AReg r) 0 b immb +++ Some [u8 imm] else ins w m (fl 1) 0x69 (AReg r) 0 b immb +++ Some (lebytes 4 imm)) s
    (fun s' => wrote w n (ftmp b immb) s (AReg r) 0 (imul_val (xval w n s b immb) (imm mod 2 ^ n)) s'
    /\ imul_fl (imul_val (xval w n s b immb) (imm mod 2 ^ n)) s').
Proof.
  intros r b immb imm s IH R (G & G0) W.
  set (op := if disp8 imm then 0x6b else 0x69). set (ex := if disp8 imm then [u8 imm] else lebytes 4 imm).
  destruct (ins_run u w m (fl 1) (AReg r) 0 b immb false op 0 ex (fun r o l =>
    match (if disp8 imm then sle 1 l else sle 4 l) with Some (v, l) => Some (XImul n r o (OI v), l) | None => None end)) as (o & opn & E & S & F & RUN).
  - apply flags_ok_fl; lia.
  - simpl. split; [unfold isreg; lia|discriminate].
  - exact G.
  - split; [lia|auto].
  - intros _. unfold op. destruct (disp8 imm); split; try opb; discriminate.
  - intros x H _. cbn in H. rewrite andb_true_r in H. unfold op. destruct (disp8 imm); [apply dec_6b|apply dec_69]; exact H.
  - exists (put1 op o ++ ex). split.
    { unfold ins, op, ex. rewrite E. destruct (disp8 imm); reflexivity. }
    pose proof (same_rd w _ b immb opn n s S eq_refl) as V.
    destruct (reg_wrote' w m b immb s r (imul_val (xval w n s b immb) (imm mod 2 ^ n)) R W) as (s1 & W1 & W2 & W3 & W4).
    assert (SX : exists v, v mod 2 ^ n = imm mod 2 ^ n /\ forall rest, (if disp8 imm then sle 1 (ex ++ rest) else sle 4 (ex ++ rest)) = Some (v, rest)).
    { unfold ex. destruct (disp8 imm) eqn:D8.
      - exists imm. split; [reflexivity|]. intros rest. change [u8 imm] with (lebytes 1 imm). rewrite sle_app by lia.
        change (8 * Z.of_nat 1) with 8. rewrite sext8_imm by exact D8. reflexivity.
      - exists (sext 32 imm). split; [apply sext32_imm; intros _; unfold is_halfword in IH; lia|]. intros rest. rewrite sle_app by lia. reflexivity. }
    destruct SX as (v & V1 & V2).
    eexists. split.
    { rewrite <- bytes_put1_ex. eapply RUN; [| |].
      - intros rest. cbn [imm_size lebytes app]. rewrite V2. cbn [want_reg fl f_shift f_sse1]. rewrite Z.add_0_r. reflexivity.
      - exact Logic.I.
      - cbn [exec]. rewrite V. cbn [rdo]. rewrite V1. fold (imul_val (xval w n s b immb) (imm mod 2 ^ n)). rewrite W1. reflexivity. }
    split; [|apply xwf_setfl; exact W4]. split; [apply wrote_setfl; exact W2|]. reflexivity.
Qed.
(** Shifts *)
Definition smode (k : shk) : Z := match k with Rol => 0 | Ror => 1 | Shl => 4 | Shr => 5 | Sar => 7 end.
Definition is_rot (k : shk) : bool := match k with Rol | Ror => true | _ => false end.
Definition cntok (a : arg) (imma : Z) : Prop := match a with AReg r => r = PREF_SHIFT_REG | AImm => 0 <= imma < n | _ => False end.
Definition cntval (s : xst) (a : arg) (imma : Z) : Z := match a with AReg _ => xr s 1 mod n | _ => imma mod n end.
Lemma mod_pow_lt : forall v, 0 <= v mod 2 ^ n < 2 ^ n. Proof. intros. apply Z.mod_pos_bound. destruct m; vm_compute; reflexivity. Qed.
Lemma sh_res_0 : forall k a, 0 <= a < 2 ^ n -> sh_res k n a 0 mod 2 ^ n = a.
Proof.
  intros k a H. assert (P : 0 < 2 ^ n) by lia. destruct k; cbn [sh_res]; rewrite ?Z.sub_0_r; change (2 ^ 0) with 1; rewrite ?Z.mul_1_r, ?Z.div_1_r.
  - rewrite (Z.div_small a) by exact H. rewrite Z.lor_0_r. apply Z.mod_small; exact H.
  - rewrite <- Z.land_ones by (destruct m; vm_compute; discriminate). rewrite Z.land_lor_distr_l, !Z.land_ones by (destruct m; vm_compute; discriminate).
    rewrite Z.mod_mul by lia. rewrite Z.lor_0_r. apply Z.mod_small; exact H.
  - apply Z.mod_small; exact H.
  - apply Z.mod_small; exact H.
  - rewrite sext_mod_le; [apply Z.mod_small; exact H| |apply Z.le_refl]. destruct m; vm_compute; discriminate.
Qed.
Definition shift_post (k : shk) (L : list Z) (b : arg) (immb : Z) (s : xst) (x c : Z) (s' : xst) : Prop :=
  wrote w n L s b immb (sh_res k n x c) s' /\ (c = 0 -> flags_same s s') /\ (c <> 0 -> is_rot k = false -> xzf s' = zfl n (sh_res k n x c)).
Lemma xval_range : forall s a imm, xwf s -> 0 <= xval w n s a imm < 2 ^ n.
Proof.
  intros s a imm W. destruct a as [r| |b o]; cbn [xval]; try apply mod_pow_lt.
  pose proof (load_bound (xm s) (Z.to_nat (n / 8)) (xaddr w s b o imm)) as L.
  destruct m; exact L.
Qed.
Lemma shift_ok : forall k a imma b immb s, cntok a imma -> gop b immb -> xwf s ->
  does u (shift_ins w m (8 * smode k) a imma b immb) s (fun s' => shift_post k (ftmp b immb) b immb s (xval w n s b immb) (cntval s a imma) s').
Proof.
  intros k a imma b immb s CO (G & G0) W. unfold shift_ins. set (f := with_shift (fl 1)).
  set (op := if is_imm a then (if imma =? 1 then 0xd1 else 0xc1) else 0xd3).
  assert (OP : op = 0xc1 \/ op = 0xd1 \/ op = 0xd3) by (unfold op; destruct (is_imm a), (imma =? 1); auto).
  destruct (ins_run u w m f a imma b immb false op (smode k) [] (fun r o l =>
    match sh_of (r mod 8) with
    | Some k => if op =? 0xc1 then match le 1 l with Some (v, l) => Some (XShift k n o (OI v), l) | None => None end
      else Some (XShift k n o (if op =? 0xd1 then OI 1 else OR 1), l)
    | None => None end)) as (o & opn & E & S & F & RUN).
  - unfold flags_ok, f. cbn. repeat split; auto; try lia; try (intros (A & B); discriminate); intros [A|A]; discriminate.
  - destruct a as [r| |? ?]; cbn [cntok] in CO; try contradiction; cbn [firstop].
    + split; [|intros _; split; [exact CO|reflexivity]]. subst r. unfold isreg, PREF_SHIFT_REG, R3. lia.
    + split; [reflexivity|]. split; [reflexivity|]. cbn. destruct m; exact CO.
  - exact G.
  - split; [destruct k; cbn; lia|]. intros _ Q. discriminate.
  - intros _. destruct OP as [O|[O|O]]; rewrite O; split; try opb; discriminate.
  - intros x H _. apply dec_sh; [exact OP|]. rewrite H. cbn. apply andb_true_r.
  - exists (putf (8 * smode k) o). split; [rewrite E; reflexivity|].
    pose proof (same_rd w _ b immb opn n s S eq_refl) as V.
    set (cnt := if op =? 0xc1 then OI (imma mod 256) else if op =? 0xd1 then OI 1 else OR 1).
    set (c := cntval s a imma).
    assert (CV : rdo 8 (after_pre w b immb s) cnt mod (if n =? 64 then 64 else 32) = c).
    { replace (if n =? 64 then 64 else 32) with n by (destruct m; reflexivity). unfold cnt, op, c, cntval. destruct a as [r| |? ?]; cbn [cntok] in CO; try contradiction; cbn [is_imm].
      - change (211 =? 193) with false. change (211 =? 209) with false. cbv iota. cbn [rdo]. rewrite <- rcx_pref.
        rewrite after_pre_reg; [|unfold PREF_SHIFT_REG, R3; lia|].
        + destruct m; cbn [size_of]; change (2 ^ 8) with 256.
          * replace 256 with (32 * 8) by reflexivity. rewrite Z.rem_mul_r by lia. rewrite Z.mul_comm, Z.mod_add, Z.mod_mod by lia. reflexivity.
          * replace 256 with (64 * 4) by reflexivity. rewrite Z.rem_mul_r by lia. rewrite Z.mul_comm, Z.mod_add, Z.mod_mod by lia. reflexivity.
        + unfold ftmp. destruct (far b immb); simpl; [intros [Q|[]]; discriminate|tauto].
      - assert (imma < 256) by (destruct m; cbn in CO; lia).
        destruct (Z.eqb_spec imma 1).
        + subst imma. change (209 =? 193) with false. change (209 =? 209) with true. cbv iota. cbn [rdo]. destruct m; reflexivity.
        + change (193 =? 193) with true. cbv iota. cbn [rdo]. change (2 ^ 8) with 256. rewrite Z.mod_mod by lia. f_equal. apply Z.mod_small. lia. }
    assert (C : 0 <= c < n). { unfold c, cntval. destruct a; apply Z.mod_pos_bound; destruct m; reflexivity. }
    destruct (same_wr w _ b immb opn n s (sh_res k n (xval w n s b immb) c) S eq_refl (size_of_cases m) G G0 W) as (s1 & W1 & W2 & W3 & W4).
    assert (X : exists s', exec u (after_pre w b immb s) (XShift k n opn cnt) = Some s'
      /\ shift_post k (ftmp b immb) b immb s (xval w n s b immb) c s' /\ xwf s').
    { cbn [exec]. rewrite CV, V. destruct (Z.leb_spec n c); [lia|]. destruct (Z.eqb_spec c 0) as [C0|C0].
      - exists s1. split; [|split; [split; [exact W2|split; [intros _; exact W3|intros Q; contradiction]]|exact W4]].
        rewrite <- W1. rewrite C0.
        assert (Q : forall st, wro n st opn (xval w n s b immb) = wro n st opn (sh_res k n (xval w n s b immb) 0)); [|apply Q].
        intros st. destruct opn as [q|e|v]; cbn [wro]; [| |reflexivity];
          rewrite (sh_res_0 k (xval w n s b immb) (xval_range s b immb W)), (Z.mod_small (xval w n s b immb)) by (apply xval_range; exact W); reflexivity.
      - rewrite W1. eexists. split; [reflexivity|]. split.
        + split; [destruct k; apply wrote_setfl; exact W2|]. split; [intros Q; contradiction|]. intros _ NR. destruct k; try discriminate; reflexivity.
        + destruct k; apply xwf_setfl; exact W4. }
    destruct X as (s' & X1 & X2 & X3). exists s'. split; [|split; [exact X2|exact X3]].
    rewrite <- (bytes_putf op); [|rewrite F; reflexivity].
    eapply RUN; [| |exact X1]; [|exact Logic.I].
    intros rest. replace (want_reg w f a) with 0 by (destruct a; reflexivity).
    replace (sh_of ((0 + smode k) mod 8)) with (Some k) by (destruct k; reflexivity). cbv iota.
    unfold cnt, op, imm_size. cbn [with_shift fl f_shift f_bin f].
    destruct a as [r| |? ?]; cbn [cntok] in CO; try contradiction; cbn [is_imm].
    + reflexivity.
    + destruct (Z.eqb_spec imma 1).
      * reflexivity.
      * change (193 =? 193) with true. cbv iota. cbn [app].
        change (f_bin f) with false. change (f_shift f) with true. cbv iota. rewrite le_app. reflexivity.
Qed.
End U.
