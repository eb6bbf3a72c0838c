(** ARM64: the operators with operands in memory. *)
Require Import ZArith List Bool Lia Zify ZifyBool.
From Verif Require Import Rv.RvLib Rv.RvBits Imm.ImmLib Imm.MsProofs Imm.PpProofs Arm.ArmIsa Arm.ArmBr Arm.ArmEnc Arm.ArmBits Arm.ArmImm Arm.ArmImmProofs Arm.ArmLogImm Arm.ArmLoadImm
  Arm.ArmJump Arm.ArmJumpSpec Arm.ArmJumpProofs Arm.ArmCondProofs Arm.ArmOp Arm.ArmOpSpec Arm.ArmOpDec Arm.ArmOpProofs Arm.ArmOpImm Arm.ArmOp1 Arm.ArmMem Arm.ArmMemSpec Arm.ArmMemProofs Arm.ArmMemOps.
Import ListNotations.
Open Scope Z_scope.
Ltac Zify.zify_post_hook ::= idtac.

(** ** Registers *)
Lemma reg27 k : 1 <= k <= 27 -> reg_map k <> 9 /\ reg_map k <> 10 /\ reg_map k <> 30.
Proof.
  intros H. assert (F : forallb (fun d => negb (reg_map d =? 9) && negb (reg_map d =? 10) && negb (reg_map d =? 30)) (zseq 1 27) = true) by (vm_compute; reflexivity).
  rewrite forallb_forall in F. specialize (F k (in_zseq 1 27 k ltac:(lia))). lia.
Qed.
Lemma reg_inj j k : 1 <= j <= 27 -> 1 <= k <= 27 -> j <> k -> reg_map j <> reg_map k.
Proof.
  intros H1 H2 N. assert (F : forallb (fun a => forallb (fun b => (a =? b) || negb (reg_map a =? reg_map b)) (zseq 1 27)) (zseq 1 27) = true) by (vm_compute; reflexivity).
  rewrite forallb_forall in F. specialize (F j (in_zseq 1 27 j ltac:(lia))). rewrite forallb_forall in F. specialize (F k (in_zseq 1 27 k ltac:(lia))). lia.
Qed.
Definition same27 (s s' : st) : Prop := forall k, 1 <= k <= 27 -> xr s' (reg_map k) = xr s (reg_map k).
Lemma same27_refl s : same27 s s.
Proof. intros k K. reflexivity. Qed.
Lemma same27_trans s s1 s2 : same27 s s1 -> same27 s1 s2 -> same27 s s2.
Proof. intros A B k K. rewrite B, A by exact K. reflexivity. Qed.
Lemma flags_trans s s1 s2 : same_flags s s1 -> same_flags s1 s2 -> same_flags s s2.
Proof. intros (A & B & C & D) (A' & B' & C' & D'). unfold same_flags. repeat split; congruence. Qed.
Lemma flags_refl s : same_flags s s.
Proof. unfold same_flags. auto. Qed.
Lemma flag_same f ty s s' : same_flags s s' -> flag_holds f ty s' = flag_holds f ty s.
Proof. intros (A & B & C & D). destruct s, s'. cbn in *. subst. destruct f, ty; reflexivity. Qed.

(** ** Places *)
Lemma adjust_ok m : legal_place m -> legal_mem (adjust m) /\ forall s, addr s (adjust m) = place s m.
Proof.
  intros L. destruct m as [r w|r o k|w]; cbn [adjust place legal_place] in *; [|split; [exact L|reflexivity]|split; [exact L|reflexivity]]. destruct L as (L & B).
  destruct (r =? SLJIT_SP) eqn:E; [|split; [exact L|reflexivity]]. assert (r = SLJIT_SP) by lia. subst r. cbn [legal_mem] in *. specialize (B eq_refl). split; [split; [right; reflexivity|lia]|].
  intros s. cbn [addr]. change (reg_map SLJIT_SP) with 31. lia.
Qed.
Lemma place_same s s' m : legal_place m -> same27 s s' -> place s' m = place s m.
Proof.
  intros L S. destruct m as [r w|r o k|w]; cbn [place legal_place legal_mem addr] in *.
  - destruct L as ((L & _) & _). destruct (r =? SLJIT_SP).
    + specialize (S 27 ltac:(lia)). change (reg_map 27) with 31 in S. rewrite S. reflexivity.
    + rewrite S; [reflexivity|]. unfold SLJIT_SP in L. lia.
  - destruct L as (L1 & L2 & _). rewrite !S by lia. reflexivity.
  - reflexivity.
Qed.
Lemma vald_same n s s' a : legal_src a -> same27 s s' -> mm s' = mm s -> vald n s' a = vald n s a.
Proof. intros L S M. destruct a as [r|i|m]; cbn [vald legal_src] in *; [rewrite S by lia; reflexivity|reflexivity|rewrite M, (place_same s s' m L S); reflexivity]. Qed.
Lemma size_len w32 : 8 * 2 ^ size2 w32 = len w32 /\ 2 ^ size2 w32 = len w32 / 8.
Proof. destruct w32; split; reflexivity. Qed.
Lemma size2_b w32 : 0 <= size2 w32 <= 3.
Proof. destruct w32; cbn; lia. Qed.
Lemma tmp_k tmp k : legal_tmp tmp -> 1 <= k <= 27 -> reg_map k <> reg_map tmp.
Proof. intros [-> | ->] K; apply (reg27 k K). Qed.

(** ** A source in memory *)
Definition load_ok (n tmp : Z) (a : opd) (l : option (list Z)) (x : arg) (s : st) : Prop :=
  exists ws s1, l = Some ws /\ run ws s = Some s1 /\ legal_arg tmp x /\ val n s1 x = vald n s a /\ same_flags s s1 /\ mm s1 = mm s /\ forall k, k <> reg_map tmp -> xr s1 k = xr s k.
Lemma value_len m a w32 : byte_mem m -> value m a (Z.to_nat (len w32 / 8)) mod 2 ^ len w32 = value m a (Z.to_nat (len w32 / 8)).
Proof. intros B. apply Z.mod_small. pose proof (value_b m a (Z.to_nat (len w32 / 8)) B) as V. destruct w32; exact V. Qed.
Lemma load_opd_ok w32 tmp a s : legal_tmp tmp -> legal_src a -> byte_mem (mm s) -> load_ok (len w32) tmp a (fst (load_opd (size2 w32) tmp a)) (snd (load_opd (size2 w32) tmp a)) s.
Proof.
  intros T L B. unfold load_ok. destruct a as [r|i|m]; cbn [load_opd fst snd legal_src] in *.
  - exists [], s. split; [reflexivity|]. split; [reflexivity|]. split; [left; exact L|]. split; [reflexivity|]. split; [apply flags_refl|]. split; reflexivity.
  - exists [], s. split; [reflexivity|]. split; [reflexivity|]. split; [exact L|]. split; [reflexivity|]. split; [apply flags_refl|]. split; reflexivity.
  - destruct (adjust_ok m L) as (L' & P).
    destruct (emit_op_mem_ok (size2 w32) false false tmp tmp (size2_b w32) ltac:(intros E; discriminate E) ltac:(right; destruct T as [T | T]; [left; exact T|right; left; exact T]) T ltac:(intros E; discriminate E) (adjust m) s L') as (ws & s1 & E & R & F & K & M & V).
    exists ws, s1. split; [exact E|]. split; [exact R|]. split; [right; reflexivity|]. split; [|split; [exact F|split; [exact M|intros k NK; apply K; [exact NK|intros _; exact NK]]]].
    cbn [val vald]. rewrite V. cbv zeta iota. rewrite P. rewrite (proj2 (size_len w32)). apply value_len. exact B.
Qed.

(** ** Two operands *)
Lemma byte_mod n x i : 0 <= i < n / 8 -> 8 * (n / 8) = n -> byte (x mod 2 ^ n) i = byte x i.
Proof.
  intros I N. unfold byte. assert (E : 2 ^ n = 2 ^ (8 * i) * 2 ^ (n - 8 * i)) by (rewrite <- Z.pow_add_r by lia; f_equal; lia). pose proof (pow_pos (8 * i) ltac:(lia)) as P1. pose proof (pow_pos (n - 8 * i) ltac:(lia)) as P2.
  rewrite E, Z.rem_mul_r by lia. rewrite Z.add_comm, (Z.mul_comm (2 ^ (8 * i))), Z.div_add_l by lia. rewrite (Z.div_small (x mod _)) by (apply Z.mod_pos_bound; lia). rewrite Z.add_0_r. apply mod_mod_low. lia.
Qed.
Lemma byte_eq n x y i : 0 <= i < n / 8 -> 8 * (n / 8) = n -> x mod 2 ^ n = y mod 2 ^ n -> byte x i = byte y i.
Proof. intros I N E. rewrite <- (byte_mod n x i I N), <- (byte_mod n y i I N), E. reflexivity. Qed.
Lemma result_d op n a b c d d' : op <> OMuladd -> result op n a b c d = result op n a b c d'.
Proof. intros N. destruct op; try reflexivity. exfalso. apply N. reflexivity. Qed.
Lemma both_run l1 l2 ws1 ws2 s s1 s2 : l1 = Some ws1 -> l2 = Some ws2 -> run ws1 s = Some s1 -> run ws2 s1 = Some s2 -> exists ws, both l1 l2 = Some ws /\ run ws s = Some s2.
Proof. intros -> -> R1 R2. exists (ws1 ++ ws2). split; [reflexivity|]. rewrite run_app, R1. exact R2. Qed.

Theorem emit_op2_ok op w32 setf d a1 a2 s : legal_dest op d -> legal_src a1 -> legal_src a2 -> (setf = true -> has_flags op = true) -> byte_mem (mm s) ->
  exists ws s', emit_op2 op w32 setf d a1 a2 = Some ws /\ run ws s = Some s' /\ did_op2m op w32 setf (negb (dst_reg d =? TMP_REG2)) d (vald (len w32) s a1) (vald (len w32) s a2) s s'.
Proof.
  intros LD L1 L2 HF B. unfold emit_op2.
  destruct (load_opd (size2 w32) TMP_REG1 a1) as (l1 & x1) eqn:E1. destruct (load_opd (size2 w32) TMP_REG2 a2) as (l2 & x2) eqn:E2.
  assert (X1 := load_opd_ok w32 TMP_REG1 a1 s (or_introl eq_refl) L1 B). rewrite E1 in X1. cbn [fst snd] in X1. destruct X1 as (ws1 & s1 & W1 & R1 & LA1 & V1 & F1 & M1 & K1).
  assert (X2 := load_opd_ok w32 TMP_REG2 a2 s1 (or_intror eq_refl) L2 ltac:(rewrite M1; exact B)). rewrite E2 in X2. cbn [fst snd] in X2. destruct X2 as (ws2 & s2 & W2 & R2 & LA2 & V2 & F2 & M2 & K2).
  assert (S1 : same27 s s1) by (intros k K; apply K1; apply (reg27 k K)). assert (S2 : same27 s1 s2) by (intros k K; apply K2; apply (reg27 k K)). pose proof (same27_trans _ _ _ S1 S2) as S12. pose proof (flags_trans _ _ _ F1 F2) as F12.
  assert (LD' : legal_dst op (dst_reg d)).
  { destruct d as [r|i|m]; cbn [legal_dest dst_reg] in *; [destruct LD as [LD|LD]; [left; exact LD|right; destruct op; try (right; exact LD); exact LD]|destruct LD|].
    right. destruct LD as (_ & N). destruct op; try (left; reflexivity). apply N. reflexivity. }
  destruct (emit_op_imm_ok op w32 setf (dst_reg d =? TMP_REG2) (dst_reg d) x1 x2 s2 LD' LA1 LA2 HF) as (ws3 & s3 & W3 & R3 & D3 & K3 & M3 & F3 & FL3).
  assert (V1' : val (len w32) s2 x1 = vald (len w32) s a1).
  { rewrite <- V1. destruct x1 as [r|i]; [|reflexivity]. cbn [val]. rewrite K2; [reflexivity|]. destruct LA1 as [H | ->]; [apply (reg27 r); lia|discriminate]. }
  assert (V2' : val (len w32) s2 x2 = vald (len w32) s a2) by (rewrite V2; apply vald_same; assumption).
  rewrite V1', V2' in *. assert (C : cf s2 = cf s) by apply F12. rewrite C in *.
  assert (S3 : forall k, dst_reg d <> k -> (dst_reg d = TMP_REG1 \/ dst_reg d = TMP_REG2 \/ 1 <= dst_reg d <= 26) -> 1 <= k <= 27 -> xr s3 (reg_map k) = xr s (reg_map k)).
  { intros k N H K. destruct (reg27 k K) as (N9 & N10 & N30). rewrite K3; [apply S12; exact K| |exact N9|exact N10|exact N30]. destruct H as [-> | [-> | H]]; [exact N9|exact N10|apply reg_inj; lia]. }
  destruct d as [r|i|m]; cbn [legal_dest dst_reg store_opd] in *; [|destruct LD|].
  - (* register *)
    destruct (both_run (emit_op_imm op w32 setf (r =? TMP_REG2) r x1 x2) (Some []) ws3 [] s2 s3 s3 W3 eq_refl R3 eq_refl) as (wa & Wa & Ra).
    destruct (both_run l2 _ ws2 wa s1 s2 s3 W2 Wa R2 Ra) as (wb & Wb & Rb). destruct (both_run l1 _ ws1 wb s s1 s3 W1 Wb R1 Rb) as (wc & Wc & Rc).
    exists wc, s3. split; [exact Wc|]. split; [exact Rc|]. unfold did_op2m. cbv zeta. split; [|split; [|split]].
    + split; [|congruence]. intros W. apply negb_true_iff in W. rewrite W in *. rewrite D3 by apply andb_false_r. assert (H : 1 <= r <= 26) by (destruct LD as [LD|LD]; [exact LD|destruct op; lia]). rewrite S12 by lia. reflexivity.
    + intros k N K. apply S3; [congruence| |exact K]. destruct LD as [LD|LD]; [auto|]. destruct op; auto. destruct LD.
    + intros E. apply (flags_trans s s2 s3 F12 (F3 E)).
    + exact FL3.
  - (* memory *)
    destruct LD as (LP & NM). destruct (adjust_ok m LP) as (L' & P).
    destruct (emit_op_mem_ok (size2 w32) false true TMP_REG1 TMP_REG2 (size2_b w32) ltac:(intros E; discriminate E) ltac:(right; left; reflexivity) ltac:(right; reflexivity) ltac:(intros _; discriminate) (adjust m) s3 L') as (ws4 & s4 & W4 & R4 & F4 & K4 & ST4).
    assert (S3' : same27 s s3) by (intros k K; apply S3; [unfold TMP_REG1; lia|left; reflexivity|exact K]).
    destruct (both_run (emit_op_imm op w32 setf (TMP_REG1 =? TMP_REG2) TMP_REG1 x1 x2) _ ws3 ws4 s2 s3 s4 W3 W4 R3 R4) as (wa & Wa & Ra).
    destruct (both_run l2 _ ws2 wa s1 s2 s4 W2 Wa R2 Ra) as (wb & Wb & Rb). destruct (both_run l1 _ ws1 wb s s1 s4 W1 Wb R1 Rb) as (wc & Wc & Rc).
    exists wc, s4. split; [exact Wc|]. split; [exact Rc|]. unfold did_op2m. cbv zeta. rewrite P, (place_same s s3 m LP S3') in ST4. rewrite M3, M2, M1 in ST4. rewrite (proj2 (size_len w32)) in ST4. split; [|split; [|split]].
    + apply (stored_cong _ _ (place s m) _ _ (xr s3 (reg_map TMP_REG1))); [reflexivity| |exact ST4]. intros i I. specialize (D3 ltac:(change (TMP_REG1 =? TMP_REG2) with false; apply andb_false_r)).
      rewrite (result_d op _ _ _ _ _ 0 NM) in D3. rewrite <- D3. symmetry. apply byte_mod; [exact I|destruct w32; reflexivity].
    + intros k _ K. rewrite K4; [apply S3'; exact K|apply (reg27 k K)|intros E; discriminate E].
    + intros E. apply (flags_trans s s3 s4 (flags_trans s s2 s3 F12 (F3 E)) F4).
    + intros E f ty v Me. rewrite (flag_same _ _ s3 s4 F4). apply (FL3 E f ty v Me).
Qed.
