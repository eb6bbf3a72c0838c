(** Function entry, body and return together. *)
Require Import ZArith List Bool Lia Zify ZifyBool.
From Verif Require Import Rv.RvLib Rv.RvBits Rv.RvIsa Rv.RvEnc Rv.RvImm Rv.RvRun Rv.RvImmProofs Rv.RvCtl Rv.RvWf Rv.RvMem Rv.RvRunMem Rv.RvOp Rv.RvLir Rv.RvOpLib Rv.RvSx Rv.RvMemProofs Rv.RvEmitOp Rv.RvEmitOp1 Rv.RvCond Rv.RvFrame Rv.RvFrameSpec Rv.RvFrameProofs Rv.RvFrameTop.
Import ListNotations.
Open Scope Z_scope.
Ltac Zify.zify_post_hook ::= idtac.

(** A fragment which ends with a jump: [P next s'], where [next] is the address after the fragment. *)
Definition ends (e : em) (s : mst) (P : Z -> mst -> Prop) : Prop :=
  forall codef p, isw p -> code_at codef p (units_of (flat e)) ->
    exists s', steps codef (setpc s p) s' /\ (wf s -> wf s') /\ P (wrap (p + 2 * Z.of_nat (length (units_of (flat e))))) s'.
Lemma ends_mono e s (P Q : Z -> mst -> Prop) : ends e s P -> (forall n s', P n s' -> Q n s') -> ends e s Q.
Proof. intros H I codef p Hp C. destruct (H codef p Hp C) as (s' & S & Ws & X). exists s'. auto. Qed.
Lemma ends_then e1 e2 s P : ok e1 s (fun s1 => ends e2 s1 P) -> ends (e1 ;; e2) s P.
Proof.
  intros (s1 & (W1 & D) & H) codef p Hp C. cbn [flat] in *. rewrite units_of_app in *. apply code_at_app in C. destruct C as (C1 & C2).
  rewrite <- code_at_wrap in C2. destruct (H codef _ (wrap_isw _) C2) as (s' & S & Ws & X). exists s'. split. { eapply steps_trans; [apply D; auto|exact S]. } split; [auto|].
  rewrite wrap_add_l in X. rewrite app_length.
  replace (p + 2 * Z.of_nat (length (units_of (flat e1)) + length (units_of (flat e2))))
    with (p + 2 * Z.of_nat (length (units_of (flat e1))) + 2 * Z.of_nat (length (units_of (flat e2)))) by lia. exact X.
Qed.
Lemma even_land a : isw a -> a mod 2 = 0 -> Z.land a (2 ^ 64 - 2) = a.
Proof.
  intros H E. change (2 ^ 64 - 2) with (Z.ldiff (Z.ones 64) 1). apply Z.bits_inj'. intros n Hn. rewrite Z.land_spec, Z.ldiff_spec, Z.testbit_ones_nonneg by lia.
  destruct (Z.eq_dec n 0) as [->|N]. { assert (X : Z.testbit a 0 = false) by (rewrite Z.bit0_odd, Zodd_mod; rewrite E; reflexivity). rewrite X. reflexivity. }
  replace (Z.testbit 1 n) with false. 2:{ change 1 with (2 ^ 0). rewrite Z.pow2_bits_eqb by lia. symmetry. apply Z.eqb_neq. lia. }
  destruct (n <? 64) eqn:L. { rewrite andb_true_r. reflexivity. }
  rewrite andb_false_r. symmetry. unfold isw in H. destruct (Z.eq_dec a 0) as [->|]; [apply Z.testbit_0_l|]. apply Z.bits_above_log2; [lia|]. assert (Z.log2 a < 64) by (apply Z.log2_lt_pow2; lia). lia.
Qed.
(** A jump through a register; [d] is the link register. *)
Lemma ends_jalr p d r s (P : Z -> mst -> Prop) : vreg r -> isw (rd s r) -> rd s r mod 2 = 0 -> decode_piece p = Some (IJalr d (reg_map r) 0) ->
  (forall n, isw n -> P n (setpc (setr s d n) (rd s r))) ->
  forall e, flat e = [p] -> ends e s P.
Proof.
  intros R W E D H e Fe codef q Hq C. rewrite Fe in *. unfold units_of in C. cbn [flat_map] in C. rewrite app_nil_r in C.
  exists (setpc (setr s d (wrap (q + 2 * Z.of_nat (length (units p))))) (rd s r)). split.
  - apply steps_one. eapply step_piece; [exact D|exact Hq|exact C|]. cbn [exec]. f_equal. rewrite Z.add_0_r.
    change (getr (setpc s q) (reg_map r)) with (rd s r). rewrite (wrap_small (rd s r)) by auto. rewrite even_land by auto.
    unfold setr. destruct (d =? 0); reflexivity.
  - split. { intros Ws x. change (isw (getr (setr s d (wrap (q + 2 * Z.of_nat (length (units p))))) x)). unfold setr, getr. destruct (d =? 0); [apply Ws|].
      cbn [regs]. unfold updf. specialize (Ws x). unfold getr in Ws. destruct (x =? 0); auto. destruct (x =? d); auto. apply wrap_isw. }
    unfold units_of. cbn [flat_map]. rewrite app_nil_r. apply H. apply wrap_isw.
Qed.
Lemma ends_ijump c (link : bool) r s (P : Z -> mst -> Prop) : vreg r -> r <> 0 -> isw (rd s r) -> rd s r mod 2 = 0 ->
  (forall n, isw n -> P n (setpc (setr s (if link then 1 else 0) n) (rd s r))) -> ends (ijump_reg c link r) s P.
Proof.
  intros R N W E H. unfold ijump_reg. destruct (cC c).
  - eapply ends_jalr; [exact R|exact W|exact E|apply decode_c_jr; auto|exact H|reflexivity].
  - eapply ends_jalr with (d := if link then 1 else 0); [exact R|exact W|exact E| |exact H|reflexivity].
    destruct link; (rewrite decode_jalr by (auto; unfold RETURN_ADDR_REG, TMP_REG2, TMP_ZERO; vl)); reflexivity.
Qed.
Lemma ends_ra s (P : mst -> Prop) : isw (rd s RETURN_ADDR_REG) -> rd s RETURN_ADDR_REG mod 2 = 0 -> P (setpc s (rd s RETURN_ADDR_REG)) -> ends (E32 jalr_ra) s (fun _ => P).
Proof.
  intros W E H. eapply ends_jalr with (r := RETURN_ADDR_REG) (d := 0); [unfold RETURN_ADDR_REG, TMP_REG2; vl|exact W|exact E| |intros; exact H|reflexivity].
  unfold jalr_ra. rewrite decode_jalr by (unfold RETURN_ADDR_REG, TMP_REG2, TMP_ZERO; vl). reflexivity.
Qed.

Lemma callee_reg x : callee_saved x -> exists i, 12 <= i <= 23 /\ reg_map i = x.
Proof.
  intros H. assert (B : forallb (fun x => existsb (fun i => reg_map i =? x) (map (fun k => 12 + Z.of_nat k) (seq 0 12))) (8 :: 9 :: map (fun k => 18 + Z.of_nat k) (seq 0 10)) = true) by (vm_compute; reflexivity).
  rewrite forallb_forall in B. assert (I : In x (8 :: 9 :: map (fun k => 18 + Z.of_nat k) (seq 0 10))).
  { destruct H as [H|H]. { cbn. lia. } right. right. apply in_map_iff. exists (Z.to_nat (x - 18)). split; [lia|]. apply in_seq. lia. }
  apply B in I. apply existsb_exists in I. destruct I as (i & I & E). apply in_map_iff in I. destruct I as (k & <- & K). apply in_seq in K. exists (12 + Z.of_nat k). lia.
Qed.
Lemma callee_freg x : callee_saved x -> exists i, 19 <= i <= 30 /\ freg_map i = x.
Proof.
  intros H. assert (B : forallb (fun x => existsb (fun i => freg_map i =? x) (map (fun k => 19 + Z.of_nat k) (seq 0 12))) (8 :: 9 :: map (fun k => 18 + Z.of_nat k) (seq 0 10)) = true) by (vm_compute; reflexivity).
  rewrite forallb_forall in B. assert (I : In x (8 :: 9 :: map (fun k => 18 + Z.of_nat k) (seq 0 10))).
  { destruct H as [H|H]. { cbn. lia. } right. right. apply in_map_iff. exists (Z.to_nat (x - 18)). split; [lia|]. apply in_seq. lia. }
  apply B in I. apply existsb_exists in I. destruct I as (i & I & E). apply in_map_iff in I. destruct I as (k & <- & K). apply in_seq in K. exists (19 + Z.of_nat k). lia.
Qed.
Lemma freg_callee i : 19 <= i <= 30 -> callee_saved (freg_map i).
Proof.
  intros H. assert (B : forallb (fun i => let x := freg_map i in ((8 <=? x) && (x <=? 9)) || ((18 <=? x) && (x <=? 27))) (map (fun k => 19 + Z.of_nat k) (seq 0 12)) = true) by (vm_compute; reflexivity).
  rewrite forallb_forall in B. assert (I : In i (map (fun k => 19 + Z.of_nat k) (seq 0 12))) by (apply in_map_iff; exists (Z.to_nat (i - 19)); split; [lia|]; apply in_seq; lia).
  specialize (B i I). cbv zeta in B. unfold callee_saved. lia.
Qed.
Lemma arg_reg x : 10 <= x <= 17 -> reg_map (x - 9) = x.
Proof. intros H. assert (K : x = 10 \/ x = 11 \/ x = 12 \/ x = 13 \/ x = 14 \/ x = 15 \/ x = 16 \/ x = 17) by lia. intuition subst; reflexivity. Qed.

Lemma reg_map_inj a b : vreg a -> vreg b -> reg_map a = reg_map b -> a = b.
Proof. intros A B E. assert (X := reg_map_eqb a b A B). rewrite E, Z.eqb_refl in X. lia. Qed.
Lemma ld_word m a : ldval (fsize (WORD_DATA .| LOAD_DATA)) (fsigned (WORD_DATA .| LOAD_DATA)) m a = load m a 8.
Proof.
  assert (X := load8_wrap m a). unfold ldval. cbn. exact X.
Qed.
Section R.
Variables (c : cfg) (f : func) (s : mst).
Hypotheses (OK : func_ok f) (W : wf s) (FW : forall x, isw (fregs s x)).
Notation F := (fsize_of f).
Notation ctx_of := (set_context (options_of f) (scratches_of f) (saveds_of f) (f_local f)).
Lemma count_le p l : count p l <= Z.of_nat (length l).
Proof. unfold count. induction l; cbn [filter length]; [lia|]. destruct (p a); cbn [length]; lia. Qed.
Lemma vals_isw k v : nth_error (vals f s) k = Some v -> isw v.
Proof.
  intros N. apply nth_error_In in N. unfold vals in N. destruct N as [<-|N]; [apply wf_rd; auto|].
  apply in_app_iff in N. destruct N as [N|N]; apply in_map_iff in N; destruct N as (r & <- & _); [apply wf_rd; auto|apply FW].
Qed.
Definition entered' (s1 : mst) : Prop := entered f F s s1 /\ mem s1 = push (mem s) (rd s SLJIT_SP) (vals f s).
Lemma enter_all : ok (emit_enter c (options_of f) (arg_types_of f) (scratches_of f) (saveds_of f) (f_local f)) s entered'.
Proof.
  eapply ok_mono; [apply enter_ok; auto|]. cbv beta. intros s1 (SP & M & Fr & A & RA & K). split; auto.
  destruct (fsize_range f OK) as (F1 & F2 & F3). assert (NR := nsaved_range f OK). assert (VL := vals_len f OK s).
  assert (CS : count is_saved (f_args f) <= 4).
  { destruct OK as (_ & _ & _ & _ & _ & _ & _ & _ & _ & _ & _ & _ & _ & L & _). pose proof (count_le is_saved (f_args f)). lia. }
  unfold entered. split; [|split; [|split; [|split; [|split; [|split; [|split; [|split]]]]]]]; auto.
  - lia.
  - intros x X O. rewrite M. apply push_out; [auto|lia|]. rewrite VL. change (getr s1 2) with (rd s1 SLJIT_SP) in O. rewrite SP in O.
    assert (LR := local_range f OK).
    set (a := rd s SLJIT_SP) in *. assert (E : wrap (x - (a - 8 * nsaved f)) = wrap (wrap (x - wrap (a - F)) - (F - 8 * nsaved f))).
    { rewrite (wrap_sub_r x), wrap_sub_l. f_equal. lia. }
    rewrite E. assert (Z1 := wrap_isw (x - wrap (a - F))). unfold isw in Z1. rewrite wrap_small; unfold isw; lia.
  - intros x Hx. rewrite <- (arg_reg x Hx). apply (K (x - 9)); [lia|]. right. lia.
Qed.

(** The saved values are still there when the body is left. *)
Lemma body_frame s1 s2 : entered' s1 -> body f F s1 s2 -> in_frame f s s2.
Proof.
  intros (E & M) (B1 & B2 & _) k v N. destruct E as (E1 & E2 & E3 & _).
  assert (Hk : (k < length (vals f s))%nat) by (apply nth_error_Some; congruence). assert (VL := vals_len f OK s). assert (NR := nsaved_range f OK).
  assert (LR := local_range f OK).
  rewrite (load_ext (mem s1) (mem s2) 8).
  - rewrite M, <- (load_push (vals f s) (mem s) (rd s SLJIT_SP) k v); [|lia|exact N|eapply vals_isw; eauto]. apply load_cong.
    change (rd s2 SLJIT_SP) with (getr s2 2). rewrite B1, E3. change (getr s 2) with (rd s SLJIT_SP).
    replace (wrap (rd s SLJIT_SP - F) + F - 8 * Z.of_nat k - 8) with (wrap (rd s SLJIT_SP - F) + (F - 8 * Z.of_nat k - 8)) by lia. rewrite wrap_add_l. f_equal. lia.
  - intros i Hi. change (rd s2 SLJIT_SP) with (getr s2 2). rewrite B1. apply B2; [apply wrap_isw|].
    replace (wrap (wrap (getr s1 2 + F - 8 * Z.of_nat k - 8 + i) - getr s1 2)) with (F - 8 * Z.of_nat k - 8 + i). { lia. }
    rewrite wrap_sub_l. replace (getr s1 2 + F - 8 * Z.of_nat k - 8 + i - getr s1 2) with (F - 8 * Z.of_nat k - 8 + i) by lia. rewrite wrap_small; auto. unfold isw. lia.
Qed.

(** What release gives, in terms of the specification. *)
Lemma release_all s1 s2 rt : entered' s1 -> body f F s1 s2 -> wf s2 ->
  ok (emit_stack_frame_release c ctx_of rt) s2 (fun s3 =>
    left_frame f s s2 s3 /\ (rt = false -> rd s3 RETURN_ADDR_REG = rd s RETURN_ADDR_REG) /\ rd s3 TMP_REG1 = rd s2 TMP_REG1 /\
    rd s3 28 = rd s2 28 /\ rd s3 29 = rd s2 29).
Proof.
  intros E B W2. eapply ok_mono; [apply (release_ok c f OK s s2 rt W2); eapply body_frame; eauto|]. cbv beta.
  intros s3 (SP & M & RA & R & FR & O & FO). destruct E as (E & _). destruct E as (E1 & E2 & E3 & E4 & E5 & E6 & E7 & E8 & E9). destruct B as (B1 & B2 & B3 & B4).
  destruct OK as (A1 & A2 & A3 & A4 & A5 & A6 & A7 & A8 & A9 & A10 & A11 & A12 & A13 & A14 & A15 & A16 & A17).
  assert (OC : forall r, 1 <= r <= 29 -> r <> 24 -> r <> 26 -> r <> 27 -> ~ (23 - f_saveds f < r <= 23 - f_kept f \/ 11 < r <= f_scratches f) -> rd s3 r = rd s2 r).
  { intros r Hr N1 N2 N3 N4. apply O; try (unfold SLJIT_SP, TMP_REG2, TMP_REG3; lia). { vl. } rewrite in_L12. exact N4. }
  split; [|split; [exact RA|split; [apply (OC 25); lia|split; apply OC; lia]]].
  unfold left_frame. split; [|split; [|split; [|split; [|split; [|split]]]]].
  - change (getr s3 2) with (rd s3 SLJIT_SP). rewrite SP. change (rd s2 SLJIT_SP) with (getr s2 2). rewrite B1, E3, wrap_add_l.
    replace (getr s 2 - F + F) with (getr s 2) by lia. apply wrap_small. apply W.
  - intros x X Kp. destruct (callee_reg x X) as (i & Hi & <-). change (rd s3 i = rd s i).
    destruct (Z_le_dec i (23 - f_kept f)) as [L|L]. 2:{ exfalso. apply (Kp i); [lia|reflexivity]. }
    destruct (Z_lt_dec (23 - f_saveds f) i) as [L2'|L2']. { apply R. apply in_L12. lia. }
    destruct (Z_le_dec i (f_scratches f)) as [L3'|L3']. { apply R. apply in_L12. lia. }
    rewrite OC by lia. change (getr s2 (reg_map i) = rd s i). rewrite B3.
    + apply (E9 i); [lia|]. right. destruct (f_reg_arg f); lia.
    + exact X.
    + intros j [J|J] EJ.
      * apply reg_map_inj in EJ; [lia|vl|vl].
      * apply reg_map_inj in EJ; [lia|vl|vl].
  - intros x X. destruct (callee_freg x X) as (i & Hi & <-).
    destruct (Z_lt_dec (30 - f_fsaveds f) i) as [L2'|L2']. { apply FR. apply in_L34. lia. }
    destruct (Z_le_dec i (f_fscratches f)) as [L3'|L3']. { apply FR. apply in_L34. lia. }
    rewrite FO.
    + rewrite B4; [rewrite E6; reflexivity|exact X|]. intros j J EJ. apply freg_map_inj in EJ; [|destruct J; lia|lia]. destruct J; lia.
    + intros I. apply in_map_iff in I. destruct I as (j & EJ & J). apply in_L34 in J. apply freg_map_inj in EJ; lia.
  - intros i Hi. apply OC; lia.
  - intros i Hi. apply OC; lia.
  - intros x X. apply FO. intros I. apply in_map_iff in I. destruct I as (j & <- & J). apply X. apply freg_callee.
    assert (G := all_L34 f OK (fun i => 19 <= i <= 30) (fun i H => H)). rewrite Forall_forall in G. auto.
  - exact M.
Qed.
(** ** Leaving *)
Lemma left_setpc s2 s3 p : left_frame f s s2 s3 -> left_frame f s s2 (setpc s3 p).
Proof. intros H. exact H. Qed.
Definition returned (s2 s3 : mst) (p : Z) : Prop := pc s3 = p /\ left_frame f s s2 s3.

Lemma return_void_ok s1 s2 : entered' s1 -> body f F s1 s2 -> wf s2 -> getr s 1 mod 2 = 0 ->
  ends (emit_return_void c ctx_of) s2 (fun _ s3 => returned s2 s3 (getr s 1)).
Proof.
  intros E B W2 Ev. unfold emit_return_void. apply ends_then. eapply ok_mono; [eapply release_all; eauto|]. cbv beta. intros s3 (L & RA & _).
  specialize (RA eq_refl). change (rd s RETURN_ADDR_REG) with (getr s 1) in RA. apply ends_ra; rewrite RA; auto. split; [reflexivity|apply left_setpc; auto].
Qed.
(** A body which is continued without changing what is preserved. *)
Lemma body_trans s1 s2 s2' : body f F s1 s2 -> (forall i, 12 <= i <= 24 -> rd s2' i = rd s2 i) -> fregs s2' = fregs s2 -> mem s2' = mem s2 -> body f F s1 s2'.
Proof.
  intros (B1 & B2 & B3 & B4) R Fr M. split; [|split; [|split]].
  - rewrite <- B1. apply (R SLJIT_SP). unfold SLJIT_SP. lia.
  - intros. rewrite M. auto.
  - intros x X N. destruct (callee_reg x X) as (i & Hi & <-). rewrite <- B3 by auto. apply (R i). lia.
  - intros. rewrite Fr. auto.
Qed.
Lemma return_ok s1 s2 k src srcw : entered' s1 -> body f F s1 s2 -> wf s2 -> getr s 1 mod 2 = 0 -> is_move k = true -> src_legal src srcw ->
  ends (emit_return c ctx_of k src srcw) s2 (fun _ s3 => pc s3 = getr s 1 /\ rd s3 SLJIT_R0 = mval k (argval s2 (size1 k false) src srcw) /\
    exists s2', mem s2' = mem s2 /\ fregs s2' = fregs s2 /\ (forall q, 1 < q <= 24 -> rd s2' q = rd s2 q) /\ left_frame f s s2' s3).
Proof.
  intros E B W2 Ev Mv L. unfold emit_return. apply ends_then.
  apply ok_mono with (P := fun s2' => wf s2' /\ rd s2' SLJIT_R0 = mval k (argval s2 (size1 k false) src srcw) /\
    mem s2' = mem s2 /\ fregs s2' = fregs s2 /\ (forall q, 1 < q <= 24 -> rd s2' q = rd s2 q)).
  - assert (G : ok (emit_op1 c k false (AReg SLJIT_R0) 0 src srcw) s2 (fun s2' => wf s2' /\ rd s2' SLJIT_R0 = mval k (argval s2 (size1 k false) src srcw) /\
      mem s2' = mem s2 /\ fregs s2' = fregs s2 /\ (forall q, 1 < q <= 24 -> rd s2' q = rd s2 q))).
    { apply ok_wfP; auto. eapply ok_mono; [apply emit_mov_ok; auto|].
      - cbn [dst_legal]. unfold ureg, NREGS, SLJIT_R0. lia.
      - discriminate.
      - cbv beta. intros s2' ((D1 & D2 & D3 & D4) & _) W2'. split; auto. split; [apply D2; discriminate|]. split; auto. split; auto.
        intros q Hq. apply D4; [|unfold SLJIT_R0; lia]. unfold visible, ureg, NREGS, SLJIT_SP. lia. }
    assert (G2 : src = AReg 1 -> k = O_MOV \/ k = O_MOV_P -> ok ENop s2 (fun s2' => wf s2' /\ rd s2' SLJIT_R0 = mval k (argval s2 (size1 k false) src srcw) /\
      mem s2' = mem s2 /\ fregs s2' = fregs s2 /\ (forall q, 1 < q <= 24 -> rd s2' q = rd s2 q))).
    { intros -> K. apply ok_nop. split; auto. split; auto. cbn [argval]. unfold mval. destruct K as [-> | ->]; cbn [mkind]; rewrite wrap_small; auto; apply wf_rd; auto. }
    destruct src as [r| |b o]; auto. destruct k; auto.
    + destruct (r =? SLJIT_R0) eqn:R; auto. apply G2; auto. unfold SLJIT_R0 in R. f_equal. lia.
    + destruct (r =? SLJIT_R0) eqn:R; auto. apply G2; auto. unfold SLJIT_R0 in R. f_equal. lia.
  - cbv beta. intros s2' (W2' & V & M & Fr & K). assert (B' : body f F s1 s2') by (apply (body_trans s1 s2); auto; intros; apply K; lia).
    eapply ends_mono; [eapply return_void_ok; eauto|]. cbv beta. intros _ s3 (P & LF). split; auto. split.
    + rewrite <- V. destruct LF as (_ & _ & _ & _ & LR & _). apply LR. unfold SLJIT_R0. lia.
    + exists s2'. auto.
Qed.
(** The target of a jump or call, before the stack frame is released. *)
Lemma to_tmp_ok s2 src srcw : wf s2 -> src_legal src srcw -> is_imm src = false ->
  ok (fst (to_tmp c ctx_of src srcw)) s2 (fun s2' =>
    wf s2' /\ mem s2' = mem s2 /\ fregs s2' = fregs s2 /\ (forall i, 1 <= i <= 24 -> rd s2' i = rd s2 i) /\ rd s2' 28 = rd s2 28 /\ rd s2' 29 = rd s2 29 /\
    exists r, snd (to_tmp c ctx_of src srcw) = AReg r /\ rd s2' r = argval s2 8 src srcw /\ (r = TMP_REG1 \/ 1 <= r <= 11 \/ 23 - f_kept f < r <= 23)).
Proof.
  intros W2 L NI. destruct src as [r| |b o]; [|discriminate|].
  - cbn [to_tmp src_legal] in *. rewrite (ctx_eq f OK). cbn [x_options]. rewrite (kept_of f OK). unfold SLJIT_FIRST_SAVED_REG, SLJIT_S0. unfold ureg, NREGS in L.
    destruct ((r >=? 12) && (r <=? 23 - f_kept f)) eqn:C; cbn [fst snd].
    + apply ok_wfP; auto. apply (x_I _ _ ADDI Addi); try (unfold TMP_REG1; vl); try reflexivity. cbn [alui]. rewrite mem_wr, fregs_wr. intros W2'. split; auto.
      split; auto. split; auto. split. { intros. apply rd_wr_other; unfold TMP_REG1; vl. }
      split. { apply rd_wr_other; unfold TMP_REG1; vl. } split. { apply rd_wr_other; unfold TMP_REG1; vl. }
      exists TMP_REG1. split; auto. split; auto. rewrite rd_wr_same by (unfold TMP_REG1; vl). cbn [argval]. change (sext 12 0) with 0. rewrite Z.add_0_r. apply wrap_small. apply wf_rd; auto.
    + apply ok_nop. split; auto. split; auto. split; auto. split; auto. split; auto. split; auto. exists r. cbn [argval]. split; auto. split; auto. lia.
  - cbn [to_tmp src_legal fst snd] in *. apply ok_wfP; auto. assert (Nb : TMP_REG1 <> b) by (unfold mem_legal, ureg, NREGS, SLJIT_SP in L; unfold TMP_REG1; lia).
    eapply ok_mono; [apply (op_mem_ok c (WORD_DATA .| LOAD_DATA) TMP_REG1 s2)|]; auto; try (unfold TMP_REG1; lia || vl); try (change (WORD_DATA .| LOAD_DATA) with 1; try split; lia || discriminate).
    cbv beta. change (negb _) with true. cbv iota. intros s2' (t & (M & Fr & _ & K) & ->) W2'. rewrite access_load in * by discriminate. rewrite mem_wr, fregs_wr. split; auto.
    split; auto. split; auto. split. { intros. rewrite rd_wr_other by (unfold TMP_REG1; vl). apply K; [vl|unfold TMP_REG1; cbn; lia]. }
    split. { rewrite rd_wr_other by (unfold TMP_REG1; vl). apply K; [vl|unfold TMP_REG1; cbn; lia]. }
    split. { rewrite rd_wr_other by (unfold TMP_REG1; vl). apply K; [vl|unfold TMP_REG1; cbn; lia]. }
    exists TMP_REG1. split; auto. split; auto. rewrite rd_wr_same by (unfold TMP_REG1; vl). rewrite M. cbn [argval]. apply ld_word.
Qed.
(** sljit_emit_return_to, and the call which replaces the function ([SLJIT_CALL_RETURN]). *)
Lemma leave_ok rt s1 s2 src srcw : entered' s1 -> body f F s1 s2 -> wf s2 -> src_legal src srcw -> is_imm src = false ->
  argval s2 8 src srcw mod 2 = 0 ->
  ends (fst (to_tmp c ctx_of src srcw) ;; emit_stack_frame_release c ctx_of rt ;; emit_ijump c false (snd (to_tmp c ctx_of src srcw)) srcw) s2 (fun _ s3 =>
    returned s2 s3 (argval s2 8 src srcw) /\ (rt = false -> rd s3 RETURN_ADDR_REG = getr s 1) /\ rd s3 28 = rd s2 28 /\ rd s3 29 = rd s2 29).
Proof.
  intros E B W2 L NI Ev. apply ends_then. eapply ok_mono; [apply to_tmp_ok; auto|]. cbv beta. intros s2' (W2' & M & Fr & K & K28 & K29 & r & -> & V & Hr).
  assert (B' : body f F s1 s2') by (apply (body_trans s1 s2); auto; intros; apply K; lia).
  apply ends_then. apply ok_wfP; auto. eapply ok_mono; [eapply release_all; eauto|]. cbv beta. intros s3 (LF & RA & T1 & T28 & T29) W3.
  assert (V3 : rd s3 r = argval s2 8 src srcw).
  { rewrite <- V. destruct LF as (_ & _ & _ & L1 & L2 & _). destruct Hr as [-> |[H|H]]; auto. }
  destruct OK as (A1 & A2 & A3 & A4 & A5 & A6 & A7 & A8 & A9 & A10 & A11 & A12 & A13 & A14 & A15 & A16 & A17).
  assert (Rr : 1 <= r <= 25) by (unfold TMP_REG1 in Hr; lia).
  cbn [emit_ijump]. apply ends_ijump; [vl|lia|apply wf_rd; auto|rewrite V3; auto|]. intros n _. cbn [setr]. rewrite V3.
  split; [|split; [exact RA|split; [transitivity (rd s2' 28); auto|transitivity (rd s2' 29); auto]]]. split; [reflexivity|].
  apply left_setpc. unfold setr. cbn [Z.eqb]. unfold left_frame in *. rewrite <- M, <- Fr. decompose [and] LF. repeat split; auto.
  - intros. rewrite <- K by lia. auto.
  - intros. rewrite <- K by lia. auto.
Qed.
End R.

(** ** Indirect jumps and fast calls *)
Lemma ld_op c r s b o w : wf s -> mem_legal b o w -> vreg r -> r <> 0 -> r <> 24 -> r <> 27 -> r <> b ->
  ok (emit_op_mem c (WORD_DATA .| LOAD_DATA) r b o w) s (fun s' => keeps s s' [r; 27] /\ rd s' r = load (mem s) (addr s b o w) 8).
Proof.
  intros W L V N0 N24 N27 Nb. eapply ok_mono; [apply (op_mem_ok c (WORD_DATA .| LOAD_DATA) r s)|]; auto; try (change (WORD_DATA .| LOAD_DATA) with 1; try split; lia || discriminate).
  cbv beta. change (negb _) with true. cbv iota. intros s' (t & K & ->). assert (M := proj1 K). rewrite access_load by discriminate. split.
  - apply keeps_wr; [exact V|left; reflexivity|exact K].
  - rewrite rd_wr_same by auto. rewrite M. apply ld_word.
Qed.
Lemma st_op c r s b o w : wf s -> mem_legal b o w -> vreg r -> r <> 0 -> r <> 24 -> r <> 27 -> r <> 25 ->
  ok (emit_op_mem c WORD_DATA r b o w) s (fun s' => mem s' = store (mem s) (addr s b o w) (rd s r) 8 /\ fregs s' = fregs s /\ forall q, vreg q -> q <> 25 -> q <> 27 -> rd s' q = rd s q).
Proof.
  intros W L V N0 N24 N27 N25. eapply ok_mono; [apply (op_mem_ok c WORD_DATA r s)|]; auto; try (change WORD_DATA with 0; try split; lia || discriminate || (intros X; exfalso; apply X; reflexivity)).
  cbv beta. change (negb _) with false. cbv iota. intros s' (t & (M & Fr & _ & K) & ->). unfold access. change (WORD_DATA .& LOAD_DATA =? 0) with true. cbv iota. cbn [negb].
  cbn [mem fregs setm]. change (bytes (fsize WORD_DATA)) with 8%nat. rewrite M. split; [|split; [exact Fr|]].
  - f_equal. apply K; auto. cbn. lia.
  - intros q Hq Q1 Q2. rewrite rd_setm. apply K; auto. cbn. lia.
Qed.
Lemma same_setpc s t p w : mem t = mem s /\ fregs t = fregs s /\ (forall q, vreg q -> ~ In q w -> rd t q = rd s q) -> same_but s (setpc t p) w.
Proof.
  intros (M & Fr & K). split; [exact M|]. split; [exact Fr|]. intros q Hq I. destruct (reg_map_all q Hq) as (r & Hr & <-).
  apply (K r Hr). intros J. apply I. apply in_map. exact J.
Qed.
Lemma ijump_ok c (link : bool) src srcw s : wf s -> src_legal src srcw -> is_imm src = false -> argval s 8 src srcw mod 2 = 0 ->
  ends (emit_ijump c link src srcw) s (fun n s' => pc s' = argval s 8 src srcw /\ (link = true -> rd s' RETURN_ADDR_REG = n) /\
    same_but s s' (TMP_REG1 :: TMP_REG3 :: if link then [RETURN_ADDR_REG] else [])).
Proof.
  intros W L NI Ev.
  assert (G : forall r t, vreg r -> r <> 0 -> wf t -> rd t r = argval s 8 src srcw -> keeps s t [TMP_REG1; TMP_REG3] ->
    ends (ijump_reg c link r) t (fun n s' => pc s' = argval s 8 src srcw /\ (link = true -> rd s' RETURN_ADDR_REG = n) /\
    same_but s s' (TMP_REG1 :: TMP_REG3 :: if link then [RETURN_ADDR_REG] else []))).
  { intros r t V N Wt E (M & Fr & _ & K). apply ends_ijump; auto. { apply wf_rd; auto. } { rewrite E; auto. }
    intros n Hn. rewrite E. split; [reflexivity|]. assert (R26 : vreg RETURN_ADDR_REG) by (unfold RETURN_ADDR_REG, TMP_REG2; vl).
    destruct link.
    - change (setr t 1 n) with (wr t RETURN_ADDR_REG n). change (rd (setpc ?x ?y) ?z) with (rd x z). split. { intros _. apply (rd_wr_same t RETURN_ADDR_REG n); auto. discriminate. }
      apply same_setpc. split; [exact M|]. split; [exact Fr|]. intros q Hq I. cbn [In] in I. rewrite rd_wr_other; auto; [|intuition]. apply K; auto. cbn. tauto.
    - split; [discriminate|]. apply (same_setpc s t). auto. }
  destruct src as [r| |b o]; [|discriminate|]; cbn [emit_ijump src_legal argval] in *.
  - apply G; auto; try (unfold ureg, NREGS in L; (vl || lia)). apply keeps_refl.
  - apply ends_then. apply ok_wfP; auto. eapply ok_mono; [apply ld_op; auto|]; try (unfold TMP_REG1; (vl || lia)).
    { unfold mem_legal, ureg, NREGS, SLJIT_SP in L; unfold TMP_REG1; lia. }
    cbv beta. intros t (K & E) Wt. apply G; auto; unfold TMP_REG1; (vl || lia).
Qed.
Lemma icall_ok c x src srcw s : wf s -> src_legal src srcw -> is_imm src = false -> argval s 8 src srcw mod 2 = 0 ->
  ends (emit_icall c x false src srcw) s (fun n s' => pc s' = argval s 8 src srcw /\ rd s' RETURN_ADDR_REG = n /\ same_but s s' [TMP_REG1; TMP_REG3; RETURN_ADDR_REG]).
Proof.
  intros W L NI Ev. eapply ends_mono; [|].
  - replace (emit_icall c x false src srcw) with (emit_ijump c true src srcw) by (destruct src; reflexivity). apply ijump_ok; auto.
  - cbv beta. intros n s' (A & B & C). auto.
Qed.
Lemma fast_enter_ok c dst dstw s : wf s -> dst_legal dst dstw ->
  ok (emit_fast_enter c dst dstw) s (fun s' => dest s s' 8 dst dstw (rd s RETURN_ADDR_REG) /\ rd s' 28 = rd s 28 /\ rd s' 29 = rd s 29).
Proof.
  intros W L. destruct dst as [r| |b o]; cbn [emit_fast_enter dst_legal] in *; [|destruct L|].
  - assert (R : (r =? RETURN_ADDR_REG) = false) by (unfold ureg, NREGS in L; unfold RETURN_ADDR_REG, TMP_REG2; lia). rewrite R.
    apply (x_I _ _ ADDI Addi); try (unfold RETURN_ADDR_REG, TMP_REG2; unfold ureg, NREGS in L; vl); try reflexivity. cbn [alui]. unfold ureg, NREGS in L.
    unfold dest. rewrite mem_wr, fregs_wr. split.
    + split; auto. split.
      * intros _. rewrite rd_wr_same by vl. change (sext 12 0) with 0. rewrite Z.add_0_r. apply wrap_small. apply wf_rd; auto.
      * split; auto. intros q Hq N. apply rd_wr_other; auto; try vl. unfold visible, ureg, NREGS, SLJIT_SP in Hq. vl.
    + split; apply rd_wr_other; vl.
  - eapply ok_mono; [apply st_op; auto|]; try (unfold TMP_REG2; (vl || lia)). cbv beta. intros s' (M & Fr & K). unfold dest. split.
    + split; auto. split; auto. intros q Hq. apply K; unfold visible, ureg, NREGS, SLJIT_SP in Hq; (vl || lia).
    + split; apply K; (vl || lia).
Qed.
Lemma fast_return_ok c src srcw s : wf s -> src_legal src srcw -> is_imm src = false -> argval s 8 src srcw mod 2 = 0 ->
  ends (emit_fast_return c src srcw) s (fun _ s' => pc s' = argval s 8 src srcw /\ same_but s s' [TMP_REG3; RETURN_ADDR_REG]).
Proof.
  intros W L NI Ev. unfold emit_fast_return. apply ends_then. apply ok_mono with (P := fun t => wf t /\ keeps s t [TMP_REG3; RETURN_ADDR_REG] /\ rd t RETURN_ADDR_REG = argval s 8 src srcw).
  2:{ cbv beta. intros t (Wt & (M & Fr & _ & K) & E). apply ends_ra; rewrite ?E; auto. { rewrite <- E. apply wf_rd; auto. } split; [reflexivity|].
      apply same_setpc. auto. }
  apply ok_wfP; auto. assert (R26 : vreg RETURN_ADDR_REG) by (unfold RETURN_ADDR_REG, TMP_REG2; vl).
  destruct src as [r| |b o]; cbn [src_legal argval] in *; [|discriminate|].
  - unfold ureg, NREGS in L. assert (R : (r =? RETURN_ADDR_REG) = false) by (unfold RETURN_ADDR_REG, TMP_REG2; lia). rewrite R.
    apply (x_I _ _ ADDI Addi); try (unfold RETURN_ADDR_REG, TMP_REG2; vl); try reflexivity. cbn [alui]. intros Wt. split; auto. split.
    + apply keeps_wr; [exact R26|right; left; reflexivity|apply keeps_refl].
    + rewrite rd_wr_same by (auto; discriminate). change (sext 12 0) with 0. rewrite Z.add_0_r. apply wrap_small. apply wf_rd; auto.
  - eapply ok_mono; [apply ld_op; auto|]; try (unfold RETURN_ADDR_REG, TMP_REG2; (vl || lia)).
    { unfold mem_legal, ureg, NREGS, SLJIT_SP in L. unfold RETURN_ADDR_REG, TMP_REG2. lia. }
    cbv beta. intros t ((M & Fr & PC & K) & E) Wt. split; auto. split; auto. split; auto. split; auto. split; auto. intros q Hq I. apply K; auto. cbn [In] in *. intuition.
Qed.
Lemma get_return_address_ok c f s s1 s2 dst dstw : func_ok f -> wf s -> (forall x, isw (fregs s x)) -> entered' f s s1 -> body f (fsize_of f) s1 s2 -> wf s2 -> dst_legal dst dstw ->
  ok (emit_get_return_address c (set_context (options_of f) (scratches_of f) (saveds_of f) (f_local f)) dst dstw) s2 (fun s3 =>
    dest s2 s3 8 dst dstw (getr s 1) /\ rd s3 28 = rd s2 28 /\ rd s3 29 = rd s2 29).
Proof.
  intros OK W FW E B W2 L. assert (V := body_frame f s OK W FW s1 s2 E B 0%nat (getr s 1) eq_refl).
  unfold emit_get_return_address. rewrite (ctx_eq f OK). cbn [x_local]. destruct (fsize_range f OK) as (_ & _ & FR).
  assert (LS : mem_legal SLJIT_SP 0 (fsize_of f - 8)) by (unfold mem_legal; lia).
  assert (V' : load (mem s2) (addr s2 SLJIT_SP 0 (fsize_of f - 8)) 8 = getr s 1).
  { rewrite <- V. unfold addr. cbn [Z.eqb]. f_equal. lia. }
  apply ok_then. apply ok_wfP; auto. destruct dst as [r| |b o]; cbn [dst_legal] in L; [|destruct L|].
  - unfold ureg, NREGS in L. eapply ok_mono; [apply ld_op; auto|]; try (vl || lia || (unfold SLJIT_SP; lia)).
    cbv beta. intros t ((M & Fr & _ & K) & E') Wt. apply ok_nop. rewrite V' in E'. unfold dest. split.
    + split; auto. split; auto. split; auto. intros q Hq N. apply K; [unfold visible, ureg, NREGS, SLJIT_SP in Hq; vl|]. unfold visible, ureg, NREGS, SLJIT_SP in Hq. cbn. lia.
    + split; apply K; try vl; cbn; lia.
  - eapply ok_mono; [apply ld_op; auto|]; try (unfold TMP_REG2; (vl || lia || (unfold SLJIT_SP; lia))).
    cbv beta. intros t ((M & Fr & _ & K) & E') Wt. rewrite V' in E'. eapply ok_mono; [apply st_op; auto|]; try (unfold TMP_REG2; (vl || lia)).
    cbv beta. intros s3 (M3 & Fr3 & K3). assert (KV : forall q, visible q \/ q = 28 \/ q = 29 -> rd s3 q = rd s2 q).
    { intros q Hq. unfold visible, ureg, NREGS, SLJIT_SP in Hq. rewrite K3 by (vl || lia). apply K; [vl|]. unfold TMP_REG2. cbn. lia. }
    unfold dest. split; [|split; apply KV; tauto]. split; [congruence|]. split.
    + rewrite M3, E', M. f_equal. unfold mem_legal, ureg, NREGS, SLJIT_SP in L. unfold addr, TMP_REG2 in *.
      rewrite (K b) by (try vl; cbn; lia). destruct (o =? 0) eqn:O; auto. rewrite (K o) by (try vl; cbn; lia). reflexivity.
    + intros q Hq. apply KV. auto.
Qed.

(** ** Statements about placed code *)
Notation enter_code c f := (emit_enter c (options_of f) (arg_types_of f) (scratches_of f) (saveds_of f) (f_local f)).
Notation ctx_of f := (set_context (options_of f) (scratches_of f) (saveds_of f) (f_local f)).
(** The code of sljit_emit_enter is at [a], that of [e] (which leaves the function) at [b]. The function is called in [s]; when the
    body leads to [s2] then [e] leads to a state with [R]. *)
Definition function_at (c : cfg) (f : func) (s : mst) (e : em) (R : mst -> mst -> Prop) : Prop :=
  forall codef a b, isw a -> isw b -> code_at codef a (units_of (flat (enter_code c f))) -> code_at codef b (units_of (flat e)) ->
  exists F s1, steps codef (setpc s a) (setpc s1 (wrap (a + 2 * Z.of_nat (length (units_of (flat (enter_code c f))))))) /\ wf s1 /\ entered f F s s1 /\
    forall s2, wf s2 -> body f F s1 s2 -> exists s3, steps codef (setpc s2 b) s3 /\ R s2 s3.
Lemma function_ok c f s e (R : mst -> mst -> Prop) : func_ok f -> wf s -> (forall x, isw (fregs s x)) ->
  (forall s1 s2, entered' f s s1 -> body f (fsize_of f) s1 s2 -> wf s2 -> ends e s2 (fun _ s3 => R s2 s3)) -> function_at c f s e R.
Proof.
  intros OK W FW H codef a b Ha Hb Ca Cb. destruct (enter_all c f s OK W) as (s1 & (W1 & D) & E). exists (fsize_of f), s1.
  split; [apply D; auto|]. split; [auto|]. split; [apply E|]. intros s2 W2 B. destruct (H s1 s2 E B W2 codef b Hb Cb) as (s3 & S & _ & X). eauto.
Qed.
Lemma void_at c f s : func_ok f -> wf s -> (forall x, isw (fregs s x)) -> getr s 1 mod 2 = 0 ->
  function_at c f s (emit_return_void c (ctx_of f)) (fun s2 s3 => pc s3 = getr s 1 /\ left_frame f s s2 s3).
Proof. intros OK W FW Ev. apply function_ok; auto. intros s1 s2 E B W2. eapply return_void_ok; eauto. Qed.
Lemma return_at c f s k src srcw : func_ok f -> wf s -> (forall x, isw (fregs s x)) -> getr s 1 mod 2 = 0 -> is_move k = true -> src_legal src srcw ->
  function_at c f s (emit_return c (ctx_of f) k src srcw) (fun s2 s3 =>
    let v := mval k (argval s2 (size1 k false) src srcw) in
    pc s3 = getr s 1 /\ getr s3 10 = v /\ left_frame f s (wr s2 SLJIT_R0 v) s3).
Proof.
  intros OK W FW Ev Mv L. apply function_ok; auto. intros s1 s2 E B W2. eapply ends_mono; [exact (return_ok c f s OK W FW s1 s2 k src srcw E B W2 Ev Mv L)|]. cbv beta zeta.
  intros _ s3 (P & V & s2' & M & Fr & K & L1 & L2 & L3 & L4 & L5 & L6 & L7). split; [exact P|]. split; [exact V|].
  destruct OK as (A1 & A2 & A3 & A4 & A5 & A6 & A7 & A8 & A9 & A10 & A11 & A12 & A13 & A14 & A15 & A16 & A17).
  assert (KW : forall v i, 1 < i <= 24 -> rd (wr s2 SLJIT_R0 v) i = rd s2' i).
  { intros v i Hi. rewrite K by lia. apply rd_wr_other; unfold SLJIT_R0; (vl || lia). }
  unfold left_frame. rewrite mem_wr, fregs_wr, <- M, <- Fr. split; [|split; [|split; [|split; [|split; [|split]]]]]; auto.
  - intros i Hi. rewrite KW by lia. auto.
  - intros i Hi. destruct (Z.eq_dec i 1) as [->|N].
    + rewrite (rd_wr_same s2 SLJIT_R0) by (unfold SLJIT_R0; vl). exact V.
    + rewrite KW by lia. auto.
Qed.
Lemma return_to_at c f s src srcw : func_ok f -> wf s -> (forall x, isw (fregs s x)) -> src_legal src srcw -> is_imm src = false ->
  function_at c f s (emit_return_to c (ctx_of f) src srcw) (fun s2 s3 =>
    let t := argval s2 8 src srcw in t mod 2 = 0 -> pc s3 = t /\ left_frame f s s2 s3).
Proof.
  intros OK W FW L NI codef a b Ha Hb Ca Cb. destruct (enter_all c f s OK W) as (s1 & (W1 & D) & E). exists (fsize_of f), s1.
  split; [apply D; auto|]. split; [auto|]. split; [apply E|]. intros s2 W2 B.
  destruct (Z.eq_dec (argval s2 8 src srcw mod 2) 0) as [Ev|Ev].
  - assert (X := leave_ok c f s OK W FW true s1 s2 src srcw E B W2 L NI Ev). unfold emit_return_to in Cb. destruct (to_tmp c (ctx_of f) src srcw) as [e1 s']. cbn [fst snd] in X.
    destruct (X codef b Hb Cb) as (s3 & S & _ & (P & LF) & _). exists s3. split; auto.
  - exists (setpc s2 b). split; [apply steps_refl|]. intros; contradiction.
Qed.
Lemma tail_call_at c f s src srcw : func_ok f -> wf s -> (forall x, isw (fregs s x)) -> src_legal src srcw -> is_imm src = false ->
  function_at c f s (emit_icall c (ctx_of f) true src srcw) (fun s2 s3 =>
    let t := argval s2 8 src srcw in t mod 2 = 0 -> pc s3 = t /\ getr s3 1 = getr s 1 /\ left_frame f s s2 s3).
Proof.
  intros OK W FW L NI codef a b Ha Hb Ca Cb. destruct (enter_all c f s OK W) as (s1 & (W1 & D) & E). exists (fsize_of f), s1.
  split; [apply D; auto|]. split; [auto|]. split; [apply E|]. intros s2 W2 B.
  destruct (Z.eq_dec (argval s2 8 src srcw mod 2) 0) as [Ev|Ev].
  - assert (X := leave_ok c f s OK W FW false s1 s2 src srcw E B W2 L NI Ev). unfold emit_icall in Cb. destruct (to_tmp c (ctx_of f) src srcw) as [e1 s']. cbn [fst snd] in X.
    destruct (X codef b Hb Cb) as (s3 & S & _ & (P & LF) & RA & _). exists s3. split; auto.
  - exists (setpc s2 b). split; [apply steps_refl|]. intros; contradiction.
Qed.
(** Only the frame is released: what follows is a direct jump (sljit_emit_return_to or sljit_emit_call with SLJIT_CALL_RETURN). *)
Lemma release_at c f s rt codef a b : func_ok f -> wf s -> (forall x, isw (fregs s x)) -> isw a -> isw b ->
  code_at codef a (units_of (flat (enter_code c f))) -> code_at codef b (units_of (flat (emit_stack_frame_release c (ctx_of f) rt))) ->
  exists F s1, steps codef (setpc s a) (setpc s1 (wrap (a + 2 * Z.of_nat (length (units_of (flat (enter_code c f))))))) /\ wf s1 /\ entered f F s s1 /\
    forall s2, wf s2 -> body f F s1 s2 -> exists s3,
      steps codef (setpc s2 b) (setpc s3 (wrap (b + 2 * Z.of_nat (length (units_of (flat (emit_stack_frame_release c (ctx_of f) rt))))))) /\
      left_frame f s s2 s3 /\ (rt = false -> getr s3 1 = getr s 1).
Proof.
  intros OK W FW Ha Hb Ca Cb. destruct (enter_all c f s OK W) as (s1 & (W1 & D) & E). exists (fsize_of f), s1.
  split; [apply D; auto|]. split; [auto|]. split; [apply E|]. intros s2 W2 B.
  destruct (release_all c f s OK W FW s1 s2 rt E B W2) as (s3 & (_ & D3) & L & RA & _). exists s3. split; [apply D3; auto|]. split; auto.
Qed.
Lemma get_ra_at c f s dst dstw codef a b : func_ok f -> wf s -> (forall x, isw (fregs s x)) -> dst_legal dst dstw -> isw a -> isw b ->
  let e := emit_get_return_address c (ctx_of f) dst dstw in
  code_at codef a (units_of (flat (enter_code c f))) -> code_at codef b (units_of (flat e)) ->
  exists F s1, steps codef (setpc s a) (setpc s1 (wrap (a + 2 * Z.of_nat (length (units_of (flat (enter_code c f))))))) /\ wf s1 /\ entered f F s s1 /\
    forall s2, wf s2 -> body f F s1 s2 -> exists s3,
      steps codef (setpc s2 b) (setpc s3 (wrap (b + 2 * Z.of_nat (length (units_of (flat e)))))) /\
      dest s2 s3 8 dst dstw (getr s 1) /\ rd s3 28 = rd s2 28 /\ rd s3 29 = rd s2 29.
Proof.
  intros OK W FW L Ha Hb e Ca Cb. destruct (enter_all c f s OK W) as (s1 & (W1 & D) & E). exists (fsize_of f), s1.
  split; [apply D; auto|]. split; [auto|]. split; [apply E|]. intros s2 W2 B.
  destruct (get_return_address_ok c f s s1 s2 dst dstw OK W FW E B W2 L) as (s3 & (_ & D3) & X). exists s3. split; [apply D3; auto|exact X].
Qed.
Lemma dest_argval s s' dst dstw v : isw v -> dst_legal dst dstw -> dest s s' 8 dst dstw v -> argval s' 8 dst dstw = v.
Proof.
  intros V L (Fr & D). destruct dst as [r| |b o]; cbn [dst_legal argval] in *; [|destruct L|].
  - apply D. unfold ureg in L. lia.
  - destruct D as (M & K). assert (A : addr s' b o dstw = addr s b o dstw).
    { assert (Vs : forall q, q = 0 \/ ureg q \/ q = SLJIT_SP -> rd s' q = rd s q).
      { intros q [->|[H|H]]; [rewrite !rd_0; reflexivity|apply K; left; auto|apply K; right; left; auto]. }
      unfold addr, mem_legal in *. rewrite (Vs b) by tauto. destruct (o =? 0) eqn:O; auto. rewrite (Vs o); auto. destruct L as ([(_ & ->)|[(_ & [->|L])|(_ & [->|L])]] & _); tauto. }
    rewrite A, M, load_store by lia. apply Z.mod_small. exact V.
Qed.
Lemma fast_call_ok c src srcw dst dstw s codef p q r : wf s -> src_legal src srcw -> is_imm src = false -> dst_legal dst dstw ->
  isw p -> isw r -> q = argval s 8 src srcw -> q mod 2 = 0 -> p mod 2 = 0 ->
  code_at codef p (units_of (flat (emit_ijump c true src srcw))) ->
  code_at codef q (units_of (flat (emit_fast_enter c dst dstw))) ->
  code_at codef r (units_of (flat (emit_fast_return c dst dstw))) ->
  exists s1, steps codef (setpc s p) s1 /\ pc s1 = wrap (q + 2 * Z.of_nat (length (units_of (flat (emit_fast_enter c dst dstw))))) /\
    forall s2, wf s2 -> argval s2 8 dst dstw = argval s1 8 dst dstw -> exists s3, steps codef (setpc s2 r) s3 /\
      pc s3 = wrap (p + 2 * Z.of_nat (length (units_of (flat (emit_ijump c true src srcw))))).
Proof.
  intros W L NI Ld Hp Hr Q Eq Ep Cp Cq Cr.
  destruct (ijump_ok c true src srcw s W L NI ltac:(rewrite <- Q; auto) codef p Hp Cp) as (s0 & S0 & Ws0 & P0 & R0 & K0).
  set (n := wrap (p + 2 * Z.of_nat (length (units_of (flat (emit_ijump c true src srcw)))))) in *. specialize (R0 eq_refl).
  assert (Wn : isw n) by apply wrap_isw. assert (En : n mod 2 = 0).
  { unfold n. etransitivity; [exact (wrap_mod 1 _ ltac:(lia))|]. change (2 ^ 1) with 2. rewrite Z.add_mod, Ep, Z.mul_comm, Z.mod_mul by lia. reflexivity. }
  assert (PW : isw (pc s0)).
  { rewrite P0. destruct src; [apply wf_rd; auto|discriminate|exact (load_isw _ B8 _)]. }
  specialize (Ws0 W). destruct (fast_enter_ok c dst dstw s0 Ws0 Ld) as (t & (_ & D) & Dt & _). rewrite R0 in Dt.
  exists (setpc t (wrap (q + 2 * Z.of_nat (length (units_of (flat (emit_fast_enter c dst dstw))))))). split.
  { eapply steps_trans; [exact S0|]. specialize (D codef q ltac:(rewrite Q, <- P0; exact PW) Cq). rewrite Q, <- P0 in D at 1. replace (setpc s0 (pc s0)) with s0 in D by (destruct s0; reflexivity). exact D. }
  split; [reflexivity|]. intros s2 W2 A2. assert (A1 : argval (setpc t (wrap (q + 2 * Z.of_nat (length (units_of (flat (emit_fast_enter c dst dstw))))))) 8 dst dstw = n).
  { apply (dest_argval s0 _ dst dstw n Wn Ld). exact Dt. }
  rewrite A1 in A2. destruct (fast_return_ok c dst dstw s2 W2) with (codef := codef) (p := r) as (s3 & S3 & _ & P3 & _); auto.
  - destruct dst; auto. destruct Ld.
  - destruct dst; auto. destruct Ld.
  - rewrite A2; auto.
  - exists s3. split; auto. congruence.
Qed.
