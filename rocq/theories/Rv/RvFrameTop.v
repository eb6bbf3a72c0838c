(** Function entry and return: the whole sequences. *)
Require Import ZArith List Bool Lia Zify ZifyBool.
From Verif Require Import Rv.RvLib Rv.RvBits Rv.RvIsa Rv.RvEnc Rv.RvImm Rv.RvRun Rv.RvImmProofs Rv.RvCtl Rv.RvWf Rv.RvMem Rv.RvRunMem Rv.RvOp Rv.RvLir Rv.RvOpLib Rv.RvSx Rv.RvMemProofs Rv.RvEmitOp1 Rv.RvOpTop Rv.RvFrame Rv.RvFrameSpec Rv.RvFrameProofs.
Import ListNotations.
Open Scope Z_scope.
Ltac Zify.zify_post_hook ::= idtac.

(** ** Loops counting down *)
Lemma down_n_len n : forall hi, length (down_n hi n) = n. Proof. induction n; intros; cbn; auto. Qed.
Lemma down_len hi lo : Z.of_nat (length (down hi lo)) = Z.max 0 (hi - lo). Proof. unfold down. rewrite down_n_len. lia. Qed.
Lemma down_n_in n : forall hi i, In i (down_n hi n) <-> hi - Z.of_nat n < i <= hi.
Proof. induction n; intros hi i; cbn [down_n In]. { lia. } rewrite IHn. lia. Qed.
Lemma down_in hi lo i : In i (down hi lo) <-> lo < i <= hi. Proof. unfold down. rewrite down_n_in. lia. Qed.
Lemma down_n_nd n : forall hi, NoDup (down_n hi n).
Proof. induction n; intros; cbn [down_n]; constructor; auto. rewrite down_n_in. lia. Qed.
Lemma down_nd hi lo : NoDup (down hi lo). Proof. apply down_n_nd. Qed.
Lemma down_all (P : Z -> Prop) hi lo : (forall i, lo < i <= hi -> P i) -> Forall P (down hi lo).
Proof. intros H. apply Forall_forall. intros i I. apply H. apply down_in. auto. Qed.

Section T.
Variable c : cfg.
Variable f : func.
Hypothesis OK : func_ok f.

Notation ctx_of := (set_context (options_of f) (scratches_of f) (saveds_of f) (f_local f)).
Definition fsize_of : Z := (f_local f + 8 * nsaved f + 15) / 16 * 16.
Definition L1 := down (23 - f_kept f) (23 - f_saveds f).
Definition L2 := down (f_scratches f) 11.
Definition L3 := down 30 (30 - f_fsaveds f).
Definition L4 := down (f_fscratches f) 18.

Lemma land3 x : x .& 3 = x mod 4. Proof. apply (land_low x 2 3); reflexivity || lia. Qed.
Lemma landff x : x .& 0xff = x mod 256. Proof. apply (land_low x 8 0xff); reflexivity || lia. Qed.
Lemma divmod_add k a x : 0 <= a < k -> (a + k * x) / k = x /\ (a + k * x) mod k = a.
Proof.
  intros H. split. { rewrite Z.mul_comm, Z.div_add by lia. rewrite Z.div_small by lia. lia. }
  rewrite Z.mul_comm, Z_mod_plus_full. apply Z.mod_small. lia.
Qed.
Lemma kept_of : KEPT (options_of f) = f_kept f.
Proof.
  unfold KEPT. rewrite land3. unfold options_of. destruct OK as (_ & _ & _ & _ & _ & _ & _ & _ & K & _).
  destruct (f_reg_arg f); [|rewrite Z.add_0_l; apply Z.mod_small; lia].
  replace (4 + f_kept f) with (f_kept f + 4 * 1) by lia. apply divmod_add. lia.
Qed.
Lemma reg_arg_of : negb (options_of f .& SLJIT_ENTER_REG_ARG =? 0) = f_reg_arg f.
Proof.
  unfold options_of, SLJIT_ENTER_REG_ARG. destruct OK as (_ & _ & _ & _ & _ & _ & _ & _ & K & _).
  assert (f_kept f = 0 \/ f_kept f = 1 \/ f_kept f = 2 \/ f_kept f = 3) as [->|[->|[->| ->]]] by lia; destruct (f_reg_arg f); reflexivity.
Qed.
Lemma ctx_eq : ctx_of = mkX (options_of f) (f_scratches f) (f_saveds f) (f_fscratches f) (f_fsaveds f) fsize_of.
Proof.
  unfold set_context. cbv zeta. rewrite kept_of. unfold ENTER_GET_REGS, ENTER_GET_FLOAT_REGS. rewrite !landff, !Z.shiftr_div_pow2 by lia.
  change (2 ^ 8) with 256. destruct OK as (A1 & A2 & A3 & A4 & A5 & A6 & A7 & A8 & A9 & A10 & A11 & _).
  unfold scratches_of, saveds_of.
  replace (f_scratches f + 256 * f_fscratches f + 65536 * f_vscratches f) with (f_scratches f + 256 * (f_fscratches f + 256 * f_vscratches f)) by lia.
  destruct (divmod_add 256 (f_scratches f) (f_fscratches f + 256 * f_vscratches f) ltac:(lia)) as (-> & ->).
  destruct (divmod_add 256 (f_fscratches f) (f_vscratches f) ltac:(lia)) as (_ & ->).
  destruct (divmod_add 256 (f_saveds f) (f_fsaveds f) ltac:(lia)) as (-> & ->).
  rewrite (Z.mod_small (f_fsaveds f)) by lia.
  assert (E : (f_local f + GET_SAVED_REGISTERS_SIZE (f_scratches f) (f_saveds f - f_kept f) 1 + GET_SAVED_FLOAT_REGISTERS_SIZE (f_fscratches f) (f_fsaveds f) + 15) = f_local f + 8 * nsaved f + 15).
  { unfold GET_SAVED_REGISTERS_SIZE, GET_SAVED_FLOAT_REGISTERS_SIZE, nsaved. destruct (f_scratches f <? 11) eqn:?, (f_fscratches f <? 18) eqn:?; lia. }
  rewrite E. f_equal. unfold fsize_of. set (y := f_local f + 8 * nsaved f + 15).
  replace (Z.lnot 0xf) with (- 2 ^ 4) by reflexivity.
  apply Z.bits_inj'. intros n Hn. rewrite Z.land_spec. change 16 with (2 ^ 4). rewrite tb_mul_pow2 by lia.
  change (- 2 ^ 4) with (Z.lnot (Z.ones 4)). rewrite Z.lnot_spec by lia. destruct (n <? 4) eqn:E4.
  - rewrite Z.ones_spec_low by lia. apply andb_false_r.
  - rewrite Z.ones_spec_high by lia. rewrite <- Z.shiftr_div_pow2, Z.shiftr_spec by lia. replace (n - 4 + 4) with n by lia. apply andb_true_r.
Qed.
Lemma nsaved_range : 1 <= nsaved f <= 25.
Proof. unfold nsaved. destruct OK as (A1 & A2 & A3 & A4 & A5 & A6 & A7 & A8 & A9 & A10 & A11 & _). lia. Qed.
Lemma local_range : 0 <= f_local f <= 1048576.
Proof. destruct OK as (_ & _ & _ & _ & _ & _ & _ & A8 & _). exact A8. Qed.
Lemma fsize_range : f_local f + 8 * nsaved f <= fsize_of <= f_local f + 8 * nsaved f + 15 /\ fsize_of mod 16 = 0 /\ 16 <= fsize_of <= 1048576 + 216.
Proof.
  pose proof nsaved_range. unfold fsize_of. pose proof (Z.div_mod (f_local f + 8 * nsaved f + 15) 16 ltac:(lia)).
  pose proof (Z.mod_pos_bound (f_local f + 8 * nsaved f + 15) 16 ltac:(lia)).
  destruct OK as (_ & _ & _ & _ & _ & _ & _ & A8 & _). split; [lia|]. split. { apply Z.mod_mul. lia. } lia.
Qed.

Definition vals (s : mst) : list Z :=
  rd s RETURN_ADDR_REG :: map (rd s) (L1 ++ L2) ++ map (fun r => fregs s (freg_map r)) (L3 ++ L4).
Lemma vals_len s : Z.of_nat (length (vals s)) = nsaved f.
Proof.
  unfold vals. cbn [length]. rewrite app_length, !map_length, !app_length, Nat2Z.inj_succ, !Nat2Z.inj_add.
  unfold L1, L2, L3, L4. rewrite !down_len. unfold nsaved. destruct OK as (A1 & A2 & A3 & A4 & A5 & A6 & A7 & A8 & A9 & A10 & A11 & _). lia.
Qed.
Lemma in_L12 i : In i (L1 ++ L2) <-> 23 - f_saveds f < i <= 23 - f_kept f \/ 11 < i <= f_scratches f.
Proof. rewrite in_app_iff. unfold L1, L2. rewrite !down_in. tauto. Qed.
Lemma in_L34 i : In i (L3 ++ L4) <-> 30 - f_fsaveds f < i <= 30 \/ 18 < i <= f_fscratches f.
Proof. rewrite in_app_iff. unfold L3, L4. rewrite !down_in. tauto. Qed.
Lemma nd_app {A} (l m : list A) : NoDup l -> NoDup m -> (forall x, In x l -> ~ In x m) -> NoDup (l ++ m).
Proof.
  induction l; intros N M D; cbn; auto. inversion N; subst. constructor.
  - rewrite in_app_iff. intros [I|I]; auto. apply (D a); auto. left. reflexivity.
  - apply IHl; auto. intros x I. apply D. right. auto.
Qed.
Lemma nd_L12 : NoDup (L1 ++ L2).
Proof.
  apply nd_app; try apply down_nd. intros x. unfold L1, L2. rewrite !down_in.
  destruct OK as (A1 & A2 & A3 & _). lia.
Qed.
Lemma nd_L34 : NoDup (L3 ++ L4).
Proof.
  apply nd_app; try apply down_nd. intros x. unfold L3, L4. rewrite !down_in.
  destruct OK as (_ & _ & _ & A4 & A5 & A6 & _). lia.
Qed.
Lemma all_L12 (P : Z -> Prop) : (forall i, 12 <= i <= 23 -> P i) -> Forall P (L1 ++ L2).
Proof.
  intros H. apply Forall_forall. intros i I. apply in_L12 in I. apply H.
  destruct OK as (A1 & A2 & A3 & A4 & A5 & A6 & A7 & A8 & A9 & _). lia.
Qed.
Lemma all_L34 (P : Z -> Prop) : (forall i, 19 <= i <= 30 -> P i) -> Forall P (L3 ++ L4).
Proof.
  intros H. apply Forall_forall. intros i I. apply in_L34 in I. apply H.
  destruct OK as (_ & _ & _ & A4 & A5 & A6 & _). lia.
Qed.

Lemma slots_app g l1 l2 o k : slots g (l1 ++ l2) o k = slots g l1 o (fun o => slots g l2 o k).
Proof. revert o. induction l1; intros; cbn [app slots]; auto. rewrite IHl1. reflexivity. Qed.

(** Saving the registers. *)
Lemma saves_ok q e s (P : mst -> Prop) : nsaved f <= q <= 256 ->
  ok e (setm s (push (mem s) (rd s SLJIT_SP + 8 * q) (vals s))) P ->
  ok (st_reg c (8 * q - 8) RETURN_ADDR_REG ;;
      slots (st_reg c) L1 (8 * q - 8) (fun o => slots (st_reg c) L2 o (fun o => slots (st_freg c) L3 o (fun o => slots (st_freg c) L4 o (fun _ => e))))) s P.
Proof.
  intros Q H. assert (N := vals_len s). unfold vals in N. cbn [length] in N. rewrite app_length, !map_length in N.
  apply ok_then. replace (8 * q - 8) with (8 * (q - 1)) by lia. apply x_st_reg; [unfold RETURN_ADDR_REG, TMP_REG2; vl|lia|].
  rewrite <- (slots_app (st_reg c) L1 L2 (8 * (q - 1)) (fun o => slots (st_freg c) L3 o (fun o => slots (st_freg c) L4 o (fun _ => e)))).
  apply slots_st. { apply all_L12. intros. vl. } { lia. }
  rewrite <- (slots_app (st_freg c) L3 L4 _ (fun _ => e)).
  replace (8 * (q - 1) - 8 * Z.of_nat (length (L1 ++ L2))) with (8 * (q - 1 - Z.of_nat (length (L1 ++ L2)))) by lia.
  apply slots_fst. { apply all_L34. intros. lia. } { lia. }
  cbn [mem setm]. rewrite !rd_setm.
  match goal with |- ok e ?a P => replace a with (setm s (push (mem s) (rd s SLJIT_SP + 8 * q) (vals s))); [exact H|] end.
  unfold vals, setm. cbn [regs fregs pc mem]. f_equal. cbn [push]. rewrite push_app, map_length.
  replace (rd s SLJIT_SP + 8 * (q - 1)) with (rd s SLJIT_SP + 8 * q - 8) by lia.
  replace (rd s SLJIT_SP + 8 * (q - 1 - Z.of_nat (length (L1 ++ L2)))) with (rd s SLJIT_SP + 8 * q - 8 - 8 * Z.of_nat (length (L1 ++ L2))) by lia.
  reflexivity.
Qed.

(** ** Arguments *)
Lemma args_land t x : 0 <= t < 16 -> (t + 16 * x) .& SLJIT_ARG_MASK = t .& SLJIT_ARG_MASK /\ (t + 16 * x) .& SLJIT_ARG_TYPE_SCRATCH_REG = t .& SLJIT_ARG_TYPE_SCRATCH_REG /\ Z.shiftr (t + 16 * x) 4 = x.
Proof.
  intros T. assert (E : (t + 16 * x) .& 15 = t). { rewrite (land_low _ 4 15) by (reflexivity || lia). change (2 ^ 4) with 16. apply divmod_add. lia. }
  unfold SLJIT_ARG_MASK, SLJIT_ARG_TYPE_SCRATCH_REG. change 7 with (15 .& 7). change 8 with (15 .& 8).
  rewrite !Z.land_assoc, E. rewrite Z.shiftr_div_pow2 by lia. change (2 ^ 4) with 16. destruct (divmod_add 16 t x T) as (-> & _).
  replace (t .& 15) with t; auto. rewrite (land_low t 4 15) by (reflexivity || lia). change (2 ^ 4) with 16. rewrite Z.mod_small; lia.
Qed.
Lemma acodes_pos l : Forall atype_ok l -> 0 <= acodes l /\ (acodes l <=? 0) = match l with [] => true | _ => false end.
Proof.
  induction 1; cbn [acodes]. { split; reflexivity. }
  unfold atype_ok in H. destruct x; cbn [acode]; lia.
Qed.
Lemma enter_args_ok g l : forall fuel n k s, (length l <= fuel)%nat -> Forall atype_ok l -> 0 <= k <= n -> n + Z.of_nat (length l) <= 4 -> wf s ->
  (forall j, n <= j < 4 -> rd s (1 + j) = g (10 + j)) ->
  ok (enter_args c fuel (acodes l) k (1 + n)) s (fun s1 => args_in g s1 l n k /\ mem s1 = mem s /\ fregs s1 = fregs s /\
     forall q, vreg q -> 23 - k < q \/ q <= 23 - k - count is_saved l -> rd s1 q = rd s q).
Proof.
  induction l as [|a l IH]; intros fuel n k s HF HA Hk Hn W G.
  - destruct fuel; cbn; apply ok_nop; repeat split; auto.
  - destruct fuel as [|fuel]; [cbn in HF; lia|]. assert (HP := acodes_pos _ HA). inversion HA as [|? ? Ha HA']; subst.
    cbn [length] in *. cbn [enter_args]. destruct HP as (_ & ->).
    assert (R : 0 <= acode a < 16) by (destruct a; cbn in *; lia).
    cbn [acodes]. destruct (args_land (acode a) (acodes l) R) as (-> & -> & ->).
    destruct a as [t|t|t]; cbn [atype_ok acode] in *.
    + assert (T : t = 1 \/ t = 2 \/ t = 3) by lia.
      replace (t .& SLJIT_ARG_MASK <? SLJIT_ARG_TYPE_F64) with true by (destruct T as [->|[->| ->]]; reflexivity).
      replace (t .& SLJIT_ARG_TYPE_SCRATCH_REG =? 0) with true by (destruct T as [->|[->| ->]]; reflexivity).
      unfold SLJIT_S0. apply ok_then.
      assert (X : forall P : mst -> Prop, P (wr s (23 - k) (rd s (1 + n))) ->
         ok (if cC c then E16 (C_MV .| C_RD (23 - k) .| C_RS2 (1 + n)) else E32 (ADDI .| RD (23 - k) .| RS1 (1 + n) .| IMM_I 0)) s P).
      { intros P H. destruct (cC c). { apply x_C_MV; auto; try vl. apply wf_rd; auto. }
        apply (x_I _ _ ADDI Addi); auto; try vl. cbn [alui]. change (sext 12 0) with 0. rewrite Z.add_0_r, wrap_small by (apply wf_rd; auto). auto. }
      apply X. clear X.
      replace (1 + n + 1) with (1 + (n + 1)) by lia.
      assert (W1 : wf (wr s (23 - k) (rd s (1 + n)))) by (apply wf_wr; auto; apply wf_rd; auto).
      eapply ok_mono. { apply (IH fuel (n + 1) (k + 1)); auto; try lia. intros j Hj. rewrite rd_wr_other by vl. apply G. lia. }
      cbv beta. intros s1 (A & M & Fr & K). assert (CS : count is_saved (ASaved t :: l) = 1 + count is_saved l) by (unfold count; cbn [filter is_saved length]; lia).
      assert (C0 : 0 <= count is_saved l) by (unfold count; lia).
      split; [|split; [|split]].
      * cbn [args_in]. split; auto. rewrite K by vl. rewrite rd_wr_same by vl. apply G. lia.
      * rewrite M. apply mem_wr.
      * rewrite Fr. apply fregs_wr.
      * intros q Q H. rewrite K by (auto; lia). apply rd_wr_other; auto; vl.
    + assert (T : t = 1 \/ t = 2 \/ t = 3) by lia.
      replace ((t + 8) .& SLJIT_ARG_MASK <? SLJIT_ARG_TYPE_F64) with true by (destruct T as [->|[->| ->]]; reflexivity).
      replace ((t + 8) .& SLJIT_ARG_TYPE_SCRATCH_REG =? 0) with false by (destruct T as [->|[->| ->]]; reflexivity).
      replace (1 + n + 1) with (1 + (n + 1)) by lia.
      eapply ok_mono. { apply (IH fuel (n + 1) k); auto; try lia. intros j Hj. apply G. lia. }
      cbv beta. intros s1 (A & M & Fr & K). split; [|split; [|split]]; auto.
      cbn [args_in]. split; auto. assert (C0 : count is_saved l <= Z.of_nat (length l)).
      { unfold count. clear. induction l as [|y l IH]; cbn [filter length]; [lia|]. destruct (is_saved y); cbn [length]; lia. }
      rewrite K by vl. apply G. lia.
    + assert (T : t = 4 \/ t = 5) by lia.
      replace (t .& SLJIT_ARG_MASK <? SLJIT_ARG_TYPE_F64) with false by (destruct T as [->| ->]; reflexivity).
      eapply ok_mono. { apply (IH fuel n k); auto; try lia. }
      cbv beta. intros s1 (A & M & Fr & K). split; [|split; [|split]]; auto.
Qed.

(** ** Entry *)
Lemma enter_ok s : wf s ->
  ok (emit_enter c (options_of f) (arg_types_of f) (scratches_of f) (saveds_of f) (f_local f)) s (fun s1 =>
    rd s1 SLJIT_SP = wrap (rd s SLJIT_SP - fsize_of) /\
    mem s1 = push (mem s) (rd s SLJIT_SP) (vals s) /\ fregs s1 = fregs s /\
    (f_reg_arg f = false -> args_in (getr s) s1 (f_args f) 0 0) /\
    rd s1 RETURN_ADDR_REG = rd s RETURN_ADDR_REG /\
    forall i, 1 <= i <= 23 -> (f_reg_arg f = true \/ i <= 23 - count is_saved (f_args f)) -> rd s1 i = rd s i).
Proof.
  intros W. unfold emit_enter. rewrite ctx_eq. cbv zeta. cbn [x_local x_options x_scratches x_saveds x_fscratches x_fsaveds]. rewrite kept_of.
  destruct fsize_range as (FR1 & FR2 & FR3). assert (NR := nsaved_range). assert (LR := local_range). set (F := fsize_of) in *. clearbody F.
  assert (FQ : F = 16 * (F / 16)) by (apply Z.div_exact; [lia|exact FR2]).
  assert (FB : F / 16 <= 65549) by (apply Z.div_le_upper_bound; lia).
  unfold MAX_ENTER. set (rest := if F <=? 2048 then 0 else F - 2048).
  assert (RS : if F <=? 2048 then rest = 0 else rest = F - 2048) by (unfold rest; destruct (F <=? 2048); reflexivity).
  set (F1 := if F <=? 2048 then F else 2048). assert (FE : F = F1 + rest) by (unfold F1; destruct (F <=? 2048); lia).
  assert (F1R : nsaved f <= F1 / 8 <= 256 /\ F1 = 8 * (F1 / 8)).
  { unfold F1. destruct (F <=? 2048) eqn:E.
    - assert (F / 8 = 2 * (F / 16)) by (rewrite FQ at 1; replace (16 * (F / 16)) with (2 * (F / 16) * 8) by lia; apply Z.div_mul; lia). lia.
    - change (2048 / 8) with 256. lia. }
  destruct F1R as (F1R & F1E). set (q := F1 / 8) in *. clearbody q.
  apply ok_then.
  (* lowering the stack pointer *)
  apply ok_mono with (P := fun s' => mem s' = mem s /\ fregs s' = fregs s /\ rd s' SLJIT_SP = wrap (rd s SLJIT_SP - F1) /\ wf s' /\
     (rest > 2048 -> rd s' TMP_REG1 = wrap rest) /\ forall r, vreg r -> r <> SLJIT_SP -> r <> TMP_REG1 -> r <> TMP_REG3 -> rd s' r = rd s r).
  { unfold F1. clear F1E FE F1 F1R. destruct (F <=? 2048) eqn:E.
    - assert (G : forall P : mst -> Prop, P (wr s SLJIT_SP (wrap (rd s SLJIT_SP - F))) ->
        ok (if cC c && (- F >=? - 512) then E16 (C_ADDI16SP .| u16 (c_addi16sp (- F) .| 4096)) else E32 (ADDI .| RD SLJIT_SP .| RS1 SLJIT_SP .| IMM_I (- F))) s P).
      { intros P H. destruct (cC c && (- F >=? - 512)) eqn:EC.
        - rewrite FQ. apply x_addi16sp_neg; [lia|]. rewrite <- FQ. exact H.
        - apply (x_I _ _ ADDI Addi); try (unfold SLJIT_SP; vl); try reflexivity. cbn [alui]. rewrite sext12_small by lia.
          replace (rd s SLJIT_SP + - F) with (rd s SLJIT_SP - F) by lia. exact H. }
      apply G. rewrite mem_wr, fregs_wr. rewrite rd_wr_same by (unfold SLJIT_SP; vl). split; [|split; [|split; [|split; [|split]]]]; auto.
      + apply wf_wr; auto using wrap_isw.
      + lia.
      + intros r Hr N _ _. apply rd_wr_other; auto; unfold SLJIT_SP; vl.
    - apply ok_then. apply (x_I _ _ ADDI Addi); try (unfold SLJIT_SP; vl); try reflexivity. cbn [alui]. change (sext 12 2048) with (- 2048).
      replace (rd s SLJIT_SP + - 2048) with (rd s SLJIT_SP - 2048) by lia. set (s1 := wr s SLJIT_SP (wrap (rd s SLJIT_SP - 2048))).
      assert (W1 : wf s1) by (apply wf_wr; auto using wrap_isw).
      assert (S1 : rd s1 SLJIT_SP = wrap (rd s SLJIT_SP - 2048)) by (apply rd_wr_same; unfold SLJIT_SP; vl).
      assert (O1 : forall r, vreg r -> r <> SLJIT_SP -> rd s1 r = rd s r) by (intros; apply rd_wr_other; auto; unfold SLJIT_SP; vl).
      assert (M1 : mem s1 = mem s) by apply mem_wr. assert (Fr1 : fregs s1 = fregs s) by apply fregs_wr.
      clearbody s1. destruct (rest >? 2048) eqn:E2.
      + destruct (load_immediate_ok c TMP_REG1 TMP_REG3 rest s1) as (s2 & R2 & V2 & K2); try (unfold TMP_REG1, TMP_REG3, SLJIT_SP; vl); try lia.
        apply ok_run with s2; auto. destruct K2 as (KM & KF & _ & KR). assert (W2 : wf s2) by (eapply run_wf; eauto).
        split; [congruence|]. split; [congruence|]. split; [|split; [|split]]; auto.
        * rewrite KR; auto; unfold TMP_REG1, TMP_REG3, SLJIT_SP; [vl|cbn; lia].
        * intros r Hr N1 N2 N3. rewrite KR; auto. cbn. intuition.
      + apply ok_nop. split; [|split; [|split; [|split; [|split]]]]; auto. lia. }
  cbv beta. intros s' (M & Fr & SP & W' & T1 & K).
  assert (VE : vals s' = vals s).
  { unfold vals. rewrite Fr. f_equal. { apply K; unfold RETURN_ADDR_REG, TMP_REG1, TMP_REG2, TMP_REG3, SLJIT_SP; vl. }
    f_equal. apply map_ext_in. intros r I. assert (A := all_L12 (fun r => 12 <= r <= 23) (fun i H => H)). rewrite Forall_forall in A.
    specialize (A r I). apply K; unfold TMP_REG1, TMP_REG3, SLJIT_SP; vl. }
  clearbody F1. subst F1.
  apply (saves_ok q); [lia|]. rewrite VE, M.
  assert (PE : push (mem s) (rd s' SLJIT_SP + 8 * q) (vals s) = push (mem s) (rd s SLJIT_SP) (vals s)).
  { apply push_cong. rewrite SP, wrap_add_l. f_equal. lia. }
  rewrite PE. set (s2 := setm s' (push (mem s) (rd s SLJIT_SP) (vals s))).
  assert (W2 : wf s2) by exact W'.
  apply ok_then.
  apply ok_mono with (P := fun s3 => mem s3 = mem s2 /\ fregs s3 = fregs s2 /\ rd s3 SLJIT_SP = wrap (rd s SLJIT_SP - F) /\ wf s3 /\
     forall r, vreg r -> r <> SLJIT_SP -> rd s3 r = rd s2 r).
  { assert (G : forall v, v = wrap (rd s SLJIT_SP - F) -> (fun s3 => mem s3 = mem s2 /\ fregs s3 = fregs s2 /\ rd s3 SLJIT_SP = wrap (rd s SLJIT_SP - F) /\ wf s3 /\
       forall r, vreg r -> r <> SLJIT_SP -> rd s3 r = rd s2 r) (wr s2 SLJIT_SP v)).
    { intros v ->. cbv beta. rewrite mem_wr, fregs_wr. rewrite rd_wr_same by (unfold SLJIT_SP; vl). split; [|split; [|split; [|split]]]; auto.
      - apply wf_wr; auto using wrap_isw.
      - intros r Hr N. apply rd_wr_other; auto; unfold SLJIT_SP; vl. }
    destruct (rest >? 2048) eqn:E.
    - apply (x_R _ _ SUB Sub); try (unfold SLJIT_SP, TMP_REG1; vl); try reflexivity. apply G. cbn [alu]. unfold s2. rewrite !rd_setm, SP, T1 by lia.
      rewrite wrap_sub_l, wrap_sub_r. f_equal. lia.
    - destruct (rest >? 0) eqn:E2.
      + apply (x_I _ _ ADDI Addi); try (unfold SLJIT_SP; vl); try reflexivity. apply G. cbn [alui]. rewrite sext12_small by lia. unfold s2. rewrite !rd_setm, SP.
        rewrite wrap_add_l. f_equal. lia.
      + apply ok_nop. split; [|split; [|split; [|split]]]; auto. unfold s2. rewrite rd_setm, SP. f_equal.
        assert (rest = 0) by (destruct (F <=? 2048) eqn:?; lia). lia. }
  cbv beta. intros s3 (M3 & Fr3 & SP3 & W3 & K3).
  assert (O3 : forall r, vreg r -> r <> SLJIT_SP -> r <> TMP_REG1 -> r <> TMP_REG3 -> rd s3 r = rd s r).
  { intros. rewrite K3 by auto. unfold s2. rewrite rd_setm. auto. }
  rewrite reg_arg_of. destruct (f_reg_arg f) eqn:RA.
  - apply ok_nop. split; [|split; [|split; [|split; [|split]]]]; auto; try congruence.
    + unfold s2 in Fr3. cbn [fregs setm] in Fr3. congruence.
    + apply O3; unfold RETURN_ADDR_REG, TMP_REG1, TMP_REG2, TMP_REG3, SLJIT_SP; vl.
    + intros i Hi _. apply O3; unfold TMP_REG1, TMP_REG3, SLJIT_SP; vl.
  - destruct OK as (A1 & A2 & A3 & A4 & A5 & A6 & A7 & A8 & A9 & A10 & A11 & A12 & A13 & A14 & A15 & _). rewrite RA in A15.
    assert (AE : Z.shiftr (arg_types_of f) 4 = acodes (f_args f)).
    { unfold arg_types_of. rewrite Z.shiftr_div_pow2 by lia. change (2 ^ 4) with 16. apply divmod_add. lia. }
    rewrite AE. eapply ok_mono. { apply (enter_args_ok (getr s) (f_args f) 8 0 0 s3); auto; try lia.
      intros j Hj. rewrite O3 by (unfold TMP_REG1, TMP_REG3, SLJIT_SP; vl).
      assert (j = 0 \/ j = 1 \/ j = 2 \/ j = 3) as [->|[->|[->| ->]]] by lia; reflexivity. }
    cbv beta. intros s4 (A & M4 & Fr4 & K4). assert (C4 : 0 <= count is_saved (f_args f) <= 4).
    { unfold count. split; [lia|]. clear - A14. revert A14. generalize (f_args f) as l. intros l H.
      assert (length (filter is_saved l) <= length l)%nat. { clear. induction l as [|y l IH]; cbn [filter length]; [lia|]. destruct (is_saved y); cbn [length]; lia. } lia. }
    split; [|split; [|split; [|split; [|split]]]]; auto.
    + rewrite K4, SP3; auto; unfold SLJIT_SP; vl.
    + rewrite M4, M3. reflexivity.
    + rewrite Fr4, Fr3. unfold s2. cbn [fregs setm]. auto.
    + rewrite K4 by (unfold RETURN_ADDR_REG, TMP_REG2; vl). apply O3; unfold RETURN_ADDR_REG, TMP_REG1, TMP_REG2, TMP_REG3, SLJIT_SP; vl.
    + intros i Hi [D|D]; [discriminate|]. rewrite K4 by vl. apply O3; unfold TMP_REG1, TMP_REG3, SLJIT_SP; vl.
Qed.

(** ** Release *)
Lemma nth_vals s k r : nth_error (L1 ++ L2) k = Some r -> nth_error (vals s) (S k) = Some (rd s r).
Proof.
  intros N. unfold vals. cbn [nth_error]. rewrite nth_error_app1. { apply map_nth_error. auto. }
  rewrite map_length. apply nth_error_Some. congruence.
Qed.
Lemma nth_fvals s k r : nth_error (L3 ++ L4) k = Some r -> nth_error (vals s) (S (length (L1 ++ L2) + k)) = Some (fregs s (freg_map r)).
Proof.
  intros N. unfold vals. cbn [nth_error]. rewrite nth_error_app2; rewrite map_length; [|lia].
  replace (length (L1 ++ L2) + k - length (L1 ++ L2))%nat with k by lia.
  exact (map_nth_error (fun r => fregs s (freg_map r)) k (L3 ++ L4) N).
Qed.
Definition in_frame (s0 s2 : mst) : Prop :=
  forall k v, nth_error (vals s0) k = Some v -> load (mem s2) (rd s2 SLJIT_SP + fsize_of - 8 * Z.of_nat k - 8) 8 = v.
Lemma release_ok s0 s2 rt : wf s2 -> in_frame s0 s2 ->
  ok (emit_stack_frame_release c ctx_of rt) s2 (fun s3 =>
    rd s3 SLJIT_SP = wrap (rd s2 SLJIT_SP + fsize_of) /\ mem s3 = mem s2 /\
    (rt = false -> rd s3 RETURN_ADDR_REG = rd s0 RETURN_ADDR_REG) /\
    (forall r, In r (L1 ++ L2) -> rd s3 r = rd s0 r) /\
    (forall r, In r (L3 ++ L4) -> fregs s3 (freg_map r) = fregs s0 (freg_map r)) /\
    (forall r, vreg r -> r <> SLJIT_SP -> r <> TMP_REG2 -> r <> TMP_REG3 -> ~ In r (L1 ++ L2) -> rd s3 r = rd s2 r) /\
    (forall x, ~ In x (map freg_map (L3 ++ L4)) -> fregs s3 x = fregs s2 x)).
Proof.
  intros W V. unfold in_frame in V. unfold emit_stack_frame_release. rewrite ctx_eq. cbv zeta. cbn [x_local x_options x_scratches x_saveds x_fscratches x_fsaveds]. rewrite kept_of.
  destruct fsize_range as (FR1 & FR2 & FR3). assert (NR := nsaved_range). assert (LR := local_range). set (F := fsize_of) in *. clearbody F.
  assert (FQ : F = 16 * (F / 16)) by (apply Z.div_exact; [lia|exact FR2]).
  unfold MAX_RELEASE. set (F1 := if F >? 2032 then 2032 else F).
  assert (F1R : exists p, F1 = 16 * p /\ nsaved f <= 2 * p /\ 1 <= p <= 127 /\ (if F >? 2032 then F1 = 2032 else F1 = F)).
  { unfold F1. destruct (F >? 2032) eqn:E. { exists 127. lia. } exists (F / 16). lia. }
  destruct F1R as (p & F1E & Np & Rp & F1D). clearbody F1.
  assert (NV := vals_len s0). unfold vals in NV. cbn [length] in NV. rewrite app_length, !map_length in NV.
  apply ok_then.
  apply ok_mono with (P := fun s' => mem s' = mem s2 /\ fregs s' = fregs s2 /\ rd s' SLJIT_SP = wrap (rd s2 SLJIT_SP + (F - F1)) /\ wf s' /\
     forall r, vreg r -> r <> SLJIT_SP -> r <> TMP_REG2 -> r <> TMP_REG3 -> rd s' r = rd s2 r).
  { destruct (F >? 2032) eqn:E.
    - rewrite F1D. destruct (F - 2032 >? 2032) eqn:E2.
      + apply ok_then.
        destruct (load_immediate_ok c TMP_REG2 TMP_REG3 (F - 2032) s2) as (s1 & R1 & V1 & K1); try (unfold TMP_REG2, TMP_REG3, SLJIT_SP; vl); try lia.
        apply ok_run with s1; auto. destruct K1 as (KM & KF & _ & KR). assert (W1 : wf s1) by (eapply run_wf; eauto).
        assert (S1 : rd s1 SLJIT_SP = rd s2 SLJIT_SP) by (apply KR; unfold TMP_REG2, TMP_REG3, SLJIT_SP; [vl|cbn; lia]).
        apply (x_R _ _ ADD Add); try (unfold SLJIT_SP, TMP_REG2; vl); try reflexivity. cbn [alu]. rewrite mem_wr, fregs_wr.
        rewrite rd_wr_same by (unfold SLJIT_SP; vl). split; [|split; [|split; [|split]]]; auto.
        * rewrite S1, V1, wrap_add_r. reflexivity.
        * apply wf_wr; auto using wrap_isw.
        * intros r Hr N1 N2 N3. rewrite rd_wr_other by (auto; unfold SLJIT_SP; vl). apply KR; auto. cbn. intuition.
      + apply (x_I _ _ ADDI Addi); try (unfold SLJIT_SP; vl); try reflexivity. cbn [alui]. rewrite sext12_small by lia. rewrite mem_wr, fregs_wr.
        rewrite rd_wr_same by (unfold SLJIT_SP; vl). split; [|split; [|split; [|split]]]; auto.
        * apply wf_wr; auto using wrap_isw.
        * intros r Hr N1 N2 N3. apply rd_wr_other; auto; unfold SLJIT_SP; vl.
    - apply ok_nop. split; [|split; [|split; [|split]]]; auto. replace (rd s2 SLJIT_SP + (F - F1)) with (rd s2 SLJIT_SP) by lia. rewrite wrap_small; auto. apply wf_rd; auto. }
  cbv beta. intros s' (M & Fr & SP & W' & K).
  assert (Wa : forall y, wrap (rd s' SLJIT_SP + F1 - y) = wrap (rd s2 SLJIT_SP + F - y)).
  { intros y. rewrite SP. replace (wrap (rd s2 SLJIT_SP + (F - F1)) + F1 - y) with (wrap (rd s2 SLJIT_SP + (F - F1)) + (F1 - y)) by lia.
    rewrite wrap_add_l. f_equal. lia. }
  replace (F1 - 8) with (8 * (2 * p - 1)) by lia.
  (* the return address *)
  apply ok_then.
  apply ok_mono with (P := fun s1 => mem s1 = mem s2 /\ fregs s1 = fregs s2 /\ rd s1 SLJIT_SP = rd s' SLJIT_SP /\ wf s1 /\
     (rt = false -> rd s1 RETURN_ADDR_REG = rd s0 RETURN_ADDR_REG) /\
     forall r, vreg r -> r <> SLJIT_SP -> r <> TMP_REG2 -> r <> TMP_REG3 -> rd s1 r = rd s2 r).
  { destruct rt. { apply ok_nop. split; [|split; [|split; [|split; [|split]]]]; auto. discriminate. }
    apply x_ld_reg; try (unfold RETURN_ADDR_REG, TMP_REG2; vl); try lia. rewrite load8_wrap, mem_wr, fregs_wr.
    split; [|split; [|split; [|split; [|split]]]]; auto.
    - apply wf_wr; auto. exact (load_isw _ B8 _).
    - intros _. rewrite rd_wr_same by (unfold RETURN_ADDR_REG, TMP_REG2; vl). rewrite <- (V 0%nat (rd s0 RETURN_ADDR_REG) eq_refl). rewrite M.
      apply load_cong.
      replace (rd s2 SLJIT_SP + F - 8 * Z.of_nat 0 - 8) with (rd s2 SLJIT_SP + F - 8) by lia. rewrite <- Wa. f_equal. lia.
    - intros r Hr N1 N2 N3. rewrite rd_wr_other; auto; unfold RETURN_ADDR_REG, TMP_REG2 in *; vl. }
  cbv beta. intros s1 (M1 & Fr1 & SP1 & W1 & RA1 & K1).
  change (down (SLJIT_S0 - f_kept f) (SLJIT_S0 - f_saveds f)) with L1. change (down (f_scratches f) (SLJIT_FIRST_SAVED_REG - 1)) with L2.
  change (down SLJIT_FS0 (SLJIT_FS0 - f_fsaveds f)) with L3. change (down (f_fscratches f) (SLJIT_FIRST_SAVED_FLOAT_REG - 1)) with L4.
  match goal with |- ok (slots _ L1 ?o (fun o => slots _ L2 o ?k)) _ _ => rewrite <- (slots_app (ld_reg c) L1 L2 o k) end.
  assert (IR : Forall ireg (L1 ++ L2)) by (apply all_L12; intros; unfold ireg, SLJIT_SP; lia).
  assert (IF : Forall (fun r => 1 <= r <= 30) (L3 ++ L4)) by (apply all_L34; intros; lia).
  apply slots_ld; [exact IR|lia|]. set (a := rd s1 SLJIT_SP + 8 * (2 * p - 1)).
  match goal with |- ok (slots _ L3 ?o (fun o => slots _ L4 o ?k)) _ _ => rewrite <- (slots_app (ld_freg c) L3 L4 o k) end.
  replace (8 * (2 * p - 1) - 8 * Z.of_nat (length (L1 ++ L2))) with (8 * (2 * p - 1 - Z.of_nat (length (L1 ++ L2)))) by lia.
  apply slots_fld; [exact IF|lia|]. set (t := pops s1 (L1 ++ L2) a).
  assert (TM : mem t = mem s2) by (unfold t; rewrite pops_mem; auto).
  assert (TF : fregs t = fregs s2) by (unfold t; rewrite pops_fregs; auto).
  assert (TO : forall r, vreg r -> ~ In r (L1 ++ L2) -> rd t r = rd s1 r) by (intros; unfold t; apply pops_other; auto).
  assert (N12 : forall r, In r (L1 ++ L2) -> 12 <= r <= 23).
  { assert (A := all_L12 (fun r => 12 <= r <= 23) (fun i H => H)). rewrite Forall_forall in A. exact A. }
  assert (TSP : rd t SLJIT_SP = rd s1 SLJIT_SP) by (apply TO; [unfold SLJIT_SP; vl|intros I; apply N12 in I; unfold SLJIT_SP in I; lia]).
  assert (TI : forall r, In r (L1 ++ L2) -> rd t r = rd s0 r).
  { intros r I. apply In_nth_error in I. destruct I as (k & N). unfold t. rewrite (pops_nth _ s1 a k r IR nd_L12 N).
    rewrite <- (V _ _ (nth_vals s0 k r N)). rewrite M1. apply load_cong. unfold a. rewrite SP1.
    replace (rd s2 SLJIT_SP + F - 8 * Z.of_nat (S k) - 8) with (rd s2 SLJIT_SP + F - (8 * Z.of_nat (S k) + 8)) by lia. rewrite <- Wa. f_equal. lia. }
  rewrite TSP. set (b := rd s1 SLJIT_SP + 8 * (2 * p - 1 - Z.of_nat (length (L1 ++ L2)))). set (u := fpops t (L3 ++ L4) b).
  assert (UM : mem u = mem s2) by (unfold u; rewrite fpops_mem; auto).
  assert (UR : forall r, rd u r = rd t r) by (intros; unfold u; apply fpops_rd).
  assert (UO : forall x, ~ In x (map freg_map (L3 ++ L4)) -> fregs u x = fregs s2 x) by (intros; unfold u; rewrite fpops_other by auto; rewrite TF; reflexivity).
  assert (UI : forall r, In r (L3 ++ L4) -> fregs u (freg_map r) = fregs s0 (freg_map r)).
  { intros r I. apply In_nth_error in I. destruct I as (k & N). unfold u. rewrite (fpops_nth _ t b k r IF nd_L34 N).
    rewrite <- (V _ _ (nth_fvals s0 k r N)). rewrite TM. apply load_cong. unfold b. rewrite SP1.
    replace (rd s2 SLJIT_SP + F - 8 * Z.of_nat (S (length (L1 ++ L2) + k)) - 8) with (rd s2 SLJIT_SP + F - (8 * Z.of_nat (S (length (L1 ++ L2) + k)) + 8)) by lia.
    rewrite <- Wa. f_equal. lia. }
  clearbody t u.
  (* the stack pointer *)
  assert (G : forall P : mst -> Prop, P (wr u SLJIT_SP (wrap (rd u SLJIT_SP + F1))) ->
     ok (if cC c && (F1 <=? 496) then E16 (C_ADDI16SP .| u16 (c_addi16sp F1)) else E32 (ADDI .| RD SLJIT_SP .| RS1 SLJIT_SP .| IMM_I F1)) u P).
  { intros P H. destruct (cC c && (F1 <=? 496)) eqn:E.
    - rewrite F1E in *. apply x_addi16sp_pos; [lia|]. exact H.
    - apply (x_I _ _ ADDI Addi); try (unfold SLJIT_SP; vl); try reflexivity. cbn [alui]. rewrite sext12_small by lia. exact H. }
  apply G. clear G. rewrite mem_wr, fregs_wr. rewrite rd_wr_same by (unfold SLJIT_SP; vl).
  assert (WO : forall r, vreg r -> r <> SLJIT_SP -> rd (wr u SLJIT_SP (wrap (rd u SLJIT_SP + F1))) r = rd t r).
  { intros r Hr N. rewrite rd_wr_other by (auto; unfold SLJIT_SP; vl). apply UR. }
  split; [|split; [|split; [|split; [|split; [|split]]]]]; auto.
  - rewrite UR, TSP, SP1, <- (Z.sub_0_r (rd s' SLJIT_SP + F1)), Wa. f_equal. lia.
  - intros D. assert (NR2 : ~ In RETURN_ADDR_REG (L1 ++ L2)) by (intros I; apply N12 in I; unfold RETURN_ADDR_REG, TMP_REG2 in I; lia).
    rewrite WO, TO; auto; unfold RETURN_ADDR_REG, TMP_REG2, SLJIT_SP; vl.
  - intros r I. rewrite WO; auto; apply N12 in I; unfold SLJIT_SP; vl.
  - intros r Hr N1 N2 N3 N4. rewrite WO, TO, K1; auto.
Qed.
End T.
