(** Memory operands: getput_arg with its address cache, and emit_op_mem. *)
Require Import ZArith List Bool Lia Zify ZifyBool.
From Verif Require Import Rv.RvLib Rv.RvBits Rv.RvIsa Rv.RvEnc Rv.RvImm Rv.RvRun Rv.RvImmProofs Rv.RvCtl Rv.RvWf Rv.RvMem Rv.RvRunMem Rv.RvOp Rv.RvLir Rv.RvCanon Rv.RvOpLib Rv.RvSx.
Import ListNotations.
Open Scope Z_scope.
Ltac Zify.zify_post_hook ::= idtac.

(** Only the address modulo 2^64 matters. *)
Lemma load_cong m n : forall a b, wrap a = wrap b -> load m a n = load m b n.
Proof.
  induction n as [|n IH]; intros a b H; [reflexivity|]. cbn [load]. rewrite H. rewrite (IH (a + 1) (b + 1)); auto.
  rewrite <- (wrap_add_l a 1), H, wrap_add_l. reflexivity.
Qed.
Lemma store_cong n : forall m a b v, wrap a = wrap b -> store m a v n = store m b v n.
Proof.
  induction n as [|n IH]; intros m a b v H; [reflexivity|]. cbn [store]. rewrite H. rewrite (IH _ (a + 1) (b + 1)); auto.
  rewrite <- (wrap_add_l a 1), H, wrap_add_l. reflexivity.
Qed.
Lemma access_cong flags reg a b s : wrap a = wrap b -> access flags reg a s = access flags reg b s.
Proof.
  intros H. unfold access, ldval. rewrite (load_cong _ _ a b H), (store_cong _ _ a b _ H). reflexivity.
Qed.

Lemma x_mem c flags reg base off s (P : mst -> Prop) : 0 <= flags < 16 -> vreg reg -> (flags .& LOAD_DATA <> 0 -> reg <> 0) ->
  vreg base -> -2048 <= off <= 0xfff -> P (access flags reg (rd s base + sext 12 off) s) -> ok (push_mem_inst c flags reg base off) s P.
Proof. intros. eapply ok_step'; [|eassumption]. intros. apply push_mem_ok; auto. Qed.

Lemma x_imm c d t imm s (P : mst -> Prop) : vreg d -> d <> 0 -> d <> SLJIT_SP -> vreg t -> t <> 0 -> t <> d -> - 2 ^ 63 <= imm < 2 ^ 63 ->
  (forall s', rd s' d = wrap imm -> keeps s s' [d; t] -> P s') -> ok (load_immediate c d imm t) s P.
Proof.
  intros A1 A2 A3 A4 A5 A6 A7 H. apply ok_ex. destruct (load_immediate_ok c d t imm s A1 A2 A3 A4 A5 A6 A7) as (s' & R & V & K). exists s'. auto.
Qed.

(** The address cache: TMP_REG3 holds the address of the cached operand. *)
Definition cache_ok (k : cache) (s : mst) : Prop :=
  match k_arg k with
  | None => True
  | Some (b, o) => 0 <= b <= 24 /\ 0 <= o <= 23 /\ rd s 27 = wrap (addr s b o (k_argw k))
  end.

Lemma keeps_rd s s' w r : keeps s s' w -> vreg r -> ~ In r w -> rd s' r = rd s r.
Proof. intros (_ & _ & _ & H) A B. auto. Qed.
Lemma addr_same s s' b o w : rd s' b = rd s b -> rd s' o = rd s o -> addr s' b o w = addr s b o w.
Proof. unfold addr. intros -> ->. reflexivity. Qed.
Lemma cache_ok_same k s s' : cache_ok k s -> rd s' 27 = rd s 27 -> (forall r, 0 <= r <= 24 -> rd s' r = rd s r) -> cache_ok k s'.
Proof.
  unfold cache_ok. destruct (k_arg k) as [[b o]|]; auto. intros (A & B & H) T R. repeat split; try lia.
  rewrite T, H. rewrite (addr_same s s'); auto. apply R. lia.
Qed.
Lemma wr_cache k s1 t v : cache_ok k s1 -> 25 <= t <= 26 -> cache_ok k (wr s1 t v).
Proof. intros K T. eapply cache_ok_same; eauto; intros; apply rd_wr_other; vl. Qed.
Lemma k_is_inv k b o : k_is k b o = true -> k_arg k = Some (b, o).
Proof. unfold k_is. destruct (k_arg k) as [[x y]|]; [|discriminate]. intros H. assert (x = b) by lia. assert (y = o) by lia. subst. auto. Qed.
Lemma wrap_sw x : wrap (sw x) = wrap x. Proof. exact (canon64 x). Qed.
Lemma near_spec x y : near x y = true -> -2048 <= sw (x - y) <= 2047.
Proof. unfold near, SIMM_MAX, SIMM_MIN. lia. Qed.
Lemma sw_range x : - 2 ^ 63 <= sw x < 2 ^ 63. Proof. apply (sext_range 64 x). lia. Qed.
(** The two parts of an address. *)
Lemma argw_parts w : wrap (TO_ARGW_HI w + sext 12 (w .& 0xfff)) = wrap w.
Proof.
  unfold TO_ARGW_HI. rewrite <- wrap_add_l, wrap_sw, wrap_add_l.
  rewrite (land_lnot_low w 12 (Z.lnot 0xfff)) by (reflexivity || lia).
  rewrite (land_low w 12 0xfff) by (reflexivity || lia). rewrite (bit_test w 11 0x800) by (reflexivity || lia).
  change (2 ^ (11 + 1)) with 4096. change (2 ^ 11) with 2048. change (2 ^ 12) with 4096.
  pose proof (Z.mod_pos_bound w 4096 ltac:(lia)) as B. pose proof (Z.div_mod w 4096 ltac:(lia)) as D.
  f_equal. destruct (w mod 4096 <? 2048) eqn:E; cbn [negb].
  - rewrite sext12_small by lia. lia.
  - assert (sext 12 (w mod 4096) = w mod 4096 - 4096) as ->; [|lia].
    apply (sext_unique _ _ _ 1); try lia; change (2 ^ (12 - 1)) with 2048; change (2 ^ 12) with 4096; lia.
Qed.
Lemma fff_range w : 0 <= w .& 0xfff <= 0xfff.
Proof. rewrite (land_low w 12 0xfff) by (reflexivity || lia). pose proof (Z.mod_pos_bound w (2 ^ 12) ltac:(lia)). lia. Qed.

Section G.
Variables (c : cfg) (flags reg : Z) (s : mst).
Hypothesis (W : wf s) (Hf : 0 <= flags < 16) (Hr : vreg reg) (Nr : flags .& LOAD_DATA <> 0 -> reg <> 0).

(** The access takes place in a state that differs from the initial one in the temporary registers only. *)
Definition acc (t : Z) (A : Z) (k : cache) (s' : mst) : Prop :=
  exists s1, keeps s s1 [t; 27] /\ cache_ok k s1 /\ s' = access flags reg A s1.


Lemma getput_x_ok tmp2 base offs w next k : (1 <= base <= 24) -> 1 <= offs <= 23 -> 0 <= w <= 3 -> cache_ok k s ->
  ok (fst (getput_arg_x c tmp2 flags reg base offs w next k)) s
     (acc (if tmp2 then 26 else 25) (addr s base offs w) (snd (getput_arg_x c tmp2 flags reg base offs w next k))).
Proof.
  intros Hb Ho Hw K. unfold getput_arg_x, TMP_REG1, TMP_REG2, TMP_REG3. set (t := if tmp2 then 26 else 25).
  assert (Ht : 25 <= t <= 26) by (destruct tmp2; cbn; lia). clearbody t.
  assert (w .& 3 = w) as ->. { rewrite (land_low w 2 3) by (reflexivity || lia). apply Z.mod_small. lia. }
  assert (Ad : addr s base offs w = rd s base + rd s offs * 2 ^ w). { unfold addr. destruct (offs =? 0) eqn:E; auto. lia. }
  assert (S0 : sext 12 0 = 0) by reflexivity.
  destruct (cA c).
  { cbn [fst snd]. apply ok_then.
    assert (G : forall o, ok (E32 (o .| RD t .| RS1 offs .| RS2 base)) s (fun s1 => s1 = wr s t (wrap (addr s base offs w))) ->
      ok (E32 (o .| RD t .| RS1 offs .| RS2 base)) s (fun s1 => ok (push_mem_inst c flags reg t 0) s1 (acc t (addr s base offs w) k))).
    { intros o X. eapply ok_mono; [exact X|]. intros s1 ->. apply x_mem; [exact Hf|exact Hr|exact Nr|vl|lia|].
      eexists. split; [|split; [|apply access_cong]]. - apply keeps_wr; [vl|cbn; tauto|apply keeps_refl].
      - apply wr_cache; auto. - rdw. rewrite S0, Z.add_0_r, wrap_wrap. reflexivity. }
    rewrite Ad in *. destruct (w =? 1) eqn:W1; [|destruct (w =? 2) eqn:W2; [|destruct (w =? 3) eqn:W3]]; apply G.
    - apply (x_R _ _ SH1ADD Sh1add); try vl; auto. replace w with 1 by lia. reflexivity.
    - apply (x_R _ _ SH2ADD Sh2add); try vl; auto. replace w with 2 by lia. reflexivity.
    - apply (x_R _ _ SH3ADD Sh3add); try vl; auto. replace w with 3 by lia. reflexivity.
    - apply (x_R _ _ ADD Add); try vl; auto. replace w with 0 by lia. cbn [alu]. do 2 f_equal. lia. }
  destruct ((w =? k_argw k) && k_is k base offs) eqn:E1.
  { cbn [fst snd]. apply andb_prop in E1 as (E1 & E2). apply k_is_inv in E2. assert (K' := K). unfold cache_ok in K'. rewrite E2 in K'.
    destruct K' as (_ & _ & K'). apply x_mem; [exact Hf|exact Hr|exact Nr|vl|lia|].
    exists s. split; [apply keeps_refl|]. split; [auto|]. apply access_cong. rewrite K', S0, Z.add_0_r, wrap_wrap.
    replace (k_argw k) with w by lia. reflexivity. }
  destruct ((w =? k_argw k) && k_is k 0 offs) eqn:E2.
  { apply andb_prop in E2 as (E2 & E3). apply k_is_inv in E3. assert (K' := K). unfold cache_ok in K'. rewrite E3 in K'.
    destruct K' as (_ & _ & K'). replace (k_argw k) with w in K' by lia.
    assert (A0 : addr s 0 offs w = rd s offs * 2 ^ w). { unfold addr. rewrite rd_0. destruct (offs =? 0) eqn:E; lia. } rewrite A0 in K'.
    destruct (n_is next base offs && (w =? n_w next .& 3)).
    - cbn [fst snd]. apply ok_then. apply (x_R _ _ ADD Add); try vl; auto. cbn [alu].
      apply x_mem; [exact Hf|exact Hr|exact Nr|vl|lia|].
      eexists. split; [|split; [|apply access_cong]]. { apply keeps_wr; [vl|cbn; tauto|apply keeps_refl]. }
      + unfold cache_ok. cbn [k_arg k_argw]. split; [lia|]. split; [lia|]. rewrite rd_wr_same by vl.
        rewrite (addr_same s) by (apply rd_wr_other; vl). rewrite Ad, K', wrap_add_l. f_equal. lia.
      + rdw. rewrite K', S0, Z.add_0_r, wrap_wrap, wrap_add_l, Ad. f_equal. lia.
    - cbn [fst snd]. apply ok_then. apply (x_R _ _ ADD Add); try vl; auto. cbn [alu].
      apply x_mem; [exact Hf|exact Hr|exact Nr|vl|lia|].
      eexists. split; [|split; [|apply access_cong]]. { apply keeps_wr; [vl|cbn; tauto|apply keeps_refl]. }
      + apply wr_cache; auto.
      + rdw. rewrite K', S0, Z.add_0_r, wrap_wrap, wrap_add_r, Ad. reflexivity. }
  destruct (w =? 0) eqn:W0; cbn [negb].
  - assert (w = 0) by lia. subst w. destruct (n_is next base offs && (0 =? n_w next .& 3)); cbn [fst snd].
    + apply ok_then, ok_nop, ok_then. apply (x_R _ _ ADD Add); try vl; auto. cbn [alu].
      apply x_mem; [exact Hf|exact Hr|exact Nr|vl|lia|].
      eexists. split; [|split; [|apply access_cong]]. { apply keeps_wr; [vl|cbn; tauto|apply keeps_refl]. }
      * unfold cache_ok. cbn [k_arg k_argw]. split; [lia|]. split; [lia|]. rewrite rd_wr_same by vl.
        rewrite (addr_same s) by (apply rd_wr_other; vl). rewrite Ad. f_equal. lia.
      * rdw. rewrite S0, Z.add_0_r, wrap_wrap, Ad. f_equal. lia.
    + apply ok_then, ok_nop, ok_then. apply (x_R _ _ ADD Add); try vl; auto. cbn [alu].
      apply x_mem; [exact Hf|exact Hr|exact Nr|vl|lia|].
      eexists. split; [|split; [|apply access_cong]]. { apply keeps_wr; [vl|cbn; tauto|apply keeps_refl]. }
      * apply wr_cache; auto.
      * rdw. rewrite S0, Z.add_0_r, wrap_wrap, Ad. f_equal. lia.
  - destruct (n_is next base offs && (w =? n_w next .& 3)); cbn [fst snd].
    + apply ok_then. apply (x_Sh _ _ SLLI Slli); try vl; auto. cbn [alush]. apply ok_then. apply (x_R _ _ ADD Add); try vl; auto. cbn [alu].
      apply x_mem; [exact Hf|exact Hr|exact Nr|vl|lia|].
      eexists. split; [|split; [|apply access_cong]]. { apply keeps_wr; [vl|cbn; tauto|]. apply keeps_wr; [vl|cbn; tauto|apply keeps_refl]. }
      * unfold cache_ok. cbn [k_arg k_argw]. split; [lia|]. split; [lia|]. rdw.
        rewrite (addr_same s) by (rdw; reflexivity). rewrite Ad, wrap_add_r. reflexivity.
      * rdw. rewrite S0, Z.add_0_r, wrap_wrap, Ad, wrap_add_r. reflexivity.
    + apply ok_then. apply (x_Sh _ _ SLLI Slli); try vl; auto. cbn [alush]. apply ok_then. apply (x_R _ _ ADD Add); try vl; auto. cbn [alu].
      apply x_mem; [exact Hf|exact Hr|exact Nr|vl|lia|].
      eexists. split; [|split; [|apply access_cong]]. { apply keeps_wr; [vl|cbn; tauto|]. apply keeps_wr; [vl|cbn; tauto|apply keeps_refl]. }
      * unfold cache_ok. cbn [k_arg k_argw]. split; [lia|]. split; [lia|]. rdw.
        rewrite (addr_same s) by (rdw; reflexivity). unfold addr. rewrite rd_0. destruct (offs =? 0) eqn:Q; [lia|]. f_equal.
      * rdw. rewrite S0, Z.add_0_r, wrap_wrap, Ad, wrap_add_r. reflexivity.
Qed.

Lemma wrap_cong_add a b x y : wrap a = wrap b -> wrap x = wrap y -> wrap (a + x) = wrap (b + y).
Proof. intros A B. rewrite <- wrap_add_l, <- wrap_add_r, A, B, wrap_add_l, wrap_add_r. reflexivity. Qed.

Lemma getput_b_ok tmp2 base w next k : 0 <= base <= 24 -> - 2 ^ 63 <= w < 2 ^ 63 -> cache_ok k s ->
  ok (fst (getput_arg_b c tmp2 flags reg base w next k)) s
     (acc (if tmp2 then 26 else 25) (addr s base 0 w) (snd (getput_arg_b c tmp2 flags reg base w next k))).
Proof.
  intros Hb Hw K. unfold getput_arg_b, TMP_REG1, TMP_REG2, TMP_REG3. set (t := if tmp2 then 26 else 25).
  assert (Ht : 25 <= t <= 26) by (destruct tmp2; cbn; lia). clearbody t.
  assert (Ad : forall s b w, addr s b 0 w = rd s b + w) by reflexivity. rewrite Ad.
  destruct (k_is k base 0 && near w (k_argw k)) eqn:E1.
  { cbn [fst snd]. apply andb_prop in E1 as (E1 & E2). apply k_is_inv in E1. assert (K' := K). unfold cache_ok in K'. rewrite E1, Ad in K'.
    destruct K' as (_ & _ & K'). apply near_spec in E2. apply x_mem; [exact Hf|exact Hr|exact Nr|vl|lia|].
    exists s. split; [apply keeps_refl|]. split; [auto|]. apply access_cong. rewrite sext12_small by lia. rewrite K', wrap_add_l, <- wrap_add_r, wrap_sw, wrap_add_r.
    f_equal. lia. }
  clear E1.
  (* the first part: TMP_REG3 + offset is the constant part of the address *)
  assert (A : forall (X : em * cache * Z * Z),
    X = (if k_is k 0 0 && near w (k_argw k) then (ENop, k, sw (w - k_argw k), w)
         else if n_mem next && near (n_w next) w && negb (TO_ARGW_HI w =? TO_ARGW_HI (n_w next))
         then (load_immediate c 27 w t, mkK (Some (0, 0)) w, 0, w)
         else (load_immediate c 27 (TO_ARGW_HI w) t, mkK (Some (0, 0)) (TO_ARGW_HI w), w .& 4095, TO_ARGW_HI w)) ->
    ok (fst (fst (fst X))) s (fun s1 => keeps s s1 [t; 27] /\ -2048 <= snd (fst X) <= 0xfff /\
      k_arg (snd (fst (fst X))) = Some (0, 0) /\ rd s1 27 = wrap (k_argw (snd (fst (fst X)))) /\ wrap (rd s1 27 + sext 12 (snd (fst X))) = wrap w)).
  { intros X ->. destruct (k_is k 0 0 && near w (k_argw k)) eqn:E1.
    - apply andb_prop in E1 as (E1 & E2). apply k_is_inv in E1. assert (K' := K). unfold cache_ok in K'. rewrite E1, Ad, rd_0 in K'.
      destruct K' as (_ & _ & K'). apply near_spec in E2. cbn [fst snd]. apply ok_nop. split; [apply keeps_refl|]. split; [lia|]. split; [auto|].
      split; [rewrite K'; f_equal; lia|]. rewrite sext12_small by lia. rewrite K', wrap_add_l, <- wrap_add_r, wrap_sw, wrap_add_r. f_equal. lia.
    - destruct (n_mem next && near (n_w next) w && negb (TO_ARGW_HI w =? TO_ARGW_HI (n_w next))); cbn [fst snd k_arg k_argw].
      + apply x_imm; try vl; try (unfold SLJIT_SP; lia). intros s1 V1 K1. split; [eapply keeps_incl; [|exact K1]; intros z; cbn; tauto|]. split; [lia|]. split; [auto|].
        split; [auto|]. rewrite V1, wrap_add_l. f_equal. change (sext 12 0) with 0. lia.
      + apply x_imm; try vl; try (unfold SLJIT_SP; lia); try apply sw_range. intros s1 V1 K1. split; [eapply keeps_incl; [|exact K1]; intros z; cbn; tauto|].
        split; [pose proof (fff_range w); lia|]. split; [auto|]. split; [auto|]. rewrite V1, wrap_add_l. apply argw_parts. }
  cbv zeta. match goal with |- context [if k_is k 0 0 && near w (k_argw k) then ?p else ?q] =>
    specialize (A (if k_is k 0 0 && near w (k_argw k) then p else q) eq_refl); destruct (if k_is k 0 0 && near w (k_argw k) then p else q) as [[[e1 k1] off] w1] end.
  cbn [fst snd] in A.
  assert (Ks1 : forall s1, k_arg k1 = Some (0, 0) -> rd s1 27 = wrap (k_argw k1) -> cache_ok k1 s1).
  { intros s1 Q V. unfold cache_ok. rewrite Q, Ad, rd_0. split; [lia|]. split; [lia|]. rewrite V. f_equal; lia. }
  destruct (base =? 0) eqn:B0; [|destruct (n_is next base 0 && near (n_w next) w1)]; cbn [fst snd]; apply ok_then; (eapply ok_mono; [exact A|]);
    cbv beta; intros s1 (K1 & O1 & Q1 & V1 & S1).
  - apply x_mem; [exact Hf|exact Hr|exact Nr|vl|lia|]. exists s1. split; [auto|]. split; [auto|]. apply access_cong.
    rewrite S1. assert (base = 0) by lia. subst base. rewrite rd_0. reflexivity.
  - apply ok_then. apply (x_R _ _ ADD Add); try vl; auto. cbn [alu].
    assert (Eb : rd s1 base = rd s base). { apply (keeps_rd _ _ _ _ K1); [vl|cbn; lia]. }
    apply x_mem; [exact Hf|exact Hr|exact Nr|vl|lia|]. eexists. split; [|split; [|apply access_cong]].
    + apply keeps_wr; [vl|cbn; tauto|exact K1].
    + unfold cache_ok. cbn [k_arg k_argw]. split; [lia|]. split; [lia|]. rdw. rewrite Ad. rdw. rewrite V1, wrap_add_l. f_equal. lia.
    + rdw. rewrite wrap_add_l. replace (rd s1 27 + rd s1 base + sext 12 off) with (rd s1 base + (rd s1 27 + sext 12 off)) by lia.
      apply wrap_cong_add; auto. rewrite Eb. auto.
  - apply ok_then. apply (x_R _ _ ADD Add); try vl; auto. cbn [alu].
    assert (Eb : rd s1 base = rd s base). { apply (keeps_rd _ _ _ _ K1); [vl|cbn; lia]. }
    apply x_mem; [exact Hf|exact Hr|exact Nr|vl|lia|]. eexists. split; [|split; [|apply access_cong]].
    + apply keeps_wr; [vl|cbn; tauto|exact K1].
    + apply wr_cache; auto.
    + rdw. rewrite wrap_add_l. replace (rd s1 27 + rd s1 base + sext 12 off) with (rd s1 base + (rd s1 27 + sext 12 off)) by lia.
      apply wrap_cong_add; auto. rewrite Eb. auto.
Qed.

Lemma getput_ok tmp2 base offs w next k : mem_legal base offs w -> cache_ok k s ->
  ok (fst (getput_arg c tmp2 flags reg base offs w next k)) s
     (acc (if tmp2 then 26 else 25) (addr s base offs w) (snd (getput_arg c tmp2 flags reg base offs w next k))).
Proof.
  intros (L & R) K. unfold getput_arg, ureg, NREGS, SLJIT_SP in *. destruct (offs =? 0) eqn:E; cbn [negb].
  - assert (offs = 0) by lia. subst offs. apply getput_b_ok; auto. lia.
  - apply getput_x_ok; auto; lia.
Qed.

(** A memory operand that needs one instruction. *)
Lemma fast_acc base offs w (P : mst -> Prop) : mem_legal base offs w -> fast_ok offs w = true ->
  P (access flags reg (addr s base offs w) s) -> ok (push_mem_inst c flags reg base w) s P.
Proof.
  intros (L & R) F H. unfold fast_ok, SIMM_MAX, SIMM_MIN, ureg, NREGS, SLJIT_SP in *. apply x_mem; auto; try vl.
  rewrite sext12_small by lia. unfold addr in H. replace (offs =? 0) with true in H by lia. auto.
Qed.

(** emit_op_mem: the address is computed in the target of a load. *)
Lemma op_mem_ok base offs w : mem_legal base offs w -> reg <> 24 -> reg <> 27 ->
  (flags .& LOAD_DATA <> 0 -> reg <> base) -> (flags .& LOAD_DATA = 0 -> reg <> 25) ->
  ok (emit_op_mem c flags reg base offs w) s (fun s' => exists s1,
    keeps s s1 [if negb (flags .& LOAD_DATA =? 0) then reg else 25; 27] /\ s' = access flags reg (addr s base offs w) s1).
Proof.
  intros L N24 N27 Nb N25. assert (L' := L). destruct L' as (L' & R). unfold ureg, NREGS, SLJIT_SP in L'. unfold emit_op_mem.
  destruct (fast_ok offs w) eqn:F. { eapply fast_acc; eauto. exists s. split; [apply keeps_refl|]. auto. }
  unfold TMP_REG1, TMP_REG3. cbv zeta. set (t := if negb (flags .& LOAD_DATA =? 0) then reg else 25).
  assert (Ht : vreg t /\ t <> 0 /\ t <> 24 /\ t <> 27 /\ t <> base).
  { unfold t. destruct (flags .& LOAD_DATA =? 0) eqn:E; cbn [negb]; [|assert (flags .& LOAD_DATA <> 0) by lia]; repeat split; auto; try vl; try lia. }
  clearbody t. destruct Ht as (T1 & T2 & T3 & T4 & T5). assert (S0 : sext 12 0 = 0) by reflexivity.
  destruct (offs =? 0) eqn:E; cbn [negb].
  - assert (offs = 0) by lia. subst offs. change (addr s base 0 w) with (rd s base + w). apply ok_then. apply x_imm; try vl; try (unfold SLJIT_SP; lia); try apply sw_range.
    intros s1 V1 K1. apply ok_then. assert (Eb : rd s1 base = rd s base). { apply (keeps_rd _ _ _ _ K1); [vl|cbn; lia]. }
    pose proof (fff_range w) as O. destruct (base =? 0) eqn:B; cbn [negb].
    + apply ok_nop. apply x_mem; auto; try lia. exists s1. split; [auto|]. apply access_cong. rewrite V1, wrap_add_l, argw_parts.
      assert (base = 0) by lia. subst base. rewrite rd_0. reflexivity.
    + apply (x_R _ _ ADD Add); try vl; auto. cbn [alu]. apply x_mem; auto; try lia. eexists. split; [|apply access_cong].
      * apply keeps_wr; [vl|cbn; tauto|exact K1].
      * rdw. rewrite V1, wrap_add_l, <- Z.add_assoc, wrap_add_l.
        replace (TO_ARGW_HI w + (rd s1 base + sext 12 (w .& 4095))) with (rd s1 base + (TO_ARGW_HI w + sext 12 (w .& 4095))) by lia.
        apply wrap_cong_add; [rewrite Eb; auto|apply argw_parts].
  - assert (Hw : 0 <= w <= 3) by lia. assert (w .& 3 = w) as ->. { rewrite (land_low w 2 3) by (reflexivity || lia). apply Z.mod_small. lia. }
    assert (Ad : addr s base offs w = rd s base + rd s offs * 2 ^ w). { unfold addr. rewrite E. reflexivity. }
    apply ok_then. destruct (w =? 0) eqn:W0; cbn [negb].
    + apply (x_R _ _ ADD Add); try vl; auto. cbn [alu]. apply x_mem; auto; try lia. eexists. split; [|apply access_cong].
      * apply keeps_wr; [vl|cbn; tauto|apply keeps_refl].
      * rdw. rewrite S0, Z.add_0_r, wrap_wrap, Ad. replace w with 0 by lia. f_equal. lia.
    + apply ok_then. apply (x_Sh _ _ SLLI Slli); try vl; auto. cbn [alush]. apply (x_R _ _ ADD Add); try vl; auto. cbn [alu]. apply x_mem; auto; try lia.
      eexists. split; [|apply access_cong].
      * apply keeps_wr; [vl|cbn; tauto|]. apply keeps_wr; [vl|cbn; tauto|apply keeps_refl].
      * rdw. rewrite S0, Z.add_0_r, wrap_wrap, Ad, wrap_add_l. f_equal. lia.
Qed.
End G.
