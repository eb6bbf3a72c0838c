(** Conditional jumps and sljit_emit_op_flags. *)
Require Import ZArith List Bool Lia Zify ZifyBool.
From Verif Require Import Rv.RvLib Rv.RvBits Rv.RvIsa Rv.RvEnc Rv.RvImm Rv.RvRun Rv.RvImmProofs Rv.RvCtl Rv.RvWf Rv.RvMem Rv.RvRunMem Rv.RvOp Rv.RvLir Rv.RvCanon Rv.RvOpLib Rv.RvSx Rv.RvMemProofs Rv.RvSoLogical Rv.RvEmitOp Rv.RvEmitOp2 Rv.RvLink Rv.RvLinkExec Rv.RvCond Rv.RvCondSpec.
Import ListNotations.
Open Scope Z_scope.
Ltac Zify.zify_post_hook ::= idtac.

(** ** Jumps *)
Definition upto (n : nat) : list Z := map Z.of_nat (seq 0 n).
Lemma upto_in n t : 0 <= t < Z.of_nat n -> In t (upto n).
Proof. intros H. unfold upto. apply in_map_iff. exists (Z.to_nat t). split; [lia|]. apply in_seq. lia. Qed.

(** The branch of the linker model is the one that sljit_emit_jump pushes (RV:3414-3419). *)
Lemma jump_jc_word t : jc_word (jump_jc t) =
  if get_jump_instruction t =? 0 then NoCond else Cond32 (get_jump_instruction t .| BRANCH_LENGTH).
Proof.
  destruct (Z_lt_ge_dec t 0) as [L|G]; [|destruct (Z_lt_ge_dec t 36) as [L|G2]].
  - unfold jump_jc. assert (get_jump_instruction t = 0) as ->; [|reflexivity].
    unfold get_jump_instruction, SLJIT_EQUAL, SLJIT_NOT_EQUAL. cbn [existsb]. unfold SLJIT_LESS, SLJIT_GREATER, SLJIT_SIG_LESS, SLJIT_SIG_GREATER, SLJIT_OVERFLOW, SLJIT_CARRY, SLJIT_ATOMIC_NOT_STORED,
      SLJIT_GREATER_EQUAL, SLJIT_LESS_EQUAL, SLJIT_SIG_GREATER_EQUAL, SLJIT_SIG_LESS_EQUAL, SLJIT_NOT_OVERFLOW, SLJIT_NOT_CARRY, SLJIT_ATOMIC_STORED.
    repeat match goal with |- context [t =? ?k] => replace (t =? k) with false by lia end. reflexivity.
  - assert (B : forallb (fun t => match jc_word (jump_jc t), (if get_jump_instruction t =? 0 then NoCond else Cond32 (get_jump_instruction t .| BRANCH_LENGTH)) with
        | NoCond, NoCond => true | Cond32 x, Cond32 y => x =? y | _, _ => false end) (upto 36) = true) by (vm_compute; reflexivity).
    rewrite forallb_forall in B. specialize (B t (upto_in 36 t ltac:(lia))).
    destruct (jc_word (jump_jc t)), (if get_jump_instruction t =? 0 then NoCond else Cond32 (get_jump_instruction t .| BRANCH_LENGTH)); try discriminate; auto.
    f_equal. lia.
  - unfold jump_jc. assert (get_jump_instruction t = 0) as ->; [|reflexivity].
    unfold get_jump_instruction, SLJIT_EQUAL, SLJIT_NOT_EQUAL. cbn [existsb]. unfold SLJIT_LESS, SLJIT_GREATER, SLJIT_SIG_LESS, SLJIT_SIG_GREATER, SLJIT_OVERFLOW, SLJIT_CARRY, SLJIT_ATOMIC_NOT_STORED,
      SLJIT_GREATER_EQUAL, SLJIT_LESS_EQUAL, SLJIT_SIG_GREATER_EQUAL, SLJIT_SIG_LESS_EQUAL, SLJIT_NOT_OVERFLOW, SLJIT_NOT_CARRY, SLJIT_ATOMIC_STORED.
    repeat match goal with |- context [t =? ?k] => replace (t =? k) with false by lia end. reflexivity.
Qed.
(** The condition and the emitted branch for the types of integer operations. *)
Definition jcase (t : Z) : bool * Z := if t <? 2 then (t =? 0, EQUAL_FLAG) else (negb (Z.even t), OTHER_FLAG).
Lemma jump_cases t : ctype t -> jump_jc t = JBr (if fst (jcase t) then Beq else Bne) (snd (jcase t)) TMP_ZERO /\
  get_jump_instruction t = (if fst (jcase t) then BNE else BEQ) .| RS1 (snd (jcase t)) .| RS2 TMP_ZERO.
Proof.
  intros H. assert (In t (upto 14)) by (apply upto_in; unfold ctype in H; lia). cbn in H0.
  repeat (destruct H0 as [<-|H0]; [split; reflexivity|]). destruct H0.
Qed.
Lemma jump_ok t : jc_ok (jump_jc t) /\ (match jump_jc t with JZ _ _ => False | _ => True end).
Proof.
  unfold jump_jc. repeat match goal with |- context [if ?b then _ else _] => destruct b end; cbn; unfold vreg, EQUAL_FLAG, OTHER_FLAG, TMP_ZERO; lia.
Qed.

(** How the registers hold the flags; mul: after a multiplication the variable flag is any nonzero value. *)
Definition zrep (s : mst) (z : bool) : Prop := (rd s EQUAL_FLAG =? 0) = z.
Definition vrep (mul : bool) (s : mst) (v : bool) : Prop := if mul then (rd s OTHER_FLAG =? 0) = negb v else rd s OTHER_FLAG = b2z v.
Definition flags_for (t : Z) (mul : bool) (s : mst) (z v : bool) : Prop := if t <? 2 then zrep s z else vrep mul s v.
Lemma vrep_zero mul s v : vrep mul s v -> (rd s OTHER_FLAG =? 0) = negb v.
Proof. unfold vrep. destruct mul; auto. intros ->. destruct v; reflexivity. Qed.
Lemma jump_holds t mul s z v : ctype t -> flags_for t mul s z v -> jc_holds (jump_jc t) s = holds t z v.
Proof.
  intros Ht F. destruct (jump_cases t Ht) as (-> & _). unfold jcase, flags_for, holds in *. unfold ctype in Ht. unfold SLJIT_EQUAL, SLJIT_NOT_EQUAL.
  destruct (t <? 2) eqn:E; cbn [fst snd].
  - unfold zrep in F. destruct (t =? 0) eqn:E0; cbn [jc_holds condb]; change TMP_ZERO with 0; rewrite rd_0; auto.
    replace (t =? 1) with true by lia. rewrite F. auto.
  - apply vrep_zero in F. replace (t =? 0) with false by lia. replace (t =? 1) with false by lia.
    destruct (Z.even t); cbn [negb jc_holds condb]; change TMP_ZERO with 0; rewrite rd_0, F; rewrite ?negb_involutive; auto.
Qed.

(** The flags that an operation leaves, and the meaning of a condition. *)
Definition is_mul (k : op2k) : bool := match k with O_MUL => true | _ => false end.
Lemma flags_for_op o k t res fl s : requested o t -> ctype t -> flags_rep o k res fl s -> flags_for t (is_mul k) s (res mod 2 ^ nbits (f32 o) =? 0) fl.
Proof.
  intros R Ht (F1 & F2). unfold flags_for, requested in *. destruct (t <? 2) eqn:E. { exact (F1 R). }
  assert (has_v o = true). { unfold has_v, is_v. rewrite R. unfold needs. unfold ctype in Ht. rewrite E. repeat match goal with |- context [if ?b then _ else _] => destruct b end; reflexivity. }
  specialize (F2 H). unfold vrep, flag_rep in *. destruct k; exact F2.
Qed.
Lemma holds_cond o k t n x y cin : ctype t -> requested o t -> flags_legal k (setz o) (vf o) ->
  holds t (res2 k n x y cin mod 2 ^ n =? 0) (flag2 k (vf o) n x y cin) = cond t k n x y cin.
Proof.
  intros Ht R L. unfold requested, ctype in *.
  assert (I : In t (upto 14)) by (apply upto_in; lia). cbn in I.
  repeat (destruct I as [<-|I]; [cbn [Z.ltb Z.compare Pos.compare Pos.compare_cont] in R; unfold needs in R; cbn [Z.ltb Z.compare Pos.compare Pos.compare_cont] in R;
    unfold holds, cond, flag2, SLJIT_EQUAL, SLJIT_NOT_EQUAL, SLJIT_LESS, SLJIT_GREATER, SLJIT_SIG_LESS, SLJIT_SIG_GREATER, SLJIT_OVERFLOW, SLJIT_CARRY,
      SLJIT_GREATER_EQUAL, SLJIT_LESS_EQUAL, SLJIT_SIG_GREATER_EQUAL, SLJIT_SIG_LESS_EQUAL, SLJIT_NOT_OVERFLOW, SLJIT_NOT_CARRY;
    cbn [Z.eqb Pos.eqb Z.even]; cbv zeta; try rewrite R in *; try reflexivity; try (rewrite Z.leb_antisym; reflexivity);
    destruct k; cbn [flags_legal] in L; try reflexivity; try (exfalso; clear - L; intuition discriminate)|]).
  destruct I.
Qed.

(** ** sljit_emit_op_flags *)
Lemma sltui1 x : isw x -> alui Sltiu x (sext 12 1) = b2z (x =? 0).
Proof. intros H. cbn [alui]. change (sext 12 1) with 1. change (wrap 1) with 1. unfold isw in H. f_equal. lia. Qed.
Lemma xori1 b : alui Xori (b2z b) (sext 12 1) = b2z (negb b).
Proof. destruct b; reflexivity. Qed.
Lemma land1 t : negb (t .& 1 =? 0) = negb (Z.even t).
Proof. change 1 with (Z.ones 1). rewrite Z.land_ones by lia. change (2 ^ 1) with 2. rewrite Zmod_even. destruct (Z.even t); reflexivity. Qed.

Lemma flag_src_ok adds mul t d s z v (P : mst -> Prop) : ctype t -> flags_for t mul s z v -> wf s -> vreg d -> d <> 0 -> d <> 28 -> d <> 29 ->
  (10 <= t < 12 -> mul = negb adds) -> (2 <= t -> mul = true -> 10 <= t < 12) ->
  (forall s1, keeps s s1 [d] -> rd s1 (snd (fst (flag_src adds t d))) = b2z (xorb (holds t z v) (snd (flag_src adds t d))) ->
     (snd (fst (flag_src adds t d)) = d \/ snd (fst (flag_src adds t d)) = 29) -> P s1) ->
  ok (fst (fst (flag_src adds t d))) s P.
Proof.
  intros Ht F W Vd N0 N8 N9 Ma Mt H. unfold ctype in Ht. unfold flag_src in *. cbv zeta in *. rewrite land1 in *.
  unfold SLJIT_EQUAL, SLJIT_NOT_EQUAL, SLJIT_OVERFLOW, SLJIT_NOT_OVERFLOW, SLJIT_ATOMIC_STORED, SLJIT_ATOMIC_NOT_STORED in *. unfold flags_for, holds, SLJIT_EQUAL, SLJIT_NOT_EQUAL in *.
  destruct ((t =? 0) || (t =? 1)) eqn:E1; cbn [fst snd] in *.
  - replace (t <? 2) with true in F by lia. unfold zrep in F. change EQUAL_FLAG with 28 in *.
    apply (x_I _ _ SLTUI Sltiu); try vl; auto. apply H; auto.
    + apply keeps_wr; [vl|cbn; tauto|apply keeps_refl].
    + rdw. rewrite sltui1, F by (apply wf_rd; auto). assert (t = 0 \/ t = 1) as [->| ->] by lia; cbn; destruct z; reflexivity.
  - assert (2 <= t) by lia. replace (t =? 0) with false in * by lia. replace (t =? 1) with false in * by lia. replace (t <? 2) with false in F by lia. change OTHER_FLAG with 29 in *.
    destruct ((t =? 10) || (t =? 11)) eqn:E2.
    + destruct adds; cbn [fst snd] in *.
      * apply ok_nop. apply H; auto. { apply keeps_refl. }
        rewrite Ma in F by lia. unfold vrep in F. change OTHER_FLAG with 29 in *. cbn [negb] in F. rewrite F. destruct (Z.even t), v; reflexivity.
      * apply (x_I _ _ SLTUI Sltiu); try vl; auto. apply H; auto.
        { apply keeps_wr; [vl|cbn; tauto|apply keeps_refl]. }
        rewrite Ma in F by lia. unfold vrep in F. change OTHER_FLAG with 29 in *. cbn [negb] in F.
        rdw. rewrite sltui1, F by (apply wf_rd; auto). destruct (Z.even t), v; reflexivity.
    + replace ((t =? 14) || (t =? 15)) with false in * by lia. cbn [fst snd] in *. apply ok_nop. apply H; auto. { apply keeps_refl. }
      assert (mul = false). { destruct mul; auto. specialize (Mt ltac:(lia) eq_refl). lia. } subst mul. unfold vrep in F. change OTHER_FLAG with 29 in *. rewrite F. destruct (Z.even t), v; reflexivity.
Qed.
Lemma flag_inv_ok i d r s b (P : mst -> Prop) : vreg d -> d <> 0 -> vreg r -> rd s r = b2z (xorb b i) ->
  (forall s1, keeps s s1 [d] -> rd s1 (snd (flag_inv i d r)) = b2z b -> (snd (flag_inv i d r) = d \/ snd (flag_inv i d r) = r) -> P s1) -> ok (fst (flag_inv i d r)) s P.
Proof.
  intros Vd N0 Vr R H. unfold flag_inv in *. destruct i; cbn [fst snd] in *.
  - apply (x_I _ _ XORI Xori); try vl; auto. apply H; auto. { apply keeps_wr; [vl|cbn; tauto|apply keeps_refl]. }
    rdw. rewrite R, xori1. destruct b; reflexivity.
  - apply ok_nop. apply H; auto. { apply keeps_refl. } rewrite R. destruct b; reflexivity.
Qed.

(** A memory operand loaded by emit_op_mem2. *)
Lemma mem2_ok c (tmp2 : bool) ld reg b o w next k s (P : mst -> Prop) : 0 <= ld < 16 -> ld .& LOAD_DATA <> 0 -> wf s -> vreg reg -> reg <> 0 -> mem_legal b o w -> cache_ok k s ->
  (forall s1, wf s1 -> keeps s s1 [if tmp2 then 26 else 25; 27; reg] -> rd s1 reg = lval s ld (AMem b o) w ->
     (25 <= reg <= 26 -> cache_ok (snd (op_mem2 c tmp2 ld reg (AMem b o) w next k)) s1) -> P s1) ->
  ok (fst (op_mem2 c tmp2 ld reg (AMem b o) w next k)) s P.
Proof.
  intros Hl Ll W Vr N0 L K H. unfold op_mem2 in *. destruct (fast_ok o w) eqn:F; cbn [fst snd] in *.
  - apply ok_wfP; auto. eapply fast_acc; eauto. rewrite access_load by auto. intros W1. apply H; auto.
    + apply keeps_wr; [vl|cbn; tauto|apply keeps_refl].
    + rdw. reflexivity.
    + intros R. apply wr_cache; auto.
  - apply getput_load; auto. intros s1 k' -> W1 K1 V1 C1. apply H; auto.
Qed.

(** The logical operation of emit_op on registers: the second one is TMP_REG2 or OTHER_FLAG. *)
Definition logical (k : op2k) : Prop := k = O_AND \/ k = O_OR \/ k = O_XOR.
Lemma so_flags_ok c o k rr dst src1 src2 s a b : kind o = K2 k -> logical k -> vf o = VNone -> wf s -> dreg dst -> s1reg src1 -> src2 = 26 \/ src2 = 29 ->
  rd s src1 = canon (nbits (f32 o)) a -> rd s src2 = canon (nbits (f32 o)) b -> 0 <= a < 2 ^ nbits (f32 o) -> 0 <= b < 2 ^ nbits (f32 o) ->
  ok (emit_single_op c o false false rr dst src1 src2) s (post2 o false dst s (res2 k (nbits (f32 o)) a b false) false).
Proof.
  intros Ko Hk Hv W D S1 S2 V1 V2 Ba Bb.
  assert (O9 : opnd9 s (f32 o) false src2 b). { unfold opnd9. split; auto. unfold s2reg. lia. }
  unfold emit_single_op. rewrite Ko.
  destruct Hk as [->|[->| ->]]; cbn [res2]; rewrite !Z.mod_small by lia.
  - apply (so_logical_ok c o false dst src1 src2 s a b) with (g := Z.land) (oi := Andi) (oreg := And); auto.
    + intros; apply Z.land_comm.
    + intros; apply canon_land.
    + intros; apply x_C_AND; auto.
    + intros _ s0 d i P A B C E. apply x_C_ANDI; auto. rewrite sext6_small by lia. auto.
  - apply (so_logical_ok c o false dst src1 src2 s a b) with (g := Z.lor) (oi := Ori) (oreg := Or); auto.
    + intros; apply Z.lor_comm.
    + intros; apply canon_lor.
    + intros; apply x_C_OR; auto.
    + congruence.
  - apply (so_logical_ok c o false dst src1 src2 s a b) with (g := Z.lxor) (oi := Xori) (oreg := Xor); auto.
    + intros; apply Z.lxor_comm.
    + intros; apply canon_lxor.
    + intros; apply x_C_XOR; auto.
    + congruence.
Qed.

Section F.
Variables (c : cfg) (o : op) (dst : arg) (dstw t : Z) (adds mul : bool) (s : mst) (z v : bool).
Hypothesis (W : wf s) (D : dst_legal dst dstw) (Ht : ctype t) (F : flags_for t mul s z v).
Hypothesis (Ma : 10 <= t < 12 -> mul = negb adds) (Mt : 2 <= t -> mul = true -> 10 <= t < 12).
Notation b := (holds t z v).

Lemma flag_bit d (P : mst -> Prop) : vreg d -> d <> 0 -> d <> 28 -> d <> 29 -> forall s0, flags_for t mul s0 z v -> wf s0 ->
  (forall s1 r, r = snd (flag_inv (snd (flag_src adds t d)) d (snd (fst (flag_src adds t d)))) -> keeps s0 s1 [d] -> wf s1 -> rd s1 r = b2z b -> r = d \/ r = 29 -> P s1) ->
  ok (fst (fst (flag_src adds t d))) s0 (fun s1 => ok (fst (flag_inv (snd (flag_src adds t d)) d (snd (fst (flag_src adds t d))))) s1 P).
Proof.
  intros Vd N0 N8 N9 s0 F0 W0 H. apply ok_wfP; auto. eapply flag_src_ok; eauto. intros s1 K1 V1 R1 W1. apply ok_wfP; auto.
  eapply flag_inv_ok; eauto. { vl. } intros s2 K2 V2 R2 W2. eapply H; eauto.
  - eapply keeps_tr; [exact K1|exact K2|incls|incls].
  - destruct R2 as [->|R2]; auto. rewrite R2. auto.
Qed.

Lemma flags_mov_ok : kind o = K1 O_MOV \/ kind o = K1 O_MOV32 -> f32 o = false ->
  ok (emit_op_flags c adds o dst dstw t) s (fun s' =>
    dest s s' (match kind o with K1 O_MOV32 => 4 | _ => 8 end)%nat dst dstw (b2z b) /\ rd s' 28 = rd s 28 /\ rd s' 29 = rd s 29).
Proof.
  intros Ko F3. unfold emit_op_flags.
  assert (I2 : is_op2 o = false) by (unfold is_op2; destruct Ko as [-> | ->]; reflexivity). rewrite I2, F3. cbn [negb andb orb].
  set (m := match kind o with K1 O_MOV32 => 4%nat | _ => 8%nat end).
  set (mt := if match kind o with K1 O_MOV32 => true | _ => false end then INT_DATA .| SIGNED_DATA else WORD_DATA).
  assert (M : 0 <= mt < 16 /\ mt .& LOAD_DATA = 0 /\ bytes (fsize mt) = m). { unfold mt, m. destruct Ko as [-> | ->]; vm_compute; repeat split; congruence. }
  destruct M as (M1 & M2 & M3). clearbody mt m.
  set (dr := match dst with AReg r => r | _ => TMP_REG2 end).
  assert (Dr : vreg dr /\ dr <> 0 /\ dr <> 28 /\ dr <> 29 /\ dr <> 25 /\ dr <> 27 /\ dr <> 24). { unfold dr, TMP_REG2. destruct dst; cbn in D; unfold ureg, NREGS in D; try vl; destruct D. }
  destruct Dr as (D1 & D2 & D3 & D4 & D5 & D6 & D7).
  destruct (flag_src adds t dr) as [[e1 r1] i1] eqn:E1. destruct (flag_inv i1 dr r1) as [e2 r2] eqn:E2.
  assert (FB := flag_bit dr). rewrite E1 in FB. cbn [fst snd] in FB. rewrite E2 in FB. cbn [fst snd] in FB.
  apply ok_then. apply ok_nop. apply ok_then. eapply ok_mono with (P := fun s1 => ok e2 s1 (fun s2 => ok _ s2 _)); [|intros s1 X; apply ok_then; exact X].
  apply FB; auto. clear FB. intros s1 r -> K1 W1 V1 R1. destruct dst as [q| |bb oo]; [| destruct D|].
  - cbn [dst_legal] in D. unfold ureg, NREGS in D. subst dr.
    apply ok_if; intros Er.
    + assert (r2 = 29) by lia. subst r2. apply (x_I _ _ ADDI Addi); try vl; auto. cbn [alui]. change (sext 12 0) with 0. rewrite Z.add_0_r, V1.
      assert (wrap (b2z b) = b2z b) as -> by (destruct b; reflexivity).
      split; [|split; rdw; apply (keeps_rd _ _ _ _ K1); try vl; cbn; lia].
      destruct K1 as (K1 & K2 & K3 & K4). split; [rewrite fregs_wr; auto|]. split; [intros _; rdw; auto|]. split; [rewrite mem_wr; auto|].
      intros p Hp Np. unfold visible, ureg, NREGS, SLJIT_SP in Hp. rdw. apply K4; [vl|cbn; lia].
    + assert (r2 = q) by lia. subst r2. 
      split; [|split; apply (keeps_rd _ _ _ _ K1); try vl; cbn; lia].
      destruct K1 as (K1 & K2 & K3 & K4). split; [auto|]. split; [auto|]. split; [auto|].
      intros p Hp Np. unfold visible, ureg, NREGS, SLJIT_SP in Hp. apply K4; [vl|cbn; lia].
  - cbn [dst_legal] in D. assert (L := mem_regs _ _ _ D). subst dr. unfold TMP_REG2 in *.
    eapply ok_mono. { apply op_mem_ok; auto; try vl; try lia. }
    cbv beta. intros s' (s2 & K2 & ->). rewrite M2 in K2. cbn [Z.eqb negb] in K2.
    unfold access. rewrite M2. cbn [Z.eqb negb].
    assert (V2 : rd s2 r2 = b2z b). { rewrite <- V1. apply (keeps_rd _ _ _ _ K2); [vl|cbn; lia]. }
    assert (K : keeps s s2 [25; 26; 27]). { eapply keeps_tr; [exact K1|exact K2|incls|incls]. }
    assert (A : addr s1 bb oo dstw = addr s bb oo dstw). { apply addr_same; apply (keeps_rd _ _ _ _ K1); try vl; cbn; lia. }
    split; [|split; rewrite rd_setm; apply (keeps_rd _ _ _ _ K); try vl; cbn; lia].
    destruct K as (G1 & G2 & G3 & G4). split; [cbn [setm fregs]; auto|]. split.
    + cbn [setm mem]. rewrite G1, A, V2, M3. reflexivity.
    + intros p Hp. unfold visible, ureg, NREGS, SLJIT_SP in Hp. rewrite rd_setm. apply G4; [vl|cbn; lia].
Qed.

Lemma flags_op_ok k : kind o = K2 k -> logical k -> vf o = VNone -> in_format s (nbits (f32 o)) dst ->
  let n := nbits (f32 o) in let m := (if f32 o then 4 else 8)%nat in let res := res2 k n (argval s m dst dstw) (b2z b) false in
  ok (emit_op_flags c adds o dst dstw t) s (fun s' => dest s s' m dst dstw (canon n res) /\ (setz o = true -> zrep s' (res mod 2 ^ n =? 0))).
Proof.
  intros Ko Hk Hv Fm n m res. unfold emit_op_flags.
  assert (I2 : is_op2 o = true) by (unfold is_op2; rewrite Ko; reflexivity). rewrite I2, Ko. cbn [negb andb orb]. rewrite !orb_false_r.
  set (mt := if f32 o then INT_DATA .| SIGNED_DATA else WORD_DATA).
  assert (M : 0 <= mt < 16 /\ mt .& LOAD_DATA = 0 /\ bytes (fsize mt) = m /\ 0 <= mt .| LOAD_DATA < 16 /\ (mt .| LOAD_DATA) .& LOAD_DATA <> 0).
  { unfold mt, m. destruct (f32 o); vm_compute; repeat split; congruence. }
  destruct M as (M1 & M2 & M3 & M4 & M5).
  assert (Pn : 0 < 2 ^ n) by apply nb_pos.
  set (x := argval s m dst dstw) in *.
  assert (Bx : 0 <= x mod 2 ^ n < 2 ^ n) by (apply Z.mod_pos_bound; auto).
  assert (Bb : 0 <= b2z b < 2 ^ n) by (unfold n; destruct b, (f32 o); cbn; lia).
  assert (Rr : res2 k n (x mod 2 ^ n) (b2z b) false = res). { unfold res. rewrite <- (res2_mod k n x (b2z b)) by auto. rewrite (Z.mod_small (b2z b)) by auto. reflexivity. }
  assert (Cb : canon n (b2z b) = b2z b). { unfold n. destruct b, (f32 o); reflexivity. }
  replace (match dst with AReg _ => TMP_REG2 | _ => TMP_REG2 end) with 26 by (destruct dst; reflexivity).
  destruct (if is_mem dst then op_mem2 c false (mt .| LOAD_DATA) TMP_REG1 dst dstw (next_of dst dstw) no_cache else (ENop, no_cache)) as [e0 k0] eqn:E0.
  destruct (flag_src adds t 26) as [[e1 r1] i1] eqn:E1. destruct (flag_inv i1 26 r1) as [e2 r2] eqn:E2.
  assert (FB := fun P => flag_bit 26 P). rewrite E1 in FB. cbn [fst snd] in FB. rewrite E2 in FB. cbn [fst snd] in FB.
  apply ok_then.
  assert (A : ok e0 s (fun s1 => keeps s s1 [25; 27] /\ wf s1 /\ rd s1 (match dst with AReg r => r | _ => 25 end) = canon n x /\ cache_ok k0 s1)).
  { destruct dst as [q| |bb oo]; cbn [is_mem] in E0.
    - inversion E0; subst e0 k0. apply ok_nop. split; [apply keeps_refl|]. split; auto. split; [|exact I]. cbn [in_format argval] in *. auto.
    - destruct D.
    - replace e0 with (fst (op_mem2 c false (mt .| LOAD_DATA) TMP_REG1 (AMem bb oo) dstw (next_of (AMem bb oo) dstw) no_cache)) by (rewrite E0; reflexivity).
      apply mem2_ok; auto; try exact I; try (unfold TMP_REG1; vl).
      intros s1 W1 K1 V1 C1. unfold TMP_REG1 in *. rewrite E0 in C1. cbn [snd] in C1. split; [eapply keeps_incl; [|exact K1]; incls|]. split; auto. split; [|apply C1; lia].
      rewrite V1. unfold x, n, m, mt. assert (H := lval_canon o s (AMem bb oo) dstw W D I). unfold tw in H. cbn [is_imm] in H. rewrite andb_false_r in H. exact H. }
  eapply ok_mono; [exact A|]. clear A. intros s0 (K0 & W0 & V0 & C0). apply ok_then.
  eapply ok_mono with (P := fun s1 => ok e2 s1 (fun s2 => ok _ s2 _)); [|intros s1 X; apply ok_then; exact X].
  assert (F0 : flags_for t mul s0 z v).
  { unfold flags_for, zrep, vrep in *. rewrite !(keeps_rd _ _ _ _ K0) by (try (unfold EQUAL_FLAG, OTHER_FLAG; vl); cbn; unfold EQUAL_FLAG, OTHER_FLAG; lia). exact F. }
  apply FB; auto; try vl. clear FB. intros s1 r -> K1 W1 V1 R1.
  assert (Kc : cache_ok k0 s1). { eapply cache_ok_same; [exact C0| |]; intros; apply (keeps_rd _ _ _ _ K1); try vl; cbn; lia. }
  assert (K : keeps s s1 [25; 26; 27]). { eapply keeps_tr; [exact K0|exact K1|incls|incls]. }
  set (r1' := match dst with AReg q => q | _ => 25 end) in *.
  assert (Hr1 : s1reg r1' /\ r1' <> 26 /\ r1' <> 0). { unfold r1', s1reg. destruct dst; cbn in D; unfold ureg, NREGS in D; lia. }
  assert (V2 : rd s1 r1' = canon n (x mod 2 ^ n)). { unfold n. rewrite canon_of_mod. fold n. rewrite <- V0. apply (keeps_rd _ _ _ _ K1); unfold s1reg in Hr1; [vl|cbn; lia]. }
  assert (G : emit_op c o (mkF mt true true true false) dst dstw (if is_mem dst then AReg TMP_REG1 else dst) (if is_mem dst then 0 else dstw) (AReg r2) 0 k0 =
    let d := op_dst c mt (dst_reg dst) dst dstw k0 in
    (ENop ;; ENop ;; ENop ;; emit_single_op c o false false (is_reg dst && true) (dst_reg dst) r1' r2 ;; fst d, snd d)).
  { unfold emit_op. cbn [o_keep o_move o_mem].
    assert (OI : op_imms (mkF mt true true true false) (if is_mem dst then AReg TMP_REG1 else dst) (if is_mem dst then 0 else dstw) (AReg r2) 0 =
      (false, 0, (AReg r1', if is_mem dst then 0 else dstw), (AReg r2, 0))).
    { unfold op_imms, r1', TMP_REG1. destruct dst; cbn; rewrite ?andb_false_r; auto. destruct D. }
    rewrite OI. cbn [op_src1 op_src2 is_imm negb andb is_reg is_mem]. rewrite ?andb_false_r. cbn [op_slow is_slow andb].
    unfold op_slow. cbn [is_slow andb].
    destruct dst as [q| |bb oo]; [|destruct D|]; cbn [is_unused is_mem is_reg dst_reg negb andb op_dst]; unfold ureg in D.
    - cbn [dst_legal] in D. unfold ureg in D. replace (q =? 0) with false by lia. reflexivity.
    - destruct (fast_ok oo dstw); [reflexivity|]. destruct (getput_arg c false mt TMP_REG2 bb oo dstw None k0); reflexivity. }
  rewrite G. cbv zeta. cbn [fst].
  do 3 (apply ok_then; apply ok_nop). apply ok_then. apply ok_wfP; auto.
  assert (Dd : dreg (dst_reg dst)). { unfold dreg, dst_reg, TMP_REG2. destruct dst as [q| |]; try lia. cbn in D. unfold ureg, NREGS in D. destruct (q =? 0) eqn:?; lia. }
  eapply ok_mono. { apply (so_flags_ok c o k (is_reg dst && true) (dst_reg dst) r1' r2 s1 (x mod 2 ^ n) (b2z b)); auto; try tauto; try lia. fold n. congruence. }
  cbv beta. fold n. rewrite Rr. intros s2 (K2 & V3 & Z3 & _) W2. specialize (V3 eq_refl).
  assert (KK : keeps s s2 [dst_reg dst; 25; 26; 27; 28; 29]). { eapply keeps_tr; [exact K|exact K2|incls|incls]. }
  apply dst_ok; auto; try (unfold dreg in Dd; vl).
  { destruct dst as [q| |bb oo]; auto. split; auto. eapply cache_ok_same; [exact Kc| |]; intros; apply (keeps_rd _ _ _ _ K2); try vl; cbn; unfold dst_reg, TMP_REG2; lia. }
  intros s3 S3. destruct KK as (G1 & G2 & G3 & G4). destruct dst as [q| |bb oo]; [|destruct D|].
  - cbn [dst_legal dst_reg] in *. unfold ureg, NREGS in D. assert (q =? 0 = false) as Q by lia. rewrite Q in *. subst s3. split; [|exact Z3].
    split; auto. split; auto. split; auto. intros p Hp Np. unfold visible, ureg, NREGS, SLJIT_SP in Hp. apply G4; [vl|cbn; lia].
  - destruct S3 as (S3 & S4 & S5). cbn [dst_legal dst_reg] in *. unfold TMP_REG2 in *. assert (L := mem_regs _ _ _ D). split.
    + split; [congruence|]. split.
      * rewrite S3, G1, V3, M3. f_equal. apply addr_same; apply G4; try vl; cbn; lia.
      * intros p Hp. unfold visible, ureg, NREGS, SLJIT_SP in Hp. rewrite S5 by vl. apply G4; [vl|cbn; lia].
    + intros Sz. unfold zrep, EQUAL_FLAG. rewrite S5 by vl. auto.
Qed.
End F.
