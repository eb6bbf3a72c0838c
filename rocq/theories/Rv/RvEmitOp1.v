(** sljit_emit_op1. *)
Require Import ZArith List Bool Lia Zify ZifyBool.
From Verif Require Import Rv.RvLib Rv.RvBits Rv.RvIsa Rv.RvEnc Rv.RvImm Rv.RvRun Rv.RvImmProofs Rv.RvCtl Rv.RvWf Rv.RvMem Rv.RvRunMem Rv.RvOp Rv.RvLir Rv.RvCanon Rv.RvOpLib Rv.RvSx Rv.RvRevBits Rv.RvSoClz Rv.RvSoRev Rv.RvSoMov Rv.RvMemProofs Rv.RvEmitOp Rv.RvEmitOp2.
Import ListNotations.
Open Scope Z_scope.
Ltac Zify.zify_post_hook ::= idtac.

Lemma store_mod n : forall m a v v', v mod 2 ^ (8 * Z.of_nat n) = v' mod 2 ^ (8 * Z.of_nat n) -> store m a v n = store m a v' n.
Proof.
  induction n; intros m a v v' E; cbn [store]; auto.
  assert (P : 2 ^ (8 * Z.of_nat (S n)) = 256 * 2 ^ (8 * Z.of_nat n)). { replace (8 * Z.of_nat (S n)) with (8 + 8 * Z.of_nat n) by lia. rewrite Z.pow_add_r by lia. reflexivity. }
  assert (Q : 0 < 2 ^ (8 * Z.of_nat n)) by (apply Z.pow_pos_nonneg; lia). rewrite P in E.
  assert (E1 : v mod 256 = v' mod 256).
  { apply (f_equal (fun z => z mod 256)) in E. rewrite !Z.rem_mul_r in E by lia. rewrite !(Z.mul_comm 256), !Z.mod_add, !Z.mod_mod in E by lia. exact E. }
  rewrite E1. apply IHn. rewrite !Z.rem_mul_r in E by lia. lia.
Qed.

(** The number of bytes of a memory operand (specification, sljitLir.h:1232-1315). *)
Definition size1 (k : op1k) (is32 : bool) : nat :=
  match k with
  | O_MOV_U8 | O_MOV_S8 => 1
  | O_MOV_U16 | O_MOV_S16 | O_REV_U16 | O_REV_S16 => 2
  | O_MOV_U32 | O_MOV_S32 | O_MOV32 | O_REV_U32 | O_REV_S32 => 4
  | O_MOV | O_MOV_P => 8
  | O_CLZ | O_CTZ | O_REV => if is32 then 4 else 8
  end%nat.
(** The moves, sljitLir.h:1232-1275 (the others are CLZ, CTZ and REV...). *)
Definition is_move (k : op1k) : bool :=
  match k with O_MOV | O_MOV_P | O_MOV_U8 | O_MOV_S8 | O_MOV_U16 | O_MOV_S16 | O_MOV_U32 | O_MOV_S32 | O_MOV32 => true | _ => false end.

(** ** Operations that are not moves *)
Lemma emit_op_core1 c o k fl dst dstw src w : kind o = K1 k ->
  fst (emit_op c o (mkF fl false false false false) dst dstw (AReg 0) 0 src w no_cache) =
  core c o (is_unused dst) (match dst with AReg r => negb (r =? 0) | _ => false end && is_reg src) (dst_reg dst)
    26 (fl .| LOAD_DATA) fl dst dstw false 0 (AReg 0) 0 src w.
Proof.
  intros Ko. unfold emit_op, core, op_imms, is_op2. rewrite Ko. cbn [o_keep o_move o_mem o_immop o_cumul op_src1 fst snd andb]. rewrite !andb_false_r.
  replace (match dst with AReg r => if is_unused dst then TMP_REG2 else r | _ => TMP_REG2 end) with (dst_reg dst) by (destruct dst; reflexivity).
  replace (match dst with AReg _ => negb (is_unused dst) | _ => false end) with (match dst with AReg r => negb (r =? 0) | _ => false end) by (destruct dst; reflexivity).
  cbn [andb]. unfold TMP_REG2. destruct (op_src2 c (fl .| LOAD_DATA) false 0 26 src w) as [e2 r2]. rewrite ?andb_false_r. cbn [andb].
  destruct (op_slow c (fl .| LOAD_DATA) 0 26 dst dstw (AReg 0) 0 src w no_cache) as [e3 k3]. cbn [fst snd].
  destruct (op_dst c fl (dst_reg dst) dst dstw k3) as [e4 k4]. reflexivity.
Qed.
Lemma src_arg a w : src_legal a w -> arg_ok a w.
Proof. destruct a; cbn; unfold ureg, NREGS; lia || auto. Qed.
Lemma dst_dreg dst dstw : dst_legal dst dstw -> dreg (dst_reg dst).
Proof. unfold dreg, dst_reg, TMP_REG2, dst_legal, ureg, NREGS. destruct dst as [r| |]; try lia. destruct (r =? 0) eqn:?; lia. Qed.


Lemma finish_ok c fl s s2 dst dstw dst_r k v : wf s2 -> 0 <= fl < 16 -> fl .& LOAD_DATA = 0 -> vreg dst_r -> dst_r <> 25 -> dst_r <> 27 -> dst_legal dst dstw ->
  mem s2 = mem s -> fregs s2 = fregs s -> (rd s2 dst_r) mod 2 ^ (8 * Z.of_nat (bytes (fsize fl))) = v mod 2 ^ (8 * Z.of_nat (bytes (fsize fl))) ->
  match dst with
  | AReg r => r = dst_r /\ rd s2 dst_r = v /\ forall q, visible q -> q <> r -> rd s2 q = rd s q
  | _ => cache_ok k s2 /\ forall q, 0 <= q <= 24 \/ visible q -> rd s2 q = rd s q
  end ->
  ok (fst (op_dst c fl dst_r dst dstw k)) s2 (fun s' => dest s s' (bytes (fsize fl)) dst dstw v /\ rd s' 28 = rd s2 28 /\ rd s' 29 = rd s2 29).
Proof.
  intros W F1 F2 V N5 N7 D M G Vm H. apply dst_ok; auto. { destruct dst; auto. destruct H; auto. }
  intros s' S'. unfold dest. destruct dst as [r| |b o]; [|destruct D|].
  - subst s'. destruct H as (-> & <- & H). repeat split; auto.
  - destruct H as (C & H). destruct S' as (S1 & S2 & S3). rewrite !S3 by vl. repeat split; auto; try congruence.
    + rewrite S1, M. cbn [dst_legal] in D. apply mem_regs in D. rewrite (addr_same s s2) by (apply H; lia). apply store_mod. exact Vm.
    + intros q Q. rewrite S3 by (unfold visible, ureg, NREGS, SLJIT_SP, vreg in *; lia). apply H; auto.
Qed.

Section U.
Variables (c : cfg) (o : op) (k : op1k) (s : mst) (fl : Z) (dst : arg) (dstw : Z) (src : arg) (w : Z) (R : Z -> Prop).
Hypothesis (Ko : kind o = K1 k) (W : wf s) (Hd : dst_legal dst dstw) (Hs : src_legal src w) (Ni : is_imm src = false) (F1 : 0 <= fl < 16) (F2 : fl .& LOAD_DATA = 0) (F3 : (fl .| LOAD_DATA) .& LOAD_DATA <> 0) (F4 : 0 <= (fl .| LOAD_DATA) < 16).
Hypothesis (Sp : forall s1 u rr dr r, wf s1 -> dreg dr -> 0 <= r <= 23 \/ r = 26 -> rd s1 r = lval s (fl .| LOAD_DATA) src w ->
  ok (emit_single_op c o false u rr dr 0 r) s1 (fun s' => keeps s1 s' [dr; 25; 26; 28; 29] /\ R (rd s' dr))).
Lemma unary_ok : ok (fst (emit_op c o (mkF fl false false false false) dst dstw (AReg 0) 0 src w no_cache)) s
  (fun s' => exists r, R r /\ dest s s' (bytes (fsize fl)) dst dstw r).
Proof.
  rewrite (emit_op_core1 c o k) by auto. unfold core. cbn [op_src1 fst snd].
  set (ld := fl .| LOAD_DATA) in *. set (slow := op_slow c ld 0 26 dst dstw (AReg 0) 0 src w no_cache). set (src_r := snd (op_src2 c ld false 0 26 src w)).
  assert (D := dst_dreg dst dstw Hd).
  assert (Rr : 0 <= src_r <= 23 \/ src_r = 26). { unfold src_r. apply src_arg in Hs. destruct src as [r| |]; cbn [op_src2 snd arg_ok is_imm] in *; try discriminate; lia. }
  set (Q := fun s' => exists r, R r /\ dest s s' (bytes (fsize fl)) dst dstw r).
  assert (M : ok (fst (op_src1 c ld (AReg 0) 0)) s (fun s1 => ok (fst (op_src2 c ld false 0 26 src w)) s1 (fun s2 =>
    ok (fst slow) s2 (fun s3 => ok (emit_single_op c o false (is_unused dst) (match dst with AReg r => negb (r =? 0) | _ => false end && is_reg src) (dst_reg dst) 0 src_r;; fst (op_dst c fl (dst_reg dst) dst dstw (snd slow))) s3 Q)))).
  { apply operands_ok; auto; try lia; try discriminate. { cbn; lia. } { apply src_arg; auto. }
    intros s1 W1 K1 C1 _ V2. specialize (V2 eq_refl). cbn [op_src1 snd] in C1. fold slow in C1. specialize (C1 ltac:(lia)). fold src_r in V2.
    apply ok_then. apply ok_wfP; auto. eapply ok_mono. { apply Sp; auto. }
    cbv beta. intros s2 (K2 & HR) W2. eapply ok_mono.
    { apply (finish_ok c fl s s2 dst dstw (dst_reg dst) (snd slow) (rd s2 (dst_reg dst))); auto; try (unfold dreg in D; vl).
      - rewrite (keeps_mem _ _ _ K2). apply (keeps_mem _ _ _ K1).
      - transitivity (fregs s1). apply K2. apply K1.
      - assert (Kv : forall q, vreg q -> q <> dst_reg dst -> (q < 25 \/ 29 < q) -> rd s2 q = rd s q).
        { intros q Q1 N Q2. rewrite (keeps_rd _ _ _ q K2); [|auto|cbn; lia]. apply (keeps_rd _ _ _ _ K1); [auto|cbn; lia]. }
        destruct dst as [r| |b1 o1]; [|destruct Hd|].
        + cbn [dst_legal dst_reg] in *. unfold ureg in Hd. replace (r =? 0) with false in * by lia. repeat split; auto.
          intros q Q1 N. apply Kv; auto; unfold visible, ureg, NREGS, SLJIT_SP, vreg in *; lia.
        + cbn [dst_reg] in *. unfold TMP_REG2 in *. split.
          * eapply cache_ok_same; [exact C1| |]. { apply (keeps_rd _ _ _ _ K2); [vl|cbn; lia]. } intros r Hr. apply (keeps_rd _ _ _ _ K2); [vl|cbn; lia].
          * intros q Q1. apply Kv; unfold visible, ureg, NREGS, SLJIT_SP, vreg in *; lia. }
    cbv beta. intros s' (P1 & _). exists (rd s2 (dst_reg dst)). auto. }
  apply ok_then. eapply ok_mono; [exact M|]. cbv beta. intros s1 X. apply ok_then. eapply ok_mono; [exact X|]. cbv beta. intros s2 Y. apply ok_then. exact Y.
Qed.
End U.

(** ** Moves *)
Lemma emit_op_mov c o fl dst dstw src w : dst_legal dst dstw -> is_op2 o = false ->
  let ld := fl .| LOAD_DATA in
  let tmp := match dst with AReg r => r | _ => 26 end in
  let zero := is_imm src && (w =? 0) in
  let dst_r := match dst with AReg r => r | _ => match src with AReg q => q | _ => if zero then 0 else 26 end end in
  fst (emit_op c o (mkF fl false false false true) dst dstw (AReg 0) 0 src w no_cache) =
  core c (if zero && negb (is_mem dst) then mkOp (K1 O_MOV) false false VNone else o) false (negb (is_mem dst) && is_reg src) dst_r
    tmp ld fl dst dstw false 0 (AReg 0) 0 src w.
Proof.
  intros D K ld tmp zero dst_r. unfold emit_op, core, op_imms. rewrite K. cbn [o_keep o_move o_mem o_immop o_cumul op_src1 fst snd andb negb]. fold ld. rewrite !andb_true_r.
  destruct dst as [r| |b1 o1]; [|destruct D|].
  - cbn [dst_legal is_unused is_mem negb] in *. unfold ureg in D. replace (r =? 0) with false by lia. cbn [negb andb]. rewrite !andb_false_r. cbn [andb].
    unfold tmp, dst_r, zero. destruct (op_src2 c ld false 0 r src w) as [e2 r2]. cbn [fst snd].
    destruct (op_slow c ld 0 r (AReg r) dstw (AReg 0) 0 src w no_cache) as [e3 k3]. cbn [fst snd op_dst is_mem]. rewrite !andb_true_r. reflexivity.
  - cbn [is_unused is_mem negb andb]. rewrite !andb_true_r, !andb_false_r. unfold TMP_REG2. fold tmp zero.
    assert (E : (if is_reg src then snd (op_src2 c ld false 0 tmp src w) else if zero then 0 else tmp) = dst_r) by (unfold dst_r; destruct src; reflexivity).
    destruct (op_src2 c ld false 0 tmp src w) as [e2 r2]. cbn [snd fst] in *. rewrite E.
    destruct (op_slow c ld 0 tmp (AMem b1 o1) dstw (AReg 0) 0 src w no_cache) as [e3 k3]. cbn [fst snd].
    destruct (op_dst c fl dst_r (AMem b1 o1) dstw k3) as [e4 k4]. reflexivity.
Qed.

Lemma so_mov0_ok c d s (P : mst -> Prop) : wf s -> 1 <= d <= 23 -> P (wr s d 0) -> ok (so_mov c d 0) s P.
Proof.
  intros W D H. unfold so_mov. replace (d =? 0) with false by lia. destruct (cC c); cbn [negb].
  - cbn [Z.eqb]. apply x_C_LI0; [vl|]. exact H.
  - apply (x_I _ _ ADDI Addi); [reflexivity|vl|vl|]. cbn [alui]. rewrite rd_0. exact H.
Qed.

Section M.
Variables (c : cfg) (o : op) (k : op1k) (s : mst) (fl : Z) (dst : arg) (dstw : Z) (src : arg) (w v : Z).
Notation m := (bytes (fsize fl)).
Hypothesis (Ko : kind o = K1 k) (Hk : mov_kind k) (W : wf s) (Hd : dst_legal dst dstw) (Hs : src_legal src w) (F1 : 0 <= fl < 16) (F2 : fl .& LOAD_DATA = 0) (F3 : (fl .| LOAD_DATA) .& LOAD_DATA <> 0) (F4 : 0 <= (fl .| LOAD_DATA) < 16).
(** v: the value that is moved *)
Hypothesis (V1 : mext k (lval s (fl .| LOAD_DATA) src w) = v) (V2 : is_reg src = false -> lval s (fl .| LOAD_DATA) src w = v)
  (V3 : forall x, mext k x mod 2 ^ (8 * Z.of_nat m) = x mod 2 ^ (8 * Z.of_nat m)).
(** the exception: the source register is converted *)
Hypothesis (X : is_mem dst = true -> cB c = true -> has_ext k = true -> is_reg src = true -> lval s (fl .| LOAD_DATA) src w = v).
Lemma move_ok : ok (fst (emit_op c o (mkF fl false false false true) dst dstw (AReg 0) 0 src w no_cache)) s
  (fun s' => dest s s' m dst dstw v /\ rd s' 28 = rd s 28 /\ rd s' 29 = rd s 29).
Proof.
  rewrite (emit_op_mov c o fl dst dstw src w) by (auto; unfold is_op2; rewrite Ko; auto).
  set (ld := fl .| LOAD_DATA) in *. cbv zeta.
  set (tmp := match dst with AReg r => r | _ => 26 end). set (zero := is_imm src && (w =? 0)).
  set (dst_r := match dst with AReg r => r | _ => match src with AReg q => q | _ => if zero then 0 else 26 end end).
  unfold core. set (slow := op_slow c ld _ tmp dst dstw (AReg 0) 0 src w no_cache). set (src_r := snd (op_src2 c ld false 0 tmp src w)).
  assert (T : 1 <= tmp <= 23 \/ tmp = 26). { unfold tmp. destruct dst; cbn [dst_legal] in Hd; unfold ureg, NREGS in Hd; lia. }
  assert (Rr : src_r = match src with AReg r => r | AImm => if w =? 0 then 0 else tmp | _ => tmp end).
  { unfold src_r. destruct src; cbn [op_src2 snd]; auto. destruct (w =? 0); auto. }
  assert (Rs : 0 <= src_r <= 23 \/ src_r = 26). { rewrite Rr. clearbody tmp. destruct src as [r| |]; cbn [src_legal] in Hs; unfold ureg, NREGS in *; try lia. destruct (w =? 0); lia. }
  set (o' := if zero && negb (is_mem dst) then _ else o). set (rr := negb (is_mem dst) && is_reg src).
  set (Q := fun s' => dest s s' m dst dstw v /\ rd s' 28 = rd s 28 /\ rd s' 29 = rd s 29).
  assert (M : ok (fst (op_src1 c ld (AReg 0) 0)) s (fun s1 => ok (fst (op_src2 c ld false 0 tmp src w)) s1 (fun s2 =>
    ok (fst slow) s2 (fun s3 => ok (emit_single_op c o' false false rr dst_r (snd (op_src1 c ld (AReg 0) 0)) src_r;; fst (op_dst c fl dst_r dst dstw (snd slow))) s3 Q)))).
  { apply operands_ok; auto; try lia; try discriminate. { cbn; lia. } { apply src_arg; auto. }
    fold src_r. fold slow. intros s1 W1 K1 C1 _ V. specialize (V eq_refl). fold ld in V. cbn [op_src1 snd].
    assert (C1' : is_mem dst = true -> cache_ok (snd slow) s1). { intros E. apply C1. unfold tmp. destruct dst; try discriminate; lia. }
    (* the values after emit_single_op *)
    assert (Z : forall s2, wf s2 -> keeps s1 s2 [dst_r] -> (is_mem dst = false -> rd s2 dst_r = v) -> (is_mem dst = true -> (1 <= dst_r <= 23 -> rd s2 dst_r = rd s1 dst_r) /\ rd s2 dst_r mod 2 ^ (8 * Z.of_nat m) = v mod 2 ^ (8 * Z.of_nat m)) ->
      ok (fst (op_dst c fl dst_r dst dstw (snd slow))) s2 Q).
    { intros s2 W2 K2 A B.
      assert (Dr : 0 <= dst_r <= 23 \/ dst_r = 26). { unfold dst_r, dst_legal, src_legal, ureg, NREGS in *. clear - Hd Hs. clearbody zero. destruct dst; try lia; destruct src; try lia; destruct zero; lia. }
      eapply ok_mono. { apply (finish_ok c fl s s2 dst dstw dst_r (snd slow) v); auto; try vl.
        - rewrite (keeps_mem _ _ _ K2). apply (keeps_mem _ _ _ K1).
        - transitivity (fregs s1). apply K2. apply K1.
        - destruct (is_mem dst); [apply B; auto|rewrite A; auto].
        - assert (Kv : forall q, vreg q -> q <> dst_r -> q <> tmp -> (q < 25 \/ 27 < q) -> rd s2 q = rd s q).
          { intros q Q1 N Q3 Q2. rewrite (keeps_rd _ _ _ q K2); [|auto|cbn; lia]. apply (keeps_rd _ _ _ _ K1); [auto|cbn; lia]. }
          destruct dst as [r| |b1 o1]; [|destruct Hd|].
          + cbn [dst_legal is_mem] in *. unfold dst_r in *. split; auto. split; auto. intros q Q1 N. apply Kv; auto; unfold visible, ureg, NREGS, SLJIT_SP, vreg in *; lia.
          + cbn [is_mem] in *. specialize (B eq_refl) as (B & _). unfold tmp in *.
            assert (B' : forall q, vreg q -> q < 25 \/ 27 < q -> rd s2 q = rd s1 q).
            { intros q Q1 Q2. destruct (Z.eq_dec q dst_r) as [->|N]; [|apply (keeps_rd _ _ _ q K2); [auto|cbn; lia]].
              destruct (Z.eq_dec dst_r 0) as [E|E]; [rewrite E, !rd_0; auto|]. apply B. lia. }
            split.
            * eapply cache_ok_same; [apply C1'; auto| |]. { apply (keeps_rd _ _ _ _ K2); [vl|cbn; lia]. } intros r Hr. apply B'; vl.
            * intros q Q1. rewrite B' by (unfold visible, ureg, NREGS, SLJIT_SP, vreg in *; lia).
              apply (keeps_rd _ _ _ _ K1); unfold visible, ureg, NREGS, SLJIT_SP, vreg, In in *; lia. }
      cbv beta. intros s' (P1 & P2 & P3). split; auto.
      rewrite P2, P3. rewrite !(keeps_rd _ _ _ _ K2) by (try vl; cbn; lia). rewrite !(keeps_rd _ _ _ _ K1) by (try vl; cbn; lia). auto. }
    apply ok_then. apply ok_wfP; auto.
    destruct (zero && negb (is_mem dst)) eqn:E0.
    - (* the immediate zero and a register *)
      destruct dst as [r| |b1 o1]; [|destruct Hd|rewrite andb_false_r in E0; discriminate].
      assert (src = AImm /\ w = 0) as (-> & ->). { unfold zero in E0. destruct src; cbn [is_imm] in *; try discriminate. split; auto. lia. }
      unfold o'. cbn [emit_single_op kind]. rewrite Rr. cbn [Z.eqb]. cbn [dst_legal] in Hd. unfold ureg, NREGS in Hd.
      unfold emit_single_op. cbn [kind]. unfold dst_r. apply so_mov0_ok; auto. intros W2. apply Z; auto.
      + apply keeps_wr; [vl|cbn; tauto|apply keeps_refl].
      + intros _. unfold dst_r. rdw. rewrite <- V2 by auto. reflexivity.
      + discriminate.
    - unfold o'. assert (R1 : rr = false -> dst_r = src_r).
      { unfold rr, zero in *. rewrite Rr. unfold dst_r, tmp. destruct dst as [r| |]; [|destruct Hd|]; destruct src as [q| |]; cbn [is_mem is_reg is_imm negb andb] in *; try discriminate; auto.
        intros _. rewrite andb_true_r in E0. rewrite E0. auto. }
      eapply ok_mono.
      { apply (so_movs_ok c o k false false rr dst_r 0 src_r s1); auto.
        - clear - Hd Hs T. clearbody tmp zero. unfold dst_r. unfold dst_legal, src_legal, ureg, NREGS in *. destruct dst; try lia; destruct src; try lia; destruct zero; lia.
        - intros Er. unfold rr in Er. rewrite Rr. unfold dst_r. clear - Hd Hs Er. unfold dst_legal, src_legal, ureg, NREGS in *. destruct dst, src; cbn in *; try discriminate; lia. }
      cbv beta. intros s2 H2 W2.
      assert (Vs : rd s1 src_r = lval s ld src w) by exact V.
      assert (G : keeps s1 s2 [dst_r] /\ (rd s2 dst_r = v \/ rd s2 dst_r = rd s1 src_r /\ conv c k rr = false /\ dst_r = src_r)).
      { destruct (conv c k rr || negb (dst_r =? src_r)) eqn:Ec.
        - destruct H2 as (A & B). split; auto. left. congruence.
        - subst s2. split. { apply keeps_refl. } right. assert (dst_r = src_r) as -> by lia. split; auto. split; auto. destruct (conv c k rr); auto. }
      destruct G as (G1 & G2). apply Z; auto.
      + intros E. destruct G2 as [G2|(G2 & G3 & G4)]; auto. rewrite G2. rewrite Vs.
        destruct (is_reg src) eqn:Er; [|auto]. unfold rr in G3. rewrite E, ?Er in G3. cbn [negb andb] in G3. rewrite <- V1. unfold conv in G3. destruct k; try discriminate; reflexivity.
      + intros E. assert (Er : rr = false) by (unfold rr; rewrite E; reflexivity). specialize (R1 Er). split.
        * intros Hr. assert (is_reg src = true). { unfold dst_r in Hr. destruct dst; try discriminate. destruct src; auto. destruct zero; lia. lia. }
          destruct G2 as [G2|(G2 & G3 & G4)]; [|congruence].
          destruct (conv c k rr || negb (dst_r =? src_r)) eqn:Ec; [|congruence].
          assert (Ec' : conv c k rr = true) by (destruct (conv c k rr); auto; cbn in Ec; lia).
          unfold conv in Ec'. rewrite Er in Ec'. cbn [orb] in Ec'. rewrite G2, R1, Vs. symmetry. apply X; auto; destruct (cB c), (has_ext k); auto; destruct k; discriminate.
        * destruct G2 as [->|(-> & _)]; auto. rewrite Vs, <- V1. symmetry. apply V3. }
  apply ok_then. eapply ok_mono; [exact M|]. cbv beta. intros s1 Y. apply ok_then. eapply ok_mono; [exact Y|]. cbv beta. intros s2 Y'. apply ok_then. exact Y'.
Qed.
End M.

(** ** The API function *)
Lemma load_bound m n : forall a, 0 <= load m a n < 2 ^ (8 * Z.of_nat n).
Proof.
  induction n; intros a; cbn [load]. { cbn. lia. }
  specialize (IHn (a + 1)). pose proof (Z.mod_pos_bound (m (wrap a)) 256 ltac:(lia)).
  replace (8 * Z.of_nat (S n)) with (8 + 8 * Z.of_nat n) by lia. rewrite Z.pow_add_r by lia. change (2 ^ 8) with 256. nia.
Qed.
Lemma rev_mod n : forall a b, a mod 2 ^ (8 * Z.of_nat n) = b mod 2 ^ (8 * Z.of_nat n) -> rev_bytes n a = rev_bytes n b.
Proof.
  induction n; intros a b E; cbn [rev_bytes]; auto.
  assert (P : 2 ^ (8 * Z.of_nat (S n)) = 256 * 2 ^ (8 * Z.of_nat n)). { replace (8 * Z.of_nat (S n)) with (8 + 8 * Z.of_nat n) by lia. rewrite Z.pow_add_r by lia. reflexivity. }
  assert (Q : 0 < 2 ^ (8 * Z.of_nat n)) by (apply Z.pow_pos_nonneg; lia). rewrite P in E.
  assert (E1 : a mod 256 = b mod 256).
  { apply (f_equal (fun z => z mod 256)) in E. rewrite !Z.rem_mul_r in E by lia. rewrite !(Z.mul_comm 256), !Z.mod_add, !Z.mod_mod in E by lia. exact E. }
  f_equal. { unfold byte. change (2 ^ (8 * 0)) with 1. rewrite !Z.div_1_r, E1. reflexivity. }
  apply IHn. rewrite !Z.rem_mul_r in E by lia. lia.
Qed.
Lemma wrap_ex x : exists q, x = wrap x + q * 2 ^ 64.
Proof. exists (x / 2 ^ 64). unfold wrap. pose proof (Z.div_mod x (2 ^ 64) ltac:(lia)). lia. Qed.
Lemma pow_split n k : 0 <= n <= k -> 2 ^ k = 2 ^ n * 2 ^ (k - n).
Proof. intros. rewrite <- Z.pow_add_r by lia. f_equal. lia. Qed.
Lemma sext_wrap n x : 1 <= n <= 64 -> sext n (wrap x) = sext n x.
Proof.
  intros H. destruct (wrap_ex x) as (q & E). destruct (sext_mod n x ltac:(lia)) as (r & E'). 
  eapply (sext_unique n (wrap x) (sext n x) (r - q * 2 ^ (64 - n))); [lia|apply sext_range; lia|].
  rewrite (pow_split n 64) in E by lia. nia.
Qed.
Lemma sext_sext n x : 1 <= n -> sext n (sext n x) = sext n x.
Proof. intros H. eapply (sext_unique n (sext n x) (sext n x) 0); [lia|apply sext_range; lia|lia]. Qed.
Lemma sext_mod2 n x : 1 <= n -> sext n x mod 2 ^ n = x mod 2 ^ n.
Proof. intros H. destruct (sext_mod n x H) as (q & E). rewrite E at 2. rewrite Z.mod_add; auto. apply Z.pow_nonzero; lia. Qed.
Lemma wrap_mod n x : 0 <= n <= 64 -> wrap x mod 2 ^ n = x mod 2 ^ n.
Proof. intros H. destruct (wrap_ex x) as (q & E). rewrite E at 2. rewrite (pow_split n 64) by lia. rewrite (Z.mul_comm (2 ^ n)), Z.mul_assoc, Z.mod_add; auto. apply Z.pow_nonzero; lia. Qed.

(** The move that emit_op performs (sljitNativeRISCV_common.c:2622-2640), and the value (specification). *)
Definition mkind (k : op1k) : op1k := match k with O_MOV_P => O_MOV | O_MOV32 => O_MOV_S32 | _ => k end.
(** The moved value, sljitLir.h:1232-1275. *)
Definition mval (k : op1k) (a : Z) : Z := match mkind k with O_MOV => wrap a | k => mext k a end.
Lemma mval_res k n a : is_move k = true -> res1 k n a (mval k a).
Proof. destruct k; try discriminate; reflexivity. Qed.
Lemma mval_idem k a : is_move k = true -> mext (mkind k) (mval k a) = mval k a.
Proof.
  destruct k; try discriminate; intros _; unfold mval; cbn [mkind mext]; auto; try (apply Z.mod_mod; lia); rewrite sext_wrap, sext_sext by lia; reflexivity.
Qed.
Lemma mext_mod k a is32 : is_move k = true -> mext (mkind k) a mod 2 ^ (8 * Z.of_nat (size1 k is32)) = a mod 2 ^ (8 * Z.of_nat (size1 k is32)).
Proof.
  destruct k; try discriminate; intros _; cbn [mkind mext size1]; auto; try (change (8 * Z.of_nat 1) with 8); try (change (8 * Z.of_nat 2) with 16); try (change (8 * Z.of_nat 4) with 32);
    try (apply Z.mod_mod; lia); rewrite wrap_mod, sext_mod2 by lia; reflexivity.
Qed.
(** A register whose value a conversion would change: see C19_mov_refuted (sljitNativeRISCV_common.c:1918-1952). *)
Definition changes (c : cfg) (k : op1k) (s : mst) (src : arg) : Prop :=
  cB c = true /\ has_ext k = true /\ match src with AReg r => mext k (rd s r) <> rd s r | _ => False end.

Section Op1.
Variables (c : cfg) (k : op1k) (is32 : bool) (s : mst) (dst : arg) (dstw : Z) (src : arg) (w : Z).
Notation m := (size1 k is32).
Hypothesis (W : wf s) (Hd : dst_legal dst dstw) (Hs : src_legal src w).

Lemma emit_mov_ok : is_move k = true -> (is_mem dst = true -> ~ changes c k s src) ->
  ok (emit_op1 c k is32 dst dstw src w) s (fun s' =>
    dest s s' m dst dstw (mval k (argval s m src w)) /\ rd s' 28 = rd s 28 /\ rd s' 29 = rd s 29).
Proof.
  intros Mv X.
  assert (G : forall o fl w', kind o = K1 (mkind k) -> 0 <= fl < 16 -> fl .& LOAD_DATA = 0 -> (fl .| LOAD_DATA) .& LOAD_DATA <> 0 -> 0 <= (fl .| LOAD_DATA) < 16 ->
    bytes (fsize fl) = m -> (is_imm src = false -> w' = w) -> (is_imm src = true -> - 2 ^ 63 <= w' < 2 ^ 63 /\ wrap w' = mval k w) ->
    (forall b f, src = AMem b f -> ldval (fsize (fl .| LOAD_DATA)) (fsigned (fl .| LOAD_DATA)) (mem s) (addr s b f w) = mval k (load (mem s) (addr s b f w) m)) ->
    ok (fst (emit_op c o (mkF fl false false false true) dst dstw (AReg TMP_ZERO) 0 src w' no_cache)) s (fun s' =>
      dest s s' m dst dstw (mval k (argval s m src w)) /\ rd s' 28 = rd s 28 /\ rd s' 29 = rd s 29)).
  { intros o fl w' Ko F1 F2 F3 F4 Bs Wn Wi Vm. unfold TMP_ZERO.
    assert (V2 : is_reg src = false -> lval s (fl .| LOAD_DATA) src w' = mval k (argval s m src w)).
    { destruct src as [r| |b f]; try discriminate; intros _; cbn [lval argval is_imm] in *. { apply Wi. auto. } rewrite Wn by auto. auto. }
    assert (V1 : mext (mkind k) (lval s (fl .| LOAD_DATA) src w') = mval k (argval s m src w)).
    { destruct (is_reg src) eqn:E; [|rewrite V2 by auto; apply mval_idem; auto]. destruct src as [r| |b f]; try discriminate. cbn [lval argval].
      unfold mval. assert (Q : wrap (rd s r) = rd s r) by (apply wrap_small; apply wf_rd; auto). destruct k; try discriminate; cbn [mkind mext]; congruence. }
    rewrite <- Bs. apply (move_ok c o (mkind k)); auto.
    - destruct k; try discriminate; exact I.
    - destruct src as [r| |b f]; cbn [src_legal is_imm] in *; auto. { apply Wi. auto. } rewrite Wn; auto.
    - rewrite Bs. auto. - rewrite Bs. auto.
    - intros x. rewrite Bs. apply mext_mod. auto.
    - rewrite Bs. intros Dm Cb He Rs. destruct src as [r| |b f]; try discriminate. rewrite <- V1. cbn [lval]. destruct (Z.eq_dec (mext (mkind k) (rd s r)) (rd s r)) as [E|E]; auto.
      destruct (X Dm). split; auto. destruct k; try discriminate; auto. }
  assert (Hi : is_imm src = true -> - 2 ^ 63 <= w < 2 ^ 63). { destruct src; try discriminate. auto. }
  unfold emit_op1. cbv zeta. destruct k; try discriminate; (apply G; [reflexivity|vm_compute; split; congruence|reflexivity|vm_compute; discriminate|vm_compute; split; congruence|reflexivity| | |]);
    try (intros E; rewrite E; reflexivity); try (intros b f _; try reflexivity; exact (eq_refl _));
    intros E; rewrite ?E; unfold mval; cbn [mkind mext].
  all: try (split; [auto|reflexivity]); try reflexivity.
  all: try match goal with
    | |- - 2 ^ 63 <= sext 8 w < 2 ^ 63 => pose proof (sext_range 8 w ltac:(lia)); change (2 ^ (8 - 1)) with 128 in *; lia
    | |- - 2 ^ 63 <= sext 16 w < 2 ^ 63 => pose proof (sext_range 16 w ltac:(lia)); change (2 ^ (16 - 1)) with 32768 in *; lia
    | |- - 2 ^ 63 <= s32 w < 2 ^ 63 => pose proof (sext_range 32 w ltac:(lia)); change (2 ^ (32 - 1)) with 2147483648 in *; unfold s32; lia
    | |- _ <= _ < _ /\ _ => unfold u32; match goal with |- _ /\ wrap (w mod ?q) = _ => pose proof (Z.mod_pos_bound w q ltac:(lia)) end; split; [lia|apply wrap_small; unfold isw; lia]
    | |- forall f, _ -> _ = wrap _ => intros f _; exact (wrap_sw _)
    | |- forall f, _ -> _ = _ => intros f _; match goal with |- _ = load ?a ?b ?n mod ?q => transitivity (load a b n); [reflexivity|symmetry; apply Z.mod_small; apply (load_bound a n b)] end
    end.
Qed.

Lemma dest_mem s1 s' n d dw v v' : is_mem d = true -> v mod 2 ^ (8 * Z.of_nat n) = v' mod 2 ^ (8 * Z.of_nat n) -> dest s1 s' n d dw v -> dest s1 s' n d dw v'.
Proof. destruct d; try discriminate. intros _ E (A & B & C). split; auto. split; auto. rewrite B. apply store_mod. auto. Qed.

Lemma emit_un_ok : is_move k = false -> is_imm src = false ->
  (k = O_CLZ \/ k = O_CTZ -> in_format s (nbits is32) src) -> (k = O_REV -> is32 = true -> cB c = false -> is_mem dst = true) ->
  ok (emit_op1 c k is32 dst dstw src w) s (fun s' => exists r, res1 k (nbits is32) (argval s m src w) r /\ dest s s' m dst dstw r).
Proof.
  intros Mv Ni Fm Rv. set (n := nbits is32). set (a := argval s m src w).
  assert (G : forall o fl (R : Z -> Prop), kind o = K1 k -> 0 <= fl < 16 -> fl .& LOAD_DATA = 0 -> (fl .| LOAD_DATA) .& LOAD_DATA <> 0 -> 0 <= (fl .| LOAD_DATA) < 16 ->
    bytes (fsize fl) = m ->
    (forall s1 u rr dr r, wf s1 -> dreg dr -> 0 <= r <= 23 \/ r = 26 -> rd s1 r = lval s (fl .| LOAD_DATA) src w ->
      ok (emit_single_op c o false u rr dr 0 r) s1 (fun s' => keeps s1 s' [dr; 25; 26; 28; 29] /\ R (rd s' dr))) ->
    (forall x, R x -> res1 k n a x \/ is_mem dst = true /\ exists y, res1 k n a y /\ x mod 2 ^ (8 * Z.of_nat m) = y mod 2 ^ (8 * Z.of_nat m)) ->
    ok (fst (emit_op c o (mkF fl false false false false) dst dstw (AReg TMP_ZERO) 0 src w no_cache)) s
      (fun s' => exists r, res1 k n a r /\ dest s s' m dst dstw r)).
  { intros o fl R Ko F1 F2 F3 F4 Bs Sp HR. eapply ok_mono. { apply (unary_ok c o k s fl dst dstw src w R); auto. }
    cbv beta. intros s' (r & Hr & D). rewrite Bs in D. destruct (HR r Hr) as [H|(H & y & H1 & H2)].
    - exists r. auto.
    - exists y. split; auto. eapply dest_mem; eauto. }
  (* the value in the register *)
  assert (L : forall ld, bytes (fsize ld) = m -> (k = O_CLZ \/ k = O_CTZ \/ k = O_REV -> ld = (if is32 then INT_DATA .| SIGNED_DATA else 0) .| LOAD_DATA) ->
    lval s ld src w mod 2 ^ (8 * Z.of_nat m) = a mod 2 ^ (8 * Z.of_nat m) /\ (k = O_CLZ \/ k = O_CTZ -> lval s ld src w = canon n a)).
  { intros ld Bl Hl. split.
    - unfold a. destruct src as [r| |b f]; try discriminate; cbn [lval argval]; auto. unfold ldval. rewrite Bl. destruct (fsigned ld); auto.
      assert (8 * Z.of_nat m = bits (fsize ld)) as ->. { rewrite <- Bl. destruct (fsize ld); reflexivity. }
      assert (1 <= bits (fsize ld) <= 64) by (destruct (fsize ld); cbn; lia). rewrite wrap_mod, sext_mod2 by lia. reflexivity.
    - intros K. specialize (Fm K). unfold a. destruct src as [r| |b f]; try discriminate; cbn [lval argval in_format] in *; auto.
      rewrite Hl by tauto. destruct K as [-> | ->]; unfold n; destruct is32; reflexivity. }
  assert (B32 : 32 <= n <= 64) by (unfold n; destruct is32; cbn; lia).
  assert (CZ : forall b s1 u rr dr r, wf s1 -> dreg dr -> 0 <= r <= 23 \/ r = 26 -> rd s1 r = canon n a ->
    ok (emit_single_op c (mkOp (K1 (if b : bool then O_CLZ else O_CTZ)) is32 false VNone) false u rr dr 0 r) s1 (fun s' => keeps s1 s' [dr; 25; 26; 28; 29] /\ res1 (if b then O_CLZ else O_CTZ) n a (rd s' dr))).
  { intros b s1 u rr dr r W1 D1 R1 V. assert (P := nb_pos is32). fold n in P.
    assert (E : emit_single_op c (mkOp (K1 (if b then O_CLZ else O_CTZ)) is32 false VNone) false u rr dr 0 r = so_clz_ctz c (mkOp (K1 (if b then O_CLZ else O_CTZ)) is32 false VNone) b dr r) by (destruct b; reflexivity).
    rewrite E. eapply ok_mono. { apply (so_clz_ctz_ok c (mkOp (K1 (if b then O_CLZ else O_CTZ)) is32 false VNone) dr r s1 (a mod 2 ^ n)); auto.
      - unfold s2reg. lia. - cbn [f32]. fold n. rewrite V. unfold n. rewrite canon_of_mod. reflexivity. - cbn [f32]. fold n. apply Z.mod_pos_bound. auto. }
    cbv beta. intros s' (K & x & E1 & E2). split; auto. rewrite E1. cbn [f32] in E2. fold n in E2.
    destruct b; cbn [res1] in *; [eapply is_clz_mod | eapply is_ctz_mod]; try exact E2; apply Z.mod_mod; lia. }
  unfold emit_op1. cbv zeta. destruct k; try discriminate.
  - apply (G _ _ (res1 O_CLZ n a)); [reflexivity|destruct is32; vm_compute; split; congruence|destruct is32; reflexivity|destruct is32; vm_compute; discriminate|destruct is32; vm_compute; split; congruence|destruct is32; reflexivity| |auto].
    intros s1 u rr dr r W1 D1 R1 V. apply (CZ true); auto. rewrite V. apply L; auto. destruct is32; reflexivity.
  - apply (G _ _ (res1 O_CTZ n a)); [reflexivity|destruct is32; vm_compute; split; congruence|destruct is32; reflexivity|destruct is32; vm_compute; discriminate|destruct is32; vm_compute; split; congruence|destruct is32; reflexivity| |auto].
    intros s1 u rr dr r W1 D1 R1 V. apply (CZ false); auto. rewrite V. apply L; auto. destruct is32; reflexivity.
  - set (v := fun x => if is32 then if cB c then wrap (sext 32 (rev_bytes 4 x)) else rev_bytes 4 x else rev_bytes 8 x).
    apply (G _ _ (fun x => x = v a)); [reflexivity|destruct is32; vm_compute; split; congruence|destruct is32; reflexivity|destruct is32; vm_compute; discriminate|destruct is32; vm_compute; split; congruence|destruct is32; reflexivity| |].
    + intros s1 u rr dr r W1 D1 R1 V. unfold emit_single_op. cbn [kind]. eapply ok_mono. { apply so_rev_ok; auto. }
      cbv beta. intros s' (K & E). split; auto. rewrite E. unfold rev_res. cbn [kind f32]. rewrite V. destruct (L ((if is32 then INT_DATA .| SIGNED_DATA else 0) .| LOAD_DATA)) as (L1 & _); auto. { destruct is32; reflexivity. }
      cbn [size1] in L1. unfold v. destruct is32; [|apply rev_mod; exact L1]. rewrite (rev_mod 4 _ a) by exact L1. reflexivity.
    + intros x ->. unfold v, n. cbn [res1 size1]. destruct is32; cbn [nbits Z.eqb Pos.eqb].
      * destruct (cB c) eqn:EB; [left; reflexivity|]. right. split; auto. eexists. split; [reflexivity|]. unfold canon. change (8 * Z.of_nat 4) with 32. rewrite wrap_mod, sext_mod2 by lia. reflexivity.
      * left. rewrite canon64. symmetry. apply wrap_small. apply rev_isw. lia.
  - apply (G _ _ (fun x => x = rev_bytes 2 a)); [reflexivity|vm_compute; split; congruence|reflexivity|vm_compute; discriminate|vm_compute; split; congruence|reflexivity| |auto].
    intros s1 u rr dr r W1 D1 R1 V. unfold emit_single_op. cbn [kind]. eapply ok_mono. { apply (so_rev16_ok c _ dr r s1 W1 D1 R1 O_REV_U16); auto. }
    cbv beta. intros s' (K & E). split; auto. rewrite E, V. apply rev_mod. apply L; [reflexivity|]. intros [H|[H|H]]; discriminate.
  - apply (G _ _ (fun x => x = wrap (sext 16 (rev_bytes 2 a)))); [reflexivity|vm_compute; split; congruence|reflexivity|vm_compute; discriminate|vm_compute; split; congruence|reflexivity| |auto].
    intros s1 u rr dr r W1 D1 R1 V. unfold emit_single_op. cbn [kind]. eapply ok_mono. { apply (so_rev16_ok c _ dr r s1 W1 D1 R1 O_REV_S16); auto. }
    cbv beta. intros s' (K & E). split; auto. rewrite E, V. rewrite (rev_mod 2 _ a); auto. apply L; [reflexivity|]. intros [H|[H|H]]; discriminate.
  - apply (G _ _ (fun x => x = rev_bytes 4 a)); [reflexivity|vm_compute; split; congruence|reflexivity|vm_compute; discriminate|vm_compute; split; congruence|reflexivity| |auto].
    intros s1 u rr dr r W1 D1 R1 V. unfold emit_single_op. cbn [kind]. eapply ok_mono. { apply so_rev_ok; auto. }
    cbv beta. intros s' (K & E). split; auto. rewrite E. unfold rev_res. cbn [kind]. rewrite V. apply rev_mod. apply L; [reflexivity|]. intros [H|[H|H]]; discriminate.
  - apply (G _ _ (fun x => x = wrap (sext 32 (rev_bytes 4 a)))); [reflexivity|vm_compute; split; congruence|reflexivity|vm_compute; discriminate|vm_compute; split; congruence|reflexivity| |auto].
    intros s1 u rr dr r W1 D1 R1 V. unfold emit_single_op. cbn [kind]. eapply ok_mono. { apply so_rev_ok; auto. }
    cbv beta. intros s' (K & E). split; auto. rewrite E. unfold rev_res. cbn [kind]. rewrite V. rewrite (rev_mod 4 _ a); auto. apply L; [reflexivity|]. intros [H|[H|H]]; discriminate.
Qed.
End Op1.
