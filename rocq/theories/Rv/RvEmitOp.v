(** emit_op: loading the operands and storing the result. *)
Require Import ZArith List Bool Lia Zify ZifyBool.
From Verif Require Import Rv.RvLib Rv.RvBits Rv.RvIsa Rv.RvEnc Rv.RvImm Rv.RvRun Rv.RvImmProofs Rv.RvCtl Rv.RvWf Rv.RvMem Rv.RvRunMem Rv.RvOp Rv.RvLir Rv.RvCanon Rv.RvOpLib Rv.RvSx Rv.RvMemProofs.
Import ListNotations.
Open Scope Z_scope.
Ltac Zify.zify_post_hook ::= idtac.

(** The operands of emit_op: those of the API and TMP_ZERO. *)
Definition arg_ok (a : arg) (w : Z) : Prop :=
  match a with AReg r => 0 <= r <= 23 | AImm => - 2 ^ 63 <= w < 2 ^ 63 | AMem b o => mem_legal b o w end.
(** The value of an operand in a register. *)
Definition lval (s : mst) (ld : Z) (a : arg) (w : Z) : Z :=
  match a with AReg r => rd s r | AImm => wrap w | AMem b o => ldval (fsize ld) (fsigned ld) (mem s) (addr s b o w) end.

Lemma mem_regs b o w : mem_legal b o w -> 0 <= b <= 24 /\ 0 <= o <= 23 /\ - 2 ^ 63 <= w < 2 ^ 63.
Proof. intros (L & R). unfold ureg, NREGS, SLJIT_SP in L. lia. Qed.
Lemma lval_same s s' ld a w : arg_ok a w -> mem s' = mem s -> (forall r, 0 <= r <= 24 -> rd s' r = rd s r) -> lval s' ld a w = lval s ld a w.
Proof.
  intros A M R. destruct a as [r| |b o]; cbn in *; auto. { apply R. lia. }
  apply mem_regs in A. rewrite M, (addr_same s s') by (apply R; lia). reflexivity.
Qed.
Lemma lval_keeps s s' ld a w l : arg_ok a w -> keeps s s' l -> (forall r, In r l -> 25 <= r) -> lval s' ld a w = lval s ld a w.
Proof.
  intros A (K1 & _ & _ & K4) L. apply lval_same; auto. intros r Hr. apply K4; [vl|]. intros I. apply L in I. lia.
Qed.
Lemma access_load ld reg A s : ld .& LOAD_DATA <> 0 -> access ld reg A s = wr s reg (ldval (fsize ld) (fsigned ld) (mem s) A).
Proof. intros H. unfold access. destruct (ld .& LOAD_DATA =? 0) eqn:E; [lia|]. reflexivity. Qed.
Lemma keeps_mem s s' w : keeps s s' w -> mem s' = mem s. Proof. intros H. apply H. Qed.
Lemma keeps_tr s s1 s2 w1 w2 w : keeps s s1 w1 -> keeps s1 s2 w2 -> incl w1 w -> incl w2 w -> keeps s s2 w.
Proof. intros A B C D. exact (keeps_trans s s1 s2 w1 w2 w A B C D). Qed.
Ltac incls := intros ?z; cbn [In]; intuition auto.
Lemma ok_wfP e s (P : mst -> Prop) : wf s -> ok e s (fun s' => wf s' -> P s') -> ok e s P.
Proof. intros W H. apply ok_wf in H; auto. eapply ok_mono; [exact H|]. cbv beta. intros s' (A & B). auto. Qed.

Section A.
Variables (c : cfg) (ld : Z).
Hypothesis (Hld : 0 <= ld < 16) (Ll : ld .& LOAD_DATA <> 0).

Lemma src1_ok s a w (P : mst -> Prop) : wf s -> arg_ok a w ->
  (forall s1, wf s1 -> keeps s s1 [25; 27] -> (is_slow a w = false -> rd s1 (snd (op_src1 c ld a w)) = lval s ld a w) -> P s1) ->
  ok (fst (op_src1 c ld a w)) s P.
Proof.
  intros W A H. destruct a as [r| |b o]; cbn [op_src1 fst snd is_slow lval] in *.
  - apply ok_nop. apply H; auto. apply keeps_refl.
  - destruct (w =? 0) eqn:E; cbn [negb fst snd] in *.
    + apply ok_nop. apply H; auto. { apply keeps_refl. } intros _. unfold TMP_ZERO. rewrite rd_0. assert (w = 0) by lia. subst. reflexivity.
    + apply ok_wfP; auto. apply x_imm; unfold TMP_REG1, TMP_REG3, SLJIT_SP; try vl. { exact A. } intros s1 V K W1. apply H; auto.
  - apply ok_if; intros F.
    + apply ok_wfP; auto. eapply fast_acc; eauto; try (unfold TMP_REG1; vl); try (unfold TMP_REG1; lia). rewrite access_load by auto. intros W1.
      apply H; [auto|apply keeps_wr; [unfold TMP_REG1; vl|cbn; tauto|apply keeps_refl]|intros _; unfold TMP_REG1; rdw; reflexivity].
    + apply H; auto. { apply keeps_refl. } rewrite F. discriminate.
Qed.

Lemma src2_ok s tmp i2 imm a w (P : mst -> Prop) : wf s -> arg_ok a w -> vreg tmp -> tmp <> 0 -> tmp <> 24 -> tmp <> 27 -> (i2 = true -> a = AImm) ->
  (forall s1, wf s1 -> keeps s s1 [tmp; 27] -> (is_slow a w = true -> s1 = s) -> (is_slow a w = false -> i2 = false -> rd s1 (snd (op_src2 c ld i2 imm tmp a w)) = lval s ld a w) -> P s1) ->
  ok (fst (op_src2 c ld i2 imm tmp a w)) s P.
Proof.
  intros W A T1 T2 T3 T4 I H. destruct a as [r| |b o]; cbn [op_src2 fst snd is_slow lval] in *.
  - apply ok_nop. apply H; auto. apply keeps_refl.
  - destruct i2. { cbn [fst snd] in *. apply ok_nop. apply H; auto; try discriminate. apply keeps_refl. }
    destruct (w =? 0) eqn:E; cbn [negb fst snd] in *.
    + apply ok_nop. apply H; auto. { apply keeps_refl. } intros _ _. unfold TMP_ZERO. rewrite rd_0. assert (w = 0) by lia. subst. reflexivity.
    + apply ok_wfP; auto. apply x_imm; unfold TMP_REG3, SLJIT_SP; try vl. { exact A. } intros s1 V K W1. apply H; auto; discriminate.
  - apply ok_if; intros F.
    + apply ok_wfP; auto. eapply fast_acc; eauto. rewrite access_load by auto. intros W1.
      apply H; [auto|apply keeps_wr; [vl|cbn; tauto|apply keeps_refl]|rewrite F; discriminate|intros _ _; rdw; reflexivity].
    + apply H; auto. { apply keeps_refl. } rewrite F. discriminate.
Qed.

(** One slow operand. *)
Lemma getput_load s tmp2 reg b o w next k (P : mst -> Prop) : wf s -> vreg reg -> reg <> 0 -> mem_legal b o w -> cache_ok k s ->
  (forall s1 k', k' = snd (getput_arg c tmp2 ld reg b o w next k) -> wf s1 -> keeps s s1 [if tmp2 then 26 else 25; 27; reg] ->
     rd s1 reg = ldval (fsize ld) (fsigned ld) (mem s) (addr s b o w) -> (25 <= reg <= 26 -> cache_ok k' s1) -> P s1) ->
  ok (fst (getput_arg c tmp2 ld reg b o w next k)) s P.
Proof.
  intros W R N L K H. apply ok_wfP; auto. eapply ok_mono. { apply getput_ok; auto. }
  cbv beta. intros s' (s1 & K1 & C1 & ->) W1. rewrite access_load in * by auto. eapply H; eauto.
  - apply keeps_wr; [vl|cbn; tauto|]. eapply keeps_incl; [|exact K1]. incls.
  - rdw. rewrite (keeps_mem _ _ _ K1). reflexivity.
  - intros Hr. apply wr_cache; auto.
Qed.

Lemma slow_ok s src1_r tmp dst dstw src1 w1 src2 w2 (P : mst -> Prop) : wf s -> arg_ok src1 w1 -> arg_ok src2 w2 ->
  1 <= tmp <= 23 \/ tmp = 25 \/ tmp = 26 -> (tmp <> 26 -> is_mem src1 = false /\ src1_r <> 25) -> (tmp <= 23 -> src1_r = 0) ->
  0 <= src1_r <= 23 \/ src1_r = 25 -> (is_mem src1 = true -> src1_r = 25) ->
  (forall s1, wf s1 -> keeps s s1 [25; 26; 27; tmp] -> (25 <= tmp -> cache_ok (snd (op_slow c ld src1_r tmp dst dstw src1 w1 src2 w2 no_cache)) s1) ->
    (if is_slow src1 w1 then rd s1 25 = lval s ld src1 w1 else rd s1 src1_r = rd s src1_r) ->
    (if is_slow src2 w2 then rd s1 tmp = lval s ld src2 w2 else rd s1 tmp = rd s tmp) -> P s1) ->
  ok (fst (op_slow c ld src1_r tmp dst dstw src1 w1 src2 w2 no_cache)) s P.
Proof.
  intros W A1 A2 T1 T2 T3 R1 R2 H. unfold op_slow in *.
  assert (K0 : cache_ok no_cache s) by exact I.
  destruct (is_slow src1 w1) eqn:S1, (is_slow src2 w2) eqn:S2; cbn [andb] in *.
  - destruct src1 as [r| |b1 o1]; try discriminate. destruct src2 as [r| |b2 o2]; try discriminate. cbn [is_mem] in *.
    assert (tmp = 26). { destruct (Z.eq_dec tmp 26) as [E|N]; auto. destruct (T2 N). discriminate. } subst tmp.
    unfold TMP_REG1, TMP_REG2 in *. cbn [arg_ok getput_a lval] in *. unfold getput_a in *.
    destruct (is_slow dst dstw && negb (can_cache_a (AMem b2 o2) w2 (AMem b1 o1) w1) && can_cache_a (AMem b2 o2) w2 dst dstw).
    + match goal with |- context [getput_arg c false ld 25 b1 o1 w1 ?n no_cache] => set (n1 := n) in * end.
      destruct (getput_arg c false ld 25 b1 o1 w1 n1 no_cache) as [e1 k1] eqn:G1.
      match goal with |- context [getput_arg c true ld 26 b2 o2 w2 ?n k1] => set (n2 := n) in * end.
      destruct (getput_arg c true ld 26 b2 o2 w2 n2 k1) as [e2 k2] eqn:G2. cbn [fst snd] in *.
      apply ok_then. replace e1 with (fst (getput_arg c false ld 25 b1 o1 w1 n1 no_cache)) by (rewrite G1; auto).
      apply getput_load; auto; try vl. intros s1 k' -> Ws1 K1 V1 C1. rewrite G1 in C1. cbn [snd] in C1.
      replace e2 with (fst (getput_arg c true ld 26 b2 o2 w2 n2 k1)) by (rewrite G2; auto).
      apply getput_load; auto; try vl. { apply C1. lia. } intros s2 k' -> Ws2 K2 V2 C2. rewrite G2 in C2. cbn [snd] in C2.
      apply H; auto.
      * eapply keeps_tr; [exact K1|exact K2|incls|incls].
      * intros _. apply C2. lia.
      * rewrite (keeps_rd _ _ _ 25 K2); [exact V1|vl|cbn; lia].
      * rewrite V2. exact (lval_keeps s s1 ld (AMem b2 o2) w2 _ A2 K1 ltac:(cbn; lia)).
    + match goal with |- context [getput_arg c false ld 26 b2 o2 w2 ?n no_cache] => set (n2 := n) in * end.
      destruct (getput_arg c false ld 26 b2 o2 w2 n2 no_cache) as [e2 k2] eqn:G2.
      match goal with |- context [getput_arg c false ld 25 b1 o1 w1 ?n k2] => set (n1 := n) in * end.
      destruct (getput_arg c false ld 25 b1 o1 w1 n1 k2) as [e1 k1] eqn:G1. cbn [fst snd] in *.
      apply ok_then. replace e2 with (fst (getput_arg c false ld 26 b2 o2 w2 n2 no_cache)) by (rewrite G2; auto).
      apply getput_load; auto; try vl. intros s1 k' -> Ws1 K1 V1 C1. rewrite G2 in C1. cbn [snd] in C1.
      replace e1 with (fst (getput_arg c false ld 25 b1 o1 w1 n1 k2)) by (rewrite G1; auto).
      apply getput_load; auto; try vl. { apply C1. lia. } intros s2 k' -> Ws2 K2 V2 C2. rewrite G1 in C2. cbn [snd] in C2.
      apply H; auto.
      * eapply keeps_tr; [exact K1|exact K2|incls|incls].
      * intros _. apply C2. lia.
      * rewrite V2. exact (lval_keeps s s1 ld (AMem b1 o1) w1 _ A1 K1 ltac:(cbn; lia)).
      * rewrite (keeps_rd _ _ _ 26 K2); [exact V1|vl|cbn; lia].
  - destruct src1 as [r| |b1 o1]; try discriminate. cbn [is_mem] in *.
    assert (tmp = 26). { destruct (Z.eq_dec tmp 26) as [E|N]; auto. destruct (T2 N). discriminate. } subst tmp.
    unfold TMP_REG1 in *. cbn [getput_a] in *. apply getput_load; auto; try vl. intros s1 k' -> Ws1 K1 V1 C1. apply H; auto.
    + eapply keeps_incl; [|exact K1]. incls.
    + intros _. apply C1. lia.
    + rewrite (keeps_rd _ _ _ 26 K1); [auto|vl|cbn; lia].
  - destruct src2 as [r| |b2 o2]; try discriminate. unfold TMP_REG1 in *. cbn [getput_a] in *. apply getput_load; auto; try vl.
    intros s1 k' -> Ws1 K1 V1 C1. apply H; auto.
    + eapply keeps_incl; [|exact K1]. destruct (src1_r =? 25); incls.
    + intros T. apply C1. lia.
    + destruct (Z.eq_dec src1_r 25) as [E|N].
      * rewrite E in *. cbn [Z.eqb Pos.eqb] in K1. assert (tmp = 26) by (destruct (Z.eq_dec tmp 26) as [|N]; auto; destruct (T2 N); lia). subst tmp.
        apply (keeps_rd _ _ _ _ K1); [vl|cbn; lia].
      * apply (keeps_rd _ _ _ _ K1); [vl|]. cbn [In]. destruct (src1_r =? 25); lia.
  - cbn [fst snd] in *. apply ok_nop. apply H; auto. apply keeps_refl.
Qed.

(** All operands. *)
Lemma operands_ok s tmp i2 imm dst dstw src1 w1 src2 w2 (P : mst -> Prop) :
  let src1_r := snd (op_src1 c ld src1 w1) in
  let src2_r := snd (op_src2 c ld i2 imm tmp src2 w2) in
  wf s -> arg_ok src1 w1 -> arg_ok src2 w2 -> (i2 = true -> src2 = AImm) ->
  1 <= tmp <= 23 \/ tmp = 25 \/ tmp = 26 -> (tmp <> 26 -> is_reg src1 = true) -> (tmp <= 23 -> src1 = AReg 0) ->
  (forall s1, wf s1 -> keeps s s1 [25; 26; 27; tmp] -> (25 <= tmp -> cache_ok (snd (op_slow c ld src1_r tmp dst dstw src1 w1 src2 w2 no_cache)) s1) ->
    rd s1 src1_r = lval s ld src1 w1 -> (i2 = false -> rd s1 src2_r = lval s ld src2 w2) -> P s1) ->
  ok (fst (op_src1 c ld src1 w1)) s (fun s1 => ok (fst (op_src2 c ld i2 imm tmp src2 w2)) s1 (fun s2 =>
    ok (fst (op_slow c ld src1_r tmp dst dstw src1 w1 src2 w2 no_cache)) s2 P)).
Proof.
  intros src1_r src2_r W A1 A2 I T1 T2 T3 H.
  assert (R1 : 0 <= src1_r <= 23 \/ src1_r = 25).
  { unfold src1_r. destruct src1 as [r| |b o]; cbn in *; unfold TMP_REG1, TMP_ZERO; try lia. destruct (w1 =? 0); cbn; lia. }
  assert (R2 : is_mem src1 = true -> src1_r = 25). { unfold src1_r. destruct src1; cbn; try discriminate. auto. }
  assert (R3 : is_reg src1 = true -> is_mem src1 = false /\ src1_r <> 25).
  { unfold src1_r. destruct src1; cbn in *; try discriminate. intros _. split; auto. lia. }
  assert (R4 : src1 = AReg 0 -> src1_r = 0). { unfold src1_r. intros ->. reflexivity. }
  assert (R5 : tmp <= 23 -> src1_r = 0) by auto.
  apply src1_ok; auto. intros s1 W1 K1 V1. fold src1_r in V1.
  apply src2_ok; auto; try vl. intros s2 W2 K2 N2 V2. fold src2_r in V2.
  rewrite (lval_keeps s s1 ld src2 w2 _ A2 K1 ltac:(cbn; lia)) in V2.
  apply slow_ok; auto. intros s3 W3 K3 C3 V3 V4.
  assert (K12 : keeps s s2 [25; 27; tmp]). { eapply keeps_tr; [exact K1|exact K2|incls|incls]. }
  apply H; auto.
  - eapply keeps_tr; [exact K12|exact K3|incls|incls].
  - destruct (is_slow src1 w1) eqn:S1.
    + destruct src1 as [r| |b o]; try discriminate. unfold src1_r. cbn [op_src1 snd]. unfold TMP_REG1. rewrite V3.
      assert (tmp = 26) by (destruct (Z.eq_dec tmp 26) as [|N]; auto; specialize (T2 N); discriminate). subst tmp.
      apply (lval_keeps s s2 ld _ w1 [25; 27; 26]); auto. cbn; lia.
    + rewrite V3. rewrite <- V1 by auto. apply (keeps_rd _ _ _ _ K2); [vl|]. cbn [In].
      destruct (Z.eq_dec src1_r 25) as [E|N]; [|clearbody src1_r; lia]. assert (tmp = 26); [|clearbody src1_r; lia].
      destruct (Z.eq_dec tmp 26) as [|N]; auto. destruct (R3 (T2 N)). lia.
  - intros Fi. destruct (is_slow src2 w2) eqn:S2.
    + destruct src2 as [r| |b o]; try discriminate. unfold src2_r. cbn [op_src2 snd]. rewrite V4.
      destruct (Z_le_gt_dec tmp 23) as [L|G].
      * assert (src1 = AReg 0) by (apply T3; lia). subst src1. cbn [lval].
        rewrite (N2 eq_refl). exact (lval_keeps s s1 ld (AMem b o) w2 _ A2 K1 ltac:(cbn; lia)).
      * apply (lval_keeps s s2 ld _ w2 [25; 27; tmp]); auto. cbn; lia.
    + rewrite <- V2 by auto. unfold src2_r. destruct src2 as [r| |b o]; cbn [op_src2 snd arg_ok] in *; auto.
      * destruct (Z.eq_dec r tmp) as [->|N]; auto. apply (keeps_rd _ _ _ _ K3); [vl|cbn; lia].
      * rewrite Fi. destruct (w2 =? 0); cbn [negb snd]; auto.
Qed.
End A.

(** The destination. *)
Lemma dst_ok c s fl dst_r dst dstw k (P : mst -> Prop) : wf s -> 0 <= fl < 16 -> fl .& LOAD_DATA = 0 -> vreg dst_r -> dst_r <> 25 -> dst_r <> 27 ->
  match dst with AMem b o => mem_legal b o dstw /\ cache_ok k s | _ => True end ->
  (forall s', match dst with
     | AMem b o => mem s' = store (mem s) (addr s b o dstw) (rd s dst_r) (bytes (fsize fl)) /\ fregs s' = fregs s /\
         forall r, vreg r -> r <> 25 -> r <> 27 -> rd s' r = rd s r
     | _ => s' = s end -> P s') ->
  ok (fst (op_dst c fl dst_r dst dstw k)) s P.
Proof.
  intros W F L R N5 N7 D H. destruct dst as [r| |b o]; cbn [op_dst fst] in *; try (apply ok_nop; apply H; auto).
  destruct D as (D & K).
  assert (S : forall s1 A, access fl dst_r A s1 = setm s1 (store (mem s1) A (rd s1 dst_r) (bytes (fsize fl)))).
  { intros. unfold access. replace (fl .& LOAD_DATA =? 0) with true by lia. reflexivity. }
  destruct (fast_ok o dstw) eqn:E; cbn [fst].
  - eapply fast_acc; eauto; try lia. rewrite S. apply H. repeat split; auto.
  - eapply ok_mono. { apply (getput_ok c fl dst_r s F R); auto. }
    cbv beta. intros s' (s1 & (K1 & K2 & K3 & K4) & C1 & ->). rewrite S. apply H. cbn [setm mem fregs]. rewrite K1, K2, (K4 dst_r) by (auto; cbn; lia). split; [auto|]. split; [auto|].
    intros r Hr A B. rewrite rd_setm. apply K4; auto. cbn. lia.
Qed.
