(** Operations followed by a use of their flags. *)
Require Import ZArith List Bool Lia Zify ZifyBool.
From Verif Require Import Rv.RvLib Rv.RvBits Rv.RvIsa Rv.RvEnc Rv.RvImm Rv.RvRun Rv.RvImmProofs Rv.RvAddr Rv.RvAddrProofs Rv.RvCtl Rv.RvWf Rv.RvMem Rv.RvRunMem Rv.RvOp Rv.RvLir Rv.RvCanon Rv.RvOpLib Rv.RvSx Rv.RvMemProofs Rv.RvEmitOp Rv.RvEmitOp2 Rv.RvEmitOp1 Rv.RvLink Rv.RvLinkExec Rv.RvLinkApi Rv.RvLinkSpec Rv.RvOpTop Rv.RvCond Rv.RvCondSpec Rv.RvCondProofs Rv.RvCmp Rv.RvSelect.
Import ListNotations.
Open Scope Z_scope.
Ltac Zify.zify_post_hook ::= idtac.

(** The conditions of [C16_op2]: a legal operation in a legal state, without the cases of C16_overflow_refuted and C17_carry_refuted. *)
Definition op2_legal (c : cfg) (k : op2k) (is32 setz : bool) (v : vflag) (s : mst) (cin : bool) (dst : arg) (dstw : Z) (src1 : arg) (w1 : Z) (src2 : arg) (w2 : Z) : Prop :=
  let n := if is32 then 32 else 64 in
  wf s /\ (dst = AReg 0 \/ dst_legal dst dstw) /\ src_legal src1 w1 /\ src_legal src2 w2 /\ in_format s n src1 /\ in_format s n src2 /\
  flags_legal k setz v /\ (k = O_ADDC \/ k = O_SUBC -> rd s OTHER_FLAG = b2z cin) /\
  (k = O_ADD \/ k = O_SUB -> cC c = true -> v = VOverflow -> bad_overflow n src1 w1 src2 w2 = false) /\
  (k = O_ADD \/ k = O_ADDC -> v = VCarry -> bad_carry n dst src1 w1 src2 w2 = false).

Lemma same_rd s s' w q : same_but s s' w -> vreg q -> (forall r, In r w -> vreg r) -> ~ In q w -> rd s' q = rd s q.
Proof.
  intros (_ & _ & H) V Vw N. unfold rd. apply H; [apply reg_map_range; auto|]. intros I. apply in_map_iff in I as (r & E & I). apply N. replace q with r; auto. apply Z.eqb_eq. rewrite <- reg_map_eqb; auto. apply Z.eqb_eq. exact E.
Qed.

Section T.
Variables (c : cfg) (k : op2k) (is32 setz : bool) (v : vflag) (s : mst) (cin : bool) (dst : arg) (dstw : Z) (src1 : arg) (w1 : Z) (src2 : arg) (w2 : Z) (t : Z).
Let o := mkOp (K2 k) is32 setz v.
Let n := nbits is32.
Let m := if is32 then 4%nat else 8%nat.
Let x := argval s m src1 w1.
Let y := argval s m src2 w2.
Hypothesis (L : op2_legal c k is32 setz v s cin dst dstw src1 w1 src2 w2) (T : ctype t) (R : requested o t).

Lemma op2_cond : ok (emit_op2 c o dst dstw src1 w1 src2 w2) s (fun s' => wf s' /\
  dest s s' m dst dstw (canon n (res2 k n x y cin)) /\ exists z b, flags_for t (is_mul k) s' z b /\ holds t z b = cond t k n x y cin).
Proof.
  destruct L as (W & D & L1 & L2 & F1 & F2 & Fl & Ci & B1 & B2). apply ok_wfP; auto. eapply ok_mono.
  - apply (emit_op2_ok c o k s cin dst dstw src1 w1 src2 w2); auto.
    + unfold dst_okp. destruct D as [->|D]; [lia|]. destruct dst; cbn in *; unfold ureg, NREGS in *; lia || auto.
    + intros Hk. apply Ci. destruct k; cbn in Hk; try discriminate; auto.
  - cbv zeta. intros s' (A & B) W'. split; auto. split; [exact A|]. do 2 eexists. split; [apply flags_for_op; [exact R|exact T|exact B]|].
    apply (holds_cond o); auto.
Qed.
Lemma mul_type : 2 <= t -> is_mul k = true -> 10 <= t < 12.
Proof.
  intros T2 M. destruct k; try discriminate. destruct L as (_ & _ & _ & _ & _ & _ & (Z0 & V) & _). unfold requested, needs, o, ctype in *. cbn [RvOp.vf RvOp.setz] in R.
  replace (t <? 2) with false in R by lia.
  destruct (t <? 4) eqn:?, (t <? 6) eqn:?, (t <? 8) eqn:?, (t <? 10) eqn:?, (t <? 12) eqn:?; try lia; destruct V; congruence.
Qed.
Lemma mul_adds old : 10 <= t < 12 -> is_mul k = negb (adds_after old k).
Proof.
  intros T2. destruct k; cbn [is_mul adds_after negb]; auto; exfalso; destruct L as (_ & _ & _ & _ & _ & _ & V & _); unfold requested, needs, o in R; cbn [RvOp.vf flags_legal] in *;
    replace (t <? 2) with false in R by lia; replace (t <? 4) with false in R by lia; replace (t <? 6) with false in R by lia; replace (t <? 8) with false in R by lia;
    replace (t <? 10) with false in R by lia; replace (t <? 12) with true in R by lia; intuition congruence.
Qed.

Lemma op2_jump cf calls code eo g codef pos i rewr :
  program_at cf calls code eo g codef pos -> isw (xaddr code eo (pos i)) -> isw (xaddr code eo (pos (S i))) ->
  nth_error calls i = Some (KIns (flat (emit_op2 c o dst dstw src1 w1 src2 w2))) -> nth_error calls (S i) = Some (KJump (jump_jc t) rewr false) ->
  let j := next_jump (emits cf (firstn (S i) calls)) in
  let to := taddr g (nth j (targets calls) None) in
  to mod 2 = 0 -> ~ bad_abs52 to -> (is_addr (nth j (targets calls) None) -> ~ bad_b16 (jump_jc t) to (xaddr code eo (pos (S i)))) ->
  pc s = xaddr code eo (pos i) ->
  exists s', steps codef s s' /\ pc s' = (if cond t k n x y cin then to else xaddr code eo (pos (S (S i)))) /\
    dest s s' m dst dstw (canon n (res2 k n x y cin)).
Proof.
  intros Pr I0 I1 N0 N1 j to E A B PC.
  destruct (ok_in_program _ _ _ _ _ _ _ i _ _ _ Pr N0 op2_cond I0 I1 PC) as (s1 & St & W1 & D1 & z & b & Fl & Hh).
  destruct Pr as (_ & _ & Pr). destruct (Pr _ _ N1) as (_ & _ & Jp & _). fold j in Jp.
  destruct (Jp E A B (setpc s1 (xaddr code eo (pos (S i)))) eq_refl) as (s2 & S2 & P2 & _ & Sm).
  exists s2. split; [eapply steps_trans; eauto|]. split.
  - rewrite P2. replace (jc_holds (jump_jc t) (setpc s1 (xaddr code eo (pos (S i))))) with (jc_holds (jump_jc t) s1).
    + rewrite (jump_holds t (is_mul k) s1 z b) by auto. rewrite Hh. reflexivity.
    + destruct (jump_jc t); reflexivity.
  - assert (Sm' := Sm). destruct Sm' as (M & Fr & _). destruct D1 as (Df & D1). split; [rewrite Fr; exact Df|].
    assert (Q : forall q, visible q -> rd s2 q = rd s1 q). { intros q V. apply (same_rd _ _ _ _ Sm); unfold visible, ureg, NREGS, SLJIT_SP in V; [vl|unfold TMP_REG1, TMP_REG3; cbn [In]; intros; vl|unfold TMP_REG1, TMP_REG3; cbn [In]; lia]. }
    destruct L as (_ & D & _).
    destruct dst as [r| |b0 o0].
    + destruct D1 as (E1 & E2 & E3). split; [|split].
      * intros Nr. rewrite Q; auto. destruct D as [Dr|D]; [congruence|]. cbn in D. unfold visible. auto.
      * rewrite M. exact E2.
      * intros q V Nq. rewrite Q by auto. apply E3; auto.
    + destruct D1.
    + destruct D1 as (E1 & E2). split; [rewrite M; exact E1|]. intros q V. rewrite Q by auto. auto.
Qed.

(** The state is that of [dest] with the value of the condition. *)
Lemma op2_flags_mov old (mov32 : bool) d2 d2w : dst_legal d2 d2w ->
  ok (emit_op2 c o dst dstw src1 w1 src2 w2 ;; emit_op_flags c (adds_after old k) (mkOp (K1 (if mov32 then O_MOV32 else O_MOV)) false false VNone) d2 d2w t) s
    (fun s' => exists s1, dest s s1 m dst dstw (canon n (res2 k n x y cin)) /\ dest s1 s' (if mov32 then 4 else 8)%nat d2 d2w (b2z (cond t k n x y cin)) /\
       rd s' EQUAL_FLAG = rd s1 EQUAL_FLAG /\ rd s' OTHER_FLAG = rd s1 OTHER_FLAG).
Proof.
  intros D2. apply ok_then. eapply ok_mono; [apply op2_cond|]. intros s1 (W1 & D1 & z & b & Fl & Hh).
  eapply ok_mono; [apply (flags_mov_ok c (mkOp (K1 (if mov32 then O_MOV32 else O_MOV)) false false VNone) d2 d2w t (adds_after old k) (is_mul k) s1 z b); auto|].
  - intros; apply mul_adds; auto.
  - intros; apply mul_type; auto.
  - cbn [kind]. destruct mov32; auto.
  - cbv beta. intros s' (A & B & C). exists s1. split; auto. rewrite <- Hh. split; [|split; auto]. destruct mov32; exact A.
Qed.
Lemma op2_flags_op old (k2 : op2k) (f2 : bool) (setz2 : bool) d2 d2w : dst_legal d2 d2w -> logical k2 -> 
  (forall s1, dest s s1 m dst dstw (canon n (res2 k n x y cin)) -> in_format s1 (nbits f2) d2) ->
  ok (emit_op2 c o dst dstw src1 w1 src2 w2 ;; emit_op_flags c (adds_after old k) (mkOp (K2 k2) f2 setz2 VNone) d2 d2w t) s
    (fun s' => exists s1, dest s s1 m dst dstw (canon n (res2 k n x y cin)) /\
       let m2 := if f2 then 4%nat else 8%nat in let res := res2 k2 (nbits f2) (argval s1 m2 d2 d2w) (b2z (cond t k n x y cin)) false in
       dest s1 s' m2 d2 d2w (canon (nbits f2) res) /\ (setz2 = true -> (rd s' EQUAL_FLAG =? 0) = (res mod 2 ^ nbits f2 =? 0))).
Proof.
  intros D2 Lg Fm. apply ok_then. eapply ok_mono; [apply op2_cond|]. intros s1 (W1 & D1 & z & b & Fl & Hh).
  eapply ok_mono; [apply (flags_op_ok c (mkOp (K2 k2) f2 setz2 VNone) d2 d2w t (adds_after old k) (is_mul k) s1 z b) with (k := k2); auto|].
  - intros; apply mul_adds; auto.
  - intros; apply mul_type; auto.
  - cbv beta zeta. intros s' (A & B). exists s1. split; auto. rewrite <- Hh. split; [exact A|exact B].
Qed.
Lemma op2_select d a w r2 sel32 : 1 <= d <= 23 -> src_legal a w -> 1 <= r2 <= 23 -> (d = r2 -> base_safe d a w) ->
  (sel32 = true -> forall s1, dest s s1 m dst dstw (canon n (res2 k n x y cin)) -> 
     rd s1 r2 = canon 32 (rd s1 r2) /\ match a with AReg r => rd s1 r = canon 32 (rd s1 r) | AImm => True | AMem b f => load (mem s1) (addr s1 b f w) 4 < 2 ^ 31 end) ->
  ok (emit_op2 c o dst dstw src1 w1 src2 w2 ;; emit_select c t sel32 d a w r2) s
    (fun s' => exists s1, dest s s1 m dst dstw (canon n (res2 k n x y cin)) /\
       dest s1 s' 8 (AReg d) 0 (canon (nbits sel32) (if cond t k n x y cin then argval s1 (if sel32 then 4 else 8)%nat a w else rd s1 r2)) /\
       rd s' EQUAL_FLAG = rd s1 EQUAL_FLAG /\ rd s' OTHER_FLAG = rd s1 OTHER_FLAG).
Proof.
  intros Hd La Hr Bs Fm. apply ok_then. eapply ok_mono; [apply op2_cond|]. intros s1 (W1 & D1 & z & b & Fl & Hh).
  eapply ok_mono; [apply (select_ok c t sel32 (is_mul k) d a w r2 s1 z b); auto|].
  cbv beta. intros s' ((K1 & K2 & K3 & K4) & V). exists s1. split; auto. rewrite <- Hh. split.
  - split; auto. split; auto. split; auto. intros q Vq Nq. apply K4; unfold visible, ureg, NREGS, SLJIT_SP in Vq; [vl|cbn; lia].
  - split; apply K4; unfold EQUAL_FLAG, OTHER_FLAG; try vl; cbn; lia.
Qed.
End T.

(** sljit_emit_cmp in a program: the instructions and the jump. *)
Lemma cmp_jump c t (is32 : bool) src1 w1 src2 w2 s cf calls code eo g codef pos i rewr (b : bool) :
  ok (fst (emit_cmp c t is32 src1 w1 src2 w2)) s (fun s' => keeps s s' [25; 26; 27] /\ jc_holds (snd (emit_cmp c t is32 src1 w1 src2 w2)) s' = b) ->
  program_at cf calls code eo g codef pos -> isw (xaddr code eo (pos i)) -> isw (xaddr code eo (pos (S i))) ->
  nth_error calls i = Some (KIns (flat (fst (emit_cmp c t is32 src1 w1 src2 w2)))) -> nth_error calls (S i) = Some (KJump (snd (emit_cmp c t is32 src1 w1 src2 w2)) rewr false) ->
  let j := next_jump (emits cf (firstn (S i) calls)) in
  let to := taddr g (nth j (targets calls) None) in
  to mod 2 = 0 -> ~ bad_abs52 to -> (is_addr (nth j (targets calls) None) -> ~ bad_b16 (snd (emit_cmp c t is32 src1 w1 src2 w2)) to (xaddr code eo (pos (S i)))) ->
  pc s = xaddr code eo (pos i) ->
  exists s', steps codef s s' /\ pc s' = (if b then to else xaddr code eo (pos (S (S i)))) /\ same_but s s' [TMP_REG1; TMP_REG2; TMP_REG3].
Proof.
  intros O Pr I0 I1 N0 N1 j to E A B PC. set (jj := snd (emit_cmp c t is32 src1 w1 src2 w2)) in *. clearbody jj.
  destruct (ok_in_program _ _ _ _ _ _ _ i _ _ _ Pr N0 O I0 I1 PC) as (s1 & St & K1 & Hh).
  destruct Pr as (_ & _ & Pr). destruct (Pr _ _ N1) as (_ & _ & Jp & _). fold j in Jp.
  destruct (Jp E A B (setpc s1 (xaddr code eo (pos (S i)))) eq_refl) as (s2 & S2 & P2 & _ & Sm).
  exists s2. split; [eapply steps_trans; eauto|]. split.
  - rewrite P2. replace (jc_holds jj (setpc s1 (xaddr code eo (pos (S i))))) with (jc_holds jj s1) by (destruct jj; reflexivity). rewrite Hh. reflexivity.
  - apply keeps_same in K1. destruct K1 as (M1 & F1 & R1). destruct Sm as (M2 & F2 & R2). cbn [setpc mem fregs] in *. split; [congruence|]. split; [congruence|].
    intros x Hx N. rewrite R2; auto.
    + change (getr (setpc s1 ?q) x) with (getr s1 x). apply R1; auto.
    + intros I. apply N. unfold TMP_REG1, TMP_REG2, TMP_REG3 in *. cbn [map In] in *. tauto.
Qed.
