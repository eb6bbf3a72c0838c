(** sljit_emit_op2, op2u, op2r for the operands of the user, and operands for which the code is wrong. *)
Require Import ZArith List Bool Lia.
From Verif Require Import Rv.RvLib Rv.RvIsa Rv.RvMem Rv.RvMemProofs Rv.RvOp Rv.RvLir Rv.RvCond Rv.RvCondSpec Rv.RvEmitOp1 X86.X86Isa X86.X86Emit X86.X86Spec X86.X86Enc X86.X86EncTop X86.X86OpSpec X86.X86Op X86.X86Cond X86.X86Ins X86.X86Ins2 X86.X86Mov X86.X86Bin X86.X86Mul X86.X86Shift X86.X86Op2 X86.X86Op2Top.
Import ListNotations.
Ltac Zify.zify_post_hook ::= idtac.
Open Scope Z_scope.

(** ** Execution is deterministic *)
Lemma steps_end : forall u l s s1 s2, steps u l s [] s1 -> steps u l s [] s2 -> s1 = s2.
Proof.
  intros u l s s1 s2 A B. remember [] as e eqn:E. revert B. induction A as [l s|l s l1 s1' l2 s2' ST A IH]; intros B.
  - subst l. inversion B as [|? ? ? ? ? ? ST]; [reflexivity|]. discriminate ST.
  - subst l2. inversion B as [|? ? ? ? ? ? ST']; subst.
    + discriminate ST.
    + rewrite ST in ST'. injection ST' as <- <-. apply IH; auto.
Qed.
Lemma run_steps : forall u k l s s1, run u k l s = Some s1 -> steps u l s [] s1.
Proof.
  intros u k. induction k as [|k IH]; intros l s s1 H; destruct l as [|b l]; cbn [run] in H; try discriminate; try (injection H as <-; apply steps_refl).
  destruct (step u (b :: l) s) as [(l1 & s2)|] eqn:E; [|discriminate]. eapply steps_one; [exact E|]. apply IH. exact H.
Qed.
Lemma does_run : forall u c s P k s1, does u c s P -> (match c with Some l => run u k l s | None => Some s end) = Some s1 -> P s1.
Proof.
  intros u c s P k s1 (l & -> & s' & R & H & _) E. apply run_steps in E. specialize (R []). rewrite app_nil_r in R.
  rewrite (steps_end _ _ _ _ _ E R). exact H.
Qed.

(** ** User operands *)
Definition legal2 (D : arg) (Dw : Z) (S1 : arg) (S1w : Z) (S2 : arg) (S2w : Z) : Prop := xdst_legal D Dw /\ xsrc_legal S1 S1w /\ xsrc_legal S2 S2w.
Definition carry_known (k : op2k) (s : xst) (c : bool) : Prop := match k with O_ADDC | O_SUBC => xcf s = Some c | _ => True end.
Definition does_op2 (u : Z) (w : bool) (o : op) (k : op2k) (c : bool) (D : arg) (Dw : Z) (S1 : arg) (S1w : Z) (S2 : arg) (S2w : Z) (s : xst) : Prop :=
  let n := nbits (f32 o) in
  does u (emit_op2 w o k D Dw S1 S1w S2 S2w) s (fun s' =>
    wrote w n TMPS s D Dw (res2 k n (xval w n s S1 S1w) (xval w n s S2 S2w) c) s' /\ conds (requested o) k n (xval w n s S1 S1w) (xval w n s S2 S2w) c s').
Lemma op2_user : forall u w o k c D Dw S1 S1w S2 S2w s, legal2 D Dw S1 S1w S2 S2w -> flags_legal k (setz o) (vf o) ->
  op2_bad o k D S1 S1w S2 S2w = false -> carry_known k s c -> xwf s -> does_op2 u w o k c D Dw S1 S1w S2 S2w s.
Proof.
  intros u w o k c D Dw S1 S1w S2 S2w s (LD & L1 & L2) FL NB CK W. unfold does_op2. apply (op2_ok u w (f32 o)); auto.
  - left. exact LD.
  - intros [-> | ->]; exact CK.
Qed.
Definition op2u_bad (k : op2k) (S2 : arg) (S2w : Z) : bool :=
  match k with O_SHL | O_MSHL | O_LSHR | O_MLSHR | O_ASHR | O_MASHR | O_ROTL | O_ROTR => far S2 S2w | _ => false end.
Definition does_op2u (u : Z) (w : bool) (o : op) (k : op2k) (c : bool) (S1 : arg) (S1w : Z) (S2 : arg) (S2w : Z) (s : xst) : Prop :=
  let n := nbits (f32 o) in
  does u (emit_op2u w o k S1 S1w S2 S2w) s (fun s' =>
    (xm s' = xm s /\ regs_same w TMPS s s') /\ conds (requested o) k n (xval w n s S1 S1w) (xval w n s S2 S2w) c s').
Lemma op2u_user : forall u w o k c S1 S1w S2 S2w s, xsrc_legal S1 S1w -> xsrc_legal S2 S2w -> flags_legal k (setz o) (vf o) ->
  op2u_bad k S2 S2w = false -> carry_known k s c -> xwf s -> does_op2u u w o k c S1 S1w S2 S2w s.
Proof.
  intros u w o k c S1 S1w S2 S2w s L1 L2 FL NB CK W. unfold does_op2u. change (nbits (f32 o)) with (size_of (f32 o)). cbv zeta.
  assert (X : inr (f32 o) (xval w (size_of (f32 o)) s S1 S1w)) by (apply xval_range; exact W).
  assert (Y : inr (f32 o) (xval w (size_of (f32 o)) s S2 S2w)) by (apply xval_range; exact W).
  assert (DEP : depends S2 15 = false).
  { pose proof (src_not_tmp _ _ 15 L2 (or_introl eq_refl)) as N. destruct S2 as [r| |b oo]; try reflexivity. unfold depends, uses in *. simpl in N.
    destruct (Z.eqb_spec b 15), (Z.eqb_spec oo 15); try reflexivity; exfalso; apply N; auto. }
  assert (GEN : does u (emit_op2 w o k (AReg TMP_REG1) 0 S1 S1w S2 S2w) s (fun s' =>
    (xm s' = xm s /\ regs_same w TMPS s s') /\ conds (requested o) k (size_of (f32 o)) (xval w (size_of (f32 o)) s S1 S1w) (xval w (size_of (f32 o)) s S2 S2w) c s')).
  { eapply does_conseq; [apply (op2_ok u w (f32 o)) with (c := c); auto|].
    - right. split; reflexivity.
    - unfold op2_bad, mul_bad, dep_bad, shift_bad. cbn [is_reg reg_of arg_eqb]. unfold TMP_REG1. rewrite DEP. destruct k; rewrite ?andb_false_r; try reflexivity; cbn [op2u_bad] in NB; rewrite NB; reflexivity.
    - intros [-> | ->]; exact CK.
    - intros s' _ (A & B). split; [|exact B]. destruct A as (_ & A1 & A2). split; [exact A1|]. eapply regs_weaken; [exact A2|]. intros q [Q|Q]; [left; exact Q|exact Q]. }
  destruct k; try exact GEN.
  - cbn [emit_op2u]. eapply does_conseq; [apply cmp_ok with (c := c); auto|].
    + apply src_sok; exact L1.
    + intros ->. simpl in L1. unfold xureg, TMP_REG2 in L1. lia.
    + intros r ->. apply L1.
    + intros s' _ (A & B). split; [exact A|]. apply (conds_weaken _ (fun _ => True)); [|auto]. apply sub_conds; auto.
  - cbn [emit_op2u]. eapply does_conseq; [apply testb_ok with (c := c); auto|].
    intros s' _ (A & B). split; [exact A|]. apply alu_conds; auto.
Qed.
Definition does_muladd (u : Z) (w is32 : bool) (d : Z) (S1 : arg) (S1w : Z) (S2 : arg) (S2w : Z) (s : xst) : Prop :=
  let n := nbits is32 in
  does u (emit_muladd w is32 d S1 S1w S2 S2w) s (fun s' =>
    wrote w n TMPS s (AReg d) 0 (xval w n s (AReg d) 0 + xval w n s S1 S1w * xval w n s S2 S2w) s').
Lemma muladd_user : forall u w is32 d S1 S1w S2 S2w s, xureg d -> xsrc_legal S1 S1w -> xsrc_legal S2 S2w -> xwf s -> does_muladd u w is32 d S1 S1w S2 S2w s.
Proof.
  intros u w is32 d S1 S1w S2 S2w s U L1 L2 W. unfold does_muladd. change (nbits is32) with (size_of is32). cbv zeta. unfold emit_muladd. unfold xureg in U.
  assert (DEP : depends S2 15 = false).
  { pose proof (src_not_tmp _ _ 15 L2 (or_introl eq_refl)) as N. destruct S2 as [r| |b oo]; try reflexivity. unfold depends, uses in *. simpl in N.
    destruct (Z.eqb_spec b 15), (Z.eqb_spec oo 15); try reflexivity; exfalso; apply N; auto. }
  eapply does_seq; [apply mul_ok; auto|].
  - right. split; reflexivity.
  - unfold mul_bad, dep_bad. cbn [is_reg reg_of]. unfold TMP_REG1. rewrite DEP, andb_false_r. reflexivity.
  - intros s1 W1 (A & _). destruct (wrote_reg_only _ _ _ _ _ _ _ _ A) as (A1 & A2).
    assert (O : only w TMPS s s1) by (eapply only_weaken; [exact A1|]; intros q [Q|Q]; [left; exact Q|exact Q]).
    eapply does_conseq; [apply (alu_mr_ok u w is32 Add) with (c := false); [discriminate|split; [unfold TMP_REG1; lia|discriminate]|apply sok_gop; [simpl; lia|reflexivity]|exact W1|intros Q; discriminate]|].
    intros s2 _ (B & _). unfold alu_val in B. cbn [alu_res fst] in B.
    assert (D : xval w (size_of is32) s1 (AReg d) 0 = xval w (size_of is32) s (AReg d) 0).
    { cbn [xval]. rewrite (reg_keep _ _ _ _ _ O); [reflexivity|lia|]. unfold TMPS. simpl. lia. }
    rewrite D in B. eapply wrote_val; [eapply reg_after; [exact O| | |exact B]|].
    + intros q Q. right. exact Q.
    + intros q [].
    + rewrite A2. rewrite Z.mod_mod by apply pow2n. apply add_mods; [reflexivity|]. rewrite Z.mod_mod by apply pow2n.
      unfold imul_val. rewrite Z.mul_mod, !sext_mod_eq, <- Z.mul_mod by apply pow2n. reflexivity.
Qed.

(** ** Wrong code *)
(** A state: R0 = 0x1000, R1 = 7, R3 = 2, rdx = 9 (a temporary or R2, by the ABI), the others 0; every byte of the memory is 3. *)
Definition demo : xst :=
  mkX (fun q => if q =? 0 then 0x1000 else if q =? 6 then 7 else if q =? 2 then 9 else if q =? 1 then 2 else 0) (Some false) (Some false) (Some false) (Some false) (fun _ => 3).
Lemma demo_wf : xwf demo.
Proof. intros r. unfold demo, isw. cbn [xr]. repeat match goal with |- context [if ?b then _ else _] => destruct b end; vm_compute; split; congruence. Qed.
Ltac legal := unfold xdst_legal, xsrc_legal, xmem_legal, xureg; lia.
(** The same with 5 in the bytes below 0x1000; and with the number 7 at 0x1000 and above. *)
Definition demo5 : xst := setmem demo (fun a => if 0x1000 <=? a then 3 else 5).
Lemma demo5_wf : xwf demo5. Proof. intros r. exact (demo_wf r). Qed.
Definition demo7 : xst := setmem demo (fun a => if a =? 0x1000 then 7 else 0).
Lemma demo7_wf : xwf demo7. Proof. intros r. exact (demo_wf r). Qed.

(** ** The parts *)
Lemma op2_results : forall u w o k c D Dw S1 S1w S2 S2w s,
  legal2 D Dw S1 S1w S2 S2w -> flags_legal k (setz o) (vf o) -> op2_bad o k D S1 S1w S2 S2w = false -> carry_known k s c -> xwf s ->
  let n := nbits (f32 o) in
  does u (emit_op2 w o k D Dw S1 S1w S2 S2w) s (fun s' => wrote w n TMPS s D Dw (res2 k n (xval w n s S1 S1w) (xval w n s S2 S2w) c) s').
Proof. intros. eapply does_conseq; [apply op2_user with (c := c); assumption|]. intros s' _ (A & _). exact A. Qed.
Lemma op2_conditions : forall u w o k c D Dw S1 S1w S2 S2w s,
  legal2 D Dw S1 S1w S2 S2w -> flags_legal k (setz o) (vf o) -> op2_bad o k D S1 S1w S2 S2w = false -> carry_known k s c -> xwf s ->
  let n := nbits (f32 o) in
  does u (emit_op2 w o k D Dw S1 S1w S2 S2w) s (fun s' =>
    forall t, ctype t -> requested o t -> cond_val s' (jump_code t - 0x80) = Some (cond t k n (xval w n s S1 S1w) (xval w n s S2 S2w) c)).
Proof. intros. eapply does_conseq; [apply op2_user with (c := c); assumption|]. intros s' _ (_ & A). exact A. Qed.
Lemma op2u_results : forall u w o k c S1 S1w S2 S2w s,
  xsrc_legal S1 S1w -> xsrc_legal S2 S2w -> flags_legal k (setz o) (vf o) -> op2u_bad k S2 S2w = false -> carry_known k s c -> xwf s ->
  does u (emit_op2u w o k S1 S1w S2 S2w) s (fun s' => xm s' = xm s /\ regs_same w TMPS s s').
Proof. intros. eapply does_conseq; [apply op2u_user with (c := c); assumption|]. intros s' _ (A & _). exact A. Qed.
Lemma op2u_conditions : forall u w o k c S1 S1w S2 S2w s,
  xsrc_legal S1 S1w -> xsrc_legal S2 S2w -> flags_legal k (setz o) (vf o) -> op2u_bad k S2 S2w = false -> carry_known k s c -> xwf s ->
  let n := nbits (f32 o) in
  does u (emit_op2u w o k S1 S1w S2 S2w) s (fun s' =>
    forall t, ctype t -> requested o t -> cond_val s' (jump_code t - 0x80) = Some (cond t k n (xval w n s S1 S1w) (xval w n s S2 S2w) c)).
Proof. intros. eapply does_conseq; [apply op2u_user with (c := c); assumption|]. intros s' _ (_ & A). exact A. Qed.
Lemma op2_wrong :
  (legal2 (AReg 1) 0 (AReg 2) 0 (AMem 1 0) 0 /\ legal2 (AMem 1 0) 0 (AReg 2) 0 (AMem 1 0) (2 ^ 40) /\ xwf demo /\ xwf demo5)
  /\ ~ does 0 (emit_op2 false (mkOp (K2 O_ADD) true false VNone) O_ADD (AReg 1) 0 (AReg 2) 0 (AMem 1 0) 0) demo5
       (fun s' => wrote false 32 TMPS demo5 (AReg 1) 0 (res2 O_ADD 32 (xval false 32 demo5 (AReg 2) 0) (xval false 32 demo5 (AMem 1 0) 0) false) s')
  /\ ~ does 0 (emit_op2 false (mkOp (K2 O_MUL) false false VNone) O_MUL (AReg 1) 0 (AReg 2) 0 (AMem 1 0) 0) demo
       (fun s' => wrote false 64 TMPS demo (AReg 1) 0 (res2 O_MUL 64 (xval false 64 demo (AReg 2) 0) (xval false 64 demo (AMem 1 0) 0) false) s')
  /\ ~ does 0 (emit_op2 false (mkOp (K2 O_MSHL) false false VNone) O_MSHL (AMem 1 0) 0 (AReg 2) 0 (AMem 1 0) (2 ^ 40)) demo
       (fun s' => wrote false 64 TMPS demo (AMem 1 0) 0 (res2 O_MSHL 64 (xval false 64 demo (AReg 2) 0) (xval false 64 demo (AMem 1 0) (2 ^ 40)) false) s')
  /\ ~ does 0 (emit_op2u false (mkOp (K2 O_MSHL) false true VNone) O_MSHL (AReg 2) 0 (AMem 1 0) (2 ^ 40)) demo
       (fun s' => xm s' = xm demo /\ regs_same false TMPS demo s').
Proof.
  split; [split; [unfold legal2; legal|split; [unfold legal2; legal|split; [exact demo_wf|exact demo5_wf]]]|].
  split; [|split; [|split]]; intros H; eapply does_run with (k := 9%nat) in H; try (vm_compute; reflexivity).
  - destruct H as (H & _). vm_compute in H. discriminate.
  - destruct H as (H & _). vm_compute in H. discriminate.
  - destruct H as (_ & H). specialize (H 4 ltac:(lia) ltac:(unfold TMPS; simpl; lia)). vm_compute in H. discriminate.
  - destruct H as (_ & H). specialize (H 4 ltac:(lia) ltac:(unfold TMPS; simpl; lia)). vm_compute in H. discriminate.
Qed.
Lemma conditions_wrong :
  legal2 (AReg 1) 0 (AReg 2) 0 (AMem 1 0) 0 /\ xwf demo7 /\ flags_legal O_SUB true VNone /\
  ~ does 0 (emit_op2 false (mkOp (K2 O_SUB) true true VNone) O_SUB (AReg 1) 0 (AReg 2) 0 (AMem 1 0) 0) demo7
      (fun s' => forall t, ctype t -> requested (mkOp (K2 O_SUB) true true VNone) t ->
        cond_val s' (jump_code t - 0x80) = Some (cond t O_SUB 32 (xval false 32 demo7 (AReg 2) 0) (xval false 32 demo7 (AMem 1 0) 0) false)).
Proof.
  split; [unfold legal2; legal|]. split; [exact demo7_wf|]. split; [exact I|].
  intros H. eapply does_run with (k := 9%nat) in H; [|vm_compute; reflexivity]. specialize (H 0 ltac:(unfold ctype; lia) eq_refl). vm_compute in H. discriminate.
Qed.
