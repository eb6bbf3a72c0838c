(** Functions on x86-64: entry, return, calls. *)
Require Import ZArith List Bool Lia ZifyBool.
From Verif Require Import Rv.RvLib Rv.RvBits Rv.RvIsa Rv.RvMem Rv.RvOp Rv.RvLir Rv.RvMemProofs Rv.RvFrame Rv.RvFrameSpec Rv.RvFrameProofs Rv.RvFrameTop X86.X86Isa X86.X86Emit X86.X86Spec X86.X86Enc X86.X86EncTop X86.X86OpSpec X86.X86Op
  X86.X86Ins X86.X86Ins2 X86.X86Mov X86.X86Op1 X86.X86Cond X86.X86Link X86.X86LinkSpec X86.X86LinkOps X86.X86LinkRun X86.X86Fetch X86.X86Frame X86.X86FrameSpec X86.X86FrameBase X86.X86FrameRun X86.X86FrameArgs X86.X86FrameCall X86.X86FrameTop.
Import ListNotations.
Ltac Zify.zify_post_hook ::= idtac.
Open Scope Z_scope.
Notation enter_code w cet f := (xemit_enter w cet (options_of f) (arg_types_of f) (scratches_of f) (saveds_of f) (f_local f)).
Notation ctx_of w f := (xset_context w (options_of f) (scratches_of f) (saveds_of f) (f_local f)).

Lemma cdoes_ends : forall u c s (P : xst -> Prop), cdoes u c s P -> ends u c s (fun n pc s' => pc = n /\ P s').
Proof. intros u c s P (l & E & s' & H & W & R). exists l. split; [exact E|]. intros codef a A AL F. exists (a + zlen l), s'. auto. Qed.
Lemma body_refl : forall w f F s1, xbody w f F s1 s1. Proof. intros. repeat split; auto. Qed.
Lemma body_step : forall w f F s1 s2 t, xbody w f F s1 s2 -> xm t = xm s2 -> (forall i, xscratch_regs w < i <= 14 -> xr t (reg_map w i) = xr s2 (reg_map w i)) -> xbody w f F s1 t.
Proof.
  intros w f F s1 s2 t (A & B & C) M R. assert (X : 5 <= xscratch_regs w <= 7) by (destruct w; cbn; lia). split; [|split].
  - rewrite <- A. rewrite <- (reg_sp w). apply R. unfold SLJIT_SP. lia.
  - intros x H1 H2. rewrite M. apply B; auto.
  - intros x H1 H2. rewrite <- C by auto. destruct (callee_index w x H1) as (i & I & <-). apply R. lia.
Qed.
Lemma function_ok : forall u w cet f s exit R, xfunc_ok w f -> no_floats w f -> xwf s ->
  (forall s1 s2, xentered' w f s s1 -> xbody w f (fsz w f) s1 s2 -> xwf s2 -> ends u exit s2 (R s2)) -> xfunction_at u w f (enter_code w cet f) exit s R.
Proof.
  intros u w cet f s exit R OK NF W H. destruct (enter_ok u w cet f OK NF s W) as (l1 & E1 & s1 & EN & W1 & R1).
  destruct (H s1 s1 EN (body_refl _ _ _ _) W1) as (l2 & E2 & _). exists l1, l2. split; [exact E1|]. split; [exact E2|]. intros codef a b A AL B BL FA FB.
  exists (fsz w f), s1. split; [apply R1; auto|]. split; [exact W1|]. split; [apply EN|]. intros s2 W2 BO. destruct (H s1 s2 EN BO W2) as (l2' & E2' & X). rewrite E2 in E2'. injection E2' as <-.
  destruct (X codef b B BL FB) as (pc & s3 & X1 & X2 & X3). exists pc, s3. auto.
Qed.
Lemma void_at : forall u w cet f s, xfunc_ok w f -> no_floats w f -> xwf s ->
  xfunction_at u w f (enter_code w cet f) (xreturn_void w (ctx_of w f)) s (fun s2 _ pc s3 => pc = return_address s /\ xr s3 4 = wrap (xr s 4 + 8) /\ xleft w f s s2 s3).
Proof. intros u w cet f s OK NF W. apply function_ok; auto. intros s1 s2 EN B W2. exact (return_void_ok u w f OK NF s W s1 s2 EN B W2). Qed.
Lemma return_at : forall u w cet lz tz cmov is32 f k src srcw s, xfunc_ok w f -> no_floats w f -> xwf s -> is_mov k = true -> xsrc_legal src srcw ->
  xfunction_at u w f (enter_code w cet f) (xreturn w lz tz cmov is32 (ctx_of w f) k src srcw) s (fun s2 _ pc s3 =>
    (exists r, res1 k (n1 k is32) (xval w (8 * sz1 k is32) s2 src srcw) r /\ xr s3 0 mod 2 ^ n1 k is32 = r mod 2 ^ n1 k is32) /\
    pc = return_address s /\ xr s3 4 = wrap (xr s 4 + 8) /\ xrestored w f s s2 s3 /\ (forall i, 1 < i <= xscratch_regs w -> xr s3 (reg_map w i) = xr s2 (reg_map w i))).
Proof.
  intros u w cet lz tz cmov is32 f k src srcw s OK NF W MV SL. apply function_ok; auto. intros s1 s2 EN B W2. unfold xreturn.
  assert (X : 5 <= xscratch_regs w <= 7) by (destruct w; cbn; lia). assert (R0 : reg_map w 1 = 0) by (destruct w; reflexivity).
  assert (M : cdoes u (match src, k with AReg r, (O_MOV | O_MOV_P) => if r =? XR0 then Some [] else emit_op1 w lz tz cmov is32 k (AReg XR0) 0 src srcw | _, _ => emit_op1 w lz tz cmov is32 k (AReg XR0) 0 src srcw end) s2
     (fun t => exists r, res1 k (n1 k is32) (xval w (8 * sz1 k is32) s2 src srcw) r /\ xr t 0 mod 2 ^ n1 k is32 = r mod 2 ^ n1 k is32 /\ xm t = xm s2 /\ (forall i, 2 <= i <= 14 -> xr t (reg_map w i) = xr s2 (reg_map w i)))).
  { assert (OP : cdoes u (emit_op1 w lz tz cmov is32 k (AReg XR0) 0 src srcw) s2 (fun t => exists r, res1 k (n1 k is32) (xval w (8 * sz1 k is32) s2 src srcw) r /\ xr t 0 mod 2 ^ n1 k is32 = r mod 2 ^ n1 k is32 /\ xm t = xm s2 /\ (forall i, 2 <= i <= 14 -> xr t (reg_map w i) = xr s2 (reg_map w i)))).
    { apply does_cdoes. eapply does_conseq; [apply op1_ok; [split; [unfold xureg, XR0; lia|reflexivity]|split; [exact SL|congruence]|exact W2]|]. intros t _ ((r & A & B1 & _ & B2 & B3) & _). exists r. unfold XR0 in B1, B3. rewrite R0 in B1.
      split; [exact A|]. split; [exact B1|]. split; [exact B2|]. intros i I. apply B3; [lia|]. unfold TMPS. cbn [In]. lia. }
    assert (NOP : forall r, src = AReg r -> r = XR0 -> (k = O_MOV \/ k = O_MOV_P) -> cdoes u (Some []) s2 (fun t => exists r, res1 k (n1 k is32) (xval w (8 * sz1 k is32) s2 src srcw) r /\ xr t 0 mod 2 ^ n1 k is32 = r mod 2 ^ n1 k is32 /\ xm t = xm s2 /\ (forall i, 2 <= i <= 14 -> xr t (reg_map w i) = xr s2 (reg_map w i)))).
    { intros r -> -> K. apply cdoes_nil; [exact W2|]. exists (wrap (xval w (8 * sz1 k is32) s2 (AReg XR0) srcw)). unfold XR0. destruct K as [-> | ->]; cbn [res1 n1 sz1 xval]; rewrite R0; (split; [reflexivity|]; split; [|auto]); change (2 ^ (8 * 8)) with (2 ^ 64); unfold wrap;
      rewrite !Z.mod_mod by (vm_compute; discriminate); reflexivity. }
    destruct src as [r| |]; try exact OP. destruct k; try exact OP; destruct (Z.eqb_spec r XR0); try exact OP; eapply NOP; eauto. }
  eapply ends_seq; [exact M|]. intros t Wt (r & A & A0 & AM & AR).
  assert (BT : xbody w f (fsz w f) s1 t) by (eapply body_step; [exact B|exact AM|intros i I; apply AR; lia]).
  eapply ends_conseq; [exact (return_void_ok u w f OK NF s W s1 t EN BT Wt)|]. intros _ pc s3 _ (P1 & P2 & (L1 & L2 & L3) & L4). split; [exists r; split; [exact A|]; rewrite <- A0; f_equal; rewrite <- R0; apply L4; lia|].
  split; [exact P1|]. split; [exact P2|]. pose proof (sizes w f OK NF). split; [split; [exact L1|split]|].
  - intros i I. rewrite L2 by exact I. apply AR. lia.
  - congruence.
  - intros i I. rewrite L4 by lia. apply AR. lia.
Qed.
(** A value kept in a register which release and moves of arguments do not change. *)
Definition to_tmp2 (w : bool) (src : arg) (srcw : Z) (s t : xst) : Prop :=
  xr t (reg_map w TMP_REG2) = xval w 64 s src srcw /\ xm t = xm s /\ forall i, 1 <= i <= 15 -> xr t (reg_map w i) = xr s (reg_map w i).
Lemma to_tmp2_ok : forall u w src srcw s, sok src srcw -> xwf s -> cdoes u (emit_mov w false (AReg TMP_REG2) 0 src srcw) s (to_tmp2 w src srcw s).
Proof.
  intros u w src srcw s K W. apply does_cdoes. eapply does_conseq; [apply movr_ok; [unfold TMP_REG2; lia|exact K|exact W]|]. intros t _ ((M & RS) & V & _). split; [exact V|]. split; [exact M|].
  intros i I. apply RS; [lia|]. unfold ftmp, TMP_REG2. destruct (far _ _); cbn [In]; lia.
Qed.
Lemma src_sok : forall src srcw, xsrc_legal src srcw -> sok src srcw. Proof. intros [] srcw H; cbn in *; unfold xureg in *; lia || exact H. Qed.
Lemma tmp_body : forall w f F s1 s2 src srcw t, xbody w f F s1 s2 -> to_tmp2 w src srcw s2 t -> xbody w f F s1 t.
Proof. intros w f F s1 s2 src srcw t B (_ & M & R). eapply body_step; [exact B|exact M|]. intros i I. apply R. assert (5 <= xscratch_regs w) by (destruct w; cbn; lia). lia. Qed.
Lemma return_to_at : forall u w cet f src srcw s, xfunc_ok w f -> no_floats w f -> xwf s -> xsrc_legal src srcw -> is_imm src = false ->
  xfunction_at u w f (enter_code w cet f) (xreturn_to w (ctx_of w f) src srcw) s (fun s2 _ pc s3 => pc = xval w 64 s2 src srcw /\ xr s3 4 = wrap (xr s 4 + 8) /\ xleft w f s s2 s3).
Proof.
  intros u w cet f src srcw s OK NF W SL NI. apply function_ok; auto. intros s1 s2 EN B W2. unfold xreturn_to. destruct (is_mem src || restored w (ctx_of w f) src) eqn:Q.
  - eapply ends_seq; [apply to_tmp2_ok; [apply src_sok; exact SL|exact W2]|]. intros t Wt TT. pose proof (tmp_body _ _ _ _ _ _ _ _ B TT) as BT. destruct TT as (TV & TM & TR).
    eapply ends_seq; [eapply (release_ok u w f OK NF s W s1 _ EN BT Wt)|]. intros s3 W3 (L & SP & OT).
    apply ijump_reg_ok; [unfold TMP_REG2; lia|exact W3|]. intros n _. rewrite OT by (unfold TMP_REG2; try lia; apply not_in_tmp; auto; lia). split; [exact TV|]. split; [exact SP|].
    eapply left_ext; [exact OK|exact NF| |exact TM|exact L]. intros i I. apply TR. lia.
  - apply orb_false_elim in Q. destruct Q as (Q1 & Q2). destruct src as [r| |]; try discriminate. destruct SL as (R & _). unfold xureg in R.
    eapply ends_seq; [eapply (release_ok u w f OK NF s W s1 _ EN B W2)|]. intros s3 W3 (L & SP & OT).
    apply ijump_reg_ok; [lia|exact W3|]. intros n _. rewrite OT by (try lia; eapply not_restored; eauto; lia). split; [|split; [exact SP|exact L]]. cbn [xval]. symmetry. apply Z.mod_small. apply W2.
Qed.
(** The frame is released; what follows is a direct jump (sljit_emit_return_to, or sljit_emit_call with SLJIT_CALL_RETURN). *)
Lemma release_at : forall u w cet f rt s, xfunc_ok w f -> no_floats w f -> xwf s ->
  xfunction_at u w f (enter_code w cet f) (xrelease w (ctx_of w f) rt) s (fun s2 n pc s3 => pc = n /\ xr s3 4 = wrap (xr s 4 + (if rt then 8 else 0)) /\ load (xm s3) (xr s 4) 8 = return_address s /\ xleft w f s s2 s3).
Proof.
  intros u w cet f rt s OK NF W. apply function_ok; auto. intros s1 s2 EN B W2. eapply ends_conseq; [apply cdoes_ends; eapply (release_ok u w f OK NF s W s1 _ EN B W2)|].
  intros n pc s3 _ (-> & L & SP & _). split; [reflexivity|]. split; [exact SP|]. split; [|exact L]. eapply left_mem; eauto.
Qed.

(** ** Calls *)
Lemma out_ext : forall w s t s3 l n p, (n + length l <= 4)%nat -> (forall i, 1 <= i <= 4 \/ i = 15 -> xr s3 (reg_map w i) = xr t (reg_map w i)) -> (p + length l <= 4)%nat -> xargs_out w s t l n p -> xargs_out w s s3 l n p.
Proof.
  intros w s t s3 l. induction l as [|a l IH]; intros n p L1 R L2 H; [exact I|]. cbn [length] in *.
  assert (A : forall v, xr t (arg_reg w n p) = v -> xr s3 (arg_reg w n p) = v).
  { intros v <-. assert (AR : arg_reg w n p = reg_map w (arg_sreg w n p)) by (unfold arg_reg, arg_sreg; destruct w; [destruct p as [|[|[|[|]]]]|destruct n as [|[|[|[|]]]]]; try lia; reflexivity). rewrite AR. apply R.
    unfold arg_sreg, XR3, XR1, XR2, TMP_REG1. destruct w; [destruct p as [|[|[|[|]]]]|destruct n as [|[|[|[|]]]]]; cbn; lia. }
  destruct a; cbn [xargs_out] in *; try (destruct H as (H1 & H2); split; [apply A; exact H1|]); apply IH; auto; lia.
Qed.
Lemma out_ext2 : forall w s s0 t l n p, (n + length l <= 4)%nat -> (forall i, 1 <= i <= 4 -> xr s0 (reg_map w i) = xr s (reg_map w i)) -> xargs_out w s0 t l n p -> xargs_out w s t l n p.
Proof.
  intros w s s0 t l. induction l as [|a l IH]; intros n p L R H; [exact I|]. cbn [length] in *. destruct a; cbn [xargs_out] in *; try (destruct H as (H1 & H2); split; [rewrite H1; apply R; lia|]); apply IH; auto; lia.
Qed.
Lemma some_src : forall r, 1 <= r <= 14 \/ r = 16 -> In (Some r) srcs.
Proof. intros r R. unfold srcs. right. apply in_map. cbn [In]. lia. Qed.
(** sljit_emit_call: the code before the jump *)
Lemma call_pre_ok : forall u w x reg_arg t l s, call_ok w t l -> xwf s ->
  cdoes u (xcall_pre w x false reg_arg (call_types t l)) s (fun s' => xcall_args w reg_arg s s' l /\ xr s' 4 = xr s 4 /\ xm s' = xm s /\ (forall i, 5 <= i <= 13 -> xr s' (reg_map w i) = xr s (reg_map w i))).
Proof.
  intros u w x reg_arg t l s (T & A & L & FF) W. unfold xcall_pre, call_types. rewrite cat_nil_r. destruct reg_arg.
  - apply cdoes_nil; [exact W|]. unfold xcall_args. auto.
  - eapply cdoes_conseq; [apply (call_args_ok u w l t None s A L FF); [lia|left; reflexivity|exact W]|]. intros s' _ (B1 & B2 & B3 & _). split; [exact B1|]. split; [rewrite <- (reg_sp w); apply B3; unfold SLJIT_SP; lia|].
    split; [exact B2|]. intros i I. apply B3. lia.
Qed.
Lemma tail_pre_at : forall u w cet f reg_arg t l s, xfunc_ok w f -> no_floats w f -> xwf s -> call_ok w t l ->
  xfunction_at u w f (enter_code w cet f) (xcall_pre w (ctx_of w f) true reg_arg (call_types t l)) s (fun s2 n pc s3 =>
    pc = n /\ xr s3 4 = xr s 4 /\ load (xm s3) (xr s 4) 8 = return_address s /\ xcall_args w reg_arg s2 s3 l /\ xrestored w f s s2 s3).
Proof.
  intros u w cet f reg_arg t l s OK NF W C. apply function_ok; auto. intros s1 s2 EN B W2. pose proof (call_pre_ok u w (ctx_of w f) reg_arg t l s2 C W2) as P. unfold xcall_pre in *. rewrite cat_nil_r in P.
  eapply ends_seq; [exact P|]. intros t1 Wt (A1 & A2 & A3 & A4). pose proof (xsr w f OK NF) as (_ & XS). destruct C as (_ & _ & CL & _).
  assert (BT : xbody w f (fsz w f) s1 t1). { eapply body_step; [exact B|exact A3|]. intros i I. destruct (Z.eq_dec i 14) as [->|]; [change 14 with SLJIT_SP; rewrite !reg_sp; exact A2|apply A4; lia]. }
  eapply ends_conseq; [apply cdoes_ends; eapply (release_ok u w f OK NF s W s1 _ EN BT Wt)|].
  intros n pc s3 _ (-> & L & SP & OT). rewrite Z.add_0_r, wrap_small in SP by apply W. split; [reflexivity|]. split; [exact SP|]. split; [eapply (left_mem w f OK NF s s1 t1); eauto|].
  destruct L as ((L1 & L2 & L3) & L4). pose proof (sizes w f OK NF). split; [|split; [exact L1|split]].
  - unfold xcall_args in *. destruct reg_arg; [intros i I; rewrite L4 by exact I; apply A1; exact I|]. eapply out_ext; [|intros i I; apply OT|..]; try exact A1; try (cbn; lia). intros X. apply (Lsv_range w f OK NF) in X. lia.
  - intros i I. rewrite L2 by exact I. apply A4. lia.
  - congruence.
Qed.
(** sljit_emit_icall *)
Lemma icall_args : forall u w (reg_arg : bool) t l src s, call_ok w t l -> (1 <= src <= 13 \/ src = 16) -> xwf s ->
  let ca := if reg_arg then (Some [], Some src) else call_with_args w (call_types t l) (Some src) in
  cdoes u (fst ca) s (fun s' => xcall_args w reg_arg s s' l /\ xr s' 4 = xr s 4 /\ xm s' = xm s /\ (forall i, 5 <= i <= 13 -> xr s' (reg_map w i) = xr s (reg_map w i)) /\
     exists r, snd ca = Some r /\ 1 <= r <= 16 /\ xr s' (reg_map w r) = xr s (reg_map w src)).
Proof.
  intros u w reg_arg t l src s (T & A & L & FF) R W. cbv zeta. destruct reg_arg.
  - apply cdoes_nil; [exact W|]. unfold xcall_args. repeat (split; [auto|]). exists src. cbn [snd]. split; [reflexivity|]. split; [lia|reflexivity].
  - unfold call_types. eapply cdoes_conseq; [apply (call_args_ok u w l t (Some src) s A L FF); [lia|apply some_src; lia|exact W]|]. intros s' _ (B1 & B2 & B3 & B4). split; [exact B1|]. split; [rewrite <- (reg_sp w); apply B3; unfold SLJIT_SP; lia|].
    split; [exact B2|]. split; [intros i I; apply B3; lia|]. unfold src_kept in B4. destruct (snd _) as [r|]; [|contradiction]. exists r. split; [reflexivity|exact B4].
Qed.
Lemma icall_ok : forall u w x reg_arg t l src srcw s, call_ok w t l -> xsrc_legal src srcw -> is_imm src = false -> xwf s ->
  ends u (xicall w x false reg_arg (call_types t l) src srcw) s (fun n pc s' => pc = xval w 64 s src srcw /\ xcall_args w reg_arg s s' l /\
    xr s' 4 = wrap (xr s 4 - 8) /\ xm s' = store (xm s) (wrap (xr s 4 - 8)) n 8 /\ (forall i, 5 <= i <= 13 -> xr s' (reg_map w i) = xr s (reg_map w i))).
Proof.
  intros u w x reg_arg t l src srcw s C SL NI W. pose proof C as (_ & _ & CL & _). unfold xicall. cbv zeta. cbn [andb negb]. assert (XS : 5 <= xscratch_regs w <= 7) by (destruct w; cbn; lia).
  assert (MAIN : forall q qw s0, (1 <= q <= 13 \/ q = 16) -> xwf s0 -> xr s0 (reg_map w q) = xval w 64 s src srcw -> xm s0 = xm s -> (forall i, 1 <= i <= 15 -> xr s0 (reg_map w i) = xr s (reg_map w i)) ->
     ends u (Some [] +++ fst (if reg_arg then (Some [], Some q) else call_with_args w (call_types t l) (Some q)) +++
       xijump w true (AReg match snd (if reg_arg then (Some [], Some q) else call_with_args w (call_types t l) (Some q)) with Some r => r | None => q end) qw) s0 (fun n pc s' => pc = xval w 64 s src srcw /\ xcall_args w reg_arg s s' l /\
    xr s' 4 = wrap (xr s 4 - 8) /\ xm s' = store (xm s) (wrap (xr s 4 - 8)) n 8 /\ (forall i, 5 <= i <= 13 -> xr s' (reg_map w i) = xr s (reg_map w i)))).
  { intros q qw s0 Q W0 V M R. rewrite cat_nil. eapply ends_seq; [apply (icall_args u w reg_arg t l q s0 C Q W0)|]. cbv zeta. intros s' W' (A1 & A2 & A3 & A4 & r & A5 & A6 & A7). rewrite A5.
    apply ijump_reg_ok; [exact A6|exact W'|]. intros n _. split; [congruence|]. unfold push. cbn [setr setmem xr xm Z.eqb Pos.eqb].
    assert (S4 : xr s' 4 = xr s 4). { rewrite A2. rewrite <- (reg_sp w). apply R. unfold SLJIT_SP. lia. } rewrite S4.
    assert (P : forall i, 1 <= i <= 16 -> i <> 14 -> (if reg_map w i =? 4 then wrap (xr s 4 - 8) else xr s' (reg_map w i)) = xr s' (reg_map w i)) by (intros i I N; destruct (Z.eqb_spec (reg_map w i) 4) as [Z|]; [exfalso; apply (reg_4 w i); auto|reflexivity]).
    split; [|split; [reflexivity|split; [rewrite A3, M; reflexivity|]]].
    - unfold xcall_args in *. destruct reg_arg.
      + intros i I. cbn [setr setmem xr]. rewrite P by lia. rewrite A1 by lia. apply R. lia.
      + eapply out_ext2; [|intros i I; apply R; lia|]; [cbn; lia|]. eapply out_ext; [| |..]; try exact A1; try (cbn; lia). intros i I. cbn [setr setmem xr]. apply P; lia.
    - intros i I. rewrite P by lia. rewrite A4 by lia. apply R. lia. }
  destruct src as [r| |b o]; [|discriminate|]; cbn [is_mem reg_of].
  - rewrite cat_nil. destruct SL as (R & _). unfold xureg in R. apply MAIN; auto. cbn [xval]. symmetry. apply Z.mod_small. apply W.
  - eapply ends_seq; [apply to_tmp2_ok; [apply src_sok; exact SL|exact W]|]. intros s0 W0 (TV & TM & TR). apply MAIN; auto.
Qed.
Lemma tail_icall_at : forall u w cet f reg_arg t l src srcw s, xfunc_ok w f -> no_floats w f -> xwf s -> call_ok w t l -> xsrc_legal src srcw -> is_imm src = false ->
  xfunction_at u w f (enter_code w cet f) (xicall w (ctx_of w f) true reg_arg (call_types t l) src srcw) s (fun s2 _ pc s3 =>
    pc = xval w 64 s2 src srcw /\ xr s3 4 = xr s 4 /\ load (xm s3) (xr s 4) 8 = return_address s /\ xcall_args w reg_arg s2 s3 l /\ xrestored w f s s2 s3).
Proof.
  intros u w cet f reg_arg t l src srcw s OK NF W C SL NI. apply function_ok; auto. intros s1 s2 EN B W2. pose proof C as (_ & _ & CL & _). unfold xicall. cbv zeta. cbn [andb negb]. pose proof (xsr w f OK NF) as (_ & XS). pose proof (sizes w f OK NF) as SZ.
  assert (MAIN : forall q qw s0, (1 <= q <= 13 \/ q = 16) -> ~ In q (Lsv w f) -> xwf s0 -> xr s0 (reg_map w q) = xval w 64 s2 src srcw -> xm s0 = xm s2 -> (forall i, 1 <= i <= 15 -> xr s0 (reg_map w i) = xr s2 (reg_map w i)) ->
     ends u (xrelease w (ctx_of w f) false +++ fst (if reg_arg then (Some [], Some q) else call_with_args w (call_types t l) (Some q)) +++
       xijump w false (AReg match snd (if reg_arg then (Some [], Some q) else call_with_args w (call_types t l) (Some q)) with Some r => r | None => q end) qw) s0 (fun _ pc s3 =>
    pc = xval w 64 s2 src srcw /\ xr s3 4 = xr s 4 /\ load (xm s3) (xr s 4) 8 = return_address s /\ xcall_args w reg_arg s2 s3 l /\ xrestored w f s s2 s3)).
  { intros q qw s0 Q NL W0 V M R. assert (B0 : xbody w f (fsz w f) s1 s0) by (eapply body_step; [exact B|exact M|intros i I; apply R; lia]).
    eapply ends_seq; [eapply (release_ok u w f OK NF s W s1 s0 EN B0 W0 false)|]. intros s3 W3 (L & SP & OT). rewrite Z.add_0_r, wrap_small in SP by apply W. pose proof (left_mem w f OK NF s s1 s0 EN B0 s3 L) as RM.
    destruct L as ((L1 & L2 & L3) & L4).
    eapply ends_seq; [apply (icall_args u w reg_arg t l q s3 C Q W3)|]. cbv zeta. intros s4 W4 (A1 & A2 & A3 & A4 & r & A5 & A6 & A7). rewrite A5.
    apply ijump_reg_ok; [exact A6|exact W4|]. intros n _. split; [rewrite A7, <- V; apply OT; auto; lia|]. split; [congruence|]. split; [rewrite A3; exact RM|]. split.
    - unfold xcall_args in *. destruct reg_arg; [intros i I; rewrite A1, L4 by exact I; apply R; lia|]. eapply out_ext2; [| |exact A1]; [cbn; lia|]. intros i I. rewrite L4 by lia. apply R. lia.
    - split; [|split].
      + intros x X NK. rewrite <- L1 by auto. destruct (callee_index w x X) as (i & I & <-). apply A4. lia.
      + intros i I. rewrite A4, L2 by lia. apply R. lia.
      + congruence. }
  assert (RTMP : restored w (ctx_of w f) (AReg TMP_REG2) = false) by (cbn [restored]; unfold TMP_REG2, XS0, KEPT; pose proof (Z.land_nonneg (x_options (ctx_of w f)) 3); lia).
  assert (NT : ~ In TMP_REG2 (Lsv w f)) by (apply not_in_tmp; auto; unfold TMP_REG2; lia).
  destruct src as [r| |b o]; [|discriminate|]; cbn [is_mem].
  - rewrite cat_nil. destruct SL as (R & ->). unfold xureg in R. destruct (restored w (ctx_of w f) (AReg r)) eqn:Q; cbn [reg_of].
    + rewrite cat_assoc. eapply ends_seq; [apply to_tmp2_ok; [cbn; lia|exact W2]|]. intros s0 W0 (TV & TM & TR). apply MAIN; auto.
    + rewrite cat_nil. apply MAIN; auto; [eapply not_restored; eauto; lia|]. cbn [xval]. symmetry. apply Z.mod_small. apply W2.
  - eapply ends_seq; [apply to_tmp2_ok; [apply src_sok; exact SL|exact W2]|]. intros s0 W0 (TV & TM & TR). rewrite RTMP, cat_nil. cbn [reg_of]. apply MAIN; auto.
Qed.
(** sljit_emit_op_dst with SLJIT_GET_RETURN_ADDRESS *)
Lemma get_return_address_at : forall u w cet f dst dstw s, xfunc_ok w f -> no_floats w f -> xwf s -> xdst_legal dst dstw ->
  xfunction_at u w f (enter_code w cet f) (xget_return_address w (ctx_of w f) dst dstw) s (fun s2 n pc s3 => pc = n /\ wrote w 64 TMPS s2 dst dstw (return_address s) s3).
Proof.
  intros u w cet f dst dstw s OK NF W DL. apply function_ok; auto. intros s1 s2 EN B W2. unfold xget_return_address. destruct (xctx_eq w f OK NF) as (fs & fv & E1 & _). rewrite E1. cbn [x_local x_scratches x_saveds x_options].
  rewrite (kept_of f (xfunc_func w f OK)), (saved_size_of w f OK NF). replace (xl w f + (8 * xnsaved w f + 8 * 0)) with (fsz w f) by (unfold xl; lia). destruct (sizes w f OK NF) as (S1 & S2 & S3 & S4 & S5 & S6 & S7 & S8 & S9 & S10).
  assert (V : xval w 64 s2 (AMem SLJIT_SP 0) (fsz w f) = return_address s).
  { rewrite <- (ret_addr w f OK NF s s1 s2 EN B). cbn [xval]. change (Z.to_nat (64 / 8)) with 8%nat. apply load_cong. unfold xaddr. cbn [Z.eqb SLJIT_SP]. change 14 with SLJIT_SP. rewrite reg_sp.
    destruct B as (B & _). destruct EN as ((_ & _ & SP & _) & _). rewrite B, SP, wrap_add_l. f_equal. lia. }
  eapply ends_conseq; [apply cdoes_ends, does_cdoes; apply (mov_ok u w false dst dstw (AMem SLJIT_SP 0) (fsz w f) s2)|].
  - destruct dst; cbn in *; unfold xureg in *; try contradiction; lia || exact DL.
  - destruct dst; cbn in *; contradiction || reflexivity.
  - assert (Hm : 0 <= home w) by (destruct w; cbn; lia). unfold sok, xmem_legal, SLJIT_SP. lia.
  - discriminate.
  - exact W2.
  - intros n pc s3 _ (-> & H & _). split; [reflexivity|]. rewrite <- V. eapply wrote_weaken; [exact H|apply mov_tmps_TMPS].
Qed.

Ltac fok := unfold xfunc_ok, no_floats; repeat split; try (vm_compute; congruence); repeat constructor; vm_compute; congruence.
(** The function which returns its argument: push rbx; mov rbx, rdi; mov rax, rbx; pop rbx; ret. *)
Definition id_func : func := mkF false 0 1 1 0 0 0 0 1 [ASaved 1].
Lemma identity_runs : forall u codef a s, xwf s -> 0 <= a < 2 ^ 48 -> fetches a 0 [83; 72; 137; 251] codef -> fetches (a + 4) 0 [72; 137; 216; 91; 195] codef ->
  exists s', csteps codef u a s (return_address s) s' /\ xr s' 0 = xr s 7 /\ xr s' 4 = wrap (xr s 4 + 8) /\ forall x, In x [3; 5; 12; 13; 14; 15] -> xr s' x = xr s x.
Proof.
  intros u codef a s W A F1 F2.
  assert (OK : xfunc_ok false id_func) by fok. assert (NF : no_floats false id_func) by fok.
  destruct (return_at u false false true true true false id_func O_MOV (AReg 13) 0 s OK NF W eq_refl) as (l1 & l2 & E1 & E2 & H); [split; [unfold xureg; lia|reflexivity]|].
  change (Some [83; 72; 137; 251] = Some l1) in E1. change (Some [72; 137; 216; 91; 195] = Some l2) in E2. injection E1 as <-. injection E2 as <-.
  destruct (H codef a (a + 4)) as (F & s1 & R1 & W1 & EN & X); try exact F1; try exact F2; unfold zlen; cbn [length Z.of_nat Pos.of_succ_nat Pos.succ]; try lia.
  destruct (X s1 W1) as (pc & s3 & R2 & W3 & (r & V & V') & -> & SP & (CS & _) & _). { repeat split; auto. }
  exists s3. split; [eapply X86Fetch.csteps_trans; [exact R1|exact R2]|]. destruct EN as (_ & _ & _ & _ & AR & _). destruct (AR eq_refl) as (A0 & _). change (xr s1 3 = xr s 7) in A0. change (r = wrap (xr s1 3 mod 2 ^ 64)) in V. split; [|split; [exact SP|]].
  - change (wrap (xr s3 0) = wrap r) in V'. rewrite V in V'. change (xr s1 3 mod 2 ^ 64) with (wrap (xr s1 3)) in V'. rewrite A0 in V'. rewrite !wrap_small in V' by (apply W || apply W3 || apply wrap_isw). exact V'.
  - intros x I. apply CS; [exact I|]. cbn [f_kept id_func]. intros i Hi. lia.
Qed.
