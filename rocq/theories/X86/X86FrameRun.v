(** The pieces of function entry and exit: indirect jumps, saved registers, moves of arguments, the stack pointer. *)
Require Import ZArith List Bool Lia.
From Verif Require Import Rv.RvLib Rv.RvIsa Rv.RvMem Rv.RvMemProofs Rv.RvFrame Rv.RvFrameSpec Rv.RvFrameProofs Rv.RvFrameTop X86.X86Isa X86.X86Emit X86.X86Spec X86.X86Enc X86.X86EncTop X86.X86OpSpec X86.X86Op
  X86.X86Ins X86.X86Ins2 X86.X86Mov X86.X86Cond X86.X86Link X86.X86LinkSpec X86.X86LinkOps X86.X86LinkRun X86.X86Fetch X86.X86Frame X86.X86FrameSpec X86.X86FrameBase.
Import ListNotations.
Ltac Zify.zify_post_hook ::= idtac.
Open Scope Z_scope.

Lemma cat_nil : forall c, Some [] +++ c = c. Proof. intros [l|]; reflexivity. Qed.
Lemma cat_nil_r : forall c, c +++ Some [] = c. Proof. intros [l|]; cbn; [rewrite app_nil_r|]; reflexivity. Qed.
Lemma cat_assoc : forall a b c, (a +++ b) +++ c = a +++ b +++ c.
Proof. intros [x|] [y|] [z|]; cbn; try reflexivity. rewrite app_assoc. reflexivity. Qed.
Lemma reg_sp : forall w, reg_map w SLJIT_SP = 4. Proof. intros []; reflexivity. Qed.
Lemma reg_4 : forall w r, 1 <= r <= 16 -> r <> 14 -> reg_map w r <> 4.
Proof. intros w r R N E. apply N. apply (reg_inj w); unfold isreg; try lia. rewrite E. destruct w; reflexivity. Qed.
Lemma reg_ne : forall w r q, 1 <= r <= 16 -> 1 <= q <= 16 -> r <> q -> reg_map w r <> reg_map w q.
Proof. intros w r q R Q N E. apply N. apply (reg_inj w); unfold isreg; lia || exact E. Qed.

Section U.
Variable u : Z.
(** ** Indirect jumps *)
Lemma ijump_reg_imm : forall w call r i, 1 <= r <= 16 -> xijump w call (AReg r) i = xijump w call (AReg r) 0.
Proof. intros w call r i R. assert (H : In r [1;2;3;4;5;6;7;8;9;10;11;12;13;14;15;16]) by (cbn [In]; lia). clear R. destruct w, call; incases; reflexivity. Qed.
Lemma ijump_dec : forall w call r, 1 <= r <= 16 -> exists bs, xijump w call (AReg r) 0 = Some bs /\ (length bs <= 15)%nat /\
  forall tl, decode_ctl (bs ++ tl) = Some (if call then CCallR (reg_map w r) else CJmpR (reg_map w r), tl).
Proof.
  intros w call r R. assert (H : In r [1;2;3;4;5;6;7;8;9;10;11;12;13;14;15;16]) by (cbn [In]; lia). clear R.
  destruct w, call; incases; (eexists; split; [vm_compute; reflexivity|split; [cbn; lia|intros tl; reflexivity]]).
Qed.
Lemma ijump_reg_ok : forall w (call : bool) r i s (P : Z -> Z -> xst -> Prop), 1 <= r <= 16 -> xwf s ->
  (forall n, isw n -> P n (xr s (reg_map w r)) (if call then push s n else s)) -> ends u (xijump w call (AReg r) i) s P.
Proof.
  intros w call r i s P R W H. rewrite ijump_reg_imm by exact R. destruct (ijump_dec w call r R) as (bs & E & L & D). exists bs. split; [exact E|].
  intros codef a A0 AL F. exists (xr s (reg_map w r)), (if call then push s (a + zlen bs) else s). pose proof (zlen_pos bs).
  assert (IW : isw (a + zlen bs)) by (unfold isw; lia).
  split; [|split; [apply H; exact IW|destruct call; [apply wf_push|]; exact W]].
  destruct (step_at a 0 bs codef u 0 bs s F (bytes_all bs) L) as (tl & _ & ST). rewrite D, Nat.eqb_refl in ST. cbv zeta in ST. unfold xpos in ST.
  rewrite !Z.add_0_r, Z.add_0_l, (wrap_small _ IW) in ST. eapply csteps_one; [|apply csteps_refl]. rewrite ST. destruct call; reflexivity.
Qed.
Lemma eaddr_ext : forall s s' e, xr s' = xr s -> eaddr s' e = eaddr s e. Proof. intros s s' e H. unfold eaddr, rego. rewrite H. reflexivity. Qed.
Lemma eaddr_ext2 : forall s s' e, (forall r, xr s' r = xr s r) -> eaddr s' e = eaddr s e.
Proof. intros s s' e H. unfold eaddr, rego. destruct (eb e), (ei e); rewrite ?H; reflexivity. Qed.
(** A memory operand: first the code for a far displacement. *)
Lemma pre_cdoes : forall w b immb s, xwf s -> cdoes u (Some (if far b immb then load_imm64 w TMP_REG2 immb else [])) s (fun s' => s' = after_pre w b immb s).
Proof.
  intros w b immb s W. apply does_cdoes. exists (if far b immb then load_imm64 w TMP_REG2 immb else []). split; [reflexivity|]. exists (after_pre w b immb s).
  split; [apply pre_runs|]. split; [reflexivity|]. apply after_pre_wf. exact W.
Qed.
Lemma mem_stk : forall w op d b o immb s c, op = 0xff \/ op = 0x8f -> 0 <= d < 8 -> genop (AMem b o) immb -> xwf s ->
  c = option_map (put1d op (8 * d)) (emit_x86 w true (fl 1) (AReg 0) 0 (AMem b o) immb) ->
  exists bs e, c = Some (if far (AMem b o) immb then load_imm64 w TMP_REG2 immb else []) +++ Some bs /\ same_operand w (fl 1) (AMem b o) immb (OM e) /\ (length bs <= 15)%nat /\
   (forall tl, decode_ctl (bs ++ tl) = None) /\ (forall tl, decode (bs ++ tl) = None)
       /\ (forall tl, decode_stk (bs ++ tl) = (if op =? 0x8f then if d =? 0 then Some (SPop (OM e), tl) else None else
            if d =? 2 then Some (SCall (OM e), tl) else if d =? 4 then Some (SJmp (OM e), tl) else if d =? 6 then Some (SPush (OM e), tl) else None)).
Proof.
  intros w op d b o immb s c O D G W ->. destruct (rm_dec w op d b o immb O D G) as (x & bs & e & E & PE & SO & L & DD).
  exists bs, e. rewrite E. cbn [option_map cat]. rewrite PE. split; [reflexivity|]. split; [exact SO|]. split; [exact L|]. repeat split; intros tl; apply DD.
Qed.
Lemma ijump_mem_ok : forall w (call : bool) b o immb s (P : Z -> Z -> xst -> Prop), genop (AMem b o) immb -> xwf s ->
  (forall n, isw n -> P n (xval w 64 s (AMem b o) immb) (let s' := after_pre w (AMem b o) immb s in if call then push s' n else s')) -> ends u (xijump w call (AMem b o) immb) s P.
Proof.
  intros w call b o immb s P G W H. destruct (mem_stk w 0xff (if call then 2 else 4) b o immb s (xijump w call (AMem b o) immb) (or_introl eq_refl) ltac:(destruct call; lia) G W) as (bs & e & E & SO & L & D1 & D2 & D3).
  { unfold xijump, insd. destruct call; reflexivity. }
  rewrite E. eapply ends_seq; [apply pre_cdoes; exact W|]. intros s1 W1 ->.
  exists bs. split; [reflexivity|]. intros codef a A0 AL F. pose proof (zlen_pos bs). assert (IW : isw (a + zlen bs)) by (unfold isw; lia). set (s1 := after_pre w (AMem b o) immb s) in *.
  exists (xval w 64 s (AMem b o) immb), (if call then push s1 (a + zlen bs) else s1). split; [|split; [apply (H _ IW)|destruct call; [apply wf_push|]; exact W1]].
  pose proof (same_rd w _ (AMem b o) immb (OM e) 64 s SO eq_refl) as V. fold s1 in V.
  refine (one_stk u codef a bs s1 (if call then SCall (OM e) else SJmp (OM e)) (_, if call then push s1 (a + zlen bs) else s1) A0 AL F L D1 D2 _ _).
  - intros tl. rewrite D3. destruct call; reflexivity.
  - destruct call; cbn [sexec]; rewrite V; reflexivity.
Qed.
(** The source of an indirect jump. *)
Lemma ijump_ok : forall w (call : bool) src srcw s, sok src srcw -> is_imm src = false -> xwf s ->
  ends u (xijump w call src srcw) s (fun n pc s' => isw n /\ pc = xval w 64 s src srcw /\ same_but [reg_map w TMP_REG2] (if call then push s n else s) s').
Proof.
  intros w call src srcw s K I W. destruct src as [r| |b o]; [|discriminate|].
  - apply ijump_reg_ok; [exact K|exact W|]. intros n N. split; [exact N|]. split; [|apply same_refl]. cbn [xval]. symmetry. apply Z.mod_small. apply W.
  - apply ijump_mem_ok; [apply sok_gop; [exact K|reflexivity]|exact W|]. intros n N. split; [exact N|]. split; [reflexivity|]. cbv zeta. unfold after_pre. destruct (far _ _); [|destruct call; apply same_refl].
    destruct call; [apply same_push|apply same_setr]. apply reg_4; unfold TMP_REG2; lia.
Qed.
(** ** SLJIT_FAST_ENTER and SLJIT_FAST_RETURN *)
Lemma fast_enter_ok : forall w dst dstw s, xdst_legal dst dstw -> xwf s ->
  cdoes u (xfast_enter w dst dstw) s (fun s' => wrote w 64 [TMP_REG2] (setr s 4 (wrap (xr s 4 + 8))) dst dstw (load (xm s) (xr s 4) 8) s' /\ flags_same s s').
Proof.
  intros w dst dstw s D W. destruct dst as [r| |b o]; [|destruct D|].
  - destruct D as (R & _). unfold xureg in R. cbn [xfast_enter]. apply pop_ok; [lia|exact W|]. unfold popto. split; [|repeat split; reflexivity]. cbn [wrote].
    split; [rewrite setr_same; symmetry; apply Z.mod_small; apply load8_isw|]. split; [reflexivity|]. intros q Q NI. apply setr_reg; try lia. intros ->. apply NI. left. reflexivity.
  - assert (GG : gop (AMem b o) dstw) by (apply sok_gop; [exact D|reflexivity]). destruct GG as (G & _).
    destruct (mem_stk w 0x8f 0 b o dstw s (xfast_enter w (AMem b o) dstw) (or_intror eq_refl) ltac:(lia) G W) as (bs & e & E & SO & L & D1 & D2 & D3).
    { unfold xfast_enter, ins. destruct (emit_x86 _ _ _ _ _ _ _) as [x|]; [|reflexivity]. cbn [option_map]. rewrite <- bytes_put1, <- bytes_put1d. reflexivity. }
    rewrite E. eapply cdoes_seq; [apply pre_cdoes; exact W|]. intros s1 W1 ->. set (s1 := after_pre w (AMem b o) dstw s) in *.
    assert (R4 : reg_map w TMP_REG2 <> 4) by (apply reg_4; unfold TMP_REG2; lia).
    assert (X4 : xr s1 4 = xr s 4) by (unfold s1, after_pre; destruct (far _ _); [|reflexivity]; cbn [setr xr]; destruct (Z.eqb_spec 4 (reg_map w TMP_REG2)); [congruence|reflexivity]).
    destruct (after_pre_same w (AMem b o) dstw s) as (XM & XF1 & XF2 & XF3 & XF4). fold s1 in XM, XF1, XF2, XF3, XF4.
    set (up := setr s 4 (wrap (xr s 4 + 8))).
    assert (XA : eaddr (setr s1 4 (wrap (xr s1 4 + 8))) e = wrap (xaddr w up b o dstw)).
    { rewrite <- (SO up). apply eaddr_ext2. intros r. rewrite X4. unfold up, s1, after_pre. destruct (far _ _); [|reflexivity]. cbn [setr xr].
      destruct (Z.eqb_spec r 4), (Z.eqb_spec r (reg_map w TMP_REG2)); congruence || reflexivity. }
    eapply (stk_cdoes u bs s1 (SPop (OM e)) _ _ L D1 D2); [exact D3|intros next; cbn [sexec]; reflexivity|apply xwf_setmem; apply xwf_setr; [exact W1|apply wrap_isw]|].
    split; [|unfold flags_same; cbn [setmem setr xcf xzf xsf xof]; auto]. cbn [wrote setmem xm]. split.
    + rewrite XA, X4, XM. change (Z.to_nat (64 / 8)) with 8%nat. change (xm up) with (xm s). rewrite (Z.mod_small (load _ _ _)) by apply load8_isw.
      apply store_cong. apply wrap_wrap.
    + intros q Q NI. cbn [setmem xr setr]. rewrite X4. unfold up. cbn [setr xr]. destruct (reg_map w q =? 4); [reflexivity|]. unfold s1. rewrite after_pre_reg; [reflexivity|exact Q|].
      intros IN. apply NI. unfold ftmp in IN. destruct (far _ _); [exact IN|destruct IN].
Qed.
Lemma load_push8 : forall m a v, isw v -> load (store m a v 8) a 8 = v.
Proof. intros m a v V. rewrite load_store by (vm_compute; reflexivity). apply Z.mod_small. exact V. Qed.
Lemma wrap_idem_sub : forall x, isw x -> wrap (wrap (x - 8) + 8) = x.
Proof. intros x X. rewrite wrap_add_l. replace (x - 8 + 8) with x by lia. apply wrap_small. exact X. Qed.
Lemma fast_return_ok : forall w src srcw s, sok src srcw -> is_imm src = false -> xwf s ->
  ends u (xfast_return w src srcw) s (fun n pc s' => pc = xval w 64 s src srcw /\ (forall r, r <> reg_map w TMP_REG2 -> xr s' r = xr s r)
     /\ xm s' = store (xm s) (wrap (xr s 4 - 8)) (xval w 64 s src srcw) 8).
Proof.
  intros w src srcw s K I W.
  assert (RET : forall s1 v, xwf s1 -> isw v -> (forall r, r <> reg_map w TMP_REG2 -> xr s1 r = xr s r) -> xm s1 = xm s -> ends u (Some [0xc3]) (push s1 v) (fun n pc s' => pc = v /\
      (forall r, r <> reg_map w TMP_REG2 -> xr s' r = xr s r) /\ xm s' = store (xm s) (wrap (xr s 4 - 8)) v 8)).
  { intros s1 v W1 V RR M. assert (R4 : 4 <> reg_map w TMP_REG2) by (intros X; apply (reg_4 w TMP_REG2); unfold TMP_REG2 in *; lia).
    apply ret_ok; [apply wf_push; exact W1|]. intros _. unfold push. cbn [setr setmem xr xm Z.eqb Pos.eqb]. rewrite (RR 4 R4), M.
    split; [apply load_push8; exact V|]. split; [|reflexivity]. intros r Hr. destruct (Z.eqb_spec r 4) as [->|N]; [apply wrap_idem_sub; apply W|]. apply RR. exact Hr. }
  destruct src as [r| |b o]; [|discriminate|].
  - cbn [xfast_return]. change (Some (push_reg w r ++ [195])) with (Some (push_reg w r) +++ Some [195]). eapply ends_seq; [apply (push_ok u w r s (fun s' => s' = push s (xr s (reg_map w r)))); auto|].
    intros s1 _ ->. assert (V : xval w 64 s (AReg r) srcw = xr s (reg_map w r)) by (cbn [xval]; apply Z.mod_small; apply W). rewrite V. apply RET; auto.
  - assert (GG : gop (AMem b o) srcw) by (apply sok_gop; [exact K|reflexivity]). destruct GG as (G & _).
    destruct (mem_stk w 0xff 6 b o srcw s (insd w true 0xff 0x30 (AReg 0) 0 (AMem b o) srcw) (or_introl eq_refl) ltac:(lia) G W eq_refl) as (bs & e & E & SO & L & D1 & D2 & D3).
    cbn [xfast_return]. rewrite E, cat_assoc. eapply ends_seq; [apply pre_cdoes; exact W|]. intros s1 W1 ->.
    pose proof (same_rd w _ (AMem b o) srcw (OM e) 64 s SO eq_refl) as V.
    assert (VW : isw (xval w 64 s (AMem b o) srcw)) by (exact (xval_range w false s (AMem b o) srcw W)).
    set (s1 := after_pre w (AMem b o) srcw s) in *.
    eapply ends_seq; [apply (stk_cdoes u bs s1 (SPush (OM e)) (push s1 (rdo 64 s1 (OM e))) (fun s' => s' = push s1 (rdo 64 s1 (OM e))) L D1 D2 D3); [intros; reflexivity|apply wf_push; exact W1|reflexivity]|].
    intros s2 _ ->. rewrite V. apply RET; auto.
    + intros r Hr. unfold s1, after_pre. destruct (far _ _); [|reflexivity]. cbn [setr xr]. destruct (Z.eqb_spec r (reg_map w TMP_REG2)); [contradiction|reflexivity].
    + apply after_pre_same.
Qed.

(** ** Saved registers *)
Lemma pushes_ok : forall w l s, Forall (fun r => 1 <= r <= 13) l -> xwf s ->
  cdoes u (Some (flat_map (push_reg w) l)) s (fun s' => xr s' 4 = wrap (xr s 4 - 8 * Z.of_nat (length l)) /\ (forall x, x <> 4 -> xr s' x = xr s x)
    /\ xm s' = RvFrameProofs.push (xm s) (xr s 4) (map (fun r => xr s (reg_map w r)) l)).
Proof.
  intros w l. induction l as [|r l IH]; intros s H W.
  - apply cdoes_nil; [exact W|]. cbn [length map RvFrameProofs.push]. rewrite Z.mul_0_r, Z.sub_0_r, wrap_small by apply W. auto.
  - inversion H as [|? ? R H']; subst. cbn [flat_map]. change (Some (push_reg w r ++ flat_map (push_reg w) l)) with (Some (push_reg w r) +++ Some (flat_map (push_reg w) l)).
    eapply cdoes_seq; [apply (push_ok u w r s (fun s' => s' = push s (xr s (reg_map w r)))); auto; lia|]. intros s1 W1 ->.
    eapply cdoes_conseq; [apply IH; auto|]. intros s2 _ (A & B & C). unfold push in A, B, C. cbn [setr setmem xr xm Z.eqb Pos.eqb] in A, B, C. split; [|split].
    + rewrite A, wrap_sub_l. f_equal. cbn [length]. lia.
    + intros x X. rewrite B by exact X. destruct (Z.eqb_spec x 4); [contradiction|reflexivity].
    + rewrite C. cbn [map RvFrameProofs.push]. rewrite (store_cong 8 _ (wrap (xr s 4 - 8)) (xr s 4 - 8)) by apply wrap_wrap.
      rewrite (push_cong _ _ (wrap (xr s 4 - 8)) (xr s 4 - 8)) by apply wrap_wrap. f_equal. apply map_ext_in. intros q Q.
      assert (Q13 : 1 <= q <= 13) by (rewrite Forall_forall in H'; auto). destruct (Z.eqb_spec (reg_map w q) 4) as [E|]; [|reflexivity]. exfalso. apply (reg_4 w q); lia || exact E.
Qed.
Lemma pops_ok : forall w l s, Forall (fun r => 1 <= r <= 13) l -> NoDup l -> xwf s ->
  cdoes u (Some (flat_map (pop_reg w) l)) s (fun s' => xr s' 4 = wrap (xr s 4 + 8 * Z.of_nat (length l)) /\ xm s' = xm s
    /\ (forall k r, nth_error l k = Some r -> xr s' (reg_map w r) = load (xm s) (xr s 4 + 8 * Z.of_nat k) 8)
    /\ (forall x, x <> 4 -> (forall r, In r l -> reg_map w r <> x) -> xr s' x = xr s x)).
Proof.
  intros w l. induction l as [|r l IH]; intros s H N W.
  - apply cdoes_nil; [exact W|]. cbn [length]. rewrite Z.mul_0_r, Z.add_0_r, wrap_small by apply W. split; [reflexivity|]. split; [reflexivity|]. split; [intros [|k]; discriminate|auto].
  - inversion H as [|? ? R H']; subst. inversion N as [|? ? NI N']; subst. cbn [flat_map]. change (Some (pop_reg w r ++ flat_map (pop_reg w) l)) with (Some (pop_reg w r) +++ Some (flat_map (pop_reg w) l)).
    assert (R4 : reg_map w r <> 4) by (apply reg_4; lia).
    eapply cdoes_seq; [apply (pop_ok u w r s (fun s' => s' = popto s (reg_map w r))); auto; lia|]. intros s1 W1 ->.
    assert (P4 : xr (popto s (reg_map w r)) 4 = wrap (xr s 4 + 8)) by (unfold popto; cbn [setr xr]; destruct (Z.eqb_spec 4 (reg_map w r)); [congruence|reflexivity]).
    assert (PX : forall x, x <> 4 -> x <> reg_map w r -> xr (popto s (reg_map w r)) x = xr s x).
    { intros x X1 X2. unfold popto. cbn [setr xr]. destruct (Z.eqb_spec x (reg_map w r)); [contradiction|]. destruct (Z.eqb_spec x 4); [contradiction|reflexivity]. }
    eapply cdoes_conseq; [apply IH; auto|]. intros s2 _ (A & B & C & D). rewrite P4 in A, C. change (xm (popto s (reg_map w r))) with (xm s) in *. split; [|split; [|split]].
    + rewrite A, wrap_add_l. f_equal. cbn [length]. lia.
    + exact B.
    + intros [|k] q Q; cbn [nth_error] in Q.
      * injection Q as <-. rewrite D; [|exact R4|]. { unfold popto. rewrite setr_same. apply load_cong. f_equal. cbn. lia. }
        intros q Q. assert (Q13 : 1 <= q <= 13) by (rewrite Forall_forall in H'; auto). apply reg_ne; try lia. intros ->. auto.
      * rewrite (C k q Q). apply load_cong. rewrite wrap_add_l. f_equal. lia.
    + intros x X1 X2. rewrite D; [apply PX; [exact X1|]|exact X1|]. { intros ->. apply (X2 r); [left|]; reflexivity. } intros q Q. apply X2. right. exact Q.
Qed.

(** ** Moves of arguments *)
Definition moves_code (w : bool) (l : list (Z * Z)) : option (list Z) := fold_right (fun p c => movrr w (fst p) (snd p) +++ c) (Some []) l.
(** The register whose old value is in [i] after the moves. *)
Fixpoint mfind (l : list (Z * Z)) (i : Z) : Z := match l with [] => i | (d, r) :: l => let j := mfind l i in if j =? d then r else j end.
Definition move_ok (p : Z * Z) : Prop := 1 <= fst p <= 16 /\ 1 <= snd p <= 16.
Lemma mfind_range : forall l i, Forall move_ok l -> 1 <= i <= 16 -> 1 <= mfind l i <= 16.
Proof. induction l as [|[d r] l IH]; intros i H I; [exact I|]. inversion H as [|? ? (A & B) H']; subst. cbn [mfind fst snd] in *. destruct (_ =? d); [exact B|]. apply IH; auto. Qed.
Lemma moves_ok : forall w l s, Forall move_ok l -> xwf s ->
  cdoes u (moves_code w l) s (fun s' => (forall i, 1 <= i <= 16 -> xr s' (reg_map w i) = xr s (reg_map w (mfind l i))) /\ xm s' = xm s).
Proof.
  intros w l. induction l as [|[d r] l IH]; intros s H W.
  - apply cdoes_nil; auto.
  - inversion H as [|? ? (A & B) H']; subst. cbn [moves_code fold_right fst snd] in *. fold (moves_code w l).
    eapply cdoes_seq; [apply does_cdoes; apply (movr_ok u w false d (AReg r) 0 s); auto|]. intros s1 W1 ((M & RS) & V & _).
    eapply cdoes_conseq; [apply IH; auto|]. intros s2 _ (C & D). split; [|rewrite D; exact M]. intros i I. rewrite C by exact I. cbn [mfind]. cbv zeta.
    pose proof (mfind_range l i H' I) as J. destruct (Z.eqb_spec (mfind l i) d) as [->|N].
    + rewrite V. cbn [xval]. apply Z.mod_small. apply W.
    + apply RS; [exact J|]. cbn [ftmp far In]. intuition congruence.
Qed.

(** ** The stack pointer *)
Lemma sub_sp : forall w v s, 0 <= v < 2 ^ 31 -> xwf s ->
  cdoes u (sub_imm w SLJIT_SP v) s (fun s' => xr s' 4 = wrap (xr s 4 - v) /\ (forall i, 1 <= i <= 16 -> i <> 14 -> xr s' (reg_map w i) = xr s (reg_map w i)) /\ xm s' = xm s).
Proof.
  intros w v s V W. apply does_cdoes. eapply does_conseq; [apply (alu_imm_ok u w false Sub v (AReg SLJIT_SP) 0 s false); try discriminate; [intros _; lia|split; [unfold genop, isreg, SLJIT_SP; lia|discriminate]|exact W]|].
  intros s' _ ((A & M & RS) & _). rewrite reg_sp in A. split; [|split; [|exact M]].
  - rewrite A. cbn [xval alu_val alu_res fst size_of]. rewrite reg_sp. rewrite (Z.mod_small (xr s 4)) by apply W. rewrite (Z.mod_small v) by lia. reflexivity.
  - intros i I N. apply RS; [exact I|]. cbn [ftmp far In]. unfold SLJIT_SP. intuition.
Qed.
Lemma add_sp : forall w v s, 0 <= v < 2 ^ 31 -> xwf s ->
  cdoes u (add_imm w SLJIT_SP v) s (fun s' => xr s' 4 = wrap (xr s 4 + v) /\ (forall i, 1 <= i <= 16 -> i <> 14 -> xr s' (reg_map w i) = xr s (reg_map w i)) /\ xm s' = xm s).
Proof.
  intros w v s V W. apply does_cdoes. eapply does_conseq; [apply (alu_imm_ok u w false Add v (AReg SLJIT_SP) 0 s false); try discriminate; [intros _; lia|split; [unfold genop, isreg, SLJIT_SP; lia|discriminate]|exact W]|].
  intros s' _ ((A & M & RS) & _). rewrite reg_sp in A. split; [|split; [|exact M]].
  - rewrite A. cbn [xval alu_val alu_res fst size_of]. rewrite reg_sp. rewrite (Z.mod_small (xr s 4)) by apply W. rewrite (Z.mod_small v) by lia. reflexivity.
  - intros i I N. apply RS; [exact I|]. cbn [ftmp far In]. unfold SLJIT_SP. intuition.
Qed.
Lemma load_sp_ok : forall w d off s, 1 <= d <= 16 -> d <> 14 -> - 2 ^ 31 <= off < 2 ^ 31 -> xwf s ->
  cdoes u (load_sp w d off) s (fun s' => xr s' 4 = xr s 4 /\ (forall i, 1 <= i <= 16 -> i <> d -> xr s' (reg_map w i) = xr s (reg_map w i)) /\ xm s' = xm s).
Proof.
  intros w d off s D N O W. apply does_cdoes. eapply does_conseq; [apply (movr_ok u w false d (AMem SLJIT_SP 0) off s); [exact D| |exact W]|].
  { cbn [sok]. unfold xmem_legal, SLJIT_SP. lia. }
  intros s' _ ((M & RS) & _).
  assert (NF : ftmp (AMem SLJIT_SP 0) off = []) by (unfold ftmp, far; replace (not_halfword off) with false; [reflexivity|]; unfold not_halfword; lia).
  rewrite NF in RS. split; [|split; [|exact M]].
  - rewrite <- (reg_sp w). apply RS; [unfold SLJIT_SP; lia|]. cbn [In]. unfold SLJIT_SP. intuition.
  - intros i I Q. apply RS; [exact I|]. cbn [In]. intuition.
Qed.
End U.
