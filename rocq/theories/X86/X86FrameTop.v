(** Function entry and exit: the whole sequences. *)
Require Import ZArith List Bool Lia ZifyBool.
From Verif Require Import Rv.RvLib Rv.RvBits Rv.RvIsa Rv.RvMem Rv.RvOp Rv.RvMemProofs Rv.RvFrame Rv.RvFrameSpec Rv.RvFrameProofs Rv.RvFrameTop X86.X86Isa X86.X86Emit X86.X86Spec X86.X86Enc X86.X86EncTop X86.X86OpSpec X86.X86Op
  X86.X86Ins X86.X86Ins2 X86.X86Mov X86.X86Op1 X86.X86Cond X86.X86Link X86.X86LinkSpec X86.X86LinkOps X86.X86LinkRun X86.X86Fetch X86.X86Frame X86.X86FrameSpec X86.X86FrameBase X86.X86FrameRun X86.X86FrameArgs X86.X86FrameCall.
Import ListNotations.
Ltac Zify.zify_post_hook ::= idtac.
Open Scope Z_scope.

Lemma xfunc_func : forall w f, xfunc_ok w f -> func_ok f.
Proof. intros w f H. unfold xfunc_ok, xsaved_regs in H. unfold func_ok. destruct H as (A1 & A2 & A3 & A4 & A5 & A6 & A7 & A8 & A9 & A10 & A11 & A12 & A13 & A14 & A15 & A16 & A17). repeat split; auto; try lia; destruct w; lia. Qed.
Lemma filter_len : forall (A : Type) (p : A -> bool) l, (length (filter p l) <= length l)%nat.
Proof. intros A p l. induction l as [|a l IH]; [reflexivity|]. cbn [filter length]. destruct (p a); cbn [length]; lia. Qed.
Lemma rev_at : forall (l : list Z) j r, nth_error l j = Some r -> nth_error (rev l) (length l - S j) = Some r.
Proof.
  intros l j r H. apply nth_error_split in H. destruct H as (l1 & l2 & -> & <-). rewrite rev_app_distr. cbn [rev]. rewrite <- app_assoc.
  rewrite nth_error_app2; rewrite rev_length, app_length; cbn [length]; [|lia]. replace (_ - _)%nat with O by lia. reflexivity.
Qed.
Lemma land_low16 : forall y, Z.land y (Z.lnot 0xf) = 16 * (y / 16).
Proof.
  intros y. replace (16 * (y / 16)) with (y / 16 * 16) by lia. apply Z.bits_inj'. intros n Hn. rewrite Z.land_spec. change 16 with (2 ^ 4). rewrite tb_mul_pow2 by lia.
  change 0xf with (Z.ones 4). rewrite Z.lnot_spec by lia. destruct (n <? 4) eqn:E4.
  - rewrite Z.ones_spec_low by lia. apply andb_false_r.
  - rewrite Z.ones_spec_high by lia. rewrite <- Z.shiftr_div_pow2, Z.shiftr_spec by lia. replace (n - 4 + 4) with n by lia. apply andb_true_r.
Qed.
Lemma callee_index : forall w x, xcallee_saved w x -> exists i, xscratch_regs w < i <= 13 /\ reg_map w i = x.
Proof.
  intros w x H. unfold xcallee_saved in H. destruct w; cbn [In] in H; unfold xscratch_regs, xsaved_regs; decompose [or] H; clear H; try contradiction; subst x;
  first [exists 6; split; [lia|reflexivity] | exists 7; split; [lia|reflexivity] | exists 8; split; [lia|reflexivity] | exists 9; split; [lia|reflexivity]
    | exists 10; split; [lia|reflexivity] | exists 11; split; [lia|reflexivity] | exists 12; split; [lia|reflexivity] | exists 13; split; [lia|reflexivity]].
Qed.
Lemma callee_not : forall w x, xcallee_saved w x -> x <> 4 /\ (forall i, 1 <= i <= xscratch_regs w \/ 14 <= i <= 16 -> reg_map w i <> x).
Proof.
  intros w x H. destruct (callee_index w x H) as (i & I & <-). assert (5 <= xscratch_regs w <= 7) by (destruct w; cbn; lia). split; [apply reg_4; lia|]. intros j J. apply reg_ne; lia.
Qed.
Lemma xargs_in_ext : forall w g g' s1 s1' l n k p, (forall x, x <> 4 -> g' x = g x) -> (forall i, 1 <= i <= 13 -> xr s1' (reg_map w i) = xr s1 (reg_map w i)) ->
  (n + length l <= 4)%nat -> (k + length l <= 4)%nat -> xargs_in w g s1 l n k p -> xargs_in w g' s1' l n k p.
Proof.
  intros w g g' s1 s1' l. induction l as [|a l IH]; intros n k p G S L1 L2 H; [exact I|]. cbn [length] in *.
  assert (A4 : arg_reg w n p <> 4) by (unfold arg_reg; destruct w; [destruct p as [|[|[|[|[|]]]]]|destruct n as [|[|[|[|[|]]]]]]; cbn; lia).
  destruct a; cbn [xargs_in] in *.
  - destruct H as (H1 & H2). split; [rewrite G, S by (auto; lia); exact H1|]. apply IH; auto; lia.
  - destruct H as (H1 & H2). split; [rewrite G, S by (auto; lia); exact H1|]. apply IH; auto; lia.
  - apply IH; auto; lia.
Qed.

Section T.
Variables (u : Z) (w cet : bool) (f : func).
Hypothesis OK : xfunc_ok w f.
Hypothesis NF : no_floats w f.
Notation ctx_of := (xset_context w (options_of f) (scratches_of f) (saveds_of f) (f_local f)).
Notation rv s r := (xr s (reg_map w r)).
Definition fsz : Z := 16 * ((f_local f + home w + 8 * xnsaved w f + 23) / 16) - 8.
Definition xl : Z := fsz - 8 * xnsaved w f.

Lemma sizes : 0 <= f_local f <= 1048576 /\ 0 <= f_scratches f /\ 0 <= f_kept f <= f_saveds f /\ f_kept f <= 3 /\ f_saveds f <= xsaved_regs w /\ f_scratches f + f_saveds f <= 13 /\ 0 <= xnsaved w f <= 13
  /\ f_local f + home w + 8 * xnsaved w f <= fsz < 2 ^ 21 /\ fsz mod 16 = 8 /\ f_local f + home w <= xl < 2 ^ 22.
Proof.
  destruct OK as (A1 & A2 & A3 & A4 & A5 & A6 & A7 & A8 & A9 & A10 & A11 & _).
  assert (N : 0 <= xnsaved w f <= 13) by (unfold xnsaved, xscratch_regs; destruct w; unfold xsaved_regs in *; lia).
  assert (Hm : 0 <= home w <= 32) by (destruct w; cbn; lia).
  set (q := f_local f + home w + 8 * xnsaved w f + 23). assert (Fq : fsz = 16 * (q / 16) - 8) by reflexivity.
  pose proof (Z.div_mod q 16 ltac:(lia)). pose proof (Z.mod_pos_bound q 16 ltac:(lia)). unfold xl.
  assert (M : fsz mod 16 = 8). { rewrite Fq. replace (16 * (q / 16) - 8) with (8 + (q / 16 - 1) * 16) by lia. rewrite Z.mod_add by lia. reflexivity. }
  unfold q in *. repeat split; try lia; exact M.
Qed.
Lemma get_regs : ENTER_GET_REGS (scratches_of f) = f_scratches f /\ ENTER_GET_FLOAT_REGS (scratches_of f) = f_fscratches f /\ ENTER_GET_VECTOR_REGS (scratches_of f) = f_vscratches f
  /\ ENTER_GET_REGS (saveds_of f) = f_saveds f /\ ENTER_GET_FLOAT_REGS (saveds_of f) = f_fsaveds f /\ ENTER_GET_VECTOR_REGS (saveds_of f) = 0.
Proof.
  destruct OK as (A1 & A2 & A3 & A4 & A5 & A6 & A7 & _). unfold ENTER_GET_REGS, ENTER_GET_FLOAT_REGS, ENTER_GET_VECTOR_REGS, scratches_of, saveds_of. rewrite !landff, !Z.shiftr_div_pow2 by lia.
  change (2 ^ 8) with 256. change (2 ^ 16) with (256 * 256). rewrite <- !Z.div_div by lia.
  replace (f_scratches f + 256 * f_fscratches f + 65536 * f_vscratches f) with (f_scratches f + 256 * (f_fscratches f + 256 * f_vscratches f)) by lia.
  assert (f_saveds f <= 8) by (unfold xsaved_regs in *; destruct w; lia). assert (f_fsaveds f <= 10) by (destruct w; lia).
  destruct (divmod_add 256 (f_scratches f) (f_fscratches f + 256 * f_vscratches f) ltac:(lia)) as (-> & ->).
  destruct (divmod_add 256 (f_fscratches f) (f_vscratches f) ltac:(lia)) as (-> & ->).
  destruct (divmod_add 256 (f_saveds f) (f_fsaveds f) ltac:(lia)) as (-> & ->). rewrite (Z.mod_small (f_vscratches f)), (Z.mod_small (f_fsaveds f)), (Z.div_small (f_fsaveds f)) by lia. auto 8.
Qed.
Lemma saved_size_of : forall e, saved_size w (f_scratches f) (f_saveds f - f_kept f) e = 8 * xnsaved w f + 8 * e.
Proof. intros e. unfold saved_size, xnsaved, NSCRATCH, NSAVED, xscratch_regs, xsaved_regs. destruct w; destruct (_ <? _) eqn:?; lia. Qed.
Lemma xctx_eq : exists fs fv, ctx_of = RvFrame.mkX (options_of f) (f_scratches f) (f_saveds f) fs fv xl /\ fsave w ctx_of = false.
Proof.
  unfold xset_context. cbv zeta. destruct get_regs as (R1 & R2 & R3 & R4 & R5 & R6). unfold fscratches_of, fsaveds_of. cbv zeta. rewrite R1, R2, R3, R4, R5, R6. rewrite (kept_of f (xfunc_func w f OK)).
  rewrite saved_size_of. set (a := Z.max (f_fscratches f) (f_vscratches f)). set (b := Z.max (f_fsaveds f) 0). set (fs := if b + a >? 15 then 15 - b else a).
  assert (FS : w = true -> saved_fsize w fs b = 0).
  { intros E. destruct (NF E) as (_ & N1 & N2 & N3). destruct OK as (_ & _ & _ & A4 & A5 & A6 & A7 & _). unfold saved_fsize, NFSCRATCH. rewrite E. subst fs a b.
    destruct (_ >? 15) eqn:E1; destruct (_ <? 5) eqn:E2; lia. }
  assert (EX : (if w then let local_size := f_local f + LOCALS_OFFSET w in let fsize := saved_fsize w fs b in if fsize >? 0 then Z.land (local_size + 15) (Z.lnot 15) + fsize else local_size else f_local f) = f_local f + home w).
  { destruct w eqn:E; [cbv zeta; rewrite FS by reflexivity; reflexivity|cbn; lia]. }
  cbv zeta in EX. rewrite EX. exists fs, b. rewrite land_low16. unfold fsave. cbn [x_fscratches x_fsaveds]. split.
  - f_equal. unfold xl, fsz. replace (f_local f + home w + (8 * xnsaved w f + 8 * 1) + 15) with (f_local f + home w + 8 * xnsaved w f + 23) by lia. lia.
  - destruct w eqn:E; [rewrite FS by reflexivity|]; reflexivity.
Qed.
Definition Lsv : list Z := down (13 - f_kept f) (13 - f_saveds f) ++ down (f_scratches f) (xscratch_regs w).
Lemma Lsv_in : forall i, In i Lsv <-> 13 - f_saveds f < i <= 13 - f_kept f \/ xscratch_regs w < i <= f_scratches f.
Proof. intros i. unfold Lsv. rewrite in_app_iff, !down_in. tauto. Qed.
Lemma xsr : xscratch_regs w = 13 - xsaved_regs w /\ 5 <= xscratch_regs w <= 7. Proof. unfold xscratch_regs, xsaved_regs. destruct w; lia. Qed.
Lemma Lsv_range : forall i, In i Lsv -> xscratch_regs w < i <= 13.
Proof. intros i H. apply Lsv_in in H. pose proof sizes. pose proof xsr. lia. Qed.
Lemma Lsv_all : Forall (fun r => 1 <= r <= 13) Lsv. Proof. apply Forall_forall. intros i H. apply Lsv_range in H. pose proof xsr. lia. Qed.
Lemma Lsv_nd : NoDup Lsv. Proof. apply nd_app; try apply down_nd. intros x. rewrite !down_in. pose proof sizes. lia. Qed.
Lemma Lsv_len : Z.of_nat (length Lsv) = xnsaved w f.
Proof. unfold Lsv. rewrite app_length, Nat2Z.inj_add, !down_len. unfold xnsaved. pose proof sizes. lia. Qed.
Lemma pushed_eq : forall fs fv L, pushed w (RvFrame.mkX (options_of f) (f_scratches f) (f_saveds f) fs fv L) = Lsv.
Proof.
  intros. unfold pushed, Lsv, XS0, FIRST_SAVED, NSAVED, XS0, xscratch_regs, xsaved_regs. cbn [x_options x_saveds x_scratches]. rewrite (kept_of f (xfunc_func w f OK)). destruct w; reflexivity.
Qed.
Lemma popped_eq : forall fs fv L, popped w (RvFrame.mkX (options_of f) (f_scratches f) (f_saveds f) fs fv L) = rev Lsv.
Proof.
  intros. unfold popped, up, Lsv, XS0, FIRST_SAVED, NSAVED, XS0, xscratch_regs, xsaved_regs. cbn [x_options x_saveds x_scratches]. rewrite (kept_of f (xfunc_func w f OK)), rev_app_distr.
  replace (13 + 1 - f_saveds f - 1) with (13 - f_saveds f) by lia. destruct w; reflexivity.
Qed.
Definition vals (s : xst) : list Z := map (fun r => rv s r) Lsv.
Definition xentered' (s s1 : xst) : Prop := xentered w f fsz s s1 /\ xm s1 = RvFrameProofs.push (xm s) (xr s 4) (vals s).

Notation enter_code := (xemit_enter w cet (options_of f) (arg_types_of f) (scratches_of f) (saveds_of f) (f_local f)).
Lemma args_code : forall s, xwf s ->
  cdoes u (xenter_args w 8 (Z.shiftr (if f_reg_arg f then 0 else arg_types_of f) 4) (f_kept f) 0 0) s (fun s1 => xm s1 = xm s /\ xr s1 4 = xr s 4 /\
    (f_reg_arg f = false -> xargs_in w (xr s) s1 (f_args f) 0 0 0) /\
    (forall i, 1 <= i <= 13 -> f_reg_arg f = true \/ words (f_args f) < i <= 13 - count is_saved (f_args f) -> rv s1 i = rv s i)).
Proof.
  intros s W. destruct OK as (_ & _ & _ & _ & _ & _ & _ & _ & _ & _ & A11 & A12 & A13 & A14 & A15 & _). destruct (f_reg_arg f).
  - apply cdoes_nil; [exact W|]. repeat split; auto. discriminate.
  - rewrite A11 by reflexivity. unfold arg_types_of. destruct (args_land (f_ret f) (acodes (f_args f)) ltac:(lia)) as (_ & _ & ->).
    assert (FF : w = true -> floats_first (f_args f)) by (intros E; apply (NF E)).
    rewrite enter_args_moves; [|exact A13|lia|intros E; split; [lia|split; [auto|lia]]].
    destruct (arg_moves_ok w (f_args f) A14 FF) as (M & Q). eapply cdoes_conseq; [apply moves_ok; [exact M|exact W]|]. intros s1 _ (A & B). destruct (Q s s1 A) as (Q1 & Q2).
    split; [exact B|]. split; [|split; [auto|]].
    + specialize (Q2 14 ltac:(lia)). change 14 with SLJIT_SP in Q2. rewrite !reg_sp in Q2. exact Q2.
    + intros i I [X|X]; [discriminate|]. apply Q2. left. lia.
Qed.
Lemma enter_ok : forall s, xwf s -> cdoes u enter_code s (xentered' s).
Proof.
  intros s W. unfold xemit_enter. cbv zeta. destruct xctx_eq as (fs & fv & E1 & E2). rewrite E2, E1, pushed_eq. cbn [x_local]. rewrite (kept_of f (xfunc_func w f OK)), (reg_arg_of f (xfunc_func w f OK)).
  destruct sizes as (S1 & S2 & S3 & S4 & S5 & S6 & S7 & S8 & S9 & S10). assert (Hm : 0 <= home w) by (destruct w; cbn; lia).
  eapply cdoes_seq; [apply (endbranch_ok u cet s (fun s' => s' = s)); auto|]. intros ? _ ->.
  eapply cdoes_seq; [apply (pushes_ok u w Lsv s Lsv_all W)|]. intros sa Wa (PA & PB & PC). rewrite Lsv_len in PA. fold (vals s) in PC.
  eapply cdoes_seq; [apply args_code; exact Wa|]. intros sb Wb (MA & MB & MC & MD).
  eapply cdoes_conseq; [apply (enter_frame_ok u w xl sb); [lia|exact Wb]|]. intros sc _ (FA & FB & FC).
  assert (SP : xr sc 4 = wrap (xr s 4 - fsz)). { rewrite FA, MB, PA, wrap_sub_l. f_equal. unfold xl. lia. }
  assert (RA : forall i, 1 <= i <= 13 -> rv sa i = rv s i) by (intros i I; apply PB; apply reg_4; lia).
  assert (MM : xm sc = RvFrameProofs.push (xm s) (xr s 4) (vals s)) by congruence.
  assert (VL : Z.of_nat (length (vals s)) = xnsaved w f) by (unfold vals; rewrite map_length; apply Lsv_len).
  split; [|exact MM]. unfold xentered. split; [lia|]. split; [exact S9|]. split; [exact SP|]. split; [|split].
  - intros x X HX. rewrite MM. apply push_out; [exact X|rewrite VL; lia|]. rewrite VL. rewrite SP, wrap_sub_r in HX.
    replace (x - (xr s 4 - 8 * xnsaved w f)) with (x - (xr s 4 - fsz) - xl) by (unfold xl; lia). rewrite <- wrap_sub_l. pose proof (wrap_isw (x - (xr s 4 - fsz))) as Y. unfold isw in Y. rewrite wrap_small; unfold isw, xl in *; lia.
  - intros RAF. destruct OK as (_ & _ & _ & _ & _ & _ & _ & _ & _ & _ & _ & _ & _ & A14 & _). eapply xargs_in_ext; [|exact FB| | |apply (MC RAF)]; try (cbn; lia). intros x X. symmetry. apply PB. exact X.
  - intros i I C. rewrite FB, (MD i I C), RA by exact I. reflexivity.
Qed.

(** ** Leaving *)
Variable s : xst.
Hypothesis W : xwf s.
Section Leave.
Variables s1 s2 : xst.
Hypothesis E : xentered' s s1.
Hypothesis B : xbody w f fsz s1 s2.
Hypothesis W2 : xwf s2.
Lemma frame_load : forall o, xl <= o -> o + 8 <= fsz + 8 -> load (xm s2) (xr s 4 - fsz + o) 8 = load (xm s1) (xr s 4 - fsz + o) 8.
Proof.
  intros o O1 O2. destruct sizes as (S1 & S2 & S3 & S4 & S5 & S6 & S7 & S8 & S9 & S10). destruct E as ((_ & _ & SP & _) & _). destruct B as (_ & BM & _).
  apply load_ext. intros i I. apply BM; [apply wrap_isw|]. rewrite SP, wrap_sub_r, wrap_sub_l. replace (xr s 4 - fsz + o + i - (xr s 4 - fsz)) with (o + i) by lia.
  assert (Hm : 0 <= home w) by (destruct w; cbn; lia). rewrite wrap_small; unfold isw; change (Z.of_nat 8) with 8 in I; lia.
Qed.
Lemma ret_addr : load (xm s2) (xr s 4) 8 = return_address s.
Proof.
  destruct sizes as (S1 & S2 & S3 & S4 & S5 & S6 & S7 & S8 & S9 & S10). replace (xr s 4) with (xr s 4 - fsz + fsz) by lia. rewrite frame_load by (unfold xl; lia). replace (xr s 4 - fsz + fsz) with (xr s 4) by lia.
  unfold return_address. apply load_ext. intros i I. destruct E as ((_ & _ & SP & EM & _) & _). apply EM; [apply wrap_isw|]. rewrite SP, wrap_sub_r, wrap_sub_l. replace (xr s 4 + i - (xr s 4 - fsz)) with (fsz + i) by lia.
  change (Z.of_nat 8) with 8 in I. assert (Hm : 0 <= home w) by (destruct w; cbn; lia). rewrite wrap_small; unfold isw; lia.
Qed.
Lemma saved_load : forall j r, nth_error Lsv j = Some r -> load (xm s2) (xr s 4 - 8 * Z.of_nat j - 8) 8 = rv s r.
Proof.
  intros j r J. destruct sizes as (S1 & S2 & S3 & S4 & S5 & S6 & S7 & S8 & S9 & S10). assert (JL : (j < length Lsv)%nat) by (apply nth_error_Some; congruence). pose proof Lsv_len as LL.
  replace (xr s 4 - 8 * Z.of_nat j - 8) with (xr s 4 - fsz + (fsz - 8 * Z.of_nat j - 8)) by lia. rewrite frame_load by (unfold xl; lia).
  replace (xr s 4 - fsz + (fsz - 8 * Z.of_nat j - 8)) with (xr s 4 - 8 * Z.of_nat j - 8) by lia. destruct E as (_ & ->). apply load_push.
  - unfold vals. rewrite map_length. lia.
  - unfold vals. rewrite nth_error_map, J. reflexivity.
  - apply W.
Qed.
Lemma add_opt : forall v t, 0 <= v < 2 ^ 31 -> xwf t ->
  cdoes u (if v >? 0 then add_imm w SLJIT_SP v else Some []) t (fun t' => xr t' 4 = wrap (xr t 4 + v) /\ (forall i, 1 <= i <= 16 -> i <> 14 -> rv t' i = rv t i) /\ xm t' = xm t).
Proof.
  intros v t V Wt. destruct (Z.gtb_spec v 0); [apply add_sp; auto|]. apply cdoes_nil; [exact Wt|]. replace v with 0 by lia. rewrite Z.add_0_r, wrap_small by apply Wt. auto.
Qed.
Definition released (rt : bool) (s3 : xst) : Prop :=
  xleft w f s s2 s3 /\ xr s3 4 = wrap (xr s 4 + (if rt then 8 else 0)) /\ (forall i, 1 <= i <= 16 -> i <> 14 -> ~ In i Lsv -> rv s3 i = rv s2 i).
Lemma release_ok : forall rt, cdoes u (xrelease w ctx_of rt) s2 (released rt).
Proof.
  intros rt. unfold xrelease. cbv zeta. destruct xctx_eq as (fs & fv & E1 & E2). rewrite E2, E1, popped_eq. cbn [x_local x_scratches x_saveds x_options]. rewrite (kept_of f (xfunc_func w f OK)).
  destruct sizes as (S1 & S2 & S3 & S4 & S5 & S6 & S7 & S8 & S9 & S10). pose proof xsr as (XS & XR). pose proof Lsv_len as LL. assert (Hm : 0 <= home w) by (destruct w; cbn; lia).
  set (em := rt && (f_scratches f <? FIRST_SAVED w) && (f_saveds f =? f_kept f)).
  assert (EM : em = true -> rt = true /\ Lsv = []).
  { unfold em. intros X. rewrite !andb_true_iff in X. destruct X as ((X1 & X2) & X3). split; [exact X1|]. assert (length Lsv = O); [|destruct Lsv; [reflexivity|discriminate]].
    assert (xnsaved w f = 0); [|lia]. unfold xnsaved. unfold FIRST_SAVED, XS0, NSAVED in X2. unfold xscratch_regs, xsaved_regs in *. destruct w; lia. }
  replace (if em then xl + 8 else xl) with (xl + (if em then 8 else 0)) by (destruct em; lia).
  destruct E as ((_ & _ & SP1 & EMem & EA & ER) & _). destruct B as (BS & BM & BC).
  eapply cdoes_seq; [apply add_opt; [destruct em; lia|exact W2]|]. intros t1 Wt1 (A1 & A2 & A3).
  eapply cdoes_seq; [apply (pops_ok u w (rev Lsv) t1); [apply Forall_rev; apply Lsv_all|apply NoDup_rev; apply Lsv_nd|exact Wt1]|]. intros t2 Wt2 (P1 & P2 & P3 & P4). rewrite rev_length, LL in P1.
  assert (SPt1 : xr t1 4 = wrap (xr s 4 - 8 * xnsaved w f + (if em then 8 else 0))).
  { rewrite A1, BS, SP1, wrap_add_l. f_equal. unfold xl. lia. }
  assert (SAVED : forall r, In r Lsv -> rv t2 r = rv s r).
  { intros r R. assert (EMF : em = false) by (destruct em; [destruct (EM eq_refl) as (_ & X); rewrite X in R; destruct R|reflexivity]). apply In_nth_error in R. destruct R as (j & J).
    assert (JL : (j < length Lsv)%nat) by (apply nth_error_Some; congruence). rewrite (P3 _ _ (rev_at _ _ _ J)), <- (saved_load j r J), A3. apply load_cong. rewrite SPt1, EMF, wrap_add_l. f_equal. lia. }
  assert (OTHER : forall i, 1 <= i <= 16 -> i <> 14 -> ~ In i Lsv -> rv t2 i = rv s2 i).
  { intros i I1 I2 NI. rewrite P4; [apply A2; auto|apply reg_4; auto|]. intros r R. rewrite <- in_rev in R. pose proof (Lsv_range r R). apply reg_ne; try lia. intros ->. auto. }
  assert (SPt2 : xr t2 4 = wrap (xr s 4 + (if em then 8 else 0))). { rewrite P1, SPt1, wrap_add_l. f_equal. lia. }
  assert (FIN : cdoes u (if rt && negb em then add_imm w SLJIT_SP 8 else Some []) t2 (fun t3 => xr t3 4 = wrap (xr s 4 + (if rt then 8 else 0)) /\ (forall i, 1 <= i <= 16 -> i <> 14 -> rv t3 i = rv t2 i) /\ xm t3 = xm t2)).
  { destruct (rt && negb em) eqn:X.
    - apply andb_prop in X. destruct X as (-> & X). apply negb_true_iff in X. eapply cdoes_conseq; [apply (add_sp u w 8 t2 ltac:(lia) Wt2)|]. intros t3 _ (C1 & C2 & C3). split; [|auto]. rewrite C1, SPt2, X, wrap_add_l. f_equal. lia.
    - apply cdoes_nil; [exact Wt2|]. split; [|auto]. rewrite SPt2. f_equal. f_equal. destruct em eqn:Q; [destruct (EM eq_refl) as (-> & _); reflexivity|]. destruct rt; [discriminate|reflexivity]. }
  eapply cdoes_conseq; [exact FIN|]. intros s3 _ (C1 & C2 & C3). split; [|split; [exact C1|intros i I1 I2 NI; rewrite C2 by auto; apply OTHER; auto]].
  split; [split; [|split]|].
  - intros x X NK. destruct (callee_index w x X) as (i & I & <-). rewrite C2 by lia. destruct (in_dec Z.eq_dec i Lsv) as [IN|NI]; [apply SAVED; exact IN|]. rewrite OTHER by (auto; lia).
    assert (ND : 13 - f_kept f < i <= 13 \/ f_scratches f < i <= 13 - f_saveds f) by (rewrite Lsv_in in NI; lia).
    destruct ND as [K|ND]; [exfalso; apply (NK i K); reflexivity|].
    assert (CS : count is_saved (f_args f) <= f_saveds f /\ words (f_args f) <= 4).
    { destruct OK as (_ & _ & _ & _ & _ & _ & _ & _ & _ & _ & _ & _ & _ & A14 & A15 & _). split; [destruct (f_reg_arg f); lia|]. unfold words, count. pose proof (filter_len _ (fun a => negb (is_float a)) (f_args f)). lia. }
    rewrite BC; [apply ER; [lia|right; lia]|exact X|]. intros j [J|J]; apply reg_ne; lia.
  - intros i I. rewrite C2 by lia. apply OTHER; try lia. rewrite Lsv_in. lia.
  - congruence.
  - intros i I. rewrite C2 by lia. apply OTHER; try lia. intros X. apply Lsv_range in X. lia.
Qed.
Lemma left_mem : forall s3, xleft w f s s2 s3 -> load (xm s3) (xr s 4) 8 = return_address s.
Proof. intros s3 ((_ & _ & M) & _). rewrite M. apply ret_addr. Qed.
Lemma return_void_ok : ends u (xreturn_void w ctx_of) s2 (fun _ pc s3 => pc = return_address s /\ xr s3 4 = wrap (xr s 4 + 8) /\ xleft w f s s2 s3).
Proof.
  unfold xreturn_void. eapply ends_seq; [apply (release_ok false)|]. intros t Wt (L & SP & _). rewrite Z.add_0_r, wrap_small in SP by apply W. apply ret_ok; [exact Wt|]. intros _. rewrite SP. split; [apply left_mem; exact L|].
  split; [reflexivity|]. destruct L as ((L1 & L2 & L3) & L4). assert (R4 : forall i, 1 <= i <= 13 -> xr (setr t 4 (wrap (xr s 4 + 8))) (reg_map w i) = rv t i).
  { intros i I. cbn [setr xr]. destruct (Z.eqb_spec (reg_map w i) 4) as [Q|]; [|reflexivity]. exfalso. apply (reg_4 w i); lia || exact Q. }
  pose proof sizes. pose proof xsr. split; [split; [|split]|].
  - intros x X NK. destruct (callee_index w x X) as (i & I & <-). rewrite R4 by lia. apply L1; auto.
  - intros i I. rewrite R4 by lia. apply L2. exact I.
  - exact L3.
  - intros i I. rewrite R4 by lia. apply L4. exact I.
Qed.
(** Registers kept until the jump. *)
Lemma not_restored : forall r, 1 <= r <= 16 -> (restored w ctx_of (AReg r) = false) -> ~ In r Lsv.
Proof.
  intros r R H I. destruct xctx_eq as (fs & fv & E1 & _). rewrite E1 in H. cbn [restored x_options] in H. rewrite (kept_of f (xfunc_func w f OK)) in H. unfold FIRST_SAVED, XS0, NSAVED in H. apply Lsv_in in I. pose proof sizes. unfold xscratch_regs, xsaved_regs in *. destruct w; lia.
Qed.
Lemma not_in_tmp : forall r, 15 <= r <= 16 -> ~ In r Lsv. Proof. intros r R I. apply Lsv_range in I. lia. Qed.
Lemma left_ext : forall s2', (forall i, 1 <= i <= 13 -> rv s2' i = rv s2 i) -> xm s2' = xm s2 -> forall s3, xleft w f s s2' s3 -> xleft w f s s2 s3.
Proof.
  intros s2' R M s3 ((L1 & L2 & L3) & L4). pose proof sizes. pose proof xsr. split; [split; [exact L1|split]|]; [|congruence|]; intros i I; [rewrite L2|rewrite L4]; auto; apply R; lia.
Qed.
End Leave.
End T.
