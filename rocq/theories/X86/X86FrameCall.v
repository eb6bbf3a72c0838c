(** Arguments of calls; the stack area of a function. *)
Require Import ZArith List Bool Lia.
From Verif Require Import Rv.RvLib Rv.RvIsa Rv.RvMem Rv.RvMemProofs Rv.RvFrame Rv.RvFrameSpec Rv.RvFrameProofs Rv.RvFrameTop X86.X86Isa X86.X86Emit X86.X86Spec X86.X86Enc X86.X86EncTop X86.X86OpSpec X86.X86Op
  X86.X86Ins X86.X86Ins2 X86.X86Mov X86.X86Cond X86.X86Link X86.X86LinkSpec X86.X86LinkOps X86.X86LinkRun X86.X86Fetch X86.X86Frame X86.X86FrameSpec X86.X86FrameBase X86.X86FrameRun X86.X86FrameArgs.
Import ListNotations.
Ltac Zify.zify_post_hook ::= idtac.
Open Scope Z_scope.

(** ** The code as moves of registers; a list element tells whether the argument is a floating point number *)
Fixpoint cscan (bl : list bool) (src0 : option Z) (n wn fn : Z) (mv : bool) (ms : list (Z * Z)) (src : option Z) : Z * Z * Z * bool * list (Z * Z) * option Z :=
  match bl with
  | [] => (n, wn, fn, mv, ms, src)
  | true :: bl => cscan bl src0 (n + 1) wn (fn + 1) (mv || negb (n + 1 =? fn + 1)) ms src
  | false :: bl =>
    if arg_kept (n + 1) (wn + 1) then cscan bl src0 (n + 1) (wn + 1) fn mv ms src
    else
      let r := nth (Z.to_nat (n + 1)) word_arg_regs 0 in
      let hit := match src0 with Some q => q =? r | None => false end in
      cscan bl src0 (n + 1) (wn + 1) fn true (if hit then ms ++ [(TMP_REG2, r)] else ms) (if hit then Some TMP_REG2 else src)
  end.
Fixpoint cmv (bl : list bool) (n wn fn : Z) : option (list (Z * Z)) :=
  match bl with
  | [] => Some []
  | true :: bl => if n =? fn then cmv bl (n - 1) wn (fn - 1) else None
  | false :: bl => match cmv bl (n - 1) (wn - 1) fn with Some ms => Some ((if arg_kept n wn then [] else [(nth (Z.to_nat n) word_arg_regs 0, wn)]) ++ ms) | None => None end
  end.
Definition cwords (bl : list bool) : Z := Z.of_nat (length (filter negb bl)).
Definition cmoves (w : bool) (bl : list bool) (src : option Z) : option (list (Z * Z)) * option Z :=
  if w then
    let '(n, wn, fn, mv, ms, src') := cscan bl src 0 0 0 false [] src in
    (if mv then match cmv (rev bl) n wn fn with Some l => Some (ms ++ l) | None => None end else Some ms, src')
  else
    let is_r2 := match src with Some r => r =? XR2 | None => false end in
    if cwords bl =? 0 then (Some [], src)
    else (Some ((if (cwords bl >=? 3) || is_r2 then [(TMP_REG1, XR2)] else []) ++ [(XR2, XR0)]), if is_r2 then Some TMP_REG1 else src).

Definition strip (a : atype) : atype := match a with AScratch t => ASaved t | a => a end.
Lemma land_strip : forall a, atype_ok a -> Z.land (RvFrameSpec.acode a) SLJIT_ARG_MASK = RvFrameSpec.acode (strip a).
Proof.
  intros [t|t|t] H; cbn [atype_ok strip RvFrameSpec.acode] in *; unfold SLJIT_ARG_MASK.
  - assert (T : t = 1 \/ t = 2 \/ t = 3) by lia. destruct T as [->|[->| ->]]; reflexivity.
  - assert (T : t = 1 \/ t = 2 \/ t = 3) by lia. destruct T as [->|[->| ->]]; reflexivity.
  - assert (T : t = 4 \/ t = 5) by lia. destruct T as [->| ->]; reflexivity.
Qed.
Lemma strip_float : forall a, atype_ok a -> (RvFrameSpec.acode (strip a) =? 4) || (RvFrameSpec.acode (strip a) =? 5) = is_float a.
Proof. intros [t|t|t] H; cbn [atype_ok strip RvFrameSpec.acode is_float] in *; lia. Qed.
Lemma strip_f64 : forall a, atype_ok a -> (RvFrameSpec.acode (strip a) <? SLJIT_ARG_TYPE_F64) = negb (is_float a).
Proof. intros [t|t|t] H; unfold SLJIT_ARG_TYPE_F64; cbn [atype_ok strip RvFrameSpec.acode is_float negb] in *; lia. Qed.
Lemma strip_ok : forall a, atype_ok a -> atype_ok (strip a). Proof. intros [] H; exact H. Qed.
Lemma strip_is : forall a, is_float (strip a) = is_float a. Proof. intros []; reflexivity. Qed.
Lemma lor_step : forall a t, 0 <= t < 16 -> Z.lor (Z.shiftl a 4) t = t + 16 * a.
Proof.
  intros a t T. rewrite Z.lor_comm. assert (E : Z.land t (Z.shiftl a 4) = 0).
  { apply Z.bits_inj'. intros n N. rewrite Z.land_spec, Z.bits_0, Z.shiftl_spec by lia. destruct (Z.ltb_spec n 4).
    + rewrite (Z.testbit_neg_r a) by lia. apply andb_false_r.
    + destruct (Z.eq_dec t 0) as [->|]; [rewrite Z.bits_0; reflexivity|]. rewrite (Z.bits_above_log2 t); [reflexivity|lia|]. assert (2 ^ 4 <= 2 ^ n) by (apply Z.pow_le_mono_r; lia). change (2 ^ 4) with 16 in *. apply Z.log2_lt_pow2; lia. }
  rewrite <- Z.lxor_lor, <- Z.add_nocarry_lxor by exact E. rewrite Z.shiftl_mul_pow2 by lia. change (2 ^ 4) with 16. lia.
Qed.
Lemma acodes_zero : forall l, Forall atype_ok l -> (acodes l =? 0) = match l with [] => true | _ => false end.
Proof. intros l H. destruct (acodes_pos l H) as (A & B). destruct l; [reflexivity|]. lia. Qed.
Lemma word_args_list : forall l fuel, Forall atype_ok l -> (length l <= fuel)%nat -> word_args fuel (acodes l) = cwords (map is_float l).
Proof.
  induction l as [|a l IH]; intros fuel H F; destruct fuel as [|fuel]; try reflexivity; [cbn in F; lia|]. cbn [length] in F. cbn [word_args]. rewrite acodes_zero by exact H.
  inversion H as [|? ? A H']; subst. assert (R : 0 <= RvFrameSpec.acode a < 16) by (destruct a; cbn in *; lia). cbn [acodes].
  destruct (args_land (RvFrameSpec.acode a) (acodes l) R) as (-> & _ & ->). rewrite land_strip, strip_f64, IH by (auto; lia). unfold cwords. cbn [map filter]. destruct (is_float a); cbn [negb length]; lia.
Qed.
Lemma scan_list : forall w l fuel src0 m n wn fn mv ms src, Forall atype_ok l -> (length l <= fuel)%nat ->
  call_scan w fuel (acodes l) src0 (mkCA (acodes m) n wn fn mv (moves_code w ms) src) =
  let '(n', wn', fn', mv', ms', src') := cscan (map is_float l) src0 n wn fn mv ms src in mkCA (acodes (rev (map strip l) ++ m)) n' wn' fn' mv' (moves_code w ms') src'.
Proof.
  intros w l. induction l as [|a l IH]; intros fuel src0 m n wn fn mv ms src H F; destruct fuel as [|fuel]; try reflexivity; [cbn in F; lia|]. cbn [length] in F. cbn [call_scan]. rewrite acodes_zero by exact H.
  inversion H as [|? ? A H']; subst. assert (R : 0 <= RvFrameSpec.acode a < 16) by (destruct a; cbn in *; lia). cbn [acodes a_types a_count a_words a_floats a_move a_code a_src].
  destruct (args_land (RvFrameSpec.acode a) (acodes l) R) as (-> & _ & ->). rewrite land_strip, strip_float by exact A.
  rewrite lor_step by (destruct a; cbn in *; lia). change (RvFrameSpec.acode (strip a) + 16 * acodes m) with (acodes (strip a :: m)).
  cbn [map cscan rev]. rewrite <- app_assoc. cbn [app]. destruct (is_float a).
  - apply IH; auto; lia.
  - destruct (arg_kept (n + 1) (wn + 1)); [apply IH; auto; lia|]. cbv zeta. set (hit := match src0 with Some r => _ | None => false end).
    replace (if hit then moves_code w ms +++ movrr w TMP_REG2 (nth (Z.to_nat (n + 1)) word_arg_regs 0) else moves_code w ms) with (moves_code w (if hit then ms ++ [(TMP_REG2, nth (Z.to_nat (n + 1)) word_arg_regs 0)] else ms)).
    + apply IH; auto; lia.
    + destruct hit; [|reflexivity]. rewrite moves_app. cbn [moves_code fold_right fst snd]. rewrite cat_nil_r. reflexivity.
Qed.
Lemma moves_list : forall w l fuel n wn fn, Forall atype_ok l -> (length l <= fuel)%nat -> (forall a, In a l -> strip a = a) ->
  call_moves w fuel (acodes l) n wn fn = match cmv (map is_float l) n wn fn with Some ms => moves_code w ms | None => None end.
Proof.
  intros w l. induction l as [|a l IH]; intros fuel n wn fn H F S; destruct fuel as [|fuel]; try reflexivity; [cbn in F; lia|]. cbn [length] in F. cbn [call_moves]. rewrite acodes_zero by exact H.
  inversion H as [|? ? A H']; subst. assert (R : 0 <= RvFrameSpec.acode a < 16) by (destruct a; cbn in *; lia). cbn [acodes].
  destruct (args_land (RvFrameSpec.acode a) (acodes l) R) as (-> & _ & ->). rewrite land_strip, strip_float by exact A.
  cbn [map cmv]. destruct (is_float a).
  - destruct (n =? fn); [|reflexivity]. apply IH; auto; [lia|]. intros; apply S; right; auto.
  - rewrite IH; auto; [|lia|intros; apply S; right; auto]. destruct (cmv _ _ _ _); [|destruct (arg_kept n wn); [reflexivity|]; destruct (movrr _ _ _); reflexivity].
    rewrite moves_app. f_equal. destruct (arg_kept n wn); [reflexivity|]. cbn [moves_code fold_right fst snd]. rewrite cat_nil_r. reflexivity.
Qed.
Lemma call_args_moves : forall w l t src, Forall atype_ok l -> (length l <= 4)%nat -> 0 <= t < 16 ->
  call_with_args w (t + 16 * acodes l) src = (match fst (cmoves w (map is_float l) src) with Some ms => moves_code w ms | None => None end, snd (cmoves w (map is_float l) src)).
Proof.
  intros w l t src H L T. unfold call_with_args, call_args_win, call_args_unix, cmoves. destruct (args_land t (acodes l) T) as (_ & _ & ->). destruct w.
  - change (mkCA 0 0 0 0 false (Some []) src) with (mkCA (acodes []) 0 0 0 false (moves_code true []) src). rewrite scan_list by (auto; lia).
    destruct (cscan _ _ _ _ _ _ _ _) as [[[[[n wn] fn] mv] ms] src']. cbn [a_code a_move a_types a_count a_words a_floats a_src]. rewrite app_nil_r. cbv zeta. cbn [fst snd]. f_equal.
    destruct mv; [|apply cat_nil_r]. rewrite moves_list.
    + rewrite map_rev, map_map. rewrite (map_ext _ is_float) by apply strip_is. destruct (cmv _ _ _ _); [symmetry; apply moves_app|]. destruct (moves_code true ms); reflexivity.
    + apply Forall_rev. rewrite Forall_map. eapply Forall_impl; [|exact H]. apply strip_ok.
    + rewrite rev_length, map_length. lia.
    + intros a. rewrite <- in_rev, in_map_iff. intros (b & <- & _). destruct b; reflexivity.
  - rewrite word_args_list by (auto; lia). cbv zeta. destruct (cwords _ =? 0); [reflexivity|]. cbn [fst snd]. f_equal. rewrite moves_app.
    destruct (_ || _); cbn [moves_code fold_right fst snd]; rewrite ?cat_nil_r; reflexivity.
Qed.

(** ** What the moves do, by cases *)
Definition arg_sreg (w : bool) (n p : nat) : Z := if w then nth p [XR3; XR1; XR2; TMP_REG1] 0 else nth n [XR2; XR1; TMP_REG1; XR3] 0.
Fixpoint outs (w : bool) (ms : list (Z * Z)) (bl : list bool) (n p : nat) : bool :=
  match bl with
  | [] => true
  | true :: bl => outs w ms bl n (S p)
  | false :: bl => (mfind ms (arg_sreg w n p) =? 1 + Z.of_nat n) && outs w ms bl (S n) (S p)
  end.
Fixpoint ffirst (bl : list bool) : bool := match bl with true :: bl => ffirst bl | bl => forallb negb bl end.
Fixpoint blists (n : nat) : list (list bool) := match n with O => [[]] | S n => [] :: map (cons true) (blists n) ++ map (cons false) (blists n) end.
Definition regs_list := [1;2;3;4;5;6;7;8;9;10;11;12;13;14;15;16].
Definition mov_okb (p : Z * Z) : bool := (1 <=? fst p) && (fst p <=? 16) && (1 <=? snd p) && (snd p <=? 16).
Definition good_moves (w : bool) (bl : list bool) (src : option Z) : bool :=
  match cmoves w bl src with
  | (Some ms, src') => forallb mov_okb ms && outs w ms bl 0 0 && forallb (fun i => mfind ms i =? i) [5;6;7;8;9;10;11;12;13;14]
                       && match src, src' with Some r, Some r' => (1 <=? r') && (r' <=? 16) && (mfind ms r' =? r) | None, None => true | _, _ => false end
  | _ => false
  end.
Definition srcs : list (option Z) := None :: map Some [1;2;3;4;5;6;7;8;9;10;11;12;13;14;16].
Lemma all_good : forallb (fun w => forallb (fun bl => implb (implb w (ffirst bl)) (forallb (good_moves w bl) srcs)) (blists 4)) [true; false] = true.
Proof. vm_compute. reflexivity. Qed.
Lemma blists_in : forall n bl, (length bl <= n)%nat -> In bl (blists n).
Proof.
  induction n as [|n IH]; intros [|b bl] L; cbn [length] in L; try lia; cbn [blists]; [left; reflexivity|left; reflexivity|]. right. apply in_or_app.
  destruct b; [left|right]; apply in_map; apply IH; lia.
Qed.
Lemma ffirst_ok : forall l, floats_first l -> ffirst (map is_float l) = true.
Proof.
  assert (N : forall l, count is_float l = 0 -> forallb negb (map is_float l) = true).
  { induction l as [|a l IH]; intros H; [reflexivity|]. rewrite count_cons in H. pose proof (count_pos is_float l). cbn [map forallb]. destruct (is_float a); [lia|]. cbn [negb andb]. apply IH. lia. }
  induction l as [|[t|t|t] l IH]; intros H; try exact (N _ H). cbn [map is_float ffirst]. apply IH. exact H.
Qed.
Lemma good_moves_ok : forall w l src, (length l <= 4)%nat -> (w = true -> floats_first l) -> In src srcs -> good_moves w (map is_float l) src = true.
Proof.
  intros w l src L FF I. pose proof all_good as A. rewrite forallb_forall in A. specialize (A w ltac:(destruct w; cbn; auto)). cbv beta in A. rewrite forallb_forall in A.
  specialize (A (map is_float l) (blists_in 4 _ ltac:(rewrite map_length; exact L))). cbv beta in A.
  replace (implb w (ffirst (map is_float l))) with true in A by (destruct w; [rewrite ffirst_ok by auto|]; reflexivity). cbn [implb] in A. rewrite forallb_forall in A. apply A. exact I.
Qed.
Lemma outs_ok : forall w ms s s' l n p, (n + length l <= 4)%nat -> (p + length l <= 4)%nat -> outs w ms (map is_float l) n p = true ->
  (forall i, 1 <= i <= 16 -> xr s' (reg_map w i) = xr s (reg_map w (mfind ms i))) -> xargs_out w s s' l n p.
Proof.
  intros w ms s s' l. induction l as [|a l IH]; intros n p L1 L2 O H; [exact I|]. cbn [length] in *.
  assert (ONE : forall n p, (n < 4)%nat -> (p < 4)%nat -> (mfind ms (arg_sreg w n p) =? 1 + Z.of_nat n) = true -> xr s' (arg_reg w n p) = xr s (reg_map w (1 + Z.of_nat n))).
  { clear - H. intros n p N P E. apply Z.eqb_eq in E. rewrite <- E, <- H.
    - f_equal. unfold arg_reg, arg_sreg. destruct w; [destruct p as [|[|[|[|]]]]|destruct n as [|[|[|[|]]]]]; try lia; reflexivity.
    - unfold arg_sreg, XR3, XR1, XR2, TMP_REG1. destruct w; [destruct p as [|[|[|[|]]]]|destruct n as [|[|[|[|]]]]]; cbn; lia. }
  destruct a as [t|t|t]; cbn [map is_float outs xargs_out] in *.
  - apply andb_prop in O. destruct O as (O1 & O2). split; [apply ONE; auto; lia|apply IH; auto; lia].
  - apply andb_prop in O. destruct O as (O1 & O2). split; [apply ONE; auto; lia|apply IH; auto; lia].
  - apply IH; auto; lia.
Qed.
Section U.
Variable u : Z.
Definition src_kept (w : bool) (s s' : xst) (src src' : option Z) : Prop :=
  match src, src' with Some r, Some r' => 1 <= r' <= 16 /\ xr s' (reg_map w r') = xr s (reg_map w r) | None, None => True | _, _ => False end.
(** The arguments are put in their registers, and the address of the function called is still known. *)
Lemma call_args_ok : forall w l t src s, Forall atype_ok l -> (length l <= 4)%nat -> (w = true -> floats_first l) -> 0 <= t < 16 -> In src srcs -> xwf s ->
  cdoes u (fst (call_with_args w (t + 16 * acodes l) src)) s (fun s' => xargs_out w s s' l 0 0 /\ xm s' = xm s /\ (forall i, 5 <= i <= 14 -> xr s' (reg_map w i) = xr s (reg_map w i)) /\
     src_kept w s s' src (snd (call_with_args w (t + 16 * acodes l) src))).
Proof.
  intros w l t src s H L FF T I W. generalize (call_args_moves w l t src H L T). generalize (call_with_args w (t + 16 * acodes l) src). intros ca ->. pose proof (good_moves_ok w l src L FF I) as G. unfold good_moves in G.
  destruct (cmoves w (map is_float l) src) as [[ms|] src']; [|discriminate]. cbn [fst snd]. rewrite !andb_true_iff in G. destruct G as (((G1 & G2) & G3) & G4).
  assert (MO : Forall move_ok ms). { apply Forall_forall. intros p P. rewrite forallb_forall in G1. specialize (G1 p P). unfold mov_okb in G1. unfold move_ok. lia. }
  eapply cdoes_conseq; [apply moves_ok; [exact MO|exact W]|]. intros s' _ (A & B). split; [|split; [exact B|split]].
  - eapply outs_ok; eauto; cbn; lia.
  - intros i J. rewrite A by lia. rewrite forallb_forall in G3. specialize (G3 i). rewrite Z.eqb_eq in G3. rewrite G3; [reflexivity|cbn [In]; lia].
  - unfold src_kept. destruct src as [r|], src' as [r'|]; try discriminate; [|exact Logic.I]. assert (J : 1 <= r' <= 16 /\ mfind ms r' = r) by lia. destruct J as (J1 & J2). split; [exact J1|]. rewrite A, J2 by exact J1. reflexivity.
Qed.

(** ** The stack area *)
Definition framed (w : bool) (L : Z) (s s' : xst) : Prop :=
  xr s' 4 = wrap (xr s 4 - L) /\ (forall i, 1 <= i <= 13 -> xr s' (reg_map w i) = xr s (reg_map w i)) /\ xm s' = xm s.
Lemma framed_trans : forall w a b s s1 s2, framed w a s s1 -> framed w b s1 s2 -> framed w (a + b) s s2.
Proof.
  intros w a b s s1 s2 (A & B & C) (A' & B' & C'). split; [|split].
  - rewrite A', A, wrap_sub_l. f_equal. lia.
  - intros i I. rewrite B', B by exact I. reflexivity.
  - congruence.
Qed.
Lemma framed_refl : forall w s, xwf s -> framed w 0 s s. Proof. intros w s W. split; [rewrite Z.sub_0_r, wrap_small by apply W; reflexivity|auto]. Qed.
Lemma f_sub : forall w v s, 0 <= v < 2 ^ 31 -> xwf s -> cdoes u (sub_imm w SLJIT_SP v) s (framed w v s).
Proof. intros w v s V W. eapply cdoes_conseq; [apply sub_sp; auto|]. intros s' _ (A & B & C). split; [exact A|]. split; [|exact C]. intros. apply B; lia. Qed.
Lemma f_load : forall w d off s, 15 <= d <= 16 -> - 2 ^ 31 <= off < 2 ^ 31 -> xwf s -> cdoes u (load_sp w d off) s (framed w 0 s).
Proof.
  intros w d off s D O W. eapply cdoes_conseq; [apply load_sp_ok; auto; lia|]. intros s' _ (A & B & C). split; [rewrite A, Z.sub_0_r, wrap_small by apply W; reflexivity|]. split; [|exact C]. intros. apply B; lia.
Qed.
Lemma f_seq : forall w a b c1 c2 s, cdoes u c1 s (framed w a s) -> (forall s1, xwf s1 -> framed w a s s1 -> cdoes u c2 s1 (framed w b s1)) -> cdoes u (c1 +++ c2) s (framed w (a + b) s).
Proof. intros w a b c1 c2 s H1 H2. eapply cdoes_seq; [exact H1|]. intros s1 W1 F1. eapply cdoes_conseq; [apply H2; auto|]. intros s2 _ F2. eapply framed_trans; eauto. Qed.
Lemma f_eq : forall w a b c s, a = b -> cdoes u c s (framed w a s) -> cdoes u c s (framed w b s). Proof. intros w a b c s <- H. exact H. Qed.
(** The loop which touches the pages, Windows only *)
Definition probe_body : option (list Z) := load_sp true TMP_REG2 (-4096) +++ sub_imm true SLJIT_SP 4096 +++ sub_imm true TMP_REG1 1.
Lemma probe_body_ok : forall s n, 1 <= n < 2 ^ 31 -> xwf s -> xr s 9 = n ->
  cdoes u probe_body s (fun s' => framed true 4096 s s' /\ xr s' 9 = n - 1 /\ xzf s' = Some (n =? 1)).
Proof.
  intros s n N W V. unfold probe_body. eapply cdoes_seq; [apply load_sp_ok; auto; unfold TMP_REG2; lia|]. intros s1 W1 (A1 & B1 & C1).
  eapply cdoes_seq; [apply sub_sp; auto; lia|]. intros s2 W2 (A2 & B2 & C2).
  assert (V2 : xr s2 9 = n). { change 9 with (reg_map true 15). rewrite B2, B1 by (unfold TMP_REG2; lia). exact V. }
  apply does_cdoes. eapply does_conseq; [apply (alu_imm_ok u true false Sub 1 (AReg TMP_REG1) 0 s2 false); try discriminate; [intros _; lia|split; [unfold genop, isreg, TMP_REG1; lia|discriminate]|exact W2]|].
  intros s' _ ((A & M & RS) & FL). change (reg_map true TMP_REG1) with 9 in *. cbn [xval alu_val alu_res fst size_of alu_fl] in *. change (reg_map true TMP_REG1) with 9 in *.
  rewrite V2 in *. change (1 mod 2 ^ 64) with 1 in *. rewrite !(Z.mod_small n) in * by lia. rewrite !(Z.mod_small (n - 1)) in * by lia.
  assert (RG : forall i, 1 <= i <= 14 -> xr s' (reg_map true i) = xr s2 (reg_map true i)) by (intros i I; apply RS; [lia|cbn [ftmp far In]; unfold TMP_REG1; intuition lia]).
  split; [|split; [exact A|]].
  - split; [|split].
    + change 4 with (reg_map true 14). rewrite RG by lia. change (reg_map true 14) with 4. rewrite A2, A1. reflexivity.
    + intros i I. rewrite RG, B2, B1 by (unfold TMP_REG2; lia). reflexivity.
    + congruence.
  - destruct FL as (_ & Z1 & _). rewrite Z1. unfold zfl. rewrite Z.mod_small by lia. f_equal. lia.
Qed.
Lemma probe_loop_ok : forall n s, 1 <= Z.of_nat n < 2 ^ 31 -> xwf s -> xr s 9 = Z.of_nat n -> cdoes u (probe_loop true) s (framed true (4096 * Z.of_nat n) s).
Proof.
  assert (EB : exists body, probe_body = Some body /\ zlen body = 19) by (eexists; split; vm_compute; reflexivity). destruct EB as (body & EB & LB).
  assert (EL : probe_loop true = Some (body ++ [0x75; 0xeb])).
  { change (probe_loop true) with (load_sp true TMP_REG2 (-4096) +++ sub_imm true SLJIT_SP 4096 +++ sub_imm true TMP_REG1 1 +++ Some [0x75; u8 (-21)]). rewrite <- !cat_assoc. rewrite !cat_assoc.
    replace (load_sp true TMP_REG2 (-4096) +++ sub_imm true SLJIT_SP 4096 +++ sub_imm true TMP_REG1 1 +++ Some [117; u8 (-21)]) with (probe_body +++ Some [117; u8 (-21)]) by (unfold probe_body; rewrite !cat_assoc; reflexivity).
    rewrite EB. reflexivity. }
  induction n as [|n IH]; intros s N W V; [lia|].
  destruct (probe_body_ok s (Z.of_nat (S n)) N W V) as (l & El & s1 & (F1 & V1 & Z1) & W1 & R1). rewrite EB in El. injection El as <-.
  assert (STEP : forall codef a, 0 <= a -> a + zlen (body ++ [0x75; 0xeb]) + 15 < 2 ^ 64 -> fetches a 0 (body ++ [0x75; 0xeb]) codef ->
    csteps codef u a s (if Z.of_nat (S n) =? 1 then a + zlen (body ++ [0x75; 0xeb]) else a) s1).
  { intros codef a A0 AL F. pose proof (zlen_app body [0x75; 0xeb]) as ZL. change (zlen [117; 235]) with 2 in ZL.
    eapply csteps_trans; [apply (R1 codef a A0 ltac:(lia)); eapply fetches_pre; exact F|].
    destruct (step_at a 0 (body ++ [0x75; 0xeb]) codef u 19 [0x75; 0xeb] s1 F) as (tl & _ & ST).
    { exists body, []. split; [rewrite app_nil_r; reflexivity|exact LB]. } { cbn; lia. }
    assert (D : decode_ctl ([117; 235] ++ tl) = Some (CJcc 5 (-21), tl)) by reflexivity. rewrite D in ST. clear D.

 rewrite Nat.eqb_refl in ST. cbv zeta in ST. unfold xpos in ST. change (zlen [117; 235]) with 2 in ST.
    assert (IW : forall x, 0 <= x <= a + zlen (body ++ [0x75; 0xeb]) -> isw x) by (intros x X; unfold isw; lia).
    rewrite LB. rewrite !Z.add_0_r in ST. eapply csteps_one; [|apply csteps_refl].
    etransitivity; [exact ST|]. change (cond_val s1 5) with (match xzf s1 with Some b => Some (negb b) | None => None end). rewrite Z1. 
    destruct (Z.of_nat (S n) =? 1); cbn [negb]; repeat f_equal.
    - rewrite wrap_small by (apply IW; lia). lia.
    - rewrite (wrap_small (a + (19 + 2))) by (apply IW; lia). rewrite wrap_small by (apply IW; lia). lia. }
  rewrite EL. exists (body ++ [0x75; 0xeb]). split; [reflexivity|]. destruct (Z.eqb_spec (Z.of_nat (S n)) 1) as [E|NE].
  - exists s1. split; [rewrite E; exact F1|]. split; [exact W1|]. exact STEP.
  - destruct (IH s1 ltac:(lia) W1 ltac:(lia)) as (l & El & s2 & F2 & W2 & R2). rewrite EL in El. injection El as <-. exists s2. split; [|split; [exact W2|]].
    + replace (4096 * Z.of_nat (S n)) with (4096 + 4096 * Z.of_nat n) by lia. eapply framed_trans; eauto.
    + intros codef a A0 AL F. eapply csteps_trans; [apply (STEP codef a A0 AL F)|]. apply (R2 codef a A0 AL F).
Qed.
Lemma enter_frame_ok : forall w L s, 0 <= L < 2 ^ 22 -> xwf s -> cdoes u (enter_frame w L) s (framed w L s).
Proof.
  intros w L s HL W. unfold enter_frame. destruct (Z.gtb_spec L 0) as [P|P].
  2:{ replace L with 0 by lia. destruct w; (apply cdoes_nil; [exact W|apply framed_refl; exact W]). }
  destruct w; [|apply f_sub; auto; lia].
  assert (LD : forall (b : bool) off s1, - 2 ^ 31 <= off < 2 ^ 31 -> xwf s1 -> cdoes u (if b then load_sp true TMP_REG1 off else Some []) s1 (framed true 0 s1)).
  { intros b off s1 O W1. destruct b; [apply f_load; auto; unfold TMP_REG1; lia|]. apply cdoes_nil; [exact W1|apply framed_refl; exact W1]. }
  assert (LAST : forall v s1, 0 <= v < 2 ^ 22 -> xwf s1 -> cdoes u (if v >? 0 then load_sp true TMP_REG1 (- v) +++ sub_imm true SLJIT_SP v else Some []) s1 (framed true v s1)).
  { intros v s1 V W1. destruct (Z.gtb_spec v 0).
    - apply (f_eq true (0 + v)); [lia|]. apply f_seq; [apply f_load; auto; unfold TMP_REG1; lia|]. intros s2 W2 _. apply f_sub; auto; lia.
    - replace v with 0 by lia. apply cdoes_nil; [exact W1|apply framed_refl; exact W1]. }
  destruct (Z.leb_spec L (4 * 4096)) as [S|B]; cbv zeta.
  - apply (f_eq true (0 + (0 + 0) + L)); [lia|]. apply f_seq; [|intros; apply LAST; auto].
    apply f_seq; [apply LD; auto; lia|]. intros s1 W1 _. apply f_seq; [apply LD; auto; lia|]. intros s2 W2 _. apply LD; auto; lia.
  - assert (LM : L = 4096 * Z.shiftr L 12 + Z.land L 0xfff).
    { change 0xfff with (Z.ones 12). rewrite Z.shiftr_div_pow2, Z.land_ones by lia. apply Z.div_mod. lia. }
    assert (LB : 0 <= Z.land L 0xfff < 4096) by (change 0xfff with (Z.ones 12); rewrite Z.land_ones by lia; apply Z.mod_pos_bound; lia).
    eapply f_eq; [symmetry; exact LM|]. apply f_seq; [|intros; apply LAST; auto; lia]. replace (4096 * Z.shiftr L 12) with (0 + 4096 * Z.shiftr L 12) by lia.
    eapply cdoes_seq; [apply does_cdoes; apply (movr_ok u true false TMP_REG1 AImm (Z.shiftr L 12) s); [unfold TMP_REG1; lia|cbn [sok]; lia|exact W]|].
    intros s1 W1 ((M & RS) & V & _). change (reg_map true TMP_REG1) with 9 in V. cbn [xval size_of] in V. rewrite Z.mod_small in V by lia.
    assert (F1 : framed true 0 s s1).
    { split; [|split; [|exact M]].
      - rewrite Z.sub_0_r, wrap_small by apply W. change 4 with (reg_map true 14). apply RS; [lia|]. cbn [ftmp far In]. unfold TMP_REG1. intuition lia.
      - intros i I. apply RS; [lia|]. cbn [ftmp far In]. unfold TMP_REG1. intuition lia. }
    replace (Z.shiftr L 12) with (Z.of_nat (Z.to_nat (Z.shiftr L 12))) in * by lia.
    eapply cdoes_conseq; [apply (probe_loop_ok (Z.to_nat (Z.shiftr L 12)) s1); [lia|exact W1|lia]|]. intros s2 _ F2. eapply framed_trans; [exact F1|exact F2].
Qed.
End U.
