(** Programs whose constants and jumps are changed after their code was generated: proofs for the property C45. *)
Require Import ZArith List Bool Lia.
From Verif Require Import Rv.RvLib Rv.RvIsa Rv.RvMem Rv.RvOp Rv.RvLir Rv.RvCond Rv.RvCondSpec X86.X86Isa X86.X86Emit X86.X86Spec X86.X86OpSpec X86.X86Op X86.X86Cond X86.X86Op1 X86.X86Link X86.X86LinkSpec X86.X86LinkOps
  X86.X86LinkAll X86.X86LinkHist X86.X86C38 X86.X86Fetch X86.X86Const X86.X86ConstP X86.X86Lir X86.X86Prog.
Import ListNotations.
Ltac Zify.zify_post_hook ::= idtac.
Open Scope Z_scope.

(** ** Calls with new targets and constants *)
Fixpoint nconst (l : list call) : nat := match l with [] => O | KConst :: l => S (nconst l) | _ :: l => nconst l end.
Definition tgts := nat -> option nat.
Fixpoint rt (j : nat) (tg : tgts) (l : list call) : list call :=
  match l with
  | [] => []
  | KJump kd true t :: l => KJump kd true (match tg j with Some n => TLabel n | None => t end) :: rt (S j) tg l
  | KJump kd false t :: l => KJump kd false t :: rt (S j) tg l
  | KMov r t :: l => KMov r t :: rt (S j) tg l
  | k :: l => k :: rt j tg l
  end.
Fixpoint chg (n j : nat) (v : vals) (tg : tgts) (G : list (list call)) : list (list call) :=
  match G with [] => [] | x :: G => rt j tg (with_consts n v x) :: chg (n + nconst x) (j + njump x) v tg G end.
Lemma nconst_app : forall a b, nconst (a ++ b) = (nconst a + nconst b)%nat.
Proof. induction a as [|[] a IH]; intros b; cbn [app nconst]; rewrite ?IH; reflexivity. Qed.
Lemma njump_app : forall a b, njump (a ++ b) = (njump a + njump b)%nat.
Proof. induction a as [|[] a IH]; intros b; cbn [app njump]; rewrite ?IH; reflexivity. Qed.
Lemma njump_wc : forall a n v, njump (with_consts n v a) = njump a.
Proof. induction a as [|[] a IH]; intros n v; cbn [with_consts njump]; rewrite ?IH; reflexivity. Qed.
Lemma wc_app : forall a b n v, kconst b = false -> with_consts n v (a ++ b) = with_consts n v a ++ with_consts (n + nconst a) v b.
Proof.
  induction a as [|k a IH]; intros b n v K; [cbn [app nconst with_consts]; rewrite Nat.add_0_r; reflexivity|].
  destruct k; cbn [app with_consts nconst]; rewrite ?IH by exact K; rewrite ?Nat.add_succ_r; try reflexivity. f_equal. f_equal. destruct a as [|[] a]; cbn [app kconst]; rewrite ?K; reflexivity.
Qed.
Lemma rt_app : forall a b j tg, rt j tg (a ++ b) = rt j tg a ++ rt (j + njump a) tg b.
Proof.
  induction a as [|k a IH]; intros b j tg; [cbn [app njump rt]; rewrite Nat.add_0_r; reflexivity|].
  destruct k as [| | |kd [] t| |]; cbn [app rt njump]; rewrite ?IH, ?Nat.add_succ_r; reflexivity.
Qed.
Lemma kconst_concat : forall G, Forall (fun x => kconst x = false) G -> kconst (concat G) = false.
Proof. intros G F. induction F as [|x G K F IH]; [reflexivity|]. cbn [concat]. destruct x as [|[] x]; try discriminate; try reflexivity. exact IH. Qed.
Lemma chg_concat : forall v tg G n j, Forall (fun x => kconst x = false) G -> concat (chg n j v tg G) = rt j tg (with_consts n v (concat G)).
Proof.
  intros v tg. induction G as [|x G IH]; intros n j F; [reflexivity|]. apply Forall_cons_iff in F as [K F]. cbn [chg concat]. rewrite wc_app by (apply kconst_concat, F). rewrite rt_app, njump_wc, IH by exact F. reflexivity.
Qed.
Lemma chg_nth : forall v tg G n j i x, nth_error G i = Some x -> nth_error (chg n j v tg G) i = Some (rt (j + njump (concat (firstn i G))) tg (with_consts (n + nconst (concat (firstn i G))) v x)).
Proof.
  intros v tg. induction G as [|y G IH]; intros n j [|i] x N; try discriminate; cbn [nth_error chg firstn concat] in *.
  - injection N as ->. cbn [njump nconst]. rewrite !Nat.add_0_r. reflexivity.
  - rewrite (IH _ _ _ _ N), njump_app, nconst_app, !Nat.add_assoc. reflexivity.
Qed.
Lemma chg_len : forall v tg G n j, length (chg n j v tg G) = length G.
Proof. intros v tg. induction G as [|x G IH]; intros n j; [reflexivity|]. cbn [chg length]. f_equal. apply IH. Qed.
Lemma rt_ins : forall parts j tg, rt j tg (map KIns parts) = map KIns parts.
Proof. induction parts as [|x parts IH]; intros j tg; [reflexivity|]. cbn [map rt]. rewrite IH. reflexivity. Qed.
Lemma wc_ins : forall parts n v, with_consts n v (map KIns parts) = map KIns parts.
Proof. induction parts as [|x parts IH]; intros n v; [reflexivity|]. cbn [map with_consts]. rewrite IH. destruct parts; reflexivity. Qed.
Lemma wc_const : forall parts x post n v, with_consts n v (map KIns (parts ++ [x]) ++ KConst :: map KIns post) = map KIns (parts ++ [repl (v n) x]) ++ KConst :: map KIns post.
Proof.
  induction parts as [|y parts IH]; intros x post n v; [cbn [app map with_consts kconst]; rewrite wc_ins; reflexivity|]. cbn [app map with_consts]. rewrite IH. destruct parts; reflexivity.
Qed.
Lemma nconst_ins : forall parts, nconst (map KIns parts) = 0%nat. Proof. induction parts; cbn; auto. Qed.
Lemma njump_ins : forall parts, njump (map KIns parts) = 0%nat. Proof. induction parts; cbn; auto. Qed.
Lemma pre_number : forall a pre y done, pre_of (restf done (a ++ KIns pre :: KConst :: y)) (nconst a) = Some pre.
Proof.
  induction a as [|k a IH]; intros pre y done.
  - cbn [app restf kop nconst pre_of oconst]. reflexivity.
  - destruct k as [bs| |al|kd rw t|reg t|]; cbn [app restf kop nconst pre_of]; try apply IH.
    + destruct (kconst (a ++ KIns pre :: KConst :: y)) eqn:K.
      * rewrite oconst_restf by exact K. destruct a as [|[] a]; try discriminate. specialize (IH pre y (done ++ [OIns bs])). cbn [nconst] in *. exact IH.
      * rewrite oconst_restf' by (try exact K; rewrite st_app; reflexivity). apply IH.
    + destruct (ends_label done); cbn [app pre_of]; apply IH.
    + destruct (al <=? 0); [destruct (ends_label done)|]; cbn [app pre_of]; apply IH.
Qed.

(** ** States which give the same numbers *)
Definition simc (c c' : comp) : Prop := clabels c = clabels c' /\ length (cjumps c) = length (cjumps c') /\ length (cconsts c) = length (cconsts c') /\ csize c = csize c'.
Definition same_call (k k' : call) : Prop :=
  match k, k' with
  | KIns a, KIns b => length a = length b
  | KLabel, KLabel | KConst, KConst => True
  | KAlign a, KAlign b => a = b
  | KJump k r _, KJump k' r' _ => k = k' /\ r = r'
  | KMov r t, KMov r' t' => r = r' /\ t = t'
  | _, _ => False
  end.
Lemma simc_refl : forall c, simc c c. Proof. intros c. repeat split. Qed.
Section Sim.
Variable w : bool.
Lemma simc_label : forall c c', simc c c' -> simc (emit_label c) (emit_label c').
Proof.
  intros c c' (A & B & C & D). unfold emit_label, last_label. rewrite <- A, <- D. destruct (rev (clabels c)) as [|l r]; [|destruct (lsize l =? csize c)]; repeat split; cbn [clabels cjumps cconsts csize]; congruence.
Qed.
Lemma simc_emit : forall c c' k k', simc c c' -> same_call k k' -> simc (emit w c k) (emit w c' k').
Proof.
  intros c c' k k' S K. pose proof S as (A & B & C & D). destruct k, k'; cbn [same_call] in K; try contradiction; cbn [emit].
  - repeat split; cbn [clabels cjumps cconsts csize]; try assumption. unfold zlen. rewrite D, K. reflexivity.
  - apply simc_label, S.
  - subst al0. unfold emit_aligned. destruct (al <=? 0); [apply simc_label, S|]. repeat split; cbn [clabels cjumps cconsts csize]; congruence.
  - destruct K as [-> ->]. repeat split; cbn [emit_jump clabels cjumps cconsts csize]; rewrite ?app_length; cbn [length]; congruence.
  - destruct K as [-> ->]. repeat split; cbn [emit_mov_addr clabels cjumps cconsts csize]; rewrite ?app_length; cbn [length]; congruence.
  - repeat split; cbn [clabels cjumps cconsts csize]; rewrite ?app_length; cbn [length]; congruence.
Qed.
Lemma simc_fold : forall l l' c c', Forall2 same_call l l' -> simc c c' -> simc (fold_left (emit w) l c) (fold_left (emit w) l' c').
Proof. intros l l' c c' F. revert c c'. induction F as [|k k' l l' K F IH]; intros c c' S; [exact S|]. cbn [fold_left]. apply IH, simc_emit; assumption. Qed.
Lemma njump_len : forall l c, length (cjumps (fold_left (emit w) l c)) = (length (cjumps c) + njump l)%nat.
Proof.
  induction l as [|k l IH]; intros c; cbn [fold_left njump]; [lia|]. rewrite IH. assert (L : forall c, length (cjumps (emit_label c)) = length (cjumps c)).
  { intros x. unfold emit_label. destruct (last_label x) as [l0|]; [destruct (lsize l0 =? csize x)|]; reflexivity. }
  destruct k; cbn [emit emit_jump emit_mov_addr cjumps njump]; rewrite ?L, ?app_length; cbn [length]; try lia. unfold emit_aligned. destruct (al <=? 0); [rewrite L|]; reflexivity.
Qed.
Lemma nconst_len : forall l c, length (cconsts (fold_left (emit w) l c)) = (length (cconsts c) + nconst l)%nat.
Proof.
  induction l as [|k l IH]; intros c; cbn [fold_left nconst]; [lia|]. rewrite IH. assert (L : forall c, length (cconsts (emit_label c)) = length (cconsts c)).
  { intros x. unfold emit_label. destruct (last_label x) as [l0|]; [destruct (lsize l0 =? csize x)|]; reflexivity. }
  destruct k; cbn [emit emit_jump emit_mov_addr cconsts nconst]; rewrite ?L, ?app_length; cbn [length]; try lia. unfold emit_aligned. destruct (al <=? 0); [rewrite L|]; reflexivity.
Qed.
(** The code with rewritten jumps is code with other targets. *)
Lemma laid_rt : forall code eo g b cur tg calls c c' pos, simc c c' -> (forall n, cur n = option_map (fun l => taddr g (TLabel l)) (tg n)) ->
  laid w code eo g b cur c calls pos -> laid w code eo g b (fun _ => None) c' (rt (length (cjumps c)) tg calls) pos.
Proof.
  intros code eo g b cur tg. induction calls as [|k calls IH]; intros c c' pos S CT L; [exact L|]. destruct L as (pos' & LE & CL & L).
  assert (SR : forall k', same_call k k' -> call_laid w code eo g b (fun _ => None) c' k' pos pos' ->
    laid w code eo g b (fun _ => None) c' (k' :: rt (length (cjumps (emit w c k))) tg calls) pos).
  { intros k' K Q. exists pos'. split; [exact LE|]. split; [exact Q|]. apply IH; [apply simc_emit; assumption|exact CT|exact L]. }
  assert (LAB : forall c, length (cjumps (emit_label c)) = length (cjumps c)).
  { intros x. unfold emit_label. destruct (last_label x) as [l0|]; [destruct (lsize l0 =? csize x)|]; reflexivity. }
  assert (RL : forall k', same_call k k' -> ret_label (emit w c' k') = ret_label (emit w c k)).
  { intros k' K. destruct (simc_emit _ _ _ _ S K) as (A & _). unfold ret_label. rewrite A. reflexivity. }
  destruct k as [bs| |al|kd rw t|reg t|]; cbn [rt].
  - apply (SR (KIns bs)); [reflexivity|exact CL].
  - specialize (SR KLabel Logic.I). cbn [emit] in SR. rewrite LAB in SR. apply SR. cbn [call_laid] in *. rewrite (RL KLabel Logic.I). exact CL.
  - specialize (SR (KAlign al) eq_refl). cbn [emit] in SR. replace (length (cjumps (emit_aligned c al))) with (length (cjumps c)) in SR by (unfold emit_aligned; destruct (al <=? 0); [rewrite LAB|]; reflexivity). apply SR.
    cbn [call_laid] in *. rewrite (RL (KAlign al) eq_refl). exact CL.
  - assert (LJ : length (cjumps (emit w c (KJump kd rw t))) = Datatypes.S (length (cjumps c))) by (cbn [emit emit_jump cjumps]; rewrite app_length; cbn; lia). rewrite LJ in SR.
    destruct rw; (apply SR; [split; reflexivity|]); cbn [call_laid] in *; cbv zeta in *; [|exact CL]. intros _. rewrite CT in CL. destruct (tg (length (cjumps c))) as [l|]; cbn [option_map] in CL; apply CL; destruct t; cbn [bad_jump]; intuition discriminate.
  - assert (LJ : length (cjumps (emit w c (KMov reg t))) = Datatypes.S (length (cjumps c))) by (cbn [emit emit_mov_addr cjumps]; rewrite app_length; cbn; lia). rewrite LJ in SR. apply SR; [split; reflexivity|exact CL].
  - apply (SR KConst); [exact Logic.I|]. cbn [call_laid] in *. destruct S as (_ & _ & S3 & _). rewrite <- S3. exact CL.
Qed.
End Sim.

(** ** Changed programs *)
Definition last_c (h : list lch) (i : nat) : option Z := fold_left (fun r e => match e with HConst m v => if Nat.eqb m i then Some v else r | _ => r end) h None.
Definition last_j (h : list lch) (i : nat) : option nat := fold_left (fun r e => match e with HJump m to => if Nat.eqb m i then Some to else r | _ => r end) h None.
Definition now (h : list lch) (i : nat) (x : lir) : lir :=
  match x with
  | LConst c D Dw v => LConst c D Dw (match last_c h i with Some v' => v' | None => v end)
  | LJump t rewr to => LJump t rewr (match last_j h i with Some to' => to' | None => to end)
  | _ => x
  end.
Lemma set_at_nth : forall f p i j, nth_error (set_at i f p) j = if Nat.eqb i j then option_map f (nth_error p j) else nth_error p j.
Proof.
  intros f. induction p as [|x p IH]; intros i j; [destruct i, j; cbn; try reflexivity; destruct (Nat.eqb i j); reflexivity|]. destruct i, j; cbn [set_at nth_error Nat.eqb]; try reflexivity. apply IH.
Qed.
Lemma change_nth : forall h p i, nth_error (fold_left change h p) i = option_map (now h i) (nth_error p i).
Proof.
  intros h p i. induction h as [|e h IH] using rev_ind.
  - cbn [fold_left]. destruct (nth_error p i) as [x|]; [|reflexivity]. cbn [option_map]. destruct x; reflexivity.
  - rewrite fold_left_app. cbn [fold_left]. change (change (fold_left change h p) e) with (set_at (ch_at e) (change1 e) (fold_left change h p)). rewrite set_at_nth, IH. destruct (nth_error p i) as [x|]; [|destruct (Nat.eqb (ch_at e) i); reflexivity]. cbn [option_map].
    destruct (Nat.eqb (ch_at e) i) eqn:E; cbn [option_map]; f_equal; destruct e as [m to|m v]; cbn [ch_at] in E; destruct x; cbn [change1 now]; unfold last_c, last_j; rewrite ?fold_left_app; cbn [fold_left]; rewrite ?E; reflexivity.
Qed.
Lemma set_at_len : forall f p i, length (set_at i f p) = length p.
Proof. intros f. induction p as [|x p IH]; intros [|i]; cbn [set_at length]; rewrite ?IH; reflexivity. Qed.
Lemma change_len : forall h p, length (fold_left change h p) = length p.
Proof. induction h as [|e h IH]; intros p; [reflexivity|]. cbn [fold_left]. rewrite IH. apply set_at_len. Qed.
Lemma now_label : forall h i x, is_label (now h i x) = is_label x. Proof. intros h i []; reflexivity. Qed.
Section Changed.
Variables (w lz tz cmov : bool) (p : list lir) (G : list (list call)) (code eo : Z).
Hypothesis C : compiled w lz tz cmov p G.
Hypothesis OK : Forall (lir_ok p) p.
Variables (h : list lch).
Hypothesis H : Forall (ch_ok p) h.
Let p' := fold_left change h p.
Lemma jno_eq : forall i, jno w G i = njump (concat (firstn i G)). Proof. intros i. apply njump_len. Qed.
Lemma cno_eq : forall i, cno w G i = nconst (concat (firstn i G)). Proof. intros i. apply nconst_len. Qed.
Lemma count_lt : forall (f : list call -> nat), (forall a b, f (a ++ b) = (f a + f b)%nat) -> f [] = 0%nat -> forall i j x, nth_error G i = Some x -> (i < j)%nat -> (f (concat (firstn i G)) + f x <= f (concat (firstn j G)))%nat.
Proof.
  intros f FA F0 i j x N L. revert i x N L. clear - FA F0. revert j. induction G as [|y L IH]; intros j [|i] x N LT; try discriminate; destruct j as [|j]; try lia; cbn [firstn concat nth_error] in *; rewrite ?FA.
  - injection N as ->. rewrite F0. lia.
  - specialize (IH j i x N). lia.
Qed.
Lemma jno_inj : forall i j t r to t' r' to', nth_error p i = Some (LJump t r to) -> nth_error p j = Some (LJump t' r' to') -> jno w G i = jno w G j -> i = j.
Proof.
  intros i j t r to t' r' to' N M E. rewrite !jno_eq in E. destruct (comp_nth w lz tz cmov p G C OK _ _ N) as (x & X & -> & _). destruct (comp_nth w lz tz cmov p G C OK _ _ M) as (y & Y & -> & _).
  pose proof (count_lt njump njump_app eq_refl _ j _ X). pose proof (count_lt njump njump_app eq_refl _ i _ Y). cbn [njump] in *. lia.
Qed.
Lemma const_one : forall c D Dw v calls, const_pieces w c D Dw v calls -> nconst calls = 1%nat /\ njump calls = 0%nat.
Proof. intros c D Dw v calls (parts & x & post & -> & _). rewrite nconst_app, njump_app, nconst_ins, njump_ins. cbn [nconst njump]. rewrite nconst_ins, njump_ins. split; reflexivity. Qed.
Lemma cno_inj : forall i j c D Dw v c' D' Dw' v', nth_error p i = Some (LConst c D Dw v) -> nth_error p j = Some (LConst c' D' Dw' v') -> cno w G i = cno w G j -> i = j.
Proof.
  intros i j c D Dw v c' D' Dw' v' N M E. rewrite !cno_eq in E. destruct (comp_nth w lz tz cmov p G C OK _ _ N) as (x & X & CX & _). destruct (comp_nth w lz tz cmov p G C OK _ _ M) as (y & Y & CY & _).
  apply const_one in CX as [CX _]. apply const_one in CY as [CY _].
  pose proof (count_lt nconst nconst_app eq_refl _ j _ X). pose proof (count_lt nconst nconst_app eq_refl _ i _ Y). lia.
Qed.
(** The changes in terms of records of the linker. *)
Variable g : gen.
Definition wev_of (e : lch) : wev :=
  match e with
  | HJump i to => WJump (jno w G i) (laddr (nth (lno w G to) (rlabels g) (mkXL 0 None 0)))
  | HConst i v => match nth_error p i with Some (LConst c _ _ _) => WConst (cno w G i) (const_bytes c v) | _ => WConst 0 [] end
  end.
Definition tgt_of (n : nat) : option nat := fold_left (fun r e => match e with HJump i to => if Nat.eqb (jno w G i) n then Some (lno w G to) else r | _ => r end) h None.
Definition val_of : vals := wlast_c (map wev_of h).
Definition G' := chg 0 0 val_of tgt_of G.
Lemma tgt_cur : forall n, wlast_j (map wev_of h) n = option_map (fun l => taddr g (TLabel l)) (tgt_of n).
Proof.
  intros n. unfold wlast_j, tgt_of. rewrite <- fold_left_rev_right, <- fold_left_rev_right, <- map_rev. pose proof (Forall_rev H) as HR. induction HR as [|e l E F IH]; [reflexivity|]. cbn [map fold_right]. rewrite IH. destruct e as [i to|i v]; cbn [wev_of].
  - destruct (Nat.eqb (jno w G i) n); reflexivity.
  - destruct E as [(c & D & Dw & old & ->) _]. reflexivity.
Qed.
Lemma tgt_at : forall i t r to, nth_error p i = Some (LJump t r to) -> tgt_of (jno w G i) = option_map (lno w G) (last_j h i).
Proof.
  intros i t r to N. unfold tgt_of, last_j. rewrite <- !fold_left_rev_right. pose proof (Forall_rev H) as HR. induction HR as [|e l E F IH]; [reflexivity|]. cbn [fold_right]. rewrite IH. destruct e as [m to'|m v]; [|reflexivity].
  destruct E as [(t' & old & M) _]. destruct (Nat.eqb m i) eqn:Q; [apply Nat.eqb_eq in Q as ->; rewrite Nat.eqb_refl; reflexivity|]. destruct (Nat.eqb (jno w G m) (jno w G i)) eqn:Q2; [|reflexivity].
  apply Nat.eqb_eq in Q2. pose proof (jno_inj _ _ _ _ _ _ _ _ M N Q2). subst m. rewrite Nat.eqb_refl in Q. discriminate.
Qed.
Lemma val_at : forall i c D Dw v, nth_error p i = Some (LConst c D Dw v) -> val_of (cno w G i) = option_map (const_bytes c) (last_c h i).
Proof.
  intros i c D Dw v N. unfold val_of, wlast_c, last_c. rewrite <- !fold_left_rev_right, <- map_rev. pose proof (Forall_rev H) as HR. induction HR as [|e l E F IH]; [reflexivity|]. cbn [map fold_right]. rewrite IH. destruct e as [m to'|m v']; [reflexivity|]. cbn [wev_of].
  destruct E as [(c' & D' & Dw' & old & M) _]. rewrite M. destruct (Nat.eqb m i) eqn:Q.
  - apply Nat.eqb_eq in Q as ->. rewrite M in N. injection N as -> -> -> ->. rewrite Nat.eqb_refl. reflexivity.
  - destruct (Nat.eqb (cno w G m) (cno w G i)) eqn:Q2; [|reflexivity]. apply Nat.eqb_eq in Q2. pose proof (cno_inj _ _ _ _ _ _ _ _ _ _ M N Q2). subst m. rewrite Nat.eqb_refl in Q. discriminate.
Qed.
Lemma const_len : forall c v v', length (const_bytes c v) = length (const_bytes c v'). Proof. intros [] v v'; reflexivity. Qed.
(** Each call of the changed program: the changed calls of the code generator. *)
Lemma changed1 : forall i x calls, nth_error p i = Some x -> nth_error G i = Some calls ->
  exists calls', nth_error G' i = Some calls' /\ Forall2 same_call calls calls' /\ compiled1 w lz tz cmov G (now h i x) calls'.
Proof.
  intros i x calls N NG. eexists. split; [unfold G'; apply chg_nth; exact NG|]. cbn [Nat.add]. rewrite <- jno_eq, <- cno_eq.
  destruct (comp_nth w lz tz cmov p G C OK _ _ N) as (cs & E & CO & LO). rewrite NG in E. injection E as <-.
  assert (SR : forall l, Forall2 same_call (map KIns l) (map KIns l)) by (induction l; constructor; [reflexivity|assumption]).
  assert (PC : forall e, pieces e calls -> Forall2 same_call calls (rt (jno w G i) tgt_of (with_consts (cno w G i) val_of calls)) /\ pieces e (rt (jno w G i) tgt_of (with_consts (cno w G i) val_of calls))).
  { intros e (parts & -> & F & Q). rewrite wc_ins, rt_ins. split; [apply SR|]. exists parts. auto. }
  destruct x; cbn [compiled1 now] in *; try (apply PC, CO; fail); try (subst calls; cbn [with_consts rt]; split; [repeat constructor|reflexivity]; fail).
  - destruct CO as (parts & x & post & -> & F & Q). rewrite wc_const, rt_app, rt_ins. cbn [rt]. rewrite rt_ins, (val_at _ _ _ _ _ N).
    destruct (last_c h i) as [v'|]; cbn [option_map repl].
    + rewrite app_length, (const_len c v' v). replace (length x + length (const_bytes c v) - length (const_bytes c v))%nat with (length x) by lia. rewrite firstn_app, Nat.sub_diag, firstn_all. cbn [firstn]. rewrite app_nil_r. split.
      * rewrite !map_app. rewrite <- !app_assoc. apply Forall2_app; [apply SR|]. constructor; [cbn [same_call]; rewrite !app_length, (const_len c v' v); reflexivity|]. constructor; [exact Logic.I|apply SR].
      * exists parts, x, post. split; [reflexivity|]. split; [exact F|]. destruct (const_shape _ _ _ _ _ _ _ Q) as (hd & HD & ALL). rewrite ALL. f_equal. f_equal. rewrite app_assoc in HD. rewrite app_assoc. f_equal.
        apply (f_equal (@rev Z)) in HD. rewrite !rev_app_distr in HD. apply app_inv_head in HD. apply (f_equal (@rev Z)) in HD. rewrite rev_involutive in HD. rewrite <- HD, rev_app_distr, !rev_involutive. reflexivity.
    + split; [apply Forall2_app; [apply SR|]; constructor; [exact Logic.I|apply SR]|]. exists parts, x, post. auto.
  - subst calls. cbn [with_consts]. destruct rewr; cbn [rt].
    + rewrite (tgt_at _ _ _ _ N). split; [repeat constructor|]. destruct (last_j h i); reflexivity.
    + split; [repeat constructor|]. enough (last_j h i = None) as -> by reflexivity. unfold last_j. rewrite <- fold_left_rev_right. pose proof (Forall_rev H) as HR. induction HR as [|e l E F IH]; [reflexivity|]. cbn [fold_right]. rewrite IH.
      destruct e as [m to'|m v]; [|reflexivity]. destruct (Nat.eqb m i) eqn:Q; [|reflexivity]. apply Nat.eqb_eq in Q. subst m. destruct E as [(t' & old & M) _]. rewrite M in N. discriminate.
Qed.
Lemma lenG : length p = length G. Proof. exact (forall2_len _ _ _ _ _ C). Qed.
Lemma same_groups : Forall2 (Forall2 same_call) G G'.
Proof.
  assert (Q : forall (A B : Type) (R : A -> B -> Prop) l m, length l = length m -> (forall i x, nth_error l i = Some x -> exists y, nth_error m i = Some y /\ R x y) -> Forall2 R l m).
  { induction l as [|x l IH]; intros [|y m] L Q; try discriminate; constructor.
    - destruct (Q 0%nat x eq_refl) as (z & Z & ZR). injection Z as ->. exact ZR.
    - apply IH; [injection L; auto|]. intros i z Z. exact (Q (S i) z Z). }
  apply Q; [symmetry; apply chg_len|]. intros i calls N. assert (exists x, nth_error p i = Some x) as (x & X).
  { assert (i < length p)%nat by (rewrite lenG; apply nth_error_Some; congruence). destruct (nth_error p i) eqn:E; [eexists; reflexivity|]. apply nth_error_None in E. lia. }
  destruct (changed1 i x calls X N) as (calls' & A & B & _). exists calls'. auto.
Qed.
Lemma lno_same : forall j, lno w G' j = lno w G j.
Proof.
  intros j. unfold lno, emits. assert (F : Forall2 same_call (concat (firstn (S j) G)) (concat (firstn (S j) G'))).
  { generalize (S j) as m. generalize same_groups. generalize G'. generalize G. clear. intros A B F. induction F as [|x y A B X F IH]; intros [|m]; cbn [firstn concat]; try constructor. apply Forall2_app; [exact X|apply IH]. }
  destruct (simc_fold w _ _ comp0 comp0 F (simc_refl _)) as (E & _). unfold ret_label. rewrite E. reflexivity.
Qed.
Lemma compiled' : compiled w lz tz cmov p' G'.
Proof.
  assert (Q : forall (A B : Type) (R : A -> B -> Prop) l m, length l = length m -> (forall i x, nth_error l i = Some x -> exists y, nth_error m i = Some y /\ R x y) -> Forall2 R l m).
  { induction l as [|x l IH]; intros [|y m] L Q; try discriminate; constructor.
    - destruct (Q 0%nat x eq_refl) as (z & Z & ZR). injection Z as ->. exact ZR.
    - apply IH; [injection L; auto|]. intros i z Z. exact (Q (S i) z Z). }
  apply Q; [unfold p', G'; rewrite change_len, chg_len; apply lenG|]. intros i x N. unfold p' in N. rewrite change_nth in N. destruct (nth_error p i) as [x0|] eqn:X; [|discriminate]. injection N as <-.
  destruct (comp_nth w lz tz cmov p G C OK _ _ X) as (calls & NG & _). destruct (changed1 i x0 calls X NG) as (calls' & A & _ & CO). exists calls'. split; [exact A|].
  destruct (now h i x0); try exact CO; cbn [compiled1] in *; rewrite lno_same; exact CO.
Qed.
Lemma ok' : Forall (lir_ok p') p'.
Proof.
  assert (LB : forall to y, nth_error p to = Some y -> is_label y = true -> exists y, nth_error p' to = Some y /\ is_label y = true).
  { intros to y N L. exists (now h to y). split; [unfold p'; rewrite change_nth, N; reflexivity|rewrite now_label; exact L]. }
  apply Forall_forall. intros x I. apply In_nth_error in I as (i & N). unfold p' in N. rewrite change_nth in N. destruct (nth_error p i) as [x0|] eqn:X; [|discriminate]. injection N as <-.
  destruct (comp_nth w lz tz cmov p G C OK _ _ X) as (_ & _ & _ & LO). destruct x0; cbn [now lir_ok] in *; try exact LO.
  - split; [apply LO|]. destruct (last_c h i) as [v'|] eqn:E; [|apply LO]. revert E. unfold last_c. rewrite <- fold_left_rev_right. pose proof (Forall_rev H) as HR. induction HR as [|e l Q F IH]; [discriminate|]. cbn [fold_right].
    destruct e as [m to'|m v0]; [exact IH|]. destruct (Nat.eqb m i); [|exact IH]. intros [= ->]. apply Q.
  - destruct LO as [L1 (y & Y1 & Y2)]. split; [exact L1|]. destruct (last_j h i) as [to'|] eqn:E; [|eauto]. revert E. unfold last_j. rewrite <- fold_left_rev_right. pose proof (Forall_rev H) as HR. induction HR as [|e l Q F IH]; [discriminate|]. cbn [fold_right].
    destruct e as [m to2|m v0]; [|exact IH]. destruct (Nat.eqb m i); [|exact IH]. intros [= ->]. destruct Q as [_ (z & Z1 & Z2)]. eauto.
  - destruct LO as [L1 (y & Y1 & Y2)]. eauto.
Qed.
Lemma no_first_const : Forall (fun x => kconst x = false) G.
Proof.
  assert (Q : forall parts, kconst (map KIns parts) = false) by (intros []; reflexivity).
  unfold compiled in C. revert C. generalize G at 1 as G0. clear - Q. intros G0 F0. induction F0 as [|x calls l m X F IH]; constructor; [|exact IH].
  destruct x; cbn [compiled1] in X; try (destruct X as (parts & -> & _); apply Q); try (subst calls; reflexivity).
  destruct X as (parts & x & post & -> & _). destruct parts; reflexivity.
Qed.
(** Sizes of constants. *)
Definition is_const (i : nat) : option cop := match nth_error p i with Some (LConst c _ _ _) => Some c | _ => None end.
Definition size_of (n : nat) : nat :=
  match find (fun i => match is_const i with Some _ => Nat.eqb (cno w G i) n | None => false end) (seq 0 (length p)) with
  | Some i => match is_const i with Some c => length (const_bytes c 0) | None => 0%nat end
  | None => 0%nat
  end.
Lemma size_at : forall i c D Dw v, nth_error p i = Some (LConst c D Dw v) -> size_of (cno w G i) = length (const_bytes c 0).
Proof.
  intros i c D Dw v N. unfold size_of. destruct (find _ _) as [j|] eqn:F.
  - apply find_some in F as [_ F]. unfold is_const in *. destruct (nth_error p j) as [y|] eqn:M; [|discriminate]. destruct y; try discriminate. apply Nat.eqb_eq in F. pose proof (cno_inj _ _ _ _ _ _ _ _ _ _ M N F). subst j. rewrite M in N. injection N as -> -> -> ->. reflexivity.
  - exfalso. pose proof (find_none _ _ F i) as Q. cbv beta in Q. unfold is_const in Q. rewrite N, Nat.eqb_refl in Q. discriminate Q. apply in_seq. split; [lia|]. cbn [Nat.add]. apply nth_error_Some. congruence.
Qed.
Lemma split_at : forall i x, nth_error G i = Some x -> exists y, concat G = concat (firstn i G) ++ x ++ y.
Proof. intros i x N. apply nth_error_split in N as (a & z & E & L). exists (concat z). rewrite E, <- L, firstn_app, Nat.sub_diag, firstn_all, concat_app. cbn [firstn concat]. rewrite app_nil_r. reflexivity. Qed.
Hypothesis LA : forall n, (n < length (clabels (emits w (concat G))))%nat -> isw (laddr (nth n (rlabels g) (mkXL 0 None 0))).
Hypothesis JN : forall x kd rw t y, concat G = x ++ KJump kd rw t :: y -> (njump x < length (rjumps g))%nat /\ jrewr (nth (njump x) (rjumps g) nojump) = rw.
Lemma events_ok : Forall (wok size_of (concat G) g) (map wev_of h).
Proof.
  apply Forall_forall. intros we I. apply in_map_iff in I as (e & <- & I). rewrite Forall_forall in H. specialize (H e I). destruct e as [i to|i v]; cbn [ch_ok wev_of] in *.
  - destruct H as [(t & old & N) (y & Y1 & Y2)]. destruct (comp_nth w lz tz cmov p G C OK _ _ N) as (calls & NG & -> & _). destruct (split_at _ _ NG) as (z & E). cbn [app] in E. destruct (JN _ _ _ _ _ E) as [J1 J2]. cbn [wok]. rewrite jno_eq.
    split; [exact J1|]. split; [exact J2|]. apply LA. destruct (label_nth w lz tz cmov p G C OK to y Y1 Y2) as (k & A & K). exact (lno_lt w G to k A K).
  - destruct H as [(c & D & Dw & old & N) V]. rewrite N. destruct (comp_nth w lz tz cmov p G C OK _ _ N) as (calls & NG & CO & _). destruct (split_at _ _ NG) as (z & E). cbn [compiled1] in CO. destruct CO as (parts & x & post & -> & _ & _). cbn [wok].
    exists (x ++ const_bytes c old). rewrite (size_at _ _ _ _ _ N), cno_eq, E. split; [|split; [apply const_len|rewrite app_length, (const_len c 0 old); lia]].
    rewrite map_app. cbn [map]. rewrite <- !app_assoc. cbn [app]. rewrite app_assoc.
    replace (nconst (concat (firstn i G))) with (nconst (concat (firstn i G) ++ map KIns parts)) by (rewrite nconst_app, nconst_ins; lia). apply pre_number.
Qed.
Lemma sets_same : forall l b, Forall (ch_ok p) l -> fold_left (wset code g) (map wev_of l) b = fold_left (set_ch w code p G g) l b.
Proof.
  intros l b F. revert b. induction F as [|e l E F IH]; intros b; [reflexivity|]. cbn [map fold_left]. rewrite IH. f_equal. destruct e as [i to|i v]; cbn [wev_of wset set_ch]; [reflexivity|]. destruct E as [(c & D & Dw & old & ->) _]. reflexivity.
Qed.
End Changed.

(** ** The theorem *)
Lemma program_changes : forall w lz tz cmov p G code eo, compiled w lz tz cmov p G -> Forall (lir_ok p) p -> mov_label false (concat G) = false ->
  csize (emits w (concat G)) <= 2 ^ 31 - 32 -> 0 <= code -> 0 <= code + eo -> code + eo + csize (emits w (concat G)) + 15 < 2 ^ 64 -> code + csize (emits w (concat G)) <= 2 ^ 64 ->
  exists g, generate w code eo (emits w (concat G)) = Some g /\ forall h, Forall (ch_ok p) h ->
    let p' := fold_left change h p in let b := fold_left (set_ch w code p G g) h (rb g) in
    exists P, P 0%nat = 0 /\ P (length p) = zlen b /\
    (forall j x, nth_error p j = Some x -> is_label x = true -> laddr (nth (lno w G j) (rlabels g) (mkXL 0 None 0)) = xpos code eo (P (S j))) /\
    forall codef u n i a s, fetches code eo b codef -> agrees w a s -> safe p' (fun j => xpos code eo (P (S j))) n i a ->
      exists i' a' s', goes p' (fun j => xpos code eo (P (S j))) n i a i' a' /\ csteps codef u (xpos code eo (P i)) s (xpos code eo (P i')) s' /\ agrees w a' s'.
Proof.
  intros w lz tz cmov p G code eo C OK M H1 H2 H3 H4 H5.
  assert (PO : prog_ok w code eo (concat G)). { split; [eapply calls_ok; eauto|]. split; [exact H1|]. split; [exact H2|]. split; [exact H3|]. split; [lia|exact H5]. }
  destruct (link_hist w code eo (concat G) (size_of w p G) PO M) as (g & GE & LA & JN & L). exists g. split; [exact GE|]. intros h HO p' b.
  pose proof (events_ok w lz tz cmov p G C OK h HO g LA JN) as EO. specialize (L _ EO). rewrite (sets_same w p G code g h (rb g) HO) in L. fold b in L. destruct L as [SZ L].
  apply (laid_rt w code eo g b _ (tgt_of w G h) _ comp0 comp0 0 (simc_refl _) (tgt_cur w p G h HO g)) in L. cbn [cjumps comp0 length] in L. fold (val_of w p G h g) in L.
  rewrite <- chg_concat in L by (eapply no_first_const; exact C). fold (G' w p G h g) in L.
  pose proof (compiled' w lz tz cmov p G C OK h HO g) as C'. pose proof (ok' w lz tz cmov p G C OK h HO) as OK'. fold p' in C', OK'.
  destruct (laid_groups _ _ _ _ _ _ _ _ _ L) as (P & P0 & PN & PR & PS). exists P. split; [exact P0|]. assert (LP : length p = length (G' w p G h g)) by (unfold G'; rewrite chg_len; exact (forall2_len _ _ _ _ _ C)). split; [rewrite LP; exact PN|]. split.
  - intros j x N LX. rewrite <- (lno_same w lz tz cmov p G C OK h HO g). eapply (label_adr w lz tz cmov p' _ code eo C' OK' g b P PS j (now h j x)); [unfold p'; rewrite change_nth, N; reflexivity|rewrite now_label; exact LX].
  - intros codef u n i a s F A SF. eapply sim with (G := G' w p G h g) (P := P); eauto. lia.
Qed.
