(** Consequences of RvLinkThm in the form used by the properties, and the cases where the code is wrong. *)
Require Import ZArith List Bool Lia.
From Verif Require Import Rv.RvLib Rv.RvBits Rv.RvIsa Rv.RvEnc Rv.RvImm Rv.RvRun Rv.RvImmProofs Rv.RvConst Rv.RvAddr Rv.RvCtl Rv.RvAddrProofs Rv.RvLink Rv.RvLinkOps Rv.RvLinkReduce Rv.RvLinkEst Rv.RvLinkGen Rv.RvLinkPick Rv.RvLinkFit Rv.RvLinkLay Rv.RvLinkPatch Rv.RvLinkAll Rv.RvLinkExec Rv.RvLinkApi Rv.RvLinkMap Rv.RvLinkSpec Rv.RvLinkThm.
Import ListNotations.
Open Scope Z_scope.
Ltac Zify.zify_post_hook ::= idtac.

(** ** Read-only buffers *)
Lemma nop_area_length cf size : 0 <= size -> size <= 2 * Z.of_nat (length (units_of (nop_area cf size))).
Proof.
  intros H. unfold nop_area.
  assert (A : forall n, length (units_of (repeat (P16 C_NOP) n)) = n) by (induction n; [reflexivity|cbn [repeat units_of flat_map app length]; unfold units_of in IHn; cbn; rewrite IHn; reflexivity]).
  assert (B : forall n, length (units_of (repeat (P32 NOP) n)) = (2 * n)%nat).
  { induction n; [reflexivity|]. unfold units_of in *. cbn [repeat flat_map units app length]. rewrite IHn. lia. }
  destruct (cC cf); [rewrite A, (Z.shiftr_div_pow2 _ 1)|rewrite B, (Z.shiftr_div_pow2 _ 2)]; try lia;
  change (2 ^ 1) with 2; change (2 ^ 2) with 4.
  - assert (0 <= (size + 1) / 2) by (apply Z.div_pos; lia). rewrite Z2Nat.id by lia. clear - H. Z.div_mod_to_equations. lia.
  - assert (0 <= (size + 3) / 4) by (apply Z.div_pos; lia). rewrite Nat2Z.inj_mul, Z2Nat.id by lia. clear - H. Z.div_mod_to_equations. lia.
Qed.
Lemma buffer_calls_nth cf sizes : forall j size, nth_error sizes j = Some size ->
  nth_error (buffer_calls cf sizes) (2 * j) = Some (KIns (nop_area cf size)) /\
  (j = 0%nat \/ nth_error (buffer_calls cf sizes) (2 * j - 1) = Some KLabel).
Proof.
  induction sizes as [|a sizes IH]; intros j size H; [destruct j; discriminate|].
  destruct j as [|j]; [injection H as ->; split; [destruct sizes; reflexivity|left; reflexivity]|].
  cbn [nth_error] in H. destruct sizes as [|b sizes]; [destruct j; discriminate|]. destruct (IH j size H) as (I1 & I2).
  replace (2 * S j)%nat with (S (S (2 * j))) by lia. cbn [buffer_calls nth_error]. split; [exact I1|]. right.
  replace (S (S (2 * j)) - 1)%nat with (S (2 * j)) by lia. cbn [nth_error]. destruct I2 as [->|I2]; [reflexivity|].
  destruct j as [|j]; [reflexivity|]. replace (2 * S j)%nat with (S (S (2 * j))) in * by lia. replace (S (S (2 * j)) - 1)%nat with (S (2 * j)) in I2 by lia. cbn [nth_error]. exact I2.
Qed.
(** Every buffer of an aligned label: its label is the start of at least [size] bytes of its own. *)
Lemma buffers_ok cf calls code eo g codef pos pre al sizes post j size :
  calls = pre ++ aligned_label_calls cf al sizes ++ post ->
  program_at cf calls code eo g codef pos ->
  nth_error sizes j = Some size -> 0 <= size ->
  let i := (length pre + 2 * j)%nat in
  let a := label_addr (rlabels g) (ret_label (emits cf (firstn (S i) calls))) in
  (j = 0%nat -> (a - eo) mod 2 ^ al = 0) /\ a = xaddr code eo (pos (S i)) /\ a + size <= xaddr code eo (pos (S (S i))).
Proof.
  intros E (P0 & PN & P) H S i a.
  assert (N : forall n, nth_error calls (length pre + n) = nth_error (aligned_label_calls cf al sizes ++ post) n).
  { intros n. rewrite E, nth_error_app2 by lia. f_equal. lia. }
  assert (X : forall n k, nth_error (aligned_label_calls cf al sizes) n = Some k -> nth_error (aligned_label_calls cf al sizes ++ post) n = Some k).
  { intros n k K. rewrite nth_error_app1; auto. apply nth_error_Some. congruence. }
  destruct (buffer_calls_nth cf sizes j size H) as (B1 & B2).
  assert (K1 : nth_error calls (Datatypes.S i) = Some (KIns (nop_area cf size))).
  { unfold i. replace (Datatypes.S (length pre + 2 * j)) with (length pre + Datatypes.S (2 * j))%nat by lia. rewrite N. apply X. exact B1. }
  assert (FN : forall k, nth_error calls i = Some k -> firstn (Datatypes.S i) calls = firstn i calls ++ [k]).
  { clearbody i. clear. intros k. revert i. induction calls as [|c l IH]; intros i; destruct i; cbn; try discriminate; [intros [= ->]; reflexivity|]. intros H. f_equal. apply IH. exact H. }
  assert (A : a = xaddr code eo (pos (Datatypes.S i)) /\ (j = 0%nat -> (a - eo) mod 2 ^ al = 0)).
  { destruct j as [|j].
    - assert (K0 : nth_error calls i = Some (KAlign al)) by (unfold i; rewrite N; apply X; reflexivity).
      destruct (P _ _ K0) as (_ & _ & C). cbn [call_at] in C. destruct C as (C1 & C2 & C3 & C4).
      unfold a. rewrite (FN _ K0). rewrite C1. auto.
    - destruct B2 as [B2|B2]; [discriminate|].
      assert (K0 : nth_error calls i = Some KLabel).
      { unfold i. rewrite N. apply X. replace (2 * Datatypes.S j)%nat with (Datatypes.S (2 * Datatypes.S j - 1)) by lia. exact B2. }
      destruct (P _ _ K0) as (_ & _ & C). cbn [call_at] in C. destruct C as (C1 & C2). unfold a. rewrite (FN _ K0), C1. split; [reflexivity|discriminate]. }
  destruct A as (A & A0). split; [exact A0|]. split; [exact A|]. rewrite A. destruct (P _ _ K1) as (_ & _ & C). cbn [call_at] in C. destruct C as (_ & C).
  rewrite C. pose proof (nop_area_length cf size S). unfold xaddr. lia.
Qed.

(** ** Labels *)
(** Calls which emit no code. *)
Definition no_code (k : call) : bool := match k with KIns l => match units_of l with [] => true | _ => false end | KLabel | KSetLabel _ _ | KSetTarget _ _ => true | _ => false end.

Lemma emit_label_idem cf c k : no_code k = true -> match last_label (clabels c) with Some l => lsize l =? csize c | None => false end = true ->
  clabels (emit cf c k) = clabels c /\ csize (emit cf c k) = csize c.
Proof.
  intros N L. destruct k; cbn [no_code] in N; try discriminate; cbn [emit].
  - destruct (units_of l); [|discriminate]. unfold push_units. cbn. split; auto. lia.
  - unfold emit_label. destruct (last_label (clabels c)); [|discriminate]. rewrite L. auto.
  - auto.
  - auto.
Qed.
Lemma emits_snoc cf calls k : emits cf (calls ++ [k]) = emit cf (emits cf calls) k.
Proof. unfold emits. apply fold_left_app. Qed.
Lemma label_current cf calls : match last_label (clabels (emits cf (calls ++ [KLabel]))) with Some l => lsize l =? csize (emits cf (calls ++ [KLabel])) | None => false end = true.
Proof.
  rewrite emits_snoc. cbn [emit]. unfold emit_label.
  destruct (match last_label (clabels (emits cf calls)) with Some l => lsize l =? csize (emits cf calls) | None => false end) eqn:E.
  - destruct (last_label (clabels (emits cf calls))) eqn:L; [|discriminate]. rewrite E. rewrite L. exact E.
  - assert (G : forall c, match last_label (clabels (set_label c None)) with Some l => lsize l =? csize (set_label c None) | None => false end = true).
    { intros c. unfold set_label. cbn [clabels csize]. rewrite last_label_snoc. cbn [lsize]. apply Z.eqb_refl. }
    destruct (last_label (clabels (emits cf calls))); [rewrite E|]; apply G.
Qed.
(** A second label with no code between is the first one. *)
Lemma labels_shared cf pre mid : forallb no_code mid = true ->
  clabels (emits cf (pre ++ KLabel :: mid ++ [KLabel])) = clabels (emits cf (pre ++ [KLabel])).
Proof.
  intros N. replace (pre ++ KLabel :: mid ++ [KLabel]) with ((pre ++ [KLabel]) ++ (mid ++ [KLabel])) by (rewrite <- !app_assoc; reflexivity).
  assert (N' : forallb no_code (mid ++ [KLabel]) = true) by (rewrite forallb_app, N; reflexivity).
  assert (G : forall l c, forallb no_code l = true -> match last_label (clabels c) with Some l => lsize l =? csize c | None => false end = true ->
     clabels (fold_left (emit cf) l c) = clabels c).
  { induction l as [|k l IH]; intros c F L; [reflexivity|]. cbn [forallb] in F. apply andb_true_iff in F. destruct F as (F1 & F2). cbn [fold_left].
    destruct (emit_label_idem cf c k F1 L) as (E1 & E2). rewrite IH; auto. rewrite E1, E2. exact L. }
  unfold emits at 1. rewrite fold_left_app. apply G; [exact N'|]. apply label_current.
Qed.
(** The jumps of the compiler refer to what was assigned last. *)
Lemma jumps_refer cf calls : prog_ok cf calls ->
  length (cjumps (emits cf calls)) = length (targets calls) /\
  forall i j, nth_error (cjumps (emits cf calls)) i = Some j ->
   exists t, nth_error (targets calls) i = Some (Some t) /\
     match t with
     | TLabel l => jisaddr j = false /\ jlabel j = l /\ (l < length (clabels (emits cf calls)))%nat
     | TAddr a => jisaddr j = true /\ jtarget j = a /\ isw a
     end.
Proof.
  intros (O1 & O2). split.
  { pose proof (emits_jumps cf calls) as E. unfold next_jump in E. rewrite E, targets_length. reflexivity. }
  set (rel := fun (t : option target) (j : jump) => match t with None => True | Some (TLabel l) => jisaddr j = false /\ jlabel j = l | Some (TAddr a) => jisaddr j = true /\ jtarget j = a end).
  assert (U : forall t ts js, Forall2 rel ts js -> forall n, Forall2 rel (upd n (fun _ => Some t) ts) (upd n (set_jtarget t) js)).
  { intros t ts js F. induction F as [|x y ts js R F IH]; intros n; [destruct n; constructor|]. destruct n; cbn [upd]; constructor; auto.
    destruct t; cbn; auto. }
  assert (LJ : forall c, cjumps (emit_label c) = cjumps c).
  { intros x. unfold emit_label. destruct (last_label _); [destruct (_ =? _)|]; reflexivity. }
  assert (G : forall l c ts, Forall2 rel ts (cjumps c) -> Forall2 rel (fold_left tstep l ts) (cjumps (fold_left (emit cf) l c))).
  { induction l as [|k l IH]; intros c ts F; [exact F|]. cbn [fold_left]. apply IH. destruct k; cbn [tstep emit]; auto.
    - rewrite LJ. exact F.
    - unfold emit_aligned_label. destruct (cC cf); destruct (_ <=? _); rewrite ?LJ; exact F.
    - unfold emit_jump. destruct (jc_word x); apply Forall2_app; auto; constructor; cbn; auto.
    - unfold emit_jump. apply Forall2_app; auto; constructor; [|constructor]. cbn. auto.
    - unfold emit_mov_addr. apply Forall2_app; auto; constructor; cbn; auto.
    - apply U. exact F.
    - apply U. exact F. }
  specialize (G calls (mkComp [] [] [] [] 0) [] ltac:(constructor)). fold (targets calls) in G. fold (emits cf calls) in G.
  pose proof (tvalid_calls cf calls _ [] O1 ltac:(constructor)) as V. fold (targets calls) in V. fold (emits cf calls) in V.
  intros i j. generalize dependent (length (clabels (emits cf calls))). intros nl V. revert i. clear - G O2 V. induction G as [|t j0 ts js R G IH]; intros i H; [destruct i; discriminate|].
  inversion O2 as [|? ? N1 N2]; subst. inversion V as [|? ? V1 V2]; subst. destruct i as [|i].
  - injection H as <-. destruct t as [t|]; [|congruence]. exists t. split; [reflexivity|]. destruct t; cbn [rel tvalid] in *; tauto.
  - cbn [nth_error] in *. apply IH; auto.
Qed.
(** Calls which certainly emit code. *)
Definition has_code (k : call) : bool := match k with KIns l => match units_of l with [] => false | _ => true end | KJump _ _ _ | KIJump _ _ | KMov _ | KConst _ _ => true | _ => false end.

Definition linv (c : comp) : Prop := Forall (fun l => lsize l <= csize c) (clabels c).
Lemma emit_cases cf c k : linv c -> linv (emit cf c k) /\ csize c <= csize (emit cf c k) /\
  (has_code k = true -> csize c < csize (emit cf c k)) /\
  ((clabels (emit cf c k) = clabels c) \/ (length (clabels c) < length (clabels (emit cf c k)))%nat).
Proof.
  intros I. assert (P : forall c' n, linv c -> 0 <= n -> clabels c' = clabels c -> csize c' = csize c + n -> linv c').
  { intros c' n Ic Hn E1 E2. unfold linv in *. rewrite E1, E2. eapply Forall_impl; [|exact Ic]. cbn. intros. lia. }
  assert (S : forall c m, linv c -> linv (set_label c m) /\ csize (set_label c m) = csize c /\ (length (clabels c) < length (clabels (set_label c m)))%nat).
  { intros c0 m I0. unfold set_label, linv. cbn [clabels csize]. split; [|split; [reflexivity|rewrite app_length; cbn; lia]].
    apply Forall_app. split; [exact I0|]. constructor; [cbn; lia|constructor]. }
  assert (L : linv (emit_label c) /\ csize (emit_label c) = csize c /\ (clabels (emit_label c) = clabels c \/ (length (clabels c) < length (clabels (emit_label c)))%nat)).
  { unfold emit_label. destruct (S c None I) as (S1 & S2 & S3). destruct (last_label _); [destruct (_ =? _)|]; auto. }
  destruct L as (L1 & L2 & L3).
  assert (PU : forall l, linv (push_units c l) /\ csize (push_units c l) = csize c + Z.of_nat (length l)).
  { intros l. split; [|reflexivity]. eapply (P _ (Z.of_nat (length l))); auto. lia. }
  destruct k; cbn [emit has_code].
  - destruct (PU (units_of l)) as (P1 & P2). rewrite P2. repeat split; auto; [lia|]. destruct (units_of l); [discriminate|cbn [length]; lia].
  - rewrite L2. repeat split; auto; [lia|discriminate].
  - unfold emit_aligned_label. destruct (cC cf); destruct (_ <=? _); try (rewrite L2; repeat split; auto; [lia|discriminate]);
    (match goal with |- context [set_label (push_units c ?l) ?m] => destruct (PU l) as (P1 & P2); destruct (S (push_units c l) m P1) as (S1 & S2 & S3); rewrite S2, P2; cbn [push_units clabels] in S3; repeat split; auto; [lia|discriminate] end).
  - assert (X : clabels (emit_jump c (jc_word x) rewr call (TLabel 0)) = clabels c /\ csize c < csize (emit_jump c (jc_word x) rewr call (TLabel 0))).
    { unfold emit_jump, JUMP_MAX_SIZE. destruct (jc_word x); cbn [clabels csize push_units]; split; auto; cbn [length]; lia. }
    destruct X as (X1 & X2). split; [apply (P _ (csize (emit_jump c (jc_word x) rewr call (TLabel 0)) - csize c)); auto; lia|]. repeat split; auto; lia.
  - assert (X : clabels (emit_jump c NoCond false call (TAddr a)) = clabels c /\ csize c < csize (emit_jump c NoCond false call (TAddr a))).
    { unfold emit_jump, JUMP_MAX_SIZE. cbn [clabels csize push_units]; split; auto; cbn [length]; lia. }
    destruct X as (X1 & X2). split; [apply (P _ (csize (emit_jump c NoCond false call (TAddr a)) - csize c)); auto; lia|]. repeat split; auto; lia.
  - assert (X : clabels (emit_mov_addr c reg (TLabel 0)) = clabels c /\ csize c < csize (emit_mov_addr c reg (TLabel 0))).
    { unfold emit_mov_addr, JUMP_MAX_SIZE. cbn [clabels csize push_units]; split; auto; cbn [length]; lia. }
    destruct X as (X1 & X2). split; [apply (P _ (csize (emit_mov_addr c reg (TLabel 0)) - csize c)); auto; lia|]. repeat split; auto; lia.
  - assert (X : clabels (emit_constant c (units_of (p :: l))) = clabels c /\ csize c < csize (emit_constant c (units_of (p :: l)))).
    { unfold emit_constant. destruct p; cbn [clabels csize push_units units_of flat_map units app length]; split; auto; lia. }
    destruct X as (X1 & X2). split; [apply (P _ (csize (emit_constant c (units_of (p :: l))) - csize c)); auto; lia|]. repeat split; auto; lia.
  - repeat split; auto; [cbn; lia|discriminate].
  - repeat split; auto; [cbn; lia|discriminate].
Qed.
(** Labels separated by code are different ones. *)
Lemma labels_distinct cf pre mid : existsb has_code mid = true ->
  (ret_label (emits cf (pre ++ [KLabel])) < ret_label (emits cf (pre ++ KLabel :: mid ++ [KLabel])))%nat.
Proof.
  intros H. replace (pre ++ KLabel :: mid ++ [KLabel]) with (((pre ++ [KLabel]) ++ mid) ++ [KLabel]) by (rewrite <- !app_assoc; reflexivity).
  rewrite (emits_snoc cf ((pre ++ [KLabel]) ++ mid)). unfold emits at 2. rewrite fold_left_app. fold (emits cf (pre ++ [KLabel])).
  assert (I0 : linv (emits cf (pre ++ [KLabel]))).
  { assert (G : forall l c, linv c -> linv (fold_left (emit cf) l c)) by (induction l as [|k l IH]; intros c I; [exact I|]; cbn [fold_left]; apply IH; apply emit_cases; exact I).
    unfold emits. apply G. constructor. }
  assert (N0 : (0 < length (clabels (emits cf (pre ++ [KLabel]))))%nat).
  { pose proof (label_current cf pre) as L. destruct (clabels (emits cf (pre ++ [KLabel]))); [discriminate|cbn; lia]. }
  generalize dependent (emits cf (pre ++ [KLabel])). intros c0 I0 N0.
  set (Q := fun c => linv c /\ ((length (clabels c0) < length (clabels c))%nat \/ ((length (clabels c0) <= length (clabels c))%nat /\ Forall (fun l => lsize l < csize c) (clabels c)))).
  assert (S1 : forall c k, Q c -> Q (emit cf c k)).
  { intros c k (I & D). destruct (emit_cases cf c k I) as (A & B & _ & C). split; [exact A|]. destruct D as [D|(D1 & D2)].
    - left. destruct C as [C|C]; [rewrite C; auto|lia].
    - destruct C as [C|C]; [|left; lia]. right. rewrite C. split; auto. eapply Forall_impl; [|exact D2]. cbn. intros. lia. }
  assert (S2 : forall l c, Q c -> Q (fold_left (emit cf) l c)) by (induction l as [|k l IH]; intros c HQ; [exact HQ|]; cbn [fold_left]; auto).
  assert (S3 : forall l c, linv c -> (length (clabels c0) <= length (clabels c))%nat -> existsb has_code l = true -> Q (fold_left (emit cf) l c)).
  { induction l as [|k l IH]; intros c I M X; [discriminate|]. cbn [existsb fold_left] in *. destruct (emit_cases cf c k I) as (A & B & C & D).
    destruct (has_code k) eqn:K.
    - apply S2. specialize (C eq_refl). split; [exact A|]. destruct D as [D|D]; [right; rewrite D; split; auto|left; lia]. eapply Forall_impl; [|exact I]. cbn. intros. lia.
    - cbn [orb] in X. apply IH; auto. destruct D as [D|D]; [rewrite D; auto|lia]. }
  specialize (S3 mid c0 I0 ltac:(lia) H). set (c1 := fold_left (emit cf) mid c0) in *. destruct S3 as (I & D). unfold ret_label. cbn [emit].
  destruct D as [D|(D1 & D2)].
  - pose proof (emit_labels cf c1 KLabel) as M. cbn [emit] in M. lia.
  - unfold emit_label. destruct (last_label (clabels c1)) as [l|] eqn:E.
    + apply last_label_in in E. rewrite Forall_forall in D2. specialize (D2 l E). destruct (lsize l =? csize c1) eqn:X; [apply Z.eqb_eq in X; lia|].
      unfold set_label. cbn [clabels]. rewrite app_length. cbn [length]. lia.
    + unfold set_label. cbn [clabels]. rewrite app_length. cbn [length]. lia.
Qed.

(** ** Executions *)
Fixpoint iter (codef : Z -> Z) (n : nat) (s : mst) : option mst :=
  match n with O => Some s | S n => match step codef s with Some s' => iter codef n s' | None => None end end.
Lemma steps_iter codef s s' : steps codef s s' -> exists n, iter codef n s = Some s'.
Proof. induction 1 as [s|s s1 s2 A _ (n & B)]; [exists 0%nat; reflexivity|]. exists (S n). cbn. rewrite A. exact B. Qed.
Lemma iter_none codef n : forall s m, (n <= m)%nat -> iter codef n s = None -> iter codef m s = None.
Proof. induction n as [|n IH]; intros s m L H; [discriminate|]. destruct m as [|m]; [lia|]. cbn in *. destruct (step codef s); [apply IH; auto; lia|reflexivity]. Qed.
(** No execution of a program which stops after less than [n] steps reaches a state with [f]. *)
Lemma never codef n s f : iter codef n s = None ->
  forallb (fun k => match iter codef k s with Some s' => negb (f s') | None => true end) (seq 0 n) = true ->
  ~ exists s', steps codef s s' /\ f s' = true.
Proof.
  intros N F (s' & S & B). destruct (steps_iter _ _ _ S) as (k & K). destruct (Nat.le_gt_cases n k) as [L|L].
  - rewrite (iter_none _ _ _ _ L N) in K. discriminate.
  - rewrite forallb_forall in F. specialize (F k ltac:(apply in_seq; lia)). cbv beta in F. rewrite K, B in F. discriminate.
Qed.
(** The content of the memory as seen by the processor. *)
Definition view (code eo : Z) (g : gen) (a : Z) : Z := munit (rmem g) ((a - eo - code) / 2).
Lemma view_fetches code eo g : 0 <= code + eo -> code + eo + 2 * rend g < 2 ^ 64 -> fetches code eo g (view code eo g).
Proof.
  intros A B p Hp. unfold view, xaddr. unfold wrap. rewrite Z.mod_small by lia. f_equal. replace (code + 2 * p + eo - eo - code) with (p * 2) by lia.
  apply Z.div_mul. lia.
Qed.

(** ** The properties C13, C15 without the vocabulary of RvLinkSpec *)
Section S.
Variables (cf : cfg) (calls : list call) (code eo : Z) (m0 : Z -> Z).
Hypothesis OK : prog_ok cf calls.
Hypothesis LD : loadable cf calls code eo.
Hypothesis EL : eo = 0 \/ ends_with_label false calls = false.
Let g := generate_code cf code eo m0 (emits cf calls).

Lemma label_even l : (l < length (clabels (emits cf calls)))%nat -> label_addr (rlabels g) l mod 2 = 0.
Proof.
  intros L. destruct (linked_ok cf calls code eo m0 OK LD EL) as (FL & LK).
  assert (LE : length (clabels (emits cf calls)) = length FL). { rewrite emits_ops. cbn [comp_of clabels]. symmetry. apply (l_len _ _ _ _ _ _ LK). }
  unfold g. rewrite (l_addrs _ _ _ _ _ _ LK) by lia. destruct LD as (A & B & _).
  assert (C2 : code mod 2 = 0) by (destruct (cC cf); [exact A|clear -A; Z.div_mod_to_equations; lia]).
  clear -C2 B. Z.div_mod_to_equations. lia.
Qed.
Lemma target_label i l : nth i (targets calls) None = Some (TLabel l) -> (l < length (clabels (emits cf calls)))%nat.
Proof.
  intros H. pose proof (tvalid_calls cf calls _ [] (proj1 OK) ltac:(constructor)) as V. fold (targets calls) in V. fold (emits cf calls) in V.
  destruct (Nat.lt_ge_cases i (length (targets calls))) as [L|L]; [|rewrite nth_overflow in H by auto; discriminate].
  rewrite Forall_forall in V. specialize (V _ (nth_In _ None L)). rewrite H in V. exact V.
Qed.
Lemma label_jumps_ok : exists pos : nat -> Z, pos 0%nat = 0 /\ pos (length calls) = rend g /\
  forall codef, (forall p, 0 <= p < rend g -> codef (wrap (code + 2 * p + eo)) = munit (rmem g) p) ->
  forall i x rewr call l, nth_error calls i = Some (KJump x rewr call) ->
    nth (next_jump (emits cf (firstn i calls))) (targets calls) None = Some (TLabel l) -> label_addr (rlabels g) l < 0x7fffffffff800 ->
    pos i <= pos (S i) /\
    forall s, pc s = code + 2 * pos i + eo ->
    exists s', steps codef s s' /\ pc s' = (if jc_holds x s then label_addr (rlabels g) l else code + 2 * pos (S i) + eo) /\
      (call = true -> rd s' RETURN_ADDR_REG = code + 2 * pos (S i) + eo) /\
      same_but s s' (TMP_REG1 :: TMP_REG3 :: if call then [RETURN_ADDR_REG] else []).
Proof.
  destruct (program_ok cf calls code eo m0 OK LD EL) as (pos & P). fold g in P.
  assert (F0 : fetches code eo g (view code eo g)).
  { destruct LD as (_ & _ & D2 & D3). destruct (end_ok cf calls code eo m0 OK LD EL) as ((E1 & E2) & _). fold g in E1, E2.
    apply view_fetches; auto. clear P.
    assert (csize (reduce_code_size cf (emits cf calls)) <= csize (emits cf calls)).
    { destruct (ops_ok cf calls OK) as (A & B & C). rewrite emits_ops. rewrite reduce_comp; auto.
      - cbn [csize]. apply (est_total cf _ _ B [] 0 0).
      - pose proof (total_ops cf calls) as T. rewrite T. unfold MAX_ADDRESS. change (2 ^ 63) with 9223372036854775808 in D3. change (2 ^ 64) with 18446744073709551616. clear -D2 D3. lia. }
    change (2 ^ 63) with 9223372036854775808 in D3. change (2 ^ 64) with 18446744073709551616. lia. }
  destruct (P _ F0) as (P0 & PN & _). exists pos. split; [exact P0|]. split; [exact PN|].
  intros codef FE i x rewr call l N T B. destruct (P codef FE) as (_ & _ & Q). destruct (Q i _ N) as (M & _ & (J & _)). split; [exact M|].
  rewrite T in J. cbn [taddr is_addr] in J. apply J.
  - apply label_even. eapply target_label; eauto.
  - unfold bad_abs52. lia.
  - tauto.
Qed.
Lemma mov_addr_ok : exists pos : nat -> Z, pos 0%nat = 0 /\ pos (length calls) = rend g /\
  forall codef, (forall p, 0 <= p < rend g -> codef (wrap (code + 2 * p + eo)) = munit (rmem g) p) ->
  forall i reg t, nth_error calls i = Some (KMov reg) -> nth (next_jump (emits cf (firstn i calls))) (targets calls) None = Some t ->
    let T := match t with TLabel l => label_addr (rlabels g) l | TAddr a => a end in
    ~ (0x7fffffffff800 <= T <= 0x7ffffffffffff) ->
    forall s, pc s = code + 2 * pos i + eo ->
    exists s', steps codef s s' /\ pc s' = code + 2 * pos (S i) + eo /\ rd s' reg = T /\ same_but s s' [reg; TMP_REG3].
Proof.
  destruct (program_ok cf calls code eo m0 OK LD EL) as (pos & P). fold g in P.
  assert (F0 : fetches code eo g (view code eo g)).
  { destruct LD as (_ & _ & D2 & D3). destruct (end_ok cf calls code eo m0 OK LD EL) as ((E1 & E2) & _). fold g in E1, E2.
    apply view_fetches; auto. clear P.
    assert (csize (reduce_code_size cf (emits cf calls)) <= csize (emits cf calls)).
    { destruct (ops_ok cf calls OK) as (A & B & C). rewrite emits_ops. rewrite reduce_comp; auto.
      - cbn [csize]. apply (est_total cf _ _ B [] 0 0).
      - pose proof (total_ops cf calls) as T. rewrite T. unfold MAX_ADDRESS. change (2 ^ 63) with 9223372036854775808 in D3. change (2 ^ 64) with 18446744073709551616. clear -D2 D3. lia. }
    change (2 ^ 63) with 9223372036854775808 in D3. change (2 ^ 64) with 18446744073709551616. lia. }
  destruct (P _ F0) as (P0 & PN & _). exists pos. split; [exact P0|]. split; [exact PN|].
  intros codef FE i reg t N T T0 B s Ps. destruct (P codef FE) as (_ & _ & Q). destruct (Q i _ N) as (M & _ & J). cbn [call_at] in J. rewrite T in J.
  assert (TT : taddr g (Some t) = T0) by (destruct t; reflexivity). rewrite TT in J. apply J; auto.
Qed.
End S.
Lemma labels_at_ok cf calls code eo m0 :
  prog_ok cf calls -> loadable cf calls code eo -> eo = 0 \/ ends_with_label false calls = false ->
  let g := generate_code cf code eo m0 (emits cf calls) in
  exists pos, forall codef, fetches code eo g codef -> program_at cf calls code eo g codef pos /\
  forall i, let a := label_addr (rlabels g) (ret_label (emits cf (firstn (S i) calls))) in
   (nth_error calls i = Some KLabel -> a = code + 2 * pos (S i) + eo /\ pos i = pos (S i)) /\
   (forall al, nth_error calls i = Some (KAlign al) -> a = code + 2 * pos (S i) + eo /\ (a - eo) mod 2 ^ al = 0).
Proof.
  intros OK LD EL g. destruct (program_ok cf calls code eo m0 OK LD EL) as (pos & P). fold g in P. exists pos. intros codef FE. specialize (P codef FE).
  split; [exact P|]. destruct P as (_ & _ & P). intros i a.
  assert (FN : forall k, nth_error calls i = Some k -> firstn (Datatypes.S i) calls = firstn i calls ++ [k]).
  { clear. intros k. revert i. induction calls as [|c l IH]; intros i; destruct i; cbn; try discriminate; [intros [= ->]; reflexivity|]. intros H. f_equal. apply IH. exact H. }
  split.
  - intros N. destruct (P i _ N) as (_ & _ & (C1 & C2)). unfold a. rewrite (FN _ N). split; [exact C1|auto].
  - intros al N. destruct (P i _ N) as (_ & _ & (C1 & C2 & C3 & _)). unfold a. rewrite (FN _ N), C1. split; [reflexivity|exact C3].
Qed.
Lemma size_partial cf calls code eo m0 :
  prog_ok cf calls -> loadable cf calls code eo -> eo = 0 \/ ends_with_label false calls = false ->
  let g := generate_code cf code eo m0 (emits cf calls) in
  2 * rend g <= rsize g /\ rsize g = 2 * (2 * rend g) /\
  exists pos, forall codef, fetches code eo g codef -> program_at cf calls code eo g codef pos.
Proof.
  intros OK LD EL g. destruct (end_ok cf calls code eo m0 OK LD EL) as (E1 & E2). fold g in E1, E2.
  split; [lia|]. split; [lia|]. exact (program_ok cf calls code eo m0 OK LD EL).
Qed.
