(** Facts about the estimated sizes. *)
Require Import ZArith List Bool Lia Zify ZifyBool.
From Verif Require Import Rv.RvLib Rv.RvBits Rv.RvIsa Rv.RvEnc Rv.RvImm Rv.RvAddr Rv.RvLink Rv.RvLinkOps Rv.RvLinkReduce.
Import ListNotations.
Open Scope Z_scope.

(** The last part of [jump_estimate], for distance [diff]. *)
Definition jest (cf : cfg) (j : jump) (diff : Z) : Z :=
  let cond_size := if cC cf && jcond16 j then 1 else 0 in
  let cond_diff := diff + 2 - cond_size in
  if (cC cf && (cond_size =? 1)) && (diff >=? Z.quot BRANCH16_MIN 2) && (diff <=? Z.quot BRANCH16_MAX 2) then 0
  else if jcond j && (cond_diff <=? Z.quot BRANCH_MAX 2) && (cond_diff >=? Z.quot BRANCH_MIN 2) then cond_size
  else if cC cf && negb (jcall j) && (diff >=? Z.quot JUMP16_MIN 2) && (diff <=? Z.quot JUMP16_MAX 2) then 1
  else if (diff >=? Z.quot JUMP_MIN 2) && (diff <=? Z.quot JUMP_MAX 2) then 2
  else if (diff >=? Z.quot S32_MIN 2) && (diff <=? Z.quot S32_MAX 2) then 4
  else JUMP_MAX_SIZE.
Definition mest (diff : Z) : Z := if (diff >=? Z.quot S32_MIN 2) && (diff <=? Z.quot S32_MAX 2) then 3 else 11.

Definition nlab (o : op) : nat := match o with OLab | OAlign _ _ => 1 | _ => 0 end.

(** Emitted entities as the API functions create them; [nl] is the number of labels. *)
Definition wf_op (cf : cfg) (nl : nat) (o : op) : Prop :=
  match o with
  | OUnit _ | OConst _ | OLab => True
  | OAlign nops mask => 0 <= mask <= 2 * Z.of_nat (length nops) /\ mask mod 2 = 0
  | OJmp k j => (jmov j = false /\ jcond j = match k with NoCond => false | _ => true end) /\
     jcond16 j = match k with Cond16 _ => true | _ => false end /\
     (jcond16 j = true -> cC cf = true) /\ (jcall j = true -> jcond j = false) /\
     (if jisaddr j then isw (jtarget j) else (jlabel j < nl)%nat)
  | OMov r j => jmov j = true /\ (if jisaddr j then isw (jtarget j) else (jlabel j < nl)%nat)
  end.

(** What the estimated sizes are; [EL]: estimated label positions, [n]: number of labels before. *)
Definition dist_ok (EL : list Z) (n : nat) (A : Z) (l : nat) (d s : Z) : Prop :=
  if (l <? n)%nat then d = nth l EL 0 - A else 0 <= nth l EL 0 - A <= d - s.
Definition eok_op (cf : cfg) (EL : list Z) (n : nat) (E : Z) (o : op) : Prop :=
  wf_op cf (length EL) o /\
  match o with
  | OJmp k j =>
    if jrewr j then jsz j = 12
    else if jisaddr j then jsz j = (if jtarget j <=? S32_MAX then 4 else if jtarget j <=? S44_MAX then 8 else if jtarget j <=? S52_MAX then 10 else 12)
    else exists d, jsz j = jest cf j d /\ dist_ok EL n (E + klen k) (jlabel j) d (12 - jsz j)
  | OMov r j =>
    if jisaddr j then jsz j = (if jtarget j <? S32_MAX then 3 else if jtarget j <? S44_MAX then 7 else if jtarget j <=? S52_MAX then 9 else 11)
    else exists d, jsz j = mest d /\ dist_ok EL n E (jlabel j) d 0
  | _ => True
  end.
Fixpoint eok (cf : cfg) (EL : list Z) (n : nat) (E : Z) (ops : list op) : Prop :=
  match ops with [] => True | o :: ops => eok_op cf EL n E o /\ eok cf EL (n + nlab o) (E + osize o) ops end.

Lemma jest_range cf j d : 0 <= jest cf j d <= 12.
Proof. unfold jest, JUMP_MAX_SIZE. repeat match goal with |- context [if ?b then _ else _] => destruct b end; lia. Qed.
Lemma jump_estimate_range cf j l a s : 0 <= jump_estimate cf j l a s <= 12.
Proof. unfold jump_estimate, JUMP_MAX_SIZE. repeat match goal with |- context [if ?b then _ else _] => destruct b end; lia. Qed.
Lemma mov_estimate_range j l a s : 0 <= mov_estimate j l a s <= 11.
Proof. unfold mov_estimate. repeat match goal with |- context [if ?b then _ else _] => destruct b end; lia. Qed.
Lemma jump_estimate_jest cf j l a s : jrewr j = false -> jisaddr j = false ->
  jump_estimate cf j l a s = jest cf j (if l >? a then l - a - s else l - a).
Proof. intros H1 H2. unfold jump_estimate. rewrite H1, H2. reflexivity. Qed.
Lemma mov_estimate_mest j l a s : jisaddr j = false -> mov_estimate j l a s = mest (if l >? a then l - a - s else l - a).
Proof. intros H2. unfold mov_estimate. rewrite H2. reflexivity. Qed.

Lemma Forall2_imp {A B} (R R' : A -> B -> Prop) l l' : (forall x y, R x y -> R' x y) -> Forall2 R l l' -> Forall2 R' l l'.
Proof. induction 2; constructor; auto. Qed.

Section Est.
Variables (cf : cfg) (ol : list Z).
Lemma est_op_size el p e o : orig_op o -> pos_op (est_op cf ol el p e o) /\ 0 <= osize (est_op cf ol el p e o) <= osize o.
Proof.
  destruct o; cbn [est_op osize pos_op orig_op]; intros H; try (split; [tauto|lia]).
  - pose proof (jump_estimate_range cf j (mix_size el ol (jlabel j)) (e + klen k) (p - e)). pose proof (klen_pos k).
    cbn [set_sz set_jaddr_sz jsz]. lia.
  - pose proof (mov_estimate_range j (mix_size el ol (jlabel j)) e (p - e)). cbn [set_sz set_jaddr_sz jsz]. lia.
Qed.
Lemma est_pos ops : Forall orig_op ops -> forall el p e, Forall pos_op (est cf ol el p e ops).
Proof. induction 1; intros; cbn [est]; constructor; auto. apply est_op_size; auto. Qed.
Lemma est_shrink ops : Forall orig_op ops -> forall el p e,
  Forall2 (fun x y => 0 <= x - e <= y - p) (map lsize (labs e (est cf ol el p e ops))) (map lsize (labs p ops)).
Proof.
  induction 1 as [|o ops Ho Hops IH]; intros el p e; cbn [est labs map]; [constructor|].
  pose proof (est_op_size el p e o Ho) as (P & S). rewrite !map_app. apply Forall2_app.
  - destruct o; cbn [est_op olab map lsize]; repeat constructor; lia.
  - eapply Forall2_imp; [|apply IH]. cbn beta. intros. lia.
Qed.
Lemma est_olab el p e o : orig_op o -> map lsize (olab e (est_op cf ol el p e o)) = est_labs e o.
Proof. destruct o; reflexivity. Qed.
Lemma est_buf ops : forall el p e, buf (est cf ol el p e ops) = buf ops.
Proof. induction ops; intros; cbn [est buf flat_map]; [reflexivity|]. unfold buf in IHops. rewrite IHops. f_equal. destruct a; reflexivity. Qed.
Lemma est_okl ops : forall b el p e, okl b ops -> okl b (est cf ol el p e ops).
Proof. induction ops as [|o ops IH]; intros; cbn [est okl]; [auto|]. destruct o; cbn [est_op okl] in *; intuition auto. Qed.
Lemma est_total ops : Forall orig_op ops -> forall el p e, 0 <= total (est cf ol el p e ops) <= total ops.
Proof.
  induction 1 as [|o ops Ho Hops IH]; intros el p e; cbn [est total]; [lia|].
  pose proof (est_op_size el p e o Ho). specialize (IH (el ++ est_labs e o) (p + osize o) (e + osize (est_op cf ol el p e o))). lia.
Qed.
Lemma est_labs_length ops : forall el p e, length (labs e (est cf ol el p e ops)) = length (labs p ops).
Proof. induction ops as [|o ops IH]; intros; cbn [est labs]; [auto|]. rewrite !app_length, IH. destruct o; reflexivity. Qed.

Lemma Forall2_nth {A B} (R : A -> B -> Prop) l l' da db i : Forall2 R l l' -> (i < length l)%nat -> R (nth i l da) (nth i l' db).
Proof. intros H. revert i. induction H; intros i L; cbn in L; [lia|]. destruct i; cbn; auto. apply IHForall2. lia. Qed.
Lemma nth_skipn {A} (l : list A) i k d : nth i (skipn k l) d = nth (k + i) l d.
Proof. revert l; induction k; intros l; cbn; [reflexivity|]. destruct l; cbn; auto. destruct i; auto. Qed.

Lemma wf_est nl el p e o : wf_op cf nl o -> wf_op cf nl (est_op cf ol el p e o).
Proof. destruct o; cbn [est_op wf_op]; auto. Qed.

Lemma eok_est ops : Forall orig_op ops -> forall el p e nl, nl = (length el + length (labs p ops))%nat -> Forall (wf_op cf nl) ops ->
  skipn (length el) ol = map lsize (labs p ops) -> Forall (fun x => x <= e) el -> e <= p ->
  eok cf (el ++ map lsize (labs e (est cf ol el p e ops))) (length el) e (est cf ol el p e ops).
Proof.
  induction 1 as [|o ops Ho Hops IH]; intros el p e nl Hnl W Hs Hel Hep; [exact I|].
  inversion W as [|? ? Wo Wops]; subst x l.
  pose proof (est_op_size el p e o Ho) as (Po & So).
  assert (MB : forall l A s, 0 <= s <= osize o - osize (est_op cf ol el p e o) -> (l < nl)%nat -> e <= A -> A - e <= 2 -> (match o with OJmp k _ => A = e + klen k | OMov _ _ => A = e | _ => False end) ->
    let m := mix_size el ol l in let d := if m >? A then m - A - (p - e) else m - A in
    dist_ok (el ++ map lsize (labs e (est cf ol el p e (o :: ops)))) (length el) A l d s).
  { intros l A s0 LS L1 L2 L3 L4. cbv zeta. unfold dist_ok, mix_size. destruct (l <? length el)%nat eqn:LE.
    - apply Nat.ltb_lt in LE. rewrite !app_nth1 by lia.
      assert (nth l el 0 <= e) by (rewrite Forall_forall in Hel; apply Hel; apply nth_In; auto).
      destruct (nth l el 0 >? A) eqn:G; lia.
    - apply Nat.ltb_ge in LE. rewrite !app_nth2 by lia. rewrite Hs.
      assert (Ls : labs p (o :: ops) = labs (p + osize o) ops) by (destruct o; try tauto; reflexivity).
      assert (Le : labs e (est cf ol el p e (o :: ops)) = labs (e + osize (est_op cf ol el p e o)) (est cf ol (el ++ est_labs e o) (p + osize o) (e + osize (est_op cf ol el p e o)) ops)).
      { cbn [est labs]. destruct o; try tauto; reflexivity. }
      rewrite Ls in *. rewrite Le.
      pose proof (est_shrink ops Hops (el ++ est_labs e o) (p + osize o) (e + osize (est_op cf ol el p e o))) as F.
      eapply Forall2_nth with (i := (l - length el)%nat) (da := 0) (db := 0) in F; [|rewrite map_length, est_labs_length; lia].
      set (x := nth _ _ 0) in *. set (y := nth _ (map lsize (labs (p + osize o) ops)) 0) in *. clearbody x y.
      assert (Z1 : A <= e + osize (est_op cf ol el p e o)).
      { destruct o; try tauto; subst A; cbn [est_op osize] in *; cbn [pos_op] in Po; cbn [est_op] in Po; lia. }
      assert (Z2 : osize o >= 12). { destruct o; try tauto; cbn [osize orig_op] in *; [pose proof (klen_pos k)|]; lia. }
      assert (Z3 : A - e + 12 <= osize o). { destruct o; try tauto; subst A; cbn [osize orig_op] in *; lia. }
      destruct (y >? A) eqn:G; lia. }
  cbn [est eok]. split.
  - split.
    + rewrite app_length, map_length. change (labs e (est_op cf ol el p e o :: _)) with (labs e (est cf ol el p e (o :: ops))).
      rewrite est_labs_length. rewrite <- Hnl. apply wf_est. auto.
    + pose proof (klen_pos) as KP. change (est_op cf ol el p e o :: est cf ol (el ++ est_labs e o) (p + osize o) (e + osize (est_op cf ol el p e o)) ops) with (est cf ol el p e (o :: ops)) in *.
      destruct o as [w|w| |nops mask|k j|r j]; cbn [est_op wf_op orig_op] in *; auto.
      * cbn [set_sz set_jaddr_sz jrewr jisaddr jsz jtarget jlabel].
        destruct Wo as (W1 & W2 & W3 & W4 & W5). specialize (KP k).
        destruct (jrewr j) eqn:R. { unfold jump_estimate. rewrite R. reflexivity. }
        destruct (jisaddr j) eqn:A. { unfold jump_estimate. rewrite R, A. reflexivity. }
        rewrite jump_estimate_jest by auto. eexists. split; [reflexivity|]. apply MB; auto; try lia.
        cbn [est_op osize set_sz set_jaddr_sz jsz]. rewrite jump_estimate_jest by auto. match goal with |- context [jest cf j ?x] => pose proof (jest_range cf j x) end. lia.
      * cbn [set_sz set_jaddr_sz jrewr jisaddr jsz jtarget jlabel]. destruct Wo as (W1 & W2).
        destruct (jisaddr j) eqn:A. { unfold mov_estimate. rewrite A. reflexivity. }
        rewrite mov_estimate_mest by auto. eexists. split; [reflexivity|]. apply MB; auto; lia.
  - cbn [labs]. rewrite map_app, est_olab by auto. rewrite app_assoc.
    assert (NL : (length el + nlab (est_op cf ol el p e o))%nat = length (el ++ est_labs e o)).
    { rewrite app_length. destruct o; reflexivity. }
    rewrite NL. apply IH with nl; auto; try lia.
    + rewrite app_length. cbn [labs] in Hnl. rewrite app_length in Hnl. unfold est_labs. rewrite map_length.
      assert (length (olab e o) = length (olab p o)) by (destruct o; reflexivity). lia.
    + rewrite app_length. cbn [labs] in Hs. rewrite map_app in Hs.
      assert (LL : length (est_labs e o) = length (map lsize (olab p o))) by (destruct o; reflexivity).
      rewrite LL. rewrite Nat.add_comm. 
      assert (SK : forall (a b : nat) (l : list Z), skipn (a + b) l = skipn a (skipn b l)).
      { intros a b l. revert l. induction b; intros l; [rewrite Nat.add_0_r; reflexivity|]. rewrite Nat.add_succ_r. destruct l; [rewrite !skipn_nil; reflexivity|]. cbn. apply IHb. }
      rewrite SK, Hs. rewrite skipn_app, skipn_all, Nat.sub_diag. reflexivity.
    + apply Forall_app. split.
      * eapply Forall_impl; [|exact Hel]. cbn. intros. lia.
      * destruct o; cbn [est_labs olab map lsize est_op osize] in *; repeat constructor; lia.
Qed.
End Est.

(** reduce_code_size on the compiler state of a program. *)
Lemma reduce_comp cf ops : okl false ops -> Forall orig_op ops -> total ops < MAX_ADDRESS ->
  let eops := est cf (map lsize (labs 0 ops)) [] 0 0 ops in
  reduce_code_size cf (comp_of ops) = mkComp (buf ops) (labs 0 eops) (jmps (fun x => x) 0 eops) (csts 0 eops) (total eops).
Proof.
  intros Hl Ho Hm eops. unfold reduce_code_size, comp_of. cbn [cbuf clabels cjumps cconsts csize].
  pose proof (reduce_loop_ok cf (map lsize (labs 0 ops)) ops None
     (S (length (labs 0 ops) + length (jmps (fun _ => 0) 0 ops) + length (csts 0 ops))) [] [] [] 0 0) as R.
  cbn [plab app map isp length rev skipn] in R. change (0 - 0) with 0 in R. cbv zeta in R. rewrite R; auto.
  - f_equal. unfold eops. lia.
Qed.
