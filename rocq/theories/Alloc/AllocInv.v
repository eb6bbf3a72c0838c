(** The layout invariant is preserved by every piece of the allocator. *)
Require Import ZArith List Bool Lia Permutation.
From Verif Require Import Alloc.AllocModel Alloc.AllocLayout Alloc.AllocOps.
Import ListNotations.
Open Scope Z_scope.

(** A layout with a distinguished run of blocks [M]. *)
Definition ctx (A1 : layout) (b : Z) (l1 M l2 : list blk) (A2 : layout) : layout :=
  A1 ++ (b, l1 ++ M ++ l2) :: A2.

Definition tl_items (e : Z) (l : list blk) : list item :=
  match l with [] => [] | x :: l' => items (e + fst x) (fst x) l' end.

Lemma items_hd e p l : items e p l = It e p (hd_error l) :: tl_items e l.
Proof. destruct l; reflexivity. Qed.

Definition before A1 b l1 := all_items A1 ++ seg b 0 l1.
Definition after e l2 A2 := tl_items e l2 ++ all_items A2.

Lemma ctx_items A1 b l1 M l2 A2 :
  all_items (ctx A1 b l1 M l2 A2) =
  before A1 b l1 ++ seg (b + sumsz l1) (lastsz 0 l1) M ++
  It (b + sumsz l1 + sumsz M) (lastsz (lastsz 0 l1) M) (hd_error l2) ::
  after (b + sumsz l1 + sumsz M) l2 A2.
Proof.
  unfold ctx, before, after. rewrite all_items_app. change (all_items ((b, l1 ++ M ++ l2) :: A2)) with
    (items b 0 (l1 ++ M ++ l2) ++ all_items A2).
  rewrite items_app, items_app, items_hd. rewrite <- !app_assoc. simpl. reflexivity.
Qed.

Lemma ctx_reg A1 b l1 M M' l2 A2 : sumsz M' = sumsz M ->
  map reg (ctx A1 b l1 M' l2 A2) = map reg (ctx A1 b l1 M l2 A2).
Proof.
  intros H. unfold ctx. rewrite !map_app. simpl. f_equal. f_equal. unfold reg; simpl.
  rewrite !sumsz_app, H. reflexivity.
Qed.

Lemma ctx_wf A1 b l1 M M' l2 A2 : sumsz M' = sumsz M -> M' <> [] -> Forall blk_wf M' ->
  layout_wf (ctx A1 b l1 M l2 A2) -> layout_wf (ctx A1 b l1 M' l2 A2).
Proof.
  intros HS HN HB [W1 W2]. split.
  - unfold ctx in *. rewrite Forall_app in *. destruct W1 as [W1 W1']. split; auto.
    inversion W1' as [|? ? (w1&w2&w3&w4&w5) WA]; subst. constructor; auto.
    unfold chunk_wf; simpl in *. rewrite !sumsz_app in *. rewrite !Forall_app in *.
    repeat split; try tauto; try lia.
    destruct l1; simpl; [|easy]. destruct M'; [congruence|easy].
  - assert (forall (R : Z*Z -> Z*Z -> Prop) A, ForallOrdPairs (fun c d => R (reg c) (reg d)) A <-> ForallOrdPairs R (map reg A)).
    { intros. symmetry. apply fop_map. }
    apply H. rewrite (ctx_reg _ _ _ M); auto. apply H. auto.
Qed.

Lemma ctx_total A1 b l1 M M' l2 A2 : sumsz M' = sumsz M ->
  sum_total (ctx A1 b l1 M' l2 A2) = sum_total (ctx A1 b l1 M l2 A2).
Proof.
  intros H. unfold ctx. induction A1; simpl.
  - rewrite !sumsz_app, H. reflexivity.
  - lia.
Qed.

Lemma in_seg_split a p l it : In it (seg a p l) ->
  exists l1 x l2, l = l1 ++ x :: l2 /\ it = It (a + sumsz l1) (lastsz p l1) (Some x).
Proof.
  revert a p; induction l as [|x l IH]; simpl; intros a p; [easy|].
  intros [<-|H].
  - exists [], x, l. simpl. split; auto. f_equal; lia.
  - apply IH in H. destruct H as (l1&y&l2&->&->). exists (x :: l1), y, l2. simpl. split; auto.
    f_equal; lia.
Qed.

Lemma in_ctx A it x : In it (all_items A) -> ik it = Some x ->
  exists A1 b l1 l2 A2, A = ctx A1 b l1 [x] l2 A2 /\ it = It (b + sumsz l1) (lastsz 0 l1) (Some x).
Proof.
  intros H E. apply in_all_items in H. destruct H as ([b l]&Hc&Hi).
  apply in_split in Hc. destruct Hc as (A1&A2&->). simpl in Hi.
  rewrite items_seg in Hi. apply in_app_or in Hi. destruct Hi as [Hi|[<-|[]]]; [|easy].
  apply in_seg_split in Hi. destruct Hi as (l1&y&l2&->&->). simpl in E.
  exists A1, b, l1, l2, A2. split; [|congruence]. inversion E; subst. reflexivity.
Qed.

(** Positions of the items around the run. *)
Lemma ctx_out A1 b l1 M l2 A2 it :
  layout_wf (ctx A1 b l1 M l2 A2) ->
  let a := b + sumsz l1 in let e := a + sumsz M in
  In it (before A1 b l1 ++ after e l2 A2) ->
  (iaddr it + isz it <= a \/ e + 16 <= iaddr it) /\
  (forall x, hd_error l2 = Some x -> iaddr it + isz it <= a \/ e + fst x <= iaddr it).
Proof.
  intros [W1 W2] a e H. unfold ctx in *.
  rewrite Forall_app in W1. destruct W1 as [W1 W1']. inversion W1' as [|? ? (w1&w2&w3&w4&w5) WA]; subst.
  simpl in *. rewrite !Forall_app in w5. destruct w5 as (w5&w6&w7). rewrite !sumsz_app in w3.
  pose proof (sumsz_nonneg _ w5). pose proof (sumsz_nonneg _ w6). pose proof (sumsz_nonneg _ w7).
  apply fop_app in W2. destruct W2 as (W2&W3&W4). inversion W3 as [|? ? W5 W6]; subst.
  rewrite Forall_forall in W5.
  assert (HX : forall x, hd_error l2 = Some x -> 64 <= fst x <= sumsz l2).
  { intros x Hx. destruct l2 as [|y l2]; inversion Hx; subst.
    inversion w7 as [|? ? [Hy _] Hl2]; subst. pose proof (sumsz_nonneg _ Hl2). simpl. lia. }
  unfold before, after in H. rewrite !in_app_iff in H.
  assert (OUT : forall c, chunk_wf c -> In it (items (fst c) 0 (snd c)) ->
            rdisj (reg c) (reg (b, l1 ++ M ++ l2)) \/ rdisj (reg (b, l1 ++ M ++ l2)) (reg c) ->
            iaddr it + isz it <= a \/ e + sumsz l2 + 16 <= iaddr it).
  { intros c Wc Hi Hd. destruct Wc as (c1&c2&c3&c4&c5).
    pose proof (items_range _ _ _ _ c5 Hi) as (r1&r2&r3&_).
    unfold rdisj, reg, HDR in *; simpl in *. rewrite !sumsz_app in Hd. lia. }
  destruct H as [[H|H]|[H|H]].
  - apply in_all_items in H. destruct H as (c&Hc&Hi).
    rewrite Forall_forall in W1. specialize (OUT c (W1 c Hc) Hi).
    assert (rdisj (reg c) (reg (b, l1 ++ M ++ l2))) by (apply W4; simpl; auto).
    split; [|intros x Hx; specialize (HX x Hx)]; destruct OUT; auto; lia.
  - apply seg_range in H; auto. destruct H as (r1&r2&r3&_). split; [|intros]; lia.
  - destruct l2 as [|y l2]; simpl in H; [easy|].
    inversion w7 as [|? ? [Hy _] Hl2]; subst.
    pose proof (items_range _ _ _ _ Hl2 H) as (r1&r2&r3&_).
    split; [|intros x Hx; inversion Hx; subst]; lia.
  - apply in_all_items in H. destruct H as (c&Hc&Hi).
    rewrite Forall_forall in WA. specialize (OUT c (WA c Hc) Hi).
    assert (rdisj (reg (b, l1 ++ M ++ l2)) (reg c)) by (apply W5; auto).
    split; [|intros x Hx; specialize (HX x Hx)]; destruct OUT; auto; lia.
Qed.

(** Address sets *)
Definition fa (l : list item) : list Z := map iaddr (filter is_free l).
Definition us (l : list item) : Z := sum_isz (filter is_used l).

Lemma fa_app l1 l2 : fa (l1 ++ l2) = fa l1 ++ fa l2.
Proof. unfold fa. rewrite filter_app, map_app. reflexivity. Qed.
Lemma us_app l1 l2 : us (l1 ++ l2) = us l1 + us l2.
Proof. unfold us. rewrite filter_app, sum_isz_app. reflexivity. Qed.

Lemma fa_it a p p' k l : fa (It a p k :: l) = fa (It a p' k :: l).
Proof. unfold fa; simpl. unfold is_free; simpl. destruct k as [[? []]|]; reflexivity. Qed.
Lemma us_it a p p' k l : us (It a p k :: l) = us (It a p' k :: l).
Proof. unfold us; simpl. unfold is_used; simpl. destruct k as [[? []]|]; reflexivity. Qed.

Lemma ctx_fa A1 b l1 M M' l2 A2 : sumsz M' = sumsz M ->
  let a := b + sumsz l1 in
  exists Y, fa (all_items (ctx A1 b l1 M l2 A2)) = fa (before A1 b l1) ++ fa (seg a (lastsz 0 l1) M) ++ Y /\
            fa (all_items (ctx A1 b l1 M' l2 A2)) = fa (before A1 b l1) ++ fa (seg a (lastsz 0 l1) M') ++ Y.
Proof.
  intros H a. rewrite !ctx_items, !fa_app, H.
  eexists; split; [reflexivity|]. f_equal. f_equal. apply fa_it.
Qed.

Lemma ctx_us A1 b l1 M M' l2 A2 : sumsz M' = sumsz M ->
  let a := b + sumsz l1 in
  us (all_items (ctx A1 b l1 M' l2 A2)) =
  us (all_items (ctx A1 b l1 M l2 A2)) - us (seg a (lastsz 0 l1) M) + us (seg a (lastsz 0 l1) M').
Proof.
  intros H a. rewrite !ctx_items, !us_app, H. fold a.
  rewrite (us_it _ (lastsz (lastsz 0 l1) M') (lastsz (lastsz 0 l1) M)). lia.
Qed.

Lemma fa_in l y : In y (fa l) <-> exists it, In it l /\ is_free it = true /\ iaddr it = y.
Proof.
  unfold fa. rewrite in_map_iff. split; intros (it&H1&H2).
  - apply filter_In in H2. exists it. tauto.
  - exists it. rewrite filter_In. tauto.
Qed.

Lemma items_addr_inj A x y : layout_wf A -> In x (all_items A) -> In y (all_items A) ->
  iaddr x = iaddr y -> x = y.
Proof.
  intros W Hx Hy E. destruct (items_disj _ _ _ W Hx Hy) as [H|H]; auto.
  pose proof (in_items_wf _ _ W Hx). pose proof (in_items_wf _ _ W Hy). unfold idisj, HDR in *. lia.
Qed.

Lemma items_incr a l it : Forall blk_wf l -> In it (tl_items a l) -> a < iaddr it.
Proof.
  destruct l as [|x l]; simpl; [easy|]. intros H Hi. inversion H as [|? ? [Hx _] Hl]; subst.
  apply items_range in Hi; auto. lia.
Qed.

Lemma all_items_nodup A : layout_wf A -> NoDup (map iaddr (all_items A)).
Proof.
  assert (N1 : forall l a p, Forall blk_wf l -> NoDup (map iaddr (items a p l))).
  { induction l as [|x l IH]; intros a p H; simpl.
    - constructor; [easy|constructor].
    - inversion H as [|? ? [Hx _] Hl]; subst. constructor; auto.
      rewrite in_map_iff. intros (it&E&Hi). apply items_range in Hi; auto. lia. }
  intros [W1 W2]. induction W1 as [|c A Hc HA IH]; simpl; [constructor|].
  inversion W2 as [|? ? F1 F2]; subst. rewrite Forall_forall in F1.
  rewrite map_app. destruct Hc as (c1&c2&c3&c4&c5).
  assert (D : forall x, In x (map iaddr (items (fst c) 0 (snd c))) -> ~ In x (map iaddr (all_items A))).
  { intros x Hx Hy. apply in_map_iff in Hx. apply in_map_iff in Hy.
    destruct Hx as (i&<-&Hi), Hy as (j&Ej&Hj). apply in_all_items in Hj. destruct Hj as (d&Hd&Hj).
    rewrite Forall_forall in HA. destruct (HA d Hd) as (d1&d2&d3&d4&d5).
    pose proof (items_range _ _ _ _ c5 Hi). pose proof (items_range _ _ _ _ d5 Hj).
    specialize (F1 d Hd). unfold rdisj, reg, HDR in *; simpl in *. lia. }
  specialize (IH F2). clear -N1 D IH c5.
  specialize (N1 (snd c) (fst c) 0 c5).
  induction (map iaddr (items (fst c) 0 (snd c))) as [|z k IHk]; simpl; auto.
  inversion N1; subst. constructor.
  - rewrite in_app_iff. intros [H|H]; [auto|]. eapply D; simpl; eauto.
  - apply IHk; auto. intros x Hx. apply D; simpl; auto.
Qed.

Lemma fa_nodup A : layout_wf A -> NoDup (fa (all_items A)).
Proof.
  intros W. apply all_items_nodup in W. unfold fa.
  induction (all_items A) as [|it l IH]; simpl in *; [constructor|].
  inversion W; subst. destruct (is_free it); simpl; auto. constructor; auto.
  intros H. apply in_map_iff in H. destruct H as (j&E&Hj). apply filter_In in Hj.
  apply H1. rewrite <- E. apply in_map. tauto.
Qed.

Lemma nodes_of A cs fl : layout_wf A -> cs = map reg A -> Permutation fl (fa (all_items A)) ->
  nodes_ok cs fl.
Proof.
  intros W -> P.
  assert (IN : forall y, In y fl -> exists it, In it (all_items A) /\ is_free it = true /\ iaddr it = y /\ 64 <= isz it).
  { intros y Hy. apply (Permutation_in _ P) in Hy. apply fa_in in Hy. destruct Hy as (it&H1&H2&H3).
    exists it. repeat split; auto. pose proof (in_items_wf _ _ W H1) as (_&_&_&_&H4).
    unfold is_free in H2. unfold isz. destruct (ik it) as [[sz []]|]; try discriminate.
    apply (H4 (sz, false) eq_refl). }
  split; [|split].
  - eapply Permutation_NoDup; [symmetry; exact P|]. apply fa_nodup; auto.
  - intros y o Hy Ho. destruct (IN y Hy) as (it&H1&H2&<-&H4).
    unfold acc. eapply item_acc; eauto; simpl in Ho;
    destruct Ho as [<-|[<-|[<-|[<-|[<-|[]]]]]]; try lia; reflexivity.
  - intros y y' Hy Hy'. destruct (IN y Hy) as (it&H1&H2&<-&H4).
    destruct (IN y' Hy') as (jt&J1&J2&<-&J4).
    destruct (items_disj _ _ _ W H1 J1) as [->|H]; auto. unfold idisj in H. right; lia.
Qed.

(** Link updates keep the headers. *)
Lemma item_ok_links A F m m' it : layout_wf A -> In it (all_items A) ->
  (forall y, In y F -> In y (fa (all_items A))) -> links_only F m m' ->
  item_ok m it -> item_ok m' it.
Proof.
  intros W Hit HF L (O1&O2&O3).
  assert (EQ : forall o, In o [0; 8] \/ (o = 32 /\ 64 <= isz it) -> m' (iaddr it + o) = m (iaddr it + o)).
  { intros o Ho. apply L. intros y Hy. apply HF, fa_in in Hy. destruct Hy as (jt&J1&J2&<-).
    pose proof (in_items_wf _ _ W J1) as (_&_&_&_&J4). pose proof (in_items_wf _ _ W Hit) as (_&_&_&I4&_).
    assert (J5 : 64 <= isz jt).
    { unfold is_free in J2. unfold isz. destruct (ik jt) as [[sz []]|]; try discriminate.
      apply (J4 (sz, false) eq_refl). }
    unfold HDR in *.
    destruct (items_disj _ _ _ W Hit J1) as [->|[H|H]]; simpl in Ho; lia. }
  split; [|split].
  - rewrite <- O1. specialize (EQ 0). rewrite Z.add_0_r in EQ. apply EQ. simpl; auto.
  - rewrite <- O2. apply EQ. simpl; auto.
  - intros sz Hsz. rewrite <- (O3 sz Hsz). apply EQ. right. split; auto.
    pose proof (in_items_wf _ _ W Hit) as (_&_&_&_&J4). specialize (J4 _ Hsz). unfold isz. rewrite Hsz. apply J4.
Qed.

Definition payload (A : layout) (x : Z) : Prop :=
  exists it, In it (used_items A) /\ iaddr it + 16 <= x < iaddr it + isz it.

Definition keep (A A' : layout) (m m' : Z -> Z) : Prop :=
  forall x, payload A x -> payload A' x -> m' x = m x.

Lemma links_keep A A' F m m' : layout_wf A ->
  (forall y, In y F -> In y (fa (all_items A))) -> links_only F m m' -> keep A A' m m'.
Proof.
  intros W HF L x (it&Hi&Hx) _. apply filter_In in Hi. destruct Hi as [Hi Hu].
  apply L. intros y Hy. apply HF, fa_in in Hy. destruct Hy as (jt&J1&J2&<-).
  pose proof (in_items_wf _ _ W J1) as (_&_&_&_&J4).
  assert (J5 : 64 <= isz jt).
  { unfold is_free in J2. unfold isz. destruct (ik jt) as [[sz []]|]; try discriminate.
    apply (J4 (sz, false) eq_refl). }
  destruct (items_disj _ _ _ W Hi J1) as [->|[H|H]]; try lia.
  unfold is_used, is_free in *. destruct (ik jt) as [[sz []]|]; discriminate.
Qed.

Lemma keep_refl A A' m : keep A A' m m.
Proof. intros x _ _; reflexivity. Qed.

Lemma payload_items A x : payload A x <->
  exists it, In it (all_items A) /\ is_used it = true /\ iaddr it + 16 <= x < iaddr it + isz it.
Proof.
  unfold payload, used_items. split; intros (it&H&H').
  - apply filter_In in H. exists it; tauto.
  - exists it. rewrite filter_In. tauto.
Qed.

(** Updates inside the run [M] and of the following prev_size: frame for all the rest. *)
Lemma item_ok_frame m m' it :
  (forall o, In o [0; 8] \/ (o = 32 /\ 64 <= isz it) -> m' (iaddr it + o) = m (iaddr it + o)) ->
  (forall b, ik it = Some b -> blk_wf b) -> item_ok m it -> item_ok m' it.
Proof.
  intros EQ WF (O1&O2&O3). split; [|split].
  - rewrite <- O1. specialize (EQ 0). rewrite Z.add_0_r in EQ. apply EQ. simpl; auto.
  - rewrite <- O2. apply EQ. simpl; auto.
  - intros sz Hsz. rewrite <- (O3 sz Hsz). apply EQ. right. split; auto.
    specialize (WF _ Hsz). unfold isz. rewrite Hsz. apply WF.
Qed.

(** Replacing the run [M] by [M'] with memory [m'] that differs from [m] only inside of
    the run and at the prev_size field of the following header. *)
Lemma ctx_replace A1 b l1 M M' l2 A2 m m' :
  let A := ctx A1 b l1 M l2 A2 in
  let A' := ctx A1 b l1 M' l2 A2 in
  let a := b + sumsz l1 in let e := a + sumsz M in
  layout_wf A -> sumsz M' = sumsz M -> M' <> [] -> Forall blk_wf M' ->
  (forall it, In it (all_items A) -> item_ok m it) ->
  (forall x, m' x = m x \/ a <= x < e \/ x = e + 8) ->
  m' (e + 8) = lastsz (lastsz 0 l1) M' ->
  (forall it, In it (seg a (lastsz 0 l1) M') -> item_ok m' it) ->
  (forall it, In it (all_items A') -> item_ok m' it).
Proof.
  intros A A' a e W HS HN HB OK FR HE HM it Hit.
  assert (W' : layout_wf A') by (eapply ctx_wf; eauto).
  assert (NN : a <= e) by (pose proof (sumsz_nonneg _ HB); unfold e; lia).
  unfold A' in Hit. rewrite ctx_items in Hit. rewrite HS in Hit. fold a e in Hit.
  apply in_app_or in Hit. rewrite in_app_iff in Hit. simpl in Hit.
  assert (OUT : In it (before A1 b l1 ++ after e l2 A2) -> item_ok m' it).
  { intros H. assert (HA : In it (all_items A)).
    { unfold A. rewrite ctx_items. fold a e. apply in_app_or in H. rewrite !in_app_iff. simpl. tauto. }
    pose proof (in_items_wf _ _ W HA) as (i1&i2&i3&i4&i5).
    destruct (ctx_out _ _ _ _ _ _ it W H) as [P _]. fold a e in P.
    apply item_ok_frame with (m := m); auto. unfold HDR in *.
    intros o Ho. simpl in Ho. destruct (FR (iaddr it + o)) as [E|[E|E]]; auto; exfalso; lia. }
  destruct Hit as [H|[H|[<-|H]]].
  - apply OUT, in_or_app; auto.
  - apply HM; auto.
  - assert (HA : In (It e (lastsz (lastsz 0 l1) M) (hd_error l2)) (all_items A)).
    { unfold A. rewrite ctx_items. fold a e. rewrite !in_app_iff. simpl. tauto. }
    destruct (OK _ HA) as (O1&O2&O3). simpl in *. split; [|split]; simpl.
    + rewrite <- O1. destruct (FR e) as [E|[E|E]]; auto; lia.
    + exact HE.
    + intros sz Hsz. rewrite <- (O3 _ Hsz). destruct (FR (e + 32)) as [E|[E|E]]; auto; lia.
  - apply OUT, in_or_app; auto.
Qed.

Lemma ctx_payload A1 b l1 M l2 A2 x :
  let A := ctx A1 b l1 M l2 A2 in
  let a := b + sumsz l1 in let e := a + sumsz M in
  layout_wf A -> payload A x ->
  (x < a \/ e + 16 <= x) \/
  (exists it, In it (seg a (lastsz 0 l1) M) /\ is_used it = true /\ iaddr it + 16 <= x < iaddr it + isz it).
Proof.
  intros A a e W H. apply payload_items in H. destruct H as (it&Hit&Hu&Hx).
  unfold A in Hit. rewrite ctx_items in Hit. fold a e in Hit.
  rewrite !in_app_iff in Hit. simpl in Hit.
  assert (OUT : In it (before A1 b l1 ++ after e l2 A2) -> x < a \/ e + 16 <= x).
  { intros H. destruct (ctx_out _ _ _ _ _ _ it W H) as [P _]. fold a e in P. lia. }
  destruct Hit as [H|[H|[<-|H]]].
  - left; apply OUT, in_or_app; auto.
  - right. exists it; auto.
  - left. simpl in *. lia.
  - left; apply OUT, in_or_app; auto.
Qed.

(** dll nodes other than the run keep their links *)
Lemma ctx_dll A1 b l1 M M' l2 A2 m m' fl p c :
  let A := ctx A1 b l1 M l2 A2 in
  let a := b + sumsz l1 in let e := a + sumsz M in
  layout_wf A ->
  (forall y, In y fl -> In y (fa (all_items A))) ->
  (forall x, m' x = m x \/ a <= x < e \/ x = e + 8) ->
  (forall y, In y fl -> In y (fa (seg a (lastsz 0 l1) M)) -> m' (y + 16) = m (y + 16) /\ m' (y + 24) = m (y + 24)) ->
  sumsz M' = sumsz M ->
  dll m p c fl -> dll m' p c fl.
Proof.
  intros A a e W HF FR HM _ D.
  assert (NN : a <= e).
  { destruct W as [W _]. unfold A, ctx in W. rewrite Forall_app in W. destruct W as [_ W].
    inversion W as [|? ? (w1&w2&w3&w4&w5) WA]; subst. simpl in w5. rewrite !Forall_app in w5.
    destruct w5 as (_&w5&_). pose proof (sumsz_nonneg _ w5). unfold e. lia. } eapply dll_frame; [|exact D].
  intros y Hy. pose proof (HF y Hy) as Hy'. unfold A in Hy'. rewrite ctx_items, !fa_app, !in_app_iff in Hy'.
  fold a e in Hy'.
  assert (OUT : In y (fa (before A1 b l1)) \/ In y (fa (after e l2 A2)) \/ y = e ->
            m' (y + 16) = m (y + 16) /\ m' (y + 24) = m (y + 24)).
  { intros H.
    assert (y + 64 <= a \/ e + 16 <= y \/ y = e).
    { rewrite !fa_in in H.
      assert (G : forall it, In it (before A1 b l1 ++ after e l2 A2) -> is_free it = true ->
                  iaddr it + 64 <= a \/ e + 16 <= iaddr it).
      { intros it Hi Hf.
        assert (HA : In it (all_items A)).
        { unfold A. rewrite ctx_items. fold a e. apply in_app_or in Hi. rewrite !in_app_iff. simpl. tauto. }
        pose proof (in_items_wf _ _ W HA) as (_&_&_&_&J4).
        destruct (ctx_out _ _ _ _ _ _ it W Hi) as [P _]. fold a e in P.
        unfold is_free in Hf. unfold isz in P. destruct (ik it) as [[sz []]|]; try discriminate.
        specialize (J4 _ eq_refl). destruct J4 as [J4 _]; simpl in J4. lia. }
      destruct H as [(it&H1&H2&<-)|[(it&H1&H2&<-)|H]]; auto.
      - specialize (G it (in_or_app _ _ _ (or_introl H1)) H2). lia.
      - specialize (G it (in_or_app _ _ _ (or_intror H1)) H2). lia. }
    split; [destruct (FR (y + 16)) as [E|[E|E]]|destruct (FR (y + 24)) as [E|[E|E]]]; auto; lia. }
  destruct Hy' as [H|[H|H]]; auto.
  change (It e (lastsz (lastsz 0 l1) M) (hd_error l2) :: after e l2 A2) with
    ([It e (lastsz (lastsz 0 l1) M) (hd_error l2)] ++ after e l2 A2) in H.
  rewrite fa_app, in_app_iff in H. destruct H as [H|H]; auto.
  apply OUT. right; right. unfold fa in H. simpl in H.
  destruct (is_free _); simpl in H; [|easy]. destruct H as [<-|[]]; reflexivity.
Qed.
