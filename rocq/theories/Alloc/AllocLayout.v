(** Abstract layout of the chunks and its basic facts (proof infrastructure). *)
Require Import ZArith List Bool Lia Permutation.
From Verif Require Import Alloc.AllocModel.
Import ListNotations.
Open Scope Z_scope.

(** A block is (size, used); a chunk is (base, blocks). *)
Notation blk := (Z * bool)%type.
Definition layout := list (Z * list blk).

Definition sumsz (l : list blk) : Z := fold_right (fun b acc => fst b + acc) 0 l.
Definition lastsz (prev : Z) (l : list blk) : Z := fold_left (fun _ b => fst b) l prev.

(** An item is a block header or the terminator of a chunk. *)
Record item := It { iaddr : Z; iprev : Z; ik : option blk }.

Fixpoint items (a prev : Z) (l : list blk) : list item :=
  match l with
  | [] => [It a prev None]
  | b :: l' => It a prev (Some b) :: items (a + fst b) (fst b) l'
  end.

Fixpoint seg (a prev : Z) (l : list blk) : list item :=
  match l with
  | [] => []
  | b :: l' => It a prev (Some b) :: seg (a + fst b) (fst b) l'
  end.

Definition all_items (A : layout) : list item :=
  flat_map (fun c => items (fst c) 0 (snd c)) A.

Definition isz (it : item) : Z := match ik it with None => HDR | Some (sz, _) => sz end.

Definition item_ok (m : Z -> Z) (it : item) : Prop :=
  m (iaddr it) = (match ik it with None => 1 | Some (sz, true) => sz | Some (_, false) => 0 end) /\
  m (iaddr it + 8) = iprev it /\
  (forall sz, ik it = Some (sz, false) -> m (iaddr it + 32) = sz).

Definition blk_wf (b : blk) : Prop := 64 <= fst b /\ fst b mod 8 = 0.

Fixpoint noadj (l : list blk) : Prop :=
  match l with
  | (_, false) :: (((_, false) :: _) as l') => False
  | _ :: l' => noadj l'
  | [] => True
  end.

Definition chunk_wf (c : Z * list blk) : Prop :=
  0 < fst c /\ fst c mod 8 = 0 /\ fst c + sumsz (snd c) + HDR <= 2 ^ 62 /\
  snd c <> [] /\ Forall blk_wf (snd c).

Definition reg (c : Z * list blk) : Z * Z := (fst c, sumsz (snd c) + HDR).

Definition rdisj (c d : Z * Z) : Prop := fst c + snd c <= fst d \/ fst d + snd d <= fst c.

Definition layout_wf (A : layout) : Prop :=
  Forall chunk_wf A /\ ForallOrdPairs (fun c d => rdisj (reg c) (reg d)) A.

Lemma sumsz_app l1 l2 : sumsz (l1 ++ l2) = sumsz l1 + sumsz l2.
Proof. induction l1; simpl; lia. Qed.

Lemma sumsz_nonneg l : Forall blk_wf l -> 0 <= sumsz l.
Proof. induction 1 as [|b l [H1 H2]]; simpl; lia. Qed.

Lemma sumsz_mod8 l : Forall blk_wf l -> sumsz l mod 8 = 0.
Proof.
  induction 1 as [|b l [H1 H2] Hl IH]; simpl; auto.
  rewrite Z.add_mod, H2, IH by lia. reflexivity.
Qed.

Lemma lastsz_app p l1 l2 : lastsz p (l1 ++ l2) = lastsz (lastsz p l1) l2.
Proof. unfold lastsz. apply fold_left_app. Qed.

Lemma items_app a p l1 l2 :
  items a p (l1 ++ l2) = seg a p l1 ++ items (a + sumsz l1) (lastsz p l1) l2.
Proof.
  revert a p; induction l1 as [|b l1 IH]; intros; simpl.
  - f_equal; lia.
  - rewrite IH. f_equal. f_equal. f_equal; lia.
Qed.

Lemma seg_app a p l1 l2 :
  seg a p (l1 ++ l2) = seg a p l1 ++ seg (a + sumsz l1) (lastsz p l1) l2.
Proof.
  revert a p; induction l1 as [|b l1 IH]; intros; simpl.
  - f_equal; lia.
  - rewrite IH. f_equal. f_equal. f_equal; lia.
Qed.

Lemma items_seg a p l : items a p l = seg a p l ++ [It (a + sumsz l) (lastsz p l) None].
Proof.
  rewrite <- (app_nil_r l) at 1. rewrite items_app. simpl. reflexivity.
Qed.

(** Every item lies in the region of its list. *)
Lemma seg_range a p l it : Forall blk_wf l -> In it (seg a p l) ->
  a <= iaddr it /\ iaddr it + isz it <= a + sumsz l /\ 64 <= isz it /\
  (a mod 8 = 0 -> iaddr it mod 8 = 0) /\ exists b, ik it = Some b /\ blk_wf b.
Proof.
  intros H; revert a p; induction H as [|b l Hb Hl IH]; simpl; intros a p; [easy|].
  destruct Hb as [H1 H2].
  pose proof (sumsz_nonneg _ Hl).
  intros [<-|Hin].
  - destruct b as [sz u]; cbn in *. repeat split; try lia. eexists; split; [reflexivity|split; auto].
  - apply IH in Hin. destruct Hin as (A1&A2&A3&A4&A5). repeat split; try lia; auto.
    intros Ha; apply A4. rewrite Z.add_mod, Ha, H2; auto; lia.
Qed.

Lemma items_range a p l it : Forall blk_wf l -> In it (items a p l) ->
  a <= iaddr it /\ iaddr it + isz it <= a + sumsz l + HDR /\ HDR <= isz it /\
  (a mod 8 = 0 -> iaddr it mod 8 = 0) /\ (forall b, ik it = Some b -> blk_wf b) /\
  (forall b, ik it = Some b -> iaddr it + isz it <= a + sumsz l).
Proof.
  intros Hl. rewrite items_seg, in_app_iff. intros [Hin|[<-|[]]].
  - apply seg_range in Hin; auto. unfold HDR. destruct Hin as (A1&A2&A3&A4&b&Hb&Hwf).
    split; [lia|]. split; [lia|]. split; [lia|]. split; [auto|]. split; intros b' Hb'.
    + assert (b' = b) by congruence; subst; exact Hwf.
    + lia.
  - pose proof (sumsz_nonneg _ Hl). unfold isz, HDR; cbn. repeat split; try lia; try easy.
    intros; rewrite Z.add_mod, (sumsz_mod8 _ Hl), H0; auto; lia.
Qed.

Definition idisj (x y : item) : Prop :=
  iaddr x + isz x <= iaddr y \/ iaddr y + isz y <= iaddr x.

Lemma items_disj1 a p l x y : Forall blk_wf l -> In x (items a p l) -> In y (items a p l) ->
  x = y \/ idisj x y.
Proof.
  intros H; revert a p; induction H as [|b l Hb Hl IH]; simpl; intros a p.
  - intros [<-|[]] [<-|[]]; auto.
  - destruct b as [sz u]; destruct Hb as [H1 H2]; cbn in *.
    intros [<-|Hx] [<-|Hy]; auto.
    + right. apply items_range in Hy; auto. left; cbn. lia.
    + right. apply items_range in Hx; auto. right; cbn. lia.
    + eapply IH; eauto.
Qed.

Lemma all_items_app A B : all_items (A ++ B) = all_items A ++ all_items B.
Proof. unfold all_items. apply flat_map_app. Qed.

Lemma fop_app {T} (R : T -> T -> Prop) l1 l2 :
  ForallOrdPairs R (l1 ++ l2) <->
  ForallOrdPairs R l1 /\ ForallOrdPairs R l2 /\ (forall x y, In x l1 -> In y l2 -> R x y).
Proof.
  induction l1 as [|a l1 IH]; simpl; split.
  - intros; repeat split; auto; [constructor|easy].
  - tauto.
  - inversion 1; subst. apply IH in H3. destruct H3 as (A1&A2&A3).
    rewrite Forall_app in H2. destruct H2 as [B1 B2]. rewrite Forall_forall in B2.
    repeat split; auto; [constructor; auto|].
    intros x y [<-|Hx] Hy; auto.
  - intros (A1&A2&A3). inversion A1; subst. constructor.
    + rewrite Forall_app; split; auto. rewrite Forall_forall; auto.
    + apply IH; auto.
Qed.

Lemma in_all_items A it : In it (all_items A) <-> exists c, In c A /\ In it (items (fst c) 0 (snd c)).
Proof. unfold all_items. rewrite in_flat_map. tauto. Qed.

Lemma items_disj A x y : layout_wf A -> In x (all_items A) -> In y (all_items A) ->
  x = y \/ idisj x y.
Proof.
  intros [Hwf Hop] Hx Hy.
  rewrite in_all_items in Hx, Hy. destruct Hx as (c&Hc&Hx), Hy as (d&Hd&Hy).
  rewrite Forall_forall in Hwf. pose proof (Hwf c Hc) as Wc. pose proof (Hwf d Hd) as Wd.
  destruct Wc as (c1&c2&c3&c4&c5), Wd as (d1&d2&d3&d4&d5).
  pose proof (items_range _ _ _ _ c5 Hx). pose proof (items_range _ _ _ _ d5 Hy).
  pose proof (ForallOrdPairs_In Hop _ _ Hc Hd) as [E|[E|E]].
  - subst. eapply items_disj1; eauto.
  - right. unfold rdisj, reg, idisj, HDR in *; cbn in *; lia.
  - right. unfold rdisj, reg, idisj, HDR in *; cbn in *; lia.
Qed.

Lemma in_items_wf A it : layout_wf A -> In it (all_items A) ->
  0 < iaddr it /\ iaddr it mod 8 = 0 /\ iaddr it + isz it <= 2 ^ 62 /\ HDR <= isz it /\
  (forall b, ik it = Some b -> blk_wf b).
Proof.
  intros [Hwf _] Hin. rewrite in_all_items in Hin. destruct Hin as (c&Hc&Hx).
  rewrite Forall_forall in Hwf. destruct (Hwf c Hc) as (c1&c2&c3&c4&c5).
  pose proof (items_range _ _ _ _ c5 Hx) as (?&?&?&?&?&?). repeat split; auto; lia || apply H3; auto.
Qed.

(** Access to an item's fields is inside of the mapped memory. *)
Lemma item_acc A cs it o :
  layout_wf A -> cs = map reg A -> In it (all_items A) ->
  0 <= o -> o + 8 <= isz it -> o mod 8 = 0 ->
  ((iaddr it + o) mod 8 =? 0) && mapped cs (iaddr it + o) = true.
Proof.
  intros HW -> Hin Ho1 Ho2 Ho3.
  pose proof (in_items_wf _ _ HW Hin) as (w1&w2&w3&w4&w5).
  apply andb_true_intro; split.
  - apply Z.eqb_eq. rewrite Z.add_mod, w2, Ho3 by lia. reflexivity.
  - unfold mapped. apply existsb_exists.
    rewrite in_all_items in Hin. destruct Hin as (c&Hc&Hx).
    destruct HW as [Hwf _]. rewrite Forall_forall in Hwf. destruct (Hwf c Hc) as (c1&c2&c3&c4&c5).
    pose proof (items_range _ _ _ _ c5 Hx) as (?&?&?&?&?&?).
    exists (reg c). split; [apply in_map; auto|]. unfold reg; cbn.
    apply andb_true_intro; split; apply Z.leb_le; lia.
Qed.

(** Doubly linked free list. *)
Fixpoint dll (m : Z -> Z) (p cur : Z) (l : list Z) : Prop :=
  match l with
  | [] => cur = 0
  | a :: l' => cur = a /\ a <> 0 /\ m (a + 24) = p /\ dll m a (m (a + 16)) l'
  end.

Definition is_free (it : item) : bool := match ik it with Some (_, false) => true | _ => false end.
Definition is_used (it : item) : bool := match ik it with Some (_, true) => true | _ => false end.
Definition free_items (A : layout) := filter is_free (all_items A).
Definition used_items (A : layout) := filter is_used (all_items A).
Definition sum_isz (l : list item) : Z := fold_right (fun it acc => isz it + acc) 0 l.
Definition sum_total (A : layout) : Z := fold_right (fun c acc => sumsz (snd c) + acc) 0 A.

Record inv (s : st) (A : layout) (fl : list Z) : Prop := {
  inv_chunks : chunks s = map reg A;
  inv_wf : layout_wf A;
  inv_items : forall it, In it (all_items A) -> item_ok (mem s) it;
  inv_dll : dll (mem s) 0 (free_blocks s) fl;
  inv_fl : Permutation fl (map iaddr (free_items A));
  inv_alloc : allocated s = sum_isz (used_items A);
  inv_total : total s = sum_total A
}.

Lemma filter_len {T} (f : T -> bool) l : (length (filter f l) <= length l)%nat.
Proof. induction l; simpl; [lia|]. destruct (f a); simpl; lia. Qed.

(** Sum bound: disjoint regions inside [lo, hi) have total length at most hi - lo. *)
Lemma regions_bound : forall n (l : list (Z * Z)) lo hi, (length l <= n)%nat -> lo <= hi ->
  (forall c, In c l -> lo <= fst c /\ 0 <= snd c /\ fst c + snd c <= hi) ->
  ForallOrdPairs rdisj l ->
  fold_right (fun c acc => snd c + acc) 0 l <= hi - lo.
Proof.
  induction n as [|n IH]; intros l lo hi Hlen Hle Hin Hop.
  - destruct l; simpl in *; lia.
  - destruct l as [|c l]; [simpl; lia|].
    inversion Hop as [|? ? Hc Hl]; subst. rewrite Forall_forall in Hc.
    pose (L := filter (fun d => fst d + snd d <=? fst c) l).
    pose (R := filter (fun d => negb (fst d + snd d <=? fst c)) l).
    assert (Hsum : forall k : list (Z*Z), fold_right (fun c acc => snd c + acc) 0 k =
       fold_right (fun c acc => snd c + acc) 0 (filter (fun d => fst d + snd d <=? fst c) k) +
       fold_right (fun c acc => snd c + acc) 0 (filter (fun d => negb (fst d + snd d <=? fst c)) k)).
    { induction k as [|d k IHk]; simpl; auto. destruct (fst d + snd d <=? fst c); simpl; lia. }
    assert (Hfop : forall f, ForallOrdPairs rdisj (filter f l)).
    { intros f. clear -Hl. induction Hl as [|a l Ha Hl IHl]; simpl; [constructor|].
      destruct (f a); auto. constructor; auto. rewrite Forall_forall in *. intros x Hx.
      apply filter_In in Hx. apply Ha, Hx. }
    assert (Hlen' : forall f, (length (filter f l) <= n)%nat).
    { intros f. simpl in Hlen. pose proof (filter_len f l). lia. }
    pose proof (Hin c (or_introl eq_refl)) as (c1&c2&c3).
    assert (B1 : fold_right (fun c acc => snd c + acc) 0 L <= fst c - lo).
    { apply IH; auto; try lia.
      - apply Hlen'.
      - intros d Hd. apply filter_In in Hd. destruct Hd as [Hd1 Hd2].
        pose proof (Hin d (or_intror Hd1)). lia.
      - apply Hfop. }
    assert (B2 : fold_right (fun c acc => snd c + acc) 0 R <= hi - (fst c + snd c)).
    { apply IH; auto; try lia.
      - apply Hlen'.
      - intros d Hd. apply filter_In in Hd. destruct Hd as [Hd1 Hd2].
        pose proof (Hin d (or_intror Hd1)). pose proof (Hc d Hd1). unfold rdisj in *.
        apply negb_true_iff in Hd2. lia.
      - apply Hfop. }
    simpl. specialize (Hsum l). fold L R in Hsum. lia.
Qed.

Lemma fop_map {T U} (f : T -> U) (R : U -> U -> Prop) l :
  ForallOrdPairs R (map f l) <-> ForallOrdPairs (fun x y => R (f x) (f y)) l.
Proof.
  induction l; simpl; split; inversion 1; subst; constructor; auto; try tauto.
  - rewrite Forall_map in H2. auto.
  - rewrite Forall_map. auto.
Qed.

Lemma total_bound A : layout_wf A -> 0 <= sum_total A <= 2 ^ 62.
Proof.
  intros [H1 H2]. split.
  - induction H1 as [|c A Hc HA IH]; simpl; [lia|].
    inversion H2; subst. destruct Hc as (?&?&?&?&Hs). pose proof (sumsz_nonneg _ Hs).
    enough (0 <= sum_total A) by lia. apply IH; auto.
  - assert (B : fold_right (fun c acc => snd c + acc) 0 (map reg A) <= 2 ^ 62 - 0).
    { apply (regions_bound (length (map reg A))); auto; try lia.
      - intros c Hc. apply in_map_iff in Hc. destruct Hc as (d&<-&Hd).
        rewrite Forall_forall in H1. destruct (H1 d Hd) as (?&?&?&?&Hs).
        pose proof (sumsz_nonneg _ Hs). unfold reg, HDR in *; cbn; lia.
      - apply fop_map. auto. }
    enough (sum_total A <= fold_right (fun c acc => snd c + acc) 0 (map reg A)) by lia.
    clear. induction A as [|c A IH]; [simpl; lia|]. cbn -[HDR]. unfold sum_total in IH.
    unfold HDR. lia.
Qed.

Lemma sum_isz_app l1 l2 : sum_isz (l1 ++ l2) = sum_isz l1 + sum_isz l2.
Proof. induction l1; simpl; lia. Qed.

Lemma seg_items_sum a p l : Forall blk_wf l -> sum_isz (filter is_used (items a p l)) <= sumsz l.
Proof.
  intros H. revert a p; induction H as [|[sz u] l [Hb _] Hl IH]; intros a p; simpl; [lia|].
  specialize (IH (a + sz) sz). simpl in Hb. destruct u; simpl; unfold isz; simpl; lia.
Qed.

Lemma alloc_bound A : layout_wf A -> 0 <= sum_isz (used_items A) <= sum_total A.
Proof.
  intros [H1 _]. unfold used_items.
  induction H1 as [|c A Hc HA IH]; simpl; [lia|].
  rewrite filter_app, sum_isz_app.
  destruct Hc as (?&?&?&?&Hb).
  pose proof (seg_items_sum (fst c) 0 (snd c) Hb) as Hs.
  assert (0 <= sum_isz (filter is_used (items (fst c) 0 (snd c)))).
  { assert (G : forall l, (forall it, In it l -> 0 <= isz it) -> 0 <= sum_isz (filter is_used l)).
    { induction l as [|i l IHl]; simpl; intros Hp; [lia|].
      assert (0 <= isz i) by auto. assert (0 <= sum_isz (filter is_used l)) by auto.
      destruct (is_used i); simpl; lia. }
    apply G. intros it Hit. apply items_range in Hit; auto. unfold HDR in *; lia. }
  lia.
Qed.
