(** malloc_exec, free_exec and free_unused preserve the layout invariant. *)
Require Import ZArith List Bool Lia Permutation.
From Verif Require Import Alloc.AllocModel Alloc.AllocLayout Alloc.AllocOps Alloc.AllocInv.
Import ListNotations.
Open Scope Z_scope.

Definition ua (l : list item) : list (Z * Z) := map (fun it => (iaddr it, isz it)) (filter is_used l).

Lemma ua_app l1 l2 : ua (l1 ++ l2) = ua l1 ++ ua l2.
Proof. unfold ua. rewrite filter_app, map_app. reflexivity. Qed.

Lemma ua_it a p p' k l : ua (It a p k :: l) = ua (It a p' k :: l).
Proof. unfold ua; simpl. unfold is_used; simpl. destruct k as [[? []]|]; reflexivity. Qed.

Lemma ctx_ua A1 b l1 M M' l2 A2 : sumsz M' = sumsz M ->
  let a := b + sumsz l1 in
  exists Y, ua (all_items (ctx A1 b l1 M l2 A2)) = ua (before A1 b l1) ++ ua (seg a (lastsz 0 l1) M) ++ Y /\
            ua (all_items (ctx A1 b l1 M' l2 A2)) = ua (before A1 b l1) ++ ua (seg a (lastsz 0 l1) M') ++ Y.
Proof.
  intros H a. rewrite !ctx_items, !ua_app, H.
  eexists; split; [reflexivity|]. f_equal. f_equal. apply ua_it.
Qed.

Definition noadjA (A : layout) : Prop := Forall (fun c => noadj (snd c)) A.

Definition lastfree (l : list blk) : bool := match rev l with (_, false) :: _ => true | _ => false end.
Definition headfree (l : list blk) : bool := match l with (_, false) :: _ => true | _ => false end.

Lemma noadj_app l1 l2 :
  noadj (l1 ++ l2) <-> noadj l1 /\ noadj l2 /\ (lastfree l1 && headfree l2 = false).
Proof.
  induction l1 as [|[s u] l1 IH].
  - simpl. unfold lastfree; simpl. tauto.
  - destruct l1 as [|[s' u'] l1].
    + unfold lastfree; simpl. destruct u; simpl.
      * tauto.
      * destruct l2 as [|[t v] l2]; simpl; [tauto|]. destruct v; simpl; intuition discriminate.
    + assert (EL : lastfree ((s, u) :: (s', u') :: l1) = lastfree ((s', u') :: l1)).
      { unfold lastfree. simpl rev. destruct (rev l1) as [|[? ?] ?]; reflexivity. }
      rewrite EL. change (((s, u) :: (s', u') :: l1) ++ l2) with ((s, u) :: ((s', u') :: l1) ++ l2).
      destruct u.
      * change (noadj ((s, true) :: ((s', u') :: l1) ++ l2)) with (noadj (((s', u') :: l1) ++ l2)).
        change (noadj ((s, true) :: (s', u') :: l1)) with (noadj ((s', u') :: l1)). exact IH.
      * destruct u'; simpl app in *.
        -- exact IH.
        -- simpl. tauto.
Qed.

Lemma lastfree_snoc l x : lastfree (l ++ [x]) = negb (snd x).
Proof. unfold lastfree. rewrite rev_app_distr. simpl. destruct x as [? []]; reflexivity. Qed.

(** Access facts *)
Lemma ctx_acc A1 b l1 M l2 A2 cs o :
  layout_wf (ctx A1 b l1 M l2 A2) -> cs = map reg (ctx A1 b l1 M l2 A2) ->
  0 <= o -> o + 8 <= sumsz M + 16 -> o mod 8 = 0 -> acc cs (b + sumsz l1 + o) = true.
Proof.
  intros W -> H1 H2 H3. unfold acc.
  assert (WC : chunk_wf (b, l1 ++ M ++ l2)).
  { destruct W as [W _]. rewrite Forall_forall in W. apply W. unfold ctx. apply in_or_app; simpl; auto. }
  destruct WC as (w1&w2&w3&w4&w5). simpl in *. rewrite !Forall_app in w5. destruct w5 as (w5&w6&w7).
  rewrite !sumsz_app in w3. pose proof (sumsz_nonneg _ w5). pose proof (sumsz_nonneg _ w7).
  apply andb_true_intro; split.
  - apply Z.eqb_eq. pose proof (sumsz_mod8 _ w5). rewrite Z.add_mod, (Z.add_mod b), w2, H4, H3 by lia. reflexivity.
  - unfold mapped. apply existsb_exists. exists (reg (b, l1 ++ M ++ l2)). split.
    + apply in_map. unfold ctx. apply in_or_app; simpl; auto.
    + unfold reg, HDR; simpl. rewrite !sumsz_app. apply andb_true_intro; split; apply Z.leb_le; lia.
Qed.

Lemma ctx_bounds A1 b l1 M l2 A2 : layout_wf (ctx A1 b l1 M l2 A2) ->
  0 < b /\ Forall blk_wf l1 /\ Forall blk_wf M /\ Forall blk_wf l2 /\ 0 <= sumsz l1 /\ 0 <= sumsz M /\ 0 <= sumsz l2 /\
  b + sumsz l1 + sumsz M + sumsz l2 + 16 <= 2 ^ 62.
Proof.
  intros [W _]. rewrite Forall_forall in W. destruct (W (b, l1 ++ M ++ l2)) as (w1&w2&w3&w4&w5).
  { unfold ctx. apply in_or_app; simpl; auto. }
  simpl in *. rewrite !Forall_app in w5. destruct w5 as (w5&w6&w7).
  rewrite !sumsz_app in w3. pose proof (sumsz_nonneg _ w5). pose proof (sumsz_nonneg _ w6).
  pose proof (sumsz_nonneg _ w7). unfold HDR in *. repeat split; auto; lia.
Qed.

Lemma uw_small z : 0 <= z < 2 ^ 64 -> uw z = z.
Proof. intros H. unfold uw. apply Z.mod_small; auto. Qed.

Definition good_size (size : Z) : Prop := 64 <= size < 2 ^ 63 /\ size mod 8 = 0.

Lemma blk_wf_mk sz u : 64 <= sz -> sz mod 8 = 0 -> blk_wf (sz, u).
Proof. split; auto. Qed.

Lemma mod8_sub a b : a mod 8 = 0 -> b mod 8 = 0 -> (a - b) mod 8 = 0.
Proof. intros H1 H2. rewrite Zminus_mod, H1, H2. reflexivity. Qed.
Lemma mod8_add a b : a mod 8 = 0 -> b mod 8 = 0 -> (a + b) mod 8 = 0.
Proof. intros H1 H2. rewrite Zplus_mod, H1, H2. reflexivity. Qed.

Lemma us_ua l : us l = fold_right (fun c acc => snd c + acc) 0 (ua l).
Proof.
  unfold us, ua. induction l as [|i l IH]; simpl; auto. destruct (is_used i); simpl; lia.
Qed.

Lemma perm_mid {T} (X Y : list T) a : Permutation (X ++ a :: Y) (a :: X ++ Y).
Proof. symmetry. apply Permutation_middle. Qed.

Lemma sum_perm (l l' : list (Z * Z)) : Permutation l l' ->
  fold_right (fun c acc => snd c + acc) 0 l = fold_right (fun c acc => snd c + acc) 0 l'.
Proof. induction 1; simpl; lia. Qed.

Lemma alloc_upd A A' a x : layout_wf A' ->
  Permutation (ua (all_items A')) ((a, x) :: ua (all_items A)) ->
  uw (us (all_items A) + x) = us (all_items A').
Proof.
  intros W P. apply sum_perm in P. rewrite !us_ua, P. simpl.
  pose proof (alloc_bound _ W) as B. pose proof (total_bound _ W). unfold used_items in B.
  fold (us (all_items A')) in B. rewrite us_ua, P in B. simpl in B. rewrite uw_small; lia.
Qed.

Lemma alloc_upd_sub A A' a x : layout_wf A -> layout_wf A' ->
  Permutation (ua (all_items A)) ((a, x) :: ua (all_items A')) ->
  uw (us (all_items A) - x) = us (all_items A').
Proof.
  intros W W' P. apply sum_perm in P. rewrite !us_ua, P. simpl.
  pose proof (alloc_bound _ W) as B. pose proof (total_bound _ W). unfold used_items in B.
  pose proof (alloc_bound _ W') as B'. pose proof (total_bound _ W'). unfold used_items in B'.
  fold (us (all_items A)) in B. rewrite us_ua, P in B. simpl in B. 
  fold (us (all_items A')) in B'. rewrite us_ua in B'. 
  replace (x + fold_right (fun (c : Z * Z) (acc : Z) => snd c + acc) 0 (ua (all_items A')) - x)
    with (fold_right (fun (c : Z * Z) (acc : Z) => snd c + acc) 0 (ua (all_items A'))) by lia.
  apply uw_small. lia.
Qed.

Lemma ctx_noadj A1 b l1 M l2 A2 : noadjA (ctx A1 b l1 M l2 A2) <->
  noadjA A1 /\ noadj (l1 ++ M ++ l2) /\ noadjA A2.
Proof.
  unfold noadjA, ctx. rewrite Forall_app. split.
  - intros [H1 H2]. inversion H2; subst. auto.
  - intros (H1&H2&H3). auto.
Qed.

Lemma free_in A fb fl : layout_wf A -> Permutation fl (fa (all_items A)) -> In fb fl ->
  exists csz A1 b l1 l2 A2, A = ctx A1 b l1 [(csz, false)] l2 A2 /\ fb = b + sumsz l1.
Proof.
  intros W P H. apply (Permutation_in _ P) in H. apply fa_in in H. destruct H as (it&H1&H2&<-).
  unfold is_free in H2. destruct (ik it) as [[csz []]|] eqn:E; try discriminate.
  destruct (in_ctx _ _ _ H1 E) as (A1&b&l1&l2&A2&->&->). exists csz, A1, b, l1, l2, A2. auto.
Qed.

Lemma ctx_fsize A1 b l1 csz l2 A2 m :
  (forall it, In it (all_items (ctx A1 b l1 [(csz, false)] l2 A2)) -> item_ok m it) ->
  m (b + sumsz l1) = 0 /\ m (b + sumsz l1 + 8) = lastsz 0 l1 /\ m (b + sumsz l1 + 32) = csz /\
  m (b + sumsz l1 + csz) = (match hd_error l2 with None => 1 | Some (sz, true) => sz | _ => 0 end) /\
  m (b + sumsz l1 + csz + 8) = csz.
Proof.
  intros OK.
  assert (I1 : In (It (b + sumsz l1) (lastsz 0 l1) (Some (csz, false))) (all_items (ctx A1 b l1 [(csz, false)] l2 A2))).
  { rewrite ctx_items. rewrite !in_app_iff. simpl. tauto. }
  assert (I2 : In (It (b + sumsz l1 + csz) csz (hd_error l2)) (all_items (ctx A1 b l1 [(csz, false)] l2 A2))).
  { rewrite ctx_items. rewrite !in_app_iff. simpl. rewrite Z.add_0_r. tauto. }
  destruct (OK _ I1) as (O1&O2&O3). destruct (OK _ I2) as (P1&P2&P3). simpl in *.
  repeat split; auto. 
Qed.

Lemma ctx_usize A1 b l1 csz l2 A2 m :
  (forall it, In it (all_items (ctx A1 b l1 [(csz, true)] l2 A2)) -> item_ok m it) ->
  m (b + sumsz l1) = csz /\ m (b + sumsz l1 + 8) = lastsz 0 l1 /\
  m (b + sumsz l1 + csz) = (match hd_error l2 with None => 1 | Some (sz, true) => sz | _ => 0 end) /\
  m (b + sumsz l1 + csz + 8) = csz.
Proof.
  intros OK.
  assert (I1 : In (It (b + sumsz l1) (lastsz 0 l1) (Some (csz, true))) (all_items (ctx A1 b l1 [(csz, true)] l2 A2))).
  { rewrite ctx_items. rewrite !in_app_iff. simpl. tauto. }
  assert (I2 : In (It (b + sumsz l1 + csz) csz (hd_error l2)) (all_items (ctx A1 b l1 [(csz, true)] l2 A2))).
  { rewrite ctx_items. rewrite !in_app_iff. simpl. rewrite Z.add_0_r. tauto. }
  destruct (OK _ I1) as (O1&O2&O3). destruct (OK _ I2) as (P1&P2&P3). simpl in *.
  repeat split; auto.
Qed.

Lemma take_free_ok s A fl fb size :
  inv s A fl -> In fb fl -> good_size size -> size <= mem s (fb + 32) ->
  exists p s' A' fl' usz, take_free s fb size = Some (p, s') /\ inv s' A' fl' /\
    chunks s' = chunks s /\ keep A A' (mem s) (mem s') /\ (noadjA A -> noadjA A') /\
    Permutation (ua (all_items A')) ((p - 16, usz) :: ua (all_items A)) /\ size <= usz <= size + 64 /\ p <> 0 /\
    (forall x, payload A x -> payload A' x).
Proof.
  destruct s as [m cs f al t]. intros I Hin [Hsz Hsz8] Hle. destruct I as [Ic Iw Ii Id If Ia It_]. cbn [mem chunks free_blocks allocated total] in *.
  destruct (free_in _ _ _ Iw If Hin) as (csz&A1&b&l1&l2&A2&->&->).
  set (fb := b + sumsz l1) in *.
  pose proof (ctx_fsize _ _ _ _ _ _ _ Ii) as (F1&F2&F3&F4&F5). fold fb in F1, F2, F3, F4, F5.
  rewrite F3 in Hle.
  pose proof (ctx_bounds _ _ _ _ _ _ Iw) as (B1&B2&B3&B4&B5&B6&B7&B8). fold fb in B8.
  inversion B3 as [|? ? [Bc Bc8] _]; subst x l. cbn [fst snd] in Bc, Bc8. change (sumsz [(csz, false)]) with (csz + 0) in B8.
  assert (ACC : forall o, 0 <= o -> o + 8 <= csz + 16 -> o mod 8 = 0 -> acc cs (fb + o) = true).
  { intros o O1 O2 O3. eapply ctx_acc with (M := [(csz, false)]); eauto. simpl. lia. }
  assert (NB := alloc_bound _ Iw). assert (TB := total_bound _ Iw).
  unfold take_free, o_fsize. rewrite ld_mk by (apply ACC; auto; lia). cbn [bind].
  rewrite F3. rewrite (uw_small (size + 64)) by lia.
  destruct (Z.ltb_spec (size + 64) csz) as [Hlt|Hge].
  - (* split *)
    rewrite (uw_small (csz - size)) by lia.
    assert (M8 : (csz - size) mod 8 = 0) by (apply mod8_sub; auto).
    rewrite st_mk by (apply ACC; auto; lia). cbn [bind].
    unfold o_prev_size, o_size, set_allocated.
    replace (fb + (csz - size) + 8) with (fb + (csz - size + 8)) by lia.
    rewrite st_mk by (apply ACC; try lia; apply mod8_add; auto). cbn [bind].
    replace (fb + (csz - size) + size + 8) with (fb + (csz + 8)) by lia.
    rewrite st_mk by (apply ACC; try lia; apply mod8_add; auto). cbn [bind mem chunks free_blocks allocated total].
    replace (fb + (csz - size) + 0) with (fb + (csz - size)) by lia.
    rewrite st_mk by (apply ACC; try lia; auto). cbn [bind].
    set (m' := upd (upd (upd (upd m (fb + 32) (csz - size)) (fb + (csz - size + 8)) (csz - size)) (fb + (csz + 8)) size) (fb + (csz - size)) size).
    set (M := [(csz, false)]) in *. set (M' := [(csz - size, false); (size, true)]).
    assert (HS : sumsz M' = sumsz M) by (simpl; lia).
    assert (HB : Forall blk_wf M') by (repeat constructor; simpl; auto; lia).
    assert (FR : forall x, m' x = m x \/ fb <= x < fb + sumsz M \/ x = fb + sumsz M + 8).
    { intros x. unfold m'. destruct (Z.eq_dec x (fb + 32)); [simpl; right; left; lia|].
      destruct (Z.eq_dec x (fb + (csz - size + 8))); [simpl; right; left; lia|].
      destruct (Z.eq_dec x (fb + (csz + 8))); [simpl; right; right; lia|].
      destruct (Z.eq_dec x (fb + (csz - size))); [simpl; right; left; lia|].
      left. usimp. auto. }
    exists (fb + (csz - size) + HDR). eexists. exists (ctx A1 b l1 M' l2 A2), fl, size.
    split; [reflexivity|].
    destruct (ctx_fa A1 b l1 M M' l2 A2 HS) as (Y&E1&E2).
    destruct (ctx_ua A1 b l1 M M' l2 A2 HS) as (Z'&U1&U2). fold fb in E1, E2, U1, U2.
    split; [|split; [|split; [|split; [|split; [|split; [|split]]]]]]; cbn [mem chunks free_blocks allocated total].
    + constructor; cbn [mem chunks free_blocks allocated total].
      * rewrite Ic. symmetry. apply ctx_reg; auto.
      * eapply ctx_wf; eauto. easy.
      * apply (ctx_replace A1 b l1 M M' l2 A2 m m'); auto; try easy.
        -- fold fb. unfold m'. simpl. usimp. auto.
        -- fold fb. intros it [<-|[<-|[]]]; unfold item_ok; simpl; unfold m'.
           ++ repeat split; usimp; auto. intros sz E. inversion E; subst. auto.
           ++ repeat split; usimp; auto. easy.
      * eapply (ctx_dll A1 b l1 M M' l2 A2 m m'); eauto.
        -- intros y Hy. apply (Permutation_in _ If); auto.
        -- fold fb. intros y Hy [<-|[]]. simpl. unfold m'. split; usimp; auto.
      * unfold free_items in *; fold (fa (all_items (ctx A1 b l1 M' l2 A2))). rewrite E2. etransitivity; [exact If|].
        unfold free_items in *; fold (fa (all_items (ctx A1 b l1 M l2 A2))). rewrite E1. reflexivity.
      * rewrite Ia. unfold used_items. eapply alloc_upd with (a := fb + (csz - size)).
        -- eapply ctx_wf; eauto. easy.
        -- rewrite U1, U2. apply perm_mid.
      * rewrite It_. symmetry. apply ctx_total; auto.
    + reflexivity.
    + intros x Px Px'. apply ctx_payload in Px; auto. fold fb in Px.
      destruct Px as [Px|(it&[<-|[]]&Hu&_)]; [|discriminate Hu].
      destruct (FR x) as [E|[E|E]]; auto; simpl in *; lia.
    + rewrite !ctx_noadj. intros (N1&N2&N3). repeat split; auto.
      apply noadj_app in N2. destruct N2 as (N4&N5&N6). apply noadj_app. repeat split; auto.
      * simpl in N5 |- *. destruct l2 as [|[? []] ?]; auto; try easy.
    + rewrite U1, U2. unfold HDR. replace (fb + (csz - size) + 16 - 16) with (fb + (csz - size)) by lia.
      apply perm_mid.
    + lia.
    + unfold HDR. unfold fb. lia.
    + intros x Px. apply payload_items in Px. destruct Px as (it&H1&H2&H3).
      apply payload_items. rewrite ctx_items in H1. rewrite ctx_items.
      rewrite !in_app_iff in H1. fold fb in H1. rewrite HS.
      change (sumsz [(csz,false)]) with (sumsz M) in H1. fold fb.
      destruct H1 as [H1|[[<-|[]]|[<-|H1]]].
      * exists it. rewrite !in_app_iff. auto.
      * discriminate H2.
      * exists (It (fb + sumsz M) (lastsz (lastsz 0 l1) M') (hd_error l2)).
        rewrite !in_app_iff. simpl in *. tauto.
      * exists it. rewrite !in_app_iff. simpl. auto.
  - (* whole block *)
    apply in_split in Hin. destruct Hin as (f1&f2&->).
    pose proof (nodes_of _ _ _ Iw Ic If) as NO.
    destruct (remove_ok m cs f al t f1 fb f2 NO Id) as (m1&f'&R&L&D). rewrite R. cbn [bind].
    unfold set_allocated, o_size. cbn [mem chunks free_blocks allocated total].
    rewrite st_mk by (apply ACC; auto; lia). cbn [bind]. rewrite Z.add_0_r.
    assert (HF : forall y, In y (f1 ++ fb :: f2) -> In y (fa (all_items (ctx A1 b l1 [(csz, false)] l2 A2)))).
    { intros y Hy. apply (Permutation_in _ If Hy). }
    assert (Ii1 : forall it, In it (all_items (ctx A1 b l1 [(csz, false)] l2 A2)) -> item_ok m1 it).
    { intros it Hit. eapply item_ok_links; eauto. }
    set (M := [(csz, false)]) in *. set (M' := [(csz, true)]).
    set (m' := upd m1 fb csz).
    assert (HS : sumsz M' = sumsz M) by (simpl; lia).
    assert (HB : Forall blk_wf M') by (repeat constructor; simpl; auto; lia).
    assert (FR : forall x, m' x = m1 x \/ fb <= x < fb + sumsz M \/ x = fb + sumsz M + 8).
    { intros x. unfold m'. destruct (Z.eq_dec x fb); [simpl; right; left; lia|]. left. usimp. auto. }
    exists (fb + HDR). eexists. exists (ctx A1 b l1 M' l2 A2), (f1 ++ f2), csz.
    split; [reflexivity|].
    destruct (ctx_fa A1 b l1 M M' l2 A2 HS) as (Y&E1&E2).
    destruct (ctx_ua A1 b l1 M M' l2 A2 HS) as (Z'&U1&U2). fold fb in E1, E2, U1, U2.
    pose proof (ctx_fsize _ _ _ _ _ _ _ Ii1) as (G1&G2&G3&G4&G5). fold fb in G1, G2, G3, G4, G5.
    split; [|split; [|split; [|split; [|split; [|split; [|split]]]]]]; cbn [mem chunks free_blocks allocated total].
    + constructor; cbn [mem chunks free_blocks allocated total].
      * rewrite Ic. symmetry. apply ctx_reg; auto.
      * eapply ctx_wf; eauto. easy.
      * apply (ctx_replace A1 b l1 M M' l2 A2 m1 m'); auto; try easy.
        -- fold fb. unfold m'. simpl. usimp. replace (fb + (csz + 0) + 8) with (fb + csz + 8) by lia. auto.
        -- fold fb. intros it [<-|[]]; unfold item_ok; simpl; unfold m'.
           repeat split; usimp; auto. intros sz E. discriminate E.
      * eapply (ctx_dll A1 b l1 M M' l2 A2 m1 m'); eauto.
        -- intros y Hy. apply HF. apply in_app_or in Hy. apply in_or_app; simpl; tauto.
        -- fold fb. intros y Hy [<-|[]]. simpl. unfold m'. split; usimp; auto.
      * unfold free_items in *; fold (fa (all_items (ctx A1 b l1 M' l2 A2))). rewrite E2.
        unfold free_items in *; fold (fa (all_items (ctx A1 b l1 M l2 A2))) in If. rewrite E1 in If.
        change (fa (seg fb (lastsz 0 l1) M)) with [fb] in If. change (fa (seg fb (lastsz 0 l1) M')) with (@nil Z).
        simpl app in *. eapply Permutation_app_inv; exact If.
      * rewrite Ia. unfold used_items. eapply alloc_upd with (a := fb).
        -- eapply ctx_wf; eauto. easy.
        -- rewrite U1, U2. apply perm_mid.
      * rewrite It_. symmetry. apply ctx_total; auto.
    + reflexivity.
    + intros x Px Px'. rewrite <- (links_keep _ (ctx A1 b l1 M' l2 A2) _ _ _ Iw HF L x Px Px').
      apply ctx_payload in Px; auto. fold fb in Px.
      destruct Px as [Px|(it&[<-|[]]&Hu&_)]; [|discriminate Hu].
      destruct (FR x) as [E|[E|E]]; auto; simpl in *; lia.
    + rewrite !ctx_noadj. intros (N1&N2&N3). repeat split; auto.
      apply noadj_app in N2. destruct N2 as (N4&N5&N6). apply noadj_app. repeat split; auto.
      * simpl in N5 |- *. destruct l2 as [|[? []] ?]; auto; easy.
      * simpl. apply andb_false_r.
    + rewrite U1, U2. unfold HDR. replace (fb + 16 - 16) with fb by lia. apply perm_mid.
    + auto.
    + unfold HDR. unfold fb. lia.
    + intros x Px. apply payload_items in Px. destruct Px as (it&H1&H2&H3).
      apply payload_items. rewrite ctx_items in H1. rewrite ctx_items.
      rewrite !in_app_iff in H1. fold fb in H1. rewrite HS. fold fb.
      destruct H1 as [H1|[[<-|[]]|[<-|H1]]].
      * exists it. rewrite !in_app_iff. auto.
      * discriminate H2.
      * exists (It (fb + sumsz M) (lastsz (lastsz 0 l1) M') (hd_error l2)).
        rewrite !in_app_iff. simpl in *. tauto.
      * exists it. rewrite !in_app_iff. simpl. auto.
Qed.
