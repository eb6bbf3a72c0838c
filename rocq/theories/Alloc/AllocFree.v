(** free_exec and free_unused. *)
Require Import ZArith List Bool Lia Permutation.
From Verif Require Import Alloc.AllocModel Alloc.AllocLayout Alloc.AllocOps Alloc.AllocInv Alloc.AllocSteps Alloc.AllocNew.
Import ListNotations.
Open Scope Z_scope.

Ltac spl := repeat match goal with |- _ /\ _ => split end.

Definition phase1 (s : st) (header hsz fb fbsz : Z) : option (Z * st) :=
  if fbsz =? 0 then
    f <- ld s (fb + o_fsize) ;;
    s <- st_ s (fb + o_fsize) (uw (f + hsz)) ;;
    f <- ld s (fb + o_fsize) ;;
    s <- st_ s (fb + f + o_prev_size) f ;;
    Some (fb, s)
  else
    s <- insert_free_block s header hsz ;;
    Some (header, s).

Definition phase2 (s : st) (fb : Z) : option st :=
  f <- ld s (fb + o_fsize) ;;
  nsz <- ld s (fb + f + o_size) ;;
  (if nsz =? 0 then
     nf <- ld s (fb + f + o_fsize) ;;
     s <- st_ s (fb + o_fsize) (uw (f + nf)) ;;
     s <- remove_free_block s (fb + f) ;;
     f <- ld s (fb + o_fsize) ;;
     st_ s (fb + f + o_prev_size) f
   else Some s).

Definition release (s : st) (fb f : Z) : option st :=
  let s := set_total s (uw (total s - f)) in
  s <- remove_free_block s fb ;;
  f <- ld s (fb + o_fsize) ;;
  free_chunk s fb (uw (f + CHUNK_EXTRA)).

Definition phase3 (s : st) (fb : Z) : option st :=
  f <- ld s (fb + o_fsize) ;;
  psz <- ld s (fb + o_prev_size) ;;
  nsz <- ld s (fb + f + o_size) ;;
  if (psz =? 0) && (nsz =? 1) then
    if uw (allocated s * 3) / 2 <? uw (total s - f) then release s fb f else Some s
  else Some s.

Lemma bind_assoc {A B C} (o : option A) (f : A -> option B) (g : B -> option C) :
  bind (bind o f) g = bind o (fun x => bind (f x) g).
Proof. destruct o; reflexivity. Qed.

Lemma free_exec_phases s ptr :
  free_exec s ptr =
  (hsz <- ld s (ptr - HDR + o_size) ;;
   let s := set_allocated s (uw (allocated s - hsz)) in
   psz <- ld s (ptr - HDR + o_prev_size) ;;
   fbsz <- ld s (ptr - HDR - psz + o_size) ;;
   r <- phase1 s (ptr - HDR) hsz (ptr - HDR - psz) fbsz ;;
   s <- phase2 (snd r) (fst r) ;;
   phase3 s (fst r)).
Proof.
  unfold free_exec. cbv zeta.
  destruct (ld s (ptr - HDR + o_size)) as [hsz|]; [|reflexivity]. cbn [bind].
  destruct (ld _ (ptr - HDR + o_prev_size)) as [psz|]; [|reflexivity]. cbn [bind].
  destruct (ld _ (ptr - HDR - psz + o_size)) as [fbsz|]; [|reflexivity]. cbn [bind].
  fold (phase1 (set_allocated s (uw (allocated s - hsz))) (ptr - HDR) hsz (ptr - HDR - psz) fbsz).
  destruct (phase1 _ _ _ _ _) as [[fb s1]|]; [|reflexivity]. cbn [bind fst snd].
  unfold phase2, phase3, release. rewrite !bind_assoc.
  destruct (ld s1 (fb + o_fsize)) as [f|]; [|reflexivity]. cbn [bind]. rewrite !bind_assoc.
  destruct (ld s1 (fb + f + o_size)) as [n|]; [|reflexivity]. cbn [bind]. 
  reflexivity.
Qed.

Lemma payload_ctx_mono A1 b l1 M M' l2 A2 x : sumsz M' = sumsz M ->
  (forall it, In it (seg (b + sumsz l1) (lastsz 0 l1) M') -> is_used it = false) ->
  payload (ctx A1 b l1 M' l2 A2) x -> payload (ctx A1 b l1 M l2 A2) x.
Proof.
  intros HS HU Px. apply payload_items in Px. destruct Px as (it&H1&H2&H3).
  apply payload_items. rewrite ctx_items in H1. rewrite ctx_items.
  rewrite !in_app_iff in H1. rewrite HS in H1.
  destruct H1 as [H1|[H1|[<-|H1]]].
  - exists it. rewrite !in_app_iff. auto.
  - rewrite HU in H2; [discriminate|auto].
  - exists (It (b + sumsz l1 + sumsz M) (lastsz (lastsz 0 l1) M) (hd_error l2)).
    rewrite !in_app_iff. simpl in *. tauto.
  - exists it. rewrite !in_app_iff. simpl. auto.
Qed.

Lemma lastsz_nonzero p l : l <> [] -> Forall blk_wf l -> lastsz p l <> 0.
Proof.
  intros H. destruct l as [|x l] using rev_ind; [easy|]. intros W.
  rewrite lastsz_app. simpl. apply Forall_app in W. destruct W as [_ W]. inversion W as [|? ? [Hx _] _]; subst. unfold lastsz; simpl. lia.
Qed.

Definition phase1_pre (s : st) A1 b l1 sz l2 A2 fl : Prop :=
  exists al, inv (mkSt (mem s) (chunks s) (free_blocks s) al (total s)) (ctx A1 b l1 [(sz, true)] l2 A2) fl /\
             allocated s = uw (al - sz).

Lemma phase1_ok s A1 b l1 sz l2 A2 fl :
  phase1_pre s A1 b l1 sz l2 A2 fl ->
  let A := ctx A1 b l1 [(sz, true)] l2 A2 in
  let header := b + sumsz l1 in
  let fb0 := header - lastsz 0 l1 in
  acc (chunks s) fb0 = true /\
  exists s1 l1' f fl1,
    let A' := ctx A1 b l1' [(f, false)] l2 A2 in
    phase1 s header sz fb0 (mem s fb0) = Some (b + sumsz l1', s1) /\
    inv s1 A' fl1 /\ chunks s1 = chunks s /\ keep A A' (mem s) (mem s1) /\
    (noadj (l1 ++ [(sz, true)] ++ l2) -> noadj l1' /\ lastfree l1' = false) /\
    Permutation (ua (all_items A)) ((header, sz) :: ua (all_items A')) /\
    (forall x, payload A' x -> payload A x).
Proof.
  destruct s as [m cs f al0 t]. intros (al&I&EA) A header fb0. unfold A in *. clear A.
  destruct I as [Ic Iw Ii Id If Ia It_]. cbn [mem chunks free_blocks allocated total] in *.
  pose proof (ctx_bounds _ _ _ _ _ _ Iw) as (B1&B2&B3&B4&B5&B6&B7&B8). fold header in B8.
  inversion B3 as [|? ? [Bc Bc8] _]; subst x l. cbn [fst snd] in Bc, Bc8.
  change (sumsz [(sz, true)]) with (sz + 0) in B8.
  pose proof (ctx_usize _ _ _ _ _ _ _ Ii) as (F1&F2&F4&F5). fold header in F1, F2, F4, F5.
  assert (MERGE : forall l1' p, l1 = l1' ++ [(p, false)] ->
     let A' := ctx A1 b l1' [(p + sz, false)] l2 A2 in
     let fb := b + sumsz l1' in
     fb0 = fb /\ acc cs fb0 = true /\ m fb0 = 0 /\ exists s1,
     phase1 (mkSt m cs f al0 t) header sz fb0 (m fb0) = Some (fb, s1) /\
     inv s1 A' fl /\ chunks s1 = cs /\ keep (ctx A1 b l1 [(sz, true)] l2 A2) A' m (mem s1) /\
     Permutation (ua (all_items (ctx A1 b l1 [(sz, true)] l2 A2))) ((header, sz) :: ua (all_items A')) /\
     (forall x, payload A' x -> payload (ctx A1 b l1 [(sz, true)] l2 A2) x)).
  { intros l1' p El A' fb.
    set (M := [(p, false); (sz, true)]). set (M' := [(p + sz, false)]).
    assert (EC : ctx A1 b l1 [(sz, true)] l2 A2 = ctx A1 b l1' M l2 A2).
    { unfold ctx. rewrite El, <- app_assoc. reflexivity. }
    assert (E0 : fb0 = fb).
    { unfold fb0, fb, header. rewrite El, sumsz_app, lastsz_app. unfold lastsz at 1. simpl. lia. }
    assert (EH : header = fb + p). { unfold header, fb. rewrite El, sumsz_app. simpl. lia. }
    rewrite EC in *.
    pose proof (ctx_bounds _ _ _ _ _ _ Iw) as (C1&C2&C3&C4&C5&C6&C7&C8). fold fb in C8.
    inversion C3 as [|? ? [Bp Bp8] _]; subst x l. cbn [fst snd] in Bp, Bp8.
    change (sumsz M) with (p + (sz + 0)) in *.
    assert (ACC : forall o, 0 <= o -> o + 8 <= p + sz + 16 -> o mod 8 = 0 -> acc cs (fb + o) = true).
    { intros o O1 O2 O3. eapply ctx_acc with (M := M); eauto. simpl. lia. }
    assert (I1 : In (It fb (lastsz 0 l1') (Some (p, false))) (all_items (ctx A1 b l1' M l2 A2))).
    { rewrite ctx_items. rewrite !in_app_iff. simpl. tauto. }
    destruct (Ii _ I1) as (V1&V2&V3). simpl in V1, V2, V3. specialize (V3 _ eq_refl).
    rewrite E0. split; [auto|]. split. { replace fb with (fb + 0) by lia. apply ACC; auto; lia. }
    split; [auto|]. rewrite V1.
    unfold phase1. cbn [Z.eqb]. unfold o_fsize, o_prev_size.
    rewrite ld_mk by (apply ACC; auto; lia). cbn [bind]. rewrite V3.
    rewrite (uw_small (p + sz)) by lia.
    rewrite st_mk by (apply ACC; auto; lia). cbn [bind].
    rewrite ld_mk by (apply ACC; auto; lia). cbn [bind]. rewrite upd_same.
    replace (fb + (p + sz) + 8) with (fb + (p + sz + 8)) by lia.
    rewrite st_mk by (apply ACC; try lia; repeat apply mod8_add; auto). cbn [bind].
    set (m' := upd (upd m (fb + 32) (p + sz)) (fb + (p + sz + 8)) (p + sz)).
    assert (HS : sumsz M' = sumsz M) by (simpl; lia).
    assert (HB : Forall blk_wf M'). { repeat constructor; simpl; [lia|apply mod8_add; auto]. }
    assert (FR : forall x, m' x = m x \/ fb <= x < fb + sumsz M \/ x = fb + sumsz M + 8).
    { intros x. unfold m'. destruct (Z.eq_dec x (fb + 32)); [simpl; right; left; lia|].
      destruct (Z.eq_dec x (fb + (p + sz + 8))); [simpl; right; right; lia|].
      left. usimp. auto. }
    destruct (ctx_fa A1 b l1' M M' l2 A2 HS) as (Y&E1&E2).
    destruct (ctx_ua A1 b l1' M M' l2 A2 HS) as (Z'&U1&U2). fold fb in E1, E2, U1, U2.
    assert (W' : layout_wf A') by (eapply ctx_wf; eauto; easy).
    assert (PU : Permutation (ua (all_items (ctx A1 b l1' M l2 A2))) ((header, sz) :: ua (all_items A'))).
    { unfold A'; fold M'; rewrite U1, U2. rewrite EH. apply perm_mid. }
    eexists. split; [reflexivity|]. cbn [mem chunks free_blocks allocated total].
    split; [|split; [|split; [|split]]]; auto.
    - constructor; cbn [mem chunks free_blocks allocated total]; auto.
      + rewrite Ic. symmetry. apply ctx_reg; auto.
      + apply (ctx_replace A1 b l1' M M' l2 A2 m m'); auto; try easy.
        * fold fb. unfold m'. simpl. usimp. auto.
        * fold fb. intros it [<-|[]]; unfold item_ok; simpl; unfold m'.
          repeat split; usimp; auto. intros s0 E. inversion E; subst. auto.
      + eapply (ctx_dll A1 b l1' M M' l2 A2 m m'); eauto.
        * intros y Hy. apply (Permutation_in _ If); auto.
        * fold fb. intros y Hy [<-|[]]. simpl. unfold m'. split; usimp; auto.
      + unfold free_items in *. change (Permutation fl (fa (all_items A'))). unfold A'; fold M'; rewrite E2.
        change (Permutation fl (fa (all_items (ctx A1 b l1' M l2 A2)))) in If. rewrite E1 in If. exact If.
      + rewrite EA, Ia. unfold used_items. eapply alloc_upd_sub; eauto.
      + rewrite It_. symmetry. apply ctx_total; auto.
    - intros x Px Px'. apply ctx_payload in Px'; auto. fold fb in Px'.
      destruct Px' as [Px'|(it&[<-|[]]&Hu&_)]; [|discriminate Hu].
      destruct (FR x) as [E|[E|E]]; auto; simpl in *; lia.
    - intros x Px. eapply payload_ctx_mono; eauto. intros it [<-|[]]; reflexivity. }
  assert (KEEPIT : m fb0 <> 0 -> acc cs fb0 = true ->
     let A' := ctx A1 b l1 [(sz, false)] l2 A2 in exists s1 fl1,
     phase1 (mkSt m cs f al0 t) header sz fb0 (m fb0) = Some (header, s1) /\
     inv s1 A' fl1 /\ chunks s1 = cs /\ keep (ctx A1 b l1 [(sz, true)] l2 A2) A' m (mem s1) /\
     Permutation (ua (all_items (ctx A1 b l1 [(sz, true)] l2 A2))) ((header, sz) :: ua (all_items A')) /\
     (forall x, payload A' x -> payload (ctx A1 b l1 [(sz, true)] l2 A2) x)).
  { intros NZ AC0 A'. unfold phase1. destruct (Z.eqb_spec (m fb0) 0); [congruence|].
    set (M := [(sz, true)]) in *. set (M' := [(sz, false)]).
    assert (HS : sumsz M' = sumsz M) by (simpl; lia).
    assert (HB : Forall blk_wf M') by (repeat constructor; simpl; auto; lia).
    assert (W' : layout_wf A') by (eapply ctx_wf; eauto; easy).
    destruct (ctx_fa A1 b l1 M M' l2 A2 HS) as (Y&E1&E2).
    destruct (ctx_ua A1 b l1 M M' l2 A2 HS) as (Z'&U1&U2). fold header in E1, E2, U1, U2.
    assert (PF : Permutation (header :: fl) (fa (all_items A'))).
    { unfold A'; fold M'; rewrite E2. change (fa (seg header (lastsz 0 l1) M')) with [header].
      change (Permutation fl (fa (all_items (ctx A1 b l1 M l2 A2)))) in If. rewrite E1 in If.
      change (fa (seg header (lastsz 0 l1) M)) with (@nil Z) in If. simpl app in *.
      etransitivity; [apply perm_skip; exact If|]. apply Permutation_middle. }
    assert (RG : cs = map reg A').
    { rewrite Ic. symmetry. apply ctx_reg; auto. }
    pose proof (nodes_of _ _ _ W' RG PF) as NO.
    destruct (insert_ok m cs f al0 t fl header sz NO) as (m2&R&L&D2); auto.
    { unfold header; lia. }
    rewrite R. cbn [bind].
    assert (PU : Permutation (ua (all_items (ctx A1 b l1 M l2 A2))) ((header, sz) :: ua (all_items A'))).
    { unfold A'; fold M'; rewrite U1, U2. apply perm_mid. }
    set (m1 := upd (upd m (header + 0) 0) (header + 32) sz) in *.
    assert (FR : forall x, m1 x = m x \/ header <= x < header + sumsz M \/ x = header + sumsz M + 8).
    { intros x. unfold m1. destruct (Z.eq_dec x (header + 0)); [simpl; right; left; lia|].
      destruct (Z.eq_dec x (header + 32)); [simpl; right; left; lia|].
      left. usimp. auto. }
    eexists _, (header :: fl). split; [reflexivity|]. cbn [mem chunks free_blocks allocated total].
    assert (HF : forall y, In y (header :: fl) -> In y (fa (all_items A'))).
    { intros y Hy. apply (Permutation_in _ PF); auto. }
    split; [|split; [|split; [|split]]]; auto.
    - constructor; cbn [mem chunks free_blocks allocated total]; auto.
      + intros it Hit. eapply item_ok_links with (A := A') (F := header :: fl) (m := m1); eauto.
        apply (ctx_replace A1 b l1 M M' l2 A2 m m1); auto; try easy.
        * fold header. unfold m1. simpl. usimp. replace (header + (sz + 0) + 8) with (header + sz + 8) by lia. auto.
        * fold header. intros jt [<-|[]]; unfold item_ok; simpl; unfold m1.
          repeat split; usimp; auto. intros s0 E. inversion E; subst. auto.
      + rewrite EA, Ia. unfold used_items. eapply alloc_upd_sub; eauto.
      + rewrite It_. symmetry. apply ctx_total; auto.
    - intros x Px Px'. rewrite (links_keep A' A' _ _ _ W' HF L x Px' Px').
      apply ctx_payload in Px'; auto. fold header in Px'.
      destruct Px' as [Px'|(it&[<-|[]]&Hu&_)]; [|discriminate Hu].
      destruct (FR x) as [E|[E|E]]; auto; simpl in *; lia.
    - intros x Px. eapply payload_ctx_mono; eauto. intros it [<-|[]]; reflexivity. }
  destruct l1 as [|[p u] l1'] using rev_ind.
  - (* first block *)
    assert (fb0 = header) by (unfold fb0; simpl; lia).
    assert (AC0 : acc cs fb0 = true).
    { rewrite H. replace header with (header + 0) by lia. unfold header. eapply ctx_acc; eauto; simpl; lia. }
    split; [exact AC0|].
    destruct KEEPIT as (s1&fl1&K1&K2&K3&K4&K5&K6); auto.
    { rewrite H, F1. lia. }
    exists s1, [], sz, fl1. cbn [mem]. spl; auto; simpl; rewrite ?Z.add_0_r; auto.
  - clear IHl1'. destruct u.
    + assert (I1 : In (It fb0 (lastsz 0 l1') (Some (p, true))) (all_items (ctx A1 b (l1' ++ [(p, true)]) [(sz, true)] l2 A2))).
      { rewrite ctx_items. unfold before. rewrite seg_app. rewrite !in_app_iff. simpl.
        left. right. right. left. f_equal. unfold fb0, header. rewrite sumsz_app, lastsz_app. unfold lastsz; simpl. lia. }
      assert (AC0 : acc cs fb0 = true).
      { replace fb0 with (iaddr (It fb0 (lastsz 0 l1') (Some (p, true))) + 0) by (simpl; lia).
        unfold acc. eapply item_acc; eauto; try lia. simpl.
        apply Forall_app in B2. destruct B2 as [_ B2]. apply Forall_inv in B2. destruct B2 as [Bp _]. simpl in Bp.
        unfold isz; simpl. lia. }
      split; [exact AC0|].
      destruct (Ii _ I1) as (V1&_). simpl in V1.
      destruct KEEPIT as (s1&fl1&K1&K2&K3&K4&K5&K6); auto.
      { rewrite V1. apply Forall_app in B2. destruct B2 as [_ B2]. apply Forall_inv in B2. destruct B2 as [Bp _]. simpl in Bp. lia. }
      exists s1, (l1' ++ [(p, true)]), sz, fl1. cbn [mem]. spl; auto. intros H; spl.
      * apply noadj_app in H. tauto.
      * rewrite lastfree_snoc. reflexivity.
    + destruct (MERGE l1' p eq_refl) as (G1&G2&G3&s1&K1&K2&K3&K4&K5&K6).
      split; [exact G2|].
      exists s1, l1', (p + sz), fl. cbn [mem]. spl; auto. intros H; spl.
      * apply noadj_app in H. destruct H as (H&_). apply noadj_app in H. tauto.
      * apply noadj_app in H. destruct H as (H&_). apply noadj_app in H. destruct H as (_&_&H). simpl in H.
        rewrite andb_true_r in H. exact H.
Qed.

Lemma phase2_ok s A1 b l1 f l2 A2 fl :
  let A := ctx A1 b l1 [(f, false)] l2 A2 in
  inv s A fl -> noadj l1 -> lastfree l1 = false -> noadj l2 ->
  exists s' f' l2' fl', 
    let A' := ctx A1 b l1 [(f', false)] l2' A2 in
    phase2 s (b + sumsz l1) = Some s' /\
    inv s' A' fl' /\ chunks s' = chunks s /\ keep A A' (mem s) (mem s') /\
    noadj (l1 ++ [(f', false)] ++ l2') /\ headfree l2' = false /\
    ua (all_items A') = ua (all_items A) /\
    (forall x, payload A' x -> payload A x) /\ (forall x, payload A x -> payload A' x).
Proof.
  destruct s as [m cs fr al t]. intros A I NA LF NA2. unfold A in *; clear A.
  set (fb := b + sumsz l1).
  pose proof I as [Ic Iw Ii Id If Ia It_]. cbn [mem chunks free_blocks allocated total] in *.
  pose proof (ctx_bounds _ _ _ _ _ _ Iw) as (B1&B2&B3&B4&B5&B6&B7&B8). fold fb in B8.
  inversion B3 as [|? ? [Bc Bc8] _]; subst x l. cbn [fst snd] in Bc, Bc8.
  change (sumsz [(f, false)]) with (f + 0) in B8.
  pose proof (ctx_fsize _ _ _ _ _ _ _ Ii) as (F1&F2&F3&F4&F5). fold fb in F1, F2, F3, F4, F5.
  assert (ACC : forall o, 0 <= o -> o + 8 <= f + 16 -> o mod 8 = 0 -> acc cs (fb + o) = true).
  { intros o O1 O2 O3. eapply ctx_acc with (M := [(f, false)]); eauto. simpl. lia. }
  unfold phase2, o_fsize, o_size, o_prev_size.
  rewrite ld_mk by (apply ACC; auto; lia). cbn [bind]. rewrite F3.
  replace (fb + f + 0) with (fb + f) by lia.
  rewrite ld_mk by (apply ACC; auto; lia). cbn [bind]. rewrite F4.
  assert (NOMERGE : headfree l2 = false -> noadj (l1 ++ [(f, false)] ++ l2)).
  { intros H. apply noadj_app. split; auto. split.
    - simpl. destruct l2 as [|[? []] ?]; auto; discriminate H.
    - rewrite LF. reflexivity. }
  destruct l2 as [|[nf u] l2'].
  - cbn [hd_error Z.eqb]. exists (mkSt m cs fr al t), f, [], fl.
    spl; auto using keep_refl.
  - cbn [hd_error]. inversion B4 as [|? ? [Bn Bn8] _]; subst x l. cbn [fst snd] in Bn, Bn8.
    destruct u.
    + destruct (Z.eqb_spec nf 0); [lia|].
      exists (mkSt m cs fr al t), f, ((nf, true) :: l2'), fl. spl; auto using keep_refl.
    + cbn [Z.eqb].
      set (M := [(f, false); (nf, false)]). set (M' := [(f + nf, false)]).
      assert (EC : ctx A1 b l1 [(f, false)] ((nf, false) :: l2') A2 = ctx A1 b l1 M l2' A2) by reflexivity.
      rewrite EC in *. clear ACC. simpl sumsz in B7, B8.
      assert (ACC : forall o, 0 <= o -> o + 8 <= f + nf + 16 -> o mod 8 = 0 -> acc cs (fb + o) = true).
      { intros o O1 O2 O3. eapply ctx_acc with (M := M); eauto. simpl. lia. }
      assert (I2 : In (It (fb + f) f (Some (nf, false))) (all_items (ctx A1 b l1 M l2' A2))).
      { rewrite ctx_items. rewrite !in_app_iff. simpl. tauto. }
      destruct (Ii _ I2) as (V1&V2&V3). simpl in V1, V2, V3. specialize (V3 _ eq_refl).
      replace (fb + f + 32) with (fb + (f + 32)) in * by lia.
      rewrite ld_mk by (apply ACC; try lia; apply mod8_add; auto). cbn [bind]. rewrite V3.
      rewrite (uw_small (f + nf)).
      2:{ pose proof (ctx_bounds _ _ _ _ _ _ Iw) as (C1&C2&C3&C4&C5&C6&C7&C8). unfold M in C8. simpl in C8. lia. }
      rewrite st_mk by (apply ACC; auto; lia). cbn [bind].
      pose proof (nodes_of _ _ _ Iw Ic If) as NO.
      assert (Hin : In (fb + f) fl).
      { apply (Permutation_in (l := fa (all_items (ctx A1 b l1 M l2' A2)))); [symmetry; exact If|].
        apply fa_in. eexists; split; [exact I2|]. auto. }
      apply in_split in Hin. destruct Hin as (f1&f2&->).
      assert (HF : forall y, In y (f1 ++ (fb + f) :: f2) -> In y (fa (all_items (ctx A1 b l1 M l2' A2)))).
      { intros y Hy. apply (Permutation_in _ If Hy). }
      set (m1 := upd m (fb + 32) (f + nf)).
      assert (D1 : dll m1 0 fr (f1 ++ (fb + f) :: f2)).
      { eapply (ctx_dll A1 b l1 M M' l2' A2 m m1); eauto; fold fb.
        - intros x. unfold m1. destruct (Z.eq_dec x (fb + 32)); [right; left; simpl; lia|]. left; usimp; auto.
        - intros y Hy [<-|[<-|[]]]; simpl; unfold m1; split; usimp; auto.
        - unfold M, M'; simpl; lia. }
      destruct (remove_ok m1 cs fr al t f1 (fb + f) f2 NO D1) as (m2&fr'&R&L&D2). rewrite R. cbn [bind].
      assert (M32 : m2 (fb + 32) = f + nf).
      { rewrite L; [unfold m1; usimp; auto|]. intros y Hy. apply HF, fa_in in Hy. destruct Hy as (jt&J1&J2&<-).
        assert (I1 : In (It fb (lastsz 0 l1) (Some (f, false))) (all_items (ctx A1 b l1 M l2' A2))).
        { rewrite ctx_items. rewrite !in_app_iff. simpl. tauto. }
        pose proof (in_items_wf _ _ Iw J1) as (_&_&_&_&J4).
        assert (J5 : 64 <= isz jt).
        { unfold is_free in J2. unfold isz. destruct (ik jt) as [[sz []]|]; try discriminate.
          apply (J4 (sz, false) eq_refl). }
        destruct (items_disj _ _ _ Iw I1 J1) as [<-|[Hd|Hd]]; unfold isz in *; simpl in *; lia. }
      rewrite ld_mk by (apply ACC; auto; lia). cbn [bind]. rewrite M32.
      replace (fb + (f + nf) + 8) with (fb + (f + nf + 8)) by lia.
      rewrite st_mk by (apply ACC; try lia; repeat apply mod8_add; auto).
      set (m3 := upd m2 (fb + (f + nf + 8)) (f + nf)).
      assert (HS : sumsz M' = sumsz M) by (simpl; lia).
      assert (HB : Forall blk_wf M'). { repeat constructor; simpl; [lia|apply mod8_add; auto]. }
      set (A' := ctx A1 b l1 M' l2' A2).
      assert (W' : layout_wf A') by (eapply ctx_wf; eauto; easy).
      destruct (ctx_fa A1 b l1 M M' l2' A2 HS) as (Y&E1&E2).
      destruct (ctx_ua A1 b l1 M M' l2' A2 HS) as (Z'&U1&U2). fold fb in E1, E2, U1, U2.
      assert (EU : ua (all_items A') = ua (all_items (ctx A1 b l1 M l2' A2))).
      { unfold A'; fold M'; rewrite U1, U2. reflexivity. }
      (* the same in two independent steps: links first, then local updates *)
      set (mL := fun x => if x =? fb + 32 then m (fb + 32) else m2 x).
      assert (LL : links_only (f1 ++ (fb + f) :: f2) m mL).
      { intros x Hx. unfold mL. destruct (Z.eqb_spec x (fb + 32)); [subst; auto|].
        rewrite (L x Hx). unfold m1. usimp. auto. }
      assert (FR : forall x, m3 x = mL x \/ fb <= x < fb + sumsz M \/ x = fb + sumsz M + 8).
      { intros x. unfold m3, mL. destruct (Z.eq_dec x (fb + (f + nf + 8))); [right; right; simpl; lia|].
        rewrite upd_other by auto. destruct (Z.eqb_spec x (fb + 32)); [right; left; simpl; lia|]. auto. }
      exists (mkSt m3 cs fr' al t), (f + nf), l2', (f1 ++ f2). fold M' A'.
      cbn [mem chunks free_blocks allocated total].
      assert (IiL : forall it, In it (all_items (ctx A1 b l1 M l2' A2)) -> item_ok mL it).
      { intros it Hit. eapply item_ok_links; [exact Iw|exact Hit|exact HF|exact LL|auto]. }
      assert (I1 : In (It fb (lastsz 0 l1) (Some (f, false))) (all_items (ctx A1 b l1 M l2' A2))).
      { rewrite ctx_items. rewrite !in_app_iff. simpl. tauto. }
      assert (PL1 : forall x, payload A' x -> payload (ctx A1 b l1 M l2' A2) x).
      { intros x Px. eapply payload_ctx_mono; eauto. intros it [<-|[]]; reflexivity. }
      split; [reflexivity|]. split; [|split; [|split; [|split; [|split; [|split; [|split]]]]]]; auto.
      * constructor; cbn [mem chunks free_blocks allocated total]; auto.
        -- rewrite Ic. symmetry. apply ctx_reg; auto.
        -- apply (ctx_replace A1 b l1 M M' l2' A2 mL m3); auto; try easy.
           ++ fold fb. unfold m3. simpl. usimp. auto.
           ++ fold fb. intros it [<-|[]]; unfold item_ok; simpl.
              destruct (IiL _ I1) as (X1&X2&X3). simpl in X1, X2, X3.
              assert (ML : forall x, x <> fb + 32 -> m2 x = mL x).
              { intros x Hx. unfold mL. destruct (Z.eqb_spec x (fb + 32)); congruence. }
              unfold m3. repeat split.
              ** usimp. rewrite ML by lia. auto.
              ** usimp. rewrite ML by lia. auto.
              ** intros s0 E. inversion E; subst. usimp. auto.
        -- eapply (ctx_dll A1 b l1 M M' l2' A2 m2 m3); eauto; fold fb.
           ++ intros y Hy. apply HF. apply in_app_or in Hy. apply in_or_app; simpl; tauto.
           ++ intros x. unfold m3. destruct (Z.eq_dec x (fb + (f + nf + 8))); [right; right; simpl; lia|].
              left; usimp; auto.
           ++ intros y Hy [<-|[<-|[]]]; simpl; unfold m3; split; usimp; auto.
        -- change (Permutation (f1 ++ f2) (fa (all_items A'))). unfold A'; fold M'; rewrite E2.
           change (Permutation (f1 ++ (fb + f) :: f2) (fa (all_items (ctx A1 b l1 M l2' A2)))) in If. rewrite E1 in If.
           change (fa (seg fb (lastsz 0 l1) M)) with ([fb; fb + f]) in If.
           change (fa (seg fb (lastsz 0 l1) M')) with ([fb]).
           replace (fa (before A1 b l1) ++ [fb; fb + f] ++ Y) with ((fa (before A1 b l1) ++ [fb]) ++ (fb + f) :: Y) in If
             by (rewrite <- app_assoc; reflexivity).
           apply Permutation_app_inv in If. rewrite <- app_assoc in If. exact If.
        -- change (al = us (all_items A')). rewrite us_ua, EU, <- us_ua. exact Ia.
        -- rewrite It_. symmetry. apply ctx_total; auto.
      * intros x Px Px'. rewrite <- (links_keep _ A' _ _ _ Iw HF LL x Px Px').
        apply ctx_payload in Px'; auto. fold fb in Px'.
        destruct Px' as [Px'|(it&[<-|[]]&Hu&_)]; [|discriminate Hu].
        destruct (FR x) as [E|[E|E]]; auto; simpl in *; lia.
      * apply noadj_app. split; auto. split.
        -- simpl in NA2 |- *. destruct l2' as [|[? []] ?]; auto; easy.
        -- rewrite LF. reflexivity.
      * simpl in NA2. destruct l2' as [|[? []] ?]; auto; easy.
      * intros x Px. change (payload (ctx A1 b l1 M l2' A2) x) in Px. eapply payload_ctx_mono; [| |exact Px].
        -- symmetry; exact HS.
        -- intros it [<-|[<-|[]]]; reflexivity.
Qed.

Lemma in_map_reg_inj A1 c A2 d : layout_wf (A1 ++ c :: A2) -> In d (A1 ++ A2) -> fst d <> fst c.
Proof.
  intros [W1 W2] Hd E. apply fop_app in W2. destruct W2 as (F1&F2&F3). inversion F2 as [|? ? F4 F5]; subst.
  rewrite Forall_forall in F4, W1.
  assert (Wc : chunk_wf c) by (apply W1, in_or_app; simpl; auto).
  assert (Wd : chunk_wf d) by (apply W1; apply in_app_or in Hd; apply in_or_app; simpl; tauto).
  destruct Wc as (c1&c2&c3&c4&c5), Wd as (d1&d2&d3&d4&d5).
  pose proof (sumsz_nonneg _ c5). pose proof (sumsz_nonneg _ d5).
  assert (rdisj (reg c) (reg d) \/ rdisj (reg d) (reg c)).
  { apply in_app_or in Hd. destruct Hd; [right; apply F3; simpl; auto|left; apply F4; auto]. }
  unfold rdisj, reg, HDR in *; simpl in *; lia.
Qed.

Lemma wf_remove A1 c A2 : layout_wf (A1 ++ c :: A2) -> layout_wf (A1 ++ A2).
Proof.
  intros [W1 W2]. apply fop_app in W2. destruct W2 as (F1&F2&F3). inversion F2; subst.
  rewrite Forall_app in W1. destruct W1 as [W3 W4]. inversion W4; subst. split.
  - apply Forall_app; auto.
  - apply fop_app. repeat split; auto. intros; apply F3; simpl; auto.
Qed.

(** Removing a chunk which is one free block. *)
Lemma release_ok s A1 b f A2 f1 f2 :
  let A := ctx A1 b [] [(f, false)] [] A2 in
  inv s A (f1 ++ b :: f2) ->
  exists s', release s b f = Some s' /\ inv s' (A1 ++ A2) (f1 ++ f2) /\
    keep A (A1 ++ A2) (mem s) (mem s') /\ ua (all_items (A1 ++ A2)) = ua (all_items A) /\
    (forall x, payload (A1 ++ A2) x -> payload A x) /\ (forall x, payload A x -> payload (A1 ++ A2) x).
Proof.
  destruct s as [m cs fr al t]. intros A I. unfold A in *; clear A.
  pose proof I as [Ic Iw Ii Id If Ia It_]. cbn [mem chunks free_blocks allocated total] in *.
  set (A := ctx A1 b [] [(f, false)] [] A2) in *.
  pose proof (ctx_bounds _ _ _ _ _ _ Iw) as (B1&B2&B3&B4&B5&B6&B7&B8).
  inversion B3 as [|? ? [Bc Bc8] _]; subst x l. cbn [fst snd] in Bc, Bc8. simpl sumsz in B8.
  pose proof (ctx_fsize _ _ _ _ _ _ _ Ii) as (F1&F2&F3&F4&F5). simpl sumsz in *. rewrite Z.add_0_r in *.
  unfold release, set_total. cbn [mem chunks free_blocks allocated total].
  pose proof (nodes_of _ _ _ Iw Ic If) as NO.
  set (t' := uw (t - f)).
  destruct (remove_ok m cs fr al t' f1 b f2 NO Id) as (m2&fr'&R&L&D2). rewrite R. cbn [bind].
  assert (HF : forall y, In y (f1 ++ b :: f2) -> In y (fa (all_items A))).
  { intros y Hy. apply (Permutation_in _ If Hy). }
  assert (Ii2 : forall it, In it (all_items A) -> item_ok m2 it).
  { intros it Hit. eapply item_ok_links; eauto. }
  pose proof (ctx_fsize _ _ _ _ _ _ _ Ii2) as (G1&G2&G3&G4&G5). simpl sumsz in *. rewrite Z.add_0_r in *.
  unfold o_fsize. rewrite ld_mk.
  2:{ replace (b + 32) with (b + sumsz [] + 32) by (simpl; lia).
      eapply ctx_acc with (M := [(f, false)]) (l1 := []); eauto; simpl; lia. }
  cbn [bind]. rewrite G3. unfold CHUNK_EXTRA, HDR. rewrite (uw_small (f + 16)) by lia.
  assert (ER : map reg A = map reg A1 ++ (b, f + 16) :: map reg A2).
  { unfold A, ctx. rewrite map_app. simpl. unfold reg at 2. simpl. unfold HDR. rewrite Z.add_0_r. reflexivity. }
  unfold free_chunk. cbn [mem chunks free_blocks allocated total].
  assert (EX : existsb (fun c => (fst c =? b) && (snd c =? f + 16)) cs = true).
  { apply existsb_exists. exists (b, f + 16). split.
    - rewrite Ic, ER. apply in_or_app; simpl; auto.
    - simpl. rewrite !Z.eqb_refl. reflexivity. }
  rewrite EX. unfold set_chunks. cbn [mem chunks free_blocks allocated total].
  assert (W' : layout_wf (A1 ++ A2)) by (eapply wf_remove; exact Iw).
  assert (EF : filter (fun c => negb ((fst c =? b) && (snd c =? f + 16))) cs = map reg (A1 ++ A2)).
  { rewrite Ic, ER, filter_app. simpl. rewrite !Z.eqb_refl. simpl. rewrite map_app.
    assert (G : forall X, (forall d, In d X -> In d (A1 ++ A2)) ->
              filter (fun c => negb ((fst c =? b) && (snd c =? f + 16))) (map reg X) = map reg X).
    { induction X as [|d X IH]; intros HX; simpl; auto.
      assert (fst d <> b). { apply (in_map_reg_inj A1 (b, [] ++ [(f, false)] ++ []) A2 d Iw). apply HX; simpl; auto. }
      destruct (Z.eqb_spec (fst d) b); [congruence|]. simpl. f_equal. apply IH. intros; apply HX; simpl; auto. }
    rewrite !G; auto; intros; apply in_or_app; auto. }
  rewrite EF.
  assert (IT : all_items A = all_items A1 ++ (It b 0 (Some (f, false)) :: It (b + f) f None :: all_items A2)).
  { unfold A, ctx. rewrite all_items_app. reflexivity. }
  assert (EU : ua (all_items (A1 ++ A2)) = ua (all_items A)).
  { rewrite IT, all_items_app, !ua_app. reflexivity. }
  assert (SUB : forall it, In it (all_items (A1 ++ A2)) -> In it (all_items A)).
  { intros it. rewrite IT, all_items_app, !in_app_iff. simpl. tauto. }
  eexists. split; [reflexivity|]. cbn [mem chunks free_blocks allocated total].
  split; [|split; [|split; [|split]]]; auto.
  - constructor; cbn [mem chunks free_blocks allocated total]; auto.
    + change (Permutation (f1 ++ f2) (fa (all_items (A1 ++ A2)))). rewrite all_items_app, fa_app.
      change (Permutation (f1 ++ b :: f2) (fa (all_items A))) in If. rewrite IT, fa_app in If.
      change (fa (It b 0 (Some (f, false)) :: It (b + f) f None :: all_items A2)) with (b :: fa (all_items A2)) in If.
      apply Permutation_app_inv in If. exact If.
    + change (al = us (all_items (A1 ++ A2))). rewrite us_ua, EU, <- us_ua. exact Ia.
    + unfold t'. rewrite It_.
      assert (ES : sum_total A = f + sum_total (A1 ++ A2)).
      { unfold A, ctx. clear. unfold sum_total. induction A1 as [|c A1 IH]; simpl; [lia|]. simpl in IH. rewrite IH. lia. }
      pose proof (total_bound _ W'). rewrite ES. replace (f + sum_total (A1 ++ A2) - f) with (sum_total (A1 ++ A2)) by lia.
      apply uw_small. lia.
  - eapply links_keep; eauto.
  - intros x Px. apply payload_items in Px. destruct Px as (it&H1&H2&H3). apply payload_items. exists it; auto.
  - intros x Px. apply payload_items in Px. destruct Px as (it&H1&H2&H3). apply payload_items. exists it; split; auto.
    rewrite IT in H1. rewrite all_items_app, in_app_iff. apply in_app_or in H1.
    destruct H1 as [H1|[<-|[<-|H1]]]; auto; discriminate H2.
Qed.
