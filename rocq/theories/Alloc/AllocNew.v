(** A new chunk. *)
Require Import ZArith List Bool Lia Permutation.
From Verif Require Import Alloc.AllocModel Alloc.AllocLayout Alloc.AllocOps Alloc.AllocInv Alloc.AllocSteps.
Import ListNotations.
Open Scope Z_scope.

Lemma land_align k z : 0 <= k < 64 -> 0 <= z < 2 ^ 64 ->
  Z.land z (uw (Z.lnot (2 ^ k - 1))) = (z / 2 ^ k) * 2 ^ k.
Proof.
  intros Hk Hz.
  assert (P : 0 < 2 ^ k) by (apply Z.pow_pos_nonneg; lia).
  replace (Z.lnot (2 ^ k - 1)) with (- 2 ^ k) by (unfold Z.lnot; lia).
  replace (uw (- 2 ^ k)) with (Z.shiftl (Z.ones (64 - k)) k).
  - rewrite <- Z.shiftr_div_pow2, <- Z.shiftl_mul_pow2 by lia.
    apply Z.bits_inj'. intros n Hn. rewrite Z.land_spec.
    destruct (Z.ltb_spec n k).
    + rewrite !Z.shiftl_spec_low by lia. apply andb_false_r.
    + rewrite !Z.shiftl_spec by lia. rewrite Z.shiftr_spec by lia. replace (n - k + k) with n by lia.
      destruct (Z.ltb_spec n 64).
      * rewrite Z.ones_spec_low by lia. apply andb_true_r.
      * rewrite Z.ones_spec_high by lia. rewrite andb_false_r. symmetry.
        destruct (Z.eq_dec z 0) as [->|]; [apply Z.bits_0|].
        apply Z.bits_above_log2; try lia. apply Z.log2_lt_pow2; try lia.
        eapply Z.lt_le_trans; [apply Hz|]. apply Z.pow_le_mono_r; lia.
  - unfold uw. rewrite Z.shiftl_mul_pow2, Z.ones_equiv by lia.
    replace (Z.pred (2 ^ (64 - k)) * 2 ^ k) with (2 ^ 64 + - 2 ^ k).
    + assert (2 ^ k < 2 ^ 64) by (apply Z.pow_lt_mono_r; lia).
      apply (Z.mod_unique (- 2 ^ k) (2 ^ 64) (-1)); lia.
    + unfold Z.pred. rewrite Z.mul_add_distr_r. rewrite <- Z.pow_add_r by lia.
      replace (64 - k + k) with 64 by lia. lia.
Qed.

Lemma align_size_eq n : 0 <= n < 2 ^ 63 -> align_size n = (n + 23) / 8 * 8.
Proof.
  intros H. unfold align_size, HDR. rewrite (uw_small (n + 16 + 7)) by lia.
  change 7 with (2 ^ 3 - 1) at 2. rewrite land_align by lia.
  replace (n + 16 + 7) with (n + 23) by lia. reflexivity.
Qed.

Lemma block_size_good n : 0 <= n < 2 ^ 62 -> good_size (block_size n) /\ n + 16 <= block_size n.
Proof.
  intros H. unfold block_size. cbv zeta. change (64 - HDR) with 48.
  assert (G : forall k, 48 <= k < 2 ^ 62 -> good_size (align_size k) /\ k + 16 <= align_size k).
  { intros k Hk. rewrite align_size_eq by lia.
    pose proof (Z.div_mod (k + 23) 8 ltac:(lia)). pose proof (Z.mod_pos_bound (k + 23) 8 ltac:(lia)).
    repeat split; try lia. apply Z.mod_mul; lia. }
  destruct (Z.ltb_spec n 48).
  - destruct (G 48); [lia|]. split; auto; lia.
  - destruct (G n); [lia|]. split; auto; lia.
Qed.

Lemma chunk_size_good size : good_size size ->
  size + 16 <= chunk_size_for size < 2 ^ 63 + 2 ^ 18 /\ chunk_size_for size mod 65536 = 0.
Proof.
  intros [H1 H2]. unfold chunk_size_for, CHUNK_EXTRA, HDR, CHUNK_SIZE.
  rewrite (uw_small (size + 16 + 65536 - 1)) by lia.
  replace (Z.land (size + 16 + 65536 - 1) (uw (Z.lnot (65536 - 1))))
    with ((size + 16 + 65536 - 1) / 65536 * 65536)
    by (symmetry; apply (land_align 16); lia).
  pose proof (Z.div_mod (size + 16 + 65536 - 1) 65536 ltac:(lia)).
  pose proof (Z.mod_pos_bound (size + 16 + 65536 - 1) 65536 ltac:(lia)).
  repeat split; try lia. apply Z.mod_mul; lia.
Qed.

(** The conditions on the memory returned by the OS. *)
Definition os_ok (cs : list (Z * Z)) (base len : Z) : Prop :=
  0 < base /\ base mod 8 = 0 /\ base + len <= 2 ^ 62 /\
  (forall c, In c cs -> rdisj (base, len) c).

Lemma mod_8 x : x mod 65536 = 0 -> x mod 8 = 0.
Proof.
  intros H. pose proof (Z.div_mod x 65536 ltac:(lia)). rewrite H in H0. rewrite H0.
  replace (65536 * (x / 65536) + 0) with ((8192 * (x / 65536)) * 8) by lia. apply Z.mod_mul; lia.
Qed.

Lemma new_wf A base l : layout_wf A -> os_ok (map reg A) base (sumsz l + 16) -> l <> [] -> Forall blk_wf l ->
  layout_wf ((base, l) :: A).
Proof.
  intros [W1 W2] (O1&O2&O3&O4) HN HB. split; constructor; auto.
  - unfold chunk_wf, HDR; simpl. repeat split; auto; lia.
  - apply Forall_forall. intros d Hd. unfold reg at 1; simpl. apply O4, in_map; auto.
Qed.

Lemma new_far A base len it : layout_wf A -> os_ok (map reg A) base len -> In it (all_items A) ->
  iaddr it + isz it <= base \/ base + len <= iaddr it.
Proof.
  intros [W1 W2] (O1&O2&O3&O4) Hit. apply in_all_items in Hit. destruct Hit as (c&Hc&Hi).
  rewrite Forall_forall in W1. destruct (W1 c Hc) as (c1&c2&c3&c4&c5).
  pose proof (items_range _ _ _ _ c5 Hi) as (r1&r2&r3&_).
  specialize (O4 _ (in_map reg _ _ Hc)). unfold rdisj, reg, HDR in *; simpl in *. lia.
Qed.

Lemma take_new_ok s A fl size base content :
  inv s A fl -> good_size size -> os_ok (chunks s) base (chunk_size_for size) ->
  exists p s' A' fl' usz, take_new s size (Some (base, content)) = Some (p, s') /\ inv s' A' fl' /\
    chunks s' = (base, chunk_size_for size) :: chunks s /\ keep A A' (mem s) (mem s') /\ (noadjA A -> noadjA A') /\
    Permutation (ua (all_items A')) ((p - 16, usz) :: ua (all_items A)) /\ size <= usz <= size + 64 /\ p <> 0 /\
    (forall x, payload A x -> payload A' x).
Proof.
  destruct s as [m cs f al t]. intros I GS OS. pose proof GS as [Hsz Hsz8].
  destruct I as [Ic Iw Ii Id If Ia It_]. cbn [mem chunks free_blocks allocated total] in *.
  destruct (chunk_size_good _ GS) as [C1 C2]. apply mod_8 in C2.
  set (K := chunk_size_for size) in *.
  pose proof OS as (O1&O2&O3&O4).
  assert (NB := alloc_bound _ Iw). assert (TB := total_bound _ Iw).
  unfold take_new, set_chunks, set_total. fold K. cbn [mem chunks free_blocks allocated total].
  set (m0 := fun x => if (base <=? x) && (x <? base + K) then content x else m x).
  assert (M0 : forall x, x < base \/ base + K <= x -> m0 x = m x).
  { intros x Hx. unfold m0. destruct (Z.leb_spec base x), (Z.ltb_spec x (base + K)); simpl; auto; lia. }
  unfold CHUNK_EXTRA, HDR. rewrite (uw_small (K - 16)) by lia.
  set (cs' := (base, K) :: cs).
  assert (ACC : forall o, 0 <= o -> o + 8 <= K -> o mod 8 = 0 -> acc cs' (base + o) = true).
  { intros o P1 P2 P3. unfold acc. apply andb_true_intro; split.
    - apply Z.eqb_eq. apply mod8_add; auto.
    - unfold mapped, cs'. simpl existsb. apply orb_true_intro. left. simpl.
      apply andb_true_intro; split; apply Z.leb_le; lia. }
  unfold o_prev_size. rewrite st_mk by (apply ACC; auto; lia). cbn [bind].
  rewrite (uw_small (size + 64)) by lia.
  rewrite Ic in O4, OS.
  assert (FAR : forall it, In it (all_items A) -> iaddr it + isz it <= base \/ base + K <= iaddr it).
  { intros it Hit. eapply new_far; eauto. }
  assert (FARfl : forall y, In y fl -> y + 64 <= base \/ base + K <= y).
  { intros y Hy. apply (Permutation_in _ If) in Hy. apply fa_in in Hy. destruct Hy as (it&H1&H2&<-).
    pose proof (in_items_wf _ _ Iw H1) as (_&_&_&_&H4). specialize (FAR _ H1).
    unfold is_free in H2. unfold isz in FAR. destruct (ik it) as [[sz []]|]; try discriminate.
    specialize (H4 _ eq_refl). destruct H4 as [H4 _]. simpl in H4. lia. }
  assert (FRAME : forall m', (forall x, x < base \/ base + K <= x -> m' x = m x) ->
     forall it, In it (all_items A) -> item_ok m' it).
  { intros m' Hm it Hit. pose proof (in_items_wf _ _ Iw Hit) as (_&_&_&H3&H4). specialize (FAR _ Hit).
    apply item_ok_frame with (m := m); auto. unfold HDR in *. intros o Ho. apply Hm. simpl in Ho. lia. }
  destruct (Z.ltb_spec (size + 64) (K - 16)) as [Hlt|Hge].
  - unfold set_allocated. cbn [mem chunks free_blocks allocated total]. unfold o_size.
    rewrite st_mk by (apply ACC; auto; lia). cbn [bind].
    rewrite (uw_small (K - 16 - size)) by lia.
    replace (base + size + 8) with (base + (size + 8)) by lia.
    rewrite st_mk by (apply ACC; try lia; apply mod8_add; auto). cbn [bind].
    set (fsz := K - 16 - size). set (fb := base + size).
    set (m1 := upd (upd (upd m0 (base + 8) 0) (base + 0) size) (base + (size + 8)) size).
    assert (F8 : fsz mod 8 = 0) by (unfold fsz; repeat apply mod8_sub; auto).
    set (l := [(size, true); (fsz, false)]).
    assert (SL : sumsz l + 16 = K) by (unfold l, fsz; simpl; lia).
    assert (WL : Forall blk_wf l).
    { unfold l. repeat constructor; simpl; auto; unfold fsz; lia. }
    assert (W' : layout_wf ((base, l) :: A)).
    { apply new_wf; auto; [rewrite SL; auto|easy]. }
    assert (RG : cs' = map reg ((base, l) :: A)).
    { unfold cs'. rewrite Ic. cbn [map]. f_equal. unfold reg. cbn [fst snd]. unfold HDR. rewrite SL. reflexivity. }
    assert (PF : Permutation (fb :: fl) (fa (all_items ((base, l) :: A)))).
    { change (all_items ((base, l) :: A)) with (items base 0 l ++ all_items A). rewrite fa_app.
      change (fa (items base 0 l)) with [fb]. simpl. apply perm_skip. exact If. }
    assert (Q1 : forall x, x < base \/ base + K <= x -> m1 x = m x).
    { intros x Hx. unfold m1. rewrite !upd_other by lia. auto. }
    pose proof (nodes_of _ _ _ W' RG PF) as NO.
    assert (D1 : dll m1 0 f fl).
    { eapply dll_frame; [|exact Id]. intros y Hy. specialize (FARfl _ Hy). split; apply Q1; lia. }
    destruct (insert_ok m1 cs' f (uw (al + size)) (uw (t + (K - 16))) fl fb fsz NO) as (m2&R&L&D2); auto.
    { unfold fb; lia. }
    rewrite R. cbn [bind].
    replace (fb + fsz + 0) with (base + (K - 16)) by (unfold fb, fsz; lia).
    replace (fb + fsz + 8) with (base + (K - 8)) by (unfold fb, fsz; lia).
    assert (K8 : (K - 16) mod 8 = 0) by (apply mod8_sub; auto).
    assert (K8' : (K - 8) mod 8 = 0) by (apply mod8_sub; auto).
    rewrite st_mk by (apply ACC; auto; lia). cbn [bind].
    rewrite st_mk by (apply ACC; auto; lia). cbn [bind].
    set (m3 := upd (upd m2 (base + (K - 16)) 1) (base + (K - 8)) fsz).
    assert (LK : forall x, base <= x < base + K -> x <> fb + 16 -> x <> fb + 24 ->
                 m2 x = upd (upd m1 (fb + 0) 0) (fb + 32) fsz x).
    { intros x Hx N1 N2. apply L. intros y [<-|Hy]; auto. specialize (FARfl _ Hy). lia. }
    exists (base + 16). eexists. exists ((base, l) :: A), (fb :: fl), size.
    split; [reflexivity|]. cbn [mem chunks free_blocks allocated total].
    assert (PU : Permutation (ua (all_items ((base, l) :: A))) ((base + 16 - 16, size) :: ua (all_items A))).
    { change (all_items ((base, l) :: A)) with (items base 0 l ++ all_items A). rewrite ua_app.
      change (ua (items base 0 l)) with [(base, size)]. replace (base + 16 - 16) with base by lia. reflexivity. }
    assert (IOK : forall it, In it (all_items ((base, l) :: A)) -> item_ok m3 it).
    { intros it Hit. change (all_items ((base, l) :: A)) with (items base 0 l ++ all_items A) in Hit.
      apply in_app_or in Hit. destruct Hit as [[<-|[<-|[<-|[]]]]|Hit].
      - unfold item_ok; simpl. unfold m3. repeat split; [| |easy].
        + usimp. rewrite LK by (unfold fb; lia). unfold m1, fb. usimp. auto.
        + usimp. rewrite LK by (unfold fb; lia). unfold m1, fb. usimp. auto.
      - unfold item_ok; simpl. fold fb. unfold m3. repeat split.
        + unfold fb, fsz in *. usimp. rewrite LK by lia. usimp. auto.
        + unfold fb, fsz in *. usimp. rewrite LK by lia. usimp. unfold m1. usimp. auto.
        + intros sz E. inversion E; subst sz. unfold fb, fsz in *. usimp. rewrite LK by lia. usimp. auto.
      - unfold item_ok; simpl. unfold m3. replace (base + size + fsz) with (base + (K - 16)) by (unfold fsz; lia). repeat split.
        + usimp. auto.
        + replace (base + (K - 16) + 8) with (base + (K - 8)) by lia. usimp. auto.
        + easy.
      - assert (OKm : item_ok m2 it).
        { eapply item_ok_links with (A := (base, l) :: A) (F := fb :: fl).
          - exact W'.
          - change (all_items ((base, l) :: A)) with (items base 0 l ++ all_items A). apply in_or_app; auto.
          - intros y Hy. apply (Permutation_in _ PF); auto.
          - exact L.
          - apply FRAME; auto. intros x Hx. unfold fb. rewrite !upd_other by lia. auto. }
        pose proof (in_items_wf _ _ Iw Hit) as (_&_&_&H3&H4). specialize (FAR _ Hit).
        apply item_ok_frame with (m := m2); auto. unfold HDR in *. intros o Ho. simpl in Ho.
        unfold m3. rewrite !upd_other by lia. auto. }
    split; [|split; [|split; [|split; [|split; [|split; [|split]]]]]].
    + constructor; cbn [mem chunks free_blocks allocated total]; auto.
      * eapply dll_frame; [|exact D2]. intros y [<-|Hy]; unfold m3, fb, fsz in *.
        -- split; usimp; auto.
        -- specialize (FARfl _ Hy). split; rewrite !upd_other by lia; auto.
      * rewrite Ia. unfold used_items. eapply alloc_upd; eauto.
      * assert (TB' := total_bound _ W'). rewrite It_. simpl in TB' |- *. unfold sum_total in *. simpl in *.
        rewrite uw_small; lia.
    + reflexivity.
    + intros x Px _. apply payload_items in Px. destruct Px as (it&H1&H2&H3). specialize (FAR _ H1).
      unfold m3. rewrite !upd_other by lia. rewrite L.
      * unfold fb. rewrite !upd_other by lia. apply Q1; lia.
      * intros y [<-|Hy]; [unfold fb; lia|].
        apply (Permutation_in _ If) in Hy. apply fa_in in Hy. destruct Hy as (jt&J1&J2&<-).
        pose proof (in_items_wf _ _ Iw J1) as (_&_&_&_&J4).
        assert (J5 : 64 <= isz jt).
        { unfold is_free in J2. unfold isz. destruct (ik jt) as [[sz []]|]; try discriminate.
          apply (J4 (sz, false) eq_refl). }
        destruct (items_disj _ _ _ Iw H1 J1) as [->|[Hd|Hd]]; try lia.
        unfold is_used, is_free in *. destruct (ik jt) as [[sz []]|]; discriminate.
    + intros N. constructor; simpl; auto.
    + exact PU.
    + lia.
    + lia.
    + intros x Px. apply payload_items in Px. destruct Px as (it&H1&H2&H3). apply payload_items.
      exists it. split; auto. simpl. auto.
  - unfold set_allocated. cbn [mem chunks free_blocks allocated total]. unfold o_size.
    rewrite st_mk by (apply ACC; auto; lia). cbn [bind].
    assert (K8 : (K - 16) mod 8 = 0) by (apply mod8_sub; auto).
    assert (K8' : (K - 8) mod 8 = 0) by (apply mod8_sub; auto).
    replace (base + (K - 16) + 0) with (base + (K - 16)) by lia.
    replace (base + (K - 16) + 8) with (base + (K - 8)) by lia.
    rewrite st_mk by (apply ACC; auto; lia). cbn [bind].
    rewrite st_mk by (apply ACC; auto; lia). cbn [bind].
    set (fsz := K - 16).
    set (m3 := upd (upd (upd (upd m0 (base + 8) 0) (base + 0) fsz) (base + fsz) 1) (base + (K - 8)) fsz).
    set (l := [(fsz, true)]).
    assert (SL : sumsz l + 16 = K) by (unfold l, fsz; simpl; lia).
    assert (WL : Forall blk_wf l).
    { unfold l. repeat constructor; simpl; auto; unfold fsz; lia. }
    assert (W' : layout_wf ((base, l) :: A)).
    { apply new_wf; auto; [rewrite SL; auto|easy]. }
    assert (RG : cs' = map reg ((base, l) :: A)).
    { unfold cs'. rewrite Ic. cbn [map]. f_equal. unfold reg. cbn [fst snd]. unfold HDR. rewrite SL. reflexivity. }
    assert (PF : Permutation fl (fa (all_items ((base, l) :: A)))) by exact If.
    assert (Q1 : forall x, x < base \/ base + K <= x -> m3 x = m x).
    { intros x Hx. unfold m3, fsz. rewrite !upd_other by lia. auto. }
    exists (base + 16). eexists. exists ((base, l) :: A), fl, fsz.
    split; [reflexivity|]. cbn [mem chunks free_blocks allocated total].
    assert (PU : Permutation (ua (all_items ((base, l) :: A))) ((base + 16 - 16, fsz) :: ua (all_items A))).
    { change (all_items ((base, l) :: A)) with (items base 0 l ++ all_items A). rewrite ua_app.
      change (ua (items base 0 l)) with [(base, fsz)]. replace (base + 16 - 16) with base by lia. reflexivity. }
    assert (IOK : forall it, In it (all_items ((base, l) :: A)) -> item_ok m3 it).
    { intros it Hit. change (all_items ((base, l) :: A)) with (items base 0 l ++ all_items A) in Hit.
      apply in_app_or in Hit. destruct Hit as [[<-|[<-|[]]]|Hit].
      - unfold item_ok; simpl. unfold m3, fsz. repeat split; [| |easy].
        + usimp. auto.
        + usimp. auto.
      - unfold item_ok; simpl. unfold m3. repeat split.
        + unfold fsz. usimp. auto.
        + unfold fsz. replace (base + (K - 16) + 8) with (base + (K - 8)) by lia. usimp. auto.
        + easy.
      - apply FRAME; auto. }
    split; [|split; [|split; [|split; [|split; [|split; [|split]]]]]].
    + constructor; cbn [mem chunks free_blocks allocated total]; auto.
      * eapply dll_frame; [|exact Id]. intros y Hy.
        specialize (FARfl _ Hy). split; apply Q1; lia.
      * rewrite Ia. unfold used_items. eapply alloc_upd; eauto.
      * assert (TB' := total_bound _ W'). rewrite It_. simpl in TB' |- *. unfold sum_total in *. simpl in *.
        rewrite uw_small; unfold fsz in *; lia.
    + reflexivity.
    + intros x Px _. apply payload_items in Px. destruct Px as (it&H1&H2&H3). specialize (FAR _ H1).
      apply Q1; lia.
    + intros N. constructor; simpl; auto.
    + exact PU.
    + unfold fsz. lia.
    + lia.
    + intros x Px. apply payload_items in Px. destruct Px as (it&H1&H2&H3). apply payload_items.
      exists it. split; auto. simpl. auto.
Qed.
