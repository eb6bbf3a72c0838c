(** The invariant over all histories. *)
Require Import ZArith List Bool Lia Permutation.
From Verif Require Import Alloc.AllocModel Alloc.AllocSpec Alloc.AllocLayout Alloc.AllocOps Alloc.AllocInv
  Alloc.AllocSteps Alloc.AllocNew Alloc.AllocFree Alloc.AllocMain.
Import ListNotations.
Open Scope Z_scope.

Definition live_ok (A : layout) (live : live_set) : Prop :=
  Permutation (map (fun c => fst c + 16) (ua (all_items A))) (map fst live) /\
  (forall p n, In (p, n) live -> 0 <= n < 2 ^ 62 /\
     exists usz, In (p - 16, usz) (ua (all_items A)) /\ footprint n <= usz <= footprint n + 64).

Definition Inv (s : st) (live : live_set) : Prop :=
  exists A fl, inv s A fl /\ noadjA A /\ live_ok A live.

Lemma ua_in A a sz : layout_wf A -> In (a, sz) (ua (all_items A)) ->
  exists it, In it (all_items A) /\ is_used it = true /\ iaddr it = a /\ isz it = sz /\ 0 < a /\ a mod 8 = 0 /\ 64 <= sz.
Proof.
  intros W H. unfold ua in H. apply in_map_iff in H. destruct H as (it&E&Hit). apply filter_In in Hit.
  destruct Hit as [H1 H2]. inversion E. exists it.
  pose proof (in_items_wf _ _ W H1) as (w1&w2&w3&w4&w5). spl; auto; try lia.
  unfold is_used in H2. unfold isz in *. destruct (ik it) as [[z []]|]; try discriminate.
  specialize (w5 _ eq_refl). destruct w5 as [w5 _]. exact w5.
Qed.

Lemma ua_nodup A : layout_wf A -> NoDup (map fst (ua (all_items A))).
Proof.
  intros W. apply all_items_nodup in W. unfold ua. rewrite map_map. simpl.
  induction (all_items A) as [|it l IH]; simpl in *; [constructor|].
  inversion W; subst. destruct (is_used it); simpl; auto. constructor; auto.
  intros H. apply in_map_iff in H. destruct H as (j&E&Hj). apply filter_In in Hj.
  apply H1. rewrite <- E. apply in_map. tauto.
Qed.

Lemma live_nodup A live : layout_wf A -> live_ok A live -> NoDup (map fst live).
Proof.
  intros W [P _]. eapply Permutation_NoDup; [exact P|].
  rewrite <- (map_map fst (fun x => x + 16)).
  apply FinFun.Injective_map_NoDup; [intros x y; lia|]. apply ua_nodup; auto.
Qed.

Lemma find_none_or s A fl size : inv s A fl ->
  exists r, find_free (fuel_of s) s (free_blocks s) size = Some r /\
    match r with
    | Some fb => In fb fl /\ size <= mem s (fb + 32)
    | None => forall y, In y fl -> mem s (y + 32) < size
    end.
Proof.
  intros I. pose proof (fuel_ok _ _ _ I) as F. pose proof I as [Ic Iw Ii Id If Ia It_].
  pose proof (nodes_of _ _ _ Iw Ic If) as (_&NO&_).
  destruct s as [m cs f al t]. cbn [mem chunks free_blocks allocated total] in *.
  destruct (find_free_ok m cs f al t size fl 0 f (fuel_of (mkSt m cs f al t)) F Id) as (r&R1&R2).
  { intros y Hy. split; apply NO; simpl; auto 6. }
  exists r. split; auto. destruct r as [fb|]; auto.
  destruct R2 as (f1&f2&->&H). split; auto. apply in_or_app; simpl; auto.
Qed.

Lemma os_ok_of s len b c : os_answer_ok s len (Some (b, c)) -> os_ok (chunks s) b len.
Proof. intros H. exact H. Qed.

(** The effect of one operation on the layout. *)
Definition step_spec (s : st) (A : layout) (live : live_set) (o : op) (r : Z) (s' : st) (A' : layout) : Prop :=
  match o with
  | Malloc n os =>
      (r = 0 /\ s' = s /\ A' = A) \/
      (r <> 0 /\ keep A A' (mem s) (mem s') /\ (forall x, payload A x -> payload A' x))
  | Write a v => A' = A /\ s' = mkSt (upd (mem s) a v) (chunks s) (free_blocks s) (allocated s) (total s)
  | _ => keep A A' (mem s) (mem s') 
  end.

Lemma live_add A A' live p usz n :
  live_ok A live -> Permutation (ua (all_items A')) ((p - 16, usz) :: ua (all_items A)) ->
  0 <= n < 2 ^ 62 -> footprint n <= usz <= footprint n + 64 -> live_ok A' ((p, n) :: live).
Proof.
  intros [L1 L2] P Hn Hu. split.
  - etransitivity; [apply Permutation_map; exact P|]. simpl. replace (p - 16 + 16) with p by lia.
    apply perm_skip. exact L1.
  - intros q m [E|H].
    + inversion E; subst. split; auto. exists usz. split; auto.
      apply (Permutation_in (l := (q - 16, usz) :: ua (all_items A))); [symmetry; auto|simpl; auto].
    + destruct (L2 q m H) as (H1&u&H2&H3). split; auto. exists u. split; auto.
      eapply Permutation_in; [symmetry; exact P|]. simpl; auto.
Qed.

Lemma filter_neq_perm (live : live_set) p X :
  NoDup (map fst live) -> Permutation (p :: X) (map fst live) ->
  Permutation X (map fst (filter (fun e => negb (fst e =? p)) live)).
Proof.
  intros ND P. 
  assert (Hin : In p (map fst live)) by (eapply Permutation_in; [exact P|simpl; auto]).
  apply in_map_iff in Hin. destruct Hin as ([q n]&E&Hin). simpl in E. subst q.
  apply in_split in Hin. destruct Hin as (l1&l2&->).
  rewrite map_app in *. simpl in *. 
  assert (F : forall l, ~ In p (map fst l) -> filter (fun e : Z * Z => negb (fst e =? p)) l = l).
  { induction l as [|[q k] l IH]; simpl; auto. intros H. destruct (Z.eqb_spec q p); [exfalso; auto|].
    simpl. f_equal. auto. }
  pose proof (NoDup_remove_2 _ _ _ ND) as N2. rewrite in_app_iff in N2.
  rewrite filter_app. simpl. rewrite Z.eqb_refl. simpl. rewrite !F by tauto.
  rewrite map_app. apply (Permutation_app_inv [] X _ _ p); simpl. exact P.
Qed.

Lemma live_remove A A' live p usz :
  layout_wf A -> live_ok A live -> Permutation (ua (all_items A)) ((p - 16, usz) :: ua (all_items A')) ->
  live_ok A' (filter (fun e => negb (fst e =? p)) live).
Proof.
  intros W L P. pose proof (live_nodup _ _ W L) as ND. destruct L as [L1 L2]. split.
  - apply filter_neq_perm; auto. etransitivity; [|exact L1].
    etransitivity; [|apply Permutation_map; symmetry; exact P]. simpl. replace (p - 16 + 16) with p by lia. reflexivity.
  - intros q m H. apply filter_In in H. destruct H as [H Hq]. simpl in Hq.
    destruct (L2 q m H) as (H1&u&H2&H3). split; auto. exists u. split; auto.
    apply (Permutation_in _ P) in H2. destruct H2 as [H2|H2]; auto.
    inversion H2. apply negb_true_iff in Hq. lia.
Qed.

Lemma live_same A A' live : live_ok A live -> ua (all_items A') = ua (all_items A) -> live_ok A' live.
Proof. intros [L1 L2] E. split; rewrite E; auto. Qed.

Lemma payload_live A live p n x : layout_wf A -> live_ok A live -> In (p, n) live -> p <= x < p + n -> payload A x.
Proof.
  intros W [_ L] H Hx. destruct (L _ _ H) as (Hn&u&Hu&Hf).
  destruct (ua_in _ _ _ W Hu) as (it&H1&H2&H3&H4&_). apply payload_items. exists it. spl; auto; try lia.
  assert (n + 16 <= footprint n).
  { unfold footprint. pose proof (Z.div_mod (n + 16 + 7) 8). pose proof (Z.mod_pos_bound (n + 16 + 7) 8). lia. }
  lia.
Qed.

Lemma step_ok s A fl live o :
  inv s A fl -> noadjA A -> live_ok A live -> valid_op s live o ->
  exists r s' A' fl', step s o = Some (r, s') /\ inv s' A' fl' /\ noadjA A' /\ live_ok A' (next_live live o r) /\
    step_spec s A live o r s' A'.
Proof.
  intros I NA L V. destruct o as [n os|p| |a v]; simpl in V; cbn [step next_live step_spec].
  - destruct V as [Hn Hos]. unfold malloc_exec. cbv zeta.
    destruct (block_size_good n Hn) as [GS GN].
    destruct (find_none_or s A fl (block_size n) I) as (r&R1&R2). rewrite R1. cbn [bind].
    destruct r as [fb|].
    + destruct R2 as [R2 R3].
      destruct (take_free_ok _ _ _ _ _ I R2 GS R3) as (p&s'&A'&fl'&usz&T1&T2&T3&T4&T5&T6&T7&T8&T9).
      exists p, s', A', fl'. destruct (Z.eqb_spec p 0); [congruence|]. spl; auto.
      eapply live_add; eauto. rewrite <- footprint_block by auto. auto.
    + destruct os as [[b c]|].
      * destruct (take_new_ok _ _ _ _ b c I GS (os_ok_of _ _ _ _ Hos)) as (p&s'&A'&fl'&usz&T1&T2&T3&T4&T5&T6&T7&T8&T9).
        exists p, s', A', fl'. destruct (Z.eqb_spec p 0); [congruence|]. spl; auto.
        eapply live_add; eauto. rewrite <- footprint_block by auto. auto.
      * exists 0, s, A, fl. spl; auto.
  - destruct V as [n V]. pose proof L as [L1 L2]. destruct (L2 _ _ V) as (Hn&u&Hu&Hf).
    destruct (free_exec_ok _ _ _ _ _ I NA Hu) as (s'&A'&fl'&T1&T2&T3&T4&T5&T6&T7&T8).
    exists 0, s', A', fl'. rewrite T1. cbn [bind]. spl; auto. eapply live_remove; eauto. apply I.
  - destruct (free_unused_ok _ _ _ I NA) as (s'&A'&fl'&T1&T2&T3&T4&T5&T6&T7&T8&T9).
    exists 0, s', A', fl'. rewrite T1. cbn [bind]. spl; auto. eapply live_same; eauto.
  - destruct V as (V8&p&n&V&Va&Vb).
    pose proof I as [Ic Iw Ii Id If Ia It_].
    pose proof L as [L1 L2]. destruct (L2 _ _ V) as (Hn&u&Hu&Hf).
    destruct (ua_in _ _ _ Iw Hu) as (it&H1&H2&H3&H4&H5&H6&H7).
    assert (n + 16 <= footprint n).
    { unfold footprint. pose proof (Z.div_mod (n + 16 + 7) 8). pose proof (Z.mod_pos_bound (n + 16 + 7) 8). lia. }
    destruct s as [m cs f al t]. cbn [mem chunks free_blocks allocated total] in *.
    assert (AC : acc cs a = true).
    { replace a with (iaddr it + (a - iaddr it)) by lia. unfold acc. eapply item_acc; eauto; try lia.
      apply mod8_sub; auto. rewrite H3; auto. }
    rewrite st_mk by exact AC. cbn [bind].
    eexists 0, _, A, fl. spl; auto.
    assert (FAR : forall jt, In jt (all_items A) -> jt = it \/ a + 8 <= iaddr jt \/ iaddr jt + isz jt <= a).
    { intros jt Hj. destruct (items_disj _ _ _ Iw Hj H1) as [E|[E|E]]; auto; lia. }
    constructor; cbn [mem chunks free_blocks allocated total]; auto.
    + intros jt Hj. destruct (FAR jt Hj) as [->|FJ].
      * destruct (Ii _ Hj) as (O1&O2&O3). split; [|split].
        -- rewrite upd_other by lia. exact O1.
        -- rewrite upd_other by lia. exact O2.
        -- intros sz Hs. unfold is_used in H2. rewrite Hs in H2. discriminate.
      * apply item_ok_frame with (m := m); auto.
        -- intros o Ho. apply upd_other. pose proof (in_items_wf _ _ Iw Hj) as (_&_&_&J4&_). unfold HDR in J4.
           simpl in Ho. lia.
        -- apply (in_items_wf _ _ Iw Hj).
    + eapply dll_frame; [|exact Id]. intros y Hy. apply (Permutation_in _ If) in Hy.
      apply fa_in in Hy. destruct Hy as (jt&J1&J2&<-).
      pose proof (in_items_wf _ _ Iw J1) as (_&_&_&_&J4).
      assert (J5 : 64 <= isz jt).
      { unfold is_free in J2. unfold isz. destruct (ik jt) as [[sz []]|]; try discriminate.
        apply (J4 (sz, false) eq_refl). }
      destruct (FAR jt J1) as [->|FJ].
      * unfold is_used, is_free in *. destruct (ik it) as [[sz []]|]; discriminate.
      * split; apply upd_other; lia.
Qed.

Lemma reach_inv s live : reach s live -> Inv s live.
Proof.
  induction 1 as [|s live o r s' R (A&fl&I&NA&L) V S].
  - exists [], []. spl.
    + constructor; simpl; auto; try easy. split; constructor.
    + constructor.
    + split; simpl; auto; easy.
  - destruct (step_ok _ _ _ _ _ I NA L V) as (r'&s''&A'&fl'&E&I'&NA'&L'&_).
    rewrite S in E. inversion E; subst. exists A', fl'. auto.
Qed.

(** ** Consequences, in the terms of AllocSpec *)

Lemma reach_no_ub s live o : reach s live -> valid_op s live o -> exists r s', step s o = Some (r, s').
Proof.
  intros R V. destruct (reach_inv _ _ R) as (A&fl&I&NA&L).
  destruct (step_ok _ _ _ _ _ I NA L V) as (r'&s''&A'&fl'&E&_). eauto.
Qed.

Lemma footprint_ge n : 0 <= n -> n + 16 <= footprint n.
Proof.
  intros H. unfold footprint. pose proof (Z.div_mod (n + 16 + 7) 8). pose proof (Z.mod_pos_bound (n + 16 + 7) 8). lia.
Qed.

Lemma reach_live_wf s live p n : reach s live -> In (p, n) live ->
  0 < p /\ p mod 8 = 0 /\
  exists c, In c (chunks s) /\ fst c + 16 <= p /\ p + n <= fst c + snd c - 16.
Proof.
  intros R H. destruct (reach_inv _ _ R) as (A&fl&I&NA&[L1 L2]).
  destruct (L2 _ _ H) as (Hn&u&Hu&Hf). pose proof (inv_wf _ _ _ I) as W.
  destruct (ua_in _ _ _ W Hu) as (it&H1&H2&H3&H4&H5&H6&H7).
  pose proof (footprint_ge n ltac:(lia)).
  spl; try lia.
  - replace p with (p - 16 + 16) by lia. apply mod8_add; auto.
  - apply in_all_items in H1. destruct H1 as (c&Hc&Hi).
    exists (reg c). split; [rewrite (inv_chunks _ _ _ I); apply in_map; auto|].
    destruct W as [W _]. rewrite Forall_forall in W. destruct (W c Hc) as (c1&c2&c3&c4&c5).
    pose proof (items_range _ _ _ _ c5 Hi) as (r1&r2&r3&r4&r5&r6).
    unfold is_used in H2. destruct (ik it) as [b|] eqn:E; [|discriminate]. specialize (r6 _ eq_refl).
    unfold reg, HDR in *; simpl. lia.
Qed.

Lemma fop_nodup_disj (live : live_set) :
  NoDup (map fst live) ->
  (forall p n q k, In (p, n) live -> In (q, k) live -> p <> q -> disjoint (p, n) (q, k)) ->
  ForallOrdPairs disjoint live.
Proof.
  induction live as [|[p n] l IH]; intros ND H; constructor; simpl in *.
  - apply Forall_forall. intros [q k] Hq. inversion ND; subst. apply H; auto.
    intros ->. apply H2. apply in_map_iff. exists (q, k). auto.
  - inversion ND; subst. apply IH; auto.
Qed.

Lemma reach_disjoint s live : reach s live ->
  ForallOrdPairs (fun a b => disjoint (fst a - 16, snd a + 16) (fst b - 16, snd b + 16)) live.
Proof.
  intros R. destruct (reach_inv _ _ R) as (A&fl&I&NA&L). pose proof (inv_wf _ _ _ I) as W.
  pose proof (live_nodup _ _ W L) as ND. destruct L as [L1 L2].
  assert (D : forall p n q k, In (p, n) live -> In (q, k) live -> p <> q -> disjoint (p - 16, n + 16) (q - 16, k + 16)).
  { intros p n q k Hp Hq Ne.
    destruct (L2 _ _ Hp) as (Hn&u&Hu&Hf). destruct (L2 _ _ Hq) as (Hk&v&Hv&Hg).
    destruct (ua_in _ _ _ W Hu) as (it&H1&H2&H3&H4&H5&H6&H7).
    destruct (ua_in _ _ _ W Hv) as (jt&J1&J2&J3&J4&J5&J6&J7).
    pose proof (footprint_ge n ltac:(lia)). pose proof (footprint_ge k ltac:(lia)).
    destruct (items_disj _ _ _ W H1 J1) as [->|E]; [lia|]. unfold idisj in E. unfold disjoint; simpl. lia. }
  clear -ND D. induction live as [|[p n] l IH]; constructor; simpl in *.
  - apply Forall_forall. intros [q k] Hq. inversion ND; subst. simpl. apply D; auto.
    intros ->. apply H1. apply in_map_iff. exists (q, k). auto.
  - inversion ND; subst. apply IH; auto.
Qed.

(** Gaps *)
Lemma gap_in_block : forall l b p a n, Forall blk_wf l -> noadj l -> 0 < n ->
  b <= a -> a + n <= b + sumsz l ->
  (forall it, In it (seg b p l) -> is_used it = true -> iaddr it + isz it <= a \/ a + n <= iaddr it) ->
  exists it, In it (seg b p l) /\ is_free it = true /\ n <= isz it.
Proof.
  induction l as [|[sz u] l IH]; intros b p a n W NA Hn H1 H2 HU; simpl in *; [lia|].
  inversion W as [|? ? [Hs _] Wl]; subst. simpl in Hs.
  destruct (Z_lt_le_dec a (b + sz)) as [Hlt|Hge].
  - destruct u.
    + specialize (HU _ (or_introl eq_refl) eq_refl). unfold isz in HU; simpl in HU. lia.
    + destruct (Z_le_gt_dec (a + n) (b + sz)) as [Hle|Hgt].
      * eexists; split; [left; reflexivity|]. split; auto. unfold isz; simpl. lia.
      * exfalso. destruct l as [|[sz' u'] l]; [simpl in H2; lia|].
        destruct u'; [|easy]. simpl in HU.
        inversion Wl as [|? ? [Hs' _] _]; subst. simpl in Hs'.
        destruct (HU (It (b + sz) sz (Some (sz', true)))) as [E|E]; auto; unfold isz in E; simpl in E; lia.
  - destruct (IH (b + sz) sz a n) as (it&I1&I2&I3); auto; try lia.
    + destruct u; auto. destruct l as [|[sz' []] l]; auto; easy.
    + exists it. auto.
Qed.

Lemma reach_gap_alloc s live n os c a :
  reach s live -> 0 <= n < 2 ^ 62 ->
  In c (chunks s) -> fst c <= a -> a + footprint n <= fst c + snd c - 16 ->
  (forall p k, In (p, k) live -> disjoint (p - 16, footprint k + 64) (a, footprint n)) ->
  exists r s', step s (Malloc n os) = Some (r, s') /\ r <> 0 /\ chunks s' = chunks s.
Proof.
  intros R Hn Hc Ha1 Ha2 Hg. destruct (reach_inv _ _ R) as (A&fl&I&NA&[L1 L2]). pose proof (inv_wf _ _ _ I) as W.
  destruct (block_size_good n Hn) as [GS GN].
  cbn [step]. unfold malloc_exec. cbv zeta.
  destruct (find_none_or s A fl (block_size n) I) as (r&R1&R2). rewrite R1. cbn [bind].
  assert (FP : 64 <= footprint n) by (unfold footprint; lia).
  destruct r as [fb|].
  - destruct R2 as [R2 R3].
    destruct (take_free_ok _ _ _ _ _ I R2 GS R3) as (p&s'&A'&fl'&usz&T1&T2&T3&T4&T5&T6&T7&T8&T9).
    exists p, s'. auto.
  - exfalso. rewrite (inv_chunks _ _ _ I) in Hc. apply in_map_iff in Hc. destruct Hc as (d&<-&Hd).
    destruct W as [W1 W2]. rewrite Forall_forall in W1. destruct (W1 d Hd) as (c1&c2&c3&c4&c5).
    unfold reg, HDR in Ha1, Ha2; simpl in Ha1, Ha2.
    unfold noadjA in NA. rewrite Forall_forall in NA.
    destruct (gap_in_block (snd d) (fst d) 0 a (footprint n)) as (it&G1&G2&G3); auto; try lia.
    + intros it Hit Hu.
      assert (HA : In it (all_items A)).
      { apply in_all_items. exists d. split; auto. rewrite items_seg. apply in_or_app; auto. }
      assert (HUA : In (iaddr it, isz it) (ua (all_items A))).
      { unfold ua. apply in_map_iff. exists it. split; auto. apply filter_In; auto. }
      assert (HP : In (iaddr it + 16) (map fst live)).
      { eapply Permutation_in; [exact L1|]. apply in_map_iff. exists (iaddr it, isz it). auto. }
      apply in_map_iff in HP. destruct HP as ([p k]&E&Hp). simpl in E. subst p.
      destruct (L2 _ _ Hp) as (Hk&v&Hv&Hf). replace (iaddr it + 16 - 16) with (iaddr it) in Hv by lia.
      assert (v = isz it).
      { destruct (ua_in A _ _ (conj (proj2 (Forall_forall _ _) W1) W2) Hv) as (jt&J1&J2&J3&J4&_).
        assert (jt = it) by (eapply items_addr_inj; [split; [apply Forall_forall; exact W1|exact W2]| | |]; eauto). subst; auto. }
      specialize (Hg _ _ Hp). unfold disjoint in Hg; simpl in Hg. lia.
    + assert (HA : In it (all_items A)).
      { apply in_all_items. exists d. split; auto. rewrite items_seg. apply in_or_app; auto. }
      assert (HF : In (iaddr it) fl).
      { apply (Permutation_in (l := fa (all_items A))); [symmetry; apply I|]. apply fa_in. exists it. auto. }
      specialize (R2 _ HF). destruct (inv_items _ _ _ I _ HA) as (_&_&O3).
      rewrite <- (footprint_block n Hn) in G3. unfold is_free in G2. unfold isz in G3.
      destruct (ik it) as [[z []]|] eqn:E; try discriminate. rewrite (O3 _ eq_refl) in R2. lia.
Qed.

(** Counters *)
Definition sum_footprints (live : live_set) : Z := fold_right (fun e acc => footprint (snd e) + acc) 0 live.

Lemma perm_sum_bounds : forall live (U : list (Z * Z)),
  NoDup (map fst U) ->
  Permutation (map (fun c => fst c + 16) U) (map fst live) ->
  (forall p n, In (p, n) live -> exists u, In (p - 16, u) U /\ footprint n <= u <= footprint n + 64) ->
  sum_footprints live <= fold_right (fun c acc => snd c + acc) 0 U <= sum_footprints live + 64 * Z.of_nat (length live).
Proof.
  induction live as [|[p n] live IH]; intros U ND P H.
  - simpl in P. apply Permutation_sym, Permutation_nil in P. destruct U; [simpl; lia|discriminate].
  - destruct (H p n (or_introl eq_refl)) as (u&Hu&Hf).
    apply in_split in Hu. destruct Hu as (U1&U2&->).
    assert (P2 : Permutation (map (fun c => fst c + 16) (U1 ++ U2)) (map fst live)).
    { rewrite map_app in *. simpl in P. replace (p - 16 + 16) with p in P by lia.
      apply (Permutation_app_inv _ _ [] _ p). exact P. }
    rewrite map_app in ND. simpl in ND. 
    destruct (IH (U1 ++ U2)) as [B1 B2]; auto.
    + rewrite map_app. eapply NoDup_remove_1; eauto.
    + intros q k Hq. destruct (H q k (or_intror Hq)) as (v&Hv&Hg). exists v. split; auto.
      apply in_app_or in Hv. apply in_or_app. simpl in Hv. destruct Hv as [Hv|[Hv|Hv]]; auto.
      exfalso. inversion Hv. assert (q = p) by lia. subst q.
      apply NoDup_remove_2 in ND. apply ND. rewrite <- map_app.
      assert (Hp : In p (map (fun c => fst c + 16) (U1 ++ U2))).
      { eapply Permutation_in; [symmetry; exact P2|]. apply in_map_iff. exists (p, k). auto. }
      apply in_map_iff in Hp. destruct Hp as ([x y]&E&Hx). simpl in E. apply in_map_iff. exists (x, y). split; auto. simpl; lia.
    + simpl length. unfold sum_footprints in *. simpl. rewrite !fold_right_app in *. simpl.
      assert (G : forall l z, fold_right (fun (c : Z * Z) (acc : Z) => snd c + acc) z l =
                 fold_right (fun (c : Z * Z) (acc : Z) => snd c + acc) 0 l + z).
      { induction l; intros; simpl; [lia|]. rewrite IHl. lia. }
      rewrite G in B1, B2 |- *. rewrite (G U1). lia.
Qed.

Lemma reach_counters s live : reach s live ->
  sum_footprints live <= allocated s <= sum_footprints live + 64 * Z.of_nat (length live) /\
  total s = fold_right (fun c acc => snd c - 16 + acc) 0 (chunks s) /\
  allocated s <= total s.
Proof.
  intros R. destruct (reach_inv _ _ R) as (A&fl&I&NA&[L1 L2]). pose proof (inv_wf _ _ _ I) as W.
  spl.
  - rewrite (inv_alloc _ _ _ I). change (sum_isz (used_items A)) with (us (all_items A)). rewrite us_ua.
    apply perm_sum_bounds; auto. apply ua_nodup; auto. intros p n H. destruct (L2 _ _ H) as (_&u&H1&H2). eauto.
  - rewrite (inv_alloc _ _ _ I). change (sum_isz (used_items A)) with (us (all_items A)). rewrite us_ua.
    apply perm_sum_bounds; auto. apply ua_nodup; auto. intros p n H. destruct (L2 _ _ H) as (_&u&H1&H2). eauto.
  - rewrite (inv_total _ _ _ I), (inv_chunks _ _ _ I). clear. unfold sum_total.
    induction A as [|c A IH]; simpl; auto. unfold HDR. lia.
  - rewrite (inv_alloc _ _ _ I), (inv_total _ _ _ I). apply alloc_bound; auto.
Qed.

(** After sljit_free_unused_memory_exec every mapped chunk contains a live allocation. *)
Lemma reach_free_unused s live r s' : reach s live -> step s FreeUnused = Some (r, s') ->
  (forall c, In c (chunks s') -> exists p n, In (p, n) live /\ fst c <= p /\ p + n <= fst c + snd c).
Proof.
  intros R S c Hc. destruct (reach_inv _ _ R) as (A&fl&I&NA&L).
  cbn [step] in S. destruct (free_unused_ok _ _ _ I NA) as (s2&A'&fl'&T1&T2&T3&T4&T5&T6&T7&T8&T9).
  rewrite T1 in S. cbn [bind] in S. inversion S; subst s2 r.
  pose proof (inv_wf _ _ _ T2) as W. pose proof (live_same _ _ _ L T5) as L'.
  rewrite (inv_chunks _ _ _ T2) in Hc. apply in_map_iff in Hc. destruct Hc as (d&<-&Hd).
  pose proof W as [W1 W2]. rewrite Forall_forall in W1. destruct (W1 d Hd) as (c1&c2&c3&c4&c5).
  unfold noadjA in T3. rewrite Forall_forall in T3. specialize (T3 d Hd). simpl in T3.
  assert (exists it, In it (seg (fst d) 0 (snd d)) /\ is_used it = true).
  { destruct d as [b l]. simpl in *. destruct l as [|[sz u] l]; [congruence|].
    destruct u; [eexists; split; [left; reflexivity|reflexivity]|].
    destruct l as [|[sz' u'] l].
    - exfalso. apply (T9 b). exists sz. exact Hd.
    - destruct u'; [|easy]. eexists; split; [right; left; reflexivity|reflexivity]. }
  destruct H as (it&H1&H2).
  assert (HA : In it (all_items A')).
  { apply in_all_items. exists d. split; auto. rewrite items_seg. apply in_or_app; auto. }
  assert (HUA : In (iaddr it, isz it) (ua (all_items A'))).
  { unfold ua. apply in_map_iff. exists it. split; auto. apply filter_In; auto. }
  destruct L' as [L1 L2].
  assert (HP : In (iaddr it + 16) (map fst live)).
  { eapply Permutation_in; [exact L1|]. apply in_map_iff. exists (iaddr it, isz it). auto. }
  apply in_map_iff in HP. destruct HP as ([p k]&E&Hp). simpl in E. subst p.
  destruct (L2 _ _ Hp) as (Hk&v&Hv&Hf). replace (iaddr it + 16 - 16) with (iaddr it) in Hv by lia.
  assert (v = isz it).
  { destruct (ua_in A' _ _ W Hv) as (jt&J1&J2&J3&J4&_).
    assert (jt = it) by (eapply items_addr_inj; eauto). subst; auto. }
  exists (iaddr it + 16), k. split; auto. pose proof (footprint_ge k ltac:(lia)).
  apply seg_range in H1; auto. unfold reg, HDR; simpl. lia.
Qed.

(** When a free leaves the chunk of the pointer without live allocations, the chunk is
    given back, or the total size of the other chunks is at most 1.5 times the allocated size. *)
Lemma reach_free_policy s live p n r s' c : reach s live -> In (p, n) live ->
  step s (Free p) = Some (r, s') ->
  In c (chunks s') -> fst c <= p < fst c + snd c ->
  (forall q k, In (q, k) (next_live live (Free p) r) -> q < fst c \/ fst c + snd c <= q) ->
  total s' - (snd c - 16) <= allocated s' * 3 / 2.
Proof.
  intros R Hp S Hc Hin Hno. destruct (reach_inv _ _ R) as (A&fl&I&NA&L).
  pose proof L as [L1 L2]. destruct (L2 _ _ Hp) as (Hn&u&Hu&Hf).
  cbn [step] in S. destruct (free_exec_ok _ _ _ _ _ I NA Hu) as (s2&A'&fl'&T1&T2&T3&T4&T5&T6&T7&T8).
  rewrite T1 in S. cbn [bind] in S. inversion S; subst s2 r.
  pose proof (inv_wf _ _ _ T2) as W.
  pose proof (live_remove _ _ _ _ _ (inv_wf _ _ _ I) L T5) as [L1' L2'].
  rewrite (inv_chunks _ _ _ T2) in Hc. apply in_map_iff in Hc. destruct Hc as (d&<-&Hd).
  pose proof W as [W1 W2]. rewrite Forall_forall in W1. destruct (W1 d Hd) as (c1&c2&c3&c4&c5).
  unfold noadjA in T3. rewrite Forall_forall in T3. specialize (T3 d Hd). simpl in T3.
  assert (NU : forall it, In it (seg (fst d) 0 (snd d)) -> is_used it = true -> False).
  { intros it H1 H2.
    assert (HA : In it (all_items A')).
    { apply in_all_items. exists d. split; auto. rewrite items_seg. apply in_or_app; auto. }
    assert (HUA : In (iaddr it, isz it) (ua (all_items A'))).
    { unfold ua. apply in_map_iff. exists it. split; auto. apply filter_In; auto. }
    assert (HP : In (iaddr it + 16) (map fst (filter (fun e => negb (fst e =? p)) live))).
    { eapply Permutation_in; [exact L1'|]. apply in_map_iff. exists (iaddr it, isz it). auto. }
    apply in_map_iff in HP. destruct HP as ([q k]&E&Hq). simpl in E. subst q.
    specialize (Hno _ _ Hq). apply seg_range in H1; auto. unfold reg, HDR in Hno; simpl in Hno. lia. }
  destruct d as [b l]. simpl in *. destruct l as [|[sz u0] l]; [congruence|].
  destruct u0. { exfalso. eapply NU; [left; reflexivity|reflexivity]. }
  destruct l as [|[sz' u'] l].
  - assert (sz = 0 + sz) by lia. unfold reg, HDR in *; simpl in *.
    replace (sz + 0 + 16 - 16) with sz by lia.
    apply (T8 b sz Hd).
    (* p <= b + sz: the pointer was inside of the block area *)
    assert (p - 16 + u <= b + sz).
    { destruct (ua_in _ _ _ (inv_wf _ _ _ I) Hu) as (it&H1&H2&H3&H4&H5&H6&H7).
      apply in_all_items in H1. destruct H1 as (e&He&Hi).
      destruct (inv_wf _ _ _ I) as [V1 V2]. rewrite Forall_forall in V1. destruct (V1 e He) as (e1&e2&e3&e4&e5).
      pose proof (items_range _ _ _ _ e5 Hi) as (r1&r2&r3&r4&r5&r6).
      unfold is_used in H2. destruct (ik it) as [bb|] eqn:E; [|discriminate]. specialize (r6 _ eq_refl).
      assert (Hcb : In (b, sz + 0 + 16) (chunks s)).
      { apply T7. rewrite (inv_chunks _ _ _ T2). apply in_map_iff. exists (b, [(sz, false)]). auto. }
      rewrite (inv_chunks _ _ _ I) in Hcb. apply in_map_iff in Hcb. destruct Hcb as (e'&Ee&He').
      destruct (V1 e' He') as (g1&g2&g3&g4&g5). unfold reg, HDR in Ee. inversion Ee.
      pose proof (ForallOrdPairs_In V2 _ _ He He') as [Eq|[Eq|Eq]].
      - subst e'. lia.
      - unfold rdisj, reg, HDR in Eq; simpl in Eq. lia.
      - unfold rdisj, reg, HDR in Eq; simpl in Eq. lia. }
    pose proof (footprint_ge n ltac:(lia)). lia.
  - destruct u'; [|easy]. exfalso. eapply NU; [right; left; reflexivity|reflexivity].
Qed.

(** Contents *)
Lemma reach_content s live o r s' p n x :
  reach s live -> valid_op s live o -> step s o = Some (r, s') ->
  In (p, n) live -> In (p, n) (next_live live o r) -> p <= x < p + n ->
  (forall a v, o = Write a v -> x <> a) ->
  mem s' x = mem s x.
Proof.
  intros R V S H1 H2 Hx HW. destruct (reach_inv _ _ R) as (A&fl&I&NA&L).
  destruct (step_ok _ _ _ _ _ I NA L V) as (r'&s''&A'&fl'&E&I'&NA'&L'&SP).
  rewrite S in E. inversion E; subst r' s''.
  pose proof (payload_live _ _ _ _ _ (inv_wf _ _ _ I) L H1 Hx) as P1.
  pose proof (payload_live _ _ _ _ _ (inv_wf _ _ _ I') L' H2 Hx) as P2.
  destruct o as [k os|q| |a v]; cbn [step_spec] in SP.
  - destruct SP as [(_&->&_)|(_&K&_)]; auto.
  - auto.
  - auto.
  - destruct SP as [-> ->]. simpl. apply upd_other. eapply HW; eauto.
Qed.
