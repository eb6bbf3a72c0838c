(** The invariant of all reachable states and its consequences. *)
Require Import ZArith List Bool Lia Permutation.
From Verif Require Import Alloc.AllocModel Alloc.AllocSpec Alloc.AllocLayout Alloc.AllocOps Alloc.AllocInv
  Alloc.AllocSteps Alloc.AllocNew Alloc.AllocFree.
Import ListNotations.
Open Scope Z_scope.

Lemma footprint_block n : 0 <= n < 2 ^ 62 -> block_size n = footprint n.
Proof.
  intros H. unfold block_size, footprint. change (64 - HDR) with 48. cbv zeta.
  destruct (Z.ltb_spec n 48).
  - change (align_size 48) with 64.
    assert ((n + 16 + 7) / 8 < 9) by (apply Z.div_lt_upper_bound; lia). lia.
  - rewrite align_size_eq by lia. replace (n + 16 + 7) with (n + 23) by lia.
    assert (8 <= (n + 23) / 8) by (apply Z.div_le_lower_bound; lia). lia.
Qed.

Lemma phase3_ok s A1 b l1 f l2 A2 fl :
  let A := ctx A1 b l1 [(f, false)] l2 A2 in
  inv s A fl -> noadjA A ->
  exists s' A' fl', phase3 s (b + sumsz l1) = Some s' /\ inv s' A' fl' /\ noadjA A' /\
    keep A A' (mem s) (mem s') /\ ua (all_items A') = ua (all_items A) /\
    (forall x, payload A' x -> payload A x) /\ (forall x, payload A x -> payload A' x) /\
    ((A' = A /\ s' = s /\ (l1 = [] -> l2 = [] -> total s' - f <= allocated s' * 3 / 2)) \/
     (A = ctx A1 b [] [(f, false)] [] A2 /\ A' = A1 ++ A2)).
Proof.
  destruct s as [m cs fr al t]. intros A I NA. unfold A in *; clear A.
  set (fb := b + sumsz l1).
  pose proof I as [Ic Iw Ii Id If Ia It_]. cbn [mem chunks free_blocks allocated total] in *.
  pose proof (ctx_bounds _ _ _ _ _ _ Iw) as (B1&B2&B3&B4&B5&B6&B7&B8). fold fb in B8.
  inversion B3 as [|? ? [Bc Bc8] _]; subst x l. cbn [fst snd] in Bc, Bc8.
  change (sumsz [(f, false)]) with (f + 0) in B8.
  pose proof (ctx_fsize _ _ _ _ _ _ _ Ii) as (F1&F2&F3&F4&F5). fold fb in F1, F2, F3, F4, F5.
  assert (ACC : forall o, 0 <= o -> o + 8 <= f + 16 -> o mod 8 = 0 -> acc cs (fb + o) = true).
  { intros o O1 O2 O3. eapply ctx_acc with (M := [(f, false)]); eauto. simpl. lia. }
  unfold phase3, o_fsize, o_prev_size, o_size.
  rewrite ld_mk by (apply ACC; auto; lia). cbn [bind].
  rewrite ld_mk by (apply ACC; auto; lia). cbn [bind]. rewrite F3.
  replace (fb + f + 0) with (fb + f) by lia.
  rewrite ld_mk by (apply ACC; auto; lia). cbn [bind]. rewrite F2, F4.
  assert (KEEP : forall P : Prop, P -> exists s' A' fl', Some (mkSt m cs fr al t) = Some s' /\ inv s' A' fl' /\ noadjA A' /\
    keep (ctx A1 b l1 [(f, false)] l2 A2) A' m (mem s') /\ ua (all_items A') = ua (all_items (ctx A1 b l1 [(f, false)] l2 A2)) /\
    (forall x, payload A' x -> payload (ctx A1 b l1 [(f, false)] l2 A2) x) /\
    (forall x, payload (ctx A1 b l1 [(f, false)] l2 A2) x -> payload A' x) /\
    (A' = ctx A1 b l1 [(f, false)] l2 A2 /\ s' = mkSt m cs fr al t /\ P)).
  { intros P HP. eexists _, _, fl. split; [reflexivity|]. split; [exact I|]. split; [exact NA|].
    spl; auto using keep_refl. }
  destruct (Z.eqb_spec (lastsz 0 l1) 0) as [E0|N0]; simpl andb.
  2:{ destruct (KEEP (l1 = [] -> l2 = [] -> t - f <= al * 3 / 2)) as (s'&A'&fl'&K1&K2&K3&K4&K5&K6&K7&K8&K9&K10).
      - intros ->. simpl in N0. congruence.
      - subst A' s'; exists (mkSt m cs fr al t), (ctx A1 b l1 [(f, false)] l2 A2), fl'; spl; first [assumption|reflexivity|left; spl; first [reflexivity|exact K10|intros; exact K10]]. }
  assert (l1 = []).
  { destruct l1 as [|x l1]; auto. exfalso. eapply lastsz_nonzero; [|exact B2|exact E0]. easy. }
  subst l1. assert (fb = b) by (unfold fb; simpl; lia).
  destruct l2 as [|[z u] l2].
  - cbn [hd_error Z.eqb andb].
    assert (NB := alloc_bound _ Iw). assert (TB := total_bound _ Iw). rewrite <- Ia in NB. rewrite <- It_ in NB, TB.
    assert (Ft : f <= t).
    { rewrite It_. unfold ctx. assert (W' : layout_wf (A1 ++ A2)) by (eapply wf_remove; exact Iw).
      pose proof (total_bound _ W').
      assert (sum_total (A1 ++ (b, [] ++ [(f, false)] ++ []) :: A2) = f + sum_total (A1 ++ A2)).
      { clear. unfold sum_total. induction A1 as [|c A1 IH]; simpl; [lia|]. simpl in IH. rewrite IH. lia. }
      lia. }
    cbn [allocated total]. rewrite (uw_small (al * 3)) by lia. rewrite (uw_small (t - f)) by lia.
    destruct (Z.ltb_spec (al * 3 / 2) (t - f)).
    + assert (Hin : In b fl).
      { apply (Permutation_in (l := fa (all_items (ctx A1 b [] [(f, false)] [] A2)))); [symmetry; exact If|].
        apply fa_in. exists (It b 0 (Some (f, false))). split; auto. rewrite ctx_items. rewrite !in_app_iff. simpl.
        rewrite Z.add_0_r. tauto. }
      apply in_split in Hin. destruct Hin as (f1&f2&->). rewrite H.
      destruct (release_ok _ _ _ _ _ _ _ I) as (s'&R1&R2&R3&R4&R5&R6). rewrite R1.
      exists s', (A1 ++ A2), (f1 ++ f2). spl; auto.
      apply ctx_noadj in NA. unfold noadjA in *. apply Forall_app. tauto.
    + destruct (KEEP (t - f <= al * 3 / 2)) as (s'&A'&fl'&K1&K2&K3&K4&K5&K6&K7&K8&K9&K10); [lia|].
      subst A' s'; exists (mkSt m cs fr al t), (ctx A1 b [] [(f, false)] [] A2), fl'; spl; first [assumption|reflexivity|left; spl; first [reflexivity|exact K10|intros; exact K10]].
  - cbn [hd_error].
    assert (E1 : (match u with true => z | false => 0 end) =? 1 = false).
    { inversion B4 as [|? ? [Bz _] _]; subst x l. simpl in Bz. destruct u; [apply Z.eqb_neq; lia|reflexivity]. }
    destruct (KEEP (@nil blk = [] -> (z, u) :: l2 = [] -> t - f <= al * 3 / 2)) as (s'&A'&fl'&K1&K2&K3&K4&K5&K6&K7&K8&K9&K10).
    { intros _ E. discriminate E. }
    subst A' s'. exists (mkSt m cs fr al t), (ctx A1 b [] [(f, false)] ((z, u) :: l2) A2), fl'. destruct u; rewrite E1; spl; first [assumption|reflexivity|left; spl; first [reflexivity|discriminate]].
Qed.

Lemma ctx_reg_inj A1 b l1 M l2 l1' M' l2' A2 :
  map reg (ctx A1 b l1 M l2 A2) = map reg (ctx A1 b l1' M' l2' A2) ->
  sumsz (l1 ++ M ++ l2) = sumsz (l1' ++ M' ++ l2').
Proof.
  intros EQ. unfold ctx in EQ. rewrite !map_app in EQ. apply app_inv_head in EQ.
  cbn [map] in EQ. unfold reg in EQ at 1 3. cbn [fst snd] in EQ. unfold HDR in EQ. 
  assert (sumsz (l1 ++ M ++ l2) + 16 = sumsz (l1' ++ M' ++ l2') + 16) by congruence. lia.
Qed.

Lemma fop_cons {T} (R : T -> T -> Prop) a l : ForallOrdPairs R (a :: l) -> Forall (R a) l.
Proof. inversion 1; auto. Qed.

Lemma free_exec_ok s A fl p sz :
  inv s A fl -> noadjA A -> In (p - 16, sz) (ua (all_items A)) ->
  exists s' A' fl', free_exec s p = Some s' /\ inv s' A' fl' /\ noadjA A' /\
    keep A A' (mem s) (mem s') /\
    Permutation (ua (all_items A)) ((p - 16, sz) :: ua (all_items A')) /\
    (forall x, payload A' x -> payload A x) /\
    (forall c, In c (chunks s') -> In c (chunks s)) /\
    (forall b f, In (b, [(f, false)]) A' -> b <= p <= b + f -> total s' - f <= allocated s' * 3 / 2).
Proof.
  intros I NA Hu. rewrite free_exec_phases. unfold HDR.
  pose proof I as [Ic Iw Ii Id If Ia It_].
  assert (exists it, In it (all_items A) /\ ik it = Some (sz, true) /\ iaddr it = p - 16).
  { unfold ua in Hu. apply in_map_iff in Hu. destruct Hu as (it&E&Hit). apply filter_In in Hit.
    destruct Hit as [H1 H2]. inversion E. exists it. unfold is_used in H2. unfold isz in *.
    destruct (ik it) as [[z []]|]; try discriminate. auto. }
  destruct H as (it&H1&H2&H3).
  destruct (in_ctx _ _ _ H1 H2) as (A1&b&l1&l2&A2&->&->). simpl in H3.
  rewrite <- H3 in *. clear H1 H2.
  pose proof (ctx_bounds _ _ _ _ _ _ Iw) as (B1&B2&B3&B4&B5&B6&B7&B8).
  inversion B3 as [|? ? [Bc Bc8] _]; subst x l. cbn [fst snd] in Bc, Bc8.
  change (sumsz [(sz, true)]) with (sz + 0) in B8.
  pose proof (ctx_usize _ _ _ _ _ _ _ Ii) as (F1&F2&F4&F5).
  destruct s as [m cs fr al t]. cbn [mem chunks free_blocks allocated total] in *.
  set (header := b + sumsz l1) in *.
  assert (ACC : forall o, 0 <= o -> o + 8 <= sz + 16 -> o mod 8 = 0 -> acc cs (header + o) = true).
  { intros o O1 O2 O3. eapply ctx_acc with (M := [(sz, true)]); eauto. simpl. lia. }
  unfold o_size, o_prev_size.
  rewrite ld_mk by (apply ACC; auto; lia). cbn [bind]. rewrite Z.add_0_r, F1.
  unfold set_allocated. cbn [mem chunks free_blocks allocated total].
  rewrite ld_mk by (apply ACC; auto; lia). cbn [bind]. rewrite F2, Z.add_0_r.
  set (s0 := mkSt m cs fr (uw (al - sz)) t).
  assert (P1 : phase1_pre s0 A1 b l1 sz l2 A2 fl).
  { exists al. unfold s0; simpl. split; auto. }
  destruct (phase1_ok _ _ _ _ _ _ _ _ P1) as (AC0&s1&l1'&f&fl1&Q1&Q2&Q3&Q4&Q5&Q6&Q7). fold header in AC0, Q1, Q6.
  change (mem s0) with m in *. change (chunks s0) with cs in *.
  unfold s0 at 1. rewrite ld_mk by exact AC0. cbn [bind]. rewrite Q1. cbn [bind fst snd].
  apply ctx_noadj in NA. destruct NA as (NA1&NA2&NA3).
  destruct (Q5 NA2) as (N1&N2).
  assert (N3 : noadj l2).
  { apply noadj_app in NA2. destruct NA2 as (_&X&_). simpl in X. exact X. }
  destruct (phase2_ok _ _ _ _ _ _ _ _ Q2 N1 N2 N3) as (s2&f'&l2'&fl2&R1&R2&R3&R4&R5&R6&R7&R8&R9).
  rewrite R1. cbn [bind].
  assert (NA4 : noadjA (ctx A1 b l1' [(f', false)] l2' A2)) by (apply ctx_noadj; auto).
  destruct (phase3_ok _ _ _ _ _ _ _ _ R2 NA4) as (s3&A3&fl3&T1&T2&T3&T4&T5&T6&T7&T8).
  exists s3, A3, fl3. spl; auto.
  - intros x Px Px'. assert (P3 := T6 _ Px'). assert (P2 := R8 _ P3).
    rewrite (T4 x P3 Px'), (R4 x P2 P3), (Q4 x Px P2). reflexivity.
  - rewrite T5, R7. exact Q6.
  - intros c Hc. rewrite (inv_chunks _ _ _ T2) in Hc. rewrite <- Q3, <- R3, (inv_chunks _ _ _ R2).
    destruct T8 as [(->&_)|(T8&->)]; auto. rewrite T8. unfold ctx. rewrite map_app in *. simpl. apply in_app_or in Hc. apply in_or_app; simpl; tauto.
  - assert (W2 := inv_wf _ _ _ R2).
    intros b0 f0 Hb0 Hp.
    assert (Hb : b0 = b).
    { destruct T8 as [(EA&_)|(T8&EA)].
      - rewrite EA in Hb0. apply in_app_or in Hb0. destruct Hb0 as [Hb0|[Hb0|Hb0]]; [|inversion Hb0; auto|].
        + exfalso. destruct W2 as [W3 W4]. unfold ctx in *. apply fop_app in W4. destruct W4 as (_&_&W4).
          specialize (W4 _ _ Hb0 (or_introl eq_refl)).
          pose proof (sumsz_app l1' ([(f', false)] ++ l2')) as SA.
          assert (sumsz (l1' ++ [(f', false)] ++ l2') = sumsz (l1 ++ [(sz, true)] ++ l2)).
          { pose proof (ctx_reg_inj _ _ _ _ _ _ _ _ _ (eq_trans (eq_sym (inv_chunks _ _ _ R2)) (eq_trans R3 (eq_trans Q3 Ic)))) as EQ. simpl in EQ |- *; lia. }
          unfold rdisj, reg, HDR in W4; simpl in W4. rewrite !sumsz_app in H. simpl in H. rewrite !sumsz_app in W4. simpl in W4. unfold header in *. lia.
        + exfalso. destruct W2 as [W3 W4]. unfold ctx in *. apply fop_app in W4. destruct W4 as (_&W4&_).
          pose proof (fop_cons _ _ _ W4) as W5. rewrite Forall_forall in W5. specialize (W5 _ Hb0).
          assert (sumsz (l1' ++ [(f', false)] ++ l2') = sumsz (l1 ++ [(sz, true)] ++ l2)).
          { pose proof (ctx_reg_inj _ _ _ _ _ _ _ _ _ (eq_trans (eq_sym (inv_chunks _ _ _ R2)) (eq_trans R3 (eq_trans Q3 Ic)))) as EQ. simpl in EQ |- *; lia. }
          unfold rdisj, reg, HDR in W5; simpl in W5. rewrite !sumsz_app in H. simpl in H. rewrite !sumsz_app in W5. simpl in W5. unfold header in *. lia.
      - exfalso. subst A3. rewrite T8 in W2, R2.
        assert (G : forall d, In d (A1 ++ A2) -> rdisj (reg d) (reg (b, [(f', false)])) \/ rdisj (reg (b, [(f', false)])) (reg d)).
        { intros d Hd. destruct W2 as [W3 W4]. unfold ctx in *. apply fop_app in W4. destruct W4 as (_&W4&W6).
          pose proof (fop_cons _ _ _ W4) as W5. rewrite Forall_forall in W5. apply in_app_or in Hd. destruct Hd as [Hd|Hd].
          - left. apply W6; simpl; auto.
          - right. apply W5; auto. }
        specialize (G _ Hb0).
        assert (f' = sumsz (l1 ++ [(sz, true)] ++ l2)).
        { pose proof (ctx_reg_inj _ _ _ _ _ _ _ _ _ (eq_trans (eq_sym (inv_chunks _ _ _ R2)) (eq_trans R3 (eq_trans Q3 Ic)))) as EQ. simpl in EQ |- *; lia. }
        rewrite !sumsz_app in H. simpl in H. unfold rdisj, reg, HDR in G; simpl in G. unfold header in *. lia. }
    subst b0.
    destruct T8 as [(EA&ES&T8)|(T8&EA)].
    + rewrite EA in Hb0.
      assert (E : (b, [(f0, false)]) = (b, l1' ++ [(f', false)] ++ l2')).
      { unfold ctx in Hb0. apply in_app_or in Hb0. destruct Hb0 as [Hb0|[Hb0|Hb0]]; auto; exfalso.
        - eapply (in_map_reg_inj A1 _ A2 (b, [(f0, false)]) W2); [apply in_or_app; auto|reflexivity].
        - eapply (in_map_reg_inj A1 _ A2 (b, [(f0, false)]) W2); [apply in_or_app; auto|reflexivity]. }
      inversion E as [E']. destruct l1' as [|x l1']; simpl in E'; inversion E'; subst.
      * apply T8; auto.
      * destruct l1'; discriminate.
    + exfalso. subst A3. rewrite T8 in W2. eapply (in_map_reg_inj A1 _ A2 (b, [(f0, false)]) W2); [exact Hb0|reflexivity].
Qed.

(** ** Fuel *)
Lemma len_fa l : (length (fa l) <= length l)%nat.
Proof. unfold fa. rewrite map_length. apply filter_len. Qed.

Lemma items_count a p l : Forall blk_wf l -> Z.of_nat (length (items a p l)) <= (sumsz l + 16) / 8.
Proof.
  intros H. apply Z.div_le_lower_bound; [lia|]. revert a p.
  induction H as [|x l [Hx _] Hl IH]; intros a p; simpl length; simpl sumsz; [lia|].
  specialize (IH (a + fst x) (fst x)). lia.
Qed.

Lemma fuel_ok s A fl : inv s A fl -> (length fl < fuel_of s)%nat.
Proof.
  intros [Ic Iw Ii Id If Ia It_]. unfold fuel_of. rewrite Ic.
  rewrite (Permutation_length If). change (map iaddr (free_items A)) with (fa (all_items A)).
  pose proof (len_fa (all_items A)).
  assert (Z.of_nat (length (all_items A)) <= fold_right (fun c acc => snd c / 8 + acc) 0 (map reg A)).
  { destruct Iw as [W _]. clear -W. induction W as [|c A (c1&c2&c3&c4&c5) W IH]; simpl; [lia|].
    rewrite app_length. pose proof (items_count (fst c) 0 (snd c) c5). unfold HDR. lia. }
  lia.
Qed.

(** ** free_unused *)
Definition whole (A : layout) (y : Z) : Prop := exists f, In (y, [(f, false)]) A.

Lemma free_unused_loop_ok : forall rest fuel s A f1,
  (length rest < fuel)%nat -> inv s A (f1 ++ rest) -> noadjA A ->
  (forall y, In y f1 -> ~ whole A y) ->
  exists s' A' fl', free_unused_loop fuel s (hd 0 rest) = Some s' /\ inv s' A' fl' /\ noadjA A' /\
    keep A A' (mem s) (mem s') /\ ua (all_items A') = ua (all_items A) /\
    (forall x, payload A' x -> payload A x) /\ (forall x, payload A x -> payload A' x) /\
    (forall c, In c (chunks s') -> In c (chunks s)) /\
    (forall y, ~ whole A' y).
Proof.
  induction rest as [|fb rest IH]; intros fuel s A f1 Hf I NA NW; (destruct fuel as [|fuel]; [simpl in Hf; lia|]).
  - simpl. exists s, A, (f1 ++ []). spl; auto using keep_refl.
    intros y (f&Hy). apply (NW y).
    + rewrite app_nil_r in I. apply (Permutation_in (l := fa (all_items A))); [symmetry; apply I|].
      apply fa_in. exists (It y 0 (Some (f, false))). split; auto.
      apply in_all_items. exists (y, [(f, false)]). simpl; auto.
    + exists f; auto.
  - pose proof I as [Ic Iw Ii Id If Ia It_].
    assert (NZ : fb <> 0).
    { apply dll_app in Id. destruct Id as (e&_&D). simpl in D. tauto. }
    assert (Hin : In fb (f1 ++ fb :: rest)) by (apply in_or_app; simpl; auto).
    destruct (free_in _ _ _ Iw If Hin) as (f&A1&b&l1&l2&A2&->&Efb).
    pose proof (ctx_bounds _ _ _ _ _ _ Iw) as (B1&B2&B3&B4&B5&B6&B7&B8). rewrite <- Efb in B8.
    inversion B3 as [|? ? [Bc Bc8] _]; subst x l. cbn [fst snd] in Bc, Bc8.
    change (sumsz [(f, false)]) with (f + 0) in B8.
    pose proof (ctx_fsize _ _ _ _ _ _ _ Ii) as (F1&F2&F3&F4&F5). rewrite <- Efb in F1, F2, F3, F4, F5.
    destruct s as [m cs fr al t]. cbn [mem chunks free_blocks allocated total] in *.
    assert (ACC : forall o, 0 <= o -> o + 8 <= f + 16 -> o mod 8 = 0 -> acc cs (fb + o) = true).
    { intros o O1 O2 O3. rewrite Efb. eapply ctx_acc with (M := [(f, false)]); eauto. simpl. lia. }
    cbn [hd free_unused_loop]. destruct (Z.eqb_spec fb 0); [congruence|].
    unfold o_next, o_prev_size, o_fsize, o_size.
    rewrite ld_mk by (apply ACC; auto; lia). cbn [bind].
    rewrite ld_mk by (apply ACC; auto; lia). cbn [bind].
    rewrite ld_mk by (apply ACC; auto; lia). cbn [bind]. rewrite F3.
    replace (fb + f + 0) with (fb + f) by lia.
    rewrite ld_mk by (apply ACC; auto; lia). cbn [bind]. rewrite F2, F4.
    assert (NX : m (fb + 16) = hd 0 rest).
    { apply dll_app in Id. destruct Id as (e&_&D). cbn [dll] in D. destruct D as (_&_&_&D).
      destruct rest; simpl in *; [auto|tauto]. }
    rewrite NX.
    assert (CONT : (lastsz 0 l1 = 0 -> l2 = [] -> False) -> exists s' A' fl',
      free_unused_loop fuel (mkSt m cs fr al t) (hd 0 rest) = Some s' /\ inv s' A' fl' /\ noadjA A' /\
      keep (ctx A1 b l1 [(f, false)] l2 A2) A' m (mem s') /\ ua (all_items A') = ua (all_items (ctx A1 b l1 [(f, false)] l2 A2)) /\
      (forall x, payload A' x -> payload (ctx A1 b l1 [(f, false)] l2 A2) x) /\
      (forall x, payload (ctx A1 b l1 [(f, false)] l2 A2) x -> payload A' x) /\
      (forall c, In c (chunks s') -> In c cs) /\ (forall y, ~ whole A' y)).
    { intros NWH. apply (IH fuel (mkSt m cs fr al t) _ (f1 ++ [fb])); auto.
      - simpl in Hf; lia.
      - rewrite <- app_assoc. exact I.
      - intros y Hy. apply in_app_or in Hy. destruct Hy as [Hy|[<-|[]]]; [apply NW; auto|].
        intros (f0&Hw).
        assert (E : It fb 0 (Some (f0, false)) = It fb (lastsz 0 l1) (Some (f, false))).
        { eapply items_addr_inj; [exact Iw| | |reflexivity].
          - apply in_all_items. exists (fb, [(f0, false)]). simpl; auto.
          - rewrite ctx_items, <- Efb, !in_app_iff. simpl. tauto. }
        inversion E. subst f0.
        assert (E2 : It (fb + f) f None = It (fb + f) f (hd_error l2)).
        { eapply items_addr_inj; [exact Iw| | |reflexivity].
          - apply in_all_items. exists (fb, [(f, false)]). simpl; auto.
          - rewrite ctx_items, <- Efb, !in_app_iff. simpl. rewrite Z.add_0_r. tauto. }
        inversion E2. apply NWH; auto. destruct l2; [auto|discriminate]. }
    destruct (Z.eqb_spec (lastsz 0 l1) 0) as [E0|N0]; cbn [andb].
    2:{ cbn [bind]. apply CONT. congruence. }
    destruct l2 as [|[z u] l2].
    + cbn [hd_error Z.eqb].
      assert (l1 = []).
      { destruct l1 as [|x l1]; auto. exfalso. eapply lastsz_nonzero; [|exact B2|exact E0]. easy. }
      subst l1. simpl in Efb. rewrite Z.add_0_r in Efb. subst fb.
      destruct (release_ok _ _ _ _ _ _ _ I) as (s1&R1&R2&R3&R4&R5&R6).
      unfold release, o_fsize in R1. cbn [mem] in R3. 
      rewrite R1. cbn [bind].
      assert (NA' : noadjA (A1 ++ A2)).
      { apply ctx_noadj in NA. unfold noadjA in *. apply Forall_app. tauto. }
      destruct (IH fuel s1 (A1 ++ A2) f1) as (s'&A'&fl'&G1&G2&G3&G4&G5&G6&G7&G8&G9); auto.
      { simpl in Hf; lia. }
      { intros y Hy (f0&Hw). apply (NW y Hy). exists f0. unfold ctx. apply in_app_or in Hw. apply in_or_app; simpl; tauto. }
      exists s', A', fl'. spl; auto.
      * intros x Px Px'. assert (P2 := G6 _ Px'). rewrite (G4 x P2 Px'), (R3 x Px P2). reflexivity.
      * congruence.
      * intros c Hc. apply G8 in Hc. rewrite (inv_chunks _ _ _ R2) in Hc. rewrite Ic. unfold ctx.
        rewrite map_app in *. simpl. apply in_app_or in Hc. apply in_or_app; simpl; tauto.
    + cbn [hd_error].
      assert (E1 : (match u with true => z | false => 0 end) =? 1 = false).
      { inversion B4 as [|? ? [Bz _] _]; subst x l. simpl in Bz. destruct u; [apply Z.eqb_neq; lia|reflexivity]. }
      destruct u; rewrite E1; cbn [bind]; apply CONT; discriminate.
Qed.

Lemma free_unused_ok s A fl : inv s A fl -> noadjA A ->
  exists s' A' fl', free_unused s = Some s' /\ inv s' A' fl' /\ noadjA A' /\
    keep A A' (mem s) (mem s') /\ ua (all_items A') = ua (all_items A) /\
    (forall x, payload A' x -> payload A x) /\ (forall x, payload A x -> payload A' x) /\
    (forall c, In c (chunks s') -> In c (chunks s)) /\
    (forall y, ~ whole A' y).
Proof.
  intros I NA. unfold free_unused.
  assert (E : free_blocks s = hd 0 fl).
  { pose proof (inv_dll _ _ _ I) as D. destruct fl; simpl in *; tauto. }
  rewrite E.
  destruct (free_unused_loop_ok fl (fuel_of s) s A []) as (s'&A'&fl'&G1&G2&G3&G4&G5&G6&G7&G8&G9); auto.
  { eapply fuel_ok; eauto. }
  rewrite G1. cbn [bind].
  assert (X : (total s' =? 0) && negb (free_blocks s' =? 0) = false).
  { destruct (Z.eqb_spec (total s') 0) as [T0|]; auto. cbn [andb].
    rewrite (inv_total _ _ _ G2) in T0. pose proof (inv_wf _ _ _ G2) as [W _].
    assert (A' = []).
    { destruct A' as [|c A']; auto. exfalso. inversion W as [|? ? (c1&c2&c3&c4&c5) W']; subst.
      assert (0 <= sum_total A').
      { pose proof (inv_wf _ _ _ G2) as [_ W2]. inversion W2; subst. apply total_bound. split; auto. }
      simpl in T0. unfold sum_total in *. destruct (snd c) as [|x l] eqn:Ec; [congruence|].
      inversion c5 as [|? ? [Hx _] Hl]; subst. pose proof (sumsz_nonneg _ Hl). simpl in T0. lia. }
    subst A'. pose proof (inv_fl _ _ _ G2) as P. simpl in P. apply Permutation_sym, Permutation_nil in P. subst fl'.
    pose proof (inv_dll _ _ _ G2) as D. simpl in D. rewrite D. reflexivity. }
  rewrite X. exists s', A', fl'. spl; auto.
Qed.
