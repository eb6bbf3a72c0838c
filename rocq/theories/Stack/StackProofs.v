Require Import ZArith List Bool Lia.
From Verif Require Import Stack.StackModel Stack.StackSpec.
Import ListNotations.
Open Scope Z_scope.

Lemma inr_iff a b x : inr a b x = true <-> a <= x < b.
Proof. unfold inr. rewrite andb_true_iff, Z.leb_le, Z.ltb_lt. tauto. Qed.
Lemma inr_false a b x : ~ (a <= x < b) -> inr a b x = false.
Proof. intros H. apply not_true_iff_false. rewrite inr_iff. auto. Qed.

(** x land ~(2^k-1) on 64 bit words rounds down. *)
Lemma land_down k p : 0 <= k <= 30 -> 0 <= p < 2 ^ 64 ->
  Z.land p (uw (Z.lnot (2 ^ k - 1))) = p - p mod 2 ^ k.
Proof.
  intros Hk Hp. unfold uw, W.
  rewrite <- (Z.land_ones (Z.lnot (2 ^ k - 1))) by lia.
  rewrite Z.land_assoc, <- Z.land_assoc, (Z.land_comm _ (Z.ones 64)), Z.land_assoc.
  rewrite Z.land_ones, (Z.mod_small p) by lia.
  replace (2 ^ k - 1) with (Z.ones k) by (rewrite Z.ones_equiv; lia).
  rewrite <- Z.ldiff_land, Z.ldiff_ones_r by lia.
  rewrite Z.shiftr_div_pow2, Z.shiftl_mul_pow2 by lia.
  pose proof (Z.div_mod p (2 ^ k)). lia.
Qed.

Lemma align_down_spec pa p : page_ok pa -> 0 <= p < 2 ^ 64 ->
  align_down pa p = p - p mod (pa + 1) /\ 0 <= p mod (pa + 1) <= pa.
Proof.
  intros (k & Hk & ->) Hp. unfold align_down. rewrite land_down by auto.
  replace (2 ^ k - 1 + 1) with (2 ^ k) by lia. split; auto.
  pose proof (Z.mod_pos_bound p (2 ^ k)). lia.
Qed.

Lemma page_pos pa : page_ok pa -> 0 < pa + 1 <= 2 ^ 30.
Proof. intros (k & Hk & ->). split; [lia|]. assert (2 ^ k <= 2 ^ 30) by (apply Z.pow_le_mono_r; lia). lia. Qed.

Lemma page_div pa : page_ok pa -> (2 ^ 64) mod (pa + 1) = 0.
Proof.
  intros (k & Hk & ->). replace (2 ^ k - 1 + 1) with (2 ^ k) by lia.
  replace 64 with (64 - k + k) by lia. rewrite Z.pow_add_r by lia. apply Z_mod_mult.
Qed.

Lemma align_up_spec pa n : page_ok pa -> 0 <= n < 2 ^ 64 -> 0 < align_up pa n ->
  n <= align_up pa n /\ align_up pa n mod (pa + 1) = 0.
Proof.
  intros Hp Hn. pose proof (page_pos _ Hp). pose proof (page_div _ Hp) as D64.
  unfold align_up. intros Hpos.
  destruct (Z_lt_ge_dec (n + pa) (2 ^ 64)) as [L|L].
  - unfold uw, W in *. rewrite (Z.mod_small (n + pa)) in * by lia.
    destruct (align_down_spec pa (n + pa) Hp ltac:(lia)) as (E & B).
    unfold align_down, uw, W in E. rewrite E in *. split; [lia|].
    replace (n + pa - (n + pa) mod (pa + 1)) with ((n + pa) / (pa + 1) * (pa + 1)) by
      (pose proof (Z.div_mod (n + pa) (pa + 1)); lia). apply Z_mod_mult.
  - exfalso. unfold uw, W in Hpos.
    assert (E1 : (n + pa) mod 2 ^ 64 = n + pa - 2 ^ 64).
    { symmetry. apply Zmod_unique with 1; lia. }
    rewrite E1 in Hpos.
    destruct (align_down_spec pa (n + pa - 2 ^ 64) Hp ltac:(lia)) as (E & B).
    unfold align_down, uw, W in E. rewrite E in Hpos.
    rewrite Z.mod_small in Hpos by lia. lia.
Qed.

(** The invariant. *)
Record Inv (P : plat) (pa lo hi : Z) (s : stack) (w : world) : Prop := mkInv {
  I_lo : min_start s = lo;
  I_hi : end_ s = hi;
  I_st : lo <= start s <= hi;
  I_rg : 0 < lo /\ lo < hi < 2 ^ 64;
  I_al : P = Simple \/ (lo mod (pa + 1) = 0 /\ hi mod (pa + 1) = 0);
  I_rs : reserved w = Some (lo, hi - lo);
  I_acc : forall x, (match P with Win => align_down pa (start s) | _ => lo end) <= x < hi -> acc w x = true
}.

Lemma mod0_ge pa a b : 0 < pa + 1 -> a mod (pa + 1) = 0 -> a <= b -> a <= b - b mod (pa + 1).
Proof.
  intros Hp Ha Hab. pose proof (Z.div_mod a (pa + 1)). pose proof (Z.div_mod b (pa + 1)).
  assert (a / (pa + 1) <= b / (pa + 1)) by (apply Z.div_le_mono; lia).
  rewrite Ha in *. nia.
Qed.

Lemma align_mono pa a b : page_ok pa -> 0 <= a < 2 ^ 64 -> 0 <= b < 2 ^ 64 -> a <= b ->
  align_down pa a <= align_down pa b.
Proof.
  intros Hp Ha Hb Hab. destruct (align_down_spec pa a Hp Ha) as (->&?). destruct (align_down_spec pa b Hp Hb) as (->&?).
  pose proof (page_pos _ Hp).
  pose proof (Z.div_mod a (pa + 1)). pose proof (Z.div_mod b (pa + 1)).
  assert (a / (pa + 1) <= b / (pa + 1)) by (apply Z.div_le_mono; lia). nia.
Qed.

(** One resize. *)
Lemma resize_ok P pa lo hi s w n o r s' w' :
  page_ok pa -> Inv P pa lo hi s w -> 0 <= n < 2 ^ 64 ->
  stack_resize P pa w s n o = (r, s', w') ->
  Inv P pa lo hi s' w' /\
  (r = 0 /\ s' = s /\ w' = w \/
   r = n /\ lo <= n < hi /\ s' = mkStack (top s) (end_ s) n (min_start s)) /\
  ((lo <= n < hi) -> (P <> Win \/ os_page o = true) -> r = n) /\
  (forall x, ~ (lo <= x < Z.max (start s) (start s')) -> content w' x = content w x) /\
  (forall x, ~ (lo <= x < hi) -> acc w' x = acc w x).
Proof.
  intros Hp I Hn. destruct I as [L H S R A RS AC].
  pose proof (page_pos _ Hp) as PP.
  destruct (align_down_spec pa n Hp Hn) as (En & Bn).
  destruct (align_down_spec pa (start s) Hp ltac:(lia)) as (Eo & Bo).
  unfold stack_resize.
  destruct ((n <? min_start s) || (end_ s <=? n)) eqn:C.
  { intros [= <- <- <-]. split; [constructor; auto|]. split; [left; auto|]. split; [|split; auto].
    apply orb_true_iff in C. rewrite Z.ltb_lt, Z.leb_le in C. intros; lia. }
  apply orb_false_iff in C. rewrite Z.ltb_ge, Z.leb_gt in C.
  assert (Hmono1 : n <= start s -> align_down pa n <= align_down pa (start s)) by (intros; apply align_mono; auto; lia).
  assert (Hmono2 : start s <= n -> align_down pa (start s) <= align_down pa n) by (intros; apply align_mono; auto; lia).
  assert (Alo : P = Simple \/ (lo <= align_down pa n /\ lo <= align_down pa (start s) <= hi)).
  { destruct A as [?|(A1&A2)]; [auto|right]. rewrite En, Eo. split; [apply mod0_ge; lia|].
    split; [apply mod0_ge; lia|]. lia. }
  cbv zeta.
  destruct P.
  - intros [= <- <- <-]. split; [constructor; cbn; auto; lia|]. split; [right; split; [reflexivity|split; [lia|reflexivity]]|]. auto.
  - intros [= <- <- <-]. split; [constructor; cbn; auto; lia|]. split; [right; split; [reflexivity|split; [lia|reflexivity]]|]. auto.
  - destruct Alo as [|(Al1&Al2)]; [discriminate|].
    destruct (start s <? n) eqn:C1; [destruct (align_down pa (start s) <? align_down pa n) eqn:C2|];
      try (intros [= <- <- <-]; split; [constructor; cbn; auto; lia|]; split; [right; split; [reflexivity|split; [lia|reflexivity]]|]; solve [auto]).
    apply Z.ltb_lt in C1. apply Z.ltb_lt in C2.
    intros [= <- <- <-]. split; [constructor; cbn; auto; lia|]. split; [right; split; [reflexivity|split; [lia|reflexivity]]|].
    split; [auto|]. split; [|auto]. cbn. intros x Hx. rewrite inr_false; auto. lia.
  - destruct Alo as [|(Al1&Al2)]; [discriminate|].
    destruct (align_down pa n =? align_down pa (start s)) eqn:C0.
    { apply Z.eqb_eq in C0. intros [= <- <- <-]. split; [constructor; cbn; auto; try lia|].
      { intros x Hx. apply AC. lia. }
      split; [right; split; [reflexivity|split; [lia|reflexivity]]|]. auto. }
    apply Z.eqb_neq in C0.
    destruct (align_down pa n <? align_down pa (start s)) eqn:C1.
    + apply Z.ltb_lt in C1. destruct (os_page o) eqn:CO; intros [= <- <- <-].
      * split; [constructor; cbn; auto; try lia|].
        { intros x Hx. apply orb_true_iff. rewrite inr_iff.
          destruct (Z_lt_ge_dec x (align_down pa (start s))); [left; lia|right]. apply AC. lia. }
        split; [right; split; [reflexivity|split; [lia|reflexivity]]|]. split; [auto|]. cbn. split.
        { intros x Hx. destruct (inr (align_down pa n) (align_down pa (start s)) x) eqn:E; [|reflexivity].
          apply inr_iff in E. lia. }
        intros x Hx. rewrite inr_false by lia. reflexivity.
      * split; [constructor; auto|]. split; [left; auto|]. split; [intros _ [?|?]; [congruence|discriminate]|auto].
    + apply Z.ltb_ge in C1. destruct (os_page o) eqn:CO; intros [= <- <- <-].
      * split; [constructor; cbn; auto; try lia|].
        { intros x Hx. rewrite inr_false by lia. cbn. apply AC. lia. }
        split; [right; split; [reflexivity|split; [lia|reflexivity]]|]. split; [auto|]. cbn. split.
        { intros x Hx. rewrite inr_false; auto. lia. }
        intros x Hx. rewrite inr_false by lia. reflexivity.
      * split; [constructor; auto|]. split; [left; auto|]. split; [intros _ [?|?]; [congruence|discriminate]|auto].
Qed.

(** Allocation. *)
Lemma alloc_ok P pa w0 ss ms o :
  page_ok pa -> 0 <= ss < 2 ^ 64 -> 0 <= ms < 2 ^ 64 ->
  region_ok P pa (region_size P pa ms) (os_region o) ->
  exists res w, allocate_stack P pa w0 ss ms o = Some (res, w) /\
  match res with
  | None => forall x, (match os_region o with Some p => ~ (p <= x < p + region_size P pa ms) | None => True end) ->
                      content w x = content w0 x /\ acc w x = acc w0 x
  | Some s => exists p, os_region o = Some p /\
      Inv P pa p (p + region_size P pa ms) s w /\ top s = end_ s /\
      1 <= ss <= ms /\ start s = end_ s - ss /\ ms <= region_size P pa ms /\
      (forall x, ~ (p <= x < p + region_size P pa ms) -> content w x = content w0 x /\ acc w x = acc w0 x)
  end.
Proof.
  intros Hp Hss Hms HR. unfold allocate_stack.
  destruct ((ms <? ss) || (ss <? 1)) eqn:C; [exists None, w0; split; auto|].
  apply orb_false_iff in C. rewrite !Z.ltb_ge in C.
  destruct (os_struct o) eqn:CS; cbn [negb]; [|exists None, w0; split; auto].
  destruct (os_region o) as [p|] eqn:CR; [|exists None, w0; split; auto].
  destruct HR as (Hn & Hpp & Hpn & Hal).
  fold (region_size P pa ms).
  set (n := region_size P pa ms) in *.
  assert (Hmn : ms <= n /\ (P = Simple \/ n mod (pa + 1) = 0)).
  { unfold n, region_size in *. destruct P; [split; [lia|auto]| | |];
    (destruct (align_up_spec pa ms Hp Hms Hn); split; [assumption|right; assumption]). }
  clearbody n.
  assert (Ee : uw (p + n) = p + n) by (unfold uw, W; apply Z.mod_small; lia).
  assert (Es : uw (p + n - ss) = p + n - ss) by (unfold uw, W; apply Z.mod_small; lia).
  rewrite Ee, Es.
  pose proof (page_pos _ Hp) as PP.
  assert (Hal2 : P = Simple \/ p mod (pa + 1) = 0 /\ (p + n) mod (pa + 1) = 0).
  { destruct Hal as [?|Hal]; [auto|]. destruct Hmn as (?&[?|Hm]); [auto|]. right. split; auto.
    rewrite Zplus_mod, Hal, Hm. reflexivity. }
  destruct P.
  4: {
    assert (I0 : Inv Win pa p (p + n) (mkStack 0 (p + n) (p + n) p) (reserve w0 p n false (os_data o))).
    { constructor; cbn; auto; try lia.
      - f_equal; f_equal; lia.
      - intros x Hx. destruct Hal2 as [?|(A1&A2)]; [discriminate|].
        destruct (align_down_spec pa (p + n) Hp ltac:(lia)) as (E&_). rewrite E, A2 in Hx. lia. }
    destruct (stack_resize Win pa _ _ (p + n - ss) o) as [[r s'] w'] eqn:CRS.
    assert (Hb : 0 <= p + n - ss < 2 ^ 64) by lia.
    destruct (resize_ok _ _ _ _ _ _ _ _ _ _ _ Hp I0 Hb CRS) as (I1 & D & _ & F1 & F2).
    assert (EX : forall x, ~ (p <= x < p + n) -> content w' x = content w0 x /\ acc w' x = acc w0 x).
    { intros x Hx. split.
      - rewrite F1; [|cbn [start]; destruct I1; lia]. cbn. rewrite inr_false by lia. reflexivity.
      - rewrite F2 by lia. cbn. rewrite inr_false by lia. reflexivity. }
    destruct D as [(->&->&->)|(->&Hr&->)].
    - unfold free_stack, release. rewrite (I_rs _ _ _ _ _ _ I1). cbn. rewrite Z.eqb_refl. cbn.
      eexists None, _. split; [reflexivity|]. intros x Hx. cbn.
      replace (p + (p + n - p)) with (p + n) by lia.
      rewrite (inr_false p (p + n)) by lia. auto.
    - destruct (p + n - ss) eqn:CZ; try lia. rewrite <- CZ in *. cbn.
      eexists (Some _), _. split; [reflexivity|]. exists p. split; [reflexivity|].
      split; [|cbn; repeat split; try lia; apply EX; auto].
      destruct I1; constructor; cbn in *; auto. }
  all: eexists (Some _), _; split; [reflexivity|]; exists p; split; [reflexivity|]; cbn;
    (split; [constructor; cbn; auto; try lia; [f_equal; f_equal; lia|intros x Hx; rewrite (proj2 (inr_iff p (p + n) x)); auto; lia]|]);
    (repeat split; try lia; rewrite inr_false by lia; reflexivity).
Qed.

Lemma history_inv P pa lo hi s w : page_ok pa -> history P pa lo hi s w -> Inv P pa lo hi s w.
Proof.
  intros Hp H. induction H.
  - destruct (alloc_ok P pa w0 ss ms o Hp H H0 H2) as (res & w1 & E & G).
    rewrite E in H3. injection H3 as -> ->. destruct G as (p' & Ep & G & _). rewrite H1 in Ep.
    injection Ep as <-. exact G.
  - eapply resize_ok; eauto.
  - unfold write in H1. destruct (acc w a) eqn:E; [|discriminate]. injection H1 as <-.
    destruct IHhistory; constructor; auto.
  - destruct IHhistory; constructor; auto.
Qed.

Lemma free_ok P pa lo hi s w : page_ok pa -> history P pa lo hi s w ->
  exists w', free_stack P w s = Some w' /\ content w' = content w /\
  (forall x, lo <= x < hi -> acc w' x = false) /\
  (forall x, ~ (lo <= x < hi) -> acc w' x = acc w x).
Proof.
  intros Hp H. apply history_inv in H; auto. destruct H as [L E S R A RS AC].
  assert (Eu : uw (end_ s - min_start s) = hi - lo) by (unfold uw, W; rewrite Z.mod_small; lia).
  unfold free_stack, release. rewrite Eu, RS, L, !Z.eqb_refl. cbn.
  destruct P; (eexists; split; [reflexivity|]; cbn; split; [reflexivity|]; replace (lo + (hi - lo)) with hi by lia;
    split; intros x Hx; [rewrite (proj2 (inr_iff lo hi x)) by lia; reflexivity | rewrite inr_false by lia; reflexivity]).
Qed.

(** Summary for the property file. *)
Lemma history_bounds P pa lo hi s w : page_ok pa -> history P pa lo hi s w ->
  min_start s = lo /\ end_ s = hi /\ lo <= start s < hi.
Proof.
  intros Hp H. assert (Hs : start s < end_ s).
  { induction H.
    - destruct (alloc_ok P pa w0 ss ms o Hp H H0 H2) as (res & w1 & E & G).
      rewrite E in H3. injection H3 as -> ->. destruct G as (p' & Ep & G & _ & G1 & G2 & _). lia.
    - destruct (resize_ok _ _ _ _ _ _ _ _ _ _ _ Hp (history_inv _ _ _ _ _ _ Hp H) H0 H1) as (I1 & D & _).
      destruct D as [(_&->&_)|(_&?&->)]; auto. destruct I1. cbn in *. lia.
    - auto.
    - auto. }
  apply history_inv in H; auto. destruct H. lia.
Qed.

Lemma history_access P pa lo hi s w x : page_ok pa -> history P pa lo hi s w ->
  start s <= x < end_ s -> acc w x = true.
Proof.
  intros Hp H Hx. apply history_inv in H; auto. destruct H as [L E S R A RS AC]. apply AC.
  destruct (align_down_spec pa (start s) Hp ltac:(lia)) as (E1&E2). destruct P; lia.
Qed.

Lemma history_resize P pa lo hi s w n o r s' w' : page_ok pa -> history P pa lo hi s w ->
  0 <= n < 2 ^ 64 -> stack_resize P pa w s n o = (r, s', w') ->
  (r = 0 /\ s' = s /\ w' = w \/
   r = n /\ lo <= n < hi /\ s' = mkStack (top s) (end_ s) n (min_start s)) /\
  (lo <= n < hi -> P <> Win \/ os_page o = true -> r = n /\ r <> 0).
Proof.
  intros Hp H Hn E. apply history_inv in H; auto. pose proof (I_rg _ _ _ _ _ _ H).
  destruct (resize_ok _ _ _ _ _ _ _ _ _ _ _ Hp H Hn E) as (_ & ? & G & _). split; auto.
  intros A B. specialize (G A B). lia.
Qed.

Lemma history_content P pa lo hi s w n o r s' w' x : page_ok pa -> history P pa lo hi s w ->
  0 <= n < 2 ^ 64 -> stack_resize P pa w s n o = (r, s', w') ->
  start s <= x < end_ s -> start s' <= x < end_ s' ->
  content w' x = content w x.
Proof.
  intros Hp H Hn E Hx Hx'. apply history_inv in H; auto.
  destruct (resize_ok _ _ _ _ _ _ _ _ _ _ _ Hp H Hn E) as (_ & _ & _ & G & _). apply G. lia.
Qed.

Lemma history_outside P pa lo hi s w n o r s' w' x : page_ok pa -> history P pa lo hi s w ->
  0 <= n < 2 ^ 64 -> stack_resize P pa w s n o = (r, s', w') ->
  ~ (lo <= x < hi) -> content w' x = content w x /\ acc w' x = acc w x.
Proof.
  intros Hp H Hn E Hx. apply history_inv in H; auto.
  destruct (resize_ok _ _ _ _ _ _ _ _ _ _ _ Hp H Hn E) as (I1 & _ & _ & G & G2).
  split; [apply G|apply G2; auto]. destruct H, I1. lia.
Qed.

Lemma alloc_summary P pa w0 ss ms o :
  page_ok pa -> 0 <= ss < 2 ^ 64 -> 0 <= ms < 2 ^ 64 ->
  region_ok P pa (region_size P pa ms) (os_region o) ->
  exists res w, allocate_stack P pa w0 ss ms o = Some (res, w) /\
  match res with
  | None => forall x, (match os_region o with Some p => ~ (p <= x < p + region_size P pa ms) | None => True end) ->
                      content w x = content w0 x /\ acc w x = acc w0 x
  | Some s => 1 <= ss <= ms /\ start s = end_ s - ss /\ ms <= end_ s - min_start s /\ top s = end_ s /\
              (forall x, ~ (min_start s <= x < end_ s) -> content w x = content w0 x /\ acc w x = acc w0 x)
  end.
Proof.
  intros H1 H2 H3 H4. destruct (alloc_ok P pa w0 ss ms o H1 H2 H3 H4) as (res & w & E & G).
  exists res, w. split; auto. destruct res; auto.
  destruct G as (p & Ep & I & ? & ? & ? & ? & G). destruct I.
  split; [lia|]. split; [lia|]. split; [lia|]. split; [lia|].
  intros x Hx. apply G. lia.
Qed.
