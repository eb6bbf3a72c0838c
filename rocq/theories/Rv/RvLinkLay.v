(** Where everything is after the copy loop of sljit_generate_code. *)
Require Import ZArith List Bool Lia Zify ZifyBool.
From Verif Require Import Rv.RvLib Rv.RvBits Rv.RvIsa Rv.RvEnc Rv.RvImm Rv.RvAddr Rv.RvLink Rv.RvLinkOps Rv.RvLinkReduce Rv.RvLinkEst Rv.RvLinkGen Rv.RvLinkPick Rv.RvLinkFit.
Import ListNotations.
Open Scope Z_scope.
Ltac Zify.zify_post_hook ::= Z.div_mod_to_equations.

Lemma land_lnot x m : x .& Z.lnot m = x - x .& m.
Proof.
  rewrite (Z.sub_nocarry_ldiff x (x .& m)).
  - apply Z.bits_inj'. intros i Hi. rewrite Z.land_spec, Z.lnot_spec, Z.ldiff_spec, Z.land_spec by auto. destruct (Z.testbit x i), (Z.testbit m i); reflexivity.
  - apply Z.bits_inj'. intros i Hi. rewrite Z.ldiff_spec, Z.land_spec, Z.bits_0. destruct (Z.testbit x i), (Z.testbit m i); reflexivity.
Qed.
Lemma land_le x m : 0 <= m -> 0 <= x .& m <= m.
Proof.
  intros H. split. { apply Z.land_nonneg. auto. }
  assert (E : m - (x .& m) = Z.ldiff m (x .& m)).
  { apply Z.sub_nocarry_ldiff. apply Z.bits_inj'. intros i Hi. rewrite Z.ldiff_spec, Z.land_spec, Z.bits_0. destruct (Z.testbit x i), (Z.testbit m i); reflexivity. }
  assert (0 <= Z.ldiff m (x .& m)) by (apply Z.ldiff_nonneg; auto). lia.
Qed.
Lemma land_even x m : m mod 2 = 0 -> (x .& m) mod 2 = 0.
Proof.
  intros H. change 2 with (2 ^ 1) in *. rewrite <- Z.land_ones in * by lia. rewrite <- Z.land_assoc, H. apply Z.land_0_r.
Qed.
Lemma ext_align code q mask : code mod 2 = 0 -> 0 <= mask -> mask mod 2 = 0 ->
  let a := process_extended_label code q mask in q - mask / 2 <= a <= q /\ (code + 2 * a) .& mask = 0.
Proof.
  intros Hc Hm He. unfold process_extended_label. rewrite land_lnot. cbv zeta.
  pose proof (land_le (code + 2 * q) mask Hm). pose proof (land_even (code + 2 * q) mask He). set (x := (code + 2 * q) .& mask) in *.
  split; [lia|]. replace (code + 2 * ((code + 2 * q - x - code) / 2)) with (code + 2 * q - x) by lia.
  unfold x. rewrite <- land_lnot, <- Z.land_assoc. replace (Z.lnot mask .& mask) with 0; [apply Z.land_0_r|].
  symmetry. rewrite Z.land_comm. apply Z.land_lnot_diag.
Qed.

Section L.
Variables (cf : cfg) (code eo size : Z).

(** Where an emitted entity is: from unit [r] to [r2]; [n] is the number of labels before, [FL] the positions of
    all labels, [js] and [cs] the jump and constant records it leads to. *)
Definition item (m : Z -> Z) (FL : list Z) (n : nat) (r : Z) (o : op) (r2 : Z) (js : list jump) (cs : list Z) : Prop :=
  match o with
  | OUnit w => m r = u16 w /\ r2 = r + 1 /\ js = [] /\ cs = []
  | OConst w => m r = u16 w /\ r2 = r + 1 /\ js = [] /\ cs = [r]
  | OLab => r2 = r /\ nth n FL 0 = r /\ js = [] /\ cs = []
  | OAlign nops mask => r <= r2 <= r + Z.of_nat (length nops) /\ atm m r (map u16 (firstn (Z.to_nat (r2 - r)) nops)) /\
      nth n FL 0 = r2 /\ ((code + 2 * r2) .& mask = 0 /\ r2 = process_extended_label code (r + Z.of_nat (length nops)) mask) /\ js = [] /\ cs = []
  | OJmp k j => exists p, js = [set_jpatch (set_jaddr_sz j (paddr k p r) (jsz j)) (paddr k p r) p] /\ cs = [] /\ r2 = r + klen k + dsz p k /\ atm m r (kfix k p) /\ kp_ok k p /\
      jfit (jisaddr j) k p (sw (tgt_of code eo FL j - (code + 2 * (r + klen k) + eo))) (tgt_of code eo FL j) /\
      (jrewr j = true -> p = PNone) /\ (jcall j = true -> p <> PJ16) /\ (p = PJ16 -> cC cf = true)
  | OMov reg j => exists p, js = [set_jpatch (set_jaddr_sz j r (jsz j)) r p] /\ cs = [] /\ r2 = r + plen p /\ m r = u16 reg /\ movp p /\
      jfit (jisaddr j) NoCond p (sw (tgt_of code eo FL j - (code + 2 * r + eo))) (tgt_of code eo FL j)
  end.
Fixpoint lay (m : Z -> Z) (FL : list Z) (n : nat) (r : Z) (ops : list op) (r2 : Z) (js : list jump) (cs : list Z) : Prop :=
  match ops with
  | [] => r2 = r /\ js = [] /\ cs = []
  | o :: ops => exists r1 js1 js2 cs1 cs2, item m FL n r o r1 js1 cs1 /\ lay m FL (n + nlab o) r1 ops r2 js2 cs2 /\ js = js1 ++ js2 /\ cs = cs1 ++ cs2
  end.
Lemma item_mono m FL n r o r2 js cs : item m FL n r o r2 js cs -> r <= r2.
Proof.
  destruct o; cbn [item]; intros; try lia.
  - destruct H as (p & _ & _ & -> & _). pose proof (klen_pos k). pose proof (dsz_range p k). lia.
  - destruct H as (p & _ & _ & -> & _). destruct p; cbn; lia.
Qed.
Lemma lay_mono m FL ops : forall n r r2 js cs, lay m FL n r ops r2 js cs -> r <= r2.
Proof.
  induction ops as [|o ops IH]; intros n r r2 js cs H; cbn [lay] in H; [lia|].
  destruct H as (r1 & js1 & js2 & cs1 & cs2 & I & L & _). apply item_mono in I. apply IH in L. lia.
Qed.

(** A zero size jump is not the last thing. *)
Definition zero_jump (o : op) : Prop := match o with OJmp _ j => jsz j = 0 | _ => False end.
Fixpoint tail_ok (ops : list op) : Prop :=
  match ops with [] => True | o :: ops => (zero_jump o -> 1 <= total ops) /\ tail_ok ops end.

(** Whether a label is the last thing ([b]: before [ops]). *)
Definition is_label (o : op) : bool := match o with OLab | OAlign _ _ => true | _ => false end.
Fixpoint ends_label (b : bool) (ops : list op) : bool := match ops with [] => b | o :: ops => ends_label (is_label o) ops end.
Lemma ends_label_app a : forall b c, ends_label c (a ++ b) = ends_label (ends_label c a) b.
Proof. induction a; intros; cbn [app ends_label]; auto. Qed.
Lemma ends_label_mono ops b : ends_label false ops = true -> ends_label b ops = true.
Proof. destruct ops; cbn [ends_label]; [discriminate|auto]. Qed.

Variable EL : list Z.
Hypothesis HM : size < MAX_ADDRESS.

Notation start := (start code).
Notation rlab := (rlab code eo).
Notation gen_unit := (gen_unit cf code eo size).
Definition np (pend : option (option Z)) : nat := if isp pend then 1%nat else 0%nat.

Lemma eok_size n E o b ops : eok_op cf EL n E o -> okl b (o :: ops) -> o <> OLab -> 1 <= osize o.
Proof.
  intros (W & E0) Hl No. destruct o; cbn [osize okl] in *; try lia; try congruence.
  - destruct nops; [tauto|]. cbn [length]. lia.
  - cbn [wf_op] in W. destruct W as ((W1 & W2) & W3 & W4 & W5 & W6).
    destruct (jrewr j). { pose proof (klen_pos k). lia. }
    destruct (jisaddr j). { pose proof (klen_pos k). revert E0. ifs; lia. }
    destruct E0 as (d & -> & D). destruct k; cbn [klen]; pose proof (jest_range cf j d); try lia.
    unfold jest. rewrite W2, W3. rewrite andb_false_r. cbn [andb]. rewrite andb_false_r. cbn [andb]. unfold JUMP_MAX_SIZE. ifs; lia.
  - destruct (jisaddr j). { revert E0. ifs; lia. } destruct E0 as (d & -> & D). unfold mest. ifs; lia.
Qed.
Lemma eok_pos_op n E o : eok_op cf EL n E o -> pos_op o.
Proof.
  intros (W & E0). destruct o; cbn [pos_op]; auto.
  - destruct (jrewr j); [lia|]. destruct (jisaddr j). { revert E0. ifs; lia. } destruct E0 as (d & -> & D). apply jest_range.
  - destruct (jisaddr j). { revert E0. ifs; lia. } destruct E0 as (d & -> & D). unfold mest. ifs; lia.
Qed.
Lemma eok_pos ops : forall n E, eok cf EL n E ops -> Forall pos_op ops.
Proof. induction ops as [|o ops IH]; intros n E H; constructor; cbn [eok] in H. eapply eok_pos_op. apply H. eapply IH. apply H. Qed.
(** Labels after a position that no label directly follows. *)
Lemma labs_after n E ops b : eok cf EL n E ops -> okl b ops -> (match ops with OLab :: _ => False | _ => True end) ->
  forall l, In l (labs E ops) -> E < lsize l.
Proof.
  intros H Hl Ho l I. destruct ops as [|o ops]; [destruct I|]. cbn [eok] in H. destruct H as (He & Ht).
  assert (N : o <> OLab) by (destruct o; congruence || tauto). pose proof (eok_size n E o b ops He Hl N).
  cbn [labs] in I. apply in_app_or in I. destruct I as [I|I].
  - destruct o; cbn [olab In] in I; try tauto. destruct I as [<-|[]]. cbn [lsize osize] in *. lia.
  - apply labs_bounds in I; [|eapply eok_pos; eauto]. lia.
Qed.
Lemma next_after n E ops b : E + total ops <= size -> eok cf EL n E ops -> okl b ops -> (match ops with OLab :: _ => False | _ => True end) ->
  E < next_size (labs E ops) 0.
Proof.
  intros S H Hl Ho. pose proof (total_pos ops (eok_pos _ _ _ H)).
  unfold next_size. destruct (nth_error (labs E ops) 0) eqn:X; [|lia]. apply nth_error_In in X. eapply labs_after; eauto.
Qed.

Definition real (l : label) : Prop := laddr l = wrap (code + 2 * lsize l + eo).
(** What the loop over the units of [ops] leads to. *)
Definition post (pend : option (option Z)) (m : cmem) (q E : Z) (ld : list label) (jd : list jump) (cd : list Z) (ops : list op) (s' : gst) : Prop :=
  exists m' q' pend' rl js cs,
   s' = gs m' q' (E + total ops) ((ld ++ rl) ++ plab pend' (E + total ops)) (length (ld ++ rl)) (rev js ++ jd) [] (rev cs ++ cd) [] /\
   let FL := map lsize (ld ++ rl) ++ (if isp pend' then [start pend' q'] else []) in
   length FL = length EL /\ (isp pend = true -> nth (length ld) FL 0 = start pend q) /\
   lay (munit m') FL (length ld + np pend) (start pend q) ops (start pend' q') js cs /\
   Forall real rl /\
   (forall i, i < start pend q -> munit m' i = munit m i) /\
   (forall i, (length ld <= i < length EL)%nat -> start pend q <= nth i FL 0 <= start pend q + (nth i EL 0 - E)) /\
   start pend' q' <= start pend q + total ops /\ q' <= E + total ops /\
   (mok m = true -> tail_ok ops -> mok m' = true) /\ (isp pend' = true -> ends_label (isp pend) ops = true).

Fixpoint nlabs (ops : list op) : nat := match ops with [] => 0%nat | o :: ops => (nlab o + nlabs ops)%nat end.
Lemma lay_app m FL os : forall ops n r r1 r2 js1 js2 cs1 cs2, lay m FL n r os r1 js1 cs1 -> lay m FL (n + nlabs os) r1 ops r2 js2 cs2 ->
  lay m FL n r (os ++ ops) r2 (js1 ++ js2) (cs1 ++ cs2).
Proof.
  induction os as [|o os IH]; intros ops n r r1 r2 js1 js2 cs1 cs2 L1 L2.
  - cbn [lay] in L1. destruct L1 as (-> & -> & ->). cbn [app nlabs] in *. rewrite Nat.add_0_r in L2. exact L2.
  - cbn [lay app nlabs] in *. destruct L1 as (r3 & a & b & c & d & I & L & -> & ->).
    exists r3, a, (b ++ js2), c, (d ++ cs2). rewrite !app_assoc. repeat (split; auto). eapply IH; eauto. rewrite <- Nat.add_assoc. exact L2.
Qed.
Lemma total_app a b : total (a ++ b) = total a + total b.
Proof. induction a; cbn [app total]; lia. Qed.
Lemma tail_ok_app a b : tail_ok (a ++ b) -> tail_ok b.
Proof. induction a; cbn [app tail_ok]; tauto. Qed.

Lemma post_prefix pend m q E ld jd cd os ops s' pend2 m1 q1 rls js1 cs1 :
  post pend2 m1 q1 (E + total os) (ld ++ rls) (rev js1 ++ jd) (rev cs1 ++ cd) ops s' ->
  start pend q <= start pend2 q1 <= start pend q + total os ->
  (forall i, i < start pend q -> munit m1 i = munit m i) ->
  Forall real rls ->
  (length (ld ++ rls) + np pend2 = length ld + np pend + nlabs os)%nat ->
  (isp pend = true -> exists x tl, rls = x :: tl /\ lsize x = start pend q) ->
  (forall i, (length ld <= i < length (ld ++ rls))%nat -> start pend q <= nth i (map lsize (ld ++ rls)) 0 <= start pend q + (nth i EL 0 - E)) ->
  (forall m' FL, (forall i, i < start pend2 q1 -> m' i = munit m1 i) ->
     (forall i, (i < length (ld ++ rls))%nat -> nth i FL 0 = nth i (map lsize (ld ++ rls)) 0) ->
     (isp pend2 = true -> nth (length (ld ++ rls)) FL 0 = start pend2 q1) ->
     (forall i, (length (ld ++ rls) <= i < length EL)%nat -> start pend2 q1 <= nth i FL 0 <= start pend2 q1 + (nth i EL 0 - (E + total os))) ->
     lay m' FL (length ld + np pend) (start pend q) os (start pend2 q1) js1 cs1) ->
  (mok m = true -> tail_ok (os ++ ops) -> mok m1 = true) ->
  (isp pend2 = true -> ends_label (isp pend) os = true) ->
  post pend m q E ld jd cd (os ++ ops) s'.
Proof.
  intros (m' & q' & pend' & rl & js & cs & S & P1 & P2 & P3 & P4 & P5 & P6 & P7 & P8 & P9 & P10) Hb Hm Hr Hn Hp Hl Hi Ho He.
  exists m', q', pend', (rls ++ rl), (js1 ++ js), (cs1 ++ cs). cbv zeta in *.
  rewrite (app_assoc ld rls rl). set (FL := map lsize ((ld ++ rls) ++ rl) ++ (if isp pend' then [start pend' q'] else [])) in *.
  assert (FD : forall i, (i < length (ld ++ rls))%nat -> nth i FL 0 = nth i (map lsize (ld ++ rls)) 0).
  { intros i L. unfold FL. rewrite map_app, <- app_assoc. apply app_nth1. rewrite map_length. auto. }
  split; [|split; [|split; [|split; [|split; [|split; [|split; [|split; [|split; [|split]]]]]]]]].
  - rewrite S. rewrite total_app, !rev_app_distr, <- !app_assoc. f_equal; try lia. f_equal. f_equal. f_equal. f_equal. lia.
  - exact P1.
  - intros X. destruct (Hp X) as (x & tl & -> & Y). rewrite FD by (rewrite app_length; cbn [length]; lia).
    rewrite map_app, app_nth2 by (rewrite map_length; lia). rewrite map_length, Nat.sub_diag. exact Y.
  - eapply lay_app; [apply Hi; auto|]. rewrite <- Hn. exact P3.
  - apply Forall_app. auto.
  - intros. rewrite P5 by lia. auto.
  - intros i L. destruct (Nat.lt_ge_cases i (length (ld ++ rls))) as [X|X].
    + rewrite FD by auto. apply Hl. lia.
    + specialize (P6 i ltac:(lia)). lia.
  - rewrite total_app. lia.
  - rewrite total_app. lia.
  - intros M T. apply P9; [apply Ho; auto|]. eapply tail_ok_app; eauto.
  - intros X. rewrite ends_label_app. specialize (P10 X). destruct (isp pend2); [rewrite He; auto|]. apply ends_label_mono; auto.
Qed.

Lemma nth_mid_lsize (ld : list label) x tl : nth (length ld) (map lsize (ld ++ x :: tl)) 0 = lsize x.
Proof. rewrite map_app, app_nth2 by (rewrite map_length; lia). rewrite map_length, Nat.sub_diag. reflexivity. Qed.

Notation dn := (dn EL).

Lemma skip_nth {A} (l : list A) k i x tl d : skipn k l = x :: tl -> i = k -> nth i l d = x.
Proof. intros H ->. rewrite <- (Nat.add_0_r k), <- nth_skipn, H. reflexivity. Qed.
Lemma EL_len (ld : list label) pend E ops : skipn (length ld) EL = map lsize (plab pend E ++ labs E ops) -> (length ld <= length EL)%nat ->
  length EL = (length ld + np pend + length (labs E ops))%nat.
Proof.
  intros H L. apply (f_equal (@length Z)) in H. rewrite skipn_length, map_length, app_length in H. unfold np. destruct pend; cbn [plab isp length] in *; lia.
Qed.
Lemma dn_step ld base E base2 E2 : dn ld base E -> base <= base2 -> base2 - base <= E2 - E -> dn ld base2 E2.
Proof. intros D H1 H3 i Hi. specialize (D i Hi). lia. Qed.
Lemma dn_snoc ld x base E : dn ld base E -> lsize x = base -> nth (length ld) EL 0 = E -> dn (ld ++ [x]) base E.
Proof.
  intros D Hx He i Hi. rewrite app_length in Hi. cbn [length] in Hi. destruct (Nat.eq_dec i (length ld)) as [->|N].
  - rewrite nth_mid_lsize. lia.
  - rewrite map_app, app_nth1 by (rewrite map_length; lia). apply D. lia.
Qed.
Lemma dn_rlab (ld : list label) pend q E rest : dn ld (start pend q) E -> skipn (length ld) EL = map lsize (plab pend E ++ rest) -> dn (ld ++ rlab pend (start pend q)) (start pend q) E.
Proof.
  intros D H. destruct pend as [mk|]; cbn [RvLinkGen.rlab].
  - apply dn_snoc; auto. cbn [plab app map] in H. eapply skip_nth; eauto.
  - rewrite app_nil_r. auto.
Qed.

Lemma skipn_rlab (ld : list label) pend a E rest : skipn (length ld) EL = map lsize (plab pend E ++ rest) -> skipn (length (ld ++ rlab pend a)) EL = map lsize rest.
Proof.
  intros H. rewrite app_length. destruct pend as [mk|]; cbn [RvLinkGen.rlab plab app length map] in *.
  - eapply (skipn_pend lsize ld (mkLabel E mk 0)). exact H.
  - rewrite Nat.add_0_r. exact H.
Qed.
Lemma rlab_len pend a : length (rlab pend a) = np pend. Proof. destruct pend; reflexivity. Qed.
Lemma rlab_real pend a : Forall real (rlab pend a). Proof. destruct pend; repeat constructor. Qed.
Lemma rlab_first pend a : isp pend = true -> exists x tl, rlab pend a = x :: tl /\ lsize x = a.
Proof. destruct pend; [|discriminate]. intros _. eexists _, _. split; reflexivity. Qed.
Lemma rlab_range ld pend q E rest : skipn (length ld) EL = map lsize (plab pend E ++ rest) ->
  forall i, (length ld <= i < length (ld ++ rlab pend (start pend q)))%nat ->
  start pend q <= nth i (map lsize (ld ++ rlab pend (start pend q))) 0 <= start pend q + (nth i EL 0 - E).
Proof.
  intros H i Hi. rewrite app_length, rlab_len in Hi. destruct pend as [mk|]; cbn [np isp RvLinkGen.rlab] in *; [|lia].
  assert (i = length ld) as -> by lia. rewrite nth_mid_lsize. cbn [lsize]. cbn [plab app map] in H. rewrite (skip_nth _ _ _ _ _ 0 H eq_refl). cbn [lsize]. lia.
Qed.
End L.
