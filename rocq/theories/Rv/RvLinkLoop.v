(** The copy loop leads to [post]. *)
Require Import ZArith List Bool Lia Zify ZifyBool.
From Verif Require Import Rv.RvLib Rv.RvBits Rv.RvIsa Rv.RvEnc Rv.RvImm Rv.RvAddr Rv.RvLink Rv.RvLinkOps Rv.RvLinkReduce Rv.RvLinkEst Rv.RvLinkGen Rv.RvLinkPick Rv.RvLinkFit Rv.RvLinkLay.
Import ListNotations.
Open Scope Z_scope.

Section L.
Variables (cf : cfg) (code eo size : Z) (EL : list Z).
Hypothesis H2 : code mod 2 = 0.
Hypothesis HC : 0 <= code + eo.
Hypothesis HS : code + eo + 2 * size < 2 ^ 63.
Hypothesis HM : size < MAX_ADDRESS.
Notation start := (start code).
Notation rlab := (rlab code eo).
Notation gen_unit := (gen_unit cf code eo size).
Notation post := (post cf code eo EL).
Notation dn := (dn EL).

Record pre (pend : option (option Z)) (q E : Z) (ld : list label) (ops : list op) : Prop := {
  p_okl : okl (isp pend) ops;
  p_eok : eok cf EL (length ld + np pend) E ops;
  p_size : E + total ops <= size;
  p_skip : skipn (length ld) EL = map lsize (plab pend E ++ labs E ops);
  p_len : (length ld <= length EL)%nat;
  p_dn : dn ld (start pend q) E;
  p_start : 0 <= start pend q <= q;
  p_q : q <= E;
  p_ld : forall i, (i < length ld)%nat -> 0 <= nth i (map lsize ld) 0 }.

Definition st (pend : option (option Z)) m q E (ld : list label) jd cd (ops : list op) : gst :=
  gs m q E (ld ++ plab pend E ++ labs E ops) (length ld) jd (jmps (fun x => x) E ops) cd (csts E ops).

(** The next label, jump and constant records behind an operation. *)
Lemma nexts n E ops : eok cf EL n E ops -> E + total ops <= size ->
  E <= next_jaddr (jmps (fun x => x) E ops) /\ E <= next_caddr (csts E ops) /\ E <= next_size (labs E ops) 0.
Proof.
  intros H S. apply eok_pos in H. split; [|split]; [apply jmps_next|apply csts_next|apply labs_next]; auto; lia.
Qed.
Lemma EL_after (ld : list label) pend E ops : skipn (length ld) EL = map lsize (plab pend E ++ labs E ops) -> forall n b, eok cf EL n E ops -> okl b ops ->
  (match ops with OLab :: _ => False | _ => True end) -> E + total ops <= size ->
  forall i, (length ld + np pend <= i < length EL)%nat -> E < nth i EL 0 <= size.
Proof.
  intros H n b He Hl Ho S i Hi.
  assert (X : nth i EL 0 = nth (i - (length ld + np pend)) (map lsize (labs E ops)) 0).
  { pose proof (skipn_rlab code eo EL ld pend 0 E _ H) as K. rewrite app_length, rlab_len in K. rewrite <- K, nth_skipn. f_equal. lia. }
  assert (I : In (nth i EL 0) (map lsize (labs E ops))).
  { rewrite X. apply nth_In. assert (L : length EL = (length ld + np pend + length (labs E ops))%nat).
    { apply (EL_len EL ld pend E ops H). lia. } rewrite map_length. lia. }
  apply in_map_iff in I. destruct I as (l & <- & I). split.
  - eapply labs_after; eauto.
  - apply labs_bounds in I; [lia|]. eapply eok_pos; eauto.
Qed.
Lemma EL_next (ld : list label) pend E ops : skipn (length ld) EL = map lsize (plab pend E ++ labs E ops) -> forall n, eok cf EL n E ops ->
  E + total ops <= size -> forall i, (length ld + np pend <= i < length EL)%nat -> E <= nth i EL 0 <= size.
Proof.
  intros H n He S i Hi.
  assert (X : nth i EL 0 = nth (i - (length ld + np pend)) (map lsize (labs E ops)) 0).
  { pose proof (skipn_rlab code eo EL ld pend 0 E _ H) as K. rewrite app_length, rlab_len in K. rewrite <- K, nth_skipn. f_equal. lia. }
  assert (I : In (nth i EL 0) (map lsize (labs E ops))).
  { rewrite X. apply nth_In. assert (L : length EL = (length ld + np pend + length (labs E ops))%nat).
    { apply (EL_len EL ld pend E ops H). lia. } rewrite map_length. lia. }
  apply in_map_iff in I. destruct I as (l & <- & I). 
  apply labs_bounds in I; [lia|]. eapply eok_pos; eauto.
Qed.

Lemma nonneg_rlab ld pend q : 0 <= start pend q -> (forall i, (i < length ld)%nat -> 0 <= nth i (map lsize ld) 0) ->
  forall i, (i < length (ld ++ rlab pend (start pend q)))%nat -> 0 <= nth i (map lsize (ld ++ rlab pend (start pend q))) 0.
Proof.
  intros H P i Hi. rewrite app_length, rlab_len in Hi. destruct (Nat.lt_ge_cases i (length ld)).
  - rewrite map_app, app_nth1 by (rewrite map_length; auto). auto.
  - destruct pend; cbn [np isp RvLinkGen.rlab] in *; [|lia]. assert (i = length ld) as -> by lia. rewrite nth_mid_lsize. exact H.
Qed.

(** The state before the rest of the operations. *)
Lemma pre_next pend q E ld o ops base d :
  pre pend q E ld (o :: ops) -> nlab o = 0%nat -> labs E (o :: ops) = labs (E + osize o) ops -> okl false ops -> 0 <= d <= osize o -> base = start pend q + d ->
  pre None base (E + osize o) (ld ++ rlab pend (start pend q)) ops.
Proof.
  intros [A B C D F G H I J] Hn Hl Ho Hd ->. cbn [eok] in B. destruct B as (B1 & B2). cbn [total] in C. rewrite Hl in D.

  constructor.
  - exact Ho.
  - rewrite app_length, rlab_len. cbn [np isp]. rewrite Hn in B2. exact B2.
  - lia.
  - cbn [plab app]. eapply skipn_rlab. exact D.
  - rewrite app_length, rlab_len. pose proof (EL_len EL ld pend E (o :: ops)) as X. rewrite Hl in X. rewrite X; auto. lia.
  - cbn [RvLinkGen.start]. eapply dn_step; [eapply dn_rlab; eauto|lia|lia].
  - cbn [RvLinkGen.start]. lia.
  - lia.
  - apply nonneg_rlab; auto. lia.
Qed.

(** The units of a jump. *)
Lemma jump_units k j m q E ld pend pz rest jd jr cd cr :
  start pend q <= q -> jmov j = false -> jaddr j = E + klen k -> (k = NoCond -> pz = None) -> (pz = None \/ pz = Some None) ->
  E + klen k <= next_caddr cr -> E + klen k < next_size rest 0 ->
  let r := start pend q in
  let L := (ld ++ rlab pend r) ++ rlab pz (r + klen k) in
  exists m2,
    fold_left gen_unit (kunits k ++ [0]) (gs m q E (ld ++ plab pend E ++ plab pz (E + klen k) ++ rest) (length ld) jd (j :: jr) cd cr) =
    (let '(j', m', cp') := detect_jump_type cf code eo size (L ++ rest) j m2 (r + klen k) in
     gs m' (cp' + 1) (E + klen k + jsz j) (L ++ rest) (length L) (j' :: jd) jr cd cr) /\
    atm (munit m2) r (map u16 (kunits k)) /\ (forall i, i < r -> munit m2 i = munit m i) /\
    (mok m = true -> 0 <= r -> q + klen k < size -> mok m2 = true).
Proof.
  intros Hs Hm Ha Hk Hz Hc Hr r L. rewrite fold_left_app. cbn [fold_left].
  destruct (kunits k) as [|w ws] eqn:KU.
  - assert (k = NoCond) as -> by (destruct k; cbn in KU; congruence). specialize (Hk eq_refl). subst pz.
    cbn [klen] in *. rewrite Z.add_0_r in *. cbn [plab app fold_left].
    rewrite gen_unit_jump; auto. exists (memw code size m q 0 pend). unfold L, r. cbn [RvLinkGen.rlab]. rewrite app_nil_r, ?Z.add_0_r. split; [reflexivity|].
    split; [apply atm_nil|]. split; [intros; apply memw_below; auto|]. intros. apply memw_ok; auto; lia.
  - assert (KL : klen k = Z.of_nat (length (w :: ws))) by (rewrite <- KU; destruct k; reflexivity). rewrite <- KU in *.
    assert (NP : E + klen k <= next_size (plab pz (E + klen k) ++ rest) 0).
    { destruct pz; cbn [plab app]; [cbn; lia|lia]. }
    destruct (gen_units_plain cf code eo size (kunits k) m q E ld pend (plab pz (E + klen k) ++ rest) jd (j :: jr) cd cr) as (m1 & F & A & B & O).
    { rewrite KU. congruence. } { exact Hs. } { cbn [next_jaddr]. lia. } { lia. } { lia. }
    rewrite <- KL in *. fold r in F, A, B, O. rewrite F.
    rewrite gen_unit_jump; auto.
    assert (SZ : forall x, start pz x = x) by (intros; destruct Hz as [-> | ->]; reflexivity). rewrite !SZ.
    exists (memw code size m1 (r + klen k) 0 pz). split; [reflexivity|].
    assert (MW : memw code size m1 (r + klen k) 0 pz = put size m1 (r + klen k) 0) by (destruct Hz as [-> | ->]; reflexivity). rewrite MW.
    pose proof (klen_pos k).
    split; [|split].
    + eapply atm_ext; [|exact A]. intros i Hi. rewrite map_length in Hi. apply put_other. lia.
    + intros i Hi. rewrite put_other by lia. auto.
    + intros. apply put_ok; [apply O; auto; lia|]. subst r. lia.
Qed.

Lemma closer_refl a : closer a a. Proof. unfold closer. lia. Qed.

(** The form chosen for a jump. *)
Lemma jump_pick k j ld rest n E cp :
  eok_op cf EL n E (OJmp k j) ->
  let A := E + klen k in let j1 := set_jaddr_sz j A (jsz j) in
  map lsize rest = skipn (length ld) EL -> (n <= length ld)%nat -> dn ld cp A -> 0 <= cp <= A -> A <= size ->
  (forall i, (i < length ld)%nat -> 0 <= nth i (map lsize ld) 0) ->
  (forall i, (n <= i < length ld)%nat -> nth i EL 0 = A) ->
  (forall i, (length ld <= i < length EL)%nat -> A < nth i EL 0 <= size) ->
  let p := pickof cf code eo (ld ++ rest) j1 cp in
  dsz p k <= jsz j /\ (jrewr j = true -> p = PNone) /\ (jcall j = true -> p <> PJ16) /\ (p = PJ16 -> cC cf = true) /\
  (forall FL, (forall i, (i < length ld)%nat -> nth i FL 0 = nth i (map lsize ld) 0) ->
    (forall i, (length ld <= i < length EL)%nat -> cp + dsz p k <= nth i FL 0 <= cp + dsz p k + (nth i EL 0 - (A + jsz j))) ->
    jfit (jisaddr j) k p (sw (tgt_of code eo FL j - (code + 2 * cp + eo))) (tgt_of code eo FL j)).
Proof.
  intros EO A j1 Hr Hn N C S P Z B p.
  assert (JW : jwf cf k j) by (destruct EO as (W & _); cbn [wf_op] in W; unfold jwf; tauto).
  assert (X : (jrewr j = true -> p = PNone) /\ (jcall j = true -> p <> PJ16) /\ (p = PJ16 -> cC cf = true)).
  { unfold p, pickof. change (jrewr j1) with (jrewr j). destruct (jrewr j); [split; [auto|split; congruence]|].
    destruct (djump code eo (ld ++ rest) j1 cp) as (d & t). split; [congruence|]. split.
    - intros Hc. apply dpick_call. exact Hc.
    - unfold dpick. destruct (cC cf); [auto|]. cbn [andb]. rewrite andb_false_r. cbn [andb]. ifs; congruence. }
  destruct X as (X1 & X2 & X3).
  destruct (jrewr j) eqn:R.
  - specialize (X1 eq_refl). destruct EO as (_ & EO). rewrite R in EO. rewrite X1. cbn [dsz plen]. split; [lia|]. split; [auto|]. split; [congruence|]. split; [congruence|].
    intros. exact I.
  - destruct (jisaddr j) eqn:Ia.
    + assert (PE : p = dpick cf j1 (sw (jtarget j - (code + 2 * cp + eo))) (jtarget j)).
      { unfold p, pickof, djump. change (jrewr j1) with (jrewr j). change (jisaddr j1) with (jisaddr j). rewrite R, Ia. reflexivity. }
      destruct EO as (_ & EO). rewrite R, Ia in EO. split.
      * rewrite EO, PE. apply (dpick_addr_size cf k j1). exact JW.
      * split; [congruence|]. split; [auto|]. split; [auto|]. intros. unfold tgt_of. rewrite Ia, PE. apply (dpick_fit cf k j1); [exact JW|apply closer_refl|lia|discriminate].
    + destruct (label_jump cf code eo size EL HC HS k j ld rest n E cp) as (Q1 & Q2); auto.
Qed.
Lemma mov_pick r j ld rest n E cp :
  eok_op cf EL n E (OMov r j) ->
  let j1 := set_jaddr_sz j E (jsz j) in
  map lsize rest = skipn (length ld) EL -> (n <= length ld)%nat -> dn ld cp E -> 0 <= cp <= E -> E <= size ->
  (forall i, (i < length ld)%nat -> 0 <= nth i (map lsize ld) 0) ->
  (forall i, (n <= i < length ld)%nat -> nth i EL 0 = E) ->
  (forall i, (length ld <= i < length EL)%nat -> E < nth i EL 0 <= size) ->
  let p := (let '(diff, t) := djump code eo (ld ++ rest) j1 cp in mpick diff t) in
  plen p - 1 <= jsz j /\ movp p /\
  (forall FL, (forall i, (i < length ld)%nat -> nth i FL 0 = nth i (map lsize ld) 0) ->
    (forall i, (length ld <= i < length EL)%nat -> cp + plen p <= nth i FL 0 <= cp + plen p + (nth i EL 0 - (E + 1 + jsz j))) ->
    jfit (jisaddr j) NoCond p (sw (tgt_of code eo FL j - (code + 2 * cp + eo))) (tgt_of code eo FL j)).
Proof.
  intros EO j1 Hr Hn N C S P Z B p.
  assert (MP : movp p) by (unfold p; destruct (djump code eo (ld ++ rest) j1 cp); apply mpick_mov).
  destruct (jisaddr j) eqn:Ia.
  - assert (PE : p = mpick (sw (jtarget j - (code + 2 * cp + eo))) (jtarget j)).
    { unfold p, djump. change (jisaddr j1) with (jisaddr j). rewrite Ia. reflexivity. }
    destruct EO as (_ & EO). rewrite Ia in EO. split; [|split; [exact MP|]].
    + rewrite EO, PE. apply mpick_addr_size.
    + intros. unfold tgt_of. rewrite Ia, PE. apply mpick_fit; [apply closer_refl|lia].
  - destruct (label_mov cf code eo size EL HC HS r j ld rest n E cp) as (Q1 & Q2); auto.
Qed.

Theorem gen_ok ops : forall pend m q E ld jd cd, pre pend q E ld ops ->
  post pend m q E ld jd cd ops (fold_left gen_unit (buf ops) (st pend m q E ld jd cd ops)).
Proof.
  remember (length ops) as N eqn:HN. revert ops HN. induction N as [N IHN] using lt_wf_ind. intros ops HN pend m q E ld jd cd P.
  assert (IH : forall ops', (length ops' < length ops)%nat -> forall pend m q E ld jd cd, pre pend q E ld ops' ->
    post pend m q E ld jd cd ops' (fold_left gen_unit (buf ops') (st pend m q E ld jd cd ops'))).
  { intros ops' L. subst N. exact (IHN (length ops') L ops' eq_refl). }
  clear IHN HN N.
  destruct ops as [|o ops].
  - (* the end *)
    destruct P as [A B C D F G H I J]. pose proof (EL_len EL ld pend E [] D F) as EN. cbn [labs length] in EN. cbn [buf flat_map fold_left total] in *.
    exists m, q, pend, [], [], []. cbv zeta. rewrite !app_nil_r. unfold st. cbn [labs jmps csts total rev app]. rewrite app_nil_r, Z.add_0_r.
    assert (LF : length (map lsize ld ++ (if isp pend then [start pend q] else [])) = length EL).
    { rewrite app_length, map_length. unfold np in EN. destruct (isp pend); cbn [length] in *; lia. }
    assert (NF : isp pend = true -> nth (length ld) (map lsize ld ++ (if isp pend then [start pend q] else [])) 0 = start pend q).
    { intros X. rewrite app_nth2 by (rewrite map_length; lia). rewrite map_length, Nat.sub_diag, X. reflexivity. }
    split; [reflexivity|]. split; [exact LF|]. split; [exact NF|]. split; [cbn [lay]; auto|]. split; [constructor|]. split; [auto|]. split.
    + intros i Hi. destruct pend as [mk|]; cbn [np isp] in *; [|lia]. assert (i = length ld) as -> by lia. rewrite NF by auto.
      cbn [plab app labs map] in D. rewrite (skip_nth _ _ _ _ _ 0 D eq_refl). cbn [lsize]. lia.
    + split; [lia|]. split; [lia|]. split; auto.
  - pose proof P as P0. destruct P as [A B C D F G H I J].
    pose proof B as B0. cbn [eok] in B0. destruct B0 as (B1 & B2). cbn [total] in C.
    pose proof (total_pos ops (eok_pos _ _ _ _ _ B2)) as TP.
    pose proof (osize_pos o (eok_pos_op _ _ _ _ _ B1)) as OP.
    destruct (nexts _ _ _ B2 ltac:(lia)) as (Nj & Nc & Nl).
    set (r := start pend q) in *.
    destruct o as [w|w| |nops mask|k j|reg j]; cbn [okl] in A.
    + (* unit *)
      cbn [buf flat_map obuf app fold_left]. unfold st. cbn [labs olab jmps ojmp csts ocst app osize] in *.
      rewrite gen_unit_plain by lia. fold r.
      change (flat_map obuf ops) with (buf ops).
      change (OUnit w :: ops) with ([OUnit w] ++ ops).
      apply (post_prefix cf code eo EL) with (pend2 := None) (m1 := memw code size m q w pend) (q1 := r + 1) (rls := rlab pend r) (js1 := []) (cs1 := []); cbn [total osize rev app RvLinkGen.start]; rewrite ?Z.add_0_r.
      * pose proof (IH ops ltac:(cbn; lia) None (memw code size m q w pend) (r + 1) (E + 1) (ld ++ rlab pend r) jd cd) as Q. unfold st in Q. cbn [plab app] in Q. apply Q.
        eapply (pre_next pend q E ld (OUnit w) ops _ 1); eauto; cbn [osize]; lia.
      * fold r. lia.
      * intros. apply memw_below; auto. subst r. lia.
      * apply rlab_real.
      * rewrite app_length, rlab_len. cbn. lia.
      * apply rlab_first.
      * eapply rlab_range. exact D.
      * intros m' FL M _ _ _. fold r. cbn [lay]. exists (r + 1), [], [], [], []. cbn [item]. rewrite M by lia. unfold r. rewrite memw_at. auto 10.
      * intros. apply memw_ok; auto; try (fold r); lia.
      * cbn [isp ends_label is_label]; congruence.
    + (* constant *)
      cbn [buf flat_map obuf app fold_left]. unfold st. cbn [labs olab jmps ojmp csts ocst app osize] in *.
      rewrite gen_unit_const by lia. fold r.
      change (flat_map obuf ops) with (buf ops).
      change (OConst w :: ops) with ([OConst w] ++ ops).
      apply (post_prefix cf code eo EL) with (pend2 := None) (m1 := memw code size m q w pend) (q1 := r + 1) (rls := rlab pend r) (js1 := []) (cs1 := [r]); cbn [total osize rev app RvLinkGen.start]; rewrite ?Z.add_0_r.
      * pose proof (IH ops ltac:(cbn; lia) None (memw code size m q w pend) (r + 1) (E + 1) (ld ++ rlab pend r) jd (r :: cd)) as Q. unfold st in Q. cbn [plab app] in Q. apply Q.
        eapply (pre_next pend q E ld (OConst w) ops _ 1); eauto; cbn [osize]; lia.
      * fold r. lia.
      * intros. apply memw_below; auto. subst r. lia.
      * apply rlab_real.
      * rewrite app_length, rlab_len. cbn. lia.
      * apply rlab_first.
      * eapply rlab_range. exact D.
      * intros m' FL M _ _ _. fold r. cbn [lay]. exists (r + 1), [], [], [r], []. cbn [item]. rewrite M by lia. unfold r. rewrite memw_at. auto 10.
      * intros. apply memw_ok; auto; try (fold r); lia.
      * cbn [isp ends_label is_label]; congruence.
    + (* label *)
      destruct A as (Ap & A). destruct pend; [discriminate|]. cbn [RvLinkGen.start] in r. cbn [buf flat_map obuf app].
      change (flat_map obuf ops) with (buf ops). change (OLab :: ops) with ([OLab] ++ ops).
      apply (post_prefix cf code eo EL) with (pend2 := Some None) (m1 := m) (q1 := q) (rls := []) (js1 := []) (cs1 := []);
        cbn [total osize rev app RvLinkGen.start isp np nlabs nlab]; rewrite ?app_nil_r, ?Z.add_0_r.
      * cbn [osize] in *. rewrite Z.add_0_r in *. pose proof (IH ops ltac:(cbn; lia) (Some None) m q E ld jd cd) as Q. unfold st in *.
        cbn [plab app labs olab jmps ojmp csts ocst osize] in *. rewrite Z.add_0_r in *. apply Q.
        constructor; auto.
        cbn [np isp nlab] in *. rewrite Nat.add_0_r in B2. exact B2.
      * lia.
      * auto.
      * constructor.
      * lia.
      * congruence.
      * intros. lia.
      * intros m' FL M _ X _. cbn [lay]. exists q, [], [], [], []. cbn [item]. rewrite Nat.add_0_r. rewrite X by auto. auto 10.
      * auto.
      * cbn [isp ends_label is_label]; congruence.
    + (* aligned label *)
      destruct A as (An & A). destruct B1 as (B1 & _). cbn [wf_op] in B1. destruct B1 as (Bm & Be).
      assert (LN : 1 <= Z.of_nat (length nops)) by (destruct nops; [congruence|cbn [length]; lia]).
      cbn [osize] in *. set (len := Z.of_nat (length nops)) in *.
      destruct (ext_align code (r + len) mask H2 ltac:(lia) Be) as (X1 & X2). set (a := process_extended_label code (r + len) mask) in *.
      assert (MH : mask / 2 <= len) by (apply Z.div_le_upper_bound; lia).
      cbn [buf flat_map obuf]. change (flat_map obuf ops) with (buf ops). rewrite fold_left_app. unfold st. cbn [labs olab jmps ojmp csts ocst app osize] in *. fold len in D |- *.
      destruct (gen_units_plain cf code eo size nops m q E ld pend (mkLabel (E + len) (Some mask) 0 :: labs (E + len) ops) jd
        (jmps (fun x => x) (E + len) ops) cd (csts (E + len) ops)) as (m1 & F1 & A1 & B1 & O1); auto; try (fold len; fold r; lia); [fold len; cbn; lia|].
      fold len in F1, A1, B1, O1. fold r in F1, A1, B1, O1. rewrite F1.
      change (OAlign nops mask :: ops) with ([OAlign nops mask] ++ ops).
      apply (post_prefix cf code eo EL) with (pend2 := Some (Some mask)) (m1 := m1) (q1 := r + len) (rls := rlab pend r) (js1 := []) (cs1 := []);
        cbn [total osize rev app RvLinkGen.start nlabs nlab]; fold len; fold a; fold r; rewrite ?Z.add_0_r.
      * pose proof (IH ops ltac:(cbn; lia) (Some (Some mask)) m1 (r + len) (E + len) (ld ++ rlab pend r) jd cd) as Q. unfold st in Q. cbn [plab app] in Q. apply Q.
        constructor; auto; cbn [RvLinkGen.start plab app np isp]; fold a.
        -- rewrite app_length, rlab_len. cbn [nlab] in B2. exact B2.
        -- lia.
        -- eapply skipn_rlab. exact D.
        -- rewrite app_length, rlab_len. pose proof (EL_len EL ld pend E (OAlign nops mask :: ops) D F). lia.
        -- eapply dn_step; [eapply dn_rlab; eauto|fold r; lia|fold r; lia].
        -- lia.
        -- lia.
        -- apply nonneg_rlab; auto. fold r. lia.
      * lia.
      * auto.
      * apply rlab_real.
      * rewrite app_length, rlab_len. cbn. lia.
      * apply rlab_first.
      * eapply rlab_range. exact D.
      * intros m' FL M _ X _. cbn [lay]. exists a, [], [], [], []. split; [|cbn; auto].
        cbn [item]. fold len. split; [lia|]. split; [|split; [|auto]].
        -- rewrite <- firstn_map. eapply atm_ext with (m := munit m1).
           ++ intros i Hi. rewrite firstn_length in Hi. apply M. lia.
           ++ rewrite <- (firstn_skipn (Z.to_nat (a - r)) (map u16 nops)) in A1. apply atm_app in A1. apply A1.
        -- rewrite app_length, rlab_len in X. apply X. reflexivity.
      * intros. apply O1; auto; lia.
      * cbn [isp ends_label is_label]; congruence.
    + (* jump *)
      assert (Wm : jmov j = false) by (destruct B1 as (W & _); cbn [wf_op] in W; tauto).
      pose proof (klen_pos k) as KP. set (AA := E + klen k) in *. set (j1 := set_jaddr_sz j AA (jsz j)).
      assert (JZ : 0 <= jsz j) by (apply eok_pos_op in B1; exact B1).
      assert (NZ : k = NoCond -> 1 <= jsz j).
      { intros ->. pose proof (eok_size cf EL _ E _ (isp pend) ops B1 A ltac:(congruence)) as Z1. cbn [osize klen] in Z1. lia. }
      assert (JW : jwf cf k j) by (destruct B1 as (W & _); cbn [wf_op] in W; unfold jwf; tauto).
      destruct JW as ((_ & JW1) & JW2 & JW3 & _).
      cbn [osize] in *.
      assert (CASE : (exists ops', ops = OLab :: ops' /\ jsz j = 0) \/ (jsz j = 0 -> match ops with OLab :: _ => False | _ => True end)).
      { destruct (Z.eq_dec (jsz j) 0) as [Z0|Z0]; [|right; lia]. destruct ops as [|[] ops']; eauto; right; auto. }
      destruct CASE as [(ops' & -> & Z0)|CASE].
      * (* the label at the end of an empty jump *)
        rewrite Z0, Z.add_0_r in *. cbn [okl] in A. destruct A as (_ & A). cbn [eok] in B2. destruct B2 as (_ & B2). cbn [nlab osize] in *.
        rewrite Z.add_0_r in B2.
        assert (NL : match ops' with OLab :: _ => False | _ => True end) by (destruct ops' as [|[] ?]; cbn [okl] in A; auto; destruct A; discriminate).
        assert (AT : E + klen k + total ops' <= size) by (cbn [total osize] in C; lia).
        pose proof (next_after cf size EL HM _ _ _ _ AT B2 A NL) as NA.
        destruct (nexts _ _ _ B2 AT) as (Nj' & Nc' & Nl').
        cbn [labs olab jmps ojmp csts ocst app osize] in *. rewrite Z0, !Z.add_0_r in *. fold AA in D, Nj', Nc', Nl', NA, B2, AT.
        cbn [buf flat_map obuf app]. change (flat_map obuf ops') with (buf ops'). rewrite fold_left_app. unfold st.
        cbn [labs olab jmps ojmp csts ocst app osize]. rewrite Z0, !Z.add_0_r. fold AA.
        destruct (jump_units k j1 m q E ld pend (Some None) (labs AA ops') jd (jmps (fun x => x) AA ops') cd (csts AA ops')) as (m2 & U1 & U2 & U3 & U4);
          auto; try (fold r; lia); try (intros X; specialize (NZ X); lia).
        fold r in U1, U2, U3, U4. fold AA in U1. cbn [plab app] in U1. unfold j1 in U1 at 1. rewrite Z0 in U1. rewrite U1. clear U1.
        set (L := (ld ++ rlab pend r) ++ rlab (Some None) (r + klen k)) in *.
        assert (LL : length L = (length ld + np pend + 1)%nat) by (unfold L; rewrite !app_length, !rlab_len; reflexivity).
        pose proof (EL_len EL ld pend E (OJmp k j :: OLab :: ops')) as EN. cbn [labs olab app osize] in EN. rewrite Z0, !Z.add_0_r in EN. fold AA in EN. specialize (EN D F).
        cbn [length] in EN.
        pose proof (skipn_rlab code eo EL ld pend r E _ D) as D2.
        assert (D3 : skipn (length L) EL = map lsize (labs AA ops')).
        { unfold L. eapply (skipn_rlab code eo EL (ld ++ rlab pend r) (Some None) (r + klen k) AA). exact D2. }
        assert (ELn : nth (length (ld ++ rlab pend r)) EL 0 = AA). { cbn [map] in D2. erewrite skip_nth; [|exact D2|reflexivity]. reflexivity. }
        assert (DN : dn L (r + klen k) AA).
        { unfold L. apply dn_snoc; auto. eapply dn_step; [eapply dn_rlab; eauto|fold r; lia|fold r; unfold AA; lia]. }
        assert (PL : forall i, (i < length L)%nat -> 0 <= nth i (map lsize L) 0).
        { unfold L. intros i Hi. apply (nonneg_rlab (ld ++ rlab pend r) (Some None) (r + klen k)); auto; cbn [RvLinkGen.start]; [lia|]. apply nonneg_rlab; auto. fold r; lia. }
        assert (EA : forall i, (length L <= i < length EL)%nat -> AA < nth i EL 0 <= size).
        { intros i Hi. apply (EL_after L None AA ops' D3 _ _ B2 A NL); auto. cbn [np isp]. lia. }
        destruct (jump_pick k j L (labs AA ops') (length ld + np pend)%nat E (r + klen k)) as (S1 & S2 & S3 & S4 & S5); auto; try (fold AA; lia).
        { intros i Hi. fold AA. rewrite <- ELn. f_equal. rewrite app_length, rlab_len. lia. }
        fold AA in S1, S2, S3, S4, S5. rewrite Z0 in *. set (p := pickof cf code eo (L ++ labs AA ops') (set_jaddr_sz j AA 0) (r + klen k)) in *.
        assert (Ej1 : j1 = set_jaddr_sz j AA 0) by (unfold j1; rewrite Z0; reflexivity). rewrite Ej1.
        destruct (detect_ok cf code eo size (L ++ labs AA ops') k (set_jaddr_sz j AA 0) m2 (r + klen k)) as (m3 & V1 & V2 & V3 & V4 & V5); auto.
        { replace (r + klen k - klen k) with r by lia. exact U2. }
        fold p in V1, V2, V3, V5. replace (r + klen k - klen k) with r in * by lia. rewrite V1. clear V1.
        pose proof (dsz_range p k) as DR. assert (DZ : dsz p k = 0) by lia. rewrite DZ in *.
        replace (r + klen k + 0 - 1 + 1) with (r + klen k) by lia. cbn [jsz set_jaddr_sz]. rewrite Z.add_0_r.
        change (OJmp k j :: OLab :: ops') with ([OJmp k j; OLab] ++ ops').
        set (jj := set_jpatch (set_jaddr_sz j AA 0) (paddr k p r) p) in *.
        apply (post_prefix cf code eo EL) with (pend2 := None) (m1 := m3) (q1 := r + klen k) (rls := rlab pend r ++ rlab (Some None) (r + klen k)) (js1 := [jj]) (cs1 := []);
          rewrite ?(app_assoc ld (rlab pend r)); fold L; cbn [total osize rev app RvLinkGen.start nlabs nlab np isp]; fold r; rewrite ?Z0, ?Z.add_0_r; fold AA.
        -- pose proof (IH ops' ltac:(cbn; lia) None m3 (r + klen k) AA L (jj :: jd) cd) as Q. unfold st in Q. cbn [plab app] in Q. apply Q.
           constructor; auto; cbn [RvLinkGen.start plab app np isp].
           ++ destruct ops' as [|[] ?]; cbn [okl] in *; tauto.
           ++ replace (length L + 0)%nat with (length ld + np pend + 0 + 1)%nat by lia. exact B2.
           ++ lia.
           ++ lia.
           ++ unfold AA; lia.
        -- lia.
        -- intros. rewrite V4 by lia. auto.
        -- apply Forall_app. split; apply rlab_real.
        -- lia.
        -- intros X. destruct (rlab_first code eo pend r X) as (x & tl & Y1 & Y2). rewrite Y1. eexists _, _. split; [reflexivity|exact Y2].
        -- intros i Hi. unfold L. destruct (Nat.eq_dec i (length (ld ++ rlab pend r))) as [->|Ni].
           ++ cbn [RvLinkGen.rlab]. rewrite nth_mid_lsize, ELn. cbn [lsize]. unfold AA. lia.
           ++ rewrite map_app, app_nth1. 2:{ rewrite map_length. rewrite app_length, rlab_len in *. lia. }
              apply (rlab_range code eo EL ld pend q E _ D). fold r. rewrite app_length, rlab_len in *. lia.
        -- intros m' FL M FD _ FR. cbn [lay]. exists (r + klen k), [jj], [], [], []. split.
           ++ cbn [item]. exists p. split; [unfold jj; rewrite Z0; reflexivity|]. split; [reflexivity|]. split; [lia|]. split; [|split; [exact V3|split; [|auto]]].
              ** eapply atm_ext; [|exact V2]. intros i Hi. apply M.
                 assert (Z.of_nat (length (kfix k p)) <= klen k + dsz p k). { destruct p, k; cbn in *; try lia; try (destruct V3; congruence); congruence. } lia.
              ** apply S5; auto. intros i Hi. specialize (FR i Hi). rewrite !Z.add_0_r in *. exact FR.
           ++ split; [|auto]. exists (r + klen k), [], [], [], []. cbn [item nlab lay]. split; [|auto]. split; [reflexivity|]. split; [|auto].
              rewrite FD by lia. replace (length ld + np pend + 0)%nat with (length (ld ++ rlab pend r)) by (rewrite app_length, rlab_len; lia).
              unfold L. cbn [RvLinkGen.rlab]. rewrite nth_mid_lsize. reflexivity.
        -- intros MO T. cbn [tail_ok zero_jump total osize] in T. destruct T as (T & _). specialize (T Z0).
           apply V5; [apply U4; auto; lia|lia|unfold AA in *; lia].
        -- cbn [isp ends_label is_label]; congruence.
      * (* the general case *)
        cbn [nlab] in B2. rewrite Nat.add_0_r in B2.
        assert (AT : E + (klen k + jsz j) + total ops <= size) by lia.
        assert (NA : AA < next_size (labs (E + (klen k + jsz j)) ops) 0).
        { destruct (Z.eq_dec (jsz j) 0) as [Z0|Z0]; [|unfold AA; lia].
          pose proof (next_after cf size EL HM _ _ _ _ AT B2 A (CASE Z0)). unfold AA; lia. }
        cbn [buf flat_map obuf]. change (flat_map obuf ops) with (buf ops). rewrite fold_left_app. unfold st.
        cbn [labs olab jmps ojmp csts ocst app osize] in *. fold AA.
        destruct (jump_units k j1 m q E ld pend None (labs (E + (klen k + jsz j)) ops) jd (jmps (fun x => x) (E + (klen k + jsz j)) ops) cd (csts (E + (klen k + jsz j)) ops)) as (m2 & U1 & U2 & U3 & U4);
          auto; try (fold r; lia).
        fold r in U1, U2, U3, U4. fold AA in U1. cbn [plab app] in U1. unfold j1 in U1 at 1. rewrite U1. clear U1.
        cbn [RvLinkGen.rlab]. rewrite app_nil_r.
        set (L := ld ++ rlab pend r) in *.
        assert (LL : length L = (length ld + np pend)%nat) by (unfold L; rewrite !app_length, !rlab_len; reflexivity).
        pose proof (EL_len EL ld pend E (OJmp k j :: ops) D F) as EN. cbn [labs olab app osize] in EN.
        assert (D3 : skipn (length L) EL = map lsize (labs (E + (klen k + jsz j)) ops)).
        { unfold L. eapply skipn_rlab. exact D. }
        assert (DN : dn L (r + klen k) AA).
        { unfold L. eapply dn_step; [eapply dn_rlab; eauto|fold r; lia|fold r; unfold AA; lia]. }
        assert (PL : forall i, (i < length L)%nat -> 0 <= nth i (map lsize L) 0).
        { unfold L. apply nonneg_rlab; auto. fold r; lia. }
        assert (EA : forall i, (length L <= i < length EL)%nat -> AA < nth i EL 0 <= size).
        { intros i Hi. destruct (Z.eq_dec (jsz j) 0) as [Z0|Z0].
          - pose proof (EL_after L None (E + (klen k + jsz j)) ops D3 _ _ B2 A (CASE Z0) AT i) as Q. cbn [np isp] in Q. specialize (Q ltac:(lia)). unfold AA; lia.
          - pose proof (EL_next L None (E + (klen k + jsz j)) ops D3 _ B2 AT i) as Q. cbn [np isp] in Q. specialize (Q ltac:(lia)). unfold AA; lia. }
        destruct (jump_pick k j L (labs (E + (klen k + jsz j)) ops) (length ld + np pend)%nat E (r + klen k)) as (S1 & S2 & S3 & S4 & S5); auto; try (fold AA; lia).
        fold AA in S1, S2, S3, S4, S5. fold j1 in S1, S2, S3, S4, S5. set (p := pickof cf code eo (L ++ labs (E + (klen k + jsz j)) ops) j1 (r + klen k)) in *.
        destruct (detect_ok cf code eo size (L ++ labs (E + (klen k + jsz j)) ops) k j1 m2 (r + klen k)) as (m3 & V1 & V2 & V3 & V4 & V5); auto.
        { replace (r + klen k - klen k) with r by lia. exact U2. }
        fold p in V1, V2, V3, V5. replace (r + klen k - klen k) with r in * by lia. rewrite V1. clear V1.
        pose proof (dsz_range p k) as DR.
        replace (r + klen k + dsz p k - 1 + 1) with (r + klen k + dsz p k) by lia. change (jsz j1) with (jsz j).
        change (OJmp k j :: ops) with ([OJmp k j] ++ ops).
        set (jj := set_jpatch j1 (paddr k p r) p) in *.
        apply (post_prefix cf code eo EL) with (pend2 := None) (m1 := m3) (q1 := r + klen k + dsz p k) (rls := rlab pend r) (js1 := [jj]) (cs1 := []);
          fold L; cbn [total osize rev app RvLinkGen.start nlabs nlab np isp]; fold r; rewrite ?Z.add_0_r.
        -- pose proof (IH ops ltac:(cbn; lia) None m3 (r + klen k + dsz p k) (E + (klen k + jsz j)) L (jj :: jd) cd) as Q. unfold st in Q. cbn [plab app] in Q.
           unfold AA. replace (E + klen k + jsz j) with (E + (klen k + jsz j)) by lia. apply Q.
           apply (pre_next pend q E ld (OJmp k j) ops _ (klen k + dsz p k) P0); auto; cbn [osize]; fold r; lia.
        -- lia.
        -- intros. rewrite V4 by lia. auto.
        -- apply rlab_real.
        -- lia.
        -- apply rlab_first.
        -- eapply rlab_range. exact D.
        -- intros m' FL M FD _ FR. cbn [lay]. exists (r + klen k + dsz p k), [jj], [], [], []. split; [|auto].
           cbn [item]. exists p. split; [reflexivity|]. split; [reflexivity|]. split; [lia|]. split; [|split; [exact V3|split; [|auto]]].
           ++ eapply atm_ext; [|exact V2]. intros i Hi. apply M.
              assert (Z.of_nat (length (kfix k p)) <= klen k + dsz p k). { destruct p, k; cbn in *; try lia; try (destruct V3; congruence); congruence. } lia.
           ++ apply S5; auto. intros i Hi. specialize (FR i Hi). unfold AA. lia.
        -- intros MO T. cbn [tail_ok zero_jump app] in T. destruct T as (T & _).
           assert (TT : AA < size). { destruct (Z.eq_dec (jsz j) 0) as [Z0|Z0]; [specialize (T Z0)|]; unfold AA in *; lia. }
           apply V5; [apply U4; auto; unfold AA in *; lia|lia|unfold AA in *; lia].
        -- cbn [isp ends_label is_label]; congruence.
    + (* address load *)
      assert (Wm : jmov j = true) by (destruct B1 as (W & _); cbn [wf_op] in W; tauto).
      assert (JZ : 0 <= jsz j) by (apply eok_pos_op in B1; exact B1).
      cbn [osize nlab] in *. rewrite Nat.add_0_r in B2.
      cbn [buf flat_map obuf app fold_left]. change (flat_map obuf ops) with (buf ops). unfold st. cbn [labs olab jmps ojmp csts ocst app osize] in *.
      set (j1 := set_jaddr_sz j E (jsz j)).
      rewrite gen_unit_mov; auto; try lia. fold r. rewrite mov_length_ok by auto. cbv zeta.
      set (L := ld ++ rlab pend r) in *.
      assert (LL : length L = (length ld + np pend)%nat) by (unfold L; rewrite !app_length, !rlab_len; reflexivity).
      pose proof (EL_len EL ld pend E (OMov reg j :: ops) D F) as EN. cbn [labs olab app osize] in EN.
      assert (D3 : skipn (length L) EL = map lsize (labs (E + (1 + jsz j)) ops)).
      { unfold L. eapply skipn_rlab. exact D. }
      destruct (mov_pick reg j L (labs (E + (1 + jsz j)) ops) (length ld + np pend)%nat E r) as (S1 & S2 & S3); auto; try lia.
      { unfold L. eapply dn_rlab; eauto. }
      { unfold L. apply nonneg_rlab; auto. fold r; lia. }
      { intros i Hi. pose proof (EL_next L None (E + (1 + jsz j)) ops D3 _ B2 ltac:(lia) i) as Q. cbn [np isp] in Q. specialize (Q ltac:(lia)). lia. }
      fold j1 in S1, S2, S3. set (p := let '(diff, t) := djump code eo (L ++ labs (E + (1 + jsz j)) ops) j1 r in mpick diff t) in *.
      assert (PP : 1 <= plen p) by (destruct p; cbn; lia).
      change (OMov reg j :: ops) with ([OMov reg j] ++ ops).
      set (jj := set_jpatch j1 r p) in *.
      apply (post_prefix cf code eo EL) with (pend2 := None) (m1 := memw code size m q reg pend) (q1 := r + plen p) (rls := rlab pend r) (js1 := [jj]) (cs1 := []);
          fold L; cbn [total osize rev app RvLinkGen.start nlabs nlab np isp]; fold r; rewrite ?Z.add_0_r.
      * pose proof (IH ops ltac:(cbn; lia) None (memw code size m q reg pend) (r + plen p) (E + (1 + jsz j)) L (jj :: jd) cd) as Q. unfold st in Q. cbn [plab app] in Q.
        change (jsz j1) with (jsz j).
        replace (r + (plen p - 1) + 1) with (r + plen p) by lia. replace (E + jsz j + 1) with (E + (1 + jsz j)) by lia. apply Q.
        apply (pre_next pend q E ld (OMov reg j) ops _ (plen p) P0); auto; cbn [osize]; fold r; lia.
      * lia.
      * intros. apply memw_below; auto. fold r. lia.
      * apply rlab_real.
      * lia.
      * apply rlab_first.
      * eapply rlab_range. exact D.
      * intros m' FL M FD _ FR. cbn [lay]. exists (r + plen p), [jj], [], [], []. split; [|auto].
        cbn [item]. exists p. split; [reflexivity|]. split; [reflexivity|]. split; [lia|]. split; [|split; [exact S2|]].
        -- rewrite M by lia. unfold r. apply memw_at.
        -- apply S3; auto. intros i Hi. specialize (FR i Hi). lia.
      * intros. apply memw_ok; auto; try (fold r); lia.
      * cbn [isp ends_label is_label]; congruence.
Qed.
End L.
