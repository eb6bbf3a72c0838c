(** The copy loop of sljit_generate_code. *)
Require Import ZArith List Bool Lia Zify ZifyBool.
From Verif Require Import Rv.RvLib Rv.RvBits Rv.RvIsa Rv.RvEnc Rv.RvImm Rv.RvAddr Rv.RvLink Rv.RvLinkOps Rv.RvLinkReduce Rv.RvLinkEst.
Import ListNotations.
Open Scope Z_scope.

Definition atm (m : Z -> Z) (r : Z) (l : list Z) : Prop := forall n v, nth_error l n = Some v -> m (r + Z.of_nat n) = v.
Lemma atm_cons m r v l : atm m r (v :: l) <-> m r = v /\ atm m (r + 1) l.
Proof.
  unfold atm. split.
  - intros H. split; [rewrite <- (H 0%nat v eq_refl); f_equal; lia|]. intros n x Hx. rewrite <- (H (S n) x Hx). f_equal. lia.
  - intros (H1 & H2) [|n] x Hx; cbn in Hx; [injection Hx as <-; change (Z.of_nat 0) with 0; rewrite Z.add_0_r; exact H1|].
    specialize (H2 n x Hx). rewrite <- H2. f_equal. lia.
Qed.
Lemma atm_nil m r : atm m r []. Proof. intros [|n] v H; discriminate. Qed.
Lemma atm_ext m m' r l : (forall i, r <= i < r + Z.of_nat (length l) -> m' i = m i) -> atm m r l -> atm m' r l.
Proof.
  intros H A n v Hn. rewrite H; auto. assert (n < length l)%nat by (apply nth_error_Some; congruence). lia.
Qed.
Lemma atm_app m r l1 l2 : atm m r (l1 ++ l2) <-> atm m r l1 /\ atm m (r + Z.of_nat (length l1)) l2.
Proof.
  revert r. induction l1 as [|x l1 IH]; intros r; cbn [app length].
  - rewrite Z.add_0_r. split; [intros; split; auto; apply atm_nil|tauto].
  - rewrite !atm_cons, IH. replace (r + 1 + Z.of_nat (length l1)) with (r + Z.of_nat (S (length l1))) by lia. tauto.
Qed.

Section G.
Variables (cf : cfg) (code eo size : Z).
Notation gen_unit := (gen_unit cf code eo size).
Notation put := (put size).

Definition start (pend : option (option Z)) (q : Z) : Z :=
  match pend with Some (Some mask) => process_extended_label code q mask | _ => q end.
Definition rlab (pend : option (option Z)) (a : Z) : list label :=
  match pend with Some mk => [mkLabel a mk (wrap (code + 2 * a + eo))] | None => [] end.
Definition memw (m : cmem) (q w : Z) (pend : option (option Z)) : cmem :=
  match pend with Some (Some _) => put (put m q w) (start pend q) w | _ => put m q w end.
Definition gs m q E ls il jd jr cd cr : gst := mkG m q E ls il jd jr cd cr (gmin_of ls il jr cr).

Lemma gen_label_pend w m q E ld pend rest jd jr cd cr : (pend = None -> E < next_size rest 0) ->
  gen_label code eo size w (mkG m q E (ld ++ plab pend E ++ rest) (length ld) jd jr cd cr E) =
  mkG (match pend with Some (Some _) => put m (start pend q) w | _ => m end) (start pend q) E ((ld ++ rlab pend (start pend q)) ++ rest)
    (length (ld ++ rlab pend (start pend q))) jd jr cd cr E.
Proof.
  intros Hr. unfold gen_label. cbn [gmin glabels gil gcp gm ghc gjd gjr gcd gcr].
  destruct pend as [mk|]; cbn [plab app rlab].
  - rewrite next_size_mid, nth_error_mid. cbn [lsize lmask]. rewrite Z.eqb_refl, upd_mid. cbn [lmask]. rewrite <- app_assoc. cbn [app].
    rewrite app_length. cbn [length]. rewrite Nat.add_1_r. destruct mk; reflexivity.
  - rewrite next_size_skip. specialize (Hr eq_refl). destruct (E =? next_size rest 0) eqn:X; [lia|]. rewrite app_nil_r. reflexivity.
Qed.

Lemma gmin_le E ld pend rest jr cr : E <= next_jaddr jr -> E <= next_caddr cr -> E <= next_size rest 0 ->
  E <= gmin_of (ld ++ plab pend E ++ rest) (length ld) jr cr /\
  (pend <> None \/ next_jaddr jr = E \/ next_caddr cr = E -> gmin_of (ld ++ plab pend E ++ rest) (length ld) jr cr = E) /\
  (pend = None -> E < next_jaddr jr -> E < next_caddr cr -> E < next_size rest 0 -> E < gmin_of (ld ++ plab pend E ++ rest) (length ld) jr cr).
Proof.
  intros H1 H2 H3. unfold gmin_of, get_next_min.
  assert (N : next_size (ld ++ plab pend E ++ rest) (length ld) = match pend with Some _ => E | None => next_size rest 0 end).
  { destruct pend; cbn [plab app]. rewrite next_size_mid; reflexivity. apply next_size_skip. }
  rewrite N. destruct (next_caddr cr <? next_jaddr jr) eqn:X; destruct pend; cbv iota;
    match goal with |- context [if ?b then _ else _] => destruct b eqn:Y end; (split; [lia|split; intros; try congruence; try lia]); intuition (try lia; try congruence).
Qed.

(** One unit without jump or constant. *)
Lemma gen_unit_plain m q E ld pend rest jd jr cd cr w :
  E < next_jaddr jr -> E < next_caddr cr -> E < next_size rest 0 ->
  gen_unit (gs m q E (ld ++ plab pend E ++ rest) (length ld) jd jr cd cr) w =
  gs (memw m q w pend) (start pend q + 1) (E + 1) ((ld ++ rlab pend (start pend q)) ++ rest) (length (ld ++ rlab pend (start pend q))) jd jr cd cr.
Proof.
  intros H1 H2 H3. destruct (gmin_le E ld pend rest jr cr) as (G1 & G2 & G3); try lia.
  unfold gen_unit, gs. cbn [gmin glabels gil gcp gm ghc gjd gjr gcd gcr].
  destruct pend as [mk|].
  - rewrite G2 by (left; congruence). rewrite Z.eqb_refl. rewrite gen_label_pend by auto.
    unfold gen_jump. cbn [gmin glabels gil gcp gm ghc gjd gjr gcd gcr].
    destruct (E =? next_jaddr jr) eqn:X; [lia|]. destruct (E =? next_caddr cr) eqn:Y; [lia|].
    cbn [gmin glabels gil gcp gm ghc gjd gjr gcd gcr]. destruct mk; reflexivity.
  - destruct (gmin_of (ld ++ plab None E ++ rest) (length ld) jr cr =? E) eqn:X. { specialize (G3 eq_refl H1 H2 H3). lia. }
    cbn [plab app rlab start memw]. rewrite app_nil_r. reflexivity.
Qed.
Lemma gen_unit_const m q E ld pend rest jd jr cd cr w :
  E < next_jaddr jr -> E < next_size rest 0 ->
  gen_unit (gs m q E (ld ++ plab pend E ++ rest) (length ld) jd jr cd (E :: cr)) w =
  gs (memw m q w pend) (start pend q + 1) (E + 1) ((ld ++ rlab pend (start pend q)) ++ rest) (length (ld ++ rlab pend (start pend q))) jd jr (start pend q :: cd) cr.
Proof.
  intros H1 H3. destruct (gmin_le E ld pend rest jr (E :: cr)) as (G1 & G2 & G3); cbn [next_caddr] in *; try lia.
  unfold gen_unit, gs. cbn [gmin glabels gil gcp gm ghc gjd gjr gcd gcr].
  rewrite G2 by auto. rewrite Z.eqb_refl. rewrite gen_label_pend by auto.
  unfold gen_jump. cbn [gmin glabels gil gcp gm ghc gjd gjr gcd gcr next_caddr].
  destruct (E =? next_jaddr jr) eqn:X; [lia|]. rewrite Z.eqb_refl.
  cbn [gmin glabels gil gcp gm ghc gjd gjr gcd gcr]. destruct pend as [[mk|]|]; reflexivity.
Qed.
Lemma gen_unit_jump m q E ld pend rest jd j jr cd cr w :
  jaddr j = E -> jmov j = false -> E <= next_caddr cr -> E < next_size rest 0 ->
  gen_unit (gs m q E (ld ++ plab pend E ++ rest) (length ld) jd (j :: jr) cd cr) w =
  let '(j', m', cp') := detect_jump_type cf code eo size ((ld ++ rlab pend (start pend q)) ++ rest) j (memw m q w pend) (start pend q) in
  gs m' (cp' + 1) (E + jsz j) ((ld ++ rlab pend (start pend q)) ++ rest) (length (ld ++ rlab pend (start pend q))) (j' :: jd) jr cd cr.
Proof.
  intros Hj Hm H2 H3. destruct (gmin_le E ld pend rest (j :: jr) cr) as (G1 & G2 & G3); cbn [next_jaddr] in *; try lia.
  unfold gen_unit, gs. cbn [gmin glabels gil gcp gm ghc gjd gjr gcd gcr].
  rewrite G2 by auto. rewrite Z.eqb_refl. rewrite gen_label_pend by auto.
  unfold gen_jump. cbn [gmin glabels gil gcp gm ghc gjd gjr gcd gcr next_jaddr]. rewrite Hj, Z.eqb_refl, Hm. cbn [negb].
  replace (match pend with Some (Some _) => put (put m q w) (start pend q) w | _ => put m q w end) with (memw m q w pend) by (destruct pend as [[mk|]|]; reflexivity).
  destruct (detect_jump_type _ _ _ _ _ _ _ _) as ((j' & m') & cp'). cbn [gmin glabels gil gcp gm ghc gjd gjr gcd gcr].
  replace (E - 1 + jsz j + 1) with (E + jsz j) by lia. reflexivity.
Qed.
Lemma gen_unit_mov m q E ld pend rest jd j jr cd cr w :
  jaddr j = E -> jmov j = true -> E <= next_caddr cr -> E < next_size rest 0 ->
  gen_unit (gs m q E (ld ++ plab pend E ++ rest) (length ld) jd (j :: jr) cd cr) w =
  let '(p, len) := mov_addr_get_length code eo ((ld ++ rlab pend (start pend q)) ++ rest) j (start pend q) in
  gs (memw m q w pend) (start pend q + len + 1) (E + jsz j + 1) ((ld ++ rlab pend (start pend q)) ++ rest) (length (ld ++ rlab pend (start pend q)))
    (set_jpatch j (start pend q) p :: jd) jr cd cr.
Proof.
  intros Hj Hm H2 H3. destruct (gmin_le E ld pend rest (j :: jr) cr) as (G1 & G2 & G3); cbn [next_jaddr] in *; try lia.
  unfold gen_unit, gs. cbn [gmin glabels gil gcp gm ghc gjd gjr gcd gcr].
  rewrite G2 by auto. rewrite Z.eqb_refl. rewrite gen_label_pend by auto.
  unfold gen_jump. cbn [gmin glabels gil gcp gm ghc gjd gjr gcd gcr next_jaddr]. rewrite Hj, Z.eqb_refl, Hm. cbn [negb].
  replace (match pend with Some (Some _) => put (put m q w) (start pend q) w | _ => put m q w end) with (memw m q w pend) by (destruct pend as [[mk|]|]; reflexivity).
  destruct (mov_addr_get_length _ _ _ _ _) as (p & len). cbn [gmin glabels gil gcp gm ghc gjd gjr gcd gcr]. reflexivity.
Qed.

(** ** The memory *)
Lemma put_same m i v : munit (put m i v) i = u16 v.
Proof. unfold RvLink.put, updf. cbn. rewrite Z.eqb_refl. reflexivity. Qed.
Lemma put_other m i v k : k <> i -> munit (put m i v) k = munit m k.
Proof. intros. unfold RvLink.put, updf. cbn. destruct (k =? i) eqn:E; [lia|reflexivity]. Qed.
Lemma put_ok m i v : mok m = true -> 0 <= i < size -> mok (put m i v) = true.
Proof. intros. unfold RvLink.put. cbn. lia. Qed.
Lemma memw_at m q w pend : munit (memw m q w pend) (start pend q) = u16 w.
Proof. destruct pend as [[mk|]|]; cbn [memw start]; apply put_same. Qed.
Lemma memw_below m q w pend i : start pend q <= q -> i < start pend q -> munit (memw m q w pend) i = munit m i.
Proof. intros. destruct pend as [[mk|]|]; cbn [memw start] in *; rewrite !put_other by lia; reflexivity. Qed.
Lemma memw_ok m q w pend : mok m = true -> 0 <= start pend q <= q -> q < size -> mok (memw m q w pend) = true.
Proof. intros. destruct pend as [[mk|]|]; cbn [memw start] in *; repeat apply put_ok; auto; lia. Qed.

(** A list of units. *)
Lemma gen_units_plain l : forall m q E ld pend rest jd jr cd cr, l <> [] -> start pend q <= q ->
  E + Z.of_nat (length l) <= next_jaddr jr -> E + Z.of_nat (length l) <= next_caddr cr -> E + Z.of_nat (length l) <= next_size rest 0 ->
  exists m', fold_left gen_unit l (gs m q E (ld ++ plab pend E ++ rest) (length ld) jd jr cd cr) =
  gs m' (start pend q + Z.of_nat (length l)) (E + Z.of_nat (length l)) ((ld ++ rlab pend (start pend q)) ++ rest) (length (ld ++ rlab pend (start pend q))) jd jr cd cr /\
  atm (munit m') (start pend q) (map u16 l) /\ (forall i, i < start pend q -> munit m' i = munit m i) /\
  (mok m = true -> 0 <= start pend q -> q + Z.of_nat (length l) <= size -> mok m' = true).
Proof.
  induction l as [|w l IH]; intros m q E ld pend rest jd jr cd cr Hl Hs H1 H2 H3; [congruence|].
  cbn [length] in *. cbn [fold_left]. rewrite gen_unit_plain by lia.
  destruct l as [|w2 l].
  - cbn [fold_left length]. eexists. split; [reflexivity|]. cbn [map]. split; [|split].
    + apply atm_cons. split; [apply memw_at|apply atm_nil].
    + intros. apply memw_below; auto.
    + intros. apply memw_ok; auto; lia.
  - destruct (IH (memw m q w pend) (start pend q + 1) (E + 1) (ld ++ rlab pend (start pend q)) None rest jd jr cd cr) as (m' & F & A & B & O);
      [congruence|cbn [start]; lia|lia..|].
    cbn [plab app start] in F, A, B, O. exists m'. split; [|split; [|split]].
    + rewrite F. cbn [rlab]. rewrite app_nil_r. f_equal; lia.
    + cbn [map] in *. rewrite atm_cons. split; [|exact A]. rewrite B by lia. apply memw_at.
    + intros. rewrite B by lia. apply memw_below; auto.
    + intros. apply O; [apply memw_ok; auto; lia|lia|]. cbn [length] in *. lia.
Qed.
End G.
