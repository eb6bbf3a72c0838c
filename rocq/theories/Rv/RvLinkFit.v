(** The chosen forms fit into the estimated space and reach their target. *)
Require Import ZArith List Bool Lia Zify ZifyBool.
From Verif Require Import Rv.RvLib Rv.RvBits Rv.RvIsa Rv.RvEnc Rv.RvImm Rv.RvAddr Rv.RvLink Rv.RvLinkOps Rv.RvLinkReduce Rv.RvLinkEst Rv.RvLinkGen Rv.RvLinkPick.
Import ListNotations.
Open Scope Z_scope.

Definition closer (a b : Z) : Prop := 0 <= a <= b \/ b <= a <= 0.
(** Distance [f] in bytes from the end of the branch, target [t]; [b] is set for absolute targets. *)
Definition jfit (b : bool) (k : jcnd) (p : patch) (f t : Z) : Prop :=
  match p with
  | PB16 => BRANCH16_MIN <= f <= (if b then BRANCH16_MAX else 253)
  | PB => BRANCH_MIN <= f + 2 * klen k <= BRANCH_MAX
  | PJ16 => JUMP16_MIN <= f <= JUMP16_MAX
  | PJ => JUMP_MIN <= f <= JUMP_MAX
  | PRel32 => S32_MIN <= f <= S32_MAX
  | PAbs32 => t <= S32_MAX
  | PAbs44 => t <= S44_MAX
  | PAbs52 => t <= S52_MAX
  | PNone => True
  end.

Ltac consts := unfold BRANCH16_MIN, BRANCH16_MAX, BRANCH_MIN, BRANCH_MAX, JUMP16_MIN, JUMP16_MAX, JUMP_MIN, JUMP_MAX, SIMM_MIN, SIMM_MAX, S32_MIN, S32_MAX, S44_MAX, S52_MAX, JUMP_MAX_SIZE in *.
Ltac ifs := repeat match goal with |- context [if ?b then _ else _] => destruct b eqn:? end.

Definition jwf (cf : cfg) (k : jcnd) (j : jump) : Prop :=
  (jmov j = false /\ jcond j = match k with NoCond => false | _ => true end) /\
  jcond16 j = match k with Cond16 _ => true | _ => false end /\
  (jcond16 j = true -> cC cf = true) /\ (jcall j = true -> jcond j = false).

Lemma dsz_range p k : 0 <= dsz p k <= 12.
Proof. destruct p, k; cbn; lia. Qed.
Lemma dpick_size cf k j d d' t : jwf cf k j -> closer d' d -> dsz (dpick cf j (2 * d') t) k <= jest cf j d.
Proof.
  intros ((_ & W1) & W2 & W3 & W4) C. unfold closer in C. unfold dpick, jest. rewrite W1 in *. rewrite W2 in *.
  change (Z.quot BRANCH16_MIN 2) with (-128). change (Z.quot BRANCH16_MAX 2) with 127. change (Z.quot BRANCH_MIN 2) with (-2048). change (Z.quot BRANCH_MAX 2) with 2047.
  change (Z.quot JUMP16_MIN 2) with (-1024). change (Z.quot JUMP16_MAX 2) with 1023. change (Z.quot JUMP_MIN 2) with (-524288). change (Z.quot JUMP_MAX 2) with 524287.
  change (Z.quot S32_MIN 2) with (-1073741824). change (Z.quot S32_MAX 2) with 1073740799. consts.
  destruct (cC cf) eqn:Cc; destruct k as [|w|w]; try (specialize (W3 eq_refl); congruence); cbn [andb negb]; destruct (jcall j); try (specialize (W4 eq_refl); congruence);
    cbn [andb negb]; ifs; cbn [dsz plen]; lia.
Qed.
Lemma dpick_addr_size cf k j d t : jwf cf k j ->
  dsz (dpick cf j d t) k <= (if t <=? S32_MAX then 4 else if t <=? S44_MAX then 8 else if t <=? S52_MAX then 10 else 12).
Proof.
  intros ((_ & W1) & W2 & W3 & W4). unfold dpick. rewrite W1, W2. rewrite W2 in W3.
  destruct k as [|w|w]; try (rewrite (W3 eq_refl)); rewrite ?andb_false_r; cbn [andb]; ifs; cbn [dsz plen]; consts; lia.
Qed.
Lemma dpick_fit cf k j d t f tf b : jwf cf k j -> closer f d -> tf <= t -> (b = false -> dpick cf j d t = PB16 -> f <= 253) -> jfit b k (dpick cf j d t) f tf.
Proof.
  intros ((_ & W1) & W2 & W3 & W4) C T. unfold closer in C. unfold dpick. rewrite W1, W2. rewrite W2 in W3.
  destruct k as [|w|w]; try (rewrite (W3 eq_refl)); rewrite ?andb_false_r; cbn [andb]; consts; ifs; cbn [jfit klen]; consts; intros BF; auto; try lia.
  destruct b; [lia|]. specialize (BF eq_refl eq_refl). lia.
Qed.
Lemma dpick_b16 cf j d t : dpick cf j d t = PB16 -> cC cf && jcond16 j = true /\ d <= 255.
Proof. unfold dpick. consts. ifs; try discriminate. intros _. lia. Qed.
Lemma jest_zero cf j d : cC cf && jcond16 j = true -> jest cf j d = 0 -> d <= 127.
Proof.
  intros H. unfold jest. rewrite H. change (Z.quot BRANCH16_MAX 2) with 127. consts. ifs; try discriminate; intros _; lia.
Qed.
Lemma dpick_call cf j d t : jcall j = true -> dpick cf j d t <> PJ16.
Proof. intros H. unfold dpick. rewrite H. cbn [negb]. rewrite andb_false_r. cbn [andb]. ifs; congruence. Qed.

Lemma mpick_size d d' t : closer d' d -> plen (mpick (2 * d') t) - 1 <= mest d.
Proof.
  intros C. unfold closer in C. unfold mpick, mest. change (Z.quot S32_MIN 2) with (-1073741824). change (Z.quot S32_MAX 2) with 1073740799. consts.
  ifs; cbn [plen]; lia.
Qed.
Lemma mpick_addr_size d t : plen (mpick d t) - 1 <= (if t <? S32_MAX then 3 else if t <? S44_MAX then 7 else if t <=? S52_MAX then 9 else 11).
Proof. unfold mpick. consts. ifs; cbn [plen]; lia. Qed.
Lemma mpick_fit b d t f tf : closer f d -> tf <= t -> jfit b NoCond (mpick d t) f tf.
Proof. intros C T. unfold closer in C. unfold mpick. ifs; cbn [jfit]; consts; auto; lia. Qed.
Definition movp (p : patch) : Prop := match p with PNone | PRel32 | PAbs32 | PAbs44 | PAbs52 => True | _ => False end.
Lemma mpick_mov d t : movp (mpick d t). Proof. unfold mpick. ifs; exact I. Qed.

Lemma sw_small x : -2 ^ 63 <= x < 2 ^ 63 -> sw x = x.
Proof. intros. unfold sw. apply sext_small; [lia|]. exact H. Qed.

Section F.
Variables (cf : cfg) (code eo size : Z) (EL : list Z).
Hypothesis HC : 0 <= code + eo.
Hypothesis HS : code + eo + 2 * size < 2 ^ 63.

Definition dn (ld : list label) (base E : Z) : Prop :=
  forall i, (i < length ld)%nat -> 0 <= base - nth i (map lsize ld) 0 <= E - nth i EL 0.
Definition tgt_of (FL : list Z) (j : jump) : Z := if jisaddr j then jtarget j else code + 2 * nth (jlabel j) FL 0 + eo.

Lemma label_size_nth ls l : label_size ls l = nth l (map lsize ls) 0.
Proof. unfold label_size. revert l. induction ls; intros [|l]; cbn; auto. Qed.
Lemma label_size_split ld rest l : map lsize rest = skipn (length ld) EL ->
  label_size (ld ++ rest) l = if (l <? length ld)%nat then nth l (map lsize ld) 0 else nth l EL 0.
Proof.
  intros H. rewrite label_size_nth, map_app. destruct (l <? length ld)%nat eqn:X.
  - apply Nat.ltb_lt in X. rewrite app_nth1 by (rewrite map_length; auto). reflexivity.
  - apply Nat.ltb_ge in X. rewrite app_nth2 by (rewrite map_length; lia). rewrite map_length, H, nth_skipn. f_equal. lia.
Qed.

(** The distance used by the decision is between zero and the estimated one. *)
Lemma djump_label j ld rest n A cp d s :
  jisaddr j = false -> jaddr j = A -> map lsize rest = skipn (length ld) EL -> (n <= length ld)%nat ->
  dist_ok EL n A (jlabel j) d s -> 0 <= s -> dn ld cp A -> 0 <= cp <= A -> A <= size ->
  (forall i, (i < length ld)%nat -> 0 <= nth i (map lsize ld) 0) ->
  (forall i, (n <= i < length ld)%nat -> nth i EL 0 = A) ->
  (forall i, (length ld <= i < length EL)%nat -> A < nth i EL 0 <= size) -> (jlabel j < length EL)%nat ->
  exists d', djump code eo (ld ++ rest) j cp = (2 * d', code + 2 * (label_size (ld ++ rest) (jlabel j)) + eo) /\ closer d' d /\
    d' = (if (jlabel j <? length ld)%nat then nth (jlabel j) (map lsize ld) 0 - cp else nth (jlabel j) EL 0 - A).
Proof.
  intros Hi Ha Hr Hn D Hs N C S P Z B L. set (l := jlabel j) in *.
  unfold djump. rewrite Hi. fold l. cbv zeta. rewrite (label_size_split ld rest l Hr). unfold dist_ok in D.
  destruct (l <? length ld)%nat eqn:X.
  - apply Nat.ltb_lt in X. specialize (N l X). specialize (P l X). set (x := nth l (map lsize ld) 0) in *.
    destruct (x >? jaddr j) eqn:G; [lia|]. exists (x - cp). rewrite (wrap_small (code + 2 * x + eo)) by (unfold isw; lia). split.
    + f_equal. rewrite sw_small; lia.
    + split; [|reflexivity]. unfold closer. destruct (l <? n)%nat eqn:Y.
      * right. lia.
      * apply Nat.ltb_ge in Y. rewrite (Z l) in * by lia. lia.
  - apply Nat.ltb_ge in X. destruct (l <? n)%nat eqn:Y; [apply Nat.ltb_lt in Y; lia|]. specialize (B l ltac:(lia)). set (x := nth l EL 0) in *.
    destruct (x >? jaddr j) eqn:G; [|lia].
    exists (x - A). rewrite (wrap_small (code + 2 * x + eo)) by (unfold isw; lia). split; [f_equal; rewrite sw_small; lia|]. split; [left; lia|reflexivity].
Qed.

(** Size and reach of a jump to a label. [FL]: the final label positions. *)
Lemma label_jump k j ld rest n E cp :
  eok_op cf EL n E (OJmp k j) -> jrewr j = false -> jisaddr j = false ->
  let A := E + klen k in let j1 := set_jaddr_sz j A (jsz j) in
  map lsize rest = skipn (length ld) EL -> (n <= length ld)%nat -> dn ld cp A -> 0 <= cp <= A -> A <= size ->
  (forall i, (i < length ld)%nat -> 0 <= nth i (map lsize ld) 0) ->
  (forall i, (n <= i < length ld)%nat -> nth i EL 0 = A) ->
  (forall i, (length ld <= i < length EL)%nat -> A < nth i EL 0 <= size) ->
  let p := pickof cf code eo (ld ++ rest) j1 cp in
  dsz p k <= jsz j /\ (forall FL, (forall i, (i < length ld)%nat -> nth i FL 0 = nth i (map lsize ld) 0) ->
    (forall i, (length ld <= i < length EL)%nat -> cp + dsz p k <= nth i FL 0 <= cp + dsz p k + (nth i EL 0 - (A + jsz j))) ->
    jfit false k p (sw (tgt_of FL j - (code + 2 * cp + eo))) (tgt_of FL j)).
Proof.
  intros (W & EO) R Ia A j1 Hr Hn N C S P Z B p. cbn [wf_op] in W. rewrite Ia in W. rewrite R, Ia in EO. destruct EO as (d & Ez & D).
  assert (JW : jwf cf k j) by (unfold jwf; tauto). assert (L : (jlabel j < length EL)%nat) by tauto.
  destruct (djump_label j1 ld rest n A cp d (12 - jsz j)) as (d' & DJ & CL & DE); auto.
  { rewrite Ez. pose proof (jest_range cf j d). lia. }
  change (jlabel j1) with (jlabel j) in *.
  assert (PE : p = dpick cf j1 (2 * d') (code + 2 * label_size (ld ++ rest) (jlabel j) + eo)).
  { unfold p, pickof. change (jrewr j1) with (jrewr j). rewrite R, DJ. reflexivity. }
  assert (SZ : dsz p k <= jsz j). { rewrite Ez, PE. apply (dpick_size cf k j1); auto. }
  split; [exact SZ|]. intros FL F1 F2. unfold tgt_of. rewrite Ia.
  pose proof (dsz_range p k) as DR. pose proof (label_size_split ld rest (jlabel j) Hr) as LS. rewrite PE.
  destruct (jlabel j <? length ld)%nat eqn:X.
  - apply Nat.ltb_lt in X. rewrite (F1 _ X). specialize (N _ X). specialize (P _ X). rewrite <- LS in *. set (x := label_size _ _) in *.
    rewrite sw_small by lia. apply (dpick_fit cf k j1); auto; [|lia|intros _ _; lia]. replace (code + 2 * x + eo - (code + 2 * cp + eo)) with (2 * d') by lia.
    unfold closer. lia.
  - apply Nat.ltb_ge in X. specialize (F2 (jlabel j) ltac:(lia)). specialize (B (jlabel j) ltac:(lia)). rewrite LS in *.
    set (x := nth (jlabel j) EL 0) in *. set (y := nth (jlabel j) FL 0) in *.
    assert (FD : nth (jlabel j) EL 0 - A <= d - (12 - jsz j)).
    { unfold dist_ok in D. destruct (jlabel j <? n)%nat eqn:Y; [apply Nat.ltb_lt in Y; lia|]. fold A in D. lia. }
    fold x in FD. rewrite sw_small by lia. apply (dpick_fit cf k j1); auto; [unfold closer; lia|lia|].
    intros _ PB. assert (DZ : dsz p k = 0) by (rewrite PE, PB; reflexivity). apply dpick_b16 in PB. destruct PB as (PB1 & PB2). pose proof (jest_range cf j d).
    assert (jsz j = 0 \/ 1 <= jsz j) as [J0|J0] by lia; [|lia]. rewrite Ez in J0. apply jest_zero in J0; [lia|exact PB1].
Qed.
Lemma label_mov r j ld rest n E cp :
  eok_op cf EL n E (OMov r j) -> jisaddr j = false ->
  let j1 := set_jaddr_sz j E (jsz j) in
  map lsize rest = skipn (length ld) EL -> (n <= length ld)%nat -> dn ld cp E -> 0 <= cp <= E -> E <= size ->
  (forall i, (i < length ld)%nat -> 0 <= nth i (map lsize ld) 0) ->
  (forall i, (n <= i < length ld)%nat -> nth i EL 0 = E) ->
  (forall i, (length ld <= i < length EL)%nat -> E < nth i EL 0 <= size) ->
  let p := (let '(diff, t) := djump code eo (ld ++ rest) j1 cp in mpick diff t) in
  plen p - 1 <= jsz j /\ (forall FL, (forall i, (i < length ld)%nat -> nth i FL 0 = nth i (map lsize ld) 0) ->
    (forall i, (length ld <= i < length EL)%nat -> cp + plen p <= nth i FL 0 <= cp + plen p + (nth i EL 0 - (E + 1 + jsz j))) ->
    jfit false NoCond p (sw (tgt_of FL j - (code + 2 * cp + eo))) (tgt_of FL j)).
Proof.
  intros (W & EO) Ia j1 Hr Hn N C S P Z B p. cbn [wf_op] in W. rewrite Ia in W. rewrite Ia in EO. destruct EO as (d & Ez & D).
  assert (L : (jlabel j < length EL)%nat) by tauto.
  destruct (djump_label j1 ld rest n E cp d 0) as (d' & DJ & CL & DE); auto.
  { lia. }
  change (jlabel j1) with (jlabel j) in *.
  assert (PE : p = mpick (2 * d') (code + 2 * label_size (ld ++ rest) (jlabel j) + eo)).
  { unfold p. rewrite DJ. reflexivity. }
  assert (SZ : plen p - 1 <= jsz j). { rewrite Ez, PE. apply mpick_size; auto. }
  split; [exact SZ|]. intros FL F1 F2. unfold tgt_of. rewrite Ia.
  assert (DR : 1 <= plen p) by (destruct p; cbn; lia). pose proof (label_size_split ld rest (jlabel j) Hr) as LS. rewrite PE.
  destruct (jlabel j <? length ld)%nat eqn:X.
  - apply Nat.ltb_lt in X. rewrite (F1 _ X). specialize (N _ X). specialize (P _ X). rewrite <- LS in *. set (x := label_size _ _) in *.
    rewrite sw_small by lia. apply mpick_fit; auto; [|lia]. replace (code + 2 * x + eo - (code + 2 * cp + eo)) with (2 * d') by lia.
    unfold closer. lia.
  - apply Nat.ltb_ge in X. specialize (F2 (jlabel j) ltac:(lia)). specialize (B (jlabel j) ltac:(lia)). rewrite LS in *.
    set (x := nth (jlabel j) EL 0) in *. set (y := nth (jlabel j) FL 0) in *.
    rewrite sw_small by lia. apply mpick_fit; auto; [|lia]. unfold closer. lia.
Qed.
End F.
