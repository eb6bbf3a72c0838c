(** SLJIT_CLZ, SLJIT_CTZ. *)
Require Import ZArith List Bool Lia Zify ZifyBool.
From Verif Require Import Rv.RvLib Rv.RvBits Rv.RvIsa Rv.RvEnc Rv.RvImm Rv.RvRun Rv.RvImmProofs Rv.RvCtl Rv.RvWf Rv.RvMem Rv.RvRunMem Rv.RvOp Rv.RvLir Rv.RvCanon Rv.RvOpLib Rv.RvSx Rv.RvReach.
Import ListNotations.
Open Scope Z_scope.
Ltac Zify.zify_post_hook ::= idtac.

(** ** The instructions of the bit manipulation extension *)
Lemma mod_S n x : 0 <= n -> x mod 2 ^ (n + 1) = x mod 2 ^ n + b2z (Z.testbit x n) * 2 ^ n.
Proof.
  intros H. rewrite Z.pow_add_r by lia. change (2 ^ 1) with 2. assert (0 < 2 ^ n) by (apply Z.pow_pos_nonneg; lia).
  rewrite Z.rem_mul_r by lia. rewrite Z.testbit_eqb by lia. destruct ((x / 2 ^ n) mod 2 =? 1) eqn:E; cbn [b2z].
  - assert ((x / 2 ^ n) mod 2 = 1) by lia. lia.
  - pose proof (Z.mod_pos_bound (x / 2 ^ n) 2). assert ((x / 2 ^ n) mod 2 = 0) by lia. lia.
Qed.
Lemma clz_aux_ok x n : is_clz (Z.of_nat n) x (clz_aux n x).
Proof.
  induction n as [|n IH]; unfold is_clz in *.
  - cbn. rewrite Zmod_1_r. lia.
  - cbn [clz_aux]. rewrite Nat2Z.inj_succ, <- Z.add_1_r. rewrite mod_S by lia. set (k := Z.of_nat n) in *. assert (0 <= k) by lia.
    assert (P := Z.pow_pos_nonneg 2 k ltac:(lia) ltac:(lia)). pose proof (Z.mod_pos_bound x (2 ^ k) ltac:(lia)).
    destruct (Z.testbit x k); cbn [b2z].
    + rewrite Z.sub_0_r, Z.pow_add_r by lia. replace (k + 1 - 1) with k by lia. lia.
    + destruct IH as (A & B & C). rewrite Z.mul_0_l, Z.add_0_r. replace (k + 1 - (1 + clz_aux n x)) with (k - clz_aux n x) by lia.
      split; [lia|]. split; [auto|]. intros. apply C. lia.
Qed.
Lemma ctz_aux_ok x n : forall i, 0 <= i -> x mod 2 ^ i = 0 ->
  let r := ctz_aux n i x in 0 <= r <= Z.of_nat n /\ x mod 2 ^ (i + r) = 0 /\ (r < Z.of_nat n -> x mod 2 ^ (i + r + 1) <> 0).
Proof.
  induction n as [|n IH]; intros i Hi H.
  - cbn. rewrite Z.add_0_r. lia.
  - cbn [ctz_aux]. rewrite Nat2Z.inj_succ. cbv zeta. assert (P := Z.pow_pos_nonneg 2 i ltac:(lia) ltac:(lia)).
    assert (E := mod_S i x Hi). destruct (Z.testbit x i); cbn [b2z] in E.
    + rewrite Z.add_0_r. split; [lia|]. split; [auto|]. intros _. lia.
    + destruct (IH (i + 1)) as (A & B & C); [lia|lia|].
      replace (i + (1 + ctz_aux n (i + 1) x)) with (i + 1 + ctz_aux n (i + 1) x) by lia.
      split; [lia|]. split; [auto|]. intros. apply C. lia.
Qed.
Lemma ctz_is x n : is_ctz (Z.of_nat n) x (ctz_aux n 0 x).
Proof.
  unfold is_ctz. destruct (ctz_aux_ok x n 0 ltac:(lia) (Zmod_1_r x)) as (A & B & C). cbn [Z.add] in *.
  assert (M : forall k, 0 <= k <= Z.of_nat n -> (x mod 2 ^ Z.of_nat n) mod 2 ^ k = x mod 2 ^ k).
  { intros. symmetry. apply Znumtheory.Zmod_div_mod; try (apply Z.pow_pos_nonneg; lia). exists (2 ^ (Z.of_nat n - k)). rewrite <- Z.pow_add_r by lia. f_equal. lia. }
  split; [auto|]. rewrite M by lia. split; [auto|]. intros. rewrite M by lia. auto.
Qed.
Lemma is_clz_mod n x y r : x mod 2 ^ n = y mod 2 ^ n -> is_clz n x r -> is_clz n y r.
Proof. unfold is_clz. intros ->. auto. Qed.
Lemma is_ctz_mod n x y r : x mod 2 ^ n = y mod 2 ^ n -> is_ctz n x r -> is_ctz n y r.
Proof. unfold is_ctz. intros ->. auto. Qed.

(** ** The loop: a binary search with windows of 2^(j+1), 2^j, ... bits *)
Section Loop.
Variable sh : Z -> Z -> Z.
Variable I : Z -> Z -> Prop.
Variable cnt : Z -> Z -> Z -> Prop.
Record bsearch (n : Z) : Prop := {
  bs_rng : forall e k, 0 <= e < 2 ^ n -> 0 <= k < n -> 0 <= sh e k < 2 ^ n;
  bs_hi : forall m e, 1 <= m -> 2 * m <= n -> I (2 * m) e -> sh e m <> 0 -> I m (sh e m) /\ (forall c, cnt m (sh e m) c -> cnt (2 * m) e c);
  bs_lo : forall m e, 1 <= m -> 2 * m <= n -> I (2 * m) e -> sh e m = 0 ->
    (sh e (m - 1) <> 0 -> cnt (2 * m) e m) /\ (sh e (m - 1) = 0 -> I m e /\ forall c, cnt m e c -> cnt (2 * m) e (m + c));
  bs_one : forall e, ~ I 1 e }.
Variables (f : bool) (l : list piece) (i : nat) (SH : Z).
Notation n := (nbits f).
Hypothesis BS : bsearch n.
(** [SH] is the shift instruction. *)
Hypothesis shift : forall s (P : mst -> Prop) q k e, vreg q -> rd s 28 = canon n e -> 0 <= e < 2 ^ n -> rd s q = k -> 0 <= k < n ->
  P (wr s 26 (canon n (sh e k))) -> ok (E32 (SH .| wd f .| RD 26 .| RS1 28 .| RS2 q)) s P.
(** The loop is at [i] (i: EQUAL_FLAG = TMP_REG2). *)
Hypotheses
 (L0 : nth_error l i = Some (P32 (ADDI .| wd f .| RD 28 .| RS1 26 .| IMM_I 0)))
 (L1 : nth_error l (1 + i) = Some (P32 (SRLI .| wd f .| RD 25 .| RS1 25 .| IMM_I 1)))
 (L2 : nth_error l (2 + i) = Some (P32 (SH .| wd f .| RD 26 .| RS1 28 .| RS2 25)))
 (L3 : nth_error l (3 + i) = Some (P32 (BNE .| RS1 TMP_REG2 .| RS2 TMP_ZERO .| u32 (0xfe000e80 - Z.shiftl (2 * 4) 7))))
 (L4 : nth_error l (4 + i) = Some (P32 (ADDI .| wd f .| RD 26 .| RS1 25 .| IMM_I (-1))))
 (L5 : nth_error l (5 + i) = Some (P32 (SH .| wd f .| RD 26 .| RS1 28 .| RS2 26)))
 (L6 : nth_error l (6 + i) = Some (P32 (OR .| RD 29 .| RS1 29 .| RS2 25)))
 (L7 : nth_error l (7 + i) = Some (P32 (BEQ .| RS1 TMP_REG2 .| RS2 TMP_ZERO .| u32 (0xfe000e80 - Z.shiftl (5 * 4) 7)))).

Lemma off_i k j : (k <= 7)%nat -> off l (k + i) = off l i + 4 * Z.of_nat k -> nth_error l (k + i) = Some (P32 j) -> off l (S k + i) = off l i + 4 * Z.of_nat (S k).
Proof. intros H E N. change (S k + i)%nat with (S (k + i)). rewrite (off_S _ _ _ N), E. cbn [units length]. lia. Qed.
Lemma small_canon k : 0 <= k <= 64 -> canon n k = k.
Proof. intros. rewrite canon_small by lia. apply wrap_small. unfold isw. lia. Qed.
Lemma lor_pow r j : 0 <= j -> r mod 2 ^ (j + 1) = 0 -> Z.lor r (2 ^ j) = r + 2 ^ j.
Proof.
  intros Hj H. rewrite Z.pow_add_r in H by lia. assert (P := Z.pow_pos_nonneg 2 j ltac:(lia) Hj). change (2 ^ 1) with 2 in H.
  assert (E : r = (r / (2 ^ j * 2)) * 2 ^ (j + 1)). { rewrite Z.pow_add_r by lia. pose proof (Z.div_mod r (2 ^ j * 2)). lia. }
  rewrite E. symmetry. apply add_lor; [lia|]. rewrite Z.pow_add_r by lia. change (2 ^ 1) with 2. lia.
Qed.

Notation tmps := [25; 26; 28; 29].
(** One iteration; [m] is half of the window. *)
Lemma iter_ok (P : mst -> Prop) s m e r :
  1 <= m -> 2 * m <= n -> I (2 * m) e -> 0 <= e < 2 ^ n -> rd s 25 = 2 * m -> rd s 28 = canon n e -> rd s 29 = r -> Z.lor r m = r + m ->
  (forall s', I m (sh e m) -> (forall c, cnt m (sh e m) c -> cnt (2 * m) e c) -> 0 <= sh e m < 2 ^ n ->
     rd s' 25 = m -> rd s' 28 = canon n (sh e m) -> rd s' 29 = r -> keeps s s' tmps -> okr l (1 + i) s' P) ->
  (forall s', I m e -> (forall c, cnt m e c -> cnt (2 * m) e (m + c)) ->
     rd s' 25 = m -> rd s' 28 = canon n e -> rd s' 29 = r + m -> keeps s s' tmps -> okr l (1 + i) s' P) ->
  (forall s', cnt (2 * m) e m -> rd s' 29 = r + m -> keeps s s' tmps -> okr l (8 + i) s' P) ->
  okr l (1 + i) s P.
Proof.
  assert (O1 := off_i 0 _ ltac:(lia) (eq_sym (Z.add_0_r _)) L0). assert (O2 := off_i 1 _ ltac:(lia) O1 L1). assert (O3 := off_i 2 _ ltac:(lia) O2 L2).
  assert (O4 := off_i 3 _ ltac:(lia) O3 L3). assert (O5 := off_i 4 _ ltac:(lia) O4 L4). assert (O6 := off_i 5 _ ltac:(lia) O5 L5).
  assert (O7 := off_i 6 _ ltac:(lia) O6 L6). cbn [Nat.add Z.of_nat Pos.of_succ_nat Pos.succ] in *.
  destruct (nb f) as (Nb1 & Nb2 & Nb3). intros Pm Hn HI He R25 R28 R29 Hl K1 K2 K3.
  assert (PN : 64 < 2 ^ n) by (destruct f; cbn; lia).
  apply (okr_32 _ _ _ _ _ L1). apply (x_SRLI _ _ f); [vl|vl|lia|rewrite R25; unfold isw; lia|]. rewrite R25.
  replace (canon n ((2 * m) mod 2 ^ n / 2 ^ 1)) with m.
  2:{ rewrite Z.mod_small by lia. change (2 ^ 1) with 2. rewrite Z.mul_comm, Z.div_mul by lia. symmetry. apply small_canon. lia. }
  apply (okr_32 _ _ _ _ _ L2). apply (shift _ _ _ m e); [vl|rdw; auto|auto|rdw; auto|lia|].
  assert (RG := bs_rng _ BS e m He ltac:(lia)). assert (RG' := bs_rng _ BS e (m - 1) He ltac:(lia)).
  eapply (okr_br _ _ _ _ Bne 26 0 (-12) i _ L3); [vm_compute; reflexivity|lia| |]; cbn [condb]; rdw; rewrite canon_eqb0, Z.mod_small by auto; intros T.
  { destruct (bs_hi _ BS m e) as (HH & HC); auto; try lia.
    apply (okr_32 _ _ _ _ _ L0). apply (x_ADDI _ _ f); [vl|vl|]. rdw. change (sext 12 0) with 0. rewrite Z.add_0_r, canon_canon.
    apply K1; auto; try (rdw; auto; fail). kps. }
  assert (T0 : sh e m = 0) by lia. destruct (bs_lo _ BS m e ltac:(lia) ltac:(lia) HI T0) as (EX & LO).
  apply (okr_32 _ _ _ _ _ L4). apply (x_ADDI _ _ f); [vl|vl|]. rdw. change (sext 12 (-1)) with (-1). rewrite (small_canon (m + -1)) by lia.
  apply (okr_32 _ _ _ _ _ L5). apply (shift _ _ _ (m - 1) e); [vl|rdw; auto|auto|rdw; auto|lia|].
  apply (okr_32 _ _ _ _ _ L6). sxc. rdw. rewrite R29, Hl.
  eapply (okr_br _ _ _ _ Beq 26 0 (-24) (1 + i) _ L7); [vm_compute; reflexivity|cbn [Nat.add]; lia| |]; cbn [condb]; rdw; rewrite canon_eqb0, Z.mod_small by auto; intros T'.
  { destruct (LO ltac:(lia)) as (HH & HC). apply K2; auto; try (rdw; auto; fail). kps. }
  apply K3; [apply EX; lia|rdw; reflexivity|kps].
Qed.

Lemma loop_ok (P : mst -> Prop) (j : nat) : forall s e r,
  2 ^ (Z.of_nat j + 1) <= n -> I (2 ^ (Z.of_nat j + 1)) e -> 0 <= e < 2 ^ n -> rd s 25 = 2 ^ (Z.of_nat j + 1) -> rd s 28 = canon n e -> rd s 29 = r ->
  0 <= r -> r mod 2 ^ (Z.of_nat j + 1) = 0 ->
  (forall s' c, cnt (2 ^ (Z.of_nat j + 1)) e c -> rd s' 29 = r + c -> keeps s s' tmps -> okr l (8 + i) s' P) ->
  okr l (1 + i) s P.
Proof.
  induction j as [|j IH]; intros s e r Hn HI He R25 R28 R29 Hr Hm K.
  - change (2 ^ (Z.of_nat 0 + 1)) with (2 * 1) in *.
    apply (iter_ok P s 1 e r); auto; try lia.
    { apply (lor_pow r 0); auto. lia. }
    { intros s' HH. exfalso. apply (bs_one _ BS _ HH). }
    { intros s' HH. exfalso. apply (bs_one _ BS _ HH). }
    intros s' C1 C2 C3. apply (K s' 1); auto.
  - replace (2 ^ (Z.of_nat (S j) + 1)) with (2 * 2 ^ (Z.of_nat j + 1)) in * by (rewrite <- Z.pow_succ_r by lia; f_equal; lia).
    assert (HL : Z.lor r (2 ^ (Z.of_nat j + 1)) = r + 2 ^ (Z.of_nat j + 1)).
    { apply lor_pow; [lia|]. rewrite (Z.pow_add_r 2 (Z.of_nat j + 1) 1) by lia. change (2 ^ 1) with 2. rewrite Z.mul_comm. auto. }
    set (m := 2 ^ (Z.of_nat j + 1)) in *. assert (Pm : 1 <= m) by (pose proof (Z.pow_pos_nonneg 2 (Z.of_nat j + 1)); lia).
    assert (Q : r mod m = 0). { apply Znumtheory.Zdivide_mod. apply Z.divide_trans with (2 * m); [exists 2; lia|]. apply Znumtheory.Zmod_divide; lia. }
    apply (iter_ok P s m e r); auto; try lia.
    { intros s1 A1 A2 A3 A4 A5 A6 A7. apply (IH s1 (sh e m) r); auto; try lia.
      intros s' c C1 C2 C3. apply (K s' c); auto. refine (keeps_trans s _ s' tmps tmps _ _ C3 _ _); [auto|apply incl_refl|apply incl_refl]. }
    { intros s1 A1 A2 A3 A4 A5 A6. apply (IH s1 e (r + m)); auto; try lia.
      { rewrite Zplus_mod, Q, Z_mod_same_full. reflexivity. }
      intros s' c C1 C2 C3. apply (K s' (m + c)); [auto|lia|]. refine (keeps_trans s _ s' tmps tmps _ _ C3 _ _); [auto|apply incl_refl|apply incl_refl]. }
    intros s' C1 C2 C3. apply (K s' m); auto.
Qed.
End Loop.

(** ** Leading zeroes: windows at the low end *)
Definition clz_I (w e : Z) : Prop := 1 <= e < 2 ^ (w - 1).
Definition clz_cnt (w e c : Z) : Prop := 0 <= c < w /\ 2 ^ (w - c - 1) <= e < 2 ^ (w - c).
Lemma p2 k : 0 <= k -> 0 < 2 ^ k. Proof. intros. apply Z.pow_pos_nonneg; lia. Qed.
Lemma clz_bs n : 1 <= n -> bsearch (fun e k => e / 2 ^ k) clz_I clz_cnt n.
Proof.
  intros Hn. split.
  - intros e k He Hk. assert (P := p2 k ltac:(lia)). split. { apply Z.div_pos; lia. }
    apply Z.le_lt_trans with e; [|lia]. apply Z.div_le_upper_bound; nia.
  - intros m e Hm Hw (A & B) T. assert (P := p2 m ltac:(lia)). unfold clz_I, clz_cnt.
    assert (Q : 0 <= e / 2 ^ m) by (apply Z.div_pos; lia).
    assert (E : forall k, 0 <= k -> 2 ^ (m + k) = 2 ^ m * 2 ^ k) by (intros; apply Z.pow_add_r; lia).
    split.
    + split; [lia|]. apply Z.div_lt_upper_bound; auto. rewrite <- E by lia. replace (m + (m - 1)) with (2 * m - 1) by lia. lia.
    + intros c (C1 & C2 & C3). split; [lia|].
      replace (2 * m - c - 1) with (m + (m - c - 1)) by lia. replace (2 * m - c) with (m + (m - c)) by lia. rewrite !E by lia.
      pose proof (Z.mul_div_le e (2 ^ m) P). pose proof (Z.mul_succ_div_gt e (2 ^ m) P). split; nia.
  - intros m e Hm Hw (A & B) T. assert (P := p2 m ltac:(lia)). assert (P1 := p2 (m - 1) ltac:(lia)).
    assert (L : e < 2 ^ m). { destruct (Z.lt_ge_cases e (2 ^ m)); auto. assert (1 <= e / 2 ^ m) by (apply Z.div_le_lower_bound; lia). lia. }
    unfold clz_I, clz_cnt. split.
    + intros T1. split; [lia|]. replace (2 * m - m - 1) with (m - 1) by lia. replace (2 * m - m) with m by lia. split; auto.
      destruct (Z.lt_ge_cases e (2 ^ (m - 1))); auto. rewrite Z.div_small in T1; lia.
    + intros T1. split.
      * split; [lia|]. destruct (Z.lt_ge_cases e (2 ^ (m - 1))); auto. assert (1 <= e / 2 ^ (m - 1)) by (apply Z.div_le_lower_bound; lia). lia.
      * intros c (C1 & C2). split; [lia|]. replace (2 * m - (m + c) - 1) with (m - c - 1) by lia. replace (2 * m - (m + c)) with (m - c) by lia. auto.
  - intros e (A & B). change (2 ^ (1 - 1)) with 1 in B. lia.
Qed.

(** ** Trailing zeroes: windows at the high end *)
Definition ctz_I (n w e : Z) : Prop := exists x, e = x * 2 ^ (n - w) /\ 0 < x < 2 ^ w /\ x mod 2 = 0.
Definition ctz_cnt (n w e c : Z) : Prop := exists x, e = x * 2 ^ (n - w) /\ 0 <= x < 2 ^ w /\ 0 <= c < w /\ x mod 2 ^ c = 0 /\ x mod 2 ^ (c + 1) <> 0.
Lemma mod_mod_pow x a b : 0 <= a <= b -> (x mod 2 ^ b) mod 2 ^ a = x mod 2 ^ a.
Proof.
  intros. symmetry. apply Znumtheory.Zmod_div_mod; try (apply p2; lia). exists (2 ^ (b - a)). rewrite <- Z.pow_add_r by lia. f_equal. lia.
Qed.
Lemma mul_mod_pow x a b : 0 <= a -> 0 <= b -> (x * 2 ^ a) mod 2 ^ (b + a) = (x mod 2 ^ b) * 2 ^ a.
Proof. intros. rewrite Z.pow_add_r by lia. apply Z.mul_mod_distr_r; [pose proof (p2 b)|pose proof (p2 a)]; lia. Qed.
Lemma ctz_bs n : 1 <= n -> bsearch (fun e k => (e * 2 ^ k) mod 2 ^ n) (ctz_I n) (ctz_cnt n) n.
Proof.
  intros Hn. assert (PN := p2 n ltac:(lia)).
  assert (S : forall m x, 1 <= m -> 2 * m <= n -> (x * 2 ^ (n - 2 * m) * 2 ^ m) mod 2 ^ n = (x mod 2 ^ m) * 2 ^ (n - m)).
  { intros. rewrite <- Z.mul_assoc, <- Z.pow_add_r by lia. replace (n - 2 * m + m) with (n - m) by lia.
    replace n with (m + (n - m)) at 2 by lia. apply mul_mod_pow; lia. }
  split.
  - intros e k He Hk. apply Z.mod_pos_bound. auto.
  - intros m e Hm Hw (x & -> & A & B) T. assert (P := p2 m ltac:(lia)). rewrite S in * by lia.
    pose proof (Z.mod_pos_bound x (2 ^ m) P). split.
    + exists (x mod 2 ^ m). split; auto. split. { assert (x mod 2 ^ m <> 0) by (intros E; rewrite E in T; lia). lia. }
      change 2 with (2 ^ 1) at 2. rewrite mod_mod_pow by lia. auto.
    + intros c (y & E & C1 & C2 & C3 & C4). assert (y = x mod 2 ^ m).
      { apply Z.mul_reg_r in E; auto. pose proof (p2 (n - m)). lia. }
      subst y. rewrite !mod_mod_pow in * by lia. exists x. split; auto. split; [lia|]. split; [lia|]. auto.
  - intros m e Hm Hw (x & -> & A & B) T. assert (P := p2 m ltac:(lia)). rewrite S in * by lia.
    assert (X0 : x mod 2 ^ m = 0). { pose proof (p2 (n - m)). nia. }
    assert (E : x = (x / 2 ^ m) * 2 ^ m) by (pose proof (Z.div_mod x (2 ^ m)); lia).
    set (y := x / 2 ^ m) in *.
    assert (E2 : x * 2 ^ (n - 2 * m) = y * 2 ^ (n - m)).
    { rewrite E, <- Z.mul_assoc, <- Z.pow_add_r by lia. f_equal. f_equal. lia. }
    assert (Y : 0 < y < 2 ^ m).
    { replace (2 * m) with (m + m) in A by lia. rewrite Z.pow_add_r in A by lia. nia. }
    assert (E3 : (x * 2 ^ (n - 2 * m) * 2 ^ (m - 1)) mod 2 ^ n = (y mod 2) * 2 ^ (n - 1)).
    { rewrite E2, <- Z.mul_assoc, <- Z.pow_add_r by lia. replace (n - m + (m - 1)) with (n - 1) by lia.
      replace n with (1 + (n - 1)) at 2 by lia. apply mul_mod_pow; lia. }
    rewrite E3. pose proof (Z.mod_pos_bound y 2 ltac:(lia)). pose proof (p2 (n - 1) ltac:(lia)). split.
    + intros T1. exists x. split; auto. split; [lia|]. split; [lia|]. split; auto.
      rewrite Z.add_comm, E, mul_mod_pow by lia. change (2 ^ 1) with 2. nia.
    + intros T1. split.
      * exists y. split; auto. split; auto. nia.
      * intros c (z & EZ & C1 & C2 & C3 & C4). assert (z = y). { rewrite E2 in EZ. apply Z.mul_reg_r in EZ; auto. pose proof (p2 (n - m)). lia. }
        subst z. exists x. split; auto. split; [lia|]. split; [lia|].
        replace (m + c + 1) with ((c + 1) + m) by lia. rewrite (Z.add_comm m c). rewrite E, !mul_mod_pow by lia. rewrite C3. split; [lia|nia].
  - intros e (x & E & A & B). change (2 ^ 1) with 2 in A. assert (x = 1) by lia. subst. discriminate.
Qed.

Section S1.
Variables (c : cfg) (o : op) (dst src : Z) (s : mst) (a : Z).
Notation f := (f32 o).
Notation n := (nbits f).
Hypotheses (W : wf s) (Hd : dreg dst) (H2 : s2reg src) (Va : rd s src = canon n a) (Ba : 0 <= a < 2 ^ n).

Definition post_un (k : op1k) (s' : mst) : Prop :=
  keeps s s' [dst; 25; 26; 28; 29] /\ exists r, rd s' dst = r /\ res1 k n a r.

Lemma un_fin k s1 r : keeps s s1 [25; 26; 28; 29] -> 0 <= r <= 64 -> rd s1 29 = r -> res1 k n a r -> post_un k (wr s1 dst (canon n (rd s1 29 + sext 12 0))).
Proof.
  intros K R E H. unfold dreg in *. split.
  - apply keeps_wr; [vl|cbn; tauto|]. eapply keeps_incl; [|exact K]. intros ? [<-|[<-|[<-|[<-|[]]]]]; cbn; tauto.
  - exists r. split; auto. rdw. change (sext 12 0) with 0. rewrite Z.add_0_r, E. apply small_canon; auto.
Qed.

Lemma emit_clz_ok : ok (emit_clz_ctz o true dst src) s (post_un O_CLZ).
Proof.
  destruct (nb f) as (Nb1 & Nb2 & Nb3). unfold emit_clz_ctz, word, OTHER_FLAG, EQUAL_FLAG, TMP_REG1, TMP_REG2, TMP_ZERO. unfold dreg, s2reg in *.
  change (if f then 8 else 0) with (wd f). change (if f then 32 else 64) with n. cbv zeta. cbn [negb].
  set (P := post_un O_CLZ).
  apply ok_then. apply (x_ADDI _ _ f); [vl|vl|]. rewrite rd_0. rewrite Z.add_0_l, sext12_small, small_canon by lia.
  set (s1 := wr s 29 n).
  apply ok_then.
  assert (G : forall s2, rd s2 26 = canon n a -> rd s2 29 = n -> keeps s s2 [26; 29] -> 
    ok (E32 (BEQ .| RS1 26 .| RS2 0 .| u32 (Z.shiftl (4 * 4) 7) .| u32 (Z.shiftl (8 * 4) 20));;
      E32 (ADDI .| wd f .| RD 29 .| RS1 0 .| IMM_I 0);;
      E32 (BLT .| RS1 26 .| RS2 0 .| u32 (Z.shiftl (2 * 4) 7) .| u32 (Z.shiftl (8 * 4) 20));;
      E32 (ADDI .| wd f .| RD 25 .| RS1 0 .| IMM_I n);;
      E32 (ADDI .| wd f .| RD 28 .| RS1 26 .| IMM_I 0);;
      E32 (SRLI .| wd f .| RD 25 .| RS1 25 .| IMM_I 1);;
      E32 (SRL .| wd f .| RD 26 .| RS1 28 .| RS2 25);;
      E32 (BNE .| RS1 26 .| RS2 0 .| u32 (4261416576 - Z.shiftl (2 * 4) 7));;
      E32 (ADDI .| wd f .| RD 26 .| RS1 25 .| IMM_I (-1));;
      E32 (SRL .| wd f .| RD 26 .| RS1 28 .| RS2 26);;
      E32 (OR .| RD 29 .| RS1 29 .| RS2 25);;
      E32 (BEQ .| RS1 26 .| RS2 0 .| u32 (4261416576 - Z.shiftl (5 * 4) 7));; E32 (ADDI .| wd f .| RD dst .| RS1 29 .| IMM_I 0)) s2 P).
  { intros s2 R26 R29 K2. assert (K2' : keeps s s2 [25; 26; 28; 29]).
    { eapply keeps_incl; [|exact K2]. intros ? [<-|[<-|[]]]; cbn; tauto. }
    apply ok_okr. match goal with |- okr ?l _ _ _ => set (L := l) end.
    assert (FIN : forall s' r, keeps s s' [25; 26; 28; 29] -> 0 <= r <= 64 -> rd s' 29 = r -> is_clz n a r -> okr L 12 s' P).
    { intros s' r K R E HC. apply (okr_32 L 12 _ _ _ eq_refl). apply (x_ADDI _ _ f); [vl|vl|]. apply okr_end; [reflexivity|]. apply un_fin with r; auto. }
    eapply (okr_br L 0 _ _ Beq 26 0 48 12 _ eq_refl); [vm_compute; reflexivity|reflexivity| |]; cbn [condb]; rewrite R26, rd_0, canon_eqb0, (Z.mod_small a) by auto; intros T.
    { apply (FIN _ n); auto; try lia. unfold is_clz. rewrite (Z.mod_small a), Z.sub_diag by auto. cbn. lia. }
    apply (okr_32 L 1 _ _ _ eq_refl). apply (x_ADDI _ _ f); [vl|vl|]. rewrite rd_0. change (0 + sext 12 0) with 0. rewrite canon_0.
    eapply (okr_br L 2 _ _ Blt 26 0 40 12 _ eq_refl); [vm_compute; reflexivity|reflexivity| |]; cbn [condb]; rdw; rewrite R26, sgn_canon; change (sgn 0) with 0; rewrite sext_sb by auto; rewrite sb_le by auto; intros T1.
    { apply (FIN _ 0); auto; try lia. { kps. } unfold is_clz. rewrite (Z.mod_small a), Z.sub_0_r by auto.
      destruct (2 ^ (n - 1) <=? a) eqn:E; lia. }
    assert (A1 : a < 2 ^ (n - 1)). { destruct (2 ^ (n - 1) <=? a) eqn:E; lia. }
    apply (okr_32 L 3 _ _ _ eq_refl). apply (x_ADDI _ _ f); [vl|vl|]. rewrite rd_0, Z.add_0_l, sext12_small, small_canon by lia.
    apply (okr_32 L 4 _ _ _ eq_refl). apply (x_ADDI _ _ f); [vl|vl|]. rdw. rewrite R26. change (sext 12 0) with 0. rewrite Z.add_0_r, canon_canon.
    assert (EN : 2 ^ (Z.of_nat (if f then 4 else 5) + 1) = n) by (destruct f; reflexivity).
    refine (loop_ok (fun e k => e / 2 ^ k) clz_I clz_cnt f L 4 SRL (clz_bs n Nb1) _ eq_refl eq_refl eq_refl eq_refl eq_refl eq_refl eq_refl eq_refl P (if f then 4 else 5)%nat _ a 0 _ _ _ _ _ _ _ _ _);
      rewrite ?EN; auto; try lia.
    - intros s' Q q k e Hq E28 He Eq Hk HQ. apply (x_SRL _ _ f); [vl|vl|vl|rewrite E28; iw|]. rewrite E28, Eq, canon_mod, !Z.mod_small by lia. auto.
    - unfold clz_I. lia.
    - intros s' cc (C1 & C2 & C3) C4 C5. cbn [Nat.add]. apply (FIN s' cc); auto; try lia.
      + refine (keeps_trans s _ s' [25;26;28;29] [25;26;28;29] _ _ C5 _ _); [kps|apply incl_refl|apply incl_refl].
      + unfold is_clz. rewrite (Z.mod_small a) by auto. split; [lia|]. split; [lia|]. auto. }
  destruct (src =? 26) eqn:ES; cbn [negb ifE].
  - assert (ES' : src = 26) by lia. apply ok_nop. apply G; subst s1; rdw; auto. { rewrite <- Va, ES'. auto. } kps.
  - assert (ES' : src <> 26) by lia. apply (x_ADDI _ _ f); [vl|vl|]. subst s1. rdw. rewrite Va. change (sext 12 0) with 0. rewrite Z.add_0_r, canon_canon. apply G; rdw; auto. kps.
Qed.

Lemma emit_ctz_ok : ok (emit_clz_ctz o false dst src) s (post_un O_CTZ).
Proof.
  destruct (nb f) as (Nb1 & Nb2 & Nb3). unfold emit_clz_ctz, word, OTHER_FLAG, EQUAL_FLAG, TMP_REG1, TMP_REG2, TMP_ZERO. unfold dreg, s2reg in *.
  change (if f then 8 else 0) with (wd f). change (if f then 32 else 64) with n. cbv zeta. cbn [negb].
  set (P := post_un O_CTZ).
  apply ok_then. apply (x_ADDI _ _ f); [vl|vl|]. rewrite rd_0. rewrite Z.add_0_l, sext12_small, small_canon by lia.
  set (s1 := wr s 29 n).
  apply ok_then.
  assert (G : forall s2, rd s2 26 = canon n a -> rd s2 29 = n -> keeps s s2 [26; 29] -> 
    ok (E32 (BEQ .| RS1 26 .| RS2 0 .| u32 (Z.shiftl (5 * 4) 7) .| u32 (Z.shiftl (8 * 4) 20));;
      E32 (ADDI .| wd f .| RD 29 .| RS1 0 .| IMM_I 0);;
      (E32 (ANDI .| RD 25 .| RS1 26 .| IMM_I 1) ;;
      E32 (BNE .| RS1 25 .| RS2 0 .| u32 (Z.shiftl (2 * 4) 7) .| u32 (Z.shiftl (8 * 4) 20)));;
      E32 (ADDI .| wd f .| RD 25 .| RS1 0 .| IMM_I n);;
      E32 (ADDI .| wd f .| RD 28 .| RS1 26 .| IMM_I 0);;
      E32 (SRLI .| wd f .| RD 25 .| RS1 25 .| IMM_I 1);;
      E32 (SLL .| wd f .| RD 26 .| RS1 28 .| RS2 25);;
      E32 (BNE .| RS1 26 .| RS2 0 .| u32 (4261416576 - Z.shiftl (2 * 4) 7));;
      E32 (ADDI .| wd f .| RD 26 .| RS1 25 .| IMM_I (-1));;
      E32 (SLL .| wd f .| RD 26 .| RS1 28 .| RS2 26);;
      E32 (OR .| RD 29 .| RS1 29 .| RS2 25);;
      E32 (BEQ .| RS1 26 .| RS2 0 .| u32 (4261416576 - Z.shiftl (5 * 4) 7));; E32 (ADDI .| wd f .| RD dst .| RS1 29 .| IMM_I 0)) s2 P).
  { intros s2 R26 R29 K2. assert (K2' : keeps s s2 [25; 26; 28; 29]).
    { eapply keeps_incl; [|exact K2]. intros ? [<-|[<-|[]]]; cbn; tauto. }
    apply ok_okr. match goal with |- okr ?l _ _ _ => set (L := l) end.
    assert (FIN : forall s' r, keeps s s' [25; 26; 28; 29] -> 0 <= r <= 64 -> rd s' 29 = r -> is_ctz n a r -> okr L 13 s' P).
    { intros s' r K R E HC. apply (okr_32 L 13 _ _ _ eq_refl). apply (x_ADDI _ _ f); [vl|vl|]. apply okr_end; [reflexivity|]. apply un_fin with r; auto. }
    eapply (okr_br L 0 _ _ Beq 26 0 52 13 _ eq_refl); [vm_compute; reflexivity|reflexivity| |]; cbn [condb]; rewrite R26, rd_0, canon_eqb0, (Z.mod_small a) by auto; intros T.
    { apply (FIN _ n); auto; try lia. assert (a = 0) as -> by lia. unfold is_ctz. rewrite !Zmod_0_l. lia. }
    apply (okr_32 L 1 _ _ _ eq_refl). apply (x_ADDI _ _ f); [vl|vl|]. rewrite rd_0. change (0 + sext 12 0) with 0. rewrite canon_0.
    apply (okr_32 L 2 _ _ _ eq_refl). sxc. rdw. rewrite R26. change (wrap (sext 12 1)) with (Z.ones 1). rewrite Z.land_ones by lia.
    replace (canon n a mod 2 ^ 1) with (a mod 2)
      by (transitivity ((canon n a mod 2 ^ n) mod 2 ^ 1); [rewrite canon_mod, (modN f a) by auto; reflexivity|apply mod_mod_pow; lia]).
    assert (PM := Z.mod_pos_bound a 2 ltac:(lia)).
    eapply (okr_br L 3 _ _ Bne 25 0 40 13 _ eq_refl); [vm_compute; reflexivity|reflexivity| |]; cbn [condb]; rdw; intros T1.
    { apply (FIN _ 0); auto; try lia. { kps. } unfold is_ctz. rewrite (Z.mod_small a), Zmod_1_r by auto. change (2 ^ (0 + 1)) with 2. lia. }
    assert (A1 : a mod 2 = 0) by lia.
    apply (okr_32 L 4 _ _ _ eq_refl). apply (x_ADDI _ _ f); [vl|vl|]. rewrite rd_0, Z.add_0_l, sext12_small, small_canon by lia.
    apply (okr_32 L 5 _ _ _ eq_refl). apply (x_ADDI _ _ f); [vl|vl|]. rdw. rewrite R26. change (sext 12 0) with 0. rewrite Z.add_0_r, canon_canon.
    assert (EN : 2 ^ (Z.of_nat (if f then 4 else 5) + 1) = n) by (destruct f; reflexivity).
    refine (loop_ok (fun e k => (e * 2 ^ k) mod 2 ^ n) (ctz_I n) (ctz_cnt n) f L 5 SLL (ctz_bs n Nb1) _ eq_refl eq_refl eq_refl eq_refl eq_refl eq_refl eq_refl eq_refl P (if f then 4 else 5)%nat _ a 0 _ _ _ _ _ _ _ _ _);
      rewrite ?EN; auto; try lia.
    - intros s' Q q k e Hq E28 He Eq Hk HQ. apply (x_SLL _ _ f); [vl|vl|vl|]. rewrite E28, Eq, canon_mul_l, (Z.mod_small k) by lia. rewrite <- canon_of_mod. auto.
    - exists a. rewrite Z.sub_diag. lia.
    - intros s' cc (x & E & C1 & C2 & C3 & C3') C4 C5. rewrite Z.sub_diag, Z.mul_1_r in E. subst x. cbn [Nat.add]. apply (FIN s' cc); auto; try lia.
      + refine (keeps_trans s _ s' [25;26;28;29] [25;26;28;29] _ _ C5 _ _); [kps|apply incl_refl|apply incl_refl].
      + unfold is_ctz. rewrite (Z.mod_small a) by auto. split; [lia|]. auto. }
  destruct (src =? 26) eqn:ES; cbn [negb ifE].
  - assert (ES' : src = 26) by lia. apply ok_nop. apply G; subst s1; rdw; auto. { rewrite <- Va, ES'. auto. } kps.
  - assert (ES' : src <> 26) by lia. apply (x_ADDI _ _ f); [vl|vl|]. subst s1. rdw. rewrite Va. change (sext 12 0) with 0. rewrite Z.add_0_r, canon_canon. apply G; rdw; auto. kps.
Qed.

(** :1996-2002 *)
Lemma so_clz_ctz_ok (b : bool) : ok (so_clz_ctz c o b dst src) s (post_un (if b then O_CLZ else O_CTZ)).
Proof.
  unfold so_clz_ctz. destruct (cB c).
  - assert (F : forall k r, 0 <= r <= n -> res1 k n a r -> post_un k (wr s dst r)).
    { intros k r R H. unfold dreg in *. split. { kps. } exists r. split; auto. rdw. reflexivity. }
    unfold word. pose proof (canon_mod f a) as M. unfold dreg, s2reg in *.
    destruct f eqn:EF, b; cbn [nbits] in *.
    + apply (x_Un _ _ (CLZ .| 8) Clzw); [reflexivity|vl|vl|]. cbn [aluun]. rewrite Va. assert (Q := clz_aux_ok (canon 32 a) 32). apply F. { apply Q. }
      apply (is_clz_mod 32 (canon 32 a)); auto.
    + apply (x_Un _ _ (CTZ .| 8) Ctzw); [reflexivity|vl|vl|]. cbn [aluun]. rewrite Va. assert (Q := ctz_is (canon 32 a) 32). apply F. { apply Q. }
      apply (is_ctz_mod 32 (canon 32 a)); auto.
    + apply (x_Un _ _ (CLZ .| 0) Clz); [reflexivity|vl|vl|]. cbn [aluun]. rewrite Va. assert (Q := clz_aux_ok (canon 64 a) 64). apply F. { apply Q. }
      apply (is_clz_mod 64 (canon 64 a)); auto.
    + apply (x_Un _ _ (CTZ .| 0) Ctz); [reflexivity|vl|vl|]. cbn [aluun]. rewrite Va. assert (Q := ctz_is (canon 64 a) 64). apply F. { apply Q. }
      apply (is_ctz_mod 64 (canon 64 a)); auto.
  - destruct b; [apply emit_clz_ok|apply emit_ctz_ok].
Qed.
End S1.
