(** ARM64: the words of load_immediate leave exactly the constant in the register. *)
Require Import ZArith List Bool Lia Zify ZifyBool.
From Verif Require Import Rv.RvLib Rv.RvBits Arm.ArmIsa Arm.ArmEnc Arm.ArmImm Arm.ArmBits Arm.ArmImmProofs Arm.ArmLogImm.
Import ListNotations.
Open Scope Z_scope.
Ltac Zify.zify_post_hook ::= idtac.

(** Only register [r] has changed, and it holds [v]. *)
Definition only (s s' : st) (r v : Z) : Prop :=
  xr s' r = v /\ (forall k, k <> r -> xr s' k = xr s k) /\
  nf s' = nf s /\ zf s' = zf s /\ cf s' = cf s /\ vf s' = vf s /\ mm s' = mm s.

Lemma only_wX s r v : r <> 31 -> only s (wX s r v) r v.
Proof.
  intros H. unfold only, wX, upd. replace (r =? 31) with false by lia. cbn. rewrite Z.eqb_refl.
  split; [reflexivity|]. split; [|tauto]. intros k Hk. replace (k =? r) with false by lia. reflexivity.
Qed.
Lemma only_wSP s r v : only s (wSP s r v) r v.
Proof.
  unfold only, wSP, upd. cbn. rewrite Z.eqb_refl.
  split; [reflexivity|]. split; [|tauto]. intros k Hk. replace (k =? r) with false by lia. reflexivity.
Qed.
Lemma only_trans s s' s'' r v w : only s s' r v -> only s' s'' r w -> only s s'' r w.
Proof.
  intros (A & B & C & D & E & F & G) (A' & B' & C' & D' & E' & F' & G').
  split; [auto|]. split; [intros k Hk; rewrite B', B; auto|]. repeat split; congruence.
Qed.

(** ** Move wide *)
Definition movw_op (w : Z) : Prop := w = MOVZ \/ w = MOVN \/ w = MOVK \/ w = Z.lxor MOVN W_OP.
Lemma dec_movw op rd imm hw : movw_op op -> 0 <= rd < 32 -> 0 <= imm < 65536 -> 0 <= hw < 4 ->
  decode (op .| rd .| Z.shiftl imm 5 .| Z.shiftl hw 21) = Some (IMovW (bit op 31) (fld op 29 2) hw imm rd).
Proof. intros [-> | [-> | [-> | ->]]] H1 H2 H3; dec. Qed.
Lemma dec_movw0 op rd imm : movw_op op -> 0 <= rd < 32 -> 0 <= imm < 65536 ->
  decode (op .| rd .| Z.shiftl imm 5) = Some (IMovW (bit op 31) (fld op 29 2) 0 imm rd).
Proof. intros [-> | [-> | [-> | ->]]] H1 H2; dec. Qed.

Lemma shl_mul x k : 0 <= k -> Z.shiftl x k = x * 2 ^ k.
Proof. apply Z.shiftl_mul_pow2. Qed.

Definition movk (x imm hw : Z) : Z := x + (imm - (x / 2 ^ (16 * hw)) mod 2 ^ 16) * 2 ^ (16 * hw).
Lemma movk_ok x imm hw : isw x -> 0 <= imm < 65536 -> 0 <= hw < 4 ->
  Z.lor (Z.ldiff x (Z.shiftl (Z.ones 16) (16 * hw))) (Z.shiftl imm (16 * hw)) = movk x imm hw.
Proof.
  intros Hx Hi Hh. unfold movk. set (p := 16 * hw). assert (0 <= p) by lia.
  assert (P : 0 < 2 ^ p) by (apply Z.pow_pos_nonneg; lia).
  assert (P6 : 2 ^ (p + 16) = 2 ^ p * 2 ^ 16) by (apply Z.pow_add_r; lia).
  rewrite !Z.shiftl_mul_pow2 by lia.
  pose proof (Z.div_mod x (2 ^ p) ltac:(lia)) as D1. pose proof (Z.mod_pos_bound x (2 ^ p) P) as B1.
  set (q := x / 2 ^ p) in *. set (a := x mod 2 ^ p) in *.
  pose proof (Z.div_mod q (2 ^ 16) ltac:(lia)) as D2. pose proof (Z.mod_pos_bound q (2 ^ 16) ltac:(lia)) as B2.
  set (h := q / 2 ^ 16) in *. set (m := q mod 2 ^ 16) in *.
  clearbody h m q a p.
  assert (E1 : Z.ldiff x (Z.ones 16 * 2 ^ p) = h * 2 ^ (p + 16) + a).
  { apply Z.bits_inj'. intros k Hk. rewrite Z.ldiff_spec.
    replace x with ((h * 2 ^ 16 + m) * 2 ^ p + a) by lia.
    replace (h * 2 ^ (p + 16) + a) with ((h * 2 ^ 16 + 0) * 2 ^ p + a) by lia.
    rewrite !(tb_parts p _ a) by lia. rewrite tb_mul_pow2 by lia.
    destruct (k <? p) eqn:C; [cbn [negb]; apply andb_true_r|].
    rewrite !(tb_parts 16) by lia.
    destruct (k - p <? 16) eqn:C2.
    - rewrite Z.ones_spec_low by lia. rewrite Z.bits_0. apply andb_false_r.
    - rewrite Z.ones_spec_high by lia. apply andb_true_r. }
  rewrite E1.
  replace (h * 2 ^ (p + 16) + a) with ((h * 2 ^ 16 + 0) * 2 ^ p + a) by lia.
  replace (imm * 2 ^ p) with ((0 * 2 ^ 16 + imm) * 2 ^ p + 0) by lia.
  assert (E2 : forall u v x y, 0 <= u -> 0 <= x < 2 ^ u -> Z.lor (v * 2 ^ u + x) (y * 2 ^ u + 0) = Z.lor v y * 2 ^ u + x).
  { intros u v x' y Hu Hx'. apply Z.bits_inj'. intros k Hk. rewrite Z.lor_spec, !tb_parts by lia.
    destruct (k <? u); [rewrite Z.bits_0; apply orb_false_r|]. rewrite Z.lor_spec. reflexivity. }
  rewrite E2 by lia. rewrite Z.lor_comm.
  replace (h * 2 ^ 16 + 0) with (h * 2 ^ 16) by lia. replace (0 * 2 ^ 16 + imm) with imm by lia.
  rewrite Z.lor_comm, <- add_lor by lia. lia.
Qed.

(** What the first instruction of a sequence leaves. *)
Lemma exec_movz s rd imm hw : rd <> 31 -> 0 <= hw < 4 -> 0 <= imm < 65536 ->
  exists s', exec (IMovW true 2 hw imm rd) s = Some s' /\ only s s' rd (imm * 2 ^ (16 * hw)).
Proof.
  intros Hr Hh Hi. eexists. split; [reflexivity|]. rewrite Z.shiftl_mul_pow2 by lia. apply only_wX. auto.
Qed.
Lemma exec_movn s rd imm hw : rd <> 31 -> 0 <= hw < 4 -> 0 <= imm < 65536 ->
  exists s', exec (IMovW true 0 hw imm rd) s = Some s' /\ only s s' rd (2 ^ 64 - 1 - imm * 2 ^ (16 * hw)).
Proof.
  intros Hr Hh Hi. eexists. split; [reflexivity|]. rewrite Z.shiftl_mul_pow2 by lia.
  assert (B : 2 ^ (16 * hw) <= 2 ^ 48) by (apply Z.pow_le_mono_r; lia).
  assert (P : 0 < 2 ^ (16 * hw)) by (apply Z.pow_pos_nonneg; lia).
  replace (lo (dsz true) (Z.lnot (imm * 2 ^ (16 * hw)))) with (2 ^ 64 - 1 - imm * 2 ^ (16 * hw)); [apply only_wX; auto|].
  unfold lo, dsz, Z.lnot. apply Z.mod_unique with (-1); [left; nia|]. lia.
Qed.
Lemma exec_movn32 s rd imm hw : rd <> 31 -> 0 <= hw < 2 -> 0 <= imm < 65536 ->
  exists s', exec (IMovW false 0 hw imm rd) s = Some s' /\ only s s' rd (2 ^ 32 - 1 - imm * 2 ^ (16 * hw)).
Proof.
  intros Hr Hh Hi. unfold exec. replace (2 <=? hw) with false by lia. eexists. split; [reflexivity|].
  rewrite Z.shiftl_mul_pow2 by lia.
  assert (B : 2 ^ (16 * hw) <= 2 ^ 16) by (apply Z.pow_le_mono_r; lia).
  assert (P : 0 < 2 ^ (16 * hw)) by (apply Z.pow_pos_nonneg; lia).
  replace (lo (dsz false) (Z.lnot (imm * 2 ^ (16 * hw)))) with (2 ^ 32 - 1 - imm * 2 ^ (16 * hw)); [apply only_wX; auto|].
  unfold lo, dsz, Z.lnot. apply Z.mod_unique with (-1); [left; nia|]. lia.
Qed.
Lemma exec_movk s rd imm hw : rd <> 31 -> 0 <= hw < 4 -> 0 <= imm < 65536 -> isw (xr s rd) ->
  exists s', exec (IMovW true 3 hw imm rd) s = Some s' /\ only s s' rd (movk (xr s rd) imm hw).
Proof.
  intros Hr Hh Hi Hx. eexists. split; [reflexivity|].
  unfold lo, dsz. unfold rX. replace (rd =? 31) with false by lia. rewrite Z.mod_small by exact Hx.
  rewrite movk_ok by auto. apply only_wX. auto.
Qed.

(** ** Bitmask immediates *)
Lemma dec_orri op rd N immr imms : op = ORRI \/ op = Z.lxor ORRI W_OP -> 0 <= rd < 32 -> 0 <= N < 2 -> 0 <= immr < 64 -> 0 <= imms < 64 ->
  decode (op .| rd .| RN TMP_ZERO .| (N * 2 ^ 22 + immr * 2 ^ 16 + imms * 2 ^ 10)) =
  Some (ILogI (bit op 31) 1 N immr imms 31 rd).
Proof.
  intros Hop H1 H2 H3 H4.
  replace (N * 2 ^ 22 + immr * 2 ^ 16 + imms * 2 ^ 10) with (Z.shiftl N 22 .| Z.shiftl immr 16 .| Z.shiftl imms 10).
  2: { rewrite !Z.shiftl_mul_pow2 by lia. rewrite <- (add_lor 22 N (immr * 2 ^ 16)) by lia.
       replace (N * 2 ^ 22 + immr * 2 ^ 16) with ((N * 2 ^ 6 + immr) * 2 ^ 16) by ring.
       rewrite <- (add_lor 16 _ (imms * 2 ^ 10)) by lia. ring. }
  destruct Hop as [-> | ->]; dec.
Qed.

Lemma rep_range k e x : 0 <= e -> 0 <= x < 2 ^ e -> 0 <= rep k e x < 2 ^ (e * Z.of_nat k).
Proof.
  intros He Hx. induction k as [|k IH]; [rewrite Z.mul_0_r; cbn [rep]; lia|].
  rewrite rep_sum by auto. replace (e * Z.of_nat (S k)) with (e * Z.of_nat k + e) by lia.
  rewrite Z.pow_add_r by lia. nia.
Qed.

Lemma run_orri op s rd n f v : op = ORRI /\ n = 64 \/ op = Z.lxor ORRI W_OP /\ n = 32 -> 0 <= rd < 31 -> encodes n f v ->
  exists s', run [op .| rd .| RN TMP_ZERO .| f] s = Some s' /\ only s s' rd v.
Proof.
  intros Hop Hr (N & imms & immr & t & HN & Hs & Hr' & -> & E).
  unfold run. rewrite dec_orri by (try lia; destruct Hop as [(-> & _) | (-> & _)]; auto).
  assert (EX : exists s', exec (ILogI (bit op 31) 1 N immr imms 31 rd) s = Some s' /\ only s s' rd v).
  2: { destruct EX as (s' & -> & O). eauto. }
  destruct Hop as [(-> & ->) | (-> & ->)]; unfold exec.
  - change (bit ORRI 31) with true. cbn [negb andb dsz]. rewrite E. eexists. split; [reflexivity|].
    unfold rX. cbn [Z.eqb Pos.eqb]. unfold lo. rewrite Z.mod_0_l by lia. rewrite Z.lor_0_l. apply only_wSP.
  - change (bit (Z.lxor ORRI W_OP) 31) with false. cbn [negb dsz].
    destruct (N =? 1) eqn:E1; cbn [andb].
    { assert (N = 1) by lia. subst N. exfalso. revert E. unfold decode_bit_masks.
      assert (L : Z.log2 (1 * 64 + (63 - imms)) = 6).
      { apply Z.log2_unique; lia. }
      cbv zeta. replace (1 * 64 + (63 - imms) =? 0) with false by lia. rewrite L. discriminate. }
    rewrite E. eexists. split; [reflexivity|].
    unfold rX. cbn [Z.eqb Pos.eqb]. unfold lo. rewrite Z.mod_0_l by lia. rewrite Z.lor_0_l. apply only_wSP.
Qed.

(** ** Half words *)
Definition ch (j x : Z) : Z := (x / 2 ^ (16 * j)) mod 2 ^ 16.
Lemma ch_range j x : 0 <= ch j x < 65536.
Proof. unfold ch. apply Z.mod_pos_bound. lia. Qed.
Lemma four j : 0 <= j < 4 -> j = 0 \/ j = 1 \/ j = 2 \/ j = 3.
Proof. lia. Qed.
Lemma ch_sum x : isw x -> x = ch 0 x + ch 1 x * 2 ^ 16 + ch 2 x * 2 ^ 32 + ch 3 x * 2 ^ 48.
Proof. unfold isw, ch. intros H. cbn -[Z.div Z.modulo]. Z.div_mod_to_equations. lia. Qed.
Lemma ch_inj x y : isw x -> isw y -> (forall j, 0 <= j < 4 -> ch j x = ch j y) -> x = y.
Proof.
  intros Hx Hy H. rewrite (ch_sum x Hx), (ch_sum y Hy). rewrite !H by lia. reflexivity.
Qed.
Lemma ch_of a b c d : 0 <= a < 65536 -> 0 <= b < 65536 -> 0 <= c < 65536 -> 0 <= d < 65536 ->
  let x := a + b * 2 ^ 16 + c * 2 ^ 32 + d * 2 ^ 48 in
  isw x /\ ch 0 x = a /\ ch 1 x = b /\ ch 2 x = c /\ ch 3 x = d.
Proof.
  intros Ha Hb Hc Hd x. unfold isw, ch.
  change (2 ^ (16 * 0)) with 1. change (2 ^ (16 * 1)) with 65536. change (2 ^ (16 * 2)) with (65536 * 65536).
  change (2 ^ (16 * 3)) with (65536 * 65536 * 65536). change (2 ^ 16) with 65536.
  assert (E1 : x / 65536 = b + (c + d * 65536) * 65536).
  { symmetry. apply Z.div_unique with a; [left; lia|]. unfold x. lia. }
  assert (E2 : (b + (c + d * 65536) * 65536) / 65536 = c + d * 65536).
  { symmetry. apply Z.div_unique with b; [left; lia|]. lia. }
  assert (E3 : (c + d * 65536) / 65536 = d).
  { symmetry. apply Z.div_unique with c; [left; lia|]. lia. }
  rewrite <- !Z.div_div by lia. rewrite E1, E2, E3, Z.div_1_r.
  split; [unfold x; lia|]. split; [|split; [|split]].
  - symmetry. apply Z.mod_unique with (b + (c + d * 65536) * 65536); [left; lia|]. unfold x. lia.
  - rewrite Z_mod_plus_full. apply Z.mod_small. lia.
  - rewrite Z_mod_plus_full. apply Z.mod_small. lia.
  - apply Z.mod_small. lia.
Qed.
Lemma movk_sum x imm hw : isw x -> 0 <= imm < 65536 -> 0 <= hw < 4 ->
  movk x imm hw = (if hw =? 0 then imm else ch 0 x) + (if hw =? 1 then imm else ch 1 x) * 2 ^ 16 +
    (if hw =? 2 then imm else ch 2 x) * 2 ^ 32 + (if hw =? 3 then imm else ch 3 x) * 2 ^ 48.
Proof.
  intros Hx Hi Hh. unfold movk. fold (ch hw x). rewrite (ch_sum x Hx) at 1.
  destruct (four hw Hh) as [-> | [-> | [-> | ->]]]; cbn [Z.eqb Pos.eqb];
    [change (2 ^ (16 * 0)) with 1|change (16 * 1) with 16|change (16 * 2) with 32|change (16 * 3) with 48]; ring.
Qed.
Lemma ch_movk x imm hw j : isw x -> 0 <= imm < 65536 -> 0 <= hw < 4 -> 0 <= j < 4 ->
  ch j (movk x imm hw) = if hw =? j then imm else ch j x.
Proof.
  intros Hx Hi Hh Hj. rewrite movk_sum by auto.
  pose proof (ch_range 0 x). pose proof (ch_range 1 x). pose proof (ch_range 2 x). pose proof (ch_range 3 x).
  edestruct (ch_of (if hw =? 0 then imm else ch 0 x) (if hw =? 1 then imm else ch 1 x)
              (if hw =? 2 then imm else ch 2 x) (if hw =? 3 then imm else ch 3 x)) as (_ & A & B & C & D).
  1, 2, 3, 4: match goal with |- context [if ?c then _ else _] => destruct c; lia end.
  destruct (four j Hj) as [-> | [-> | [-> | ->]]]; assumption.
Qed.
Lemma isw_movk x imm hw : isw x -> 0 <= imm < 65536 -> 0 <= hw < 4 -> isw (movk x imm hw).
Proof.
  intros Hx Hi Hh. rewrite movk_sum by auto.
  pose proof (ch_range 0 x). pose proof (ch_range 1 x). pose proof (ch_range 2 x). pose proof (ch_range 3 x).
  apply ch_of; match goal with |- context [if ?c then _ else _] => destruct c; lia end.
Qed.
Lemma ch_shift simm j : 0 <= j -> ch j (Z.shiftr simm 16) = ch (j + 1) simm.
Proof.
  intros Hj. unfold ch. rewrite Z.shiftr_div_pow2 by lia. rewrite Z.div_div; [|lia|apply Z.pow_pos_nonneg; lia].
  rewrite <- Z.pow_add_r by lia. do 3 f_equal. lia.
Qed.
Lemma ch_low simm : simm .& 0xffff = ch 0 simm.
Proof. rewrite (land_low simm 16) by lia. unfold ch. rewrite Z.mul_0_r, Z.pow_0_r, Z.div_1_r. reflexivity. Qed.
Lemma ch_u32 simm : u32 simm .& 0xffff = ch 0 simm.
Proof. rewrite ch_low. unfold ch, u32. rewrite Z.mul_0_r, Z.pow_0_r, !Z.div_1_r. apply mod_mod_low. lia. Qed.
Lemma ch_lnot j x : 0 <= j -> ch j (Z.lnot x) = 65535 - ch j x.
Proof.
  intros Hj. unfold ch. assert (P : 0 < 2 ^ (16 * j)) by (apply Z.pow_pos_nonneg; lia).
  assert (E : Z.lnot x / 2 ^ (16 * j) = Z.lnot (x / 2 ^ (16 * j))).
  { rewrite <- !Z.shiftr_div_pow2 by lia. apply Z.bits_inj'. intros k Hk.
    rewrite Z.shiftr_spec, !Z.lnot_spec, Z.shiftr_spec by lia. reflexivity. }
  rewrite E. set (q := x / 2 ^ (16 * j)). pose proof (Z.div_mod q (2 ^ 16) ltac:(lia)).
  pose proof (Z.mod_pos_bound q (2 ^ 16) ltac:(lia)). unfold Z.lnot.
  symmetry. apply Z.mod_unique with (- (q / 2 ^ 16) - 1); [left|]; lia.
Qed.
Lemma ch_wrap j x : 0 <= j < 4 -> ch j (wrap x) = ch j x.
Proof.
  intros Hj. unfold ch, wrap. replace (2 ^ 64) with (2 ^ (16 * j + (64 - 16 * j))) by (f_equal; lia).
  rewrite <- (mod_mod_low 16 (64 - 16 * j) (x mod _ / _)) by lia. rewrite mod_div_low by lia. apply mod_mod_low. lia.
Qed.

Lemma dst_ok dst : 1 <= dst <= 26 \/ 28 <= dst <= 31 -> 0 <= reg_map dst < 31.
Proof.
  intros H. assert (A : forallb (fun d => (d =? 27) || ((0 <=? reg_map d) && (reg_map d <? 31))) (zseq 1 31) = true) by reflexivity.
  rewrite forallb_forall in A. specialize (A dst (in_zseq 1 31 dst ltac:(lia))). lia.
Qed.

(** The empty value of the half words not yet written. *)
Definition fill (neg : bool) : Z := if neg then 65535 else 0.

Lemma chunks_ok dst t : 1 <= dst <= 26 \/ 28 <= dst <= 31 -> isw t -> forall n (neg first : bool) i simm s,
  Z.of_nat n + i = 4 -> 0 <= i ->
  (forall j, 0 <= j -> j + i < 4 -> ch j simm = if neg then 65535 - ch (i + j) t else ch (i + j) t) ->
  (if first then forall j, 0 <= j < i -> ch j t = fill neg
   else isw (xr s (reg_map dst)) /\ forall j, 0 <= j < 4 -> ch j (xr s (reg_map dst)) = if j <? i then ch j t else fill neg) ->
  (first = true -> exists j, 0 <= j < 4 /\ ch j t <> fill neg) ->
  exists s', run (li_chunks n neg first i simm dst) s = Some s' /\ only s s' (reg_map dst) t.
Proof.
  intros Hd Ht. pose proof (dst_ok dst Hd) as Hr.
  induction n as [|n IH]; intros neg first i simm s Hn Hi Hc Hs He.
  - assert (i = 4) by lia. subst i. cbn [li_chunks run]. exists s. split; [reflexivity|].
    destruct first.
    + exfalso. destruct (He eq_refl) as (j & Hj & Hne). apply Hne, Hs. lia.
    + destruct Hs as (Hw & Hs). split; [|repeat split; auto].
      apply ch_inj; auto. intros j Hj. rewrite Hs by lia. replace (j <? 4) with true by lia. reflexivity.
  - cbn [li_chunks]. rewrite (ch_low simm).
    assert (H0 := Hc 0 ltac:(lia) ltac:(lia)). rewrite Z.add_0_r in H0.
    pose proof (ch_range i t) as Ri.
    assert (Hc' : forall j, 0 <= j -> j + (i + 1) < 4 -> ch j (Z.shiftr simm 16) = if neg then 65535 - ch (i + 1 + j) t else ch (i + 1 + j) t).
    { intros j Hj Hji. rewrite ch_shift by lia. rewrite Hc by lia. replace (i + (j + 1)) with (i + 1 + j) by lia. reflexivity. }
    assert (FN : forall k, 0 <= k -> ch k 0 = 0). { intros k Hk. unfold ch. rewrite Z.div_0_l by (apply Z.pow_nonzero; lia). reflexivity. }
    destruct (ch 0 simm =? 0) eqn:E0.
    + apply IH; auto; try lia. destruct first.
      * intros j Hj. destruct (Z.eq_dec j i) as [->|]; [|apply Hs; lia]. unfold fill. destruct neg; lia.
      * destruct Hs as (Hw & Hs). split; auto. intros j Hj. rewrite Hs by auto.
        destruct (Z.eq_dec j i) as [->|]; [|replace (j <? i + 1) with (j <? i) by lia; reflexivity].
        replace (i <? i) with false by lia. replace (i <? i + 1) with true by lia. unfold fill. destruct neg; lia.
    + destruct first.
      * (* the first word *)
        assert (W : exists s1, run [(if neg then MOVN else MOVZ) .| RD dst .| Z.shiftl (u32 simm .& 0xffff) 5 .| Z.shiftl i 21] s = Some s1 /\
                    only s s1 (reg_map dst) (if neg then 2 ^ 64 - 1 - ch 0 simm * 2 ^ (16 * i) else ch 0 simm * 2 ^ (16 * i))).
        { rewrite ch_u32. unfold run, RD. pose proof (ch_range 0 simm).
          rewrite dec_movw by (unfold movw_op; try lia; destruct neg; auto).
          destruct neg.
          - destruct (exec_movn s (reg_map dst) (ch 0 simm) i) as (s1 & E1 & O1); try lia.
            change (bit MOVN 31) with true. change (fld MOVN 29 2) with 0. rewrite E1. eauto.
          - destruct (exec_movz s (reg_map dst) (ch 0 simm) i) as (s1 & E1 & O1); try lia.
            change (bit MOVZ 31) with true. change (fld MOVZ 29 2) with 2. rewrite E1. eauto. }
        destruct W as (s1 & W & O1). pose proof (ch_range 0 simm) as R0.
        match goal with |- context [run (?w :: ?l) s] => change (w :: l) with ([w] ++ l) end.
        rewrite run_app, W.
        assert (V : isw (xr s1 (reg_map dst)) /\
                    forall j, 0 <= j < 4 -> ch j (xr s1 (reg_map dst)) = if j <? i + 1 then ch j t else fill neg).
        { destruct O1 as (-> & _).
          assert (K : exists a b c d, ch 0 simm * 2 ^ (16 * i) = a + b * 2 ^ 16 + c * 2 ^ 32 + d * 2 ^ 48 /\
                    0 <= a < 65536 /\ 0 <= b < 65536 /\ 0 <= c < 65536 /\ 0 <= d < 65536 /\
                    a = (if i =? 0 then ch 0 simm else 0) /\ b = (if i =? 1 then ch 0 simm else 0) /\
                    c = (if i =? 2 then ch 0 simm else 0) /\ d = (if i =? 3 then ch 0 simm else 0)).
          { exists (if i =? 0 then ch 0 simm else 0), (if i =? 1 then ch 0 simm else 0),
                   (if i =? 2 then ch 0 simm else 0), (if i =? 3 then ch 0 simm else 0).
            destruct (four i ltac:(lia)) as [-> | [-> | [-> | ->]]]; cbn [Z.eqb Pos.eqb];
              [change (2 ^ (16 * 0)) with 1|change (16 * 1) with 16|change (16 * 2) with 32|change (16 * 3) with 48]; repeat split; lia. }
          destruct K as (a & b & c & d & -> & Ra & Rb & Rc & Rd & Ea & Eb & Ec & Ed).
          assert (X : exists a' b' c' d',
             (if neg then 2 ^ 64 - 1 - (a + b * 2 ^ 16 + c * 2 ^ 32 + d * 2 ^ 48) else a + b * 2 ^ 16 + c * 2 ^ 32 + d * 2 ^ 48)
             = a' + b' * 2 ^ 16 + c' * 2 ^ 32 + d' * 2 ^ 48 /\ a' = Z.abs (fill neg - a) /\ b' = Z.abs (fill neg - b) /\ c' = Z.abs (fill neg - c) /\ d' = Z.abs (fill neg - d)).
          { do 4 eexists. split; [|repeat split]. unfold fill. destruct neg; lia. }
          destruct X as (a' & b' & c' & d' & -> & Ea' & Eb' & Ec' & Ed').
          assert (F : fill neg = 0 \/ fill neg = 65535) by (unfold fill; destruct neg; auto).
          destruct (ch_of a' b' c' d') as (I & A & B & C & D); try lia.
          split; [exact I|]. intros j Hj.
          assert (Y : forall u, u = (if i =? j then ch 0 simm else 0) -> Z.abs (fill neg - u) = if j <? i + 1 then ch j t else fill neg).
          { intros u ->. destruct (i =? j) eqn:Eij.
            - assert (i = j) by lia. subst j. replace (i <? i + 1) with true by lia. rewrite H0. unfold fill. destruct neg; lia.
            - destruct (j <? i + 1) eqn:Eji; [|lia]. rewrite (Hs j) by lia. lia. }
          destruct (four j Hj) as [-> | [-> | [-> | ->]]]; [rewrite A, Ea'|rewrite B, Eb'|rewrite C, Ec'|rewrite D, Ed']; apply Y; auto. }
        destruct (IH neg false (i + 1) (Z.shiftr simm 16) s1) as (s' & R' & O'); auto; try lia; try discriminate.
        exists s'. split; [exact R'|]. eapply only_trans; eauto.
      * (* a following word *)
        destruct Hs as (Hw & Hs).
        set (m := ch 0 (if neg then Z.lnot simm else simm)).
        assert (Em : m = ch i t). { unfold m. destruct neg; [rewrite ch_lnot by lia|]; lia. }
        assert (W : exists s1, run [MOVK .| RD dst .| Z.shiftl (u32 (if neg then Z.lnot simm else simm) .& 0xffff) 5 .| Z.shiftl i 21] s = Some s1 /\
                    only s s1 (reg_map dst) (movk (xr s (reg_map dst)) m i)).
        { rewrite ch_u32. fold m. unfold run, RD.
          rewrite dec_movw by (unfold movw_op; try lia; auto).
          destruct (exec_movk s (reg_map dst) m i) as (s1 & E1 & O1); try lia; auto.
          change (bit MOVK 31) with true. change (fld MOVK 29 2) with 3. rewrite E1. eauto. }
        destruct W as (s1 & W & O1).
        match goal with |- context [run (?w :: ?l) s] => change (w :: l) with ([w] ++ l) end.
        rewrite run_app, W.
        destruct (IH neg false (i + 1) (Z.shiftr simm 16) s1) as (s' & R' & O'); auto; try lia; try discriminate.
        { destruct O1 as (-> & _). split; [apply isw_movk; auto; lia|]. intros j Hj.
          rewrite ch_movk by (auto; lia). rewrite Hs by auto. destruct (i =? j) eqn:Eij.
          - assert (i = j) by lia. subst j. replace (i <? i + 1) with true by lia. auto.
          - replace (j <? i + 1) with (j <? i) by lia. reflexivity. }
        exists s'. split; [exact R'|]. eapply only_trans; eauto.
Qed.

(** ** load_immediate *)
Lemma hi_field x : Z.shiftr (u32 x .& 0xffff0000) (16 - 5) = Z.shiftl (ch 1 x) 5.
Proof.
  rewrite (land_mask _ 16 16) by lia. rewrite Z.shiftr_div_pow2, Z.shiftl_mul_pow2 by lia.
  unfold ch, u32. change (16 * 1) with 16.
  assert (E : (x mod 2 ^ 32 / 2 ^ 16) mod 2 ^ 16 = (x / 2 ^ 16) mod 2 ^ 16) by (apply (mod_div_low 16 16); lia).
  rewrite E. replace (16 - 5) with 11 by lia. change (2 ^ 16) with (2 ^ 5 * 2 ^ 11) at 3.
  rewrite Z.mul_assoc. rewrite Z.div_mul by lia. reflexivity.
Qed.

Lemma run_movz s dst imm hw w : 1 <= dst <= 26 \/ 28 <= dst <= 31 -> 0 <= imm < 65536 ->
  hw = 0 /\ w = MOVZ .| RD dst .| Z.shiftl imm 5 \/ hw = 1 /\ w = MOVZ .| RD dst .| Z.shiftl imm 5 .| Z.shiftl 1 21 ->
  exists s', run [w] s = Some s' /\ only s s' (reg_map dst) (imm * 2 ^ (16 * hw)).
Proof.
  intros Hd Hi Hw. pose proof (dst_ok dst Hd) as Hr. destruct (exec_movz s (reg_map dst) imm hw) as (s' & E & O); try lia.
  exists s'. split; [|exact O]. unfold run, RD in *.
  destruct Hw as [(-> & ->) | (-> & ->)]; [rewrite dec_movw0|rewrite dec_movw]; unfold movw_op; auto; try lia; unfold RD;
    change (bit MOVZ 31) with true; change (fld MOVZ 29 2) with 2; rewrite E; reflexivity.
Qed.
Lemma run_movn s dst imm hw w : 1 <= dst <= 26 \/ 28 <= dst <= 31 -> 0 <= imm < 65536 ->
  hw = 0 /\ w = MOVN .| RD dst .| Z.shiftl imm 5 \/ hw = 1 /\ w = MOVN .| RD dst .| Z.shiftl imm 5 .| Z.shiftl 1 21 ->
  exists s', run [w] s = Some s' /\ only s s' (reg_map dst) (2 ^ 64 - 1 - imm * 2 ^ (16 * hw)).
Proof.
  intros Hd Hi Hw. pose proof (dst_ok dst Hd) as Hr. destruct (exec_movn s (reg_map dst) imm hw) as (s' & E & O); try lia.
  exists s'. split; [|exact O]. unfold run, RD in *.
  destruct Hw as [(-> & ->) | (-> & ->)]; [rewrite dec_movw0|rewrite dec_movw]; unfold movw_op; auto; try lia;
    change (bit MOVN 31) with true; change (fld MOVN 29 2) with 0; rewrite E; reflexivity.
Qed.
Lemma run_movn32 s dst imm hw w : 1 <= dst <= 26 \/ 28 <= dst <= 31 -> 0 <= imm < 65536 ->
  hw = 0 /\ w = Z.lxor MOVN W_OP .| RD dst .| Z.shiftl imm 5 \/ hw = 1 /\ w = Z.lxor MOVN W_OP .| RD dst .| Z.shiftl imm 5 .| Z.shiftl 1 21 ->
  exists s', run [w] s = Some s' /\ only s s' (reg_map dst) (2 ^ 32 - 1 - imm * 2 ^ (16 * hw)).
Proof.
  intros Hd Hi Hw. pose proof (dst_ok dst Hd) as Hr. destruct (exec_movn32 s (reg_map dst) imm hw) as (s' & E & O); try lia.
  exists s'. split; [|exact O]. unfold run, RD in *.
  destruct Hw as [(-> & ->) | (-> & ->)]; [rewrite dec_movw0|rewrite dec_movw]; unfold movw_op; auto; try lia;
    change (bit (Z.lxor MOVN W_OP) 31) with false; change (fld (Z.lxor MOVN W_OP) 29 2) with 0; rewrite E; reflexivity.
Qed.
Lemma run_movk s dst imm : 1 <= dst <= 26 \/ 28 <= dst <= 31 -> 0 <= imm < 65536 -> isw (xr s (reg_map dst)) ->
  exists s', run [MOVK .| RD dst .| Z.shiftl imm 5 .| Z.shiftl 1 21] s = Some s' /\
             only s s' (reg_map dst) (movk (xr s (reg_map dst)) imm 1).
Proof.
  intros Hd Hi Hw. pose proof (dst_ok dst Hd) as Hr. destruct (exec_movk s (reg_map dst) imm 1) as (s' & E & O); try lia; auto.
  exists s'. split; [|exact O]. unfold run, RD.
  rewrite dec_movw by (unfold movw_op; auto; lia).
  change (bit MOVK 31) with true. change (fld MOVK 29 2) with 3. rewrite E. reflexivity.
Qed.
Lemma run_two s w1 w2 dst v1 v2 :
  (exists s1, run [w1] s = Some s1 /\ only s s1 (reg_map dst) v1) ->
  (forall s1, xr s1 (reg_map dst) = v1 -> exists s2, run [w2] s1 = Some s2 /\ only s1 s2 (reg_map dst) v2) ->
  exists s2, run [w1; w2] s = Some s2 /\ only s s2 (reg_map dst) v2.
Proof.
  intros (s1 & R1 & O1) H. destruct (H s1 ltac:(apply O1)) as (s2 & R2 & O2).
  exists s2. split; [|eapply only_trans; eauto]. change [w1; w2] with ([w1] ++ [w2]). rewrite run_app, R1. exact R2.
Qed.

Theorem load_immediate_ok dst simm s : 1 <= dst <= 26 \/ 28 <= dst <= 31 -> sword simm ->
  exists ws s', load_immediate dst simm = Some ws /\ run ws s = Some s' /\ only s s' (reg_map dst) (wrap simm).
Proof.
  intros Hd Hs. pose proof (dst_ok dst Hd) as Hr. unfold sword in Hs.
  pose proof (wrap_isw simm) as Hw. unfold isw in Hw.
  assert (C0 := ch_wrap 0 simm ltac:(lia)). assert (C1 := ch_wrap 1 simm ltac:(lia)).
  assert (C2 := ch_wrap 2 simm ltac:(lia)). assert (C3 := ch_wrap 3 simm ltac:(lia)).
  pose proof (ch_sum (wrap simm) (wrap_isw simm)) as CS.
  assert (SG : (simm < 0 -> wrap simm = simm + 2 ^ 64) /\ (0 <= simm -> wrap simm = simm)).
  { unfold wrap. split; intros C; symmetry; [apply Z.mod_unique with (-1)|apply Z.mod_unique with 0]; lia. }
  set (imm := wrap simm) in *.
  pose proof (ch_range 0 imm) as R0. pose proof (ch_range 1 imm) as R1.
  pose proof (ch_range 2 imm) as R2. pose proof (ch_range 3 imm) as R3.
  assert (N0 := ch_lnot 0 imm ltac:(lia)). assert (N1 := ch_lnot 1 imm ltac:(lia)).
  unfold load_immediate. fold imm. cbv zeta.
  destruct (imm <=? 0xffff) eqn:K1.
  { assert (u32 (Z.shiftl (u32 imm) 5) = Z.shiftl imm 5) as ->.
    { unfold u32. rewrite Z.shiftl_mul_pow2 by lia. rewrite !(Z.mod_small imm), Z.mod_small, Z.shiftl_mul_pow2 by lia. reflexivity. }
    destruct (run_movz s dst imm 0 _ Hd ltac:(lia) (or_introl (conj eq_refl eq_refl))) as (s' & R & O).
    do 2 eexists. split; [reflexivity|]. split; [exact R|]. rewrite Z.mul_0_r, Z.pow_0_r, Z.mul_1_r in O. exact O. }
  destruct ((simm <? 0) && (-0x10000 <=? simm)) eqn:K2.
  { rewrite ch_u32.
    destruct (run_movn s dst (ch 0 (Z.lnot imm)) 0 _ Hd (ch_range _ _) (or_introl (conj eq_refl eq_refl))) as (s' & R & O).
    do 2 eexists. split; [reflexivity|]. split; [exact R|].
    replace imm with (2 ^ 64 - 1 - ch 0 (Z.lnot imm) * 2 ^ (16 * 0)); [exact O|]. rewrite N0. change (2 ^ (16 * 0)) with 1. lia. }
  destruct (imm <=? 0xffffffff) eqn:K3.
  { assert (ch 2 imm = 0 /\ ch 3 imm = 0) as (Z2 & Z3) by lia.
    rewrite !(ch_low imm).
    destruct (ch 0 imm =? 0) eqn:K4.
    { assert (u32 (Z.shiftl (u32 (Z.shiftr imm 16)) 5) = Z.shiftl (ch 1 imm) 5) as ->.
      { unfold u32. rewrite Z.shiftr_div_pow2 by lia. assert (E : imm / 2 ^ 16 = ch 1 imm).
        { symmetry. apply Z.div_unique with (ch 0 imm); [left|]; lia. }
        rewrite E. rewrite !Z.shiftl_mul_pow2 by lia. rewrite !(Z.mod_small (ch 1 imm)), Z.mod_small by lia. reflexivity. }
      destruct (run_movz s dst (ch 1 imm) 1 _ Hd R1 (or_intror (conj eq_refl eq_refl))) as (s' & R & O).
      do 2 eexists. split; [reflexivity|]. split; [exact R|].
      replace imm with (ch 1 imm * 2 ^ (16 * 1)); [exact O|]. change (16 * 1) with 16. lia. }
    rewrite (land_mask imm 16 16) by lia. fold (ch 1 imm). change (16 * 1) with 16 in *.
    assert (E1 : (imm / 2 ^ 16) mod 2 ^ 16 = ch 1 imm) by reflexivity. rewrite E1.
    destruct (ch 1 imm * 2 ^ 16 =? 0xffff0000) eqn:K5.
    { rewrite ch_u32.
      destruct (run_movn32 s dst (ch 0 (Z.lnot imm)) 0 _ Hd (ch_range _ _) (or_introl (conj eq_refl eq_refl))) as (s' & R & O).
      do 2 eexists. split; [reflexivity|]. split; [exact R|].
      replace imm with (2 ^ 32 - 1 - ch 0 (Z.lnot imm) * 2 ^ (16 * 0)); [exact O|]. rewrite N0. change (2 ^ (16 * 0)) with 1. lia. }
    destruct (ch 0 imm =? 0xffff) eqn:K6.
    { rewrite hi_field.
      destruct (run_movn32 s dst (ch 1 (Z.lnot imm)) 1 _ Hd (ch_range _ _) (or_intror (conj eq_refl eq_refl))) as (s' & R & O).
      do 2 eexists. split; [reflexivity|]. split; [exact R|].
      replace imm with (2 ^ 32 - 1 - ch 1 (Z.lnot imm) * 2 ^ (16 * 1)); [exact O|]. rewrite N1. change (16 * 1) with 16. lia. }
    assert (M32 : simm mod 2 ^ 32 = imm).
    { symmetry. apply Z.mod_unique with (if simm <? 0 then - 2 ^ 32 else 0); [left; lia|]. destruct (simm <? 0) eqn:?; lia. }
    destruct (logical_imm_total simm 32 false) as (bm & EB); auto.
    { right. rewrite M32. lia. }
    change (li_len 32 false) with 16 in EB. rewrite EB.
    destruct (bm =? 0) eqn:K7; cbn [negb].
    - rewrite ch_u32, hi_field.
      assert (E : exists s', run [MOVZ .| RD dst .| Z.shiftl (ch 0 imm) 5; MOVK .| RD dst .| Z.shiftl (ch 1 imm) 5 .| Z.shiftl 1 21] s = Some s' /\ only s s' (reg_map dst) imm).
      { apply run_two with (ch 0 imm * 2 ^ (16 * 0)).
        - apply run_movz; auto.
        - intros s1 E. destruct (run_movk s1 dst (ch 1 imm) Hd R1) as (s2 & R & O); [rewrite E; unfold isw; change (2 ^ (16 * 0)) with 1; lia|].
          exists s2. split; [exact R|]. replace imm with (movk (xr s1 (reg_map dst)) (ch 1 imm) 1); [exact O|].
          rewrite E. unfold movk. change (2 ^ (16 * 0)) with 1. rewrite Z.div_small by lia. cbn [Z.modulo Z.div_eucl]. change (16 * 1) with 16. lia. }
      destruct E as (s' & R & O). do 2 eexists. split; [reflexivity|]. split; [exact R|exact O].
    - assert (EN : encodes 32 bm imm). { rewrite <- M32. apply logical_imm_sound with false; auto; lia. }
      destruct (run_orri (Z.lxor ORRI W_OP) s (reg_map dst) 32 bm imm) as (s' & R & O); auto.
      do 2 eexists. split; [reflexivity|]. split; [exact R|exact O]. }
  assert (M64 : simm mod 2 ^ 64 = imm) by reflexivity.
  destruct (logical_imm_total simm 64 false) as (bm & EB); auto.
  { right. rewrite M64. lia. }
  change (li_len 64 false) with 32 in EB. rewrite EB.
  destruct (bm =? 0) eqn:K7; cbn [negb].
  2: { assert (EN : encodes 64 bm imm). { rewrite <- M64. apply logical_imm_sound with false; auto; lia. }
       destruct (run_orri ORRI s (reg_map dst) 64 bm imm) as (s' & R & O); auto.
       do 2 eexists. split; [reflexivity|]. split; [exact R|exact O]. }
  destruct ((simm <? 0) && (-0x100000000 <=? simm)) eqn:K8.
  { rewrite (ch_low imm).
    assert (H23 : ch 2 imm = 65535 /\ ch 3 imm = 65535).
    { lia. }
    destruct H23 as (H2 & H3).
    destruct (ch 0 imm =? 0xffff) eqn:K9.
    - rewrite hi_field.
      destruct (run_movn s dst (ch 1 (Z.lnot imm)) 1 _ Hd (ch_range _ _) (or_intror (conj eq_refl eq_refl))) as (s' & R & O).
      do 2 eexists. split; [reflexivity|]. split; [exact R|].
      replace imm with (2 ^ 64 - 1 - ch 1 (Z.lnot imm) * 2 ^ (16 * 1)); [exact O|]. rewrite N1. change (16 * 1) with 16. lia.
    - rewrite ch_u32, hi_field.
      assert (E : exists s', run [MOVN .| RD dst .| Z.shiftl (ch 0 (Z.lnot imm)) 5; MOVK .| RD dst .| Z.shiftl (ch 1 imm) 5 .| Z.shiftl 1 21] s = Some s' /\ only s s' (reg_map dst) imm).
      { apply run_two with (2 ^ 64 - 1 - ch 0 (Z.lnot imm) * 2 ^ (16 * 0)).
        - apply run_movn; auto. apply ch_range.
        - intros s1 E. rewrite N0 in E. destruct (run_movk s1 dst (ch 1 imm) Hd R1) as (s2 & R & O); [rewrite E; unfold isw; change (2 ^ (16 * 0)) with 1; lia|].
          exists s2. split; [exact R|]. replace imm with (movk (xr s1 (reg_map dst)) (ch 1 imm) 1); [exact O|].
          rewrite E. unfold movk. change (2 ^ (16 * 0)) with 1. change (16 * 1) with 16.
          replace ((2 ^ 64 - 1 - (65535 - ch 0 imm) * 1) / 2 ^ 16) with (2 ^ 48 - 1); [change ((2 ^ 48 - 1) mod 2 ^ 16) with 65535; lia|].
          apply Z.div_unique with (ch 0 imm); [left|]; lia. }
      destruct E as (s' & R & O). do 2 eexists. split; [reflexivity|]. split; [exact R|exact O]. }
  assert (T : ~ (forall j, 0 <= j < 4 -> ch j imm = 0) /\ ~ (forall j, 0 <= j < 4 -> ch j imm = 65535)).
  { split; intros C; pose proof (C 0 ltac:(lia)); pose proof (C 1 ltac:(lia)); pose proof (C 2 ltac:(lia)); pose proof (C 3 ltac:(lia)).
    - lia.
    - lia. }
  destruct T as (T0 & T1).
  assert (X : forall v, ~ (forall j, 0 <= j < 4 -> ch j imm = v) -> exists j, 0 <= j < 4 /\ ch j imm <> v).
  { intros v HT. destruct (Z.eq_dec (ch 0 imm) v); [|exists 0; lia]. destruct (Z.eq_dec (ch 1 imm) v); [|exists 1; lia].
    destruct (Z.eq_dec (ch 2 imm) v); [|exists 2; lia]. destruct (Z.eq_dec (ch 3 imm) v); [|exists 3; lia].
    exfalso. apply HT. intros j Hj. destruct (four j Hj) as [-> | [-> | [-> | ->]]]; auto. }
  destruct (count_half 4 simm 0 <? count_half 4 simm 0xffff).
  - destruct (chunks_ok dst imm Hd ltac:(apply wrap_isw) 4 true true 0 (Z.lnot simm) s) as (s' & R & O); try lia.
    + intros j Hj Hj4. rewrite ch_lnot by lia. rewrite Z.add_0_l. rewrite <- (ch_wrap j simm) by lia. reflexivity.
    + intros _. apply X. exact T1.
    + do 2 eexists. split; [reflexivity|]. split; [exact R|exact O].
  - destruct (chunks_ok dst imm Hd ltac:(apply wrap_isw) 4 false true 0 simm s) as (s' & R & O); try lia.
    + intros j Hj Hj4. rewrite Z.add_0_l. rewrite <- (ch_wrap j simm) by lia. reflexivity.
    + intros _. apply X. exact T0.
    + do 2 eexists. split; [reflexivity|]. split; [exact R|exact O].
Qed.
