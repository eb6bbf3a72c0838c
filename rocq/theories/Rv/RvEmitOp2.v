(** sljit_emit_op2, sljit_emit_op2u and sljit_emit_op2r. *)
Require Import ZArith List Bool Lia Zify ZifyBool.
From Verif Require Import Rv.RvLib Rv.RvBits Rv.RvIsa Rv.RvEnc Rv.RvImm Rv.RvRun Rv.RvImmProofs Rv.RvCtl Rv.RvWf Rv.RvMem Rv.RvRunMem Rv.RvOp Rv.RvLir Rv.RvCanon Rv.RvOpLib Rv.RvSx Rv.RvMemProofs Rv.RvEmitOp.
From Verif Require Import Rv.RvSoLogical Rv.RvSoAdd Rv.RvSoAddc Rv.RvSoSub Rv.RvSoSubc Rv.RvSoMul Rv.RvSoShift.
Import ListNotations.
Open Scope Z_scope.
Ltac Zify.zify_post_hook ::= idtac.

(** How OTHER_FLAG holds the variable flag: 1 or 0, after a multiplication not zero or 0. *)
Definition flag_rep (k : op2k) (v : Z) (fl : bool) : Prop := match k with O_MUL => (v =? 0) = negb fl | _ => v = b2z fl end.
(** EQUAL_FLAG is zero if the result is zero. *)
Definition flags_rep (o : op) (k : op2k) (res : Z) (fl : bool) (s : mst) : Prop :=
  (setz o = true -> (rd s 28 =? 0) = (res mod 2 ^ nbits (f32 o) =? 0)) /\ (has_v o = true -> flag_rep k (rd s 29) fl).
Definition shifts (k : op2k) : bool :=
  match k with O_SHL | O_MSHL | O_LSHR | O_MLSHR | O_ASHR | O_MASHR | O_ROTL | O_ROTR => true | _ => false end.
Definition uses_carry (k : op2k) : bool := match k with O_ADDC | O_SUBC => true | _ => false end.

(** The state after emit_single_op. *)
Definition post_b (o : op) (k : op2k) (u : bool) (dst : Z) (s : mst) (a b : Z) (cin : bool) (s' : mst) : Prop :=
  let n := nbits (f32 o) in
  keeps s s' [dst; 25; 26; 28; 29] /\ (u = false -> rd s' dst = canon n (res2 k n a b cin)) /\
  flags_rep o k (res2 k n a b cin) (flag2 k (vf o) n a b cin) s'.

Lemma post_of o k u dst s a b cin u' res fl s' : k <> O_MUL -> (u = false -> u' = false) -> res = res2 k (nbits (f32 o)) a b cin ->
  (has_v o = true -> fl = flag2 k (vf o) (nbits (f32 o)) a b cin) -> post2 o u' dst s res fl s' -> post_b o k u dst s a b cin s'.
Proof.
  intros N U -> E (K & V & Z1 & F). split; auto. split; auto. split; auto.
  intros Hv. specialize (F Hv). rewrite <- E by auto. destruct k; cbn [flag_rep]; auto. congruence.
Qed.

Section S.
Variables (c : cfg) (o : op) (k : op2k) (u rr i2 : bool) (dst src1 src2 : Z) (s : mst) (a b : Z) (cin : bool).
Notation n := (nbits (f32 o)).
Hypothesis (Ko : kind o = K2 k) (W : wf s) (Hd : dreg dst) (H1 : s1reg src1) (Va : rd s src1 = canon n a) (Ba : 0 <= a < 2 ^ n) (Bb : 0 <= b < 2 ^ n).
Hypothesis (Fl : flags_legal k (setz o) (vf o)).
Hypothesis (O : if shifts k then (if i2 then 0 < src2 < n /\ b = src2 else s2reg src2 /\ rd s src2 = canon n b) else opnd s (f32 o) i2 src2 b).
Hypothesis (Nm : k = O_MUL -> i2 = false).
Hypothesis (Ci : uses_carry k = true -> rd s 29 = b2z cin).
Hypothesis (X1 : k = O_ADD \/ k = O_SUB -> cC c = true -> vf o = VOverflow -> i2 = true -> 0 <= src2 -> src1 <> 0).
Hypothesis (X2 : k = O_ADD \/ k = O_ADDC -> vf o = VCarry -> i2 = false -> (if src1 =? dst then src2 else src1) <> 0).

Lemma single2_ok : ok (emit_single_op c o i2 u rr dst src1 src2) s (post_b o k u dst s a b cin).
Proof.
  unfold emit_single_op. rewrite Ko.
  assert (Ma := modN (f32 o) a Ba). assert (Mb := modN (f32 o) b Bb).
  assert (HV : vf o = VNone -> has_v o = true -> false = flag2 k (vf o) (nbits (f32 o)) a b cin).
  { intros V. unfold has_v, is_v. rewrite V. discriminate. }
  destruct k; cbn [shifts flags_legal uses_carry] in *.
  - eapply ok_mono. { apply (so_add_ok c o u dst src1 src2 s a b); auto. }
    intros s'. apply post_of; try discriminate; auto; cbn [res2]; rewrite ?Ma, ?Mb; auto.
    intros _. destruct Fl as [-> | [-> | ->]]; cbn [flag2 flag_add]; rewrite ?Ma, ?Mb; auto.
  - eapply ok_mono. { apply (so_addc_ok c o false dst src1 src2 s a b) with (cin := cin); tauto. }
    intros s'. apply post_of; try discriminate; auto; cbn [res2]; rewrite ?Ma, ?Mb; auto.
    unfold has_v, is_v. destruct Fl as (_ & [-> | ->]); cbn [flag2 flag_add]; rewrite ?Ma, ?Mb; auto. discriminate.
  - eapply ok_mono. { apply (so_sub_ok c o u dst src1 src2 s a b); auto. }
    intros s'. apply post_of; try discriminate; auto; cbn [res2]; rewrite ?Ma, ?Mb; auto.
    intros _. destruct (vf o); cbn [flag2 flag_sub]; rewrite ?Ma, ?Mb; auto.
  - eapply ok_mono. { apply (so_subc_ok c o false dst src1 src2 s a b) with (cin := cin); tauto. }
    intros s'. apply post_of; try discriminate; auto; cbn [res2]; rewrite ?Ma, ?Mb; auto.
    unfold has_v, is_v. destruct Fl as (_ & [-> | ->]); cbn [flag2]; rewrite ?Ma, ?Mb; auto. discriminate.
  - rewrite Nm in O by auto. destruct O as (O1 & O2).
    eapply ok_mono. { apply (so_mul_ok o dst src1 src2 s a b); tauto. }
    intros s' (K & V & F). split; auto. cbn [res2]. rewrite Ma, Mb. split; auto. split. { destruct Fl as (-> & _). discriminate. }
    unfold has_v, is_v in *. cbn [flag_rep]. destruct Fl as (_ & [E | E]); rewrite E in *; cbn [flag2]; [discriminate|]. rewrite Ma, Mb. exact F.
  - eapply ok_mono. { apply (so_logical_ok c o u dst src1 src2 s a b) with (g := Z.land) (oi := Andi) (oreg := And); auto using opnd_9.
      - intros; apply Z.land_comm.
      - intros; apply canon_land.
      - intros; apply x_C_AND; auto. - intros _ s0 d i P A B C D. apply x_C_ANDI; auto. rewrite sext6_small by lia. auto. }
    intros s'. apply post_of; try discriminate; auto; cbn [res2]; rewrite ?Ma, ?Mb; auto.
  - eapply ok_mono. { apply (so_logical_ok c o u dst src1 src2 s a b) with (g := Z.lor) (oi := Ori) (oreg := Or); auto using opnd_9.
      - intros; apply Z.lor_comm.
      - intros; apply canon_lor.
      - intros; apply x_C_OR; auto. - congruence. }
    intros s'. apply post_of; try discriminate; auto; cbn [res2]; rewrite ?Ma, ?Mb; auto.
  - eapply ok_mono. { apply (so_logical_ok c o u dst src1 src2 s a b) with (g := Z.lxor) (oi := Xori) (oreg := Xor); auto using opnd_9.
      - intros; apply Z.lxor_comm.
      - intros; apply canon_lxor.
      - intros; apply x_C_XOR; auto. - congruence. }
    intros s'. apply post_of; try discriminate; auto; cbn [res2]; rewrite ?Ma, ?Mb; auto.
  - eapply ok_mono. { apply (so_shl_ok c o u dst src1 src2 s a b); auto. }
    intros s'. apply post_of; try discriminate; auto; cbn [res2]; rewrite ?Ma, ?Mb; auto.
  - eapply ok_mono. { apply (so_shl_ok c o u dst src1 src2 s a b); auto. }
    intros s'. apply post_of; try discriminate; auto; cbn [res2]; rewrite ?Ma, ?Mb; auto.
  - eapply ok_mono. { apply (so_lshr_ok c o u dst src1 src2 s a b); auto. }
    intros s'. apply post_of; try discriminate; auto; cbn [res2]; rewrite ?Ma, ?Mb; auto.
  - eapply ok_mono. { apply (so_lshr_ok c o u dst src1 src2 s a b); auto. }
    intros s'. apply post_of; try discriminate; auto; cbn [res2]; rewrite ?Ma, ?Mb; auto.
  - eapply ok_mono. { apply (so_ashr_ok c o u dst src1 src2 s a b); auto. }
    intros s'. apply post_of; try discriminate; auto; cbn [res2]; rewrite ?Ma, ?Mb; auto.
  - eapply ok_mono. { apply (so_ashr_ok c o u dst src1 src2 s a b); auto. }
    intros s'. apply post_of; try discriminate; auto; cbn [res2]; rewrite ?Ma, ?Mb; auto.
  - destruct Fl. eapply ok_mono. { apply (so_rot_ok c o u dst src1 src2 s a b) with (left := true); auto. }
    intros s'. apply post_of; try discriminate; auto; cbn [res2]; rewrite ?Ma, ?Mb; auto.
  - destruct Fl. eapply ok_mono. { apply (so_rot_ok c o u dst src1 src2 s a b) with (left := false); auto. }
    intros s'. apply post_of; try discriminate; auto; cbn [res2]; rewrite ?Ma, ?Mb; auto.
Qed.
End S.

(** ** emit_op for binary operations *)
Definition core (c : cfg) (o : op) (u rr : bool) (dst_r tmp ld fl : Z) (dst : arg) (dstw : Z) (i2 : bool) (imm : Z) (src1 : arg) (w1 : Z) (src2 : arg) (w2 : Z) : em :=
  let src1_r := snd (op_src1 c ld src1 w1) in
  let slow := op_slow c ld src1_r tmp dst dstw src1 w1 src2 w2 no_cache in
  fst (op_src1 c ld src1 w1) ;; fst (op_src2 c ld i2 imm tmp src2 w2) ;; fst slow ;;
  emit_single_op c o i2 u rr dst_r src1_r (snd (op_src2 c ld i2 imm tmp src2 w2)) ;; fst (op_dst c fl dst_r dst dstw (snd slow)).
Definition dst_reg (dst : arg) : Z := match dst with AReg r => if r =? 0 then TMP_REG2 else r | _ => TMP_REG2 end.

Lemma emit_op_core c o k fl cumul immop dst dstw src1 w1 src2 w2 i2 imm a1 v1 a2 v2 : kind o = K2 k ->
  op_imms (mkF fl false cumul immop false) src1 w1 src2 w2 = (i2, imm, (a1, v1), (a2, v2)) ->
  fst (emit_op c o (mkF fl false cumul immop false) dst dstw src1 w1 src2 w2 no_cache) =
  core c o (is_unused dst) (match dst with AReg r => negb (r =? 0) | _ => false end && is_reg a2) (dst_reg dst)
    (if is_reg src1 then TMP_REG1 else TMP_REG2) (fl .| LOAD_DATA) fl dst dstw i2 imm a1 v1 a2 v2.
Proof.
  intros Ko E. unfold emit_op, core, is_op2. rewrite E, Ko. cbn [o_keep o_move o_mem]. rewrite !andb_false_r.
  destruct (op_src1 c (fl .| LOAD_DATA) a1 v1) as [e1 r1]. cbn [fst snd].
  replace (match dst with AReg r => if is_unused dst then TMP_REG2 else r | _ => TMP_REG2 end) with (dst_reg dst) by (destruct dst; reflexivity).
  replace (match dst with AReg _ => negb (is_unused dst) | _ => false end) with (match dst with AReg r => negb (r =? 0) | _ => false end) by (destruct dst; reflexivity).
  cbn [andb]. set (tmp := if is_reg src1 then TMP_REG1 else TMP_REG2).
  destruct (op_src2 c (fl .| LOAD_DATA) i2 imm tmp a2 v2) as [e2 r2]. rewrite ?andb_false_r. cbn [andb].
  destruct (op_slow c (fl .| LOAD_DATA) r1 tmp dst dstw a1 v1 a2 v2 no_cache) as [e3 k3]. cbn [fst snd].
  destruct (op_dst c fl (dst_reg dst) dst dstw k3) as [e4 k4]. reflexivity.
Qed.

(** Destinations: those of the API, none (0) and TMP_REG2. *)
Definition dst_okp (d : arg) (w : Z) : Prop := match d with AReg r => 0 <= r <= 23 \/ r = 26 | AImm => False | AMem b o => mem_legal b o w end.

(** The exceptions, in terms of the operands of emit_op: the immediate zero in place of the first operand. *)
Definition zero_imm (a : arg) (w : Z) : bool := is_imm a && (w =? 0).

Section C.
Variables (c : cfg) (o : op) (k : op2k) (s : mst) (cin : bool) (dst : arg) (dstw : Z).
Notation n := (nbits (f32 o)).
Let fl := if f32 o then INT_DATA .| SIGNED_DATA else 0.
Let ld := fl .| LOAD_DATA.
Hypothesis (Ko : kind o = K2 k) (W : wf s) (Hd : dst_okp dst dstw) (Fl : flags_legal k (setz o) (vf o)) (Ci : uses_carry k = true -> rd s 29 = b2z cin).

Definition post_op2 (a b : Z) (s' : mst) : Prop :=
  dest s s' (if f32 o then 4 else 8)%nat dst dstw (canon n (res2 k n a b cin)) /\
  flags_rep o k (res2 k n a b cin) (flag2 k (vf o) n a b cin) s'.

Lemma core_ok rr tmp i2 imm src1 w1 src2 w2 a b :
  arg_ok src1 w1 -> arg_ok src2 w2 -> tmp = 25 \/ tmp = 26 -> (tmp <> 26 -> is_reg src1 = true) ->
  lval s ld src1 w1 = canon n a -> 0 <= a < 2 ^ n -> 0 <= b < 2 ^ n ->
  (i2 = false -> lval s ld src2 w2 = canon n b) ->
  (i2 = true -> src2 = AImm /\ k <> O_MUL /\ simm imm = true /\ (if shifts k then 0 < imm < n /\ b = imm else wrap imm = canon n b)) ->
  (k = O_ADD \/ k = O_SUB -> cC c = true -> vf o = VOverflow -> i2 = true -> 0 <= imm -> zero_imm src1 w1 = false) ->
  (k = O_ADD \/ k = O_ADDC -> vf o = VCarry -> i2 = false -> zero_imm src1 w1 = false) ->
  (k = O_ADD \/ k = O_ADDC -> vf o = VCarry -> i2 = false -> zero_imm src2 w2 = true -> forall r, src1 = AReg r -> dst <> AReg r) ->
  (is_reg src1 = true -> src1 <> AReg 0) -> (is_reg src2 = true -> src2 <> AReg 0) ->
  ok (core c o (is_unused dst) rr (dst_reg dst) tmp ld fl dst dstw i2 imm src1 w1 src2 w2) s (post_op2 a b).
Proof.
  intros A1 A2 T1 T2 Va Ba Bb Vb I2 E1 E2 E3 N1 N2. unfold core.
  assert (Lf : 0 <= ld < 16 /\ ld .& LOAD_DATA <> 0 /\ 0 <= fl < 16 /\ fl .& LOAD_DATA = 0 /\ bytes (fsize fl) = (if f32 o then 4 else 8)%nat).
  { unfold ld, fl. destruct (f32 o); vm_compute; repeat split; congruence. } destruct Lf as (Lf1 & Lf2 & Lf3 & Lf4 & Lf5). clearbody fl ld.
  set (src1_r := snd (op_src1 c ld src1 w1)). set (slow := op_slow c ld src1_r tmp dst dstw src1 w1 src2 w2 no_cache).
  set (src2_r := snd (op_src2 c ld i2 imm tmp src2 w2)).
  assert (D : dreg (dst_reg dst)). { unfold dreg, dst_reg, TMP_REG2, dst_okp in *. destruct dst as [r| |]; try lia. destruct (r =? 0) eqn:?; lia. }
  assert (R1 : s1reg src1_r /\ (src1_r = 0 -> zero_imm src1 w1 = true) /\ (1 <= src1_r <= 23 -> src1 = AReg src1_r)).
  { unfold s1reg, src1_r, zero_imm, TMP_REG1, TMP_ZERO. destruct src1 as [r| |b1 o1]; cbn [op_src1 snd is_imm arg_ok is_reg] in *.
    - split; [lia|]. split; [intros ->; destruct (N1 eq_refl eq_refl)|auto].
    - destruct (w1 =? 0); cbn [negb snd andb]; unfold TMP_REG1, TMP_ZERO; (split; [lia|split; intros; solve [reflexivity | exfalso; lia]]).
    - unfold TMP_REG1. (split; [lia|split; intros; exfalso; lia]). }
  assert (R2 : i2 = false -> s2reg src2_r /\ (src2_r = 0 -> zero_imm src2 w2 = true)).
  { intros ->. unfold s2reg, src2_r, zero_imm, TMP_ZERO. destruct src2 as [r| |b2 o2]; cbn [op_src2 snd is_imm arg_ok is_reg] in *.
    - split; [lia|]. intros ->; destruct (N2 eq_refl eq_refl).
    - destruct (w2 =? 0); cbn [negb snd andb]; unfold TMP_ZERO; (split; [lia|intros; solve [reflexivity | exfalso; lia]]).
    - split; [lia|intros; exfalso; lia]. }
  destruct R1 as (R1a & R1b & R1c).
  apply ok_then. eapply ok_mono. { apply operands_ok with (P := fun s3 => ok (emit_single_op c o i2 (is_unused dst) rr (dst_reg dst) src1_r src2_r ;; fst (op_dst c fl (dst_reg dst) dst dstw (snd slow))) s3 (post_op2 a b))
      (i2 := i2) (imm := imm) (src2 := src2) (w2 := w2) (tmp := tmp) (dst := dst) (dstw := dstw); auto.
    - intros Q; destruct (I2 Q); auto. - lia.
    - fold src1_r src2_r slow. intros s1 W1 K1 C1 V1 V2.
      apply ok_then. apply ok_wfP; auto. eapply ok_mono.
      { apply (single2_ok c o k (is_unused dst) rr i2 (dst_reg dst) src1_r src2_r s1 a b cin); auto.
        - congruence.
        - destruct i2.
          + destruct I2 as (-> & Nm & Si & Sh); auto. unfold src2_r. cbn [op_src2 snd]. unfold simm, SIMM_MAX, SIMM_MIN in Si.
            destruct (shifts k); auto. unfold opnd. split; [lia|]. split; [lia|]. auto.
          + destruct (R2 eq_refl). specialize (V2 eq_refl). specialize (Vb eq_refl). destruct (shifts k); [|unfold opnd]; split; congruence.
        - intros Hk. destruct i2; auto. destruct (I2 eq_refl) as (_ & Nm & _). congruence.
        - intros U. rewrite <- (Ci U). apply (keeps_rd _ _ _ _ K1); [vl|cbn; lia].
        - intros Hk Hc Hv Hi Hs Z1. destruct (I2 Hi) as (-> & _). assert (src2_r = imm). { unfold src2_r. rewrite Hi. reflexivity. }
          specialize (E1 Hk Hc Hv Hi ltac:(lia)). rewrite (R1b Z1) in E1. discriminate.
        - intros Hk Hv Hi. destruct (src1_r =? dst_reg dst) eqn:Eq.
          + intros Z2. destruct (R2 Hi) as (_ & R2b). specialize (R2b Z2).
            assert (src1 = AReg src1_r) as Er. { apply R1c. unfold s1reg, dreg in *. lia. }
            apply (E3 Hk Hv Hi R2b src1_r Er). unfold dst_reg, TMP_REG2 in Eq. unfold s1reg in R1a. destruct dst as [r| |]; try lia. destruct (r =? 0) eqn:?; try lia.
            f_equal. lia.
          + intros Z1. specialize (E2 Hk Hv Hi). rewrite (R1b Z1) in E2. discriminate. }
      cbv beta. intros s2 (K2 & V & F1 & F2) W2. apply dst_ok; auto; try (unfold dreg in D; vl).
      { destruct dst as [r| |b1 o1]; auto. split; auto. eapply cache_ok_same. { apply C1. lia. }
        - apply (keeps_rd _ _ _ _ K2); [vl|cbn; unfold dst_reg, TMP_REG2; lia].
        - intros r Hr. apply (keeps_rd _ _ _ _ K2); [vl|cbn; unfold dst_reg, TMP_REG2; lia]. }
      intros s3 S3. unfold post_op2, dest.
      assert (Kv : forall q, visible q -> q <> dst_reg dst -> rd s2 q = rd s q).
      { intros q Q N. assert (vreg q /\ q <> 25 /\ q <> 26 /\ q <> 27 /\ q <> 28 /\ q <> 29). { unfold visible, ureg, NREGS, SLJIT_SP, vreg in *. lia. }
        rewrite (keeps_rd _ _ _ q K2); [|tauto|cbn; lia]. apply (keeps_rd _ _ _ _ K1); [tauto|cbn; lia]. }
      destruct K1 as (M1 & G1 & _ & K1). destruct K2 as (M2 & G2 & _ & K2).
      destruct dst as [r| |b1 o1]; [|destruct Hd|].
      + subst s3. split; [|split; auto]. split; [congruence|]. cbn [is_unused dst_reg] in *. split; [|split].
        * intros Nr. replace (r =? 0) with false in * by lia. auto.
        * congruence.
        * intros q Q N. apply Kv; auto. destruct (r =? 0); auto. unfold TMP_REG2. unfold visible, ureg, NREGS, SLJIT_SP in Q. lia.
      + destruct S3 as (S3 & S4 & S5). cbn [is_unused dst_reg] in *. split; [split; [congruence|split]|].
        * rewrite S3, Lf5, V by auto. apply mem_regs in Hd. rewrite (addr_same s s2); [congruence| |];
            rewrite K2 by (try vl; cbn; unfold TMP_REG2; lia); apply K1; try vl; cbn; lia.
        * intros q Q. rewrite S5 by (unfold visible, ureg, NREGS, SLJIT_SP, vreg in *; lia). apply Kv; auto. unfold visible, ureg, NREGS, SLJIT_SP, TMP_REG2 in *. lia.
        * unfold flags_rep in *. rewrite !S5 by vl. split; auto. }
  cbv beta. intros s1 X. apply ok_then. eapply ok_mono; [exact X|]. cbv beta. intros s2 Y. apply ok_then. exact Y.
Qed.
End C.

(** ** The API function *)
Lemma res2_mod k n x y cin : 0 < 2 ^ n -> res2 k n (x mod 2 ^ n) (y mod 2 ^ n) cin = res2 k n x y cin.
Proof. intros P. unfold res2. rewrite !Z.mod_mod by lia. reflexivity. Qed.
Lemma flag2_mod k v n x y cin : 0 < 2 ^ n -> flag2 k v n (x mod 2 ^ n) (y mod 2 ^ n) cin = flag2 k v n x y cin.
Proof. intros P. unfold flag2. rewrite !Z.mod_mod by lia. reflexivity. Qed.
Definition cumulative (k : op2k) : bool := match k with O_ADD | O_ADDC | O_MUL | O_AND | O_OR | O_XOR => true | _ => false end.
Lemma res2_comm k n x y cin : cumulative k = true -> res2 k n x y cin = res2 k n y x cin.
Proof. destruct k; try discriminate; intros _; cbn [res2]; try lia; auto using Z.land_comm, Z.lor_comm, Z.lxor_comm. Qed.
Lemma flag2_comm k z v n x y cin : cumulative k = true -> flags_legal k z v -> flag2 k v n x y cin = flag2 k v n y x cin.
Proof.
  destruct k; try discriminate; intros _; cbn [flags_legal]; intros F; destruct v; try (cbn [flag2]; reflexivity);
    try (exfalso; intuition discriminate); cbn [flag2]; f_equal; lia.
Qed.
Lemma shift_b f k x y cin : shifts k = true -> res2 k (nbits f) x (y mod nbits f) cin = res2 k (nbits f) x y cin.
Proof.
  intros S. assert (E : ((y mod nbits f) mod 2 ^ nbits f) mod nbits f = (y mod 2 ^ nbits f) mod nbits f).
  { rewrite !mod_n. apply Z.mod_mod. destruct f; cbn; lia. }
  destruct k; try discriminate; cbn [res2]; rewrite E; reflexivity.
Qed.
Lemma shift_flag k v n x y y' cin z : shifts k = true -> flags_legal k z v -> flag2 k v n x y cin = flag2 k v n x y' cin.
Proof. destruct k; try discriminate; intros _; cbn [flags_legal]; intros F; try destruct F as (_ & F); subst v; reflexivity. Qed.

(** The immediate that emit_op2 uses. *)
Definition tw (o : op) (a : arg) (w : Z) : Z := if f32 o && is_imm a then s32 w else w.
(** The cases where the emitted code is wrong: the immediate zero with SLJIT_SET_OVERFLOW and another immediate, ... *)
Definition bad_overflow (n : Z) (src1 : arg) (w1 : Z) (src2 : arg) (w2 : Z) : bool :=
  is_imm src1 && is_imm src2 && ((sext n w1 =? 0) || (sext n w2 =? 0)).
(** ... and with SLJIT_SET_CARRY as first operand, or as second operand when the first operand is the destination. *)
Definition bad_carry (n : Z) (dst src1 : arg) (w1 : Z) (src2 : arg) (w2 : Z) : bool :=
  (is_imm src1 && (sext n w1 =? 0) && negb (is_imm src2 && simm (sext n w2))) ||
  (is_imm src2 && (sext n w2 =? 0) && match dst, src1 with AReg d, AReg r => d =? r | _, _ => false end).

Lemma lval_canon o s a w : wf s -> src_legal a w -> in_format s (nbits (f32 o)) a ->
  lval s ((if f32 o then INT_DATA .| SIGNED_DATA else 0) .| LOAD_DATA) a (tw o a w) = canon (nbits (f32 o)) (argval s (if f32 o then 4 else 8)%nat a w).
Proof.
  intros W L F. destruct a as [r| |b f]; cbn [lval argval src_legal in_format] in *; auto.
  - unfold tw. cbn [is_imm]. rewrite andb_true_r. destruct (f32 o); cbn [nbits]. { reflexivity. } rewrite canon64. reflexivity.
  - unfold tw. cbn [is_imm]. rewrite andb_false_r. destruct (f32 o); reflexivity.
Qed.
Lemma tw_sext o w : - 2 ^ 63 <= w < 2 ^ 63 -> tw o AImm w = sext (nbits (f32 o)) w.
Proof. intros H. unfold tw. cbn [is_imm]. rewrite andb_true_r. destruct (f32 o); cbn [nbits]; auto. symmetry. apply (sext_small 64). lia. exact H. Qed.
Lemma arg_ok_src o a w : src_legal a w -> arg_ok a (tw o a w).
Proof.
  destruct a as [r| |b f]; cbn [src_legal arg_ok]; unfold ureg, NREGS; try lia.
  - intros H. rewrite tw_sext by auto. destruct (f32 o); cbn [nbits].
    + pose proof (sext_range 32 w ltac:(lia)). change (2 ^ (32 - 1)) with 2147483648 in *. lia.
    + apply (sext_range 64 w). lia.
  - intros H. unfold tw. cbn [is_imm]. rewrite andb_false_r. auto.
Qed.
Lemma src_nz a w : src_legal a w -> is_reg a = true -> a <> AReg 0.
Proof. destruct a as [r| |]; cbn; try discriminate. unfold ureg. intros H _ E. inversion E. lia. Qed.
Lemma mask_n o w : (if f32 o then w .& 0x1f else w .& 0x3f) = w mod nbits (f32 o).
Proof. destruct (f32 o); cbn [nbits]. - apply (land_low w 5); lia. - apply (land_low w 6); lia. Qed.

Section P.
Variables (c : cfg) (o : op) (k : op2k) (s : mst) (cin : bool) (dst : arg) (dstw : Z) (src1 : arg) (w1 : Z) (src2 : arg) (w2 : Z).
Notation n := (nbits (f32 o)).
Notation m := (if f32 o then 4 else 8)%nat.
Hypothesis (Ko : kind o = K2 k) (W : wf s) (Hd : dst_okp dst dstw) (Fl : flags_legal k (setz o) (vf o)) (Ci : uses_carry k = true -> rd s 29 = b2z cin).
Hypothesis (L1 : src_legal src1 w1) (L2 : src_legal src2 w2) (F1 : in_format s n src1) (F2 : in_format s n src2).
Hypothesis (B1 : k = O_ADD \/ k = O_SUB -> cC c = true -> vf o = VOverflow -> bad_overflow n src1 w1 src2 w2 = false).
Hypothesis (B2 : k = O_ADD \/ k = O_ADDC -> vf o = VCarry -> bad_carry n dst src1 w1 src2 w2 = false).

Lemma emit_op2_ok : ok (emit_op2 c o dst dstw src1 w1 src2 w2) s (fun s' =>
  let x := argval s m src1 w1 in let y := argval s m src2 w2 in
  dest s s' m dst dstw (canon n (res2 k n x y cin)) /\ flags_rep o k (res2 k n x y cin) (flag2 k (vf o) n x y cin) s').
Proof.
  assert (Pn := nb_pos (f32 o)).
  set (x := argval s m src1 w1). set (y := argval s m src2 w2).
  set (fl := if f32 o then INT_DATA .| SIGNED_DATA else 0).
  assert (V1 : lval s (fl .| LOAD_DATA) src1 (tw o src1 w1) = canon n (x mod 2 ^ n)) by (rewrite canon_of_mod; apply lval_canon; auto).
  assert (V2 : lval s (fl .| LOAD_DATA) src2 (tw o src2 w2) = canon n (y mod 2 ^ n)) by (rewrite canon_of_mod; apply lval_canon; auto).
  assert (Bx : 0 <= x mod 2 ^ n < 2 ^ n) by (apply Z.mod_pos_bound; auto).
  assert (By : 0 <= y mod 2 ^ n < 2 ^ n) by (apply Z.mod_pos_bound; auto).
  assert (A1 := arg_ok_src o src1 w1 L1). assert (A2 := arg_ok_src o src2 w2 L2).
  (* the last step: the operands modulo 2^n *)
  assert (Q : forall a b e, (a = x mod 2 ^ n /\ (if shifts k then b = y mod 2 ^ n \/ b = y mod n else b = y mod 2 ^ n) \/ cumulative k = true /\ a = y mod 2 ^ n /\ b = x mod 2 ^ n) ->
    ok e s (post_op2 o k s cin dst dstw a b) ->
    ok e s (fun s' => dest s s' m dst dstw (canon n (res2 k n x y cin)) /\ flags_rep o k (res2 k n x y cin) (flag2 k (vf o) n x y cin) s')).
  { intros a b e E H. eapply ok_mono; [exact H|]. intros s' (P1 & P2).
    assert (res2 k n a b cin = res2 k n x y cin /\ flag2 k (vf o) n a b cin = flag2 k (vf o) n x y cin) as (R1 & R2).
    { destruct E as [(-> & E) | (E & -> & ->)].
      - destruct (shifts k) eqn:S; [|subst; rewrite res2_mod, flag2_mod by auto; auto].
        destruct E as [-> | ->]; [rewrite res2_mod, flag2_mod by auto; auto|].
        rewrite <- (res2_mod k n x y), <- (flag2_mod k (vf o) n x y) by auto. split.
        + rewrite shift_b by auto. rewrite <- (res2_mod k n (x mod 2 ^ n) y) by auto. rewrite Z.mod_mod by lia. reflexivity.
        + eapply shift_flag; eauto.
      - rewrite res2_comm, (flag2_comm k (setz o)) by auto. rewrite res2_mod, flag2_mod by auto. auto. }
    rewrite R1, R2 in *. auto. }
  (* one call of emit_op *)
  assert (G : forall cumul immop w2', (k = O_MUL -> immop = false) -> (cumul = true -> cumulative k = true) -> (cumul = true -> shifts k = false) ->
    (k = O_ADD \/ k = O_ADDC \/ k = O_SUB -> immop = true) ->
    (if shifts k && is_imm src2 then w2' = tw o src2 w2 mod n else w2' = tw o src2 w2) ->
    ok (fst (emit_op c o (mkF fl false cumul immop false) dst dstw src1 (tw o src1 w1) src2 w2' no_cache)) s
      (fun s' => dest s s' m dst dstw (canon n (res2 k n x y cin)) /\ flags_rep o k (res2 k n x y cin) (flag2 k (vf o) n x y cin) s')).
  { intros cumul immop w2' Im Cu Cs Ia Ew.
    set (b := if shifts k && is_imm src2 then y mod n else y mod 2 ^ n).
    assert (Nn : 32 <= n <= 64 /\ n <= 2 ^ n). { destruct (f32 o); cbn; lia. }
    assert (Hy : src2 = AImm -> y = w2) by (unfold y; intros ->; reflexivity).
    assert (Ty : src2 = AImm -> shifts k = true -> w2' = y mod n).
    { intros Ei Es. rewrite Es, Ei in Ew. cbn [is_imm andb] in Ew. rewrite Ew, Hy by auto. rewrite Ei in L2. cbn [src_legal] in L2. rewrite tw_sext by auto.
      rewrite <- (canon_mod_n (f32 o)), canon_mod_n. pose proof (mod_n (f32 o) (sext n w2)) as E1. pose proof (mod_n (f32 o) w2) as E2.
      rewrite <- E1, <- E2. f_equal. destruct (sext_mod n w2 ltac:(lia)) as (q & Eq). rewrite Eq at 2. rewrite Z.mod_add by lia. reflexivity. }
    assert (A2' : arg_ok src2 w2').
    { destruct (shifts k) eqn:Es, (is_imm src2) eqn:Ei; cbn [andb] in Ew; try (rewrite Ew; exact A2).
      assert (src2 = AImm) by (destruct src2; auto; discriminate). rewrite Ty by auto. pose proof (Z.mod_pos_bound y n ltac:(lia)). rewrite H. cbn [arg_ok]. lia. }
    assert (Bb : 0 <= b < 2 ^ n). { unfold b. destruct (shifts k && is_imm src2); auto. pose proof (Z.mod_pos_bound y n ltac:(lia)). lia. }
    assert (Vb : lval s (fl .| LOAD_DATA) src2 w2' = canon n b).
    { unfold b. destruct (shifts k) eqn:Es, (is_imm src2) eqn:Ei; cbn [andb] in *; try (rewrite Ew; exact V2).
      assert (src2 = AImm) by (destruct src2; auto; discriminate). rewrite Ty by auto. rewrite H. cbn [lval]. pose proof (Z.mod_pos_bound y n ltac:(lia)). rewrite canon_small by lia. reflexivity. }
    assert (S1 : src1 = AImm -> tw o src1 w1 = sext n w1). { intros E. rewrite E in *. apply tw_sext. exact L1. }
    assert (S2 : src2 = AImm -> shifts k = false -> w2' = sext n w2). { intros E Es. rewrite Es in Ew. cbn [andb] in Ew. rewrite Ew. rewrite E in *. apply tw_sext. exact L2. }
    unfold op_imms in *.
    destruct (immop && is_imm src2 && simm w2') eqn:C1; [|destruct (immop && cumul && is_imm src1 && simm (tw o src1 w1)) eqn:C2].
    - apply andb_prop in C1 as (C1 & Sm). apply andb_prop in C1 as (Ip & Ei). assert (E2 : src2 = AImm) by (destruct src2; auto; discriminate).
      rewrite (emit_op_core c o k fl cumul immop dst dstw src1 (tw o src1 w1) src2 w2' true w2' src1 (tw o src1 w1) src2 w2' Ko)
        by (unfold op_imms; cbn [o_immop o_cumul]; rewrite Ip, Ei, Sm; reflexivity).
      apply Q with (a := x mod 2 ^ n) (b := b). { left. split; auto. unfold b. destruct (shifts k); cbn [andb]; auto. destruct (is_imm src2); auto. }
      apply core_ok; auto; unfold TMP_REG1, TMP_REG2; try (destruct (is_reg src1); solve [auto | congruence]); try discriminate.
      + intros _. split; auto. split. { intros E. rewrite (Im E) in Ip. discriminate. } split; auto.
        destruct (shifts k) eqn:Es.
        * assert (b = w2') as ->. { unfold b. rewrite Ei. cbn [andb]. rewrite Ty by auto. reflexivity. } split; auto. rewrite Ty in * by auto. pose proof (Z.mod_pos_bound y n ltac:(lia)).
          unfold simm in Sm. lia.
        * rewrite E2 in Vb. exact Vb.
      + intros Hk Hc Hv _ _. specialize (B1 Hk Hc Hv). unfold bad_overflow in B1. unfold zero_imm. destruct (is_imm src1) eqn:Ei1; auto.
        rewrite Ei in B1. cbn [andb] in *. rewrite S1 by (destruct src1; auto; discriminate). apply orb_false_elim in B1. tauto.
      + intros; eapply src_nz; eauto.
    - apply andb_prop in C2 as (C2 & Sm). apply andb_prop in C2 as (C2 & Ei). apply andb_prop in C2 as (Ip & Cm). assert (E1 : src1 = AImm) by (destruct src1; auto; discriminate).
      specialize (Cu Cm). specialize (Cs Cm). rewrite Cs in *. cbn [andb] in *.
      rewrite (emit_op_core c o k fl cumul immop dst dstw src1 (tw o src1 w1) src2 w2' true (tw o src1 w1) src2 w2' AImm w2' Ko)
        by (unfold op_imms; cbn [o_immop o_cumul]; rewrite C1, Ip, Cm, Ei, Sm; reflexivity).
      apply Q with (a := y mod 2 ^ n) (b := x mod 2 ^ n). { right. auto. }
      rewrite E1. cbn [is_reg].
      match goal with |- ok (core ?a1 ?a2 ?a3 ?a4 ?a5 ?a6 ?a7 ?a8 ?a9 ?b1 ?b2 ?b3 ?b4 ?b5 _ _) _ _ => assert (Ec : core a1 a2 a3 a4 a5 a6 a7 a8 a9 b1 b2 b3 b4 b5 AImm w2' = core a1 a2 a3 a4 a5 a6 a7 a8 a9 b1 b2 b3 b4 b5 AImm 0) end.
      { clear. unfold core, op_slow. cbn [is_slow andb op_src2 fst snd]. rewrite !andb_false_r. reflexivity. }
      rewrite Ec. apply core_ok; auto; unfold TMP_REG1, TMP_REG2; try discriminate; try congruence.
      + cbn [arg_ok]. lia.
      + unfold b in Vb. rewrite Cs in Vb. exact Vb.
      + intros _. split; auto. split. { intros E. rewrite (Im E) in Ip. discriminate. } split. { rewrite E1 in Sm. auto. } rewrite Cs. rewrite E1 in V1. exact V1.
      + intros Hk Hc Hv _ _. specialize (B1 Hk Hc Hv). unfold bad_overflow in B1. unfold zero_imm. destruct (is_imm src2) eqn:Ei2; auto.
        rewrite Ei in B1. cbn [andb] in *. rewrite S2 by (try (destruct src2; auto; discriminate); auto). apply orb_false_elim in B1. tauto.
      + intros; eapply src_nz; eauto.
    - rewrite (emit_op_core c o k fl cumul immop dst dstw src1 (tw o src1 w1) src2 w2' false 0 src1 (tw o src1 w1) src2 w2' Ko)
        by (unfold op_imms; cbn [o_immop o_cumul]; rewrite C1, C2; reflexivity).
      apply Q with (a := x mod 2 ^ n) (b := b). { left. split; auto. unfold b. destruct (shifts k); cbn [andb]; auto. destruct (is_imm src2); auto. }
      apply core_ok; auto; unfold TMP_REG1, TMP_REG2; try (destruct (is_reg src1); solve [auto | congruence]); try discriminate.
      + intros Hk Hv _. specialize (B2 Hk Hv). unfold bad_carry in B2. apply orb_false_elim in B2 as (B2 & _). unfold zero_imm. destruct (is_imm src1) eqn:Ei1; auto.
        rewrite S1 by (destruct src1; auto; discriminate). cbn [andb] in *. destruct (sext n w1 =? 0); auto. cbn [andb] in B2.
        assert (Es : shifts k = false) by (destruct Hk as [-> | ->]; auto). destruct (is_imm src2) eqn:Ei2; [|discriminate].
        rewrite Ia in C1 by tauto. rewrite S2 in C1 by (try (destruct src2; auto; discriminate); auto). cbn [andb negb] in *. destruct (simm (sext n w2)); discriminate.
      + intros Hk Hv _ Z2 r Er Ed. specialize (B2 Hk Hv). unfold bad_carry in B2. apply orb_false_elim in B2 as (_ & B2). unfold zero_imm in Z2. apply andb_prop in Z2 as (Z2 & Z3).
        assert (Es : shifts k = false) by (destruct Hk as [-> | ->]; auto). rewrite S2 in Z3 by (try (destruct src2; auto; discriminate); auto).
        rewrite Z2, Z3, Er, Ed, Z.eqb_refl in B2. discriminate.
      + intros; eapply src_nz; eauto.
      + intros; eapply src_nz; eauto. }
  unfold emit_op2. rewrite Ko. fold fl. change (if f32 o && is_imm src1 then s32 w1 else w1) with (tw o src1 w1). change (if f32 o && is_imm src2 then s32 w2 else w2) with (tw o src2 w2).
  cbv zeta. destruct k; apply G; auto; try discriminate; try (intros [E|[E|E]]; discriminate); cbn [shifts andb];
    try (destruct (is_imm src2); auto; apply mask_n).
Qed.
End P.
