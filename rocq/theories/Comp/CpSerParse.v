(** Reading back the bytes of an image, complete or truncated. *)
Require Import ZArith List Bool Lia Zify ZifyBool.
From Verif Require Import Rv.RvLib Rv.RvEnc Comp.CpMem Comp.CpState Comp.CpCore Comp.CpSer Comp.CpSerImg.
Import ListNotations.
Open Scope Z_scope.
Ltac Zify.zify_post_hook ::= idtac.

Lemma zlen_enc n v : zlen (enc n v) = Z.of_nat n. Proof. unfold zlen. rewrite enc_len. reflexivity. Qed.
Lemma zlen_nil {A} : zlen (@nil A) = 0. Proof. reflexivity. Qed.
Lemma zlen_cons {A} (x : A) l : zlen (x :: l) = zlen l + 1. Proof. unfold zlen. cbn [length]. lia. Qed.
(** [b] contains [l] at offset [off]. *)
Definition at_ (b : list Z) (off : Z) (l : list Z) : Prop := exists pre post, b = pre ++ l ++ post /\ zlen pre = off.
Section B.
Variable b : list Z.
Lemma at_app off l r : at_ b off (l ++ r) <-> at_ b off (l ++ r) /\ at_ b off l /\ at_ b (off + zlen l) r.
Proof.
  split; [|tauto]. intros (p & q & E & L). split; [|split].
  - exists p, q. auto.
  - exists p, (r ++ q). rewrite E, <- app_assoc. auto.
  - exists (p ++ l), q. rewrite E, !app_assoc, zlen_app. split; [reflexivity|lia].
Qed.
Lemma at_le off l : at_ b off l -> 0 <= off /\ off + zlen l <= bsize b.
Proof. intros (p & q & -> & <-). unfold bsize. fold (zlen (p ++ l ++ q)). rewrite !zlen_app. pose proof (zlen_pos p). pose proof (zlen_pos q). lia. Qed.
Lemma at_sub off l : at_ b off l -> sub b off (zlen l) = l.
Proof.
  intros (p & q & -> & <-). unfold sub, zlen. rewrite !Nat2Z.id. rewrite skipn_app, skipn_all, Nat.sub_diag. cbn [skipn app].
  rewrite firstn_app, firstn_all, Nat.sub_diag. cbn [firstn]. rewrite app_nil_r. reflexivity.
Qed.
Lemma at_rdw off v : at_ b off (enc 8 v) -> is64 v -> rdw b off = Some v.
Proof.
  intros A V. pose proof (at_le _ _ A) as L. rewrite zlen_enc in L. change (Z.of_nat 8) with 8 in L. unfold rdw. replace (0 <=? off) with true by lia. replace (off + 8 <=? bsize b) with true by lia. cbn [andb].
  pose proof (at_sub _ _ A) as S. rewrite zlen_enc in S. change (Z.of_nat 8) with 8 in S. rewrite S, dec_enc8; auto.
Qed.
Lemma left_ok off : 0 <= off <= bsize b -> bsize b < 2 ^ 64 -> left b off = bsize b - off.
Proof. intros H L. unfold left. apply wrap_small. unfold isw. lia. Qed.
End B.
Lemma prefix_split {A} (a c r t : list A) : a ++ c = r ++ t -> zlen a <= zlen r -> exists r2, r = a ++ r2 /\ c = r2 ++ t.
Proof.
  revert r. induction a as [|x a IH]; intros r E L; [exists r; auto|]. destruct r as [|y r]; [rewrite zlen_cons, zlen_nil in L; pose proof (zlen_pos a); lia|].
  cbn [app] in E. injection E as -> E. rewrite !zlen_cons in L. destruct (IH r E ltac:(lia)) as (r2 & -> & ->). exists r2. auto.
Qed.
Lemma align8_small n : 0 <= n <= 2 ^ 63 -> align8 n = (n + 7) / 8 * 8.
Proof.
  intros H. unfold align8. rewrite wrap_small by (unfold isw; lia). change (Z.lnot 7) with (Z.shiftl (-1) 3).
  replace (Z.land (n + 7) (Z.shiftl (-1) 3)) with (Z.shiftl (Z.shiftr (n + 7) 3) 3); [rewrite Z.shiftl_mul_pow2, Z.shiftr_div_pow2 by lia; reflexivity|].
  apply Z.bits_inj'. intros k K. rewrite Z.land_spec. destruct (Z_lt_ge_dec k 3).
  - rewrite !Z.shiftl_spec_low by lia. rewrite andb_false_r. reflexivity.
  - rewrite !Z.shiftl_spec_high, Z.shiftr_spec by lia. rewrite (Z.bits_opp 1), Z.bits_m1 || idtac; try lia. replace (k - 3 + 3) with k by lia. rewrite Z.bits_m1 by lia. rewrite andb_true_r. reflexivity.
Qed.
Lemma align8_bounds n : 0 <= n <= 2 ^ 63 -> n <= align8 n <= n + 7 /\ align8 n mod 8 = 0.
Proof. intros H. rewrite align8_small by auto. pose proof (Z.mul_div_le (n + 7) 8). pose proof (Z.mul_succ_div_gt (n + 7) 8). split; [lia|]. apply Z.mod_mul. lia. Qed.

(** ** Fragments *)
Definition frag_ok (f : list Z * list Z) : Prop := zlen (fst f) <= 4080 /\ zlen (snd f) = align8 (zlen (fst f)) - zlen (fst f).
Lemma frag_b_len f : frag_ok f -> zlen (frag_b f) = 8 + align8 (zlen (fst f)).
Proof. intros (_ & H). unfold frag_b. rewrite !zlen_app, zlen_enc, H. lia. Qed.
Lemma psegs_ok b fs : forall off fuel r T tail pre, b = pre ++ r -> zlen pre = off -> flat_map frag_b fs ++ T = r ++ tail -> Forall frag_ok fs -> zlen r < 8 * Z.of_nat fuel -> bsize b < 2 ^ 64 ->
  psegs b fuel (zlen fs) off = if zlen r <? zlen (flat_map frag_b fs) then PErr else PRet (off + zlen (flat_map frag_b fs), map fst fs).
Proof.
  induction fs as [|(l, pd) fs IH]; intros off fuel r T tail pre Eb Ep E F Lf Bb.
  - pose proof (zlen_pos r). cbn [flat_map map]. change (zlen (@nil (list Z * list Z))) with 0. change (zlen (@nil Z)) with 0. replace (zlen r <? 0) with false by lia. rewrite Z.add_0_r. destruct fuel; reflexivity.
  - destruct fuel as [|fuel]; [pose proof (zlen_pos r); lia|]. rewrite Nat2Z.inj_succ in Lf. apply Forall_cons_iff in F; destruct F as (F1 & F2). pose proof F1 as (F1a & F1b). cbn [fst snd] in F1a, F1b.
    pose proof (zlen_pos l) as Ll. pose proof (align8_bounds (zlen l) ltac:(lia)) as (Al & _).
    cbn [psegs flat_map map]. rewrite zlen_cons. pose proof (zlen_pos fs) as Lfs. replace (zlen fs + 1 =? 0) with false by lia.
    assert (BS : bsize b = off + zlen r) by (rewrite Eb; unfold bsize; fold (zlen (pre ++ r)); rewrite zlen_app; lia). pose proof (zlen_pos r) as Lr. pose proof (zlen_pos pre) as Lp.
    rewrite left_ok by lia. rewrite zlen_app, frag_b_len by exact F1. cbn [fst].
    pose proof (zlen_pos (flat_map frag_b fs)) as Lt.
    destruct (bsize b - off <? 8) eqn:C1. { replace (zlen r <? 8 + align8 (zlen l) + zlen (flat_map frag_b fs)) with true by lia. reflexivity. }
    cbn [flat_map] in E. unfold frag_b at 1 in E. cbn [fst snd] in E. rewrite <- !app_assoc in E.
    destruct (prefix_split _ _ _ _ E) as (r1 & R1 & E1). { rewrite zlen_enc. lia. }
    rewrite (at_rdw b off (zlen l)); [|exists pre, r1; rewrite Eb, R1; auto|unfold is64; lia].
    assert (LR : zlen r = 8 + zlen r1) by (rewrite R1, zlen_app, zlen_enc; lia). pose proof (zlen_pos r1) as Lr1.
    rewrite left_ok by lia. destruct (bsize b - (off + 8) <? align8 (zlen l)) eqn:C2. { replace (zlen r <? 8 + align8 (zlen l) + zlen (flat_map frag_b fs)) with true by lia. reflexivity. }
    unfold BUF_SIZE, MEMORY. replace (zlen l >? 4096 - 16) with false by lia. replace (off + 8 + zlen l >? bsize b) with false by lia. cbn [orb].
    rewrite !app_assoc in E1. rewrite <- (app_assoc (l ++ pd)) in E1. destruct (prefix_split _ _ _ _ E1) as (r2 & R2 & E2). { rewrite zlen_app, F1b. lia. }
    assert (LR2 : zlen r1 = align8 (zlen l) + zlen r2) by (rewrite R2, !zlen_app, F1b; lia).
    replace (zlen fs + 1 - 1) with (zlen fs) by lia.
    rewrite (IH (off + 8 + align8 (zlen l)) fuel r2 T tail (pre ++ enc 8 (zlen l) ++ l ++ pd)); auto; try lia.
    + replace (zlen r2 <? zlen (flat_map frag_b fs)) with (zlen r <? 8 + align8 (zlen l) + zlen (flat_map frag_b fs)) by (apply eq_true_iff_eq; rewrite !Z.ltb_lt; lia).
      destruct (zlen r <? 8 + align8 (zlen l) + zlen (flat_map frag_b fs)); cbn [pbind fst snd]; [reflexivity|]. f_equal. f_equal; [lia|]. f_equal.
      apply at_sub. exists (pre ++ enc 8 (zlen l)), (pd ++ r2). rewrite Eb, R1, R2, <- !app_assoc. split; [reflexivity|]. rewrite zlen_app, zlen_enc. lia.
    + rewrite Eb, R1, R2, <- !app_assoc. reflexivity.
    + rewrite !zlen_app, zlen_enc, F1b. lia.
Qed.

(** ** Records *)
Definition lab_wf (l : lrec) : Prop := match snd l with None => 0 <= fst l < LABEL_ALIGNED | Some (t, d) => LABEL_ALIGNED <= t < 2 ^ 64 /\ is64 (fst l) /\ is64 d end.
Lemma plabs_ok b ls : forall i n a al off fuel, at_ b off (flat_map lab_b ls) -> Forall lab_wf ls -> n = i + zlen ls -> 0 <= i -> 8 * n < 2 ^ 64 -> 0 <= a -> al = a + n_aligned ls -> (length ls <= fuel)%nat ->
  plabs b fuel i n al off = PRet (off + zlen (flat_map lab_b ls), a, ls).
Proof.
  induction ls as [|(sz, o) ls IH]; intros i n a al off fuel A W En I0 Bn A0 Ea Lf.
  - rewrite zlen_nil in En. unfold n_aligned in Ea. cbn [filter] in Ea. rewrite zlen_nil in Ea. cbn [flat_map]. rewrite zlen_nil, Z.add_0_r. destruct fuel; cbn [plabs]; replace (i <? n) with false by lia; cbn [negb]; do 2 f_equal; f_equal; lia.
  - rewrite zlen_cons in En. pose proof (zlen_pos ls). apply Forall_cons_iff in W; destruct W as (W1 & W2). destruct fuel as [|fuel]; cbn [length] in Lf; [lia|]. cbn [plabs]. replace (i <? n) with true by lia. cbn [negb].
    cbn [flat_map] in A |- *. unfold lab_wf in W1. unfold n_aligned in *. cbn [filter aligned fst snd] in *. pose proof (zlen_pos (filter aligned ls)).
    rewrite (wrap_small (8 * n)) by (unfold isw; lia).
    destruct o as [(t, d)|]; cbn [lab_b fst snd] in *.
    + apply at_app in A. destruct A as (_ & A & A4). apply at_app in A. destruct A as (_ & A1 & A). apply at_app in A. destruct A as (_ & A2 & A3).
      rewrite !zlen_app, !zlen_enc in A4. rewrite !zlen_enc in A3. rewrite !zlen_enc in A2. change (Z.of_nat 8) with 8 in *. destruct W1 as (W1a & W1b & W1c). unfold LABEL_ALIGNED in W1a.
      rewrite (at_rdw _ _ _ A1) by (unfold is64; lia). replace (8 * (i + 1) >? 8 * n) with false by lia. replace (t <? LABEL_ALIGNED) with false by (unfold LABEL_ALIGNED; lia).
      change (aligned (sz, Some (t, d))) with true in Ea. cbv iota in Ea. rewrite zlen_cons in Ea. replace (al =? 0) with false by lia.
      rewrite (at_rdw _ _ _ A2 W1b). rewrite (at_rdw _ _ _ A3 W1c). rewrite (IH (i + 1) n a (al - 1) (off + 8 + 16) fuel); auto; try lia.
      * cbn [pbind fst snd]. rewrite !zlen_app, !zlen_enc. change (Z.of_nat 8) with 8. match goal with |- PRet (?u, _, _) = PRet (?v, _, _) => replace u with v by lia end. reflexivity.
      * replace (off + 8 + 16) with (off + (8 + (8 + 8))) by lia. exact A4.
    + change (aligned (sz, None)) with false in Ea. cbv iota in Ea. apply at_app in A. destruct A as (_ & A1 & A). rewrite zlen_enc in A. change (Z.of_nat 8) with 8 in A. unfold LABEL_ALIGNED in W1.
      rewrite (at_rdw _ _ _ A1) by (unfold is64; lia). replace (8 * (i + 1) >? 8 * n) with false by lia. replace (sz <? LABEL_ALIGNED) with true by (unfold LABEL_ALIGNED; lia).
      rewrite (IH (i + 1) n a al (off + 8) fuel); auto; try lia. cbn [pbind fst snd]. rewrite !zlen_app, !zlen_enc. change (Z.of_nat 8) with 8. match goal with |- PRet (?u, _, _) = PRet (?v, _, _) => replace u with v by lia end. reflexivity.
Qed.
Definition jmp_wf (n : Z) (j : jrec) : Prop := let '(a, f, v) := j in is64 a /\ is64 f /\ is64 v /\ jbad n f v = false.
Lemma pjmps_ok b n js : forall off fuel, at_ b off (flat_map jmp_b js) -> Forall (jmp_wf n) js -> (length js <= fuel)%nat ->
  pjmps b fuel (zlen js) n off = PRet (off + zlen (flat_map jmp_b js), js).
Proof.
  induction js as [|((a, f), v) js IH]; intros off fuel A W Lf.
  - cbn [flat_map]. change (zlen (@nil Z)) with 0. rewrite Z.add_0_r. destruct fuel; reflexivity.
  - rewrite zlen_cons. pose proof (zlen_pos js). apply Forall_cons_iff in W; destruct W as (W1 & W2). destruct W1 as (W1 & W1b & W1c & W1d). destruct fuel as [|fuel]; cbn [length] in Lf; [lia|]. cbn [pjmps]. replace (zlen js + 1 =? 0) with false by lia.
    cbn [flat_map] in A |- *. cbn [jmp_b] in *. apply at_app in A. destruct A as (_ & A & A4). apply at_app in A. destruct A as (_ & A1 & A). apply at_app in A. destruct A as (_ & A2 & A3).
    rewrite !zlen_app, !zlen_enc in A4. rewrite !zlen_enc in A3. rewrite !zlen_enc in A2. change (Z.of_nat 8) with 8 in *. replace (off + 8 + 8) with (off + 16) in A3 by lia.
    rewrite (at_rdw _ _ _ A1 W1), (at_rdw _ _ _ A2 W1b), (at_rdw _ _ _ A3 W1c), W1d. replace (zlen js + 1 - 1) with (zlen js) by lia. rewrite (IH (off + 24) fuel); auto; try lia.
    cbn [pbind fst snd]. rewrite !zlen_app, !zlen_enc. change (Z.of_nat 8) with 8. match goal with |- PRet (?u, _) = PRet (?v, _) => replace u with v by lia end. reflexivity.
Qed.
Lemma pcons_ok b cs : forall off fuel, at_ b off (flat_map (enc 8) cs) -> Forall is64 cs -> (length cs <= fuel)%nat ->
  pcons b fuel (zlen cs) off = PRet (off + zlen (flat_map (enc 8) cs), cs).
Proof.
  induction cs as [|a cs IH]; intros off fuel A W Lf.
  - cbn [flat_map]. change (zlen (@nil Z)) with 0. rewrite Z.add_0_r. destruct fuel; reflexivity.
  - rewrite zlen_cons. pose proof (zlen_pos cs). apply Forall_cons_iff in W; destruct W as (W1 & W2). destruct fuel as [|fuel]; cbn [length] in Lf; [lia|]. cbn [pcons]. replace (zlen cs + 1 =? 0) with false by lia.
    cbn [flat_map] in A |- *. apply at_app in A. destruct A as (_ & A1 & A). rewrite zlen_enc in A. change (Z.of_nat 8) with 8 in A.
    rewrite (at_rdw _ _ _ A1 W1). replace (zlen cs + 1 - 1) with (zlen cs) by lia. rewrite (IH (off + 8) fuel); auto; try lia.
    cbn [pbind fst snd]. rewrite !zlen_app, !zlen_enc. change (Z.of_nat 8) with 8. match goal with |- PRet (?u, _) = PRet (?v, _) => replace u with v by lia end. reflexivity.
Qed.
Lemma lab_len ls : zlen (flat_map lab_b ls) = 8 * zlen ls + 16 * n_aligned ls.
Proof.
  induction ls as [|(sz, o) ls IH]; [reflexivity|]. cbn [flat_map]. rewrite zlen_app, IH, zlen_cons. unfold n_aligned. cbn [filter]. destruct o as [(t, d)|]; [change (aligned (sz, Some (t, d))) with true|change (aligned (sz, None)) with false]; cbv iota; unfold lab_b; cbn [snd fst]; rewrite ?zlen_cons, ?zlen_app, ?zlen_enc; lia.
Qed.
Lemma jmp_len js : zlen (flat_map jmp_b js) = 24 * zlen js.
Proof. induction js as [|((a, f), v) js IH]; [reflexivity|]. cbn [flat_map jmp_b]. rewrite zlen_app, IH, zlen_cons, !zlen_app, !zlen_enc. lia. Qed.
Lemma con_len cs : zlen (flat_map (enc 8) cs) = 8 * zlen cs.
Proof. induction cs as [|a cs IH]; [reflexivity|]. cbn [flat_map]. rewrite zlen_app, IH, zlen_cons, zlen_enc. lia. Qed.
Lemma frags_len fs : Forall frag_ok fs -> 8 * zlen fs <= zlen (flat_map frag_b fs) /\ zlen (flat_map frag_b fs) mod 8 = 0.
Proof.
  induction 1 as [|f fs F1 F2 (I1 & I2)]; [split; [cbn; lia|reflexivity]|]. cbn [flat_map]. rewrite zlen_app, frag_b_len, zlen_cons by auto. destruct F1 as (F1 & _). pose proof (zlen_pos (fst f)).
  pose proof (align8_bounds (zlen (fst f)) ltac:(lia)) as (A1 & A2). split; [lia|]. rewrite <- Z.add_assoc, Z.add_mod, (Z.add_mod (align8 _)), A2, I2 by lia. reflexivity.
Qed.

(** ** The whole image *)
Definition s32 (v : Z) : Prop := - 2 ^ 31 <= v < 2 ^ 31.
Definition fields32 (f : fields) : Prop := s32 (f_options f) /\ s32 (f_scratches f) /\ s32 (f_saveds f) /\ s32 (f_fscratches f) /\ s32 (f_fsaveds f) /\ s32 (f_local f).
Definition debug32 (d : option debug) : Prop := match d with Some d => s32 (d_flags d) /\ s32 (d_return d) /\ s32 (d_local d) | None => True end.
Definition image_wf (fs : list (list Z * list Z)) (x : image) : Prop :=
  Forall frag_ok fs /\ i_frags x = map fst fs /\ Forall lab_wf (i_labs x) /\ Forall (jmp_wf (i_count x)) (i_jmps x) /\ Forall is64 (i_cons x) /\ i_count x = zlen (i_labs x) /\
  fields32 (i_fld x) /\ is64 (i_size x) /\ f_vscratches (i_fld x) = -1 /\ f_vsaveds (i_fld x) = -1.
Lemma sub32_ok b off v : at_ b off (enc 4 v) -> s32 v -> sub32 b off = v.
Proof.
  intros A S. unfold sub32. change 4 with (Z.of_nat 4). rewrite <- (zlen_enc 4 v). rewrite (at_sub _ _ _ A), dec_enc. change (256 ^ Z.of_nat 4) with (2 ^ 32). unfold s32 in S.
  unfold sext. change (32 - 1) with 31. assert (v < 0 \/ 0 <= v) as [C|C] by lia.
  - replace (v mod 2 ^ 32) with (v + 2 ^ 32) by (rewrite <- (Z_mod_plus_full v 1 (2 ^ 32)), Z.mod_small; lia). rewrite (Z.mod_small (v + 2 ^ 32)) by lia. replace (v + 2 ^ 32 <? 2 ^ 31) with false by lia. lia.
  - rewrite (Z.mod_small v) by lia. rewrite (Z.mod_small v) by lia. replace (v <? 2 ^ 31) with true by lia. reflexivity.
Qed.
Lemma sub32_flags b off v : at_ b off (enc 8 v) -> s32 v -> sub32 b off = v.
Proof.
  intros A S. apply sub32_ok; auto. change (enc 8 v) with (enc 4 v ++ enc 4 (v / 256 / 256 / 256 / 256)) in A. apply at_app in A. tauto.
Qed.
Lemma subw_ok b off v : at_ b off (enc 8 v) -> is64 v -> subw b off = v.
Proof. intros A S. unfold subw. change 8 with (Z.of_nat 8). rewrite <- (zlen_enc 8 v). rewrite (at_sub _ _ _ A). apply dec_enc8; auto. Qed.
Lemma subn_ok b off n v : at_ b off (enc n v) -> 0 <= v < 256 ^ Z.of_nat n -> dec (sub b off (Z.of_nat n)) = v.
Proof. intros A S. rewrite <- (zlen_enc n v). rewrite (at_sub _ _ _ A). rewrite dec_enc. apply Z.mod_small. auto. Qed.
Lemma head_len d nf nl na nj nc f sz : zlen (head_b d nf nl na nj nc f sz) = 80.
Proof. unfold head_b. rewrite !zlen_app, !zlen_enc. reflexivity. Qed.
(** The bytes which are read: without the debug information in other builds. *)
Definition needed (dbg : bool) (d : option debug) (fs : list (list Z * list Z)) (x : image) : Z := zlen (bytes d fs x) - (if dbg then 0 else zlen (dbg_b d)).
Theorem parse_gen b tail d dbg fs x : image_wf fs x -> debug32 d -> bytes d fs x = b ++ tail -> zlen (bytes d fs x) < 2 ^ 64 ->
  parse b dbg = if (bsize b <? needed dbg d fs x) || negb (bsize b mod 8 =? 0) || (dbg && match d with Some _ => false | None => true end) then PErr
    else PRet (x, if dbg then d else None).
Proof.
  intros (W1 & W2 & W3 & W4 & W5 & W6 & W7 & W8 & W9 & W10) Wd Eb Bd. unfold parse, needed. unfold bytes in *. set (hd := head_b _ _ _ _ _ _ _ _) in *.
  assert (Lh : zlen hd = 80) by apply head_len.
  rewrite !zlen_app, Lh, lab_len, jmp_len, con_len in *. pose proof (frags_len fs W1) as (Lf & _).
  pose proof (zlen_pos fs) as P1. pose proof (zlen_pos (i_labs x)) as P2. pose proof (zlen_pos (i_jmps x)) as P3. pose proof (zlen_pos (i_cons x)) as P4. pose proof (zlen_pos (dbg_b d)) as P5.
  pose proof (zlen_pos (filter aligned (i_labs x))) as P6. fold (n_aligned (i_labs x)) in P6. set (lf := zlen (flat_map frag_b fs)) in *.
  assert (Bb : bsize b < 2 ^ 64). { apply (f_equal zlen) in Eb. rewrite !zlen_app, Lh, lab_len, jmp_len, con_len in Eb. fold lf in Eb. pose proof (zlen_pos tail). change (bsize b) with (zlen b). lia. }
  assert (Bb0 : bsize b = zlen b) by reflexivity.
  set (need := 80 + (lf + (8 * zlen (i_labs x) + 16 * n_aligned (i_labs x) + (24 * zlen (i_jmps x) + (8 * zlen (i_cons x) + zlen (dbg_b d))))) - (if dbg then 0 else zlen (dbg_b d))).
  assert (Need : 80 + lf + (8 * zlen (i_labs x) + 16 * n_aligned (i_labs x)) + 24 * zlen (i_jmps x) + 8 * zlen (i_cons x) + (if dbg then zlen (dbg_b d) else 0) = need) by (unfold need; destruct dbg; lia). clearbody need.
  assert (Pd : 0 <= if dbg then zlen (dbg_b d) else 0) by (destruct dbg; lia).
  unfold HEADER. destruct (bsize b <? 80) eqn:C0; cbn [orb]. { replace (bsize b <? need) with true by lia. reflexivity. }
  destruct (bsize b mod 8 =? 0) eqn:C1; cbn [negb]. 2:{ rewrite orb_true_r. reflexivity. }
  rewrite orb_false_r.
  destruct (prefix_split _ _ _ _ Eb) as (r & Rb & E). { rewrite Lh. unfold bsize in C0. unfold zlen. lia. }
  assert (H : at_ b 0 hd) by (exists [], r; split; [exact Rb|reflexivity]). unfold hd in H. unfold head_b in H.
  do 13 (let X := fresh "H" in apply at_app in H; destruct H as (_ & X & H); rewrite ?zlen_enc in H).
  repeat match goal with X : at_ b ?o _ |- _ => progress (change o with (ltac:(let o' := eval cbv in o in exact o')) in X) end.
  change 4 with (Z.of_nat 4) at 1. rewrite (subn_ok _ _ _ _ H0) by (cbv; split; discriminate || reflexivity).
  change 2 with (Z.of_nat 2) at 1. rewrite (subn_ok _ _ _ _ H1) by (cbv; split; discriminate || reflexivity). rewrite !Z.eqb_refl. cbn [negb orb].
  change 2 with (Z.of_nat 2) at 1. rewrite (subn_ok _ _ _ _ H2) by (destruct d; cbv; split; discriminate || reflexivity).
  assert (Dc : Z.testbit (match d with Some _ => DEBUG_BIT | None => 0 end) 0 = match d with Some _ => true | None => false end) by (destruct d; reflexivity). rewrite Dc. clear Dc.
  destruct (dbg && negb match d with Some _ => true | None => false end) eqn:C2.
  { destruct dbg, d; try discriminate. rewrite orb_true_r. reflexivity. }
  replace (dbg && match d with Some _ => false | None => true end) with false by (destruct dbg, d; auto; discriminate). rewrite orb_false_r.
  assert (Bb1 : zlen b = 80 + zlen r) by (rewrite Rb, zlen_app, Lh; reflexivity). pose proof (zlen_pos r) as Pr.
  destruct W7 as (V1 & V2 & V3 & V4 & V5 & V6).
  rewrite (subw_ok _ _ _ H3) by (unfold is64; lia). rewrite (subw_ok _ _ _ H4) by (unfold is64; lia). rewrite (subw_ok _ _ _ H5) by (unfold is64; lia). rewrite (subw_ok _ _ _ H6) by (unfold is64; lia).
  rewrite (subw_ok _ _ _ H7) by (unfold is64; lia). rewrite (sub32_ok _ _ _ H8 V1), (sub32_ok _ _ _ H9 V2), (sub32_ok _ _ _ H10 V3), (sub32_ok _ _ _ H11 V4), (sub32_ok _ _ _ H12 V5).
  apply at_app in H. destruct H as (_ & H13 & H14). rewrite zlen_enc in H14. change (68 + Z.of_nat 4) with 72 in H14. rewrite (sub32_ok _ _ _ H13 V6), (subw_ok _ _ _ H14 W8).
  clear H0 H1 H2 H3 H4 H5 H6 H7 H8 H9 H10 H11 H12 H13 H14.
  rewrite (psegs_ok b fs 80 _ r _ tail hd Rb Lh E W1) by (unfold zlen in *; lia). fold lf.
  destruct (zlen r <? lf) eqn:C3. { cbn [pbind]. replace (bsize b <? need) with true by lia. reflexivity. }
  cbn [pbind]. destruct (prefix_split _ _ _ _ E ltac:(fold lf; lia)) as (r1 & -> & E1). rewrite zlen_app in *. fold lf in Bb1, C3. pose proof (zlen_pos r1) as Pr1.
  rewrite left_ok by lia. rewrite W6. rewrite (wrap_small (zlen (i_labs x) * 8)), (wrap_small (n_aligned (i_labs x) * 16)) by (unfold isw; lia). rewrite wrap_small by (unfold isw; lia).
  destruct (bsize b - (80 + lf) <? zlen (i_labs x) * 8 + n_aligned (i_labs x) * 16) eqn:C4. { replace (bsize b <? need) with true by lia. reflexivity. }
  destruct (prefix_split _ _ _ _ E1 ltac:(rewrite lab_len; lia)) as (r2 & -> & E2). rewrite zlen_app, lab_len in *. pose proof (zlen_pos r2) as Pr2.
  rewrite (plabs_ok b (i_labs x) 0 _ 0 _ (80 + lf)); auto; try lia; [| |unfold zlen in *; lia].
  2:{ exists (hd ++ flat_map frag_b fs), r2. rewrite Rb, zlen_app, Lh, <- app_assoc. split; [reflexivity|]. fold lf. lia. }
  cbn [pbind Z.eqb negb]. rewrite lab_len. rewrite left_ok by lia. rewrite (wrap_small (zlen (i_jmps x) * 24)) by (unfold isw; lia).
  match goal with |- context[if ?c <? zlen (i_jmps x) * 24 then _ else _] => destruct (c <? zlen (i_jmps x) * 24) eqn:C5 end. { replace (bsize b <? need) with true by lia. reflexivity. }
  destruct (prefix_split _ _ _ _ E2 ltac:(rewrite jmp_len; lia)) as (r3 & -> & E3). rewrite zlen_app, jmp_len in *. pose proof (zlen_pos r3) as Pr3.
  rewrite (pjmps_ok b (zlen (i_labs x)) (i_jmps x)); [|exists (hd ++ flat_map frag_b fs ++ flat_map lab_b (i_labs x)), r3; rewrite Rb, !zlen_app, Lh, lab_len, <- !app_assoc; split; [reflexivity|fold lf; lia]|rewrite <- W6; auto|unfold zlen in *; lia].
  cbn [pbind]. rewrite jmp_len. rewrite left_ok by lia. rewrite (wrap_small (zlen (i_cons x) * 8)) by (unfold isw; lia).
  match goal with |- context[if ?c <? zlen (i_cons x) * 8 then _ else _] => destruct (c <? zlen (i_cons x) * 8) eqn:C6 end. { replace (bsize b <? need) with true by lia. reflexivity. }
  destruct (prefix_split _ _ _ _ E3 ltac:(rewrite con_len; lia)) as (r4 & -> & E4). rewrite zlen_app, con_len in *. pose proof (zlen_pos r4) as Pr4.
  rewrite (pcons_ok b (i_cons x)); [|exists (hd ++ flat_map frag_b fs ++ flat_map lab_b (i_labs x) ++ flat_map jmp_b (i_jmps x)), r4; rewrite Rb, !zlen_app, Lh, lab_len, jmp_len, <- !app_assoc; split; [reflexivity|fold lf; lia]|auto|unfold zlen in *; lia].
  cbn [pbind]. rewrite con_len. unfold pdebug.
  assert (Ex : mkI (map fst fs) (i_labs x) (i_jmps x) (i_cons x) (mkF (f_options (i_fld x)) (f_scratches (i_fld x)) (f_saveds (i_fld x)) (f_fscratches (i_fld x)) (f_fsaveds (i_fld x)) (f_local (i_fld x)) (-1) (-1)) (i_size x) (zlen (i_labs x)) = x).
  { rewrite <- W2, <- W6, <- W9, <- W10 at 1. clear. destruct x as [? ? ? ? f ? ?]; destruct f; reflexivity. }
  destruct dbg.
  - destruct d as [d|]; [|discriminate]. assert (Ld : zlen (dbg_b (Some d)) = 16) by (cbn [dbg_b]; rewrite !zlen_app, !zlen_enc; reflexivity).
    rewrite left_ok by lia.
    match goal with |- context[if ?c <? 16 then _ else _] => destruct (c <? 16) eqn:C7 end. { replace (bsize b <? need) with true by lia. reflexivity. }
    destruct (prefix_split _ [] _ tail ltac:(rewrite app_nil_r; exact E4) ltac:(lia)) as (r5 & -> & E5). 
    match goal with |- context[if ?c >? bsize b then _ else _] => replace (c >? bsize b) with false by lia end.
    replace (bsize b <? need) with false by lia. cbn [pbind]. rewrite Ex. do 3 f_equal.
    match goal with |- context[sub32 b ?o] => set (o1 := o) in * end.
    assert (A : at_ b o1 (dbg_b (Some d))).
    { exists (hd ++ flat_map frag_b fs ++ flat_map lab_b (i_labs x) ++ flat_map jmp_b (i_jmps x) ++ flat_map (enc 8) (i_cons x)), r5. rewrite Rb, !zlen_app, Lh, lab_len, jmp_len, con_len, <- !app_assoc. split; [reflexivity|unfold o1; fold lf; lia]. }
    cbn [dbg_b] in A. apply at_app in A. destruct A as (_ & A1 & A). apply at_app in A. destruct A as (_ & A2 & A3). rewrite !zlen_enc in *. change (Z.of_nat 8) with 8 in *. change (Z.of_nat 4) with 4 in *.
    destruct Wd as (D1 & D2 & D3). rewrite (sub32_flags _ _ _ A1 D1). rewrite (sub32_ok _ _ _ A2 D2). replace (o1 + 12) with (o1 + 8 + 4) by lia. rewrite (sub32_ok _ _ _ A3 D3). destruct d; reflexivity.
  - replace (bsize b <? need) with false by lia. cbn [pbind]. rewrite Ex. reflexivity.
Qed.
