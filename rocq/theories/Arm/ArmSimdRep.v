(** ARM64: replicating an integer to all lanes of a vector register: the forms and the whole sequence. *)
Require Import ZArith List Bool Lia Zify ZifyBool.
From Verif Require Import Rv.RvLib Rv.RvBits Imm.ImmLib Arm.ArmIsa Arm.ArmBr Arm.ArmEnc Arm.ArmBits Arm.ArmImm Arm.ArmImmProofs Arm.ArmLogImm Arm.ArmLoadImm
  Arm.ArmJump Arm.ArmJumpSpec Arm.ArmJumpProofs Arm.ArmOp Arm.ArmOpSpec Arm.ArmOpDec Arm.ArmOpProofs Arm.ArmOp1 Arm.ArmMem Arm.ArmMemSpec Arm.ArmMemProofs Arm.ArmMemOp2 Arm.ArmFrame Arm.ArmFrameDec
  Arm.ArmRetProofs Arm.ArmVec Arm.ArmSimd Arm.ArmSimdSpec Arm.ArmSimdProofs.
Import ListNotations.
Open Scope Z_scope.
Ltac Zify.zify_post_hook ::= idtac.

Ltac lits := repeat match goal with
  | |- context[bit ?a 29] => let b := eval vm_compute in (bit a 29) in change (bit a 29) with b
  | |- context[fld ?a 12 4] => let b := eval vm_compute in (fld a 12 4) in change (fld a 12 4) with b
  | |- context[Z.lor ?a ?b] => let c := eval vm_compute in (Z.lor a b) in change (Z.lor a b) with c end.
Lemma expand16 (inv : bool) r0 v w : In r0 [0x8000; 0xa000] -> form_value r0 v = Some w -> let r := (if inv then Z.shiftl 1 29 else 0) .| r0 in
  In r results /\ expand_imm (bit r 29) (fld r 12 4) v = Some (if inv then (65535 - w) * K 1 else w * K 1).
Proof.
  intros I F r. subst r. destruct I as [<- | [<- | []]]; unfold form_value in F; cbn [Z.eqb Pos.eqb] in F; injection F as <-; destruct inv; change (Z.shiftl 1 29) with 0x20000000; lits;
  (split; [unfold results; cbn [In]; tauto|]); unfold expand_imm, K; cbn [Z.eqb Pos.eqb copies andb negb]; f_equal; lia.
Qed.
Lemma expand32 (inv : bool) r0 v w : In r0 [0; 0x2000; 0x4000; 0x6000; 0xc000; 0xd000] -> form_value r0 v = Some w -> let r := (if inv then Z.shiftl 1 29 else 0) .| r0 in
  In r results /\ expand_imm (bit r 29) (fld r 12 4) v = Some (if inv then (4294967295 - w) * K 2 else w * K 2).
Proof.
  intros I F r. subst r. destruct I as [<- | [<- | [<- | [<- | [<- | [<- | []]]]]]]; unfold form_value in F; cbn [Z.eqb Pos.eqb] in F; injection F as <-; destruct inv; change (Z.shiftl 1 29) with 0x20000000; lits;
  (split; [unfold results; cbn [In]; tauto|]); unfold expand_imm, K; cbn [Z.eqb Pos.eqb copies andb negb]; f_equal; lia.
Qed.

(** Smaller elements. *)
Definition same_rep (e e' : Z * Z) : Prop := 0 <= fst e' <= 3 /\ 0 <= snd e' < 2 ^ ebits (fst e') /\ snd e' * K (fst e') = snd e * K (fst e).
Lemma halved v m : 0 < m -> 0 <= v < m * m -> v mod m = v / m -> v = (v mod m) * (m + 1) /\ 0 <= v mod m < m.
Proof. intros M V H. pose proof (Z.div_mod v m ltac:(lia)) as D. pose proof (Z.mod_pos_bound v m M) as B. rewrite <- H in D. split; [lia|exact B]. Qed.
Lemma halve32_ok es v : 0 <= es <= 3 -> 0 <= v < 2 ^ ebits es -> same_rep (es, v) (halve32 (es, v)).
Proof.
  intros E V. unfold halve32, same_rep. destruct (Z.ltb_spec 2 es); cbn [andb fst snd]; [|tauto]. assert (es = 3) by lia. subst es. change (ebits 3) with 64 in V. unfold u32. rewrite Z.shiftr_div_pow2 by lia.
  destruct (Z.eqb_spec (v mod 2 ^ 32) (v / 2 ^ 32)) as [H1 | H1]; cbn [fst snd]; [|tauto].
  destruct (halved v (2 ^ 32) ltac:(lia) ltac:(lia) H1) as (A & B). split; [lia|]. split; [exact B|]. unfold K. cbn [Z.eqb Pos.eqb]. lia.
Qed.
Lemma halve16_ok es v : 0 <= es <= 3 -> 0 <= v < 2 ^ ebits es -> same_rep (es, v) (halve16 (es, v)).
Proof.
  intros E V. unfold halve16, same_rep. destruct (Z.eqb_spec es 2); cbn [andb fst snd]; [|tauto]. subst es. change (ebits 2) with 32 in V. rewrite low16, Z.shiftr_div_pow2 by lia. change (2 ^ 16) with 65536.
  destruct (Z.eqb_spec (v mod 65536) (v / 65536)) as [H1 | H1]; cbn [fst snd]; [|tauto].
  destruct (halved v 65536 ltac:(lia) ltac:(lia) H1) as (A & B). split; [lia|]. split; [exact B|]. unfold K. cbn [Z.eqb Pos.eqb]. lia.
Qed.
Lemma halve8_ok es v : 0 <= es <= 3 -> 0 <= v < 2 ^ ebits es -> same_rep (es, v) (halve8 (es, v)).
Proof.
  intros E V. unfold halve8, same_rep. destruct (Z.eqb_spec es 1); cbn [andb fst snd]; [|tauto]. subst es. change (ebits 1) with 16 in V. rewrite low8, Z.shiftr_div_pow2 by lia. change (2 ^ 8) with 256.
  destruct (Z.eqb_spec (v mod 256) (v / 256)) as [H1 | H1]; cbn [fst snd]; [|tauto].
  destruct (halved v 256 ltac:(lia) ltac:(lia) H1) as (A & B). split; [lia|]. split; [exact B|]. unfold K. cbn [Z.eqb Pos.eqb]. lia.
Qed.
Lemma halves_ok es v : 0 <= es <= 3 -> 0 <= v < 2 ^ ebits es -> same_rep (es, v) (halve8 (halve16 (halve32 (es, v)))).
Proof.
  intros E V. pose proof (halve32_ok es v E V) as A. destruct (halve32 (es, v)) as (e1 & v1). destruct A as (A1 & A2 & A3). cbn [fst snd] in *.
  pose proof (halve16_ok e1 v1 A1 A2) as B. destruct (halve16 (e1, v1)) as (e2 & v2). destruct B as (B1 & B2 & B3). cbn [fst snd] in *.
  pose proof (halve8_ok e2 v2 B1 B2) as C. destruct (halve8 (e2, v2)) as (e3 & v3). destruct C as (C1 & C2 & C3). split; [exact C1|]. split; [exact C2|]. cbn [fst snd] in *. congruence.
Qed.
Theorem simd_get_imm_ok es v imm : 0 <= es <= 3 -> 0 <= v < 2 ^ ebits es -> simd_get_imm es v = Some imm ->
  exists r v8, In r results /\ 0 <= v8 < 256 /\ imm = enc v8 r /\ expand_imm (bit r 29) (fld r 12 4) v8 = Some (v * K es).
Proof.
  intros E V H. unfold simd_get_imm in H. pose proof (halves_ok es v E V) as S. destruct (halve8 (halve16 (halve32 (es, v)))) as (e & x). destruct S as (S1 & S2 & S3). cbn [fst snd] in *. rewrite <- S3. clear S3 V.
  destruct (Z.eqb_spec e 0) as [-> | N0].
  { injection H as <-. exists 0xe000, x. change (2 ^ ebits 0) with 256 in S2. split; [cbn; auto|]. split; [exact S2|]. split; [reflexivity|]. lits. unfold expand_imm, K. cbn [Z.eqb Pos.eqb copies andb negb]. f_equal. lia. }
  destruct (Z.eqb_spec e 1) as [-> | N1].
  { change (2 ^ ebits 1) with (2 ^ 16) in S2. unfold twice in H. destruct (try16 x 0) as [(v8, r)|] eqn:T.
    - injection H as <-. destruct (try16_ok x 0 (v8, r) S2 T) as (r0 & I & R & B & F). cbn [fst snd] in *. destruct (expand16 false r0 v8 x I F) as (A & X). exists r, v8. rewrite R. split; [exact A|]. split; [exact B|]. split; [reflexivity|exact X].
    - change 0xffff with (Z.ones 16) in H. rewrite (inverted 16 x ltac:(lia) S2) in H. destruct (try16 (2 ^ 16 - 1 - x) (Z.shiftl 1 29)) as [(v8, r)|] eqn:T2; [|discriminate H]. injection H as <-.
      destruct (try16_ok (2 ^ 16 - 1 - x) _ (v8, r) ltac:(lia) T2) as (r0 & I & R & B & F). cbn [fst snd] in *. destruct (expand16 true r0 v8 _ I F) as (A & X). exists r, v8. rewrite R. split; [exact A|]. split; [exact B|]. split; [reflexivity|].
      rewrite X. f_equal. f_equal. lia. }
  destruct (Z.eqb_spec e 2) as [-> | N2]; [|discriminate H].
  change (2 ^ ebits 2) with (2 ^ 32) in S2. unfold twice in H. destruct (try32 x 0) as [(v8, r)|] eqn:T.
  - injection H as <-. destruct (try32_ok x 0 (v8, r) S2 T) as (r0 & I & R & B & F). cbn [fst snd] in *. destruct (expand32 false r0 v8 x I F) as (A & X). exists r, v8. rewrite R. split; [exact A|]. split; [exact B|]. split; [reflexivity|exact X].
  - change 0xffffffff with (Z.ones 32) in H. rewrite (inverted 32 x ltac:(lia) S2) in H. destruct (try32 (2 ^ 32 - 1 - x) (Z.shiftl 1 29)) as [(v8, r)|] eqn:T2; [|discriminate H]. injection H as <-.
    destruct (try32_ok (2 ^ 32 - 1 - x) _ (v8, r) ltac:(lia) T2) as (r0 & I & R & B & F). cbn [fst snd] in *. destruct (expand32 true r0 v8 _ I F) as (A & X). exists r, v8. rewrite R. split; [exact A|]. split; [exact B|]. split; [reflexivity|].
    rewrite X. f_equal. f_equal. lia.
Qed.

(** ** The sequence *)
Lemma lift_v ws g g' v : run ws g = Some g' -> run_v ws (mkV g v) = Some (mkV g' v).
Proof.
  revert g. induction ws as [|w ws IH]; intros g R; cbn [run run_v] in *; [injection R as ->; reflexivity|].
  destruct (decode w) as [i|] eqn:D; [|discriminate R]. destruct (exec i g) as [g1|] eqn:E; [|discriminate R]. unfold step_v. rewrite D. cbn [vs vq]. rewrite E. apply IH. exact R.
Qed.
Lemma run_v_app a b s : run_v (a ++ b) s = match run_v a s with None => None | Some s' => run_v b s' end.
Proof. revert s. induction a as [|w a IH]; intros s; cbn [app run_v]; [reflexivity|]. destruct (step_v w s); [apply IH|reflexivity]. Qed.
Definition nlanes (q : bool) (es : Z) : nat := Z.to_nat (vbits q / ebits es).
Lemma reps q es v : 0 <= es <= 3 -> copies (ebits es) (nlanes q es) v = if q then copies 64 2 (v * K es) else v * K es.
Proof.
  intros E. assert (C : es = 0 \/ es = 1 \/ es = 2 \/ es = 3) by lia. destruct C as [-> | [-> | [-> | ->]]]; destruct q; unfold nlanes, ebits, vbits, K; cbn [Z.eqb Pos.eqb];
  match goal with |- context[Z.to_nat ?a] => let b := eval vm_compute in (Z.to_nat a) in change (Z.to_nat a) with b end; cbn [copies]; change (8 * 2 ^ 0) with 8; change (8 * 2 ^ 1) with 16; change (8 * 2 ^ 2) with 32; change (8 * 2 ^ 3) with 64; lia.
Qed.
Lemma did_ok q es vreg src s g x : 0 <= es <= 3 -> (forall k, 1 <= k <= 27 -> xr g (reg_map k) = xr (vs s) (reg_map k)) -> mm g = mm (vs s) -> same_flags (vs s) g ->
  x = copies (ebits es) (nlanes q es) (val (ebits es) (vs s) src) -> did_replicate q es vreg src s (mkV g (upd (vq s) (freg_map vreg) x)).
Proof.
  intros E G M F ->. assert (EB : 0 < ebits es) by (unfold ebits; pose proof (Z.pow_pos_nonneg 2 es ltac:(lia) ltac:(lia)); lia).
  assert (V : 0 <= val (ebits es) (vs s) src < 2 ^ ebits es) by (destruct src; cbn [val]; apply Z.mod_pos_bound; apply Z.pow_pos_nonneg; lia).
  assert (NL : Z.of_nat (nlanes q es) = vbits q / ebits es) by (unfold nlanes; apply Z2Nat.id; apply Z.div_pos; [destruct q; cbn; lia|lia]).
  unfold did_replicate. cbn [vs vq]. unfold upd at 1 2 3. rewrite Z.eqb_refl. split; [intros i I; unfold lane; apply copies_lane; [exact EB|exact V|rewrite NL; exact I]|].
  split; [pose proof (copies_b (ebits es) (nlanes q es) _ EB V) as B; rewrite NL in B; replace (ebits es * (vbits q / ebits es)) with (vbits q) in B; [exact B|];
    assert (C : es = 0 \/ es = 1 \/ es = 2 \/ es = 3) by lia; destruct C as [-> | [-> | [-> | ->]]]; destruct q; reflexivity|].
  split; [intros k N; unfold upd; replace (k =? freg_map vreg) with false by lia; reflexivity|]. split; [exact G|]. split; [exact M|exact F].
Qed.
Lemma dup_run (q : bool) es vreg r g v : 0 <= es <= (if q then 3 else 2) -> reg_map r <> 31 ->
  run_v [DUP_g .| dins q es .| VD vreg .| RN r] (mkV g v) = Some (mkV g (upd v (freg_map vreg) (copies (ebits es) (nlanes q es) (xr g (reg_map r) mod 2 ^ ebits es)))).
Proof.
  intros E N. assert (E3 : 0 <= es <= 3) by (destruct q; lia). destruct (dec_dup q es (reg_map r) (freg_map vreg) E3 (reg_lt r) (freg_lt vreg)) as (D1 & D2). cbv zeta in *.
  change (RN r) with (Z.shiftl (reg_map r) 5). change (VD vreg) with (freg_map vreg). cbn [run_v]. unfold step_v. rewrite D1, D2. unfold exec_v. cbn [vs vq]. rewrite rX31 by exact N.
  assert (C : es = 0 \/ es = 1 \/ es = 2 \/ es = 3) by lia. destruct C as [-> | [-> | [-> | ->]]]; destruct q; try lia; reflexivity.
Qed.
Lemma masked es i : 0 <= es <= 3 -> wrap (if es <? 3 then i .& (Z.shiftl 1 (Z.shiftl (Z.shiftl 1 es) 3) - 1) else i) = i mod 2 ^ ebits es.
Proof.
  intros E. unfold wrap. assert (C : es = 0 \/ es = 1 \/ es = 2 \/ es = 3) by lia. destruct C as [-> | [-> | [-> | ->]]]; cbn [Z.ltb Z.compare Pos.compare Pos.compare_cont]; [| | |reflexivity].
  - change (Z.shiftl 1 (Z.shiftl (Z.shiftl 1 0) 3) - 1) with (Z.ones 8). rewrite Z.land_ones by lia. change (ebits 0) with 8. apply Z.mod_small. pose proof (Z.mod_pos_bound i (2 ^ 8) ltac:(lia)). lia.
  - change (Z.shiftl 1 (Z.shiftl (Z.shiftl 1 1) 3) - 1) with (Z.ones 16). rewrite Z.land_ones by lia. change (ebits 1) with 16. apply Z.mod_small. pose proof (Z.mod_pos_bound i (2 ^ 16) ltac:(lia)). lia.
  - change (Z.shiftl 1 (Z.shiftl (Z.shiftl 1 2) 3) - 1) with (Z.ones 32). rewrite Z.land_ones by lia. change (ebits 2) with 32. apply Z.mod_small. pose proof (Z.mod_pos_bound i (2 ^ 32) ltac:(lia)). lia.
Qed.
Lemma masked_b es i : 0 <= es <= 3 -> - 2 ^ 63 <= i < 2 ^ 63 -> - 2 ^ 63 <= (if es <? 3 then i .& (Z.shiftl 1 (Z.shiftl (Z.shiftl 1 es) 3) - 1) else i) < 2 ^ 63.
Proof.
  intros E I. assert (C : es = 0 \/ es = 1 \/ es = 2 \/ es = 3) by lia. destruct C as [-> | [-> | [-> | ->]]]; cbn [Z.ltb Z.compare Pos.compare Pos.compare_cont]; [| | |exact I].
  - change (Z.shiftl 1 (Z.shiftl (Z.shiftl 1 0) 3) - 1) with (Z.ones 8). rewrite Z.land_ones by lia. pose proof (Z.mod_pos_bound i (2 ^ 8) ltac:(lia)). lia.
  - change (Z.shiftl 1 (Z.shiftl (Z.shiftl 1 1) 3) - 1) with (Z.ones 16). rewrite Z.land_ones by lia. pose proof (Z.mod_pos_bound i (2 ^ 16) ltac:(lia)). lia.
  - change (Z.shiftl 1 (Z.shiftl (Z.shiftl 1 2) 3) - 1) with (Z.ones 32). rewrite Z.land_ones by lia. pose proof (Z.mod_pos_bound i (2 ^ 32) ltac:(lia)). lia.
Qed.
Theorem replicate_ok q es vreg src s : legal_simd q es vreg src -> exists ws s', emit_simd_replicate q es vreg src = Some ws /\ run_v ws s = Some s' /\ did_replicate q es vreg src s s'.
Proof.
  intros (E & _ & L). assert (E3 : 0 <= es <= 3) by (destruct q; lia). destruct s as (g & v). unfold emit_simd_replicate. change (if q then Z.shiftl 1 30 else 0) with (qbit q). fold (dins q es). destruct src as [r|i].
  - destruct (ArmOp1.reg_ok r L) as (N & _). eexists. eexists. split; [reflexivity|]. split; [apply (dup_run q es vreg r g v E N)|].
    apply (did_ok q es vreg (AReg r) (mkV g v) g); auto. unfold same_flags. auto.
  - cbv zeta. pose proof (masked es i E3) as M. pose proof (masked_b es i E3 L) as MB. set (i' := if es <? 3 then i .& (Z.shiftl 1 (Z.shiftl (Z.shiftl 1 es) 3) - 1) else i) in *. rewrite M.
    assert (VB : 0 <= i mod 2 ^ ebits es < 2 ^ ebits es) by (apply Z.mod_pos_bound; apply Z.pow_pos_nonneg; [lia|unfold ebits; pose proof (Z.pow_pos_nonneg 2 es ltac:(lia) ltac:(lia)); lia]).
    destruct (simd_get_imm es (i mod 2 ^ ebits es)) as [imm|] eqn:S.
    + destruct (simd_get_imm_ok es _ imm E3 VB S) as (r & v8 & R & V8 & -> & X).
      replace (dins q es .& Z.shiftl 1 30) with (qbit q) by (assert (C : es = 0 \/ es = 1 \/ es = 2 \/ es = 3) by lia; destruct C as [-> | [-> | [-> | ->]]]; destruct q; reflexivity).
      destruct (dec_movi q r v8 (freg_map vreg) R V8 (freg_lt vreg)) as (D1 & D2). cbv zeta in *. eexists. eexists. split; [reflexivity|]. split.
      * change (VD vreg) with (freg_map vreg). cbn [run_v]. unfold step_v. rewrite D1, D2. unfold exec_v. rewrite X. reflexivity.
      * apply (did_ok q es vreg (AImm i) (mkV g v) g); auto; [unfold same_flags; auto|]. cbn [val]. rewrite reps by exact E3. reflexivity.
    + destruct (load_immediate_ok TMP_REG2 i' g ltac:(right; unfold TMP_REG2; lia) MB) as (ws & g1 & EL & RL & O1 & O2 & O3). rewrite EL. eexists. eexists. split; [reflexivity|]. split.
      * rewrite run_v_app, (lift_v ws g g1 v RL). apply (dup_run q es vreg TMP_REG2 g1 v E). change (reg_map TMP_REG2) with 10. lia.
      * change (reg_map TMP_REG2) with 10 in *. apply (did_ok q es vreg (AImm i) (mkV g v) g1); cbn [vs]; [exact E3|intros k KB; apply O2; apply (reg27 k KB)|apply O3|unfold same_flags; destruct O3 as (F1 & F2 & F3 & F4 & _); auto|].
        cbn [val]. rewrite O1, M. rewrite Z.mod_mod; [reflexivity|]. apply Z.pow_nonzero; [lia|]. unfold ebits. pose proof (Z.pow_pos_nonneg 2 es ltac:(lia) ltac:(lia)). lia.
Qed.
