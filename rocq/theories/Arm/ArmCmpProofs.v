(** ARM64: comparisons followed by a jump. *)
Require Import ZArith List Bool Lia Zify ZifyBool.
From Verif Require Import Rv.RvLib Rv.RvBits Imm.ImmLib Arm.ArmIsa Arm.ArmBr Arm.ArmEnc Arm.ArmBits Arm.ArmImm Arm.ArmImmProofs Arm.ArmLogImm Arm.ArmLoadImm
  Arm.ArmJump Arm.ArmJumpSpec Arm.ArmJumpProofs Arm.ArmCondProofs Arm.ArmOp Arm.ArmOpSpec Arm.ArmOpDec Arm.ArmOpProofs Arm.ArmOpImm Arm.ArmOp1 Arm.ArmMem Arm.ArmMemSpec Arm.ArmMemProofs Arm.ArmMemOps Arm.ArmMemOp2
  Arm.ArmRetProofs Arm.ArmCmp Arm.ArmCmpSpec.
Import ListNotations.
Open Scope Z_scope.
Ltac Zify.zify_post_hook ::= idtac.

(** ** Straight code as code in memory *)
Lemma decode_br_none w i : decode w = Some i -> decode_br w = None.
Proof.
  intros D. assert (B : forall k, 0 <= k -> 0 <= fld w k 1 < 2) by (intros k K; rewrite fld_div by lia; apply Z.mod_pos_bound; lia).
  pose proof (B 21 ltac:(lia)) as B21. pose proof (B 22 ltac:(lia)) as B22. pose proof (B 23 ltac:(lia)) as B23. pose proof (B 24 ltac:(lia)) as B24. pose proof (B 25 ltac:(lia)) as B25.
  pose proof (B 29 ltac:(lia)) as B29.
  assert (B26 : 0 <= fld w 26 3 < 8) by (rewrite fld_div by lia; apply Z.mod_pos_bound; lia).
  assert (E23 : fld w 23 3 = fld w 23 1 + 2 * fld w 24 1 + 4 * fld w 25 1) by (rewrite (fld_split w 23 3 1 24 2 2 eq_refl eq_refl eq_refl), (fld_split w 24 2 1 25 1 2 eq_refl eq_refl eq_refl) by lia; ring).
  assert (E24 : fld w 24 5 = fld w 24 1 + 2 * fld w 25 1 + 4 * fld w 26 3) by (rewrite (fld_split w 24 5 1 25 4 2 eq_refl eq_refl eq_refl), (fld_split w 25 4 1 26 3 2 eq_refl eq_refl eq_refl) by lia; ring).
  assert (E246 : fld w 24 6 = fld w 24 5 + 32 * fld w 29 1) by (rewrite (fld_split w 24 6 5 29 1 32 eq_refl eq_refl eq_refl) by lia; reflexivity).
  assert (E21 : fld w 21 8 = fld w 21 1 + 2 * fld w 22 1 + 4 * fld w 23 1 + 8 * fld w 24 5) by (rewrite (fld_split w 21 8 1 22 7 2 eq_refl eq_refl eq_refl), (fld_split w 22 7 1 23 6 2 eq_refl eq_refl eq_refl), (fld_split w 23 6 1 24 5 2 eq_refl eq_refl eq_refl) by lia; ring).
  assert (E22 : fld w 22 8 = fld w 22 1 + 2 * fld w 23 1 + 4 * fld w 24 5 + 128 * fld w 29 1) by (rewrite (fld_split w 22 8 1 23 7 2 eq_refl eq_refl eq_refl), (fld_split w 23 7 1 24 6 2 eq_refl eq_refl eq_refl), E246 by lia; ring).
  unfold decode in D. unfold decode_br. cbv zeta in *.
  destruct (fld w 26 3 =? 5) eqn:C1.
  { exfalso. replace (fld w 26 3 =? 4) with false in D by lia. replace (fld w 24 5 =? 10) with false in D by lia. replace (fld w 24 5 =? 11) with false in D by lia. replace (fld w 21 8 =? 208) with false in D by lia.
    replace (fld w 21 8 =? 212) with false in D by lia. replace (fld w 21 8 =? 214) with false in D by lia. replace (fld w 24 5 =? 27) with false in D by lia. replace (fld w 24 6 =? 57) with false in D by lia. replace (fld w 24 6 =? 56) with false in D by lia. discriminate D. }
  destruct (fld w 24 5 =? 16) eqn:C2.
  { exfalso. replace (fld w 26 3 =? 4) with true in D by lia. replace (fld w 23 3 =? 2) with false in D by lia. replace (fld w 23 3 =? 4) with false in D by lia. replace (fld w 23 3 =? 5) with false in D by lia.
    replace (fld w 23 3 =? 6) with false in D by lia. replace (fld w 23 3 =? 7) with false in D by lia. discriminate D. }
  destruct (fld w 22 8 =? 0xe9) eqn:C3; [|reflexivity].
  exfalso. replace (fld w 26 3 =? 4) with false in D by lia. replace (fld w 24 5 =? 10) with false in D by lia. replace (fld w 24 5 =? 11) with false in D by lia. replace (fld w 21 8 =? 208) with false in D by lia.
  replace (fld w 21 8 =? 212) with false in D by lia. replace (fld w 21 8 =? 214) with false in D by lia. replace (fld w 24 5 =? 27) with false in D by lia. replace (fld w 24 6 =? 57) with false in D by lia. replace (fld w 24 6 =? 56) with false in D by lia. discriminate D.
Qed.
Lemma run_nobr ws s s' : run ws s = Some s' -> Forall (fun w => decode_br w = None) ws.
Proof.
  revert s. induction ws as [|w ws IH]; intros s R; [constructor|]. cbn [run] in R. destruct (decode w) as [i|] eqn:D; [|discriminate R]. destruct (exec i s) as [s1|] eqn:E; [|discriminate R].
  constructor; [exact (decode_br_none w i D)|exact (IH s1 R)].
Qed.

(** ** The value of an operand *)
Lemma vald_b w32 s a : byte_mem (mm s) -> 0 <= vald (len w32) s a < 2 ^ len w32.
Proof.
  intros M. destruct a as [r|i|m]; cbn [vald]; [apply Z.mod_pos_bound; destruct w32; reflexivity|apply Z.mod_pos_bound; destruct w32; reflexivity|].
  pose proof (value_b (mm s) (place s m) (Z.to_nat (len w32 / 8)) M) as V. destruct w32; exact V.
Qed.
Lemma fits k : - 2 ^ 63 <= k < 2 ^ 63 -> sword k. Proof. exact (fun H => H). Qed.

(** A sequence and a jump after it. *)
Lemma then_jump rw c code p t s s1 ws : legal (Some c) false -> isw t -> t mod 4 = 0 -> p mod 4 = 0 -> run ws s = Some s1 ->
  let q := p + 4 * Z.of_nat (length ws) in let js := link_jump rw (Some c) false q t in
  code_at 4 (ws ++ js) p code -> exists s', goes code p s (if jcond_holds (Some c) s1 then t else q + 4 * Z.of_nat (length js)) s' /\ same_but (fun k => k = 10) s1 s'.
Proof.
  intros L Ht T4 P4 R q js C. apply code_at_app in C. destruct C as (C1 & C2). pose proof (goes_run code ws p s s1 (run_nobr ws s s1 R) R C1) as G. fold q in G, C2.
  assert (Q4 : q mod 4 = 0) by (unfold q; rewrite Z.mul_comm, Z.mod_add by lia; exact P4).
  pose proof (link_jump_ok rw (Some c) false q t code s1 L Ht T4 Q4 C2) as J. cbv zeta in J. fold js in J. destruct (jcond_holds (Some c) s1).
  - destruct J as (s' & G' & (A & B) & _). exists s'. split; [exact (goes_trans code p s q s1 t s' G G')|]. split; [|exact B]. intros k K. apply A. intros [E | (E & _)]; [exact (K E)|discriminate E].
  - exists s1. split; [exact (goes_trans code p s q s1 _ s1 G J)|]. split; [reflexivity|]. repeat split; reflexivity.
Qed.
Lemma jump_data s s1 s' : same_data s s1 -> same_but (fun k => k = 10) s1 s' -> same_data s s'.
Proof. intros (A & M) (B & _ & _ & _ & _ & M'). split; [intros k K; rewrite B by apply (reg27 k K); apply A; exact K|rewrite M'; exact M]. Qed.

(** ** sljit_emit_cmp *)
(** What the words in front of the jump and the condition do. *)
Definition decides (l : option (list Z)) (c : jcond) (v : bool) (s : st) : Prop :=
  exists ws s1, l = Some ws /\ run ws s = Some s1 /\ legal (Some c) false /\ jcond_holds (Some c) s1 = v /\ same_data s s1.
Lemma sub_decides ty w32 a b v s : legal_src a -> legal_src b -> byte_mem (mm s) -> sub_meaning (len w32) (vald (len w32) s a) (vald (len w32) s b) ty = Some v ->
  decides (emit_op2 OSub w32 true (DReg TMP_REG2) a b) (JFlag SSub ty) v s.
Proof.
  intros La Lb M V. destruct (emit_op2_ok OSub w32 true (DReg TMP_REG2) a b s (or_intror eq_refl) La Lb (fun _ => eq_refl) M) as (ws & s1 & E & R & (D1 & MM) & D2 & _ & D4).
  exists ws, s1. split; [exact E|]. split; [exact R|]. split; [split; [reflexivity|exact I]|]. split; [exact (D4 eq_refl SSub ty v V)|]. split; [|exact MM]. intros k K. apply D2; [|exact K]. intros H. injection H as <-. unfold TMP_REG2 in K. lia.
Qed.
Lemma swap_ok ty n a b v : compares ty n a b = Some v -> sub_meaning n b a (swap_cond ty) = Some v.
Proof. destruct ty; cbn [compares swap_cond sub_meaning]; intros H; try discriminate H; rewrite <- H; rewrite ?(Z.eqb_sym b a); reflexivity. Qed.
Lemma same_ok ty n a b v : compares ty n a b = Some v -> sub_meaning n a b ty = Some v.
Proof. destruct ty; cbn [compares sub_meaning]; intros H; try discriminate H; exact H. Qed.
Lemma cmp_sub_ok ty w32 a b v s : legal_src a -> legal_src b -> byte_mem (mm s) -> compares ty (len w32) (vald (len w32) s a) (vald (len w32) s b) = Some v ->
  decides (fst (cmp_sub ty w32 a b)) (snd (cmp_sub ty w32 a b)) v s.
Proof.
  intros La Lb M V. unfold cmp_sub. destruct (is_imm a && negb (is_imm b)); cbn [fst snd]; apply sub_decides; auto; [apply swap_ok|apply same_ok]; exact V.
Qed.
Lemma data_refl s : same_data s s. Proof. split; [reflexivity|reflexivity]. Qed.
Lemma cmp0_ok eq w32 a s : legal_src a -> byte_mem (mm s) ->
  decides (fst (emit_cmp_to0 eq w32 a)) (snd (emit_cmp_to0 eq w32 a)) (Bool.eqb eq (vald (len w32) s a =? 0)) s.
Proof.
  intros L M. assert (LN : (if w32 then 32 else 64) = len w32) by (destruct w32; reflexivity). destruct a as [r|i|m]; cbn [emit_cmp_to0 fst snd vald legal_src] in *.
  - exists [], s. split; [reflexivity|]. split; [reflexivity|]. split; [split; [reflexivity|left; exact L]|]. split; [cbn [jcond_holds]; rewrite LN; reflexivity|apply data_refl].
  - destruct (load_immediate_ok TMP_REG1 i s ltac:(right; unfold TMP_REG1; lia) (fits i L)) as (ws & s1 & E & R & O). exists ws, s1. split; [exact E|]. split; [exact R|]. split; [split; [reflexivity|right; reflexivity]|].
    destruct O as (O1 & O2 & O3). change (reg_map TMP_REG1) with 9 in *. split.
    + cbn [jcond_holds]. change (reg_map TMP_REG1) with 9. rewrite LN. rewrite O1. f_equal. f_equal. unfold wrap. destruct w32; cbn [len]; [|apply Z.mod_mod; lia]. change (2 ^ 64) with (2 ^ 32 * 2 ^ 32). rewrite Z.rem_mul_r by lia. rewrite Z.mul_comm, Z.mod_add by lia. apply Z.mod_mod. lia.
    + split; [intros k K; apply O2; apply (reg27 k K)|apply O3].
  - destruct (adjust_ok m L) as (L' & P).
    destruct (emit_op_mem_ok (size2 w32) false false TMP_REG1 TMP_REG1 ltac:(destruct w32; cbn; lia) ltac:(intros E; discriminate E) ltac:(right; left; reflexivity) ltac:(left; reflexivity) ltac:(intros E; discriminate E) (adjust m) s L') as (ws & s1 & E & R & F & K & MM & V).
    cbv zeta iota in V. rewrite P in V. change (reg_map TMP_REG1) with 9 in *. exists ws, s1. split; [exact E|]. split; [exact R|]. split; [split; [reflexivity|right; reflexivity]|]. split.
    + cbn [jcond_holds]. change (reg_map TMP_REG1) with 9. rewrite LN, V. replace (Z.to_nat (2 ^ size2 w32)) with (Z.to_nat (len w32 / 8)) by (destruct w32; reflexivity). rewrite value_len by exact M. reflexivity.
    + split; [intros k KB; apply K; [apply (reg27 k KB)|intros _; apply (reg27 k KB)]|exact MM].
Qed.
Lemma zero_val w32 s a : is_zero a = true -> vald (len w32) s a = 0.
Proof. destruct a as [r|i|m]; cbn [is_zero vald]; intros H; try discriminate H. apply Z.eqb_eq in H. subst i. apply Z.mod_0_l. destruct w32; cbn; lia. Qed.
Lemma emit_cmp_ok ty w32 a b v s : legal_src a -> legal_src b -> byte_mem (mm s) -> compares ty (len w32) (vald (len w32) s a) (vald (len w32) s b) = Some v ->
  decides (fst (emit_cmp ty w32 a b)) (snd (emit_cmp ty w32 a b)) v s.
Proof.
  intros La Lb M V. assert (S : decides (fst (cmp_sub ty w32 a b)) (snd (cmp_sub ty w32 a b)) v s) by (apply cmp_sub_ok; assumption).
  assert (Z0 : forall eq, v = Bool.eqb eq (vald (len w32) s a =? vald (len w32) s b) ->
    decides (fst (let (a, b) := if is_zero a then (b, DImm 0) else (a, b) in if is_zero b then emit_cmp_to0 eq w32 a else cmp_sub ty w32 a b))
      (snd (let (a, b) := if is_zero a then (b, DImm 0) else (a, b) in if is_zero b then emit_cmp_to0 eq w32 a else cmp_sub ty w32 a b)) v s).
  { intros eq E. destruct (is_zero a) eqn:ZA.
    - cbn [is_zero]. rewrite Z.eqb_refl. subst v. rewrite (zero_val w32 s a ZA), (Z.eqb_sym 0). apply cmp0_ok; assumption.
    - destruct (is_zero b) eqn:ZB; [|exact S]. subst v. rewrite (zero_val w32 s b ZB). apply cmp0_ok; assumption. }
  destruct ty; try exact S; apply Z0; cbn [compares] in V; injection V as <-; destruct (_ =? _); reflexivity.
Qed.
Theorem cmp_ok rw ty w32 a b v code p t s : legal_src a -> legal_src b -> byte_mem (mm s) -> compares ty (len w32) (vald (len w32) s a) (vald (len w32) s b) = Some v -> isw t -> t mod 4 = 0 -> p mod 4 = 0 ->
  exists ws, fst (emit_cmp ty w32 a b) = Some ws /\
    let q := p + 4 * Z.of_nat (length ws) in let js := link_jump rw (Some (snd (emit_cmp ty w32 a b))) false q t in
    (code_at 4 (ws ++ js) p code -> exists s', goes code p s (if v then t else q + 4 * Z.of_nat (length js)) s' /\ same_data s s').
Proof.
  intros La Lb M V Ht T4 P4. destruct (emit_cmp_ok ty w32 a b v s La Lb M V) as (ws & s1 & E & R & L & J & D). exists ws. split; [exact E|]. cbv zeta. intros C.
  destruct (then_jump rw _ code p t s s1 ws L Ht T4 P4 R C) as (s' & G & B). rewrite J in G. exists s'. split; [exact G|exact (jump_data s s1 s' D B)].
Qed.

(** ** sljit_emit_op2cmpz *)
Lemma eq_mod n a b : 0 <= a < n -> 0 <= b < n -> ((a - b) mod n =? 0) = (a =? b).
Proof.
  intros A B. destruct (Z.eqb_spec a b) as [-> | N]; [rewrite Z.sub_diag, Z.mod_0_l by lia; reflexivity|]. apply Z.eqb_neq. intros H. destruct (Z_lt_le_dec a b) as [C | C].
  - rewrite <- (Z.mod_add (a - b) 1 n), Z.mod_small in H by lia. lia.
  - rewrite Z.mod_small in H by lia. lia.
Qed.
Lemma zero_ok op n a b c : zero_op op = true -> 0 <= a < 2 ^ n -> 0 <= b < 2 ^ n ->
  meaning op n a b c TEqual = Some (result op n a b c 0 =? 0) /\ meaning op n a b c TNotEqual = Some (negb (result op n a b c 0 =? 0)).
Proof.
  intros Z0 A B. destruct op; try discriminate Z0; cbn [meaning add_meaning sub_meaning zero_meaning]; cbv zeta; try (split; reflexivity).
  - unfold result. cbv zeta. rewrite Z.add_0_r. split; reflexivity.
  - unfold result. cbv zeta. rewrite eq_mod by assumption. split; reflexivity.
Qed.
Theorem op2cmpz_ok rw f op w32 iz d a b code p t s : zero_op op = true -> legal_result d -> legal_src a -> legal_src b -> byte_mem (mm s) -> isw t -> t mod 4 = 0 -> p mod 4 = 0 ->
  let n := len w32 in let x := vald n s a in let y := vald n s b in
  exists ws, fst (emit_op2cmpz f op w32 iz d a b) = Some ws /\
    let q := p + 4 * Z.of_nat (length ws) in let js := link_jump rw (Some (snd (emit_op2cmpz f op w32 iz d a b))) false q t in
    (code_at 4 (ws ++ js) p code -> exists s', goes code p s (if Bool.eqb iz (result op n x y (cf s) 0 =? 0) then t else q + 4 * Z.of_nat (length js)) s' /\ did_op2m op w32 true true d x y s s').
Proof.
  intros ZO LD La Lb M Ht T4 P4 n x y.
  assert (LD' : legal_dest op d) by (destruct d as [r|i|m]; cbn [legal_result legal_dest] in *; [left; exact LD|exact LD|split; [exact LD|intros ->; discriminate ZO]]).
  assert (HF : has_flags op = true) by (destruct op; try discriminate ZO; reflexivity).
  destruct (emit_op2_ok op w32 true d a b s LD' La Lb (fun _ => HF) M) as (ws & s1 & E & R & D). unfold emit_op2cmpz. cbn [fst snd]. exists ws. split; [exact E|]. cbv zeta. intros C.
  destruct (then_jump rw (JFlag (state_after op f) (if iz then TEqual else TNotEqual)) code p t s s1 ws (conj (fun _ => eq_refl) I) Ht T4 P4 R C) as (s' & G & B).
  replace (negb (dst_reg d =? TMP_REG2)) with true in D by (destruct d as [r|i|m]; cbn [legal_result dst_reg] in *; [unfold TMP_REG2; lia|destruct LD|reflexivity]).
  fold n x y in D. destruct D as (D1 & D2 & D3 & D4).
  destruct (zero_ok op n x y (cf s) ZO (vald_b w32 s a M) (vald_b w32 s b M)) as (M1 & M2).
  assert (J : jcond_holds (Some (JFlag (state_after op f) (if iz then TEqual else TNotEqual))) s1 = Bool.eqb iz (result op n x y (cf s) 0 =? 0)).
  { cbn [jcond_holds]. destruct iz; [rewrite (D4 eq_refl f TEqual _ M1)|rewrite (D4 eq_refl f TNotEqual _ M2)]; destruct (_ =? _); reflexivity. }
  rewrite J in G. exists s'. split; [exact G|]. destruct B as (B1 & BN & BZ & BC & BV & BM). cbv beta in B1.
  split; [|split; [|split; [intros H; discriminate H|]]].
  - destruct d as [r|i|m]; cbn [legal_result] in LD; [|exact D1|rewrite BM; exact D1]. rewrite BM, B1 by apply (reg27 r ltac:(lia)). exact D1.
  - intros k K1 K2. rewrite B1 by apply (reg27 k K2). apply D2; assumption.
  - intros _ f0 ty v V. rewrite <- (D4 eq_refl f0 ty v V). unfold flag_holds. rewrite BN, BZ, BC, BV. reflexivity.
Qed.
