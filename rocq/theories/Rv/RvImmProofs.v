(** C10-C12: constants.  *)
Require Import ZArith List Bool Lia Zify ZifyBool.
From Verif Require Import Rv.RvLib Rv.RvBits Rv.RvIsa Rv.RvEnc Rv.RvImm Rv.RvRun.
Import ListNotations.
Open Scope Z_scope.
Ltac Zify.zify_post_hook ::= Z.div_mod_to_equations.

(** Only the listed registers change; memory does not. *)
Definition keeps (s s' : mst) (w : list Z) : Prop :=
  mem s' = mem s /\ fregs s' = fregs s /\ pc s' = pc s /\ forall r, vreg r -> ~ In r w -> rd s' r = rd s r.

Ltac nq := unfold TMP_REG1, TMP_REG2, TMP_REG3, EQUAL_FLAG, OTHER_FLAG, TMP_ZERO, SLJIT_SP, RETURN_ADDR_REG in *; lia.
Ltac rds := repeat first [ rewrite rd_wr_same by (vr || nq) | rewrite rd_wr_other by (vr || nq) | rewrite rd_0
  | rewrite mem_wr | rewrite fregs_wr | rewrite pc_wr ].
Ltac kp := unfold keeps; rds; split; [reflexivity|split; [reflexivity|split; [reflexivity|
  let r := fresh "r" in let Hr := fresh "Hr" in let Hn := fresh "Hn" in
  intros r Hr Hn; cbn [In] in Hn; rds; try reflexivity ]]].

Lemma keeps_refl s w : keeps s s w.
Proof. unfold keeps; auto. Qed.
Lemma keeps_trans s s1 s2 w1 w2 w : keeps s s1 w1 -> keeps s1 s2 w2 -> incl w1 w -> incl w2 w -> keeps s s2 w.
Proof.
  intros (A1 & A2 & A3 & A4) (B1 & B2 & B3 & B4) I1 I2. unfold keeps.
  split; [congruence|split; [congruence|split; [congruence|]]].
  intros r Hr Hn. rewrite B4, A4; auto.
Qed.

Lemma land_800 x : (x .& 0x800 =? 0) = (x mod 4096 <? 2048).
Proof. apply (bit_test x 11). lia. reflexivity. Qed.
Lemma land_1000 x : (x .& 0x1000 =? 0) = (x mod 8192 <? 4096).
Proof. apply (bit_test x 12). lia. reflexivity. Qed.
Lemma land_80000000 x : (x .& 0x80000000 =? 0) = (x mod 2 ^ 32 <? 2 ^ 31).
Proof. apply (bit_test x 31). lia. reflexivity. Qed.
Lemma land_fff x : x .& 0xfff = x mod 4096.
Proof. apply (land_low x 12). lia. reflexivity. Qed.
Lemma land_hi x : x .& Z.lnot 0xfff = x / 4096 * 4096.
Proof. apply (land_lnot_low x 12). lia. reflexivity. Qed.
Lemma sext12 x : sext 12 x = if x mod 4096 <? 2048 then x mod 4096 else x mod 4096 - 4096.
Proof. reflexivity. Qed.
Lemma xori12 h x : Z.lxor (wrap (h * 4096)) (wrap (sext 12 x)) =
  wrap ((if x mod 4096 <? 2048 then h else Z.lnot h) * 4096 + x mod 4096).
Proof. rewrite lxor_wrap. f_equal. apply (lxor_sext 12). lia. Qed.

Lemma c_lui_imm_eq imm : c_lui_imm imm = C_IMM_I (imm / 4096).
Proof.
  rewrite C_IMM_I_mod. unfold c_lui_imm.
  replace (imm .& 0x1f000) with ((imm .& 0x3f000) .& 0x1f000) by (rewrite <- Z.land_assoc; reflexivity).
  replace (imm .& 0x20000) with ((imm .& 0x3f000) .& 0x20000) by (rewrite <- Z.land_assoc; reflexivity).
  rewrite (land_mask imm 12 6 0x3f000) by (reflexivity || lia).
  change (2 ^ 12) with 4096. change (2 ^ 6) with 64.
  assert (B : forallb (fun i => (u16 (Z.shiftr (i * 4096 .& 0x1f000) 10) .| Z.shiftr (i * 4096 .& 0x20000) 5) =? C_IMM_I i) (upto 64) = true)
    by (vm_compute; reflexivity).
  rewrite forallb_forall in B. apply Z.eqb_eq. apply (B ((imm / 4096) mod 64)).
  apply upto_in. pose proof (Z.mod_pos_bound (imm / 4096) 64). lia.
Qed.
Lemma sext6_small x : - 32 <= x < 32 -> sext 6 x = x.
Proof. intros. apply sext_small; lia. Qed.
Lemma sext12_small x : - 2048 <= x < 2048 -> sext 12 x = x.
Proof. intros. apply sext_small; lia. Qed.
Lemma u32_hi_range x : 0 <= u32 (x / 4096 * 4096) < 2 ^ 32 /\ u32 (x / 4096 * 4096) mod 2 ^ 12 = 0.
Proof.
  split; [apply u32_lt|]. unfold u32. change (2 ^ 32) with (2 ^ 20 * 4096). rewrite Zmult_mod_distr_r.
  change (2 ^ 12) with 4096. apply Z_mod_mult.
Qed.
Lemma sx32_u32 x : sx32 (u32 x) = sx32 x.
Proof. unfold u32. pose proof (Z.div_mod x (2 ^ 32)). apply sx32_eq with (- (x / 2 ^ 32)). lia. Qed.
Lemma sx32_small x : - 2 ^ 31 <= x < 2 ^ 31 -> sx32 x = wrap x.
Proof. intros. unfold sx32. f_equal. apply sext_small; lia. Qed.

Ltac ss := match goal with
  | |- exists s', Some ?x = Some s' /\ _ => exists x; split; [reflexivity|]
  end.

Section Imm.
Variable c : cfg.

Lemma load_immediate32_ok d imm s :
  vreg d -> d <> 0 -> d <> SLJIT_SP ->
  -0x80000000 <= imm <= 0x7fffffff -> (imm > 0x7ff \/ imm < -0x800) ->
  exists s', run (flat (load_immediate32 c d imm)) s = Some s' /\ rd s' d = wrap imm /\ keeps s s' [d].
Proof.
  intros Hd Nd Ns Hi Hb. unfold load_immediate32.
  destruct (imm >? S32_MAX) eqn:E1.
  { unfold S32_MAX in E1. cbn [flat app]. st; [|auto|lia|reflexivity]. st. cbn [run]. ss. rds. split; [|kp].
    cbn [alui]. change (sx32 0x80000000) with (wrap (-0x80000 * 4096)). rewrite xori12. f_equal.
    pose proof (Z.div_mod imm 4096).
    assert (imm / 4096 = 0x7ffff) by lia. assert (imm mod 4096 >= 2048) by lia.
    destruct (imm mod 4096 <? 2048) eqn:C; [lia|]. change (Z.lnot (-524288)) with 524287. lia. }
  unfold S32_MAX in E1.
  destruct (cC c && (imm <=? 0x1ffff) && (imm >=? -0x20000) && (imm >? 0x1f7ff)) eqn:E2.
  { cbn [flat app]. change 0x1000 with (C_IMM_I (-32)) at 1. st; [|auto|auto|vm_compute; discriminate]. st. cbn [run]. ss. rds. split; [|kp].
    cbn [alui]. change (sext 6 (-32) * 2 ^ 12) with (-32 * 4096). rewrite xori12. f_equal.
    pose proof (Z.div_mod imm 4096).
    assert (imm / 4096 = 31) by lia. assert (imm mod 4096 >= 2048) by lia.
    destruct (imm mod 4096 <? 2048) eqn:C; [lia|]. change (Z.lnot (-32)) with 31. lia. }
  cbv zeta. rewrite land_800.
  set (imm' := if negb (imm mod 4096 <? 2048) then imm + 0x1000 else imm).
  assert (D := Z.div_mod imm 4096). assert (D' := Z.div_mod imm' 4096).
  pose proof (Z.mod_pos_bound imm 4096 ltac:(lia)). pose proof (Z.mod_pos_bound imm' 4096 ltac:(lia)).
  assert (M : imm' mod 4096 = imm mod 4096).
  { unfold imm'. destruct (imm mod 4096 <? 2048); cbn [negb]; [reflexivity|]. change 0x1000 with (1 * 4096) at 1. apply Z_mod_plus_full. }
  assert (Q : imm' / 4096 = imm / 4096 + (if imm mod 4096 <? 2048 then 0 else 1)).
  { unfold imm'. destruct (imm mod 4096 <? 2048); cbn [negb]; [lia|]. change 0x1000 with (1 * 4096) at 1. rewrite Z_div_plus_full by lia. lia. }
  assert (S12 : imm' / 4096 * 4096 + sext 12 (imm' mod 4096) = imm).
  { rewrite sext12, M, Zmod_mod, Q. destruct (imm mod 4096 <? 2048); lia. }
  assert (Nq : imm' / 4096 <> 0). { rewrite Q. destruct (imm mod 4096 <? 2048) eqn:C; lia. }
  assert (Bq : imm' / 4096 <= 0x7ffff). { rewrite Q. destruct (imm mod 4096 <? 2048) eqn:C; lia. }
  assert (Bq' : -0x80000 <= imm' / 4096). { rewrite Q. destruct (imm mod 4096 <? 2048) eqn:C; lia. }
  rewrite land_fff, land_hi. cbn [flat].
  assert (A : exists s1, run (flat (if cC c && (imm <=? 0x1ffff) && (imm >=? -0x20000)
     then E16 (C_LUI .| C_RD d .| c_lui_imm imm') else E32 (LUI .| RD d .| u32 (imm' / 4096 * 4096)))) s = Some s1
     /\ rd s1 d = wrap (imm' / 4096 * 4096) /\ keeps s s1 [d]).
  { destruct (cC c && (imm <=? 0x1ffff) && (imm >=? -0x20000)) eqn:E3.
    - cbn [flat]. rewrite c_lui_imm_eq.
      assert (R6 : - 32 <= imm' / 4096 < 32). { rewrite Q. destruct (imm mod 4096 <? 2048) eqn:C; lia. }
      st; auto. 2:{ rewrite sext6_small; auto. }
      cbn [run]. ss. rds. split; [|kp]. rewrite sext6_small by auto. reflexivity.
    - cbn [flat]. destruct (u32_hi_range imm') as (U1 & U2). st; auto. cbn [run]. ss. rds. split; [|kp].
      rewrite sx32_u32, sx32_small by lia. reflexivity. }
  destruct A as (s1 & R1 & V1 & K1). rewrite (run_app _ _ _ _ R1).
  destruct (imm' mod 4096 =? 0) eqn:Z0.
  { cbn [flat run]. ss. split; [|exact K1]. rewrite V1. f_equal. apply Z.eqb_eq in Z0. rewrite Z0 in S12. change (sext 12 0) with 0 in S12. lia. }
  destruct (cC c && ((imm' mod 4096 <=? 31) || (imm' mod 4096 >=? 4064))) eqn:E4.
  - cbn [flat]. st. cbn [run]. ss. rds. split; [|apply (keeps_trans s s1 _ [d] [d] [d]); [exact K1|kp|apply incl_refl|apply incl_refl]].
    rewrite V1, wrap_add_l. f_equal. etransitivity; [|exact S12]. f_equal.
    rewrite sext12, Zmod_mod. destruct (imm' mod 4096 <? 2048) eqn:C.
    + apply sext6_small. lia.
    + apply sext_unique with 64; lia.
  - cbn [flat]. st. cbn [run]. ss. rds. split; [|apply (keeps_trans s s1 _ [d] [d] [d]); [exact K1|kp|apply incl_refl|apply incl_refl]].
    cbn [alui]. rewrite V1, wrap_add_l. f_equal. exact S12.
Qed.

Lemma load_immediate_small_ok d imm other s :
  vreg d -> d <> 0 -> d <> SLJIT_SP -> -0x80000000 <= imm <= 0x7fffffff ->
  exists s', run (flat (load_immediate_small c d imm other)) s = Some s' /\ rd s' d = wrap imm /\ keeps s s' [d].
Proof.
  intros Hd Nd Ns Hi. unfold load_immediate_small, SIMM16_MAX, SIMM16_MIN, SIMM_MAX, SIMM_MIN, S32_MIN.
  destruct (cC c && (imm <=? 31) && (imm >=? -32)) eqn:E1.
  { cbn [flat]. st. cbn [run]. ss. rds. split; [|kp]. rewrite sext6_small by lia. reflexivity. }
  destruct ((imm <=? 0x7ff) && (imm >=? -0x800)) eqn:E2.
  { cbn [flat]. st. cbn [run]. ss. rds. split; [|kp]. cbn [alui]. rewrite sext12_small by lia. reflexivity. }
  destruct ((imm <=? 0x7fffffff) && (imm >=? -0x80000000)) eqn:E3; [|lia].
  apply load_immediate32_ok; auto; lia.
Qed.

Lemma drop_bytes_ok fuel : forall h sh h' sh', drop_bytes fuel h sh = (h', sh') -> 0 <= sh ->
  h * 2 ^ sh = h' * 2 ^ sh' /\ 0 <= sh'.
Proof.
  induction fuel as [|n IH]; intros h sh h' sh' E Hs; cbn [drop_bytes] in E.
  - inversion E; subst; auto.
  - destruct (h .& 0xff =? 0) eqn:C.
    + apply IH in E; [|lia]. destruct E as (E & P). split; auto. rewrite <- E.
      rewrite Z.pow_add_r by lia. rewrite Z.shiftr_div_pow2 by lia.
      apply Z.eqb_eq in C. rewrite (land_low h 8) in C by (reflexivity || lia).
      change (2 ^ 8) with 256 in *. pose proof (Z.div_mod h 256). 
      assert (X : h = h / 256 * 256) by lia. rewrite X at 1. ring.
    + inversion E; subst; auto.
Qed.
Lemma shr_step h sh k m : 0 <= k -> 0 <= sh -> m = 2 ^ k - 1 -> (h .& m =? 0) = true ->
  Z.shiftr h k * 2 ^ (sh + k) = h * 2 ^ sh.
Proof.
  intros Hk Hs Em C. apply Z.eqb_eq in C. rewrite (land_low h k) in C by auto.
  rewrite Z.pow_add_r, Z.shiftr_div_pow2 by lia. assert (0 < 2 ^ k) by (apply Z.pow_pos_nonneg; lia).
  pose proof (Z.div_mod h (2 ^ k) ltac:(lia)) as D. rewrite C in D. rewrite D at 2. ring.
Qed.
Lemma trailing_ok imm h sh : trailing imm = (h, sh) -> imm <> 0 -> -2 ^ 63 <= imm < 2 ^ 63 ->
  imm = h * 2 ^ sh /\ 0 <= sh < 64.
Proof.
  unfold trailing. destruct (drop_bytes 8 imm 0) as (h1, s1) eqn:E1.
  apply drop_bytes_ok in E1; [|lia]. rewrite Z.pow_0_r, Z.mul_1_r in E1. destruct E1 as (I1 & P1).
  intros T N R.
  assert (I : imm = h * 2 ^ sh /\ 0 <= sh).
  { assert (St : forall h s k m h' s', (if h .& m =? 0 then (Z.shiftr h k, s + k) else (h, s)) = (h', s') ->
      0 <= k -> 0 <= s -> m = 2 ^ k - 1 -> h * 2 ^ s = h' * 2 ^ s' /\ 0 <= s').
    { intros h0 s0 k m h' s' E Hk Hs Hm. destruct (h0 .& m =? 0) eqn:C; inversion E; subst h' s'; split; try lia.
      symmetry. apply shr_step with m; auto. }
    destruct (if h1 .& 0xf =? 0 then _ else _) as (h2, s2) eqn:C1. apply St in C1; [|lia|lia|reflexivity].
    destruct (if h2 .& 0x3 =? 0 then _ else _) as (h3, s3) eqn:C2. apply St in C2; [|lia|lia|reflexivity].
    apply St in T; [|lia|lia|reflexivity]. lia. }
  destruct I as (I & P). split; auto. split; auto.
  destruct (Z.lt_ge_cases sh 64); auto. exfalso.
  assert (2 ^ 64 <= 2 ^ sh) by (apply Z.pow_le_mono_r; lia). assert (h <> 0) by (intros ->; lia). nia.
Qed.

Lemma slli_ok d sh s : vreg d -> d <> 0 -> 0 <= sh < 64 ->
  exists s', run (flat (if cC c then E16 (C_SLLI .| C_RD d .| C_IMM_I sh)
        else E32 (SLLI .| RD d .| RS1 d .| IMM_I sh))) s = Some s' /\ rd s' d = wrap (rd s d * 2 ^ sh) /\ keeps s s' [d].
Proof.
  intros Hd Nd Hs. destruct (cC c); cbn [flat]; st; cbn [run]; ss; rds; (split; [reflexivity|kp]).
Qed.
Lemma addi_ok d v s : vreg d -> d <> 0 -> 0 <= v <= 0xfff ->
  exists s', run (flat (if cC c && ((v <=? 0x1f) || (v >=? 0xfe0)) then E16 (C_ADDI .| C_RD d .| C_IMM_I v)
         else E32 (ADDI .| RD d .| RS1 d .| IMM_I v))) s = Some s' /\ rd s' d = wrap (rd s d + sext 12 v) /\ keeps s s' [d].
Proof.
  intros Hd Nd Hv. destruct (cC c && ((v <=? 0x1f) || (v >=? 0xfe0))) eqn:E; cbn [flat]; st; cbn [run]; ss; rds; (split; [|kp]).
  - f_equal. f_equal. rewrite sext12. rewrite Z.mod_small by lia. destruct (v <? 2048) eqn:C.
    + apply sext6_small. lia. + apply sext_unique with 64; lia.
  - reflexivity.
Qed.
Lemma lui_ok d v s : vreg d -> d <> 0 -> v mod 4096 = 0 ->
  exists s', run (flat (E32 (LUI .| RD d .| u32 v))) s = Some s' /\ rd s' d = sx32 v /\ keeps s s' [d].
Proof.
  intros Hd Nd Hv. cbn [flat]. assert (U := u32_hi_range v). replace (v / 4096 * 4096) with v in U by lia. destruct U as (U1 & U2).
  st; auto. cbn [run]. ss. rds. split; [apply sx32_u32|kp].
Qed.

Lemma seq_ok e1 e2 s s1 x w1 w2 (P : mst -> Prop) w :
  run (flat e1) s = Some s1 -> keeps s s1 w1 ->
  (exists s', run (flat e2) s1 = Some s' /\ P s' /\ keeps s1 s' w2) -> incl w1 w -> incl w2 w -> x = s ->
  exists s', run (flat (e1 ;; e2)) s = Some s' /\ P s' /\ keeps s s' w.
Proof.
  intros R K (s' & R2 & H & K2) I1 I2 _. exists s'. cbn [flat]. rewrite (run_app _ _ _ _ R). split; auto. split; auto.
  eapply keeps_trans; eauto.
Qed.

Lemma lnot_eq x : Z.lnot x = - x - 1. Proof. unfold Z.lnot. lia. Qed.

Lemma load_immediate64_ok d t imm0 s :
  vreg d -> d <> 0 -> d <> SLJIT_SP -> vreg t -> t <> 0 -> t <> d ->
  -2 ^ 63 <= imm0 < 2 ^ 63 ->
  exists s', run (flat (load_immediate64 c d imm0 t)) s = Some s' /\ rd s' d = wrap imm0 /\ keeps s s' [d; t].
Proof.
  intros Hd Nd Nsp Ht Nt Ntd Hi. unfold load_immediate64.
  set (imm := s32 imm0). set (hi := Z.shiftr imm0 32).
  rewrite land_80000000.
  set (high := if negb (imm mod 2 ^ 32 <? 2 ^ 31) then Z.lnot hi else hi).
  assert (Hl : - 2 ^ 31 <= imm < 2 ^ 31) by (apply (sext_range 32 imm0); lia).
  assert (Eh : hi = imm0 / 2 ^ 32) by (apply Z.shiftr_div_pow2; lia).
  assert (Hh : - 2 ^ 31 <= high < 2 ^ 31). { unfold high. rewrite lnot_eq, Eh. destruct (negb _); lia. }
  (* the final xor *)
  assert (Fin : Z.lxor (wrap imm) (wrap (high * 2 ^ 32)) = wrap imm0).
  { rewrite lxor_wrap. f_equal. rewrite Z.lxor_comm. unfold imm, s32. rewrite (lxor_sext 32) by lia.
    assert (Em : imm mod 2 ^ 32 = imm0 mod 2 ^ 32).
    { unfold imm, s32. destruct (sext_mod 32 imm0 ltac:(lia)) as (k & K). rewrite K at 2. symmetry. apply Z_mod_plus_full. }
    unfold high. rewrite Em. change (32 - 1) with 31. destruct (imm0 mod 2 ^ 32 <? 2 ^ 31) eqn:C; cbn [negb].
    - rewrite Eh. lia.
    - rewrite Z.lnot_involutive, Eh. lia. }
  assert (P1 : exists e1 h1, (if (high <=? 0x7ffff) && (high >=? -0x80000)
     then (E32 (LUI .| RD t .| u32 (Z.shiftl high 12)), 0x1000)
     else let h := if negb (high .& 0x800 =? 0) then high + 0x1000 else high in
       (E32 (LUI .| RD t .| u32 (h .& Z.lnot 0xfff)), h .& 0xfff)) = (e1, h1)
    /\ ((h1 = 0x1000 /\ (forall s, exists s', run (flat e1) s = Some s' /\ rd s' t = wrap (high * 4096) /\ keeps s s' [t]))
       \/ (0 <= h1 <= 0xfff /\ exists T, (forall s, exists s', run (flat e1) s = Some s' /\ rd s' t = wrap T /\ keeps s s' [t])
           /\ exists k, T + sext 12 h1 = high + k * 2 ^ 32))).
  { destruct ((high <=? 0x7ffff) && (high >=? -0x80000)) eqn:E.
    - eexists; eexists. split; [reflexivity|]. left. split; [reflexivity|]. intros s0.
      rewrite Z.shiftl_mul_pow2 by lia. change (2 ^ 12) with 4096.
      destruct (lui_ok t (high * 4096) s0) as (s' & R & V & K); auto. { lia. }
      exists s'. split; auto. split; auto. rewrite V. apply sx32_small. lia.
    - cbv zeta. rewrite land_800, land_hi, land_fff.
      set (h := if negb (high mod 4096 <? 2048) then high + 0x1000 else high).
      eexists; eexists. split; [reflexivity|]. right. split; [lia|].
      exists (sext 32 (h / 4096 * 4096)). split.
      + intros s0. destruct (lui_ok t (h / 4096 * 4096) s0) as (s' & R & V & K); auto. { lia. }
        exists s'. split; auto.
      + destruct (sext_mod 32 (h / 4096 * 4096) ltac:(lia)) as (k & K). exists (- k).
        rewrite sext12, Zmod_mod. unfold h in *. destruct (high mod 4096 <? 2048) eqn:C; cbn [negb] in *.
        * destruct (_ <? 2048) eqn:C2; lia.
        * assert (M : (high + 4096) mod 4096 = high mod 4096) by (change 4096 with (1 * 4096) at 1; apply Z_mod_plus_full).
          change 0x1000 with 4096 in *. rewrite M in *. destruct (high mod 4096 <? 2048) eqn:C2; [discriminate|lia]. }
  destruct P1 as (e1 & h1 & Ee1 & P1). cbv zeta in Ee1 |- *. rewrite Ee1. clear Ee1.
  set (P2l := if (imm <=? SIMM_MAX) && (imm >=? SIMM_MIN) then _ else _).
  assert (P2 : exists e2 i2 D, P2l = (e2, i2) /\
     (forall s, exists s', run (flat e2) s = Some s' /\ rd s' d = wrap D /\ keeps s s' [d]) /\
     (i2 = 0 /\ D = imm
      \/ i2 mod 8192 >= 4096 /\ Z.lxor (wrap D) (wrap (sext 12 i2)) = wrap imm
      \/ 0 < i2 <= 0xfff /\ wrap (D + sext 12 i2) = wrap imm)).
  { unfold P2l, SIMM_MAX, SIMM_MIN, S32_MAX. destruct ((imm <=? 0x7ff) && (imm >=? -0x800)) eqn:E.
    - eexists; eexists; exists imm. split; [reflexivity|]. split; [|left; auto]. intros s0.
      destruct (cC c && (imm <=? 31) && (imm >=? -32)) eqn:E1; cbn [flat]; st; cbn [run]; ss; rds; (split; [|kp]).
      + rewrite sext6_small by lia. reflexivity.
      + cbn [alui]. rewrite sext12_small by lia. reflexivity.
    - destruct (imm >? 0x7ffff7ff) eqn:E1.
      + eexists; eexists; exists (-0x80000 * 4096). split; [reflexivity|]. split.
        * intros s0. cbn [flat]. st; [|auto|lia|reflexivity]. cbn [run]. ss. rds. split; [reflexivity|kp].
        * right. left. rewrite land_fff.
          assert (A : 0x1000 .| imm mod 4096 = 0x1000 + imm mod 4096).
          { change 0x1000 with (1 * 2 ^ 12). symmetry. apply add_lor; lia. }
          rewrite A. split. { lia. }
          assert (S : sext 12 (0x1000 + imm mod 4096) = sext 12 imm) by (apply sext_eq with (1 - imm / 4096); lia).
          rewrite S, xori12. f_equal. rewrite lnot_eq. destruct (imm mod 4096 <? 2048) eqn:C; lia.
      + rewrite land_800, land_fff, land_hi. set (i := if negb (imm mod 4096 <? 2048) then imm + 0x1000 else imm).
        assert (Qi : - 0x80000 <= i / 4096 <= 0x7ffff). { unfold i. destruct (imm mod 4096 <? 2048) eqn:C; cbn [negb]; lia. }
        assert (Qn : i / 4096 <> 0). { unfold i. destruct (imm mod 4096 <? 2048) eqn:C; cbn [negb]; lia. }
        assert (Si : i / 4096 * 4096 + sext 12 (i mod 4096) = imm).
        { rewrite sext12, Zmod_mod. unfold i. destruct (imm mod 4096 <? 2048) eqn:C; cbn [negb].
          - destruct (_ <? 2048) eqn:C2; lia.
          - destruct ((imm + 4096) mod 4096 <? 2048) eqn:C2; lia. }
        clearbody i.
        eexists; eexists; exists (i / 4096 * 4096). split; [reflexivity|]. split.
        * intros s0. destruct (cC c && (i <=? 0x1ffff) && (i >=? -0x20000)) eqn:E2.
          { cbn [flat]. rewrite c_lui_imm_eq. assert (R6 : - 32 <= i / 4096 < 32) by lia.
            st; auto. 2:{ rewrite sext6_small; auto. }
            cbn [run]. ss. rds. split; [|kp]. rewrite sext6_small by auto. reflexivity. }
          destruct (lui_ok d (i / 4096 * 4096) s0) as (s' & R & V & K); auto. { lia. }
          exists s'. split; auto. split; auto. rewrite V. apply sx32_small. lia.
        * destruct (Z.eq_dec (i mod 4096) 0) as [Z0|Z0].
          { left. split; auto. rewrite Z0 in Si. change (sext 12 0) with 0 in Si. lia. }
          right. right. split; [lia|]. f_equal. exact Si. }
  destruct P2 as (e2 & i2 & D & E2 & R2 & C2). rewrite E2. clear P2l E2.
  (* execution *)
  assert (I1 : incl [t] [d; t]) by (intros x [->|[]]; cbn; auto).
  assert (I2 : incl [d] [d; t]) by (intros x [->|[]]; cbn; auto).
  assert (I3 : incl [d; t] [d; t]) by apply incl_refl.
  assert (X1 : exists T k, (forall s, exists s', run (flat e1) s = Some s' /\ rd s' t = wrap T /\ keeps s s' [t])
     /\ (h1 = 0x1000 /\ T = high * 4096 /\ k = 20
         \/ (0 <= h1 <= 0xfff /\ k = 32 /\ exists j, T + sext 12 h1 = high + j * 2 ^ 32))).
  { destruct P1 as [(A & B)|(A & T & B & C)].
    - exists (high * 4096), 20. split; auto.
    - exists T, 32. split; auto. }
  clear P1. destruct X1 as (T & k & R1 & C1).
  destruct (R1 s) as (s1 & Q1 & V1 & K1).
  eapply (seq_ok _ _ s s1 s [t] [d; t]); [exact Q1|exact K1| |auto|auto|reflexivity].
  destruct (R2 s1) as (s2 & Q2 & V2 & K2).
  assert (V1' : rd s2 t = wrap T). { destruct K2 as (_ & _ & _ & K2). rewrite K2; auto. cbn. intuition. }
  eapply (seq_ok _ _ s1 s2 s1 [d] [d; t]); [exact Q2|exact K2| |auto|auto|reflexivity].
  assert (X3 : exists s3 T', run (flat (if negb (h1 .& 0xfff =? 0) then
      (if cC c && ((h1 <=? 0x1f) || (h1 >=? 0xfe0)) then E16 (C_ADDI .| C_RD t .| C_IMM_I h1)
       else E32 (ADDI .| RD t .| RS1 t .| IMM_I h1)) else ENop)) s2 = Some s3 /\ rd s3 t = wrap T' /\ keeps s2 s3 [t]
      /\ exists j, T' * 2 ^ k = high * 2 ^ 32 + j * 2 ^ 64).
  { rewrite land_fff. destruct (h1 mod 4096 =? 0) eqn:Z0; cbn [negb].
    - exists s2, T. cbn [flat run]. split; auto. split; auto. split; [apply keeps_refl|].
      destruct C1 as [(-> & -> & ->)|(B & -> & j & J)].
      + exists 0. lia.
      + exists j. assert (h1 = 0) by lia. subst h1. change (sext 12 0) with 0 in J. lia.
    - destruct C1 as [(-> & _)|(B & -> & j & J)]; [discriminate|].
      destruct (addi_ok t h1 s2) as (s3 & Q3 & V3 & K3); auto.
      exists s3, (T + sext 12 h1). split; auto. split; [|split; auto].
      + rewrite V3, V1', wrap_add_l. reflexivity.
      + exists j. rewrite J. lia. }
  destruct X3 as (s3 & T' & Q3 & V3 & K3 & j & J).
  assert (V2' : rd s3 d = wrap D). { destruct K3 as (_ & _ & _ & K3). rewrite K3; auto. cbn. intuition. }
  eapply (seq_ok _ _ s2 s3 s2 [t] [d; t]); [exact Q3|exact K3| |auto|auto|reflexivity].
  assert (X4 : exists s4, run (flat (if negb (i2 .& 0x1000 =? 0) then E32 (XORI .| RD d .| RS1 d .| IMM_I i2)
      else if negb (i2 =? 0) then
      (if cC c && ((i2 <=? 0x1f) || (i2 >=? 0xfe0)) then E16 (C_ADDI .| C_RD d .| C_IMM_I i2)
       else E32 (ADDI .| RD d .| RS1 d .| IMM_I i2)) else ENop)) s3 = Some s4 /\ rd s4 d = wrap imm /\ keeps s3 s4 [d]).
  { rewrite land_1000. destruct C2 as [(-> & ->)|[(B & X)|(B & X)]].
    - cbn [Z.eqb negb flat run]. change (0 mod 8192 <? 4096) with true. cbn [negb flat run]. exists s3. split; auto. split; auto. apply keeps_refl.
    - destruct (i2 mod 8192 <? 4096) eqn:G; [lia|]. cbn [negb flat]. st. cbn [run]. ss. rds. split; [|kp].
      cbn [alui]. rewrite V2'. exact X.
    - destruct (i2 mod 8192 <? 4096) eqn:G; [|lia]. destruct (i2 =? 0) eqn:G2; [lia|]. cbn [negb].
      destruct (addi_ok d i2 s3) as (s4 & Q4 & V4 & K4); auto. { lia. }
      exists s4. split; auto. split; auto. rewrite V4, V2', wrap_add_l. exact X. }
  destruct X4 as (s4 & Q4 & V4 & K4).
  assert (V3' : rd s4 t = wrap T'). { destruct K4 as (_ & _ & _ & K4). rewrite K4; auto. cbn. intuition. }
  eapply (seq_ok _ _ s3 s4 s3 [d] [d; t]); [exact Q4|exact K4| |auto|auto|reflexivity].
  assert (X5 : exists s5, run (flat (if cC c
     then E16 (C_SLLI .| C_RD t .| u16 (if negb (h1 .& 0x1000 =? 0) then Z.shiftl 20 2 else Z.shiftl 1 12))
     else E32 (SLLI .| RD t .| RS1 t .| IMM_I (if negb (h1 .& 0x1000 =? 0) then 20 else 32)))) s4 = Some s5
     /\ rd s5 t = wrap (rd s4 t * 2 ^ k) /\ keeps s4 s5 [t]).
  { rewrite land_1000. destruct C1 as [(-> & -> & ->)|(B & -> & _)].
    - change (0x1000 mod 8192 <? 4096) with false. cbn [negb]. change (u16 (Z.shiftl 20 2)) with (C_IMM_I 20). apply slli_ok; auto. lia.
    - destruct (h1 mod 8192 <? 4096) eqn:G; [|lia]. cbn [negb]. change (u16 (Z.shiftl 1 12)) with (C_IMM_I 32). apply slli_ok; auto. lia. }
  destruct X5 as (s5 & Q5 & V5 & K5).
  assert (V4' : rd s5 d = wrap imm). { destruct K5 as (_ & _ & _ & K5). rewrite K5; auto. cbn. intuition. }
  eapply (seq_ok _ _ s4 s5 s4 [t] [d]); [exact Q5|exact K5| |auto|auto|reflexivity].
  cbn [flat]. st. cbn [run]. ss. rds. split; [|kp].
  cbn [alu]. rewrite V4', V5, V3', wrap_mul_l. rewrite <- Fin. f_equal.
  rewrite J. apply wrap_eq with j. reflexivity.
Qed.

Theorem load_immediate_ok d t imm s :
  vreg d -> d <> 0 -> d <> SLJIT_SP -> vreg t -> t <> 0 -> t <> d -> -2 ^ 63 <= imm < 2 ^ 63 ->
  exists s', run (flat (load_immediate c d imm t)) s = Some s' /\ rd s' d = wrap imm /\ keeps s s' [d; t].
Proof.
  intros Hd Nd Nsp Ht Nt Ntd Hi.
  assert (I1 : incl [d] [d; t]) by (intros x [->|[]]; cbn; auto).
  assert (Wk : forall e, (exists s', run (flat e) s = Some s' /\ rd s' d = wrap imm /\ keeps s s' [d]) ->
     exists s', run (flat e) s = Some s' /\ rd s' d = wrap imm /\ keeps s s' [d; t]).
  { intros e (s' & R & V & K). exists s'. split; auto. split; auto. apply (keeps_trans s s s' [d] [d]); auto using keeps_refl. }
  destruct (Z_le_dec (-0x80000000) imm) as [A|A]; [destruct (Z_le_dec imm 0x7fffffff) as [B|B]|].
  { apply Wk. apply load_immediate_small_ok; auto. }
  1,2: unfold load_immediate; unfold load_immediate_small at 1; unfold SIMM16_MAX, SIMM16_MIN, SIMM_MAX, SIMM_MIN, S32_MIN;
    (destruct (cC c && (imm <=? 31) && (imm >=? -32)) eqn:E1; [lia|]);
    (destruct ((imm <=? 0x7ff) && (imm >=? -0x800)) eqn:E2; [lia|]);
    (destruct ((imm <=? 0x7fffffff) && (imm >=? -0x80000000)) eqn:E3; [lia|]).
  1,2: destruct (trailing imm) as (h, sh) eqn:T; apply trailing_ok in T; [|lia|lia]; destruct T as (T & S);
    destruct ((h <=? 0x7fffffff) && (h >=? -0x80000000)) eqn:E4;
    [ apply Wk; destruct (load_immediate_small_ok d h ENop s) as (s1 & R1 & V1 & K1); [auto..|lia|];
      destruct (slli_ok d sh s1) as (s2 & R2 & V2 & K2); [auto..|];
      exists s2; cbn [flat]; rewrite (run_app _ _ _ _ R1); split; [exact R2|]; split;
      [rewrite V2, V1, wrap_mul_l, T; reflexivity|apply (keeps_trans s s1 s2 [d] [d]); auto using incl_refl] | ].
  1,2: destruct ((imm <=? 0x7ffffffffff) && (imm >=? -0x80000000000)) eqn:E5;
    [|apply load_immediate64_ok; auto].
  1,2: apply Wk; cbv zeta; rewrite land_800; set (hh := if negb (imm mod 4096 <? 2048) then _ else _);
    assert (Hh : - 2 ^ 31 <= hh < 2 ^ 31 /\ (hh > 0x7ff \/ hh < -0x800)) by
      (unfold hh; rewrite lnot_eq, Z.shiftr_div_pow2 by lia; change (2 ^ 12) with 4096; destruct (negb _); lia);
    destruct (load_immediate32_ok d hh s) as (s1 & R1 & V1 & K1); [auto..|lia|lia|];
    change (u16 (Z.shiftl 12 2)) with (C_IMM_I 12);
    destruct (slli_ok d 12 s1) as (s2 & R2 & V2 & K2); [auto..|lia|];
    (eapply (seq_ok _ _ s s1 s [d] [d]); [exact R1|exact K1| |apply incl_refl|apply incl_refl|reflexivity]);
    (eapply (seq_ok _ _ s1 s2 s1 [d] [d]); [exact R2|exact K2| |apply incl_refl|apply incl_refl|reflexivity]);
    cbn [flat]; st; cbn [run]; ss; rds; (split; [|kp]);
    cbn [alui]; rewrite V2, V1, wrap_mul_l; change (2 ^ 12) with 4096; rewrite xori12; f_equal;
    unfold hh; rewrite ?lnot_eq, Z.shiftr_div_pow2 by lia; change (2 ^ 12) with 4096;
    destruct (imm mod 4096 <? 2048); cbn [negb]; lia.
Qed.
End Imm.


(** ** From straight-line runs to the machine *)

(** Memory, float registers and all machine registers but the listed ones (sljit numbers) are unchanged. *)
Definition same_but (s s' : mst) (w : list Z) : Prop :=
  mem s' = mem s /\ fregs s' = fregs s /\
  forall x, 0 <= x < 32 -> ~ In x (map reg_map w) -> getr s' x = getr s x.
Lemma keeps_same s s' w : keeps s s' w -> same_but s s' w.
Proof.
  intros (A & B & _ & D). split; [auto|split; [auto|]]. intros x Hx N. destruct (reg_map_all x Hx) as (r & Hr & <-).
  apply D; auto. intros I. apply N. apply in_map. auto.
Qed.
Lemma run_machine code l s s' w :
  run l s = Some s' -> keeps s s' w -> isw (pc s) -> code_at code (pc s) (units_of l) ->
  exists s'', steps code s s'' /\ pc s'' = wrap (pc s + 2 * Z.of_nat (length (units_of l))) /\ same_but s s'' w /\
    forall r, rd s'' r = rd s' r.
Proof.
  intros R K P C. destruct (run_steps code l s s' R P C) as (S & _).
  eexists. split; [exact S|]. split; [reflexivity|]. split; [|reflexivity].
  destruct (keeps_same _ _ _ K) as (A & B & D). split; [exact A|split; [exact B|exact D]].
Qed.

(** A decidable form of [code_at] for concrete examples. *)
Definition place (a : Z) (l : list Z) : Z -> Z := fun x => nth (Z.to_nat ((x - a) / 2)) l 0.
Lemma place_at a l : 0 <= a -> a + 2 * Z.of_nat (length l) < 2 ^ 64 -> code_at (place a l) a l.
Proof.
  intros Ha Hl n v E. assert (n < length l)%nat by (apply nth_error_Some; congruence).
  unfold place. rewrite wrap_small by (unfold isw; lia). replace (a + 2 * Z.of_nat n - a) with (Z.of_nat n * 2) by lia.
  rewrite Z.div_mul by lia. rewrite Nat2Z.id. apply nth_error_nth. auto.
Qed.
