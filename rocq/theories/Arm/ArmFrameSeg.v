(** ARM64: the parts of function entry and return. *)
Require Import ZArith List Bool Lia Zify ZifyBool Permutation FinFun.
From Verif Require Import Rv.RvLib Rv.RvBits Imm.ImmLib Imm.MsProofs Imm.PpProofs Arm.ArmIsa Arm.ArmBr Arm.ArmEnc Arm.ArmBits Arm.ArmImm Arm.ArmImmProofs Arm.ArmLogImm Arm.ArmLoadImm
  Arm.ArmJump Arm.ArmJumpSpec Arm.ArmJumpProofs Arm.ArmCondProofs Arm.ArmOp Arm.ArmOpSpec Arm.ArmOpDec Arm.ArmOpProofs Arm.ArmOpImm Arm.ArmOp1 Arm.ArmMem Arm.ArmMemSpec Arm.ArmMemProofs Arm.ArmPair Arm.ArmFrame Arm.ArmFrameSpec Arm.ArmFrameDec Arm.ArmFrameRun Arm.ArmFrameMem Arm.ArmMemOp2.
Import ListNotations.
Open Scope Z_scope.
Ltac Zify.zify_post_hook ::= idtac.

(** ** Moving the stack pointer *)
Lemma gr_wB s r v k : gr (wB s r v) k = if k =? r then v else gr s k.
Proof. reflexivity. Qed.
Lemma awc_add x j : fst (awc 64 (lo 64 x) j false) = (x + j) mod 2 ^ 64.
Proof. unfold awc. cbv zeta. cbn [fst Z.b2z]. unfold lo. rewrite Z.add_0_r. rewrite Zplus_mod_idemp_l. reflexivity. Qed.
Lemma awc_sub x j : 0 <= j < 2 ^ 64 -> fst (awc 64 (lo 64 x) (lo 64 (Z.lnot j)) true) = (x - j) mod 2 ^ 64.
Proof.
  intros J. rewrite lo_lnot by lia. unfold awc. cbv zeta. cbn [fst Z.b2z]. unfold lo. replace (x mod 2 ^ 64 + (2 ^ 64 - 1 - j) + 1) with (x mod 2 ^ 64 + (2 ^ 64 - j)) by ring. rewrite Zplus_mod_idemp_l.
  replace (x + (2 ^ 64 - j)) with (x - j + 1 * 2 ^ 64) by ring. apply Z.mod_add. lia.
Qed.
Lemma exec_addsp (sub : bool) sh p j (s : st) : 0 <= j < 4096 -> sh = 0 \/ sh = 1 -> exec (IAddI true sub false sh j 31 p) s = Some (wSP s p ((if sub then xr s 31 - j * (if sh =? 1 then 4096 else 1) else xr s 31 + j * (if sh =? 1 then 4096 else 1)) mod 2 ^ 64)).
Proof.
  intros J S. unfold exec. cbn [dsz]. cbv zeta. unfold rSP. set (o2 := if sh =? 1 then j * 4096 else j). assert (O : o2 = j * (if sh =? 1 then 4096 else 1)) by (unfold o2; destruct (sh =? 1); lia). rewrite <- O.
  assert (OB : 0 <= o2 < 2 ^ 64) by (unfold o2; destruct (sh =? 1); lia). destruct sub.
  - pose proof (awc_sub (xr s 31) o2 OB) as E. destruct (awc _ _ _ _) as [r [[[a b] d] e]]. cbn [fst] in E. rewrite E. reflexivity.
  - pose proof (awc_add (xr s 31) o2) as E. destruct (awc _ _ _ _) as [r [[[a b] d] e]]. cbn [fst] in E. rewrite E. reflexivity.
Qed.
Lemma addsp_step (sub : bool) p j s : 0 <= p < 32 -> 0 <= j < 4096 ->
  step_f ((if sub then SUBI else ADDI) .| p .| Z.shiftl 31 5 .| Z.shiftl j 10) s = Some (wB s p ((if sub then sp s - j else sp s + j) mod 2 ^ 64)).
Proof. intros P J. destruct (dec_addsp sub p j P J) as (D1 & D2). unfold step_f. rewrite D1, D2, exec_addsp by (try lia; auto). change (0 =? 1) with false. cbv iota. rewrite Z.mul_1_r. reflexivity. Qed.
Lemma addsp12_step (sub : bool) j s : 0 <= j < 4096 ->
  step_f ((if sub then SUBI else ADDI) .| 31 .| Z.shiftl 31 5 .| Z.shiftl j 10 .| Z.shiftl 1 22) s = Some (wB s 31 ((if sub then sp s - j * 4096 else sp s + j * 4096) mod 2 ^ 64)).
Proof. intros J. destruct (dec_addsp12 sub j J) as (D1 & D2). unfold step_f. rewrite D1, D2, exec_addsp by (try lia; auto). reflexivity. Qed.

(** The state with another stack pointer. *)
Definition moved (d : Z) (s s' : fstate) : Prop := sp s' = (sp s + d) mod 2 ^ 64 /\ (forall k, k <> 31 -> gr s' k = gr s k) /\ vd s' = vd s /\ mem s' = mem s.
Lemma moved_trans d e s s1 s2 : moved d s s1 -> moved e s1 s2 -> moved (d + e) s s2.
Proof.
  intros (A & B & C & D) (A' & B' & C' & D'). split; [rewrite A', A, Zplus_mod_idemp_l; f_equal; ring|]. split; [intros k K; rewrite B', B by exact K; reflexivity|]. split; congruence.
Qed.
Lemma moved_wB s d v : v = (sp s + d) mod 2 ^ 64 -> moved d s (wB s 31 v).
Proof. intros ->. split; [reflexivity|]. split; [intros k K; rewrite gr_wB; replace (k =? 31) with false by lia; reflexivity|]. split; reflexivity. Qed.
Lemma moved_wf d s s' : moved d s s' -> wf s -> wf s'.
Proof.
  intros (A & B & C & D) (X & Y & Z0). split; [|split; [rewrite C; exact Y|rewrite D; exact Z0]]. intros k. destruct (Z.eq_dec k 31) as [-> | N]; [|rewrite B by exact N; apply X].
  unfold sp in A. fold (gr s' 31) in A. rewrite A. apply Z.mod_pos_bound. lia.
Qed.

(** ** Storing the frame pointer and the return address *)
Definition fp_stored (m : Z) (s s' : fstate) : Prop :=
  sp s' = (sp s - m) mod 2 ^ 64 /\ (forall k, k <> 31 -> gr s' k = gr s k) /\ vd s' = vd s /\ ld8 s' (sp s') = gr s 29 /\ ld8 s' (sp s' + 8) = gr s 30 /\ same_out (sp s') 0 16 s s' /\ wf s'.
Lemma two_st s a : wf s -> let s' := st8 (st8 s a (gr s 29)) (a + 8) (gr s 30) in ld8 s' a = gr s 29 /\ ld8 s' (a + 8) = gr s 30 /\ same_out a 0 16 s s' /\ wf s' /\ (forall k, gr s' k = gr s k) /\ vd s' = vd s.
Proof.
  intros W. cbv zeta. pose proof W as (WA & WB & WC). set (s1 := st8 s a (gr s 29)). pose proof (st8_out s1 a 8 (gr s 30)) as S2. pose proof (st8_out s a 0 (gr s 29)) as S1. rewrite Z.add_0_r in S1. fold s1 in S1. cbn [Z.add] in S1.
  split; [|split; [apply ld8_st8; apply WA|split; [|split; [|split; reflexivity]]]].
  - pose proof (ld8_out a 8 (8 + 8) s1 _ 0 ltac:(lia) ltac:(lia) ltac:(lia) ltac:(lia) S2) as E. rewrite Z.add_0_r in E. rewrite E. apply ld8_st8. apply WA.
  - apply (same_out_trans _ _ _ _ s1); [apply (same_out_mono a 0 8); [lia|lia|exact S1]|apply (same_out_mono a 8 (8 + 8)); [lia|lia|exact S2]].
  - apply (wf_mem s); [split; reflexivity|exact W|]. apply st8_bytes. apply st8_bytes. exact WC.
Qed.
Lemma same_out_cong A B lo hi s s' : A mod 2 ^ 64 = B mod 2 ^ 64 -> same_out A lo hi s s' -> same_out B lo hi s s'.
Proof. intros E S x X. apply S. intros i I. rewrite (add_cong A B i E). apply X. exact I. Qed.
Lemma neg7 n : 0 <= n < 2 ^ 21 -> Z.shiftl (- (Z.shiftr n 3) .& 0x7f) 15 = Z.shiftl ((- (n / 8)) mod 128) 15.
Proof. intros N. f_equal. rewrite Z.shiftr_div_pow2 by lia. change 0x7f with (Z.ones 7). rewrite Z.land_ones by lia. reflexivity. Qed.
Lemma stp_pre_step n s : 16 <= n <= 512 -> n mod 16 = 0 -> wf s -> exists s', step_f (stp_pre n) s = Some s' /\ fp_stored n s s'.
Proof.
  intros N N16 W. unfold stp_pre. rewrite neg7 by lia. set (j := (- (n / 8)) mod 128). assert (J : 0 <= j < 128 /\ 8 * sext 7 j = - n).
  { assert (JB : 0 <= j < 128) by (apply Z.mod_pos_bound; lia). split; [exact JB|]. assert (E : j = 128 - n / 8) by (unfold j; Z.to_euclidean_division_equations; lia).
    assert (Q : exists q, n = 8 * q /\ n / 8 = q /\ 2 <= q <= 64) by (exists (n / 8); Z.to_euclidean_division_equations; lia). destruct Q as (q & Q1 & Q2 & Q3). rewrite Q2 in E.
    assert (F : forallb (fun q => 8 * sext 7 (128 - q) =? - (8 * q)) (zseq 2 63) = true) by (vm_compute; reflexivity). rewrite forallb_forall in F. specialize (F q (in_zseq 2 63 q ltac:(lia))). rewrite E. lia. }
  destruct J as (JB & J). change (reg_map TMP_FP) with 29. change (RT2 TMP_LR) with (Z.shiftl 30 10). change (RN SLJIT_SP) with (Z.shiftl 31 5).
  unfold step_f. rewrite dec_pre by lia. cbn [exec_f Z.eqb Pos.eqb]. rewrite J. set (a := wrap (rSP (gs s) 31 + - n)). cbn [reg]. change (rX (gs s) 29) with (gr s 29). change (rX (gs (st8 s a (gr s 29))) 30) with (gr s 30).
  assert (AE : a = (sp s - n) mod 2 ^ 64) by reflexivity. change (rX (gs s) 30) with (gr s 30).
  destruct (two_st s a W) as (L1 & L2 & S & W' & G & V). set (s1 := st8 (st8 s a (gr s 29)) (a + 8) (gr s 30)) in *. eexists. split; [reflexivity|].
  assert (M : moved 0 s1 (wB s1 31 a) \/ True) by auto. unfold fp_stored. assert (SPE : sp (wB s1 31 a) = a) by reflexivity. rewrite SPE. split; [exact AE|].
  split; [intros k K; rewrite gr_wB; replace (k =? 31) with false by lia; apply G|]. split; [exact V|]. split; [exact L1|]. split; [exact L2|]. split; [exact S|].
  destruct W' as (WA & WB & WC). split; [|split; assumption]. intros k. rewrite gr_wB. destruct (k =? 31); [rewrite AE; apply Z.mod_pos_bound; lia|apply WA].
Qed.
Lemma stp_step s : wf s -> exists s', step_f stp_fp s = Some s' /\ fp_stored 0 s s'.
Proof.
  intros W. unfold stp_fp. change (STP .| reg_map TMP_FP .| RT2 TMP_LR .| RN SLJIT_SP) with (pairk false false .| 29 .| Z.shiftl 30 10 .| Z.shiftl 31 5 .| Z.shiftl 0 15). unfold step_f. rewrite dec_pair by lia. cbn [exec_f Z.eqb Pos.eqb].
  change (8 * sext 7 0) with 0. set (a := wrap (rSP (gs s) 31 + 0)). cbn [reg]. change (rX (gs s) 29) with (gr s 29). change (rX (gs s) 30) with (gr s 30).
  assert (AE : a = sp s) by (unfold a, wrap, rSP; rewrite Z.add_0_r; apply Z.mod_small; apply (proj1 W 31)).
  destruct (two_st s a W) as (L1 & L2 & S & W' & G & V). eexists. split; [reflexivity|]. set (s1 := st8 (st8 s a (gr s 29)) (a + 8) (gr s 30)) in *. unfold fp_stored. assert (SPE : sp s1 = a) by (rewrite AE; apply G). rewrite SPE.
  split; [rewrite Z.sub_0_r, AE; symmetry; apply Z.mod_small; apply (proj1 W 31)|]. split; [intros k _; apply G|]. repeat split; try assumption; apply W'.
Qed.
Lemma fp_after d n s s1 s' : moved (- d) s s1 -> fp_stored n s1 s' -> fp_stored (d + n) s s'.
Proof.
  intros (A & B & C & D) (A' & B' & C' & L1 & L2 & S & W). split; [rewrite A', A, Zminus_mod_idemp_l; f_equal; ring|]. split; [intros k K; rewrite B', B by exact K; reflexivity|]. split; [congruence|].
  split; [rewrite L1; apply B; lia|]. split; [rewrite L2; apply B; lia|]. split; [|exact W]. intros x X. rewrite S by exact X. rewrite D. reflexivity.
Qed.
Lemma rest_run n s : 16 <= n < 2 ^ 21 -> n mod 16 = 0 -> wf s -> exists s', run_f (rest_words n) s = Some s' /\ fp_stored n s s'.
Proof.
  intros N N16 W. unfold rest_words. replace (n =? 0) with false by lia. set (m := if 0xfff <? n then n .& 0xfff else n).
  assert (M : 0 <= m < 4096 /\ m mod 16 = 0 /\ n - m = (if 0xfff <? n then n / 4096 * 4096 else 0)).
  { unfold m. destruct (0xfff <? n) eqn:E; [|lia]. change 0xfff with (Z.ones 12). rewrite Z.land_ones by lia. Z.to_euclidean_division_equations; lia. }
  destruct M as (MB & M16 & MN). cbv zeta. change (RD SLJIT_SP) with 31. change (RN SLJIT_SP) with (Z.shiftl 31 5).
  assert (H1 : exists s1, run_f (if 0xfff <? n then [SUBI .| 31 .| Z.shiftl 31 5 .| Z.shiftl (Z.shiftr n 12) 10 .| Z.shiftl 1 22] else []) s = Some s1 /\ moved (- (n - m)) s s1).
  { destruct (0xfff <? n) eqn:E.
    - rewrite Z.shiftr_div_pow2 by lia. cbn [run_f]. rewrite (addsp12_step true (n / 2 ^ 12) s) by (Z.to_euclidean_division_equations; lia). eexists. split; [reflexivity|]. apply moved_wB. change (2 ^ 12) with 4096. f_equal. lia.
    - exists s. split; [reflexivity|]. rewrite MN. split; [symmetry; rewrite Z.add_0_r; apply Z.mod_small; apply (proj1 W 31)|]. repeat split. }
  destruct H1 as (s1 & R1 & M1). pose proof (moved_wf _ _ _ M1 W) as W1. rewrite run_f_app, R1. destruct ((512 <? m) || (m =? 0)) eqn:E.
  - assert (H2 : exists s2, run_f (if m =? 0 then [] else [SUBI .| 31 .| Z.shiftl 31 5 .| Z.shiftl m 10]) s1 = Some s2 /\ moved (- m) s1 s2).
    { destruct (m =? 0) eqn:E0.
      - exists s1. split; [reflexivity|]. replace (- m) with 0 by lia. split; [symmetry; rewrite Z.add_0_r; apply Z.mod_small; apply (proj1 W1 31)|]. repeat split.
      - cbn [run_f]. rewrite (addsp_step true 31 m s1) by lia. eexists. split; [reflexivity|]. apply moved_wB. f_equal. }
    destruct H2 as (s2 & R2 & M2). rewrite run_f_app, R2. destruct (stp_step s2 (moved_wf _ _ _ M2 W1)) as (s3 & R3 & F3). exists s3. split; [cbn [run_f]; rewrite R3; reflexivity|].
    replace n with (n - m + (m + 0)) by lia. apply (fp_after _ _ s s1); [exact M1|]. apply (fp_after _ _ s1 s2); [exact M2|exact F3].
  - destruct (stp_pre_step m s1) as (s3 & R3 & F3); [Z.to_euclidean_division_equations; lia|exact M16|exact W1|]. exists s3. split; [cbn [run_f]; rewrite R3; reflexivity|].
    replace n with (n - m + m) by lia. apply (fp_after _ _ s s1); [exact M1|exact F3].
Qed.

(** ** Arguments *)
Lemma movr_step d b s : wf s -> reg_map d <> 31 -> reg_map b <> 31 -> step_f (MOV .| RD d .| RM b) s = Some (wG s (reg_map d) (gr s (reg_map b))).
Proof.
  intros W D B. destruct (dec_movr d b) as (D1 & D2). unfold step_f. rewrite D1, D2. pose proof (mov_word false d b (gs s)) as R. change (Z.lxor MOV (inv_bits false)) with MOV in R. cbn [run] in R. rewrite D2 in R.
  destruct (exec _ (gs s)) as [g|]; [|discriminate R]. injection R as ->. unfold wG. do 3 f_equal. unfold rX. replace (reg_map b =? 31) with false by lia. apply Z.mod_small. apply (proj1 W).
Qed.
Lemma gr_wG s d v k : d <> 31 -> gr (wG s d v) k = if k =? d then v else gr s k.
Proof. intros D. unfold gr, wG. cbn [gs]. destruct (k =? d) eqn:E; [assert (k = d) as -> by lia; apply xr_wX_eq; exact D|apply xr_wX_ne; lia]. Qed.
Lemma args_mono s s1 s2 : forall l n k, args_in s s1 l n k -> 0 <= n -> n + Z.of_nat (length l) <= 4 -> 0 <= k -> k + saved_args l <= 10 -> (forall i, (1 <= i <= 4 \/ 16 < i <= 26 - k) -> gr s2 (reg_map i) = gr s1 (reg_map i)) -> args_in s s2 l n k.
Proof.
  induction l as [|t l IH]; intros n k A N NL K KL H; [exact I|]. cbn [args_in length] in *. unfold saved_args in KL. cbn [filter] in KL. destruct ((t =? 4) || (t =? 5)) eqn:E.
  - apply IH; try assumption; try lia. unfold saved_args. destruct (is_saved t) eqn:E2; [unfold is_saved in E2; lia|exact KL].
  - destruct (is_saved t) eqn:E2; destruct A as (A1 & A2).
    + cbn [length] in KL. split; [rewrite H by lia; exact A1|]. apply IH; try assumption; try lia; [unfold saved_args; lia|]. intros i I. apply H. lia.
    + split; [rewrite H by lia; exact A1|]. apply IH; try assumption; lia.
Qed.
Lemma arg_bits t : arg_ok t -> (t .& 0x7 <? 4) = negb ((t =? 4) || (t =? 5)) /\ ((t =? 4) || (t =? 5) = false -> (t .& 0x8 =? 0) = is_saved t).
Proof.
  intros A. assert (F : forallb (fun t => (Bool.eqb (t .& 0x7 <? 4) (negb ((t =? 4) || (t =? 5)))) && ((t =? 4) || (t =? 5) || Bool.eqb (t .& 0x8 =? 0) (is_saved t))) [1; 2; 3; 4; 5; 9; 10; 11] = true) by (vm_compute; reflexivity).
  rewrite forallb_forall in F. specialize (F t ltac:(unfold arg_ok in A; cbn; lia)). apply andb_prop in F. destruct F as (F1 & F2). split; [apply eqb_prop; exact F1|]. intros E. rewrite E in F2. apply eqb_prop. exact F2.
Qed.
Definition regs_but (k n : Z) (s s' : fstate) : Prop := forall x, (forall i, 26 - k - n < i <= 26 - k -> x <> reg_map i) -> gr s' x = gr s x.
Lemma low_reg n : 0 <= n < 8 -> reg_map (1 + n) = n.
Proof.
  intros N. assert (F : forallb (fun n => reg_map (1 + n) =? n) (zseq 0 8) = true) by (vm_compute; reflexivity). rewrite forallb_forall in F. specialize (F n (in_zseq 0 8 n ltac:(lia))). lia.
Qed.
Lemma hi_reg i : 17 <= i <= 26 -> reg_map i = 45 - i.
Proof.
  intros N. assert (F : forallb (fun n => reg_map n =? 45 - n) (zseq 17 10) = true) by (vm_compute; reflexivity). rewrite forallb_forall in F. specialize (F i (in_zseq 17 10 i ltac:(lia))). lia.
Qed.
Lemma saved_cons t l : saved_args (t :: l) = (if is_saved t then 1 else 0) + saved_args l.
Proof. unfold saved_args. cbn [filter]. destruct (is_saved t); cbn [length]; lia. Qed.
Lemma saved_nonneg l : 0 <= saved_args l.
Proof. unfold saved_args. lia. Qed.
Lemma arg_run s0 : forall l n k s, wf s -> Forall arg_ok l -> 0 <= n -> n + Z.of_nat (length l) <= 4 -> 0 <= k -> k + saved_args l <= 10 -> (forall m, n <= m < 4 -> gr s m = gr s0 m) ->
  exists s', run_f (arg_words l k (1 + n)) s = Some s' /\ mem s' = mem s /\ vd s' = vd s /\ wf s' /\ regs_but k (saved_args l) s s' /\ args_in s0 s' l n k.
Proof.
  induction l as [|t l IH]; intros n k s W AO N NL K KL H.
  - exists s. split; [reflexivity|]. split; [reflexivity|]. split; [reflexivity|]. split; [exact W|]. split; [intros x X; reflexivity|exact I].
  - inversion AO as [|? ? A1 A2]; subst. destruct (arg_bits t A1) as (B1 & B2). cbn [arg_words args_in length] in *. rewrite saved_cons in *. rewrite B1. pose proof (saved_nonneg l) as SN. destruct ((t =? 4) || (t =? 5)) eqn:E; cbn [negb].
    + replace (is_saved t) with false in * by (unfold is_saved; lia). apply (IH n k s W A2); try lia. exact H.
    + rewrite (B2 eq_refl). destruct (is_saved t) eqn:ES.
      * cbn [run_f]. assert (L : reg_map (1 + n) = n) by (apply low_reg; lia). assert (D : reg_map (S0 - k) = 19 + k) by (unfold S0; rewrite hi_reg by lia; lia).
        rewrite movr_step by (assumption || lia). rewrite L, D. set (s1 := wG s (19 + k) (gr s n)).
        assert (G : forall x, gr s1 x = if x =? 19 + k then gr s n else gr s x) by (intros x; apply gr_wG; lia). assert (M1 : mem s1 = mem s) by (unfold mem, s1, wG; cbn [gs]; apply mm_wX).
        assert (W1 : wf s1) by (destruct W as (WA & WB & WC); split; [intros x; rewrite G; destruct (x =? 19 + k); apply WA|split; [exact WB|rewrite M1; exact WC]]).
        replace (1 + n + 1) with (1 + (n + 1)) by ring. destruct (IH (n + 1) (k + 1) s1 W1 A2) as (s' & R & M & V & W' & RB & AI); try lia; [intros m MB; rewrite G; replace (m =? 19 + k) with false by lia; apply H; lia|].
        exists s'. split; [exact R|]. split; [congruence|]. split; [rewrite V; reflexivity|]. split; [exact W'|]. split; [|split; [|exact AI]].
        -- intros x X. rewrite RB by (intros i I; apply X; lia). rewrite G. specialize (X (26 - k) ltac:(lia)). rewrite hi_reg in X by lia. replace (x =? 19 + k) with false by lia. reflexivity.
        -- unfold S0 in D. rewrite D. rewrite RB by (intros i I; rewrite hi_reg by lia; lia). rewrite G, Z.eqb_refl. apply H. lia.
      * replace (1 + n + 1) with (1 + (n + 1)) by ring. destruct (IH (n + 1) k s W A2) as (s' & R & M & V & W' & RB & AI); try lia; [intros m MB; apply H; lia|].
        exists s'. split; [exact R|]. split; [exact M|]. split; [exact V|]. split; [exact W'|]. split; [exact RB|]. split; [|exact AI]. rewrite low_reg by lia. rewrite RB by (intros i I; rewrite hi_reg by lia; lia). apply H. lia.
Qed.

(** ** Sizes *)
Lemma in_down i hi lo : In i (down hi lo) <-> lo < i <= hi.
Proof.
  unfold down. assert (F : forall n hi, In i (down_n hi n) <-> hi - Z.of_nat n < i <= hi).
  { induction n as [|n IH]; intros h; cbn [down_n In]; [lia|]. rewrite IH. lia. }
  rewrite F. lia.
Qed.
Lemma len_down hi lo : Z.of_nat (length (down hi lo)) = Z.max 0 (hi - lo).
Proof. unfold down. assert (F : forall n hi, length (down_n hi n) = n) by (induction n as [|n IH]; intros h; cbn [down_n length]; [reflexivity|rewrite IH; reflexivity]). rewrite F. lia. Qed.
Lemma nodup_down hi lo : NoDup (down hi lo).
Proof.
  unfold down. generalize (Z.to_nat (hi - lo)) as n. intros n. revert hi. induction n as [|n IH]; intros h; cbn [down_n]; constructor; [|apply IH].
  intros I. assert (F : forall n hi i, In i (down_n hi n) -> i <= hi) by (induction n0 as [|n0 IH0]; intros h0 i J; [destruct J|destruct J as [<- | J]; [lia|apply IH0 in J; lia]]). apply F in I. lia.
Qed.
Lemma nodup_app (l1 l2 : list Z) : NoDup l1 -> NoDup l2 -> (forall x, In x l1 -> ~ In x l2) -> NoDup (l1 ++ l2).
Proof.
  intros H1 H2 H. induction H1 as [|a l Na Nl IH]; [exact H2|]. cbn. constructor; [rewrite in_app_iff; intros [I|I]; [contradiction|apply (H a (or_introl eq_refl) I)]|apply IH; intros x I; apply H; right; exact I].
Qed.
Lemma in_ints c i : In i (ints c) <-> 26 - c_saveds c < i <= 26 - c_kept c \/ 16 < i <= c_scratches c.
Proof. unfold ints. rewrite in_app_iff, !in_down. reflexivity. Qed.
Lemma in_floats c i : In i (floats c) <-> 30 - c_fsaveds c < i <= 30 \/ 22 < i <= c_fscratches c.
Proof. unfold floats. rewrite in_app_iff, !in_down. reflexivity. Qed.
Lemma nodup_ints c : ctx_ok c -> NoDup (ints c).
Proof. intros O. unfold ctx_ok in O. apply nodup_app; try apply nodup_down. intros x I J. apply in_down in I. apply in_down in J. unfold S0, NSCRATCH in *. lia. Qed.
Lemma nodup_floats c : ctx_ok c -> NoDup (floats c).
Proof. intros O. unfold ctx_ok in O. apply nodup_app; try apply nodup_down. intros x I J. apply in_down in I. apply in_down in J. unfold FS0, NFSCRATCH in *. lia. Qed.
(** The number of registers saved. *)
Definition nsaved (c : ctx) : Z := len (ints c) None + len (floats c) None.
Lemma nsaved_ok c : ctx_ok c -> 0 <= nsaved c <= 18 /\ saved_regs_size c = 8 * nsaved c + 16.
Proof.
  intros O. unfold ctx_ok in O. unfold nsaved, len, ints, floats, saved_regs_size. rewrite !app_length, !Nat2Z.inj_add, !len_down. unfold S0, NSCRATCH, FS0, NFSCRATCH.
  destruct (c_scratches c <? 16) eqn:E1, (c_fscratches c <? 22) eqn:E2; lia.
Qed.
Lemma round16 x : (x + 0xf) .& Z.lnot 0xf = (x + 15) / 16 * 16.
Proof. change (Z.lnot 0xf) with (Z.lnot (Z.ones 4)). rewrite <- Z.ldiff_land, Z.ldiff_ones_r by lia. rewrite Z.shiftr_div_pow2, Z.shiftl_mul_pow2 by lia. reflexivity. Qed.
Lemma frame_ok c : ctx_ok c -> frame_size c mod 16 = 0 /\ c_local c + 16 + 8 * nsaved c <= frame_size c < 2 ^ 21 /\ 16 <= frame_size c.
Proof.
  intros O. destruct (nsaved_ok c O) as (N & S). unfold frame_size. rewrite round16, S. destruct O as (_ & _ & _ & _ & _ & _ & L & _). split; [apply Z.mod_mul; lia|]. Z.to_euclidean_division_equations; lia.
Qed.
Definition rsize (c : ctx) : Z := (saved_regs_size c - 16 + 0xf) .& Z.lnot 0xf.
Lemma rsize_ok c : ctx_ok c -> rsize c mod 16 = 0 /\ 8 * nsaved c <= rsize c <= 160.
Proof. intros O. destruct (nsaved_ok c O) as (N & S). unfold rsize. rewrite round16, S. split; [apply Z.mod_mul; lia|]. Z.to_euclidean_division_equations; lia. Qed.
