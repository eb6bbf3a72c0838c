(** ARM64: function entry and return. *)
Require Import ZArith List Bool Lia Zify ZifyBool Permutation FinFun.
From Verif Require Import Rv.RvLib Rv.RvBits Imm.ImmLib Imm.MsProofs Imm.PpProofs Arm.ArmIsa Arm.ArmBr Arm.ArmEnc Arm.ArmBits Arm.ArmImm Arm.ArmImmProofs Arm.ArmLogImm Arm.ArmLoadImm
  Arm.ArmJump Arm.ArmJumpSpec Arm.ArmJumpProofs Arm.ArmCondProofs Arm.ArmOp Arm.ArmOpSpec Arm.ArmOpDec Arm.ArmOpProofs Arm.ArmOpImm Arm.ArmOp1 Arm.ArmMem Arm.ArmMemSpec Arm.ArmMemProofs Arm.ArmPair Arm.ArmFrame Arm.ArmFrameSpec Arm.ArmFrameDec Arm.ArmFrameRun Arm.ArmFrameMem Arm.ArmFrameSeg Arm.ArmMemOp2.
Import ListNotations.
Open Scope Z_scope.
Ltac Zify.zify_post_hook ::= idtac.

Lemma reg_ne i : 1 <= i <= 26 -> reg_map i <> 31 /\ reg_map i <> 29.
Proof. intros H. assert (F : forallb (fun d => negb (reg_map d =? 31) && negb (reg_map d =? 29)) (zseq 1 26) = true) by (vm_compute; reflexivity). rewrite forallb_forall in F. specialize (F i (in_zseq 1 26 i ltac:(lia))). lia. Qed.
Lemma lo_reg_cs i : 1 <= i <= 16 -> ~ callee_saved (reg_map i).
Proof. intros H. assert (F : forallb (fun d => (reg_map d <? 19) || (28 <? reg_map d)) (zseq 1 16) = true) by (vm_compute; reflexivity). rewrite forallb_forall in F. specialize (F i (in_zseq 1 16 i ltac:(lia))). unfold callee_saved. lia. Qed.
Lemma hi_freg i : 23 <= i <= 30 -> freg_map i = 38 - i.
Proof. intros N. assert (F : forallb (fun n => freg_map n =? 38 - n) (zseq 23 8) = true) by (vm_compute; reflexivity). rewrite forallb_forall in F. specialize (F i (in_zseq 23 8 i ltac:(lia))). lia. Qed.
Lemma lo_freg_cs i : 1 <= i <= 22 -> ~ vcallee_saved (freg_map i).
Proof. intros H. assert (F : forallb (fun d => (freg_map d <? 8) || (15 <? freg_map d)) (zseq 1 22) = true) by (vm_compute; reflexivity). rewrite forallb_forall in F. specialize (F i (in_zseq 1 22 i ltac:(lia))). unfold vcallee_saved. lia. Qed.

(** ** Entry *)
Definition ready (c : ctx) (F : Z) (s s' : fstate) : Prop :=
  sp s' = (sp s - F) mod 2 ^ 64 /\ vd s' = vd s /\
  (forall x, x <> 31 -> (c_reg_arg c = true \/ forall i, 26 - saved_args (c_args c) < i <= 26 -> x <> reg_map i) -> gr s' x = gr s x) /\
  (c_reg_arg c = false -> args_in s s' (c_args c) 0 0) /\
  ld8 s' (sp s - F) = gr s 29 /\ ld8 s' (sp s - F + 8) = gr s 30 /\
  (forall v r o, In (v, r, o) (slots c) -> ld8 s' (sp s + o) = reg s v (num v r)) /\ same_out (sp s) (- F) 0 s s' /\ wf s'.
Lemma args_seg c s s' : ctx_ok c -> wf s' -> (forall k, k <> 31 -> gr s' k = gr s k) -> exists s2, run_f (if c_reg_arg c then [] else arg_words (c_args c) 0 1) s' = Some s2 /\ mem s2 = mem s' /\ vd s2 = vd s' /\ wf s2 /\ sp s2 = sp s' /\
  (forall x, x <> 31 -> (c_reg_arg c = true \/ forall i, 26 - saved_args (c_args c) < i <= 26 -> x <> reg_map i) -> gr s2 x = gr s x) /\ (c_reg_arg c = false -> args_in s s2 (c_args c) 0 0).
Proof.
  intros O W H. destruct O as (_ & O1 & _ & _ & _ & _ & _ & _ & _ & _ & O2 & O3 & O4). destruct (c_reg_arg c) eqn:E.
  - exists s'. split; [reflexivity|]. split; [reflexivity|]. split; [reflexivity|]. split; [exact W|]. split; [reflexivity|]. split; [intros x X _; apply H; exact X|discriminate].
  - specialize (O4 eq_refl). pose proof (saved_nonneg (c_args c)) as SN. destruct (arg_run s (c_args c) 0 0 s' W O2) as (s2 & R & M & V & W2 & RB & AI); try lia; [intros m MB; apply H; lia|].
    exists s2. split; [exact R|]. split; [exact M|]. split; [exact V|]. split; [exact W2|]. split; [unfold sp; apply RB; intros i I; rewrite hi_reg by lia; lia|]. split; [|intros _; exact AI].
    intros x X [D | D]; [discriminate D|]. rewrite RB by (intros i I; apply D; lia). apply H. exact X.
Qed.
Lemma same_out_shift A B d lo hi s s' : B mod 2 ^ 64 = (A + d) mod 2 ^ 64 -> same_out B lo hi s s' -> same_out A (lo + d) (hi + d) s s'.
Proof. intros E S x X. apply S. intros i I. rewrite (add_cong B (A + d) i E). replace (A + d + i) with (A + (i + d)) by ring. apply X. lia. Qed.
Lemma save_ok c T A s : ctx_ok c -> T mod 16 = 0 -> T <= 512 -> 8 * nsaved c <= T -> (sp s + T) mod 2 ^ 64 = A mod 2 ^ 64 -> wf s -> exists s', run_f (save_words false c (T - 16)) s = Some s' /\ regs_eq s s' /\ wf s' /\
  (forall v r o, In (v, r, o) (slots c) -> ld8 s' (A + o) = reg s v (num v r)) /\ same_out A (- 8 * nsaved c) 0 s s'.
Proof.
  intros O T16 TB TN E W. destruct (nsaved_ok c O) as (N & _). destruct (slots_ok c) as (P1 & P2 & _ & _). fold (nsaved c) in P1. rewrite (save_run false c T A s T16 TB TN E). cbn [act].
  destruct (puts_ok A (- 8 * nsaved c) (slots c) ltac:(lia) s W P1 P2) as (R & W' & L & S & _). eexists. split; [reflexivity|]. split; [exact R|]. split; [exact W'|]. split; [exact L|exact S].
Qed.
Lemma slots_range c v r o : In (v, r, o) (slots c) -> - 8 * nsaved c <= o /\ o + 8 <= 0.
Proof. intros I. destruct (slots_ok c) as (P1 & _). rewrite Forall_forall in P1. exact (P1 _ I). Qed.
Lemma reg_eq31 s s' v r o c : ctx_ok c -> In (v, r, o) (slots c) -> (forall k, k <> 31 -> gr s' k = gr s k) -> vd s' = vd s -> reg s' v (num v r) = reg s v (num v r).
Proof. intros O I G V. destruct v; cbn [reg]; [rewrite V; reflexivity|]. unfold rX. destruct (num false r =? 31) eqn:E; [reflexivity|]. apply G. lia. Qed.
Lemma small_ready c s : ctx_ok c -> wf s -> frame_size c <= 512 -> exists s', run_f ([stp_pre (frame_size c)] ++ save_words false c (frame_size c - 16) ++ (if c_reg_arg c then [] else arg_words (c_args c) 0 1)) s = Some s' /\ ready c (frame_size c) s s'.
Proof.
  intros O W SM. destruct (frame_ok c O) as (F16 & FB & F0). set (F := frame_size c) in *. destruct (nsaved_ok c O) as (N & _). assert (CL : 0 <= c_local c) by apply O.
  destruct (stp_pre_step F s ltac:(lia) F16 W) as (sa & R1 & (A1 & A2 & A3 & A4 & A5 & A6 & A7)). rewrite run_f_app. cbn [run_f]. rewrite R1.
  assert (E : (sp sa + F) mod 2 ^ 64 = sp s mod 2 ^ 64) by (rewrite A1, Zplus_mod_idemp_l; f_equal; ring).
  destruct (save_ok c F (sp s) sa O F16 SM ltac:(lia) E A7) as (sb & R2 & (B1 & B2) & B3 & B4 & B5). rewrite run_f_app, R2.
  destruct (args_seg c s sb O B3) as (sc & R3 & C1 & C2 & C3 & C4 & C5 & C6); [intros k K; rewrite B1; apply A2; exact K|]. exists sc. split; [exact R3|].
  assert (SP1 : sp sa mod 2 ^ 64 = (sp s + - F) mod 2 ^ 64) by (rewrite A1, Z.mod_mod by lia; reflexivity).
  split; [rewrite C4; unfold sp; fold (gr sb 31); rewrite B1; exact A1|]. split; [congruence|]. split; [exact C5|]. split; [exact C6|].
  assert (LD : forall o, o + 8 <= 16 -> 0 <= o -> ld8 sc (sp s - F + o) = ld8 sa (sp sa + o)).
  { intros o OB O0. rewrite (ld8_mem sb sc _ C1). replace (sp s - F + o) with (sp s + (- F + o)) by ring. rewrite (ld8_out (sp s) (- 8 * nsaved c) 0 sa sb (- F + o)) by (try assumption; lia). apply ld_cong. rewrite (add_cong _ _ o SP1). f_equal. ring. }
  split; [pose proof (LD 0 ltac:(lia) ltac:(lia)) as L; rewrite !Z.add_0_r in L; rewrite L; exact A4|]. split; [rewrite LD by lia; exact A5|].
  split; [intros v r o I; rewrite (ld8_mem sb sc _ C1), (B4 v r o I); apply (reg_eq31 _ _ v r o c O I A2 A3)|]. split; [|exact C3].
  apply (same_out_trans _ _ _ _ sa); [apply (same_out_mono (sp s) (0 + - F) (16 + - F)); [lia|lia|apply (same_out_shift _ (sp sa)); assumption]|].
  intros x X. rewrite C1. apply B5. intros i I. apply X. lia.
Qed.
Lemma big_ready c s : ctx_ok c -> wf s -> 512 < frame_size c -> exists s', run_f ([SUBI .| RD SLJIT_SP .| RN SLJIT_SP .| Z.shiftl (rsize c) 10] ++ save_words false c (rsize c - 16) ++ (if c_reg_arg c then [] else arg_words (c_args c) 0 1) ++ rest_words (frame_size c - rsize c)) s = Some s' /\ ready c (frame_size c) s s'.
Proof.
  intros O W BG. destruct (frame_ok c O) as (F16 & FB & F0). set (F := frame_size c) in *. destruct (nsaved_ok c O) as (N & _). destruct (rsize_ok c O) as (RS16 & RSB). set (r := rsize c) in *. assert (CL : 0 <= c_local c) by apply O.
  change (RD SLJIT_SP) with 31. change (RN SLJIT_SP) with (Z.shiftl 31 5). rewrite run_f_app. cbn [run_f]. rewrite (addsp_step true 31 r s) by lia. set (sa := wB s 31 ((sp s - r) mod 2 ^ 64)).
  assert (MV : moved (- r) s sa) by (apply moved_wB; reflexivity). pose proof (moved_wf _ _ _ MV W) as WA. destruct MV as (A1 & A2 & A3 & A4).
  assert (E : (sp sa + r) mod 2 ^ 64 = sp s mod 2 ^ 64) by (rewrite A1, Zplus_mod_idemp_l; f_equal; ring).
  destruct (save_ok c r (sp s) sa O RS16 ltac:(lia) ltac:(lia) E WA) as (sb & R2 & (B1 & B2) & B3 & B4 & B5). rewrite run_f_app, R2.
  destruct (args_seg c s sb O B3) as (sc & R3 & C1 & C2 & C3 & C4 & C5 & C6); [intros k K; rewrite B1; apply A2; exact K|]. rewrite run_f_app, R3.
  destruct (rest_run (F - r) sc) as (sd & R4 & (D1 & D2 & D3 & D4 & D5 & D6 & D7)); [lia|Z.to_euclidean_division_equations; lia|exact C3|]. exists sd. split; [exact R4|].
  assert (SPE : sp sd = (sp s - F) mod 2 ^ 64).
  { rewrite D1, C4. unfold sp at 1. fold (gr sb 31). rewrite B1. unfold gr. fold (sp sa). rewrite A1, Zminus_mod_idemp_l. f_equal. ring. }
  assert (SP1 : sp sd mod 2 ^ 64 = (sp s + - F) mod 2 ^ 64) by (rewrite SPE, Z.mod_mod by lia; reflexivity).
  pose proof (same_out_shift _ _ _ _ _ _ _ SP1 D6) as D6'.
  split; [exact SPE|]. split; [congruence|]. split; [intros x X D; rewrite D2 by exact X; apply C5; assumption|].
  pose proof O as (_ & O1 & _ & _ & _ & _ & _ & _ & _ & _ & O2 & O3 & O4).
  split; [intros RA; apply (args_mono s sc sd); [apply C6; exact RA|lia|lia|lia|specialize (O4 RA); lia|intros i I; apply D2; apply reg_ne; lia]|].
  assert (X29 : gr sc 29 = gr s 29 /\ gr sc 30 = gr s 30).
  { split; (apply C5; [lia|]); destruct (c_reg_arg c) eqn:RA; auto; right; intros i I; specialize (O4 eq_refl); rewrite hi_reg by lia; lia. }
  split; [rewrite <- (proj1 X29), <- D4; apply ld_cong; rewrite SP1; f_equal; ring|]. split; [rewrite <- (proj2 X29), <- D5; apply ld_cong; rewrite (add_cong _ _ 8 SP1); f_equal; ring|].
  split; [|split; [|exact D7]].
  - intros v q o I. pose proof (slots_range c v q o I) as RG. rewrite (ld8_out (sp s) (0 + - F) (16 + - F) sc sd o) by (try assumption; lia). rewrite (ld8_mem sb sc _ C1), (B4 v q o I). apply (reg_eq31 _ _ v q o c O I A2 A3).
  - apply (same_out_trans _ _ _ _ sc); [|apply (same_out_mono (sp s) (0 + - F) (16 + - F)); [lia|lia|exact D6']]. intros x X. rewrite C1, B5 by (intros i I; apply X; lia). rewrite A4. reflexivity.
Qed.
Lemma enter_ready c s : ctx_ok c -> wf s -> exists s', run_f (emit_enter c) s = Some (wB s' 29 (sp s')) /\ ready c (frame_size c) s s'.
Proof.
  intros O W. unfold emit_enter. cbv zeta. fold (rsize c).
  assert (FIN : forall s', wf s' -> run_f [ADDI .| RD TMP_FP .| RN SLJIT_SP .| Z.shiftl 0 10] s' = Some (wB s' 29 (sp s'))).
  { intros s' W'. change (RD TMP_FP) with 29. change (RN SLJIT_SP) with (Z.shiftl 31 5). cbn [run_f]. rewrite (addsp_step false 29 0 s') by lia. rewrite Z.add_0_r, Z.mod_small by apply (proj1 W' 31). reflexivity. }
  assert (AS3 : forall a b d e : list Z, a ++ b ++ d ++ e = (a ++ b ++ d) ++ e) by (intros; rewrite <- !app_assoc; reflexivity).
  assert (AS4 : forall a b d e f : list Z, a ++ b ++ d ++ e ++ f = (a ++ b ++ d ++ e) ++ f) by (intros; rewrite <- !app_assoc; reflexivity).
  destruct (frame_size c <=? 512) eqn:E.
  - destruct (small_ready c s O W ltac:(lia)) as (s' & R & Y). exists s'. split; [|exact Y]. change (rest_words 0) with (@nil Z). rewrite app_nil_l. rewrite AS3, run_f_app, R. apply FIN. apply Y.
  - destruct (big_ready c s O W ltac:(lia)) as (s' & R & Y). exists s'. split; [|exact Y]. rewrite AS4, run_f_app, R. apply FIN. apply Y.
Qed.
Lemma off_of A F i : 0 < F < 2 ^ 21 -> - F <= i < 0 -> ((A + i) mod 2 ^ 64 - (A - F) mod 2 ^ 64) mod 2 ^ 64 = F + i.
Proof. intros FB I. rewrite <- Zminus_mod. replace (A + i - (A - F)) with (F + i) by ring. apply Z.mod_small. lia. Qed.
Lemma enter_ok c s : ctx_ok c -> wf s -> exists s1, run_f (emit_enter c) s = Some s1 /\ entered c (frame_size c) s s1 /\
  sp s1 = (sp s - frame_size c) mod 2 ^ 64 /\ ld8 s1 (sp s - frame_size c) = gr s 29 /\ ld8 s1 (sp s - frame_size c + 8) = gr s 30 /\ (forall v r o, In (v, r, o) (slots c) -> ld8 s1 (sp s + o) = reg s v (num v r)) /\
  (forall x, x <> 31 -> x <> 29 -> (c_reg_arg c = true \/ forall i, 26 - saved_args (c_args c) < i <= 26 -> x <> reg_map i) -> gr s1 x = gr s x).
Proof.
  intros O W. destruct (enter_ready c s O W) as (s' & R & (Y1 & Y2 & Y3 & Y4 & Y5 & Y6 & Y7 & Y8 & Y9)). destruct (frame_ok c O) as (F16 & FB & F0). destruct (nsaved_ok c O) as (N & _). assert (CL : 0 <= c_local c) by apply O. set (F := frame_size c) in *.
  eexists. split; [exact R|]. set (s1 := wB s' 29 (sp s')).
  assert (G : forall k, k <> 29 -> gr s1 k = gr s' k) by (intros k K; unfold s1; rewrite gr_wB; replace (k =? 29) with false by lia; reflexivity).
  assert (SP : sp s1 = sp s') by (apply (G 31); lia). assert (M : mem s1 = mem s') by reflexivity.
  assert (G1 : forall x, x <> 31 -> x <> 29 -> (c_reg_arg c = true \/ forall i, 26 - saved_args (c_args c) < i <= 26 -> x <> reg_map i) -> gr s1 x = gr s x) by (intros x X1 X2 D; rewrite G by exact X2; apply Y3; assumption).
  pose proof O as (_ & O1 & _ & _ & _ & _ & _ & _ & _ & _ & O2 & O3 & O4). pose proof (saved_nonneg (c_args c)) as SN.
  split; [|split; [rewrite SP; exact Y1|split; [exact Y5|split; [exact Y6|split; [exact Y7|exact G1]]]]].
  split; [lia|]. split; [exact F16|]. split; [rewrite SP; exact Y1|]. split; [rewrite SP; reflexivity|]. split; [|split; [|split; [exact Y2|split]]].
  - intros x X D. rewrite M. apply Y8. intros i I E. rewrite SP, Y1, E, off_of in D by lia. lia.
  - intros RA. apply (args_mono s s'); [apply Y4; exact RA|lia|lia|lia|specialize (O4 RA); lia|]. intros i I. apply G. apply reg_ne. lia.
  - intros i I D. destruct (reg_ne i I) as (N1 & N2). apply G1; [exact N1|exact N2|]. destruct D as [D | D]; [left; exact D|]. destruct (c_reg_arg c) eqn:RA; [left; reflexivity|right]. specialize (O4 eq_refl). intros j J E.
    apply (reg_inj i j); [lia|lia|lia|exact E].
  - destruct Y9 as (WA & WB & WC). split; [|split; assumption]. intros k. unfold s1. rewrite gr_wB. destruct (k =? 29); [apply (WA 31)|apply WA].
Qed.

(** ** Return *)
Definition fp_loaded (to : bool) (d : Z) (s s' : fstate) : Prop :=
  sp s' = (sp s + d) mod 2 ^ 64 /\ gr s' 29 = ld8 s (sp s) /\ (to = false -> gr s' 30 = ld8 s (sp s + 8)) /\ (forall k, k <> 29 -> k <> 30 -> k <> 31 -> gr s' k = gr s k) /\ vd s' = vd s /\ mem s' = mem s /\ wf s'.
Lemma sp_id s : wf s -> sp s mod 2 ^ 64 = sp s.
Proof. intros W. apply Z.mod_small. apply (proj1 W 31). Qed.
Lemma wf_wG s r v : r <> 31 -> 0 <= v < 2 ^ 64 -> wf s -> wf (wG s r v).
Proof.
  intros R V (WA & WB & WC). split; [intros k; rewrite gr_wG by exact R; destruct (k =? r); [exact V|apply WA]|]. split; [exact WB|]. intros a. unfold mem, wG. cbn [gs]. rewrite mm_wX. apply WC.
Qed.
Lemma wf_wB s v : 0 <= v < 2 ^ 64 -> wf s -> wf (wB s 31 v).
Proof. intros V (WA & WB & WC). split; [intros k; rewrite gr_wB; destruct (k =? 31); [exact V|apply WA]|]. split; [exact WB|exact WC]. Qed.
Lemma mem_wG s r v : mem (wG s r v) = mem s.
Proof. unfold mem, wG. cbn [gs]. apply mm_wX. Qed.
Lemma load_step (to : bool) n s : wf s -> 16 <= n < 2 ^ 21 -> n mod 16 = 0 -> let fit := (512 <? n) && (n <=? 512 + (if to then 248 else 496)) in
  exists s', step_f (if to then
     if fit then LDRI_POST .| reg_map TMP_FP .| RN SLJIT_SP .| Z.shiftl (n - 512) 12 else LDRI .| reg_map TMP_FP .| RN SLJIT_SP .| 0
   else
     if fit then LDP_POST .| reg_map TMP_FP .| RT2 TMP_LR .| RN SLJIT_SP .| Z.shiftl (n - 512) 12 else LDP .| reg_map TMP_FP .| RT2 TMP_LR .| RN SLJIT_SP) s = Some s' /\ fp_loaded to (if fit then n - 512 else 0) s s'.
Proof.
  intros W NB N16. cbv zeta. change (reg_map TMP_FP) with 29. change (RT2 TMP_LR) with (Z.shiftl 30 10). change (RN SLJIT_SP) with (Z.shiftl 31 5). pose proof (sp_id s W) as SI. pose proof (fun a => ld8_b s a (proj2 (proj2 W))) as LB.
  destruct ((512 <? n) && (n <=? 512 + (if to then 248 else 496))) eqn:FIT; destruct to.
  - unfold step_f. rewrite dec_ldpost by lia. cbn [exec_f]. rewrite sext_small by (cbn; lia). unfold rSP. fold (sp s). set (d := n - 512). eexists. split; [reflexivity|]. unfold wrap.
    set (s1 := wG s 29 (ld8 s (sp s))). assert (W1 : wf s1) by (apply wf_wG; [lia|apply LB|exact W]).
    split; [reflexivity|]. split; [rewrite gr_wB; apply gr_wG; lia|]. split; [discriminate|]. split; [intros k K1 K2 K3; rewrite gr_wB; replace (k =? 31) with false by lia; unfold s1; rewrite gr_wG by lia; replace (k =? 29) with false by lia; reflexivity|].
    split; [reflexivity|]. split; [reflexivity|]. refine (wf_wB s1 _ _ W1); apply Z.mod_pos_bound; lia.
  - assert (J : exists j, n - 512 = 8 * j /\ 0 <= j < 64) by (exists ((n - 512) / 8); Z.to_euclidean_division_equations; lia). destruct J as (j & J & JB).
    replace (Z.shiftl (n - 512) 12) with (Z.shiftl j 15) by (rewrite !Z.shiftl_mul_pow2 by lia; rewrite J; change (2 ^ 15) with (8 * 2 ^ 12); ring).
    unfold step_f. rewrite dec_post by lia. cbn [exec_f Z.eqb Pos.eqb]. rewrite sext_small by (cbn; lia). rewrite <- J. unfold rSP. fold (sp s). set (d := n - 512). cbn [wreg]. eexists. split; [reflexivity|]. unfold wrap.
    set (s1 := wG s 29 (ld8 s (sp s))). assert (W1 : wf s1) by (apply wf_wG; [lia|apply LB|exact W]). set (s2 := wG s1 30 (ld8 s (sp s + 8))). assert (W2 : wf s2) by (apply wf_wG; [lia|apply LB|exact W1]).
    split; [reflexivity|]. split; [rewrite gr_wB; cbn [Z.eqb Pos.eqb]; unfold s2; rewrite gr_wG by lia; cbn [Z.eqb Pos.eqb]; apply gr_wG; lia|]. split; [intros _; rewrite gr_wB; cbn [Z.eqb Pos.eqb]; apply gr_wG; lia|].
    split; [intros k K1 K2 K3; rewrite gr_wB; replace (k =? 31) with false by lia; unfold s2, s1; rewrite !gr_wG by lia; replace (k =? 29) with false by lia; replace (k =? 30) with false by lia; reflexivity|].
    split; [reflexivity|]. split; [reflexivity|]. refine (wf_wB s2 _ _ W2); apply Z.mod_pos_bound; lia.
  - change (LDRI .| 29 .| Z.shiftl 31 5 .| 0) with (LDRI .| 29 .| Z.shiftl 31 5 .| Z.shiftl 0 10). destruct (dec_ldri true 29 0 ltac:(lia) ltac:(lia)) as (D1 & D2). unfold step_f. rewrite D1, D2. cbn [exec]. unfold ldst. change (Z.to_nat (2 ^ 3)) with 8%nat. cbn [Z.eqb Pos.eqb].
    change (0 * 2 ^ 3) with 0. unfold rSP. rewrite Z.add_0_r. change (le_bytes 8 (mm (gs s)) (xr (gs s) 31)) with (ld8 s (sp s)). fold (wG s 29 (ld8 s (sp s))). set (s1 := wG s 29 (ld8 s (sp s))). assert (W1 : wf s1) by (apply wf_wG; [lia|apply LB|exact W]). exists s1. split; [reflexivity|].
    split; [rewrite Z.add_0_r, SI; apply sp_wG|]. split; [unfold s1; rewrite gr_wG by lia; reflexivity|]. split; [discriminate|]. split; [intros k K1 K2 K3; unfold s1; rewrite gr_wG by lia; replace (k =? 29) with false by lia; reflexivity|].
    split; [reflexivity|]. split; [apply mem_wG|exact W1].
  - change (LDP .| 29 .| Z.shiftl 30 10 .| Z.shiftl 31 5) with (pairk true false .| 29 .| Z.shiftl 30 10 .| Z.shiftl 31 5 .| Z.shiftl 0 15). unfold step_f. rewrite dec_pair by lia. cbn [exec_f Z.eqb Pos.eqb]. change (8 * sext 7 0) with 0. unfold rSP. fold (sp s). rewrite Z.add_0_r. unfold wrap. rewrite SI. cbn [wreg].
    set (s1 := wG s 29 (ld8 s (sp s))). assert (W1 : wf s1) by (apply wf_wG; [lia|apply LB|exact W]). set (s2 := wG s1 30 (ld8 s (sp s + 8))). assert (W2 : wf s2) by (apply wf_wG; [lia|apply LB|exact W1]). exists s2. split; [reflexivity|].
    split; [rewrite Z.add_0_r, SI; reflexivity|]. split; [unfold s2; rewrite gr_wG by lia; cbn [Z.eqb Pos.eqb]; apply gr_wG; lia|]. split; [intros _; apply gr_wG; lia|].
    split; [intros k K1 K2 K3; unfold s2, s1; rewrite !gr_wG by lia; replace (k =? 29) with false by lia; replace (k =? 30) with false by lia; reflexivity|].
    split; [reflexivity|]. split; [reflexivity|exact W2].
Qed.
Lemma nodup_map_on {X Y : Type} (f : X -> Y) (l : list X) : (forall x y, In x l -> In y l -> f x = f y -> x = y) -> NoDup l -> NoDup (map f l).
Proof.
  intros H N. induction N as [|a l Na Nl IH]; [constructor|]. cbn [map]. constructor.
  - intros I. apply in_map_iff in I. destruct I as (y & E & I). assert (y = a) by (apply H; [right; exact I|left; reflexivity|exact E]). subst. contradiction.
  - apply IH. intros x y Ix Iy. apply H; right; assumption.
Qed.
Lemma ints_range c i : ctx_ok c -> In i (ints c) -> 17 <= i <= 26.
Proof. intros O I. apply in_ints in I. unfold ctx_ok in O. lia. Qed.
Lemma floats_range c i : ctx_ok c -> In i (floats c) -> 23 <= i <= 30.
Proof. intros O I. apply in_floats in I. unfold ctx_ok in O. lia. Qed.
Lemma slot_mem c v r o : In (v, r, o) (slots c) -> In r (if v then floats c else ints c).
Proof. intros I. destruct (slots_ok c) as (_ & _ & P & _). apply P. apply in_map_iff. exists (v, r, o). split; [reflexivity|exact I]. Qed.
Lemma mem_slot c (v : bool) r : In r (if v then floats c else ints c) -> exists o, In (v, r, o) (slots c).
Proof. intros I. destruct (slots_ok c) as (_ & _ & P & _). apply P in I. apply in_map_iff in I. destruct I as ([[v' r'] o] & E & I). cbn [fst] in E. injection E as -> ->. exists o. exact I. Qed.
Lemma key_in c v k : ctx_ok c -> In (v, k) (map key (slots c)) -> exists r, In r (if v then floats c else ints c) /\ k = if v then 38 - r else 45 - r.
Proof.
  intros O I. apply in_map_iff in I. destruct I as ([[v' r] o] & E & I). cbn [key] in E. injection E as -> <-. pose proof (slot_mem c v r o I) as J. exists r. split; [exact J|]. destruct v; cbn [num].
  - apply hi_freg. apply (floats_range c r O J).
  - apply hi_reg. apply (ints_range c r O J).
Qed.
Lemma keys_ok c : ctx_ok c -> Forall (fun x => snd (key x) <> 31 \/ fst (key x) = true) (slots c) /\ NoDup (map key (slots c)).
Proof.
  intros O. split.
  - apply Forall_forall. intros [[v r] o] I. pose proof (slot_mem c v r o I) as J. cbn [key fst snd]. destruct v; [right; reflexivity|left]. cbn [num]. apply (ints_range c r O) in J. rewrite hi_reg by exact J. lia.
  - destruct (slots_ok c) as (_ & _ & P & ND). specialize (ND (nodup_ints c O) (nodup_floats c O)).
    assert (E : map key (slots c) = map (fun p => (fst p, num (fst p) (snd p))) (map fst (slots c))) by (rewrite map_map; apply map_ext; intros [[v r] o]; reflexivity). rewrite E.
    apply nodup_map_on; [|exact ND]. intros [v r] [v' r'] I I' EQ. cbn [fst snd] in EQ. apply P in I. apply P in I'. injection EQ as <- EQ. f_equal. destruct v; cbn [num] in EQ.
    + apply (floats_range c r O) in I. apply (floats_range c r' O) in I'. rewrite !hi_freg in EQ by assumption. lia.
    + apply (ints_range c r O) in I. apply (ints_range c r' O) in I'. rewrite !hi_reg in EQ by assumption. lia.
Qed.
Lemma restore_ok c T A s : ctx_ok c -> T mod 16 = 0 -> T <= 512 -> 8 * nsaved c <= T -> (sp s + T) mod 2 ^ 64 = A mod 2 ^ 64 -> wf s -> exists s', run_f (save_words true c (T - 16)) s = Some s' /\ mem s' = mem s /\ wf s' /\ sp s' = sp s /\
  (forall v r o, In (v, r, o) (slots c) -> reg s' v (num v r) = ld8 s (A + o)) /\ (forall v k, ~ In (v, k) (map key (slots c)) -> reg s' v k = reg s v k).
Proof.
  intros O T16 TB TN E W. rewrite (save_run true c T A s T16 TB TN E). cbn [act]. destruct (keys_ok c O) as (K1 & K2). destruct (gets_ok A (slots c) s W K1 K2) as (M & W' & L & S & K). eexists. split; [reflexivity|]. repeat split; try assumption; apply W'.
Qed.
Lemma moved0 s : wf s -> moved 0 s s.
Proof. intros W. split; [rewrite Z.add_0_r; symmetry; apply sp_id; exact W|]. repeat split. Qed.
Lemma release_run c (to : bool) s : ctx_ok c -> wf s -> let A := sp s + frame_size c in exists s', run_f (release to c) s = Some s' /\ mem s' = mem s /\ wf s' /\ sp s' = A mod 2 ^ 64 /\ gr s' 29 = ld8 s (sp s) /\ (to = false -> gr s' 30 = ld8 s (sp s + 8)) /\
  (forall v r o, In (v, r, o) (slots c) -> reg s' v (num v r) = ld8 s (A + o)) /\ (forall v k, v = true \/ (k <> 29 /\ k <> 30 /\ k <> 31) -> ~ In (v, k) (map key (slots c)) -> reg s' v k = reg s v k).
Proof.
  intros O W. cbv zeta. destruct (frame_ok c O) as (F16 & FB & F0). destruct (nsaved_ok c O) as (N & _). assert (CL : 0 <= c_local c) by apply O. unfold release. set (n := frame_size c) in *. cbv zeta.
  set (fit := (512 <? n) && (n <=? 512 + (if to then 248 else 496))). destruct (load_step to n s W ltac:(lia) F16) as (sa & R1 & (A1 & A2 & A3 & A4 & A5 & A6 & A7)). fold fit in R1, A1.
  rewrite run_f_app. cbn [run_f]. rewrite R1. set (n1 := if fit then 512 else n). set (n2 := if 512 <? n1 then 512 else n1).
  change (RD SLJIT_SP) with 31. change (RN SLJIT_SP) with (Z.shiftl 31 5).
  assert (N1 : n1 mod 16 = 0 /\ 16 <= n1 < 2 ^ 21 /\ (if fit then n - 512 else 0) = n - n1 /\ (n1 <> n -> n1 = 512)) by (unfold n1; destruct fit; repeat split; try lia; reflexivity). destruct N1 as (N16 & NB & ND & NE).
  assert (H2 : exists sb, run_f (if 512 <? n1 then let m := n1 - 512 in
     (if 0xfff <? m then [ADDI .| 31 .| Z.shiftl 31 5 .| Z.shiftl (Z.shiftr m 12) 10 .| Z.shiftl 1 22] else []) ++ [ADDI .| 31 .| Z.shiftl 31 5 .| Z.shiftl (if 0xfff <? m then m .& 0xfff else m) 10] else []) sa = Some sb /\ moved (n1 - n2) sa sb).
  { unfold n2. destruct (512 <? n1) eqn:E; [|exists sa; split; [reflexivity|]; rewrite Z.sub_diag; apply moved0; exact A7]. cbv zeta. set (m := n1 - 512). assert (MB : 0 < m < 2 ^ 21) by (unfold m; lia). destruct (0xfff <? m) eqn:EM.
    - change 0xfff with (Z.ones 12). rewrite Z.land_ones by lia. rewrite Z.shiftr_div_pow2 by lia. cbn [app run_f]. rewrite (addsp12_step false (m / 2 ^ 12) sa) by (Z.to_euclidean_division_equations; lia). set (s1 := wB sa 31 _).
      assert (M1 : moved (m / 2 ^ 12 * 4096) sa s1) by (apply moved_wB; reflexivity). rewrite (addsp_step false 31 (m mod 2 ^ 12) s1) by (lia || apply Z.mod_pos_bound; lia). eexists. split; [reflexivity|].
      replace m with (m / 2 ^ 12 * 4096 + m mod 2 ^ 12) at 1 by (Z.to_euclidean_division_equations; lia). apply (moved_trans _ _ sa s1); [exact M1|]. apply moved_wB. reflexivity.
    - cbn [app run_f]. rewrite (addsp_step false 31 m sa) by lia. eexists. split; [reflexivity|]. apply moved_wB. reflexivity. }
  destruct H2 as (sb & R2 & MV). cbv zeta in R2. rewrite run_f_app, R2. pose proof (moved_wf _ _ _ MV A7) as WB. destruct MV as (B1 & B2 & B3 & B4).
  assert (N2 : n2 mod 16 = 0 /\ 16 <= n2 <= 512 /\ n2 <= n1 /\ 8 * nsaved c <= n2) by (unfold n2; destruct (512 <? n1) eqn:E; [split; [reflexivity|lia]|split; [exact N16|]]; destruct (Z.eq_dec n1 n); [lia|specialize (NE n0); lia]).
  destruct N2 as (N216 & N2B & N2L & N2S).
  assert (E : (sp sb + n2) mod 2 ^ 64 = (sp s + n) mod 2 ^ 64) by (rewrite B1, A1, ND, Zplus_mod_idemp_l; rewrite (Z.add_comm _ (n1 - n2)), <- Z.add_assoc, (Z.add_comm (n1 - n2)), <- Z.add_assoc, Zplus_mod_idemp_l; f_equal; ring).
  destruct (restore_ok c n2 (sp s + n) sb O N216 ltac:(lia) N2S E WB) as (sc & R3 & C1 & C2 & C3 & C4 & C5). rewrite run_f_app, R3. cbn [run_f]. rewrite (addsp_step false 31 n2 sc) by lia. eexists. split; [reflexivity|].
  set (sd := wB sc 31 ((sp sc + n2) mod 2 ^ 64)). assert (MM : mem sb = mem s) by congruence.
  assert (RD1 : forall v k, v = true \/ k <> 31 -> reg sd v k = reg sc v k).
  { intros [|] k H; [reflexivity|]. destruct H as [H | H]; [discriminate H|]. cbn [reg]. unfold rX. replace (k =? 31) with false by lia. fold (gr sd k). unfold sd. rewrite gr_wB. replace (k =? 31) with false by lia. reflexivity. }
  assert (NK : forall k, 29 <= k -> ~ In (false, k) (map key (slots c))).
  { intros k K I. apply (key_in c false k O) in I. destruct I as (r & I & ->). apply (ints_range c r O) in I. lia. }
  assert (RG : forall k q, k <> 31 -> reg q false k = gr q k) by (intros k q K; cbn [reg]; unfold rX; replace (k =? 31) with false by lia; reflexivity).
  split; [exact (eq_trans C1 MM)|]. split; [refine (wf_wB sc _ _ C2); apply Z.mod_pos_bound; lia|]. split; [rewrite <- E, <- C3; reflexivity|].
  split; [rewrite <- (RG 29 sd) by lia; rewrite RD1 by lia; rewrite C5 by (apply NK; lia); rewrite (RG 29) by lia; rewrite B2 by lia; exact A2|].
  split; [intros T; rewrite <- (RG 30 sd) by lia; rewrite RD1 by lia; rewrite C5 by (apply NK; lia); rewrite (RG 30) by lia; rewrite B2 by lia; exact (A3 T)|]. split.
  - intros v r o I. rewrite RD1; [rewrite (C4 v r o I); apply ld8_mem; exact MM|]. destruct v; [left; reflexivity|right]. apply slot_mem in I. apply (ints_range c r O) in I. cbn [num]. rewrite hi_reg by exact I. lia.
  - intros v k H I. rewrite RD1 by (destruct H; [left; assumption|right; lia]). rewrite C5 by exact I. destruct v; cbn [reg]; [congruence|]. destruct H as [H | (H1 & H2 & H3)]; [discriminate H|]. change (reg sb false k = reg s false k). rewrite !RG by exact H3. rewrite B2 by exact H3. apply A4; assumption.
Qed.

(** ** Entry, body, return *)
Lemma body_ld c s s1 s2 o : ctx_ok c -> sp s1 = (sp s - frame_size c) mod 2 ^ 64 -> body c (frame_size c) s1 s2 -> - frame_size c <= o -> o + 8 <= - frame_size c + 16 \/ (- frame_size c + 16 + c_local c <= o /\ o + 8 <= 0) -> ld8 s2 (sp s + o) = ld8 s1 (sp s + o).
Proof.
  intros O SP (_ & B & _) L D. destruct (frame_ok c O) as (F16 & FB & F0). destruct (nsaved_ok c O) as (N & _). assert (CL : 0 <= c_local c) by apply O. set (F := frame_size c) in *.
  apply ld8_ext; [reflexivity|]. intros i I. rewrite <- Z.add_assoc. apply B; [apply Z.mod_pos_bound; lia|]. rewrite SP, off_of by lia. lia.
Qed.
Lemma return_ok c s s1 s2 (to : bool) : ctx_ok c -> wf s -> sp s1 = (sp s - frame_size c) mod 2 ^ 64 -> ld8 s1 (sp s - frame_size c) = gr s 29 -> ld8 s1 (sp s - frame_size c + 8) = gr s 30 ->
  (forall v r o, In (v, r, o) (slots c) -> ld8 s1 (sp s + o) = reg s v (num v r)) ->
  (forall x, x <> 31 -> x <> 29 -> (c_reg_arg c = true \/ forall i, 26 - saved_args (c_args c) < i <= 26 -> x <> reg_map i) -> gr s1 x = gr s x) -> vd s1 = vd s -> body c (frame_size c) s1 s2 ->
  exists s3, run_f (release to c) s2 = Some s3 /\ (to = false -> gr s3 30 = gr s 30) /\ left_frame c s s2 s3.
Proof.
  intros O W SP L29 L30 LS GR VD B. pose proof B as (B1 & _ & B3 & B4 & B5). destruct (frame_ok c O) as (F16 & FB & F0). destruct (nsaved_ok c O) as (N & _). assert (CL : 0 <= c_local c) by apply O.
  destruct (release_run c to s2 O B5) as (s3 & R & M & W3 & S3 & G29 & G30 & GS & GK). exists s3. split; [exact R|]. set (F := frame_size c) in *.
  assert (S2 : sp s2 = (sp s - F) mod 2 ^ 64) by congruence.
  assert (C2 : forall o, (sp s2 + F + o) mod 2 ^ 64 = (sp s + o) mod 2 ^ 64) by (intros o; rewrite S2, <- Z.add_assoc, Zplus_mod_idemp_l; f_equal; ring).
  assert (LD : forall o, - F <= o -> o + 8 <= - F + 16 \/ (- F + 16 + c_local c <= o /\ o + 8 <= 0) -> ld8 s2 (sp s2 + F + o) = ld8 s1 (sp s + o)) by (intros o O1 O2; rewrite (ld_cong s2 _ _ (C2 o)); apply (body_ld c s s1 s2 o O SP B); assumption).
  assert (SL : forall v r o, In (v, r, o) (slots c) -> reg s3 v (num v r) = reg s v (num v r)).
  { intros v r o I. pose proof (slots_range c v r o I) as RG. rewrite (GS v r o I), LD by lia. apply LS. exact I. }
  assert (RG : forall k q, k <> 31 -> reg q false k = gr q k) by (intros k q K; cbn [reg]; unfold rX; replace (k =? 31) with false by lia; reflexivity).
  split; [intros T; rewrite (G30 T); pose proof (LD (- F + 8) ltac:(lia) ltac:(lia)) as L; replace (sp s2 + F + (- F + 8)) with (sp s2 + 8) in L by ring; replace (sp s + (- F + 8)) with (sp s - F + 8) in L by ring; rewrite L; exact L30|].
  pose proof O as (OS & O1 & OSS & OF & OFS & OFF & _ & OK & OKS & ORA & O2 & O3 & O4).
  split; [rewrite S3; pose proof (C2 0) as E; rewrite !Z.add_0_r in E; rewrite E; apply sp_id; exact W|].
  split; [rewrite G29; pose proof (LD (- F) ltac:(lia) ltac:(lia)) as L; replace (sp s2 + F + - F) with (sp s2) in L by ring; rewrite L; exact L29|]. split; [|split; [|split; [|split; [|split]]]].
  - intros x CS NK. unfold callee_saved in CS. set (i := 45 - x). assert (RI : reg_map i = x) by (unfold i; rewrite hi_reg by lia; lia). destruct (in_dec Z.eq_dec i (ints c)) as [I | NI].
    + destruct (mem_slot c false i I) as (o & J). pose proof (SL false i o J) as E. cbn [num] in E. rewrite RI, !RG in E by lia. exact E.
    + assert (NI' : ~ (26 - c_saveds c < i <= 26 - c_kept c \/ 16 < i <= c_scratches c)) by (rewrite <- in_ints; exact NI).
      assert (IK : ~ (26 - c_kept c < i <= 26)) by (intros K; exact (NK i K RI)).
      assert (S3E : gr s3 x = gr s2 x).
      { rewrite <- (RG x s3), <- (RG x s2) by lia. apply GK; [lia|]. intros J. apply (key_in c false x O) in J. destruct J as (r & J & E). replace r with i in J by (unfold i; lia). contradiction. }
      rewrite S3E, B3; [|unfold callee_saved; lia|].
      * apply GR; [lia|lia|]. destruct (c_reg_arg c) eqn:RA; [left; reflexivity|right]. specialize (O4 eq_refl). pose proof (saved_nonneg (c_args c)). intros j J E. rewrite hi_reg in E by lia. assert (j = i) by (unfold i; lia). lia.
      * intros j J E. unfold declared in J. destruct (Z_le_gt_dec j 16) as [JL | JL].
        -- apply (lo_reg_cs j); [lia|]. rewrite E. unfold callee_saved. lia.
        -- rewrite hi_reg in E by lia. assert (j = i) by (unfold i; lia). lia.
  - intros x CS. unfold vcallee_saved in CS. set (i := 38 - x). assert (RI : freg_map i = x) by (unfold i; rewrite hi_freg by lia; lia). destruct (in_dec Z.eq_dec i (floats c)) as [I | NI].
    + destruct (mem_slot c true i I) as (o & J). pose proof (SL true i o J) as E. cbn [num reg] in E. rewrite RI in E. exact E.
    + assert (NI' : ~ (30 - c_fsaveds c < i <= 30 \/ 22 < i <= c_fscratches c)) by (rewrite <- in_floats; exact NI).
      assert (S3E : vd s3 x = vd s2 x).
      { change (reg s3 true x = reg s2 true x). apply GK; [left; reflexivity|]. intros J. apply (key_in c true x O) in J. destruct J as (r & J & E). replace r with i in J by (unfold i; lia). contradiction. }
      rewrite S3E, B4; [rewrite VD; reflexivity|unfold vcallee_saved; lia|]. intros j J E. unfold fdeclared in J. destruct (Z_le_gt_dec j 22) as [JL | JL].
      * apply (lo_freg_cs j); [lia|]. rewrite E. unfold vcallee_saved. lia.
      * rewrite hi_freg in E by lia. assert (j = i) by (unfold i; lia). lia.
  - intros i I. assert (E : reg_map i = 45 - i) by (apply hi_reg; lia). rewrite E. rewrite <- (RG _ s3), <- (RG _ s2) by lia. apply GK; [lia|]. intros J. apply (key_in c false _ O) in J. destruct J as (r & J & E2). apply in_ints in J. lia.
  - intros x X. rewrite <- (RG x s3), <- (RG x s2) by lia. apply GK; [lia|]. intros J. apply (key_in c false _ O) in J. destruct J as (r & J & E2). apply (ints_range c r O) in J. lia.
  - intros x X. change (reg s3 true x = reg s2 true x). apply GK; [left; reflexivity|]. intros J. apply (key_in c true x O) in J. destruct J as (r & J & E2). apply (floats_range c r O) in J. apply X. unfold vcallee_saved. lia.
  - exact M.
Qed.
Lemma ret_app ws w s s' : run_f ws s = Some s' -> decode_f w = Some (FRet 30) -> ret_f (ws ++ [w]) s = Some (gr s' 30, s').
Proof.
  revert s. induction ws as [|a ws IH]; intros s R D; cbn [app ret_f run_f] in *; [injection R as ->; rewrite D; reflexivity|].
  destruct (step_f a s) as [s1|] eqn:E; [|discriminate R]. unfold step_f in E. destruct (decode_f a) as [[| | |rn]|] eqn:DA; cbn [exec_f] in E; try discriminate E; apply IH; assumption.
Qed.
Theorem frame_round c s : ctx_ok c -> wf s -> exists s1, run_f (emit_enter c) s = Some s1 /\ entered c (frame_size c) s s1 /\
  forall s2, body c (frame_size c) s1 s2 ->
    (exists s3, ret_f (emit_return_void c) s2 = Some (gr s 30, s3) /\ left_frame c s s2 s3) /\
    (exists s3, run_f (release true c) s2 = Some s3 /\ left_frame c s s2 s3).
Proof.
  intros O W. destruct (enter_ok c s O W) as (s1 & R & EN & SP & L29 & L30 & LS & GR). exists s1. split; [exact R|]. split; [exact EN|]. intros s2 B.
  assert (VD : vd s1 = vd s) by apply EN. split.
  - destruct (return_ok c s s1 s2 false O W SP L29 L30 LS GR VD B) as (s3 & R3 & G3 & LF). exists s3. split; [|exact LF]. unfold emit_return_void. rewrite (ret_app _ _ _ _ R3 dec_ret), (G3 eq_refl). reflexivity.
  - destruct (return_ok c s s1 s2 true O W SP L29 L30 LS GR VD B) as (s3 & R3 & G3 & LF). exists s3. split; assumption.
Qed.
