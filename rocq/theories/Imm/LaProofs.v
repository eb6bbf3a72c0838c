(** LoongArch64: words, values of the instructions, immediates and constants. *)
Require Import ZArith List Bool Lia Zify ZifyBool.
From Verif Require Import Rv.RvLib Rv.RvBits Imm.ImmLib Imm.LaIsa Imm.LaModel Imm.LaSpec.
Import ListNotations.
Open Scope Z_scope.
Ltac Zify.zify_post_hook ::= idtac.

(** ** Operands *)
Lemma u32_mod x n : 0 <= n <= 32 -> u32 x mod 2 ^ n = x mod 2 ^ n.
Proof.
  intros Hn. unfold u32. replace 32 with (n + (32 - n)) by lia. rewrite Z.pow_add_r by lia.
  rewrite Z.rem_mul_r by (pose proof (pow_pos n); pose proof (pow_pos (32 - n)); lia).
  rewrite Z.mul_comm, Z_mod_plus_full. apply Z.mod_mod. pose proof (pow_pos n). lia.
Qed.
Lemma I12_eq x : IMM_I12 x = Z.shiftl (x mod 2 ^ 12) 10.
Proof. unfold IMM_I12. rewrite (land_low _ 12) by lia. rewrite u32_mod by lia. reflexivity. Qed.
Lemma I16_eq x : IMM_I16 x = Z.shiftl (x mod 2 ^ 16) 10.
Proof. unfold IMM_I16. rewrite (land_low _ 16) by lia. rewrite u32_mod by lia. reflexivity. Qed.
Lemma div_mod_swap x a b : 0 <= a -> 0 <= b -> (x mod 2 ^ (a + b)) / 2 ^ a = (x / 2 ^ a) mod 2 ^ b.
Proof.
  intros. rewrite Z.pow_add_r by lia. pose proof (pow_pos a H). pose proof (pow_pos b H0).
  rewrite Z.rem_mul_r by lia. rewrite Z.mul_comm, Z.div_add by lia.
  rewrite Z.div_small; [lia|]. apply Z.mod_pos_bound. lia.
Qed.
Lemma HI20_eq x : HI20 x = Z.shiftl ((x / 2 ^ 12) mod 2 ^ 20) 5.
Proof.
  unfold HI20. rewrite (land_low _ 32) by lia. rewrite shr_div by lia.
  change 32 with (12 + 20). rewrite div_mod_swap by lia. reflexivity.
Qed.
Lemma I20_eq x : IMM_I20 x = Z.shiftl ((x / 2 ^ 12) mod 2 ^ 20) 5.
Proof.
  unfold IMM_I20. rewrite (land_low _ 32) by lia. rewrite u32_mod by lia. rewrite shr_div by lia.
  change 32 with (12 + 20). rewrite div_mod_swap by lia. reflexivity.
Qed.
Lemma MID20_eq x : MID20 x = Z.shiftl ((x / 2 ^ 32) mod 2 ^ 20) 5.
Proof. unfold MID20. rewrite (land_low _ 20) by lia. rewrite shr_div by lia. reflexivity. Qed.
Lemma I26_eq x : IMM_I26 x = Z.lor (Z.shiftl (x mod 2 ^ 16) 10) ((x / 2 ^ 16) mod 2 ^ 10).
Proof.
  unfold IMM_I26. rewrite (land_low _ 16), (land_low _ 10) by lia. rewrite u32_mod by lia. rewrite shr_div by lia.
  f_equal. rewrite <- !div_mod_swap by lia. rewrite u32_mod by lia. reflexivity.
Qed.

(** ** Decoding *)
Lemma dec_addi d j i : 0 <= d < 32 -> 0 <= j < 32 -> 0 <= i < 4096 ->
  decode (ADDI_D .| d .| Z.shiftl j 5 .| Z.shiftl i 10) = Some (AddiD d j i).
Proof. intros. unfold decode. ifs. Qed.
Lemma dec_ori d j i : 0 <= d < 32 -> 0 <= j < 32 -> 0 <= i < 4096 ->
  decode (ORI .| d .| Z.shiftl j 5 .| Z.shiftl i 10) = Some (Ori d j i).
Proof. intros. unfold decode. ifs. Qed.
Lemma dec_lu52 d j i : 0 <= d < 32 -> 0 <= j < 32 -> 0 <= i < 4096 ->
  decode (LU52I_D .| d .| Z.shiftl j 5 .| Z.shiftl i 10) = Some (Lu52iD d j i).
Proof. intros. unfold decode. ifs. Qed.
Lemma dec_lu12 d i : 0 <= d < 32 -> 0 <= i < 1048576 ->
  decode (LU12I_W .| d .| Z.shiftl i 5) = Some (Lu12iW d i).
Proof. intros. unfold decode. ifs. Qed.
Lemma dec_lu32 d i : 0 <= d < 32 -> 0 <= i < 1048576 ->
  decode (LU32I_D .| d .| Z.shiftl i 5) = Some (Lu32iD d i).
Proof. intros. unfold decode. ifs. Qed.
Lemma dec_pcadd d i : 0 <= d < 32 -> 0 <= i < 1048576 ->
  decode (PCADDU12I .| d .| Z.shiftl i 5) = Some (Pcaddu12i d i).
Proof. intros. unfold decode. ifs. Qed.
Lemma dec_jirl d j i : 0 <= d < 32 -> 0 <= j < 32 -> 0 <= i < 65536 ->
  decode (JIRL .| Z.shiftl j 5 .| d .| Z.shiftl i 10) = Some (Jirl d j i).
Proof. intros. unfold decode. ifs. Qed.
Lemma dec_b l h : 0 <= l < 65536 -> 0 <= h < 1024 ->
  decode (B .| (Z.shiftl l 10 .| h)) = Some (B_ (Z.lor (Z.shiftl h 16) l)).
Proof. intros. unfold decode. ifs. Qed.
Lemma dec_bl l h : 0 <= l < 65536 -> 0 <= h < 1024 ->
  decode (BL .| (Z.shiftl l 10 .| h)) = Some (Bl_ (Z.lor (Z.shiftl h 16) l)).
Proof. intros. unfold decode. ifs. Qed.
Lemma dec_bcc k j d i : 0 <= k < 6 -> 0 <= d < 32 -> 0 <= j < 32 -> 0 <= i < 65536 ->
  decode (OPC_2RI16 (0x16 + k) .| Z.shiftl j 5 .| d .| Z.shiftl i 10) = Some (Bcc k j d i).
Proof.
  intros Hk Hd Hj Hi. assert (K : k = 0 \/ k = 1 \/ k = 2 \/ k = 3 \/ k = 4 \/ k = 5) by lia.
  destruct K as [-> | [-> | [-> | [-> | [-> | ->]]]]]; unfold decode; ifs.
Qed.

(** ** Single instructions *)
Lemma reg_ok r : 1 <= r <= 29 -> 1 <= reg_map r < 32.
Proof.
  intros H.
  assert (F : forallb (fun k => let m := reg_map (Z.of_nat k) in (1 <=? m) && (m <? 32)) (seq 1 29) = true) by reflexivity.
  rewrite forallb_forall in F. specialize (F (Z.to_nat r)). rewrite in_seq in F. rewrite Z2Nat.id in F by lia.
  specialize (F ltac:(lia)). cbv zeta in F. lia.
Qed.
Lemma mod_b x n : 0 <= n -> 0 <= x mod 2 ^ n < 2 ^ n.
Proof. intros. apply Z.mod_pos_bound. apply pow_pos. auto. Qed.

Lemma goes_trans code a s b s' c s'' : goes code a s b s' -> goes code b s' c s'' -> goes code a s c s''.
Proof. apply runs_trans. Qed.
Lemma goes_0 code a s : goes code a s a s.
Proof. constructor. Qed.
Lemma goes_1 code a s w i b s' : code (wrap a) = w -> decode w = Some i -> exec i (wrap a) s = (wrap b, s') -> goes code a s b s'.
Proof. intros C D E. apply runs_1. unfold step. cbn [fst snd]. rewrite C, D, E. reflexivity. Qed.
Lemma wG_only s r v : r <> 0 -> only s (wG s r v) r v.
Proof. intros H. unfold wG. replace (r =? 0) with false by lia. apply only_upd. Qed.

(** The signed value of the low [n] bits, as a register. *)
Definition sxw (n v : Z) : Z := wrap (sext n v).
Definition cut (v : Z) : Z := v / 2 ^ 12 * 2 ^ 12.

Lemma sxw_64 v : sxw 64 v = wrap v.
Proof.
  unfold sxw. destruct (sext_mod 64 v ltac:(lia)) as (k & E). symmetry. apply wrap_eq with k. lia.
Qed.
Lemma sxw_small n v : 1 <= n -> - 2 ^ (n - 1) <= v < 2 ^ (n - 1) -> sxw n v = wrap v.
Proof. intros. unfold sxw. rewrite sext_small by lia. reflexivity. Qed.
Lemma sxw_mod n m v : 1 <= n -> 0 <= m <= n -> n <= 64 -> sxw n v mod 2 ^ m = v mod 2 ^ m.
Proof.
  intros Hn Hm H64. unfold sxw, wrap.
  assert (M : forall x, (x mod 2 ^ 64) mod 2 ^ m = x mod 2 ^ m).
  { intros x. replace 64 with (m + (64 - m)) by lia. rewrite Z.pow_add_r by lia. pose proof (pow_pos m). pose proof (pow_pos (64 - m)).
    rewrite Z.rem_mul_r by lia. rewrite Z.mul_comm, Z_mod_plus_full. apply Z.mod_mod. lia. }
  rewrite M. destruct (sext_mod n v Hn) as (k & E). rewrite E at 2.
  replace n with (m + (n - m)) at 3 by lia. rewrite Z.pow_add_r by lia.
  replace (sext n v + k * (2 ^ m * 2 ^ (n - m))) with (sext n v + (k * 2 ^ (n - m)) * 2 ^ m) by ring.
  symmetry. apply Z_mod_plus_full.
Qed.

Lemma val_lu12 v : wrap (sext 32 (Z.shiftl ((v / 2 ^ 12) mod 2 ^ 20) 12)) = sxw 32 (cut v).
Proof.
  unfold sxw, cut. f_equal. rewrite Z.shiftl_mul_pow2 by lia.
  apply sext_eq with (- (v / 2 ^ 12 / 2 ^ 20)); [lia|]. pose proof (Z.div_mod (v / 2 ^ 12) (2 ^ 20) ltac:(lia)). lia.
Qed.
Lemma val_lu32 v x : x mod 2 ^ 32 = v mod 2 ^ 32 ->
  wrap (Z.shiftl (sext 20 ((v / 2 ^ 32) mod 2 ^ 20)) 32 + x mod 2 ^ 32) = sxw 52 v.
Proof.
  intros E. rewrite E. unfold sxw. f_equal. rewrite Z.shiftl_mul_pow2 by lia.
  set (m := (v / 2 ^ 32) mod 2 ^ 20). destruct (sext_mod 20 m ltac:(lia)) as (k & K).
  pose proof (sext_range 20 m ltac:(lia)) as R. pose proof (Z.mod_pos_bound v (2 ^ 32) ltac:(lia)) as R2.
  symmetry. apply sext_unique with (k + v / 2 ^ 32 / 2 ^ 20); [lia| |].
  - change (2 ^ (20 - 1)) with (2 ^ 19) in R. lia.
  - pose proof (Z.div_mod v (2 ^ 32) ltac:(lia)). pose proof (Z.div_mod (v / 2 ^ 32) (2 ^ 20) ltac:(lia)). fold m in H0. lia.
Qed.
Lemma val_lu52 v x : x mod 2 ^ 52 = v mod 2 ^ 52 -> Z.shiftl ((v / 2 ^ 52) mod 2 ^ 12) 52 + x mod 2 ^ 52 = wrap v.
Proof.
  intros E. rewrite E. rewrite Z.shiftl_mul_pow2 by lia. unfold wrap. change 64 with (52 + 12). rewrite Z.pow_add_r by lia.
  rewrite Z.rem_mul_r by lia. lia.
Qed.
Lemma val_ori n v : 13 <= n <= 64 -> Z.lor (sxw n (cut v)) (v mod 2 ^ 12) = sxw n v.
Proof.
  intros Hn. unfold sxw, cut.
  destruct (sext_mod n (v / 2 ^ 12 * 2 ^ 12) ltac:(lia)) as (k & K).
  pose proof (sext_range n (v / 2 ^ 12 * 2 ^ 12) ltac:(lia)) as R.
  assert (P : 2 ^ n = 2 ^ (n - 12) * 2 ^ 12) by (rewrite <- Z.pow_add_r by lia; f_equal; lia).
  assert (P1 : 2 ^ (n - 1) = 2 ^ (n - 13) * 2 ^ 12) by (rewrite <- Z.pow_add_r by lia; f_equal; lia).
  pose proof (mod_b v 12 ltac:(lia)) as Bl.
  set (q := v / 2 ^ 12 - k * 2 ^ (n - 12)).
  assert (E : sext n (v / 2 ^ 12 * 2 ^ 12) = q * 2 ^ 12) by (unfold q; rewrite P in K; lia).
  rewrite E. rewrite lor_wrap_low by lia. f_equal. symmetry.
  apply sext_unique with k; [lia| |].
  - rewrite E in R. rewrite P1 in *. nia.
  - pose proof (Z.div_mod v (2 ^ 12) ltac:(lia)). unfold q. rewrite P. lia.
Qed.

Lemma rG_nz s r : r <> 0 -> rG s r = s r.
Proof. intros. unfold rG. replace (r =? 0) with false by lia. reflexivity. Qed.
Tactic Notation "one" tactic3(t) := eexists; split;
  [eapply goes_1; [eassumption|t|cbn [exec]; rewrite wrap_add_l; reflexivity]|].

Section Instr.
  Variables (code : Z -> Z) (a : Z) (s : regs) (dst : Z).
  Hypothesis Hd : 1 <= dst <= 29.
  Let r := reg_map dst.
  Lemma go_lu12 v : code (wrap a) = (LU12I_W .| RD dst .| HI20 v) ->
    exists s', goes code a s (a + 4) s' /\ only s s' r (sxw 32 (cut v)).
  Proof.
    intros C. pose proof (reg_ok dst Hd). pose proof (mod_b (v / 2 ^ 12) 20 ltac:(lia)) as Bv. rewrite HI20_eq in C.
    one (apply dec_lu12; [unfold RD; lia|lia]).
    rewrite val_lu12. apply wG_only. unfold RD. lia.
  Qed.
  Lemma go_lu32 v : s r mod 2 ^ 32 = v mod 2 ^ 32 -> code (wrap a) = (LU32I_D .| RD dst .| MID20 v) ->
    exists s', goes code a s (a + 4) s' /\ only s s' r (sxw 52 v).
  Proof.
    intros V C. pose proof (reg_ok dst Hd). pose proof (mod_b (v / 2 ^ 32) 20 ltac:(lia)) as Bv. rewrite MID20_eq in C.
    one (apply dec_lu32; [unfold RD; lia|lia]).
    rewrite rG_nz by (unfold RD; lia). rewrite val_lu32 by exact V. apply wG_only. unfold RD. lia.
  Qed.
  Lemma go_lu52 v : s r mod 2 ^ 52 = v mod 2 ^ 52 -> code (wrap a) = (LU52I_D .| RD dst .| RJ dst .| IMM_I12 (Z.shiftr v 52)) ->
    exists s', goes code a s (a + 4) s' /\ only s s' r (wrap v).
  Proof.
    intros V C. pose proof (reg_ok dst Hd). pose proof (mod_b (v / 2 ^ 52) 12 ltac:(lia)) as Bv. rewrite I12_eq, shr_div in C by lia.
    one (apply dec_lu52; unfold RD; lia).
    rewrite rG_nz by lia. rewrite val_lu52 by exact V. apply wG_only. unfold RD. lia.
  Qed.
  Lemma go_ori n v : 13 <= n <= 64 -> s r = sxw n (cut v) -> code (wrap a) = (ORI .| RD dst .| RJ dst .| IMM_I12 v) ->
    exists s', goes code a s (a + 4) s' /\ only s s' r (sxw n v).
  Proof.
    intros Hn V C. pose proof (reg_ok dst Hd). pose proof (mod_b v 12 ltac:(lia)) as Bv. rewrite I12_eq in C.
    one (apply dec_ori; unfold RD; lia).
    rewrite rG_nz by lia. fold r. rewrite V. rewrite val_ori by auto. apply wG_only. unfold RD. lia.
  Qed.
  Lemma go_addi v x : s r = x -> code (wrap a) = (ADDI_D .| RD dst .| RJ dst .| IMM_I12 v) ->
    exists s', goes code a s (a + 4) s' /\ only s s' r (wrap (x + sext 12 v)).
  Proof.
    intros V C. pose proof (reg_ok dst Hd). pose proof (mod_b v 12 ltac:(lia)) as Bv. rewrite I12_eq in C.
    one (apply dec_addi; unfold RD; lia).
    rewrite rG_nz by lia. fold r. rewrite V.
    replace (sext 12 (v mod 2 ^ 12)) with (sext 12 v); [apply wG_only; unfold RD; lia|].
    unfold sext. rewrite Z.mod_mod by lia. reflexivity.
  Qed.
  Lemma go_li v : code (wrap a) = (ADDI_D .| RD dst .| RJ TMP_ZERO .| IMM_I12 v) ->
    exists s', goes code a s (a + 4) s' /\ only s s' r (sxw 12 v).
  Proof.
    intros C. pose proof (reg_ok dst Hd). pose proof (mod_b v 12 ltac:(lia)) as Bv. rewrite I12_eq in C.
    one (apply dec_addi; [unfold RD; lia|change (reg_map TMP_ZERO) with 0; lia|lia]).
    change (reg_map TMP_ZERO) with 0. cbn [rG Z.eqb]. rewrite Z.add_0_l.
    replace (sext 12 (v mod 2 ^ 12)) with (sext 12 v); [apply wG_only; unfold RD; lia|].
    unfold sext. rewrite Z.mod_mod by lia. reflexivity.
  Qed.
End Instr.

Lemma cut_same v : v mod 2 ^ 12 = 0 -> cut v = v.
Proof. intros H. unfold cut. pose proof (Z.div_mod v (2 ^ 12) ltac:(lia)). lia. Qed.
Lemma cut_mod v n : 12 <= n -> exists k, cut v = v - v mod 2 ^ 12 + k * 2 ^ n.
Proof. intros. exists 0. unfold cut. pose proof (Z.div_mod v (2 ^ 12) ltac:(lia)). lia. Qed.
Lemma I12_0 v : (IMM_I12 v =? 0) = (v mod 2 ^ 12 =? 0).
Proof. rewrite I12_eq, Z.shiftl_mul_pow2 by lia. pose proof (mod_b v 12 ltac:(lia)). destruct (v mod 2 ^ 12 =? 0) eqn:E; lia. Qed.

(** lui and ori, as one. *)
Lemma go_lo code a s dst v ws : 1 <= dst <= 29 ->
  ws = [LU12I_W .| RD dst .| HI20 v] ++ (if IMM_I12 v =? 0 then [] else [ORI .| RD dst .| RJ dst .| IMM_I12 v]) ->
  code_at 4 ws a code ->
  exists s', goes code a s (a + 4 * Z.of_nat (length ws)) s' /\ only s s' (reg_map dst) (sxw 32 v).
Proof.
  intros Hd -> C. rewrite I12_0 in *. destruct (v mod 2 ^ 12 =? 0) eqn:E; cbn [app code_at length] in *.
  - destruct C as (C1 & _). destruct (go_lu12 code a s dst Hd v C1) as (s1 & G1 & O1).
    rewrite cut_same in O1 by lia. exists s1. split; [exact G1|exact O1].
  - destruct C as (C1 & C2 & _). destruct (go_lu12 code a s dst Hd v C1) as (s1 & G1 & O1).
    destruct (go_ori code (a + 4) s1 dst Hd 32 v ltac:(lia) ltac:(apply O1) C2) as (s2 & G2 & O2).
    exists s2. split; [|eapply only_trans; eauto]. eapply goes_trans; [exact G1|].
    replace (a + 4 * Z.of_nat 2) with (a + 4 + 4) by lia. exact G2.
Qed.

Lemma load_immediate_ok code a s dst imm : 1 <= dst <= 29 -> - 2 ^ 63 <= imm < 2 ^ 63 ->
  code_at 4 (load_immediate dst imm) a code ->
  exists s', goes code a s (a + 4 * Z.of_nat (length (load_immediate dst imm))) s' /\ only s s' (reg_map dst) (wrap imm).
Proof.
  intros Hd Hi. unfold load_immediate. cbv zeta.
  set (ori := if IMM_I12 imm =? 0 then [] else [ORI .| RD dst .| RJ dst .| IMM_I12 imm]).
  destruct ((imm <=? 2047) && (-2048 <=? imm)) eqn:R1.
  { intros (C & _). destruct (go_li code a s dst Hd imm C) as (s1 & G1 & O1). exists s1. split; [exact G1|].
    rewrite sxw_small in O1 by lia. exact O1. }
  destruct ((imm <=? 0x7fffffff) && (-0x80000000 <=? imm)) eqn:R2.
  { intros C. destruct (go_lo code a s dst imm _ Hd eq_refl C) as (s1 & G1 & O1). exists s1. split; [exact G1|].
    rewrite sxw_small in O1 by lia. exact O1. }
  assert (T : forall tl, code_at 4 ([LU12I_W .| RD dst .| HI20 imm] ++ ori ++ (LU32I_D .| RD dst .| MID20 imm) :: tl) a code ->
    exists s', goes code a s (a + 4 * Z.of_nat (length ([LU12I_W .| RD dst .| HI20 imm] ++ ori)) + 4) s' /\
      only s s' (reg_map dst) (sxw 52 imm) /\
      code_at 4 tl (a + 4 * Z.of_nat (length ([LU12I_W .| RD dst .| HI20 imm] ++ ori)) + 4) code).
  { intros tl C. rewrite app_assoc in C. apply code_at_app in C. destruct C as (C1 & C2).
    destruct (go_lo code a s dst imm _ Hd eq_refl C1) as (s1 & G1 & O1).
    cbn [code_at] in C2. destruct C2 as (C2 & C3).
    destruct (go_lu32 code _ s1 dst Hd imm ltac:(destruct O1 as (-> & _); apply sxw_mod; lia) C2) as (s2 & G2 & O2).
    exists s2. split; [eapply goes_trans; eauto|]. split; [eapply only_trans; eauto|exact C3]. }
  destruct ((imm <=? 0x7ffffffffffff) && (-0x8000000000000 <=? imm)) eqn:R3.
  { intros C. destruct (T [] C) as (s1 & G1 & O1 & _). exists s1.
    rewrite sxw_small in O1 by lia. split; [|exact O1].
    rewrite app_assoc, app_length. cbn [length]. rewrite Nat2Z.inj_add, Z.mul_add_distr_l, Z.add_assoc. exact G1. }
  intros C. destruct (T _ C) as (s1 & G1 & O1 & C2 & _).
  destruct (go_lu52 code _ s1 dst Hd imm ltac:(destruct O1 as (-> & _); apply sxw_mod; lia) C2) as (s2 & G2 & O2).
  exists s2. split; [|eapply only_trans; eauto].
  rewrite app_assoc, app_length. cbn [length].
  eapply goes_trans; [exact G1|].
  replace (a + 4 * Z.of_nat (length ([LU12I_W .| RD dst .| HI20 imm] ++ ori) + 2))
    with (a + 4 * Z.of_nat (length ([LU12I_W .| RD dst .| HI20 imm] ++ ori)) + 4 + 4) by lia. exact G2.
Qed.

(** lu12i.w, lu32i.d, lu52i.d: everything but the low 12 bits. *)
Lemma go_3 code a s dst v w3 : 1 <= dst <= 29 ->
  code_at 4 [LU12I_W .| RD dst .| HI20 v; LU32I_D .| RD dst .| MID20 v; LU52I_D .| RD dst .| RJ dst .| IMM_I12 (Z.shiftr v 52); w3] a code ->
  exists s', goes code a s (a + 12) s' /\ only s s' (reg_map dst) (wrap (cut v)) /\ code (wrap (a + 12)) = w3.
Proof.
  intros Hd (C1 & C2 & C3 & C4 & _).
  assert (M : MID20 v = MID20 (cut v)).
  { rewrite !MID20_eq. f_equal. f_equal. unfold cut. change 32 with (12 + 20). rewrite Z.pow_add_r by lia.
    rewrite <- !Z.div_div by lia. rewrite Z.div_mul by lia. reflexivity. }
  assert (T : Z.shiftr v 52 = Z.shiftr (cut v) 52).
  { rewrite !shr_div by lia. unfold cut. change 52 with (12 + 40). rewrite Z.pow_add_r by lia.
    rewrite <- !Z.div_div by lia. rewrite Z.div_mul by lia. reflexivity. }
  rewrite M in C2. rewrite T in C3.
  destruct (go_lu12 code a s dst Hd v C1) as (s1 & G1 & O1).
  destruct (go_lu32 code _ s1 dst Hd (cut v) ltac:(destruct O1 as (-> & _); apply sxw_mod; lia) C2) as (s2 & G2 & O2).
  destruct (go_lu52 code _ s2 dst Hd (cut v) ltac:(destruct O2 as (-> & _); apply sxw_mod; lia) C3) as (s3 & G3 & O3).
  exists s3. replace (a + 4 + 4 + 4) with (a + 12) in * by lia.
  split; [eapply goes_trans; [exact G1|eapply goes_trans; eauto]|]. split; [|exact C4].
  eapply only_trans; [exact O1|]. eapply only_trans; eauto.
Qed.
Lemma emit_const_ok code a s dst v : 1 <= dst <= 29 -> code_at 4 (emit_const dst v) a code ->
  exists s', goes code a s (a + 16) s' /\ only s s' (reg_map dst) (wrap v).
Proof.
  intros Hd C. destruct (go_3 code a s dst v _ Hd C) as (s1 & G1 & O1 & C4).
  destruct (go_ori code _ s1 dst Hd 64 v ltac:(lia) ltac:(rewrite sxw_64; apply O1) C4) as (s2 & G2 & O2).
  rewrite sxw_64 in O2. exists s2. split; [|eapply only_trans; eauto].
  eapply goes_trans; [exact G1|]. replace (a + 16) with (a + 12 + 4) by lia. exact G2.
Qed.

Lemma hi7 v : Z.shiftr v 7 .& 0x1ffffe0 = HI20 v.
Proof.
  rewrite HI20_eq, Z.shiftl_mul_pow2 by lia. rewrite (land_mask _ 5 20) by lia. rewrite shr_div by lia.
  rewrite Z.div_div by lia. reflexivity.
Qed.
Lemma u8val_mod v : sext 12 (u8val v) = sext 9 v.
Proof.
  unfold u8val. rewrite (bit_test v 8) by lia. change (2 ^ (8 + 1)) with (2 ^ 9).
  pose proof (mod_b v 9 ltac:(lia)) as B9.
  destruct (v mod 2 ^ 9 <? 2 ^ 8) eqn:E.
  - rewrite (land_low v 8) by lia.
    assert (M : v mod 2 ^ 8 = v mod 2 ^ 9).
    { change 9 with (8 + 1) at 1. rewrite Z.pow_add_r by lia. rewrite Z.rem_mul_r by lia.
      pose proof (div_mod_swap v 8 1 ltac:(lia) ltac:(lia)) as D. change (8 + 1) with 9 in D.
      change (2 ^ 1) with 2 in *. rewrite <- D. rewrite Z.div_small by lia. lia. }
    rewrite M. rewrite sext_small by (change (2 ^ (12 - 1)) with 2048; lia). unfold sext. cbv zeta. change (2 ^ (9 - 1)) with (2 ^ 8). rewrite E. reflexivity.
  - assert (E9 : sext 9 v = v mod 2 ^ 9 - 2 ^ 9). { unfold sext. cbv zeta. change (2 ^ (9 - 1)) with (2 ^ 8). rewrite E. reflexivity. }
    assert (L : Z.lor v 0xf00 mod 2 ^ 12 = v mod 2 ^ 9 + 0xe00).
    { rewrite <- Z.land_ones by lia. rewrite <- (Z.land_ones v 9) in * by lia.
      apply Z.ltb_ge in E.
      assert (T8 : Z.testbit v 8 = true).
      {
        assert (T : Z.testbit (Z.land v (Z.ones 9)) 8 = Z.testbit v 8) by (rewrite Z.land_spec; rewrite Z.ones_spec_low by lia; apply andb_true_r).
        rewrite <- T. apply Z.testbit_true; [lia|]. 
        assert (Z.land v (Z.ones 9) / 2 ^ 8 = 1). { symmetry. apply Z.div_unique with (Z.land v (Z.ones 9) - 2 ^ 8); lia. }
        rewrite H. reflexivity. }
      change 0xe00 with (7 * 2 ^ 9). rewrite Z.add_comm. rewrite add_lor by lia.
      apply Z.bits_inj'. intros k Hk. rewrite Z.land_spec, !Z.lor_spec, Z.land_spec.
      assert (K : k = 0 \/ k = 1 \/ k = 2 \/ k = 3 \/ k = 4 \/ k = 5 \/ k = 6 \/ k = 7 \/ k = 8 \/ k = 9 \/ k = 10 \/ k = 11 \/ 12 <= k) by lia.
      destruct K as [-> | [-> | [-> | [-> | [-> | [-> | [-> | [-> | [-> | [-> | [-> | [-> | K]]]]]]]]]]]];
        try (rewrite ?T8; cbn; rewrite ?orb_false_r, ?andb_true_r, ?andb_false_r, ?orb_true_r; reflexivity).
      rewrite (Z.ones_spec_high 12), (Z.ones_spec_high 9) by lia.
      rewrite (small_bits_high (7 * 2 ^ 9) 12) by lia. rewrite !andb_false_r. reflexivity. }
    unfold sext at 1. cbv zeta. rewrite L, E9. change (2 ^ (12 - 1)) with 2048. change (2 ^ 12) with 4096. change (2 ^ 9) with 512 in *. 
    change (2 ^ 8) with 256 in *. replace (v mod 512 + 3584 <? 2048) with false by lia. lia.
Qed.
Lemma sljit_emit_const_ok code a s op dst v : 1 <= dst <= 29 -> code_at 4 (sljit_emit_const op dst v) a code ->
  exists s', goes code a s (a + 4 * Z.of_nat (length (sljit_emit_const op dst v))) s' /\ only s s' (reg_map dst) (const_value op v).
Proof.
  intros Hd C. destruct op; cbn [sljit_emit_const const_value length] in *.
  - apply emit_const_ok; auto.
  - rewrite hi7 in C. destruct C as (C1 & C2 & _).
    destruct (go_lu12 code a s dst Hd v C1) as (s1 & G1 & O1).
    destruct (go_ori code (a + 4) s1 dst Hd 32 v ltac:(lia) ltac:(apply O1) C2) as (s2 & G2 & O2).
    exists s2. split; [|eapply only_trans; eauto]. eapply goes_trans; [exact G1|].
    replace (a + 4 * Z.of_nat 2) with (a + 4 + 4) by lia. exact G2.
  - destruct C as (C1 & _). destruct (go_li code a s dst Hd _ C1) as (s1 & G1 & O1). exists s1. split; [exact G1|].
    unfold sxw in O1. rewrite u8val_mod in O1. exact O1.
Qed.
