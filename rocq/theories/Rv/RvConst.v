(** Rewritable constants: sljit_emit_const / sljit_set_const / sljit_set_jump_addr on RV64. *)
Require Import ZArith List Bool Lia Zify ZifyBool.
From Verif Require Import Rv.RvLib Rv.RvBits Rv.RvIsa Rv.RvEnc Rv.RvImm Rv.RvRun.
Import ListNotations.
Open Scope Z_scope.
From Verif Require Import Rv.RvImmProofs.
Local Open Scope Z_scope.
Ltac Zify.zify_post_hook ::= Z.div_mod_to_equations.

(** ** Rewritable constants *)

Lemma lui_sum d q : vreg d -> LUI .| RD d .| u32 (q * 4096) = 0x37 + reg_map d * 128 + (q mod 2 ^ 20) * 4096.
Proof.
  intros Hd. pose proof (reg_map_range d Hd). unfold RD. rewrite Z.shiftl_mul_pow2 by lia.
  rewrite (Z.lor_comm LUI). unfold LUI. rewrite <- (add_lor 7) by lia.
  unfold u32. change (2 ^ 32) with (2 ^ 20 * 4096). rewrite Zmult_mod_distr_r. rewrite Z.lor_comm.
  change 4096 with (2 ^ 12) at 2. rewrite <- (add_lor 12) by (change (2 ^ 7) with 128; change (2 ^ 12) with 4096; lia).
  change (2 ^ 7) with 128; change (2 ^ 12) with 4096. lia.
Qed.
Lemma imm_sum b v : 0 <= b < 2 ^ 20 -> b .| IMM_I v = b + (v mod 4096) * 2 ^ 20.
Proof.
  intros Hb. rewrite IMM_I_eq, Z.shiftl_mul_pow2 by lia. change (2 ^ 12) with 4096.
  rewrite Z.lor_comm, <- (add_lor 20) by lia. lia.
Qed.
Lemma RD_20 r : vreg r -> 0 <= RD r < 2 ^ 20.
Proof. intros H. pose proof (reg_map_range r H). unfold RD. rewrite Z.shiftl_mul_pow2 by lia. change (2 ^ 7) with 128. lia. Qed.
Lemma RS1_20 r : vreg r -> 0 <= RS1 r < 2 ^ 20.
Proof. intros H. pose proof (reg_map_range r H). unfold RS1. rewrite Z.shiftl_mul_pow2 by lia. change (2 ^ 15) with 32768. lia. Qed.

Lemma low16 x m : u16 ((x .& 0xfff) .| (m .& 0xf000)) = x mod 4096 + (m / 4096) mod 16 * 4096.
Proof.
  rewrite land_fff. rewrite (land_mask m 12 4) by (reflexivity || lia). change (2 ^ 12) with 4096. change (2 ^ 4) with 16.
  rewrite Z.lor_comm. change 4096 with (2 ^ 12) at 2. rewrite <- (add_lor 12) by (change (2 ^ 12) with 4096; lia).
  change (2 ^ 12) with 4096. unfold u16. rewrite Z.mod_small by lia. lia.
Qed.
Lemma hi16 x m : u16 ((x .& 0xf) .| Z.shiftl m 4) = x mod 16 + (m mod 4096) * 16.
Proof.
  rewrite (land_low x 4) by (reflexivity || lia). rewrite Z.shiftl_mul_pow2 by lia. change (2 ^ 4) with 16.
  rewrite Z.lor_comm. change 16 with (2 ^ 4) at 1. rewrite <- (add_lor 4) by (change (2 ^ 4) with 16; lia).
  unfold u16. change (2 ^ 4) with 16. change (2 ^ 16) with (4096 * 16).
  symmetry. apply Z.mod_unique with (m / 4096); lia.
Qed.
Lemma hi16' x m : u16 (Z.shiftl m 4) .| (x .& 0xf) = x mod 16 + (m mod 4096) * 16.
Proof.
  rewrite (land_low x 4) by (reflexivity || lia). unfold u16. rewrite Z.shiftl_mul_pow2 by lia. change (2 ^ 4) with 16.
  change (2 ^ 16) with (4096 * 16). rewrite Zmult_mod_distr_r. change 16 with (2 ^ 4) at 1.
  rewrite <- (add_lor 4) by (change (2 ^ 4) with 16; lia). change (2 ^ 4) with 16. lia.
Qed.

Lemma units_lui d q : vreg d -> units (P32 (LUI .| RD d .| u32 (q * 4096))) =
  [0x37 + reg_map d * 128 + (q mod 16) * 4096; (q / 16) mod 65536].
Proof.
  intros Hd. pose proof (reg_map_range d Hd). rewrite lui_sum by auto. unfold units, u16. rewrite Z.shiftr_div_pow2 by lia.
  change (2 ^ 20) with 1048576. change (2 ^ 16) with 65536.
  f_equal; [|f_equal]; lia.
Qed.
Lemma units_imm b v : 0 <= b < 2 ^ 20 -> units (P32 (b .| IMM_I v)) = [b mod 65536; b / 65536 + (v mod 4096) * 16].
Proof.
  intros Hb. rewrite imm_sum by auto. unfold units, u16. rewrite Z.shiftr_div_pow2 by lia. change (2 ^ 20) with 1048576 in *. change (2 ^ 16) with 65536.
  f_equal; [|f_equal]; lia.
Qed.

Lemma lt20_lor a b : 0 <= a < 2 ^ 20 -> 0 <= b < 2 ^ 20 -> 0 <= a .| b < 2 ^ 20.
Proof. apply lor_lt. lia. Qed.

Lemma fld_707f x : x .& 0x707f = fld x 0 7 + fld x 12 3 * 4096.
Proof.
  assert (E : x .& 0x707f = (x .& 0x7f) .| (x .& 0x7000)).
  { rewrite <- Z.land_lor_distr_r. reflexivity. }
  rewrite E. rewrite (land_low x 7), (land_mask x 12 3) by (reflexivity || lia).
  rewrite !fld_div by lia. rewrite Z.pow_0_r, Z.div_1_r. change (2 ^ 7) with 128. change (2 ^ 12) with 4096. change (2 ^ 3) with 8.
  rewrite Z.lor_comm. change 4096 with (2 ^ 12) at 2. rewrite <- (add_lor 12) by (change (2 ^ 12) with 4096; lia).
  change (2 ^ 12) with 4096. lia.
Qed.
Lemma fld_mod16 x lo n : 0 <= lo -> 0 <= n -> lo + n <= 16 -> fld (x mod 65536) lo n = fld x lo n.
Proof.
  intros. unfold fld. apply Z.bits_inj'. intros k Hk. rewrite !Z.land_spec, !Z.shiftr_spec by lia.
  change 65536 with (2 ^ 16). destruct (Z.lt_ge_cases k n).
  - rewrite Z.mod_pow2_bits_low by lia. reflexivity.
  - rewrite Z.ones_spec_high by lia. rewrite !andb_false_r. reflexivity.
Qed.

(** Rewriting the constant gives the code that would have been emitted for it. *)
Lemma set_jump_addr_emit d last v w : vreg d -> 0 <= last < 2 ^ 15 ->
  (fld last 0 7 + fld last 12 3 * 4096 = ADDI \/ fld last 0 7 + fld last 12 3 * 4096 = JALR) ->
  set_jump_addr (units_of (flat (emit_const d v last))) w = Some (units_of (flat (emit_const d w last))).
Proof.
  intros Hd Hl Hj. unfold emit_const, units_of. cbn [flat app flat_map].
  assert (T3 : vreg TMP_REG3) by vr.
  rewrite !land_hi. rewrite !units_lui by auto.
  assert (B1 : 0 <= ADDI .| RD TMP_REG3 .| RS1 TMP_REG3 < 2 ^ 20) by (vm_compute; split; congruence).
  assert (B2 : 0 <= last .| RS1 d < 2 ^ 20) by (apply lt20_lor; [lia|apply RS1_20; auto]).
  rewrite !(units_imm (ADDI .| RD TMP_REG3 .| RS1 TMP_REG3)) by auto. rewrite !(units_imm (last .| RS1 d)) by auto.
  set (hi := const_high v). set (lo := const_low v). set (hi' := const_high w). set (lo' := const_low w).
  set (X := units (P32 (SLLI .| RD TMP_REG3 .| RS1 TMP_REG3 .| IMM_I 32))).
  set (Y := units (P32 (XOR .| RD d .| RS1 d .| RS2 TMP_REG3))).
  assert (LX : exists x1 x2, X = [x1; x2]) by (unfold X, units; eauto).
  assert (LY : exists x1 x2, Y = [x1; x2]) by (unfold Y, units; eauto).
  destruct LX as (x1 & x2 & ->). destruct LY as (y1 & y2 & ->). cbn [app]. unfold set_jump_addr. fold hi' lo'.
  pose proof (reg_map_range d Hd) as Rd. pose proof (reg_map_range TMP_REG3 T3) as Rt.
  assert (A1 : (0x37 + reg_map TMP_REG3 * 128 + (hi / 4096) mod 16 * 4096) .& 0x7f =? LUI = true).
  { rewrite (land_low _ 7) by (reflexivity || lia). unfold LUI. change (2 ^ 7) with 128. lia. }
  assert (A2 : ((ADDI .| RD TMP_REG3 .| RS1 TMP_REG3) mod 65536) .& 0x707f =? ADDI = true) by (vm_compute; reflexivity).
  assert (A3 : (0x37 + reg_map d * 128 + (lo / 4096) mod 16 * 4096) .& 0x7f =? LUI = true).
  { rewrite (land_low _ 7) by (reflexivity || lia). unfold LUI. change (2 ^ 7) with 128. lia. }
  assert (A4 : (((last .| RS1 d) mod 65536) .& 0x707f =? ADDI) || (((last .| RS1 d) mod 65536) .& 0x707f =? JALR) = true).
  { rewrite fld_707f, !fld_mod16 by lia. rewrite !fld_lor, !fld_RS1_lo by lia. rewrite !Z.lor_0_r. lia. }
  rewrite A1, A2, A3, A4. cbn [andb]. f_equal. rewrite !low16, !hi16. unfold u16. rewrite !Z.shiftr_div_pow2 by lia.
  change (2 ^ 16) with 65536.
  clear A1 A2 A3 A4 Hj.
  repeat (apply f_equal2; [lia|]). reflexivity.
Qed.

(** The register value selected by [v]: what the program wants to see. *)
Definition const_value (op : const_op) (v : Z) : Z :=
  match op with
  | CMov => wrap v
  | CMov32 | CMovS32 => wrap (sext 32 v)
  | CMovU8 => wrap (sext 9 v)
  end.

(** The low part, sign extended, xor the high part moved up. *)
Lemma xor_hi L h k3 : (if L mod 2 ^ 32 <? 2 ^ 31 then h else Z.lnot h) = L / 2 ^ 32 ->
  Z.lxor (sx32 (L / 4096 * 4096)) (wrap ((h + k3 * 2 ^ 32) * 2 ^ 32)) = wrap (L / 4096 * 4096).
Proof.
  intros E1.
  unfold sx32. rewrite lxor_wrap, Z.lxor_comm. rewrite lxor_sext by lia.
  assert (Q : L / 4096 * 4096 mod 2 ^ 32 = L mod 2 ^ 32 - L mod 4096).
  { pose proof (Z.div_mod L 4096). pose proof (Z.div_mod L (2 ^ 32)). pose proof (Z.mod_pos_bound L 4096).
    pose proof (Z.mod_pos_bound L (2 ^ 32)).
    assert ((L mod 2 ^ 32) mod 4096 = L mod 4096). { rewrite <- Znumtheory.Zmod_div_mod; try lia. exists (2 ^ 20). reflexivity. }
    pose proof (Z.div_mod (L mod 2 ^ 32) 4096). pose proof (Z.mod_pos_bound (L mod 2 ^ 32) 4096).
    symmetry. apply Z.mod_unique with (L / 2 ^ 32); lia. }
  assert (C : (L / 4096 * 4096 mod 2 ^ 32 <? 2 ^ (32 - 1)) = (L mod 2 ^ 32 <? 2 ^ 31)).
  { rewrite Q. change (2 ^ (32 - 1)) with (2 ^ 31).
    assert ((L mod 2 ^ 32) mod 4096 = L mod 4096). { rewrite <- Znumtheory.Zmod_div_mod; try lia. exists (2 ^ 20). reflexivity. }
    pose proof (Z.mod_pos_bound L (2 ^ 32)). set (y := L mod 2 ^ 32) in *. clearbody y. change (2 ^ 31) with 2147483648. lia. }
  rewrite C, Q. pose proof (Z.div_mod L 4096). pose proof (Z.div_mod L (2 ^ 32)).
  destruct (L mod 2 ^ 32 <? 2 ^ 31).
  - apply wrap_eq with k3. lia.
  - apply wrap_eq with (- k3). rewrite lnot_eq in *. lia.
Qed.

(** Everything of [emit_const] up to the last instruction. *)
Lemma emit_const_prefix d v s : vreg d -> d <> 0 -> d <> TMP_REG3 ->
  exists p s', (forall last, flat (emit_const d v last) = p ++ [P32 (last .| RS1 d .| IMM_I (const_low v))]) /\
    run p s = Some s' /\ rd s' d = wrap (v - sext 12 v) /\ keeps s s' [d; TMP_REG3].
Proof.
  intros Hd D0 DT. unfold emit_const. cbn [flat app]. rewrite !land_hi.
  exists [P32 (LUI .| RD TMP_REG3 .| u32 (const_high v / 4096 * 4096));
     P32 (ADDI .| RD TMP_REG3 .| RS1 TMP_REG3 .| IMM_I (const_high v));
     P32 (LUI .| RD d .| u32 (const_low v / 4096 * 4096));
     P32 (SLLI .| RD TMP_REG3 .| RS1 TMP_REG3 .| IMM_I 32);
     P32 (XOR .| RD d .| RS1 d .| RS2 TMP_REG3)].
  eexists. split; [reflexivity|].
  destruct (u32_hi_range (const_high v)) as (U1 & U2). destruct (u32_hi_range (const_low v)) as (U3 & U4).
  st; [|vr|auto|auto]. st. st; [|vr|auto|auto]. st. st. cbn [run]. split; [reflexivity|]. split; [|kp].
  rds. cbn [alui alu alush].
  rewrite !sx32_u32.
  set (L := const_low v). set (H := const_high v).
  (* the low part *)
  assert (EL : exists k, L / 4096 * 4096 = v - sext 12 v + k * 2 ^ 64).
  { unfold L, const_low. rewrite land_800, sext12. destruct (v mod 4096 <? 2048) eqn:E; cbn [negb].
    - exists 0. lia.
    - unfold sw. destruct (sext_mod 64 (v + 0x1000) ltac:(lia)) as (k & K). exists (- k).
      set (x := sext 64 (v + 4096)) in *. clearbody x.
      assert (M : x mod 4096 = v mod 4096).
      { replace x with (v + (1 - k * 2 ^ 52) * 4096) by lia. apply Z_mod_plus_full. }
      pose proof (Z.div_mod x 4096). lia. }
  (* the high part *)
  assert (EH : exists h k, (if L mod 2 ^ 32 <? 2 ^ 31 then h else Z.lnot h) = L / 2 ^ 32 /\
     H / 4096 * 4096 + sext 12 H = h + k * 2 ^ 32).
  { exists (if L mod 2 ^ 32 <? 2 ^ 31 then L / 2 ^ 32 else Z.lnot (L / 2 ^ 32)), 0. split.
    - destruct (_ <? _); auto. apply Z.lnot_involutive.
    - unfold H, const_high. fold L. rewrite land_800, land_80000000, Z.shiftr_div_pow2 by lia.
      set (h := if negb (L mod 2 ^ 32 <? 2 ^ 31) then Z.lnot (L / 2 ^ 32) else L / 2 ^ 32).
      replace (if L mod 2 ^ 32 <? 2 ^ 31 then L / 2 ^ 32 else Z.lnot (L / 2 ^ 32)) with h by (unfold h; destruct (_ <? _); reflexivity).
      rewrite sext12. clearbody h. destruct (h mod 4096 <? 2048) eqn:E; cbn [negb].
      + rewrite E. lia.
      + replace ((h + 4096) mod 4096) with (h mod 4096) by lia. rewrite E. lia. }
  destruct EL as (k1 & EL). destruct EH as (h & k2 & E1 & E2).
  assert (ET : exists k, wrap (sx32 (H / 4096 * 4096) + sext 12 H) = wrap (h + k * 2 ^ 32)).
  { unfold sx32. rewrite wrap_add_l. destruct (sext_mod 32 (H / 4096 * 4096) ltac:(lia)) as (k & K).
    exists (k2 - k). f_equal. lia. }
  destruct ET as (k3 & ET). rewrite ET, wrap_mul_l. rewrite (xor_hi L h k3) by auto. apply wrap_eq with k1. lia.
Qed.

Lemma run_last p last b v s s' : run p s = Some s' ->
  run (p ++ [P32 (last .| RS1 b .| IMM_I v)]) s = run [P32 (last .| RS1 b .| IMM_I v)] s'.
Proof. intros R. apply (run_app _ _ _ _ R). Qed.

Lemma const_u8_value v : sext 12 (const_u8 v) = sext 9 v.
Proof.
  unfold const_u8. rewrite (bit_test v 8) by (reflexivity || lia). change (2 ^ (8 + 1)) with 512. change (2 ^ 8) with 256.
  assert (S9 : sext 9 v = if v mod 512 <? 256 then v mod 512 else v mod 512 - 512) by reflexivity. rewrite S9.
  destruct (v mod 512 <? 256) eqn:C; cbn [negb].
  - rewrite (land_low v 8) by (reflexivity || lia). change (2 ^ 8) with 256. rewrite sext12_small by lia. lia.
  - assert (E : (v .| 0xf00) mod 4096 = v mod 256 + 3840).
    { rewrite <- land_fff, Z.land_lor_distr_l. change (0xf00 .& 0xfff) with (15 * 2 ^ 8).
      replace (v .& 0xfff) with ((v mod 256) .| ((v / 256) mod 16 * 2 ^ 8)).
      - rewrite Z.lor_comm, Z.lor_assoc.
        replace (15 * 2 ^ 8 .| v mod 256 .| (v / 256) mod 16 * 2 ^ 8) with ((15 * 2 ^ 8 .| (v / 256) mod 16 * 2 ^ 8) .| v mod 256).
        2:{ rewrite <- !Z.lor_assoc. f_equal. apply Z.lor_comm. }
        rewrite <- !Z.shiftl_mul_pow2 by lia. rewrite <- Z.shiftl_lor. rewrite Z.shiftl_mul_pow2 by lia.
        assert (F : forallb (fun x => (15 .| x) =? 15) (upto 16) = true) by (vm_compute; reflexivity).
        rewrite forallb_forall in F. specialize (F ((v / 256) mod 16)). rewrite Z.eqb_eq in F. rewrite F by (apply upto_in; lia).
        rewrite <- add_lor by (change (2 ^ 8) with 256; lia). change (2 ^ 8) with 256. lia.
      - rewrite land_fff. rewrite Z.lor_comm, <- add_lor by (change (2 ^ 8) with 256; lia). change (2 ^ 8) with 256. lia. }
    unfold sext. cbv zeta. change (2 ^ 12) with 4096. rewrite E. change (2 ^ (12 - 1)) with 2048.
    assert ((v mod 256 + 3840 <? 2048) = false) by lia. rewrite H. lia.
Qed.

Lemma const_s32_mod v : const_s32 v mod 4096 = v mod 4096 /\ const_s32 v / 4096 = if v mod 4096 <? 2048 then v / 4096 else Z.lnot (v / 4096).
Proof.
  unfold const_s32. rewrite land_800. destruct (v mod 4096 <? 2048) eqn:C; cbn [negb]; [auto|].
  assert (E : Z.lxor v (Z.lnot 0xfff) = Z.lnot (v / 4096) * 4096 + v mod 4096).
  { pose proof (Z.div_mod v 4096). replace v with (v / 4096 * 2 ^ 12 + v mod 4096) at 1 by lia.
    change (Z.lnot 0xfff) with (-1 * 2 ^ 12 + 0). rewrite lxor_parts by (change (2 ^ 12) with 4096; lia).
    rewrite Z.lxor_m1_r, Z.lxor_0_r. reflexivity. }
  rewrite E. lia.
Qed.
Lemma emit_s32_ok d v s : vreg d -> d <> 0 ->
  exists s', run (flat (emit_const_op CMovS32 d v)) s = Some s' /\ rd s' d = wrap (sext 32 v) /\ keeps s s' [d].
Proof.
  intros Hd D0. cbn [emit_const_op]. cbv zeta. destruct (const_s32_mod v) as (M & Q). rewrite land_hi. cbn [flat app].
  destruct (u32_hi_range (const_s32 v)) as (U1 & U2). st; [|auto|auto|auto]. st. cbn [run]. ss. rds. split; [|kp]. cbn [alui].
  rewrite sx32_u32. unfold sx32. set (c := const_s32 v) in *.
  destruct (sext_mod 32 (c / 4096 * 4096) ltac:(lia)) as (k & K).
  replace (sext 32 (c / 4096 * 4096)) with ((c / 4096 - k * 2 ^ 20) * 4096) by lia.
  rewrite xori12, M, Q. f_equal.
  pose proof (sext_range 32 (c / 4096 * 4096) ltac:(lia)) as R. rewrite Q in K, R.
  change (2 ^ (32 - 1)) with 2147483648 in R. change (2 ^ 32) with 4294967296 in K. change (2 ^ 20) with 1048576.
  set (X := sext 32 _) in *. clearbody X. pose proof (Z.div_mod v 4096).
  destruct (v mod 4096 <? 2048); symmetry; rewrite ?lnot_eq in *.
  - apply sext_unique with k; [lia| |]. 2: change (2 ^ 32) with 4294967296; lia. change (2 ^ (32 - 1)) with 2147483648. lia.
  - apply sext_unique with (- k); [lia| |]. 2: change (2 ^ 32) with 4294967296; lia. change (2 ^ (32 - 1)) with 2147483648. lia.
Qed.

(** The ADDI without a source register field reads the zero register. *)
Lemma addi_norS1 d i : ADDI .| RD d .| IMM_I i = ADDI .| RD d .| RS1 0 .| IMM_I i.
Proof. change (RS1 0) with 0. rewrite Z.lor_0_r. reflexivity. Qed.

Theorem emit_const_op_ok op d v s : vreg d -> d <> 0 -> d <> TMP_REG3 ->
  exists s', run (flat (emit_const_op op d v)) s = Some s' /\ rd s' d = const_value op v /\ keeps s s' [d; TMP_REG3].
Proof.
  intros Hd D0 D3. destruct op; cbn [emit_const_op const_value].
  - destruct (emit_const_prefix d v s Hd D0 D3) as (p & s1 & F & R & V & K). rewrite F, run_last with (s' := s1) by auto.
    st. cbn [run]. ss. rds. split.
    + cbn [alui]. rewrite V, wrap_add_l. f_equal.
      assert (E : sext 12 (const_low v) = sext 12 v).
      { unfold const_low. rewrite land_800. destruct (v mod 4096 <? 2048); cbn [negb]; [reflexivity|].
        unfold sw. destruct (sext_mod 64 (v + 0x1000) ltac:(lia)) as (k & E). apply sext_eq with (1 - k * 2 ^ 52); lia. }
      rewrite E. lia.
    + apply (keeps_trans s s1 _ [d; TMP_REG3] [d] _); [exact K|kp|apply incl_refl|]. intros x [<-|[]]. left; auto.
  - destruct (emit_s32_ok d v s Hd D0) as (s' & R & V & K). exists s'. split; [exact R|]. split; [exact V|].
    eapply keeps_trans; [exact K|apply keeps_refl with (w := [])| |]; intros x Hx; cbn in *; tauto.
  - destruct (emit_s32_ok d v s Hd D0) as (s' & R & V & K). exists s'. split; [exact R|]. split; [exact V|].
    eapply keeps_trans; [exact K|apply keeps_refl with (w := [])| |]; intros x Hx; cbn in *; tauto.
  - cbn [flat]. rewrite addi_norS1. st. cbn [run]. ss. rds. split; [|kp]. cbn [alui]. rewrite Z.add_0_l, const_u8_value. reflexivity.
Qed.

Lemma set_const_emit op d v w : vreg d -> d <> TMP_REG3 ->
  set_const op (units_of (flat (emit_const_op op d v))) w = Some (units_of (flat (emit_const_op op d w))).
Proof.
  intros Hd D3.
  assert (S32 : set_const CMovS32 (units_of (flat (emit_const_op CMovS32 d v))) w = Some (units_of (flat (emit_const_op CMovS32 d w)))).
  { unfold emit_const_op, set_const, units_of. cbv zeta. cbn [flat app flat_map]. rewrite !land_hi. rewrite !units_lui by auto.
    pose proof (RD_20 d Hd). pose proof (RS1_20 d Hd).
    assert (B : 0 <= XORI .| RD d .| RS1 d < 2 ^ 20).
    { apply lt20_lor; [|auto]. apply lt20_lor; [unfold XORI; lia|auto]. }
    rewrite !(units_imm (XORI .| RD d .| RS1 d)) by auto. cbn [app].
    pose proof (reg_map_range d Hd).
    assert (A1 : (0x37 + reg_map d * 128 + (const_s32 v / 4096) mod 16 * 4096) .& 0x7f =? LUI = true).
    { rewrite (land_low _ 7) by (reflexivity || lia). unfold LUI. change (2 ^ 7) with 128. lia. }
    assert (A2 : ((XORI .| RD d .| RS1 d) mod 65536) .& 0x707f =? XORI = true).
    { rewrite fld_707f, !fld_mod16 by lia. flds. reflexivity. }
    rewrite A1, A2. cbn [andb]. f_equal. rewrite low16, hi16'. unfold u16. rewrite !Z.shiftr_div_pow2 by lia.
    change (2 ^ 16) with 65536. set (b := (XORI .| RD d .| RS1 d)) in *. clearbody b. change (2 ^ 20) with 1048576 in *.
    repeat (apply f_equal2; [lia|]). reflexivity. }
  destruct op.
  - cbn [emit_const_op set_const].
    pose proof (reg_map_range d Hd).
    apply set_jump_addr_emit; auto.
    + apply lor_lt; [lia|unfold ADDI; lia|]. unfold RD. rewrite Z.shiftl_mul_pow2 by lia. change (2 ^ 7) with 128. lia.
    + left. flds. reflexivity.
  - exact S32.
  - exact S32.
  - unfold emit_const_op, set_const, units_of. cbn [flat app flat_map].
    pose proof (RD_20 d Hd).
    assert (B : 0 <= ADDI .| RD d < 2 ^ 20).
    { apply lt20_lor; [unfold ADDI; lia|auto]. }
    rewrite !(units_imm (ADDI .| RD d)) by auto. cbn [app].
    assert (A2 : ((ADDI .| RD d) mod 65536) .& 0x707f =? ADDI = true).
    { rewrite fld_707f, !fld_mod16 by lia. flds. reflexivity. }
    rewrite A2. f_equal. rewrite hi16'. set (b := (ADDI .| RD d)) in *. clearbody b. change (2 ^ 20) with 1048576 in *.
    repeat (apply f_equal2; [lia|]). reflexivity.
Qed.

(** A history of [sljit_set_const] calls on a constant emitted with [init]. *)
Fixpoint set_consts (op : const_op) (inst : list Z) (vs : list Z) : option (list Z) :=
  match vs with
  | [] => Some inst
  | v :: vs => match set_const op inst v with Some i => set_consts op i vs | None => None end
  end.
Lemma set_consts_emit op d vs : forall v, vreg d -> d <> TMP_REG3 ->
  set_consts op (units_of (flat (emit_const_op op d v))) vs = Some (units_of (flat (emit_const_op op d (last vs v)))).
Proof.
  induction vs as [|w vs IH]; intros v Hd D3; cbn [set_consts]; [reflexivity|].
  rewrite set_const_emit by auto. rewrite IH by auto. do 4 f_equal. clear.
  revert w. induction vs as [|x vs IH]; intros w; [reflexivity|]. change (last (w :: x :: vs) v) with (last (x :: vs) v).
  change (last (x :: vs) w) with (match vs with [] => x | _ => last vs w end).
  change (last (x :: vs) v) with (match vs with [] => x | _ => last vs v end).
  destruct vs; auto. clear. revert z. induction vs; intros; cbn in *; auto.
Qed.
