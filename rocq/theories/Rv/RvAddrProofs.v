(** Proofs about load_addr_to_reg: every form loads its target. *)
Require Import ZArith List Bool Lia Zify ZifyBool.
From Verif Require Import Rv.RvLib Rv.RvBits Rv.RvIsa Rv.RvEnc Rv.RvImm Rv.RvRun Rv.RvImmProofs Rv.RvConst Rv.RvAddr Rv.RvCtl.
Import ListNotations.
Open Scope Z_scope.
Ltac Zify.zify_post_hook ::= Z.div_mod_to_equations.

(** The targets each form is meant for (detect_jump_type, mov_addr_get_length), except that PATCH_ABS52 is
    limited to targets below 0x7fffffffff800. *)
Definition range_ok (p : patch) (addr buf : Z) : Prop :=
  match p with
  | PRel32 => S32_MIN <= sw (addr - buf) <= S32_MAX
  | PAbs32 => 0 <= addr <= S32_MAX
  | PAbs44 => 0 <= addr <= S44_MAX
  | PAbs52 => 0 <= addr < 0x7fffffffff800
  | _ => -2 ^ 63 <= addr < 2 ^ 63
  end.

Lemma units32 l : length (units_of (map P32 l)) = (2 * length l)%nat.
Proof. induction l; cbn; [reflexivity|]. unfold units_of in IHl. rewrite IHl. lia. Qed.

Definition la_adj (addr : Z) : Z := if negb (addr .& 0x800 =? 0) then sw (addr + 0x1000) else addr.

Lemma la_adj_low addr : exists k, la_adj addr / 4096 * 4096 + sext 12 (la_adj addr) = addr + k * 2 ^ 64.
Proof.
  unfold la_adj. rewrite land_800. destruct (addr mod 4096 <? 2048) eqn:E; cbn [negb].
  - exists 0. rewrite sext12, E. lia.
  - unfold sw. destruct (sext_mod 64 (addr + 0x1000) ltac:(lia)) as (k & K).
    set (x := sext 64 (addr + 4096)) in *. clearbody x.
    assert (M : x mod 4096 = addr mod 4096).
    { replace x with (addr + (1 - k * 2 ^ 52) * 4096) by lia. apply Z_mod_plus_full. }
    exists (- k). rewrite sext12, M, E. lia.
Qed.
Lemma la_adj_small addr : -2 ^ 63 <= addr < 2 ^ 63 - 4096 ->
  la_adj addr / 4096 * 4096 + sext 12 (la_adj addr) = addr /\ addr <= la_adj addr <= addr + 4096 /\
  (addr mod 4096 < 2048 -> la_adj addr = addr).
Proof.
  intros H. unfold la_adj. rewrite land_800. destruct (addr mod 4096 <? 2048) eqn:E; cbn [negb].
  - rewrite sext12, E. lia.
  - unfold sw. rewrite sext_small by lia. rewrite sext12. replace ((addr + 4096) mod 4096) with (addr mod 4096) by lia. rewrite E. lia.
Qed.

(** Everything before the last instruction; [words] of the straight-line forms. *)
Lemma load_addr_pre p reg addr buf s :
  p <> PRel32 -> vreg reg -> reg <> 0 -> reg <> TMP_REG3 -> range_ok p addr buf ->
  exists pre A s1, (forall mov call, load_addr p mov call reg addr buf = pre ++ [last_ins mov call reg A]) /\
    run (map P32 pre) s = Some s1 /\ wrap (rd s1 reg + sext 12 A) = wrap addr /\ keeps s s1 [reg; TMP_REG3].
Proof.
  intros NP Hr R0 R3 Rg.
  assert (Gen : -2 ^ 63 <= addr < 2 ^ 63 -> exists pre A s1, (forall mov call, load_addr PNone mov call reg addr buf = pre ++ [last_ins mov call reg A]) /\
    run (map P32 pre) s = Some s1 /\ wrap (rd s1 reg + sext 12 A) = wrap addr /\ keeps s s1 [reg; TMP_REG3]).
  { intros Ha. destruct (emit_const_prefix reg addr s Hr R0 R3) as (q & s1 & F & R & V & K).
    unfold load_addr. fold (la_adj addr). cbv zeta.
    eexists [_; _; _; _; _], (la_adj addr), s1. split; [intros; reflexivity|].
    assert (Q : q = map P32 [LUI .| RD TMP_REG3 .| u32 (const_high addr .& Z.lnot 0xfff); ADDI .| RD TMP_REG3 .| RS1 TMP_REG3 .| IMM_I (const_high addr);
       LUI .| RD reg .| u32 (const_low addr .& Z.lnot 0xfff); SLLI .| RD TMP_REG3 .| RS1 TMP_REG3 .| IMM_I 32; XOR .| RD reg .| RS1 reg .| RS2 TMP_REG3]).
    { specialize (F 0). unfold emit_const in F. cbn [flat app] in F.
      match type of F with ?a = _ => change a with ([P32 (LUI .| RD TMP_REG3 .| u32 (const_high addr .& Z.lnot 0xfff));
         P32 (ADDI .| RD TMP_REG3 .| RS1 TMP_REG3 .| IMM_I (const_high addr));
         P32 (LUI .| RD reg .| u32 (const_low addr .& Z.lnot 0xfff)); P32 (SLLI .| RD TMP_REG3 .| RS1 TMP_REG3 .| IMM_I 32);
         P32 (XOR .| RD reg .| RS1 reg .| RS2 TMP_REG3)] ++ [P32 (0 .| RS1 reg .| IMM_I (const_low addr))]) in F end.
      apply app_inj_tail in F. destruct F as (F & _). symmetry. exact F. }
    split; [|split; [|exact K]].
    - rewrite Q in R. exact R.
    - rewrite V, wrap_add_l. destruct (la_adj_low addr) as (k & E). change (la_adj addr) with (const_low addr) in *. f_equal.
      unfold const_low. rewrite land_800. destruct (addr mod 4096 <? 2048) eqn:E1; cbn [negb]; [lia|].
      unfold sw. destruct (sext_mod 64 (addr + 0x1000) ltac:(lia)) as (k2 & K2).
      assert (X : sext 12 (sext 64 (addr + 4096)) = sext 12 addr) by (apply sext_eq with (1 - k2 * 2 ^ 52); lia).
      rewrite X. lia. }
  destruct p; try congruence; cbn [range_ok] in Rg.
  - apply Gen; auto.
  - destruct (Gen Rg) as (pre & A & s1 & G). exists pre, A, s1. exact G.
  - destruct (Gen Rg) as (pre & A & s1 & G). exists pre, A, s1. exact G.
  - destruct (Gen Rg) as (pre & A & s1 & G). exists pre, A, s1. exact G.
  - destruct (Gen Rg) as (pre & A & s1 & G). exists pre, A, s1. exact G.
  - (* ABS32 *)
    unfold S32_MAX in Rg. destruct (la_adj_small addr ltac:(lia)) as (E1 & E2 & E3).
    unfold load_addr. fold (la_adj addr). cbv zeta. eexists [_], (la_adj addr), _. split; [intros; reflexivity|].
    cbn [map]. rewrite land_hi. destruct (u32_hi_range (la_adj addr)) as (U1 & U2). st; [|auto|auto|auto]. cbn [run].
    split; [reflexivity|]. split; [|kp]. rds. rewrite sx32_u32, sx32_small by lia. rewrite wrap_add_l. f_equal. exact E1.
  - (* ABS44 *)
    unfold S44_MAX in Rg. destruct (la_adj_small addr ltac:(lia)) as (E1 & E2 & E3).
    unfold load_addr. fold (la_adj addr). cbv zeta. set (A := la_adj addr) in *. clearbody A.
    rewrite Z.shiftr_div_pow2 by lia. change (2 ^ 12) with 4096.
    assert (HB : 0 <= A / 4096 <= 0x7fffffff) by lia.
    destruct (A / 4096 >? S32_MAX) eqn:C; unfold S32_MAX in C.
    + eexists [_; _; _], A, _. split; [intros; reflexivity|]. cbn [map]. st; [|auto|lia|reflexivity]. st. st. cbn [run].
      split; [reflexivity|]. split; [|kp]. rds. cbn [alui alush]. change (sx32 0x80000000) with (wrap (-0x80000 * 4096)). rewrite xori12.
      replace ((A / 4096) mod 4096 <? 2048) with false by lia. change (Z.lnot (-0x80000)) with 0x7ffff.
      rewrite wrap_mul_l, wrap_add_l. f_equal. change (2 ^ 12) with 4096. lia.
    + rewrite land_800.
      set (H := if negb ((A / 4096) mod 4096 <? 2048) then A / 4096 + 4096 else A / 4096).
      assert (EH : H / 4096 * 4096 + sext 12 H = A / 4096 /\ 0 <= H <= 0x7fffffff).
      { unfold H. rewrite sext12. destruct ((A / 4096) mod 4096 <? 2048) eqn:C1; cbn [negb].
        - rewrite C1. lia.
        - replace ((A / 4096 + 4096) mod 4096) with ((A / 4096) mod 4096) by lia. rewrite C1. lia. }
      clearbody H. destruct EH as (EH & BH). rewrite land_hi.
      eexists [_; _; _], A, _. split; [intros; reflexivity|]. cbn [map]. destruct (u32_hi_range H) as (U1 & U2).
      st; [|auto|auto|auto]. st. st. cbn [run]. split; [reflexivity|]. split; [|kp]. rds. cbn [alui alush].
      rewrite sx32_u32, sx32_small by lia. rewrite (wrap_add_l (H / 4096 * 4096)), EH, wrap_mul_l, wrap_add_l. f_equal. change (2 ^ 12) with 4096. lia.
  - (* ABS52 *)
    destruct (la_adj_small addr ltac:(lia)) as (E1 & E2 & E3).
    unfold load_addr. fold (la_adj addr). cbv zeta. set (A := la_adj addr) in *.
    assert (BA : 0 <= A <= S52_MAX).
    { unfold S52_MAX. destruct (Z.lt_ge_cases (addr mod 4096) 2048); [rewrite E3 by auto|]; lia. }
    clearbody A. unfold S52_MAX in BA.
    rewrite Z.shiftr_div_pow2 by lia. rewrite land_80000000.
    set (H := if negb (A mod 2 ^ 32 <? 2 ^ 31) then Z.lnot (A / 2 ^ 32) else A / 2 ^ 32).
    assert (EH : (if A mod 2 ^ 32 <? 2 ^ 31 then H else Z.lnot H) = A / 2 ^ 32 /\ -0x80000 <= H <= 0x7ffff).
    { unfold H. destruct (A mod 2 ^ 32 <? 2 ^ 31); cbn [negb]; rewrite ?Z.lnot_involutive, ?lnot_eq; change (2 ^ 32) with 4294967296; lia. }
    clearbody H. destruct EH as (EH & BH). rewrite land_hi.
    eexists [_; _; _; _], A, _. split; [intros; reflexivity|]. cbn [map].
    destruct (u32_hi_range A) as (U1 & U2). destruct (u32_hi_range (Z.shiftl H 12)) as (U3 & U4).
    assert (SH : Z.shiftl H 12 / 4096 * 4096 = Z.shiftl H 12) by (rewrite Z.shiftl_mul_pow2 by lia; change (2 ^ 12) with 4096; lia).
    rewrite SH in U3, U4.
    st; [|vr|auto|auto]. st; [|vr|auto|auto]. st. st. cbn [run]. split; [reflexivity|]. split; [|kp]. rds. cbn [alui alush alu].
    rewrite !sx32_u32. rewrite Z.shiftl_mul_pow2 by lia. rewrite (sx32_small (H * 2 ^ 12)) by (change (2 ^ 12) with 4096; lia).
    rewrite wrap_mul_l. replace (H * 2 ^ 12 * 2 ^ 20) with ((H + 0 * 2 ^ 32) * 2 ^ 32) by lia.
    rewrite (xor_hi A H 0 EH), wrap_add_l. f_equal. exact E1.
Qed.

Lemma same_but_trans s s1 s2 w1 w2 w : same_but s s1 w1 -> same_but s1 s2 w2 -> incl w1 w -> incl w2 w -> same_but s s2 w.
Proof.
  intros (A1 & A2 & A3) (B1 & B2 & B3) I1 I2. split; [congruence|split; [congruence|]].
  intros x Hx N. rewrite B3, A3; auto.
  - intros I. apply N. apply in_map_iff in I. destruct I as (y & <- & I). apply in_map. auto.
  - intros I. apply N. apply in_map_iff in I. destruct I as (y & <- & I). apply in_map. auto.
Qed.
Lemma units_of_app l1 l2 : units_of (l1 ++ l2) = units_of l1 ++ units_of l2.
Proof. apply flat_map_app. Qed.

(** In machine terms, with the PC relative form. *)
Lemma load_addr_pre_m p reg addr buf code s :
  vreg reg -> reg <> 0 -> reg <> TMP_REG3 -> range_ok p addr buf -> isw (pc s) -> (p = PRel32 -> wrap buf = pc s) ->
  exists pre A, (forall mov call, load_addr p mov call reg addr buf = pre ++ [last_ins mov call reg A]) /\
    (code_at code (pc s) (units_of (map P32 pre)) ->
     exists s1, steps code s s1 /\ pc s1 = wrap (pc s + 4 * Z.of_nat (length pre)) /\
       wrap (rd s1 reg + sext 12 A) = wrap addr /\ same_but s s1 [reg; TMP_REG3]).
Proof.
  intros Hr R0 R3 Rg Wp Hb. assert (D : p = PRel32 \/ p <> PRel32) by (destruct p; auto; right; discriminate). destruct D as [->|NP].
  - cbn [range_ok] in Rg. unfold S32_MIN, S32_MAX in Rg. set (d := sw (addr - buf)) in *.
    destruct (la_adj_small d ltac:(lia)) as (E1 & E2 & E3).
    unfold load_addr. fold d. fold (la_adj d). cbv zeta. set (A := la_adj d) in *.
    exists [AUIPC .| RD reg .| u32 (A .& Z.lnot 0xfff)], A. split; [intros; reflexivity|]. intros C. rewrite land_hi in C.
    destruct (u32_hi_range A) as (U1 & U2).
    cbn [map units_of flat_map] in C. rewrite app_nil_r in C.
    eexists. split.
    { apply steps_one. eapply step_piece; [apply (decode_auipc reg (u32 (A / 4096 * 4096)) Hr U1 U2)|exact Wp|exact C|]. reflexivity. }
    change (setr s (reg_map reg)) with (wr s reg).
    split; [reflexivity|]. split.
    + assert (R : forall v q, rd (setpc (wr s reg v) q) reg = v). { intros. change (rd (setpc (wr s reg v) q) reg) with (rd (wr s reg v) reg). apply rd_wr_same; auto. }
      rewrite R. rewrite wrap_add_l.
      assert (X : sext 32 (u32 (A / 4096 * 4096)) = A / 4096 * 4096).
      { unfold u32. rewrite sext_mod_id by lia. apply sext_small; lia. }
      rewrite X. unfold d, sw in E1. destruct (sext_mod 64 (addr - buf) ltac:(lia)) as (k & K).
      specialize (Hb eq_refl). rewrite <- Hb. unfold wrap at 2. pose proof (Z.div_mod buf (2 ^ 64)).
      apply wrap_eq with (- k - (buf / 2 ^ 64)). lia.
    + split; [|split].
      * cbn. apply mem_wr.
      * cbn. apply fregs_wr.
      * intros x Hx N. cbn [map In] in N. destruct (reg_map_all x Hx) as (r & Vr & <-).
        change (rd (wr s reg (wrap (pc s + sext 32 (u32 (A / 4096 * 4096))))) r = rd s r). apply rd_wr_other; auto. intros ->. apply N. auto.
  - destruct (load_addr_pre p reg addr buf s NP Hr R0 R3 Rg) as (pre & A & s1 & F & R & V & K).
    exists pre, A. split; [exact F|]. intros C.
    destruct (run_machine code _ s s1 _ R K Wp C) as (s2 & S & P & SB & RD2).
    exists s2. split; [exact S|]. split; [rewrite P, units32; f_equal; lia|]. split; [rewrite RD2; exact V|exact SB].
Qed.

Definition last_len (l : list Z) : Z := 4 * Z.of_nat (length l).

(** JUMP_MOV_ADDR: the register gets the address. *)
Theorem load_addr_mov_ok p reg addr buf code s call :
  vreg reg -> reg <> 0 -> reg <> TMP_REG3 -> range_ok p addr buf -> isw (pc s) -> (p = PRel32 -> wrap buf = pc s) ->
  code_at code (pc s) (units_of (map P32 (load_addr p true call reg addr buf))) ->
  exists s', steps code s s' /\ pc s' = wrap (pc s + last_len (load_addr p true call reg addr buf)) /\
    rd s' reg = wrap addr /\ same_but s s' [reg; TMP_REG3].
Proof.
  intros Hr R0 R3 Rg Wp Hb C.
  destruct (load_addr_pre_m p reg addr buf code s Hr R0 R3 Rg Wp Hb) as (pre & A & F & G).
  rewrite F in *. rewrite map_app, units_of_app in C. apply code_at_app in C. destruct C as (C1 & C2).
  destruct (G C1) as (s1 & S1 & P1 & V1 & K1).
  cbn [map last_ins] in C2. rewrite units32 in C2.
  assert (W1 : isw (pc s1)) by (rewrite P1; apply wrap_isw).
  assert (C3 : code_at code (pc s1) (units_of [P32 (ADDI .| RD reg .| RS1 reg .| IMM_I A)])).
  { rewrite P1, code_at_wrap. replace (4 * Z.of_nat (length pre)) with (2 * Z.of_nat (2 * length pre)) by lia. exact C2. }
  assert (R : run [P32 (ADDI .| RD reg .| RS1 reg .| IMM_I A)] s1 = Some (wr s1 reg (wrap (rd s1 reg + sext 12 A)))) by (st; reflexivity).
  destruct (run_machine code _ s1 _ [reg] R) as (s2 & S2 & P2 & K2 & RD2); auto. { kp. }
  exists s2. split; [eapply steps_trans; eauto|]. split.
  { rewrite P2, P1, wrap_add_l. f_equal. unfold last_len. rewrite app_length. cbn [units_of flat_map units app length]. lia. }
  split.
  - rewrite RD2, rd_wr_same by auto. exact V1.
  - eapply same_but_trans; [exact K1|exact K2|apply incl_refl|]. intros x [<-|[]]. left; auto.
Qed.

Lemma last_ins_jalr call reg A : last_ins false call reg A = JALR .| RD (if call then RETURN_ADDR_REG else TMP_ZERO) .| RS1 reg .| IMM_I A.
Proof.
  unfold last_ins. destruct call.
  - rewrite <- !Z.lor_assoc. f_equal. rewrite (Z.lor_assoc (RS1 reg)), (Z.lor_comm (RS1 reg .| IMM_I A)). reflexivity.
  - change (RD TMP_ZERO) with 0. rewrite !Z.lor_0_r. reflexivity.
Qed.

(** Otherwise the code jumps there; a call leaves the return address in the return address register. *)
Theorem load_addr_jump_ok p reg addr buf code s call :
  vreg reg -> reg <> 0 -> reg <> TMP_REG3 -> range_ok p addr buf -> isw (pc s) -> (p = PRel32 -> wrap buf = pc s) ->
  code_at code (pc s) (units_of (map P32 (load_addr p false call reg addr buf))) -> addr mod 2 = 0 ->
  exists s', steps code s s' /\ pc s' = wrap addr /\
    (call = true -> rd s' RETURN_ADDR_REG = wrap (pc s + last_len (load_addr p false call reg addr buf))) /\
    same_but s s' (reg :: TMP_REG3 :: if call then [RETURN_ADDR_REG] else []).
Proof.
  intros Hr R0 R3 Rg Wp Hb C Ev.
  destruct (load_addr_pre_m p reg addr buf code s Hr R0 R3 Rg Wp Hb) as (pre & A & F & G).
  rewrite F in *. rewrite map_app, units_of_app in C. apply code_at_app in C. destruct C as (C1 & C2).
  destruct (G C1) as (s1 & S1 & P1 & V1 & K1).
  cbn [map] in C2. rewrite units32, last_ins_jalr in C2. cbn [units_of flat_map] in C2. rewrite app_nil_r in C2.
  assert (W1 : isw (pc s1)) by (rewrite P1; apply wrap_isw).
  set (d := if call then RETURN_ADDR_REG else TMP_ZERO) in *.
  assert (Vd : vreg d) by (unfold d, vreg, RETURN_ADDR_REG, TMP_ZERO, TMP_REG2; destruct call; vm_compute; intuition congruence).
  assert (C3 : code_at code (pc s1) (units (P32 (JALR .| RD d .| RS1 reg .| IMM_I A)))).
  { rewrite P1, code_at_wrap. replace (4 * Z.of_nat (length pre)) with (2 * Z.of_nat (2 * length pre)) by lia. exact C2. }
  assert (ST : step code s1 = Some (setpc (wr s1 d (wrap (pc s1 + 4))) (wrap addr))).
  { eapply step_piece; [exact (decode_jalr d reg A Vd Hr)|exact W1|exact C3|]. cbn [exec units length].
    change (2 * Z.of_nat 2) with 4. change (getr s1 (reg_map reg)) with (rd s1 reg). rewrite V1. unfold wr.
    do 2 f_equal. change (2 ^ 64 - 2) with ((2 ^ 63 - 1) * 2 ^ 1). rewrite (land_mask _ 1 63) by (reflexivity || lia).
    pose proof (wrap_isw addr). unfold isw in *. assert (wrap addr mod 2 = 0).
    { unfold wrap. rewrite <- Znumtheory.Zmod_div_mod; try lia. exists (2 ^ 63). reflexivity. }
    change (2 ^ 1) with 2. rewrite (Z.mod_small (wrap addr / 2)); lia. }
  eexists. split; [eapply steps_trans; [exact S1|apply steps_one; exact ST]|]. split; [reflexivity|]. split.
  - intros ->. cbn [d] in *. change (rd (wr s1 RETURN_ADDR_REG (wrap (pc s1 + 4))) RETURN_ADDR_REG = wrap (pc s + last_len (pre ++ [last_ins false true reg A]))).
    rewrite rd_wr_same by (vr || nq). rewrite P1, wrap_add_l. f_equal. unfold last_len. rewrite app_length. cbn [length]. lia.
  - eapply same_but_trans; [exact K1| | |apply incl_refl].
    + split; [|split].
      * cbn. apply mem_wr.
      * cbn. apply fregs_wr.
      * intros x Hx N. destruct (reg_map_all x Hx) as (r & Vr & <-).
        change (rd (wr s1 d (wrap (pc s1 + 4))) r = rd s1 r). unfold d in *. destruct call.
        -- apply rd_wr_other; auto. intros ->. apply N. cbn. auto.
        -- unfold wr, setr. reflexivity.
    + intros x I. cbn in I. cbn. tauto.
Qed.

(** ** Rewritable jumps and address loads *)

(** Units of a rewritable jump, call or address load: the form without any PATCH flag. *)
Definition rewritable_units (mov call : bool) (reg addr : Z) : list Z := units_of (map P32 (load_addr PNone mov call reg addr 0)).

(** A history of sljit_set_jump_addr calls (sljitNativeRISCV_64.c:258-291) on the same jump. *)
Fixpoint set_jump_addrs (inst : list Z) (ts : list Z) : option (list Z) :=
  match ts with
  | [] => Some inst
  | t :: ts => match set_jump_addr inst t with Some i => set_jump_addrs i ts | None => None end
  end.

Definition last_op (mov call : bool) (reg : Z) : Z := if mov then ADDI .| RD reg else if call then JALR .| RD RETURN_ADDR_REG else JALR.
Lemma rewritable_emit mov call reg addr : rewritable_units mov call reg addr = units_of (flat (emit_const reg addr (last_op mov call reg))).
Proof.
  unfold rewritable_units, load_addr. fold (la_adj addr). cbv zeta. unfold emit_const. cbn [flat app].
  change (la_adj addr) with (const_low addr).
  assert (L : last_ins mov call reg (const_low addr) = last_op mov call reg .| RS1 reg .| IMM_I (const_low addr)).
  { destruct mov; [reflexivity|]. rewrite last_ins_jalr. destruct call; [reflexivity|].
    cbn [last_op]. change (RD TMP_ZERO) with 0. rewrite Z.lor_0_r. reflexivity. }
  rewrite L. reflexivity.
Qed.
Lemma set_jump_addr_rewritable mov call reg v w : vreg reg ->
  set_jump_addr (rewritable_units mov call reg v) w = Some (rewritable_units mov call reg w).
Proof.
  intros Hr. rewrite !rewritable_emit. pose proof (reg_map_range reg Hr).
  apply set_jump_addr_emit; auto.
  - unfold last_op. destruct mov; [|destruct call].
    + apply lor_lt; [lia|unfold ADDI; lia|]. unfold RD. rewrite Z.shiftl_mul_pow2 by lia. change (2 ^ 7) with 128. lia.
    + vm_compute. split; congruence.
    + vm_compute. split; congruence.
  - unfold last_op. destruct mov; [left; flds; reflexivity|right]. destruct call; reflexivity.
Qed.
Lemma last_cons {A} (ts : list A) : forall w v, last (w :: ts) v = last ts w.
Proof. induction ts as [|x ts IH]; intros w v; [reflexivity|]. change (last (w :: x :: ts) v) with (last (x :: ts) v). rewrite !IH. reflexivity. Qed.
Lemma set_jump_addrs_rewritable mov call reg ts : forall v, vreg reg ->
  set_jump_addrs (rewritable_units mov call reg v) ts = Some (rewritable_units mov call reg (last ts v)).
Proof.
  induction ts as [|t ts IH]; intros v Hr; cbn [set_jump_addrs]; [reflexivity|].
  rewrite set_jump_addr_rewritable, IH, last_cons by auto. reflexivity.
Qed.

Theorem rewritable_jump_ok call init ts code s : 
  -2 ^ 63 <= last ts init < 2 ^ 63 -> last ts init mod 2 = 0 -> isw (pc s) ->
  exists inst, set_jump_addrs (rewritable_units false call TMP_REG1 init) ts = Some inst /\ length inst = 12%nat /\
  (code_at code (pc s) inst ->
   exists s', steps code s s' /\ pc s' = wrap (last ts init) /\
    (call = true -> rd s' RETURN_ADDR_REG = wrap (pc s + 24)) /\
    same_but s s' (TMP_REG1 :: TMP_REG3 :: if call then [RETURN_ADDR_REG] else [])).
Proof.
  intros R Ev Wp. rewrite set_jump_addrs_rewritable by vr. eexists. split; [reflexivity|]. split; [reflexivity|]. intros C.
  apply (load_addr_jump_ok PNone TMP_REG1 (last ts init) 0 code s call); auto; try (vr || nq); try discriminate.
Qed.
