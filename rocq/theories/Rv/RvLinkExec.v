(** What the final jump code does on the machine. *)
Require Import ZArith List Bool Lia Zify ZifyBool.
From Verif Require Import Rv.RvLib Rv.RvBits Rv.RvIsa Rv.RvEnc Rv.RvImm Rv.RvRun Rv.RvImmProofs Rv.RvConst Rv.RvAddr Rv.RvCtl Rv.RvAddrProofs Rv.RvLink Rv.RvLinkOps Rv.RvLinkReduce Rv.RvLinkEst Rv.RvLinkGen Rv.RvLinkPick Rv.RvLinkFit Rv.RvLinkLay Rv.RvLinkPatch Rv.RvLinkAll.
Import ListNotations.
Open Scope Z_scope.
Ltac Zify.zify_post_hook ::= idtac.

(** ** Conditions *)
(** When to jump: always, if a comparison of two registers holds, if a register is (not) zero with the
    compressed branches. *)
Inductive jc := JAlways | JBr (c : cond) (a b : Z) | JZ (eq : bool) (a : Z).
Definition jc_holds (x : jc) (s : mst) : bool :=
  match x with
  | JAlways => true
  | JBr c a b => condb c (rd s a) (rd s b)
  | JZ eq a => Bool.eqb (rd s a =? 0) eq
  end.
Definition jc_ok (x : jc) : Prop :=
  match x with JAlways => True | JBr _ a b => vreg a /\ vreg b | JZ _ a => vreg a /\ C_IS_R3 a = true end.
Definition br_op (c : cond) : Z := match c with Beq => BEQ | Bne => BNE | Blt => BLT | Bge => BGE | Bltu => BLTU | Bgeu => BGEU end.
Definition inv_cond (c : cond) : cond := match c with Beq => Bne | Bne => Beq | Blt => Bge | Bge => Blt | Bltu => Bgeu | Bgeu => Bltu end.
(** The branch emitted before a jump: the inverted condition (get_jump_instruction, sljitNativeRISCV_common.c:3357-3400 with
    the BRANCH_LENGTH of line 3422; sljit_emit_cmp 3475-3538). *)
Definition jc_word (x : jc) : jcnd :=
  match x with
  | JAlways => NoCond
  | JBr c a b => Cond32 (br_op (inv_cond c) .| RS1 a .| RS2 b .| BRANCH_LENGTH)
  | JZ eq a => Cond16 ((if eq then C_BNEZ else C_BEQZ) .| C_RS1_R3 a .| BRANCH16_LENGTH)
  end.
Lemma condb_inv c x y : condb (inv_cond c) x y = negb (condb c x y).
Proof. destruct c; cbn [inv_cond condb]; rewrite ?negb_involutive; try reflexivity; lia. Qed.

Definition bpiece (x : jc) (off : Z) : list piece :=
  match x with
  | JAlways => []
  | JBr c a b => [P32 (br_op (inv_cond c) .| RS1 a .| RS2 b .| brn_imm off)]
  | JZ eq a => [P16 ((if eq then C_BNEZ else C_BEQZ) .| C_RS1_R3 a .| C_BRN16 off)]
  end.
Lemma conds_in c : In c [Beq; Bne; Blt; Bge; Bltu; Bgeu]. Proof. destruct c; cbn; tauto. Qed.
Definition listeq (a b : list Z) : bool := if list_eq_dec Z.eq_dec a b then true else false.
Lemma listeq_eq a b : listeq a b = true -> a = b. Proof. unfold listeq. destruct (list_eq_dec Z.eq_dec a b); [auto|discriminate]. Qed.
Definition fars : list patch := [PNone; PJ; PRel32; PAbs32; PAbs44; PAbs52].

Lemma kfix_far x p : jc_ok x -> In p fars -> kfix (jc_word x) p = units_of (bpiece x (2 * (klen (jc_word x) + plen p))).
Proof.
  intros Ok Ip. destruct x as [|c a b|eq a].
  - destruct p; reflexivity.
  - destruct Ok as (Va & Vb).
    assert (B : forallb (fun c => forallb (fun a => forallb (fun b => forallb (fun p => 
       listeq (kfix (jc_word (JBr c a b)) p) (units_of (bpiece (JBr c a b) (2 * (klen (jc_word (JBr c a b)) + plen p))))) fars) vregs) vregs) [Beq; Bne; Blt; Bge; Bltu; Bgeu] = true) by (vm_compute; reflexivity).
    rewrite forallb_forall in B. specialize (B c (conds_in c)). rewrite forallb_forall in B. specialize (B a (vregs_in a Va)).
    rewrite forallb_forall in B. specialize (B b (vregs_in b Vb)). rewrite forallb_forall in B. specialize (B p Ip). apply listeq_eq. exact B.
  - destruct Ok as (Va & _).
    assert (B : forallb (fun eq : bool => forallb (fun a => forallb (fun p => 
       listeq (kfix (jc_word (JZ eq a)) p) (units_of (bpiece (JZ eq a) (2 * (klen (jc_word (JZ eq a)) + plen p))))) fars) vregs) [true; false] = true) by (vm_compute; reflexivity).
    rewrite forallb_forall in B. specialize (B eq ltac:(destruct eq; cbn; auto)). rewrite forallb_forall in B. specialize (B a (vregs_in a Va)).
    rewrite forallb_forall in B. specialize (B p Ip). apply listeq_eq. exact B.
Qed.
Lemma kfix_b16 eq a : vreg a -> kfix (jc_word (JZ eq a)) PB16 = [(if eq then C_BEQZ else C_BNEZ) .| C_RS1_R3 a].
Proof.
  intros Va. assert (B : forallb (fun eq : bool => forallb (fun a => 
       listeq (kfix (jc_word (JZ eq a)) PB16) [(if eq then C_BEQZ else C_BNEZ) .| C_RS1_R3 a]) vregs) [true; false] = true) by (vm_compute; reflexivity).
  rewrite forallb_forall in B. specialize (B eq ltac:(destruct eq; cbn; auto)). rewrite forallb_forall in B. specialize (B a (vregs_in a Va)). apply listeq_eq. exact B.
Qed.
(** The 32 bit form of a condition. *)
Definition wide (x : jc) : cond * Z * Z :=
  match x with JBr c a b => (c, a, b) | JZ eq a => (if eq then Beq else Bne, a, 0) | JAlways => (Beq, 0, 0) end.
Definition wword (x : jc) : Z := let '(c, a, b) := wide x in br_op c .| RS1 a .| RS2 b.
Lemma kfix_b x : jc_ok x -> x <> JAlways -> kfix (jc_word x) PB = units (P32 (wword x)).
Proof.
  intros Ok N. destruct x as [|c a b|eq a]; [congruence| |].
  - destruct Ok as (Va & Vb).
    assert (B : forallb (fun c => forallb (fun a => forallb (fun b =>
       listeq (kfix (jc_word (JBr c a b)) PB) (units (P32 (wword (JBr c a b))))) vregs) vregs) [Beq; Bne; Blt; Bge; Bltu; Bgeu] = true) by (vm_compute; reflexivity).
    rewrite forallb_forall in B. specialize (B c (conds_in c)). rewrite forallb_forall in B. specialize (B a (vregs_in a Va)).
    rewrite forallb_forall in B. specialize (B b (vregs_in b Vb)). apply listeq_eq. exact B.
  - destruct Ok as (Va & R3).
    assert (B : forallb (fun eq : bool => forallb (fun a => negb (C_IS_R3 a) ||
       listeq (kfix (jc_word (JZ eq a)) PB) (units (P32 (wword (JZ eq a))))) vregs) [true; false] = true) by (vm_compute; reflexivity).
    rewrite forallb_forall in B. specialize (B eq ltac:(destruct eq; cbn; auto)). rewrite forallb_forall in B. specialize (B a (vregs_in a Va)).
    rewrite R3 in B. apply listeq_eq. exact B.
Qed.

Lemma u16_lor a b : u16 (a .| b) = u16 a .| u16 b.
Proof. unfold u16. rewrite <- !Z.land_ones by lia. rewrite Z.land_comm, Z.land_lor_distr_r, !(Z.land_comm (Z.ones 16)). reflexivity. Qed.
Lemma brn_lo_lt a : 0 <= brn_lo a < 2 ^ 16.
Proof.
  unfold brn_lo. rewrite (land_mask a 11 1 0x800), (land_mask a 1 4 0x1e) by (reflexivity || lia).
  apply lor_lt; [lia| |]; [rewrite Z.shiftr_div_pow2 by lia|rewrite Z.shiftl_mul_pow2 by lia]; change (2 ^ 4) with 16; change (2 ^ 1) with 2; change (2 ^ 11) with 2048; change (2 ^ 7) with 128; change (2 ^ 16) with 65536; Z.div_mod_to_equations; lia.
Qed.
Lemma pb_units k0 k1 w a : [k0; k1] = units (P32 w) ->
  [u16 (k0 .| u16 (brn_lo a)); u16 (k1 .| u16 (brn_hi a))] = units (P32 (w .| brn_imm a)).
Proof.
  cbn [units]. intros E. injection E as -> ->. unfold brn_imm. rewrite !u16_lor, !u16_u16, Z.shiftr_lor, u16_lor, Z.shiftr_lor.
  rewrite (Z.shiftr_shiftl_l _ 16 16), Z.shiftl_0_r by lia. rewrite (Z.shiftr_div_pow2 (brn_lo a)) by lia.
  pose proof (brn_lo_lt a). rewrite (Z.div_small (brn_lo a)) by lia. rewrite Z.lor_0_l.
  replace (u16 (Z.shiftl (brn_hi a) 16)) with 0; [rewrite Z.lor_0_r; reflexivity|].
  unfold u16. rewrite Z.shiftl_mul_pow2 by lia. symmetry. apply Z.mod_mul. lia.
Qed.

Lemma dec_Br_op c : dec_Br (br_op c) = Some c. Proof. destruct c; reflexivity. Qed.

(** ** Steps *)
Lemma same_but_refl s w : same_but s s w. Proof. repeat split; auto. Qed.
Lemma same_but_setpc s w a : same_but s (setpc s a) w. Proof. repeat split; auto. Qed.

(** The inverted branch: skips [off] bytes unless the condition holds. *)
Lemma bpiece_step codef x off s : jc_ok x -> x <> JAlways -> off mod 2 = 0 -> 0 <= off < 256 -> isw (pc s) -> code_at codef (pc s) (units_of (bpiece x off)) ->
  step codef s = Some (setpc s (wrap (pc s + if jc_holds x s then 2 * klen (jc_word x) else off))).
Proof.
  intros Ok N Eo Ro W C. destruct x as [|c a b|eq a]; [congruence| |]; cbn [bpiece units_of flat_map] in C; rewrite app_nil_r in C.
  - destruct Ok as (Va & Vb). eapply step_piece; [apply (decode_br _ (inv_cond c) a b off (dec_Br_op _)); auto|exact W|exact C|].
    cbn [exec]. change (getr s (reg_map a)) with (rd s a). change (getr s (reg_map b)) with (rd s b). rewrite condb_inv. cbn [jc_holds jc_word klen].
    rewrite (sext_small 13 off) by lia. destruct (condb c (rd s a) (rd s b)); reflexivity.
  - destruct Ok as (Va & R3).
    assert (E : (if eq then C_BNEZ else C_BEQZ) = (if negb eq then C_BEQZ else C_BNEZ)) by (destruct eq; reflexivity). rewrite E in C.
    eapply step_piece; [apply (decode_c_brn (negb eq) a off); auto|exact W|exact C|].
    cbn [exec]. change (getr s (reg_map a)) with (rd s a). change (getr s 0) with 0. cbn [jc_holds jc_word klen].
    rewrite (sext_small 9 off) by lia. destruct eq; cbn [negb condb Bool.eqb]; destruct (rd s a =? 0); reflexivity.
Qed.

(** A relative target that fits into [n] bits. *)
Lemma rel_target n T here : 1 <= n <= 64 -> - 2 ^ (n - 1) <= sw (T - here) < 2 ^ (n - 1) -> wrap (here + sext n (wrap (T - here))) = wrap T.
Proof.
  intros Hn R. unfold sw in R. destruct (sext_mod 64 (T - here) ltac:(lia)) as (k & K). set (f := sext 64 (T - here)) in *.
  assert (E : sext n (wrap (T - here)) = f).
  { unfold wrap. pose proof (Z.div_mod (T - here) (2 ^ 64) ltac:(lia)). set (q := (T - here) / 2 ^ 64) in *.
    apply sext_unique with ((k - q) * 2 ^ (64 - n)); auto; [lia|]. rewrite <- Z.mul_assoc, <- Z.pow_add_r by lia. replace (64 - n + n) with 64 by lia. lia. }
  rewrite E. apply wrap_eq with (- k). lia.
Qed.
Lemma sw_shift T here d f : sw (T - (here + d)) = f -> -2 ^ 62 <= f <= 2 ^ 62 -> -2 ^ 61 <= d <= 2 ^ 61 -> sw (T - here) = f + d.
Proof.
  intros E R D. unfold sw in *. destruct (sext_mod 64 (T - (here + d)) ltac:(lia)) as (k & K). rewrite E in K.
  apply sext_unique with k; lia.
Qed.
Lemma wrap_even x : x mod 2 = 0 -> wrap x mod 2 = 0.
Proof. intros. unfold wrap. rewrite <- Znumtheory.Zmod_div_mod; try lia. exists (2 ^ 63). reflexivity. Qed.
Lemma atm_code codef M code eo r l : (forall i, r <= i < r + Z.of_nat (length l) -> codef (wrap (code + 2 * i + eo)) = M i) -> atm M r l ->
  code_at codef (code + 2 * r + eo) l.
Proof.
  intros H A n v E. assert (n < length l)%nat by (apply nth_error_Some; congruence).
  replace (code + 2 * r + eo + 2 * Z.of_nat n) with (code + 2 * (r + Z.of_nat n) + eo) by lia. rewrite H by lia. apply A. auto.
Qed.

(** Targets which the PATCH_ABS52 form cannot reach, and the distance which the compressed branches cannot. *)
Definition bad_abs52 (T : Z) : Prop := 0x7fffffffff800 <= T <= S52_MAX.
Definition bad_b16 (x : jc) (T here : Z) : Prop := match x with JZ _ _ => T = wrap (here + 256) | _ => False end.

Section X.
Variables (cf : cfg) (code eo : Z) (codef : Z -> Z).

Lemma jump_exec isa x p call r T s :
  jc_ok x -> kp_ok (jc_word x) p -> (call = true -> x = JAlways) -> (call = true -> p <> PJ16) ->
  let here := code + 2 * r + eo in let next := code + 2 * (r + klen (jc_word x) + dsz p (jc_word x)) + eo in
  jfit isa (jc_word x) p (sw (T - (code + 2 * (r + klen (jc_word x)) + eo))) T ->
  isw T -> T mod 2 = 0 -> here mod 2 = 0 -> isw here -> isw next -> ~ bad_abs52 T -> (isa = true -> ~ bad_b16 x T here) ->
  code_at codef here (jcode code eo (jc_word x) p call r T) -> pc s = here ->
  exists s', steps codef s s' /\ pc s' = (if jc_holds x s then T else next) /\
    (call = true -> rd s' RETURN_ADDR_REG = next) /\
    same_but s s' (TMP_REG1 :: TMP_REG3 :: if call then [RETURN_ADDR_REG] else []).
Proof.
  intros Ok KP CA CJ here next JF WT ET EH WH WN B52 B16 C P.
  assert (WP : isw (pc s)) by (rewrite P; auto).
  set (k := jc_word x) in *.
  assert (EV : forall d, wrap (T - (here + 2 * d)) mod 2 = 0).
  { intros d. apply wrap_even. clear -ET EH. Z.div_mod_to_equations. lia. }
  assert (FAR : In p fars -> forall body, jcode code eo k p call r T = kfix k p ++ body ->
    (forall s1, pc s1 = here + 2 * klen k -> code_at codef (here + 2 * klen k) body ->
       exists s', steps codef s1 s' /\ pc s' = T /\ (call = true -> rd s' RETURN_ADDR_REG = next) /\
         same_but s1 s' (TMP_REG1 :: TMP_REG3 :: if call then [RETURN_ADDR_REG] else [])) ->
    exists s', steps codef s s' /\ pc s' = (if jc_holds x s then T else next) /\
    (call = true -> rd s' RETURN_ADDR_REG = next) /\
    same_but s s' (TMP_REG1 :: TMP_REG3 :: if call then [RETURN_ADDR_REG] else [])).
  { intros Ip body JE H. rewrite JE in C. apply code_at_app in C. destruct C as (C1 & C2). unfold k in C1. rewrite kfix_far in C1 by auto. fold k in C1.
    assert (KL : Z.of_nat (length (kfix k p)) = klen k).
    { apply kfix_len; auto; intros ->; cbn in Ip; repeat destruct Ip as [Ip|Ip]; congruence || tauto. }
    rewrite KL in C2. 
    assert (J : x = JAlways \/ x <> JAlways) by (destruct x; auto; right; discriminate). destruct J as [->|J].
    - cbn in k. subst k. cbn [klen] in *. destruct (H s) as (s' & R); [lia|exact C2|]. exists s'. exact R.
    - assert (CF : call = false) by (destruct call; auto; specialize (CA eq_refl); congruence).
      assert (DP : dsz p k = plen p) by (destruct p; cbn in Ip; repeat destruct Ip as [Ip|Ip]; congruence || tauto || reflexivity).
      pose proof (klen_pos k) as KK. assert (PL : 2 <= plen p <= 12) by (destruct p; cbn; lia).
      rewrite <- P in C1. pose proof (bpiece_step codef x (2 * (klen k + plen p)) s Ok J ltac:(rewrite Z.mul_comm; apply Z.mod_mul; lia) ltac:(lia) WP C1) as ST. fold k in ST.
      rewrite P in ST. destruct (jc_holds x s) eqn:HH.
      + assert (NW : wrap (here + 2 * klen k) = here + 2 * klen k).
        { apply wrap_small. unfold next in WN. unfold isw, here in *. rewrite DP in WN. lia. }
        destruct (H (setpc s (wrap (here + 2 * klen k)))) as (s' & R1 & R2 & R3 & R4); [exact NW|exact C2|].
        exists s'. split; [eapply steps_step; eauto|]. split; [auto|]. split; [auto|].
        eapply same_but_trans; [apply (same_but_setpc s [] (wrap (here + 2 * klen k)))|exact R4|intros ? []|apply incl_refl].
      + eexists. split; [eapply steps_step; [exact ST|apply steps_refl]|]. split.
        * cbn [pc setpc]. rewrite <- (wrap_small next WN). f_equal. unfold next, here. rewrite DP. lia.
        * split; [congruence|]. apply same_but_setpc. }
  assert (LA : movp p -> exists s', steps codef s s' /\ pc s' = (if jc_holds x s then T else next) /\
    (call = true -> rd s' RETURN_ADDR_REG = next) /\
    same_but s s' (TMP_REG1 :: TMP_REG3 :: if call then [RETURN_ADDR_REG] else [])).
  { intros Mp. assert (PA : paddr k p r = r + klen k) by (destruct p; destruct Mp; reflexivity).
    assert (DP : dsz p k = plen p) by (destruct p; destruct Mp; reflexivity).
    eapply FAR. { destruct p; destruct Mp; cbn; tauto. }
    { unfold jcode. destruct p; destruct Mp; reflexivity. }
    intros s1 P1 C1. rewrite PA in C1. replace (code + 2 * (r + klen k) + eo) with (here + 2 * klen k) in * by (unfold here; lia).
    assert (RG : range_ok p (sw T) (sw (here + 2 * klen k))).
    { assert (ST : isw T -> T < 2 ^ 63 -> sw T = T) by (intros; apply sw_small; unfold isw in *; lia).
      assert (SG : -2 ^ 63 <= sw T < 2 ^ 63) by (exact (sext_range 64 T ltac:(lia))).
      destruct p; destruct Mp; cbn [range_ok]; cbn [jfit] in JF; auto.
      - replace (sw (sw T - sw (here + 2 * klen k))) with (sw (T - (here + 2 * klen k))); [exact JF|].
        unfold sw. destruct (sext_mod 64 T ltac:(lia)) as (a & A). destruct (sext_mod 64 (here + 2 * klen k) ltac:(lia)) as (b & B).
        apply sext_eq with (a - b); lia.
      - unfold S32_MAX in *. rewrite ST by (auto; lia). unfold isw in WT. lia.
      - unfold S44_MAX in *. rewrite ST by (auto; lia). unfold isw in WT. lia.
      - unfold bad_abs52, S52_MAX in *. rewrite ST by (auto; lia). unfold isw in WT. lia. }
    assert (NX : next = here + 2 * klen k + 2 * plen p) by (unfold next, here; rewrite DP; lia).
    assert (W1 : isw (pc s1)). { rewrite P1. rewrite NX in WN. pose proof (klen_pos k). assert (2 <= plen p) by (destruct p; cbn; lia). clearbody here. clear - WH WN H H0. unfold isw in *. lia. }
    rewrite <- P1 in C1.
    destruct (load_addr_jump_ok p TMP_REG1 (sw T) (sw (here + 2 * klen k)) codef s1 call) as (s' & S1 & S2 & S3 & S4); auto.
    - unfold vreg, TMP_REG1. lia.
    - discriminate.
    - discriminate.
    - intros _. rewrite P1. unfold sw. destruct (sext_mod 64 (here + 2 * klen k) ltac:(lia)) as (b & B).
      rewrite <- (wrap_small (here + 2 * klen k)) at 2 by (rewrite <- P1; auto). apply wrap_eq with (-b). lia.
    - rewrite P1 in *. exact C1.
    - unfold sw. destruct (sext_mod 64 T ltac:(lia)) as (b & B). replace (sext 64 T) with (T + (- b * 2 ^ 63) * 2) by lia. rewrite Z_mod_plus_full. auto.
    - exists s'. split; [exact S1|]. split.
      { rewrite S2. unfold sw. destruct (sext_mod 64 T ltac:(lia)) as (b & B). rewrite <- (wrap_small T WT) at 2. apply wrap_eq with (-b). lia. }
      split; [|exact S4]. intros CC. rewrite S3 by auto. rewrite P1.
      assert (LL : last_len (load_addr p false call TMP_REG1 (sw T) (sw (here + 2 * klen k))) = 2 * plen p).
      { unfold last_len. rewrite <- (load_addr_plen p false call TMP_REG1 (sw T) (sw (here + 2 * klen k)) Mp), units32. lia. }
      rewrite LL. rewrite <- (wrap_small next WN). f_equal. unfold next, here. rewrite DP. lia. }
  destruct p; try (apply LA; exact I).
  - (* PB *)
    clear FAR LA. cbn [kp_ok paddr jfit dsz] in *.
    assert (J : x <> JAlways) by (intros ->; apply KP; reflexivity).
    assert (CF : call = false) by (destruct call; auto; specialize (CA eq_refl); congruence).
    unfold jcode in C. cbn [paddr] in C. fold here in C. pose proof (kfix_b x Ok J) as KE. fold k in KE. rewrite KE in C. cbn [units nth] in C.
    rewrite (pb_units _ _ (wword x)) in C by reflexivity. unfold wword in C. destruct (wide x) as ((c & a) & b) eqn:WX.
    assert (Vab : vreg a /\ vreg b /\ jc_holds x s = condb c (rd s a) (rd s b)).
    { destruct x as [|c' a' b'|eq a']; [congruence| |]; cbn in WX; injection WX as <- <- <-.
      - destruct Ok; auto.
      - destruct Ok. split; [auto|]. split; [unfold vreg; lia|]. rewrite rd_0. cbn [jc_holds]. destruct eq; cbn [condb Bool.eqb]; destruct (rd s a' =? 0); reflexivity. }
    destruct Vab as (Va & Vb & HH).
    assert (OFF : sw (T - here) = sw (T - (code + 2 * (r + klen k) + eo)) + 2 * klen k).
    { apply sw_shift; [f_equal; unfold here; lia| |pose proof (klen_pos k); lia]. unfold BRANCH_MIN, BRANCH_MAX, SIMM_MIN, SIMM_MAX in JF. pose proof (klen_pos k). lia. }
    eexists. split; [apply steps_one; eapply step_piece; [apply (decode_br _ c a b (wrap (T - here)) (dec_Br_op _)); auto|exact WP|rewrite P; exact C|]|].
    + specialize (EV 0). rewrite Z.mul_0_r, Z.add_0_r in EV. exact EV.
    + cbn [exec]. change (getr s (reg_map a)) with (rd s a). change (getr s (reg_map b)) with (rd s b).
      instantiate (1 := setpc s (if condb c (rd s a) (rd s b) then wrap (pc s + sext 13 (wrap (T - here))) else wrap (pc s + 4))).
      destruct (condb c (rd s a) (rd s b)); reflexivity.
    + rewrite HH, P. split; [|split; [congruence|apply same_but_setpc]]. cbn [pc setpc]. destruct (condb c (rd s a) (rd s b)).
      * rewrite rel_target; [apply wrap_small; auto|lia|]. unfold BRANCH_MIN, BRANCH_MAX, SIMM_MIN, SIMM_MAX in JF. change (2 ^ (13 - 1)) with 4096. lia.
      * rewrite <- (wrap_small next WN). f_equal. unfold next, here. destruct x; [congruence| |]; cbn [k jc_word klen dsz]; lia.
  - (* PB16 *)
    clear FAR LA. cbn [kp_ok paddr jfit dsz] in *. destruct KP as (w & KW). destruct x as [|c a b|eq a]; try discriminate.
    assert (CF : call = false) by (destruct call; auto; specialize (CA eq_refl); congruence).
    destruct Ok as (Va & R3). unfold jcode in C. cbn [paddr] in C. fold here in C. unfold k in C. rewrite kfix_b16 in C by auto. cbn [nth] in C.
    change [u16 _] with (units (P16 ((if eq then C_BEQZ else C_BNEZ) .| C_RS1_R3 a .| C_BRN16 (wrap (T - here))))) in C.
    cbn [k jc_word klen] in *.
    assert (OFF : sw (T - here) = sw (T - (code + 2 * (r + 1) + eo)) + 2).
    { apply sw_shift; [f_equal; unfold here; lia| |lia]. unfold BRANCH16_MIN, BRANCH16_MAX in JF. destruct isa; lia. }
    assert (NE : sw (T - here) <> 256).
    { intros X. destruct isa; [|lia]. apply (B16 eq_refl). cbn [bad_b16]. unfold sw in X. destruct (sext_mod 64 (T - here) ltac:(lia)) as (b & B). rewrite X in B.
      rewrite <- (wrap_small T WT). apply wrap_eq with b. lia. }
    assert (EE : sw (T - here) mod 2 = 0).
    { unfold sw. destruct (sext_mod 64 (T - here) ltac:(lia)) as (b & B). clear -B ET EH. Z.div_mod_to_equations. lia. }
    assert (SM : -256 <= sw (T - here) < 256).
    { unfold BRANCH16_MIN, BRANCH16_MAX in JF. clear -JF OFF NE EE. destruct isa; Z.div_mod_to_equations; lia. }
    eexists. split; [apply steps_one; eapply step_piece; [apply (decode_c_brn eq a (wrap (T - here))); auto|exact WP|rewrite P; exact C|]|].
    + specialize (EV 0). rewrite Z.mul_0_r, Z.add_0_r in EV. exact EV.
    + cbn [exec]. change (getr s (reg_map a)) with (rd s a). change (getr s 0) with 0.
      instantiate (1 := setpc s (if jc_holds (JZ eq a) s then wrap (pc s + sext 9 (wrap (T - here))) else wrap (pc s + 2))).
      cbn [jc_holds]. destruct eq; cbn [negb condb Bool.eqb]; destruct (rd s a =? 0); reflexivity.
    + rewrite P. split; [|split; [congruence|apply same_but_setpc]]. cbn [pc setpc]. destruct (jc_holds (JZ eq a) s).
      * rewrite rel_target; [apply wrap_small; auto|lia|]. change (2 ^ (9 - 1)) with 256. exact SM.
      * rewrite <- (wrap_small next WN). f_equal. unfold next, here. lia.
  - (* PJ *)
    clear LA. cbn [paddr jfit dsz plen] in *. eapply FAR; [cbn; tauto|unfold jcode; reflexivity|]. clear FAR. cbn [paddr].
    intros s1 P1 C1. replace (code + 2 * (r + klen k) + eo) with (here + 2 * klen k) in * by (unfold here; lia).
    assert (W1 : isw (pc s1)) by (rewrite P1; unfold isw, here, next in *; pose proof (klen_pos k); lia).
    set (d := if call then RETURN_ADDR_REG else TMP_ZERO) in *.
    assert (Vd : vreg d) by (unfold d, vreg, RETURN_ADDR_REG, TMP_ZERO, TMP_REG2; destruct call; lia).
    rewrite (u32_small (jal_imm _)) in C1 by apply jal_lt. 
    eexists. split; [apply steps_one; eapply step_piece; [apply (decode_jal d (wrap (T - (here + 2 * klen k)))); auto|exact W1|rewrite P1; exact C1|]|].
    + cbn [exec]. change (setr s1 (reg_map d)) with (wr s1 d). reflexivity.
    + split; [|split].
      * cbn [pc setpc]. rewrite P1. rewrite rel_target; [apply wrap_small; auto|lia|]. unfold JUMP_MIN, JUMP_MAX in JF. change (2 ^ (21 - 1)) with 1048576. lia.
      * intros ->. cbn [d] in *. change (rd (wr s1 RETURN_ADDR_REG (wrap (pc s1 + 4))) RETURN_ADDR_REG = next).
        rewrite rd_wr_same by (auto; discriminate). rewrite P1. rewrite <- (wrap_small next WN). f_equal. unfold next, here. lia.
      * split; [|split].
        -- cbn. apply mem_wr.
        -- cbn. apply fregs_wr.
        -- intros y Hy N. destruct (reg_map_all y Hy) as (q & Vq & <-). cbn [units length]. change (rd (wr s1 d (wrap (pc s1 + 2 * Z.of_nat 2))) q = rd s1 q).
           unfold d in *. destruct call.
           ++ apply rd_wr_other; auto. intros ->. apply N. cbn. auto.
           ++ unfold wr, setr. reflexivity.
  - (* PJ16 *)
    clear FAR LA. cbn [kp_ok paddr jfit dsz] in *.
    assert (J : x = JAlways) by (destruct x; cbn in k; auto; discriminate KP). subst x. cbn [jc_holds jc_word klen k] in *.
    assert (CF : call = false) by (destruct call; auto; specialize (CJ eq_refl); congruence).
    unfold jcode in C. cbn [paddr klen] in C. replace (code + 2 * (r + 0) + eo) with here in * by (unfold here; lia).
    change [u16 _] with (units (P16 (C_J .| C_JMP16 (wrap (T - here))))) in C.
    eexists. split; [apply steps_one; eapply step_piece; [apply (decode_c_j (wrap (T - here))); auto|exact WP|rewrite P; exact C|]|].
    + specialize (EV 0). rewrite Z.mul_0_r, Z.add_0_r in EV. exact EV.
    + cbn [exec]. unfold setr. reflexivity.
    + rewrite P. split; [|split; [congruence|repeat split; auto]]. cbn [pc setpc].
      rewrite rel_target; [apply wrap_small; auto|lia|]. unfold JUMP16_MIN, JUMP16_MAX, SIMM_MIN, SIMM_MAX in JF. change (2 ^ (12 - 1)) with 2048. lia.
Qed.
End X.
