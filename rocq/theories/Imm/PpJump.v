(** PowerPC64: jumps and addresses (C52). *)
Require Import ZArith List Bool Lia Zify ZifyBool.
From Verif Require Import Rv.RvLib Rv.RvBits Imm.ImmLib Imm.PpIsa Imm.PpModel Imm.PpSpec Imm.PpProofs.
Import ListNotations.
Open Scope Z_scope.
Ltac Zify.zify_post_hook ::= idtac.

(** ** Addresses in a register *)
Definition far_ok (f : form) (t : Z) : Prop := match f with FAbs32 => t < 0x80000000 | FAbs48 => t < 0x800000000000 | _ => True end.
Lemma load_addr_ok so code a s reg f t tl : 1 <= reg <= 28 -> isw t -> far_ok f t -> code_at 4 (load_addr f reg t ++ tl) a code ->
  exists s', goes so code a s (a + 4 * Z.of_nat (length (load_addr f reg t))) s' /\ only s s' (reg_map reg) t /\
    code_at 4 tl (a + 4 * Z.of_nat (length (load_addr f reg t))) code.
Proof.
  intros Hr Ht Hf C. pose proof (reg_map_b reg ltac:(lia)) as Hd. unfold isw in Ht.
  assert (F : forall w : list Z, (exists s', goes so code a s (a + 20) s' /\ only s s' (reg_map reg) (wrap t) /\ code_at 4 tl (a + 20) code) -> length w = 5%nat ->
     exists s', goes so code a s (a + 4 * Z.of_nat (length w)) s' /\ only s s' (reg_map reg) t /\ code_at 4 tl (a + 4 * Z.of_nat (length w)) code).
  { intros w (s' & G & O & C') ->. rewrite wrap_small in O by exact Ht. exists s'. auto. }
  destruct f; unfold load_addr in C; cbn [app] in C; rewrite ?(sldi_eq 32 reg), ?(sldi_eq 16 reg) in C by lia; cbn [far_ok] in Hf.
  1,2,5: apply F; [eapply go_64; [exact Hd|reflexivity|exact C]|reflexivity].
  - destruct (go_32 so code a s _ t tl Hd C) as (s' & G & O & C'). exists s'.
    rewrite sext_small, wrap_small in O by (unfold isw; change (2 ^ (32 - 1)) with (2 ^ 31); lia). auto.
  - destruct (go_48 so code a s _ t tl _ Hd eq_refl C) as (s' & G & O & C'). exists s'.
    assert (B : t / 2 ^ 16 < 2 ^ 31) by (apply Z.div_lt_upper_bound; lia). assert (0 <= t / 2 ^ 16) by (apply Z.div_pos; lia).
    rewrite sext_small in O by (change (2 ^ (32 - 1)) with (2 ^ 31); lia). pose proof (Z.div_mod t (2 ^ 16) ltac:(lia)).
    replace (t / 2 ^ 16 * 2 ^ 16 + t mod 2 ^ 16) with t in O by lia. rewrite wrap_small in O by exact Ht. auto.
Qed.
Lemma far_form_ok t : far_ok (far_form t) t.
Proof. unfold far_form. destruct (t <? 0x80000000) eqn:E1; [cbn; lia|]. destruct (t <? 0x800000000000) eqn:E2; [cbn; lia|exact I]. Qed.
Lemma link_addr_ok so code a s reg t : 1 <= reg <= 28 -> isw t -> code_at 4 (link_addr reg t) a code ->
  exists s', goes so code a s (a + 4 * Z.of_nat (length (link_addr reg t))) s' /\ only s s' (reg_map reg) t.
Proof.
  intros Hr Ht C. unfold link_addr in *. rewrite <- (app_nil_r (load_addr _ _ _)) in C.
  destruct (load_addr_ok so code a s reg (far_form t) t [] Hr Ht (far_form_ok t) C) as (s' & G & O & _). exists s'; auto.
Qed.
Lemma link_addr_len reg t : Z.of_nat (length (link_addr reg t)) = reserved_addr t.
Proof. unfold link_addr, far_form, reserved_addr. destruct (t <? 0x80000000); [reflexivity|]. destruct (t <? 0x800000000000); reflexivity. Qed.

(** ** The words of the branches *)
Definition bo_of (sub : bool) (c : option cond) : Z := (get_bo_bi_flags sub c / 2 ^ 21) mod 32.
Definition bi_of (sub : bool) (c : option cond) : Z := (get_bo_bi_flags sub c / 2 ^ 16) mod 32.
Definition lkz (lk : bool) : Z := if lk then 1 else 0.
Lemma inst_bits sub c lk : jump_inst sub c lk .& 0x03ff0001 = Z.shiftl (bo_of sub c) 21 .| Z.shiftl (bi_of sub c) 16 .| lkz lk.
Proof. destruct sub, lk, c as [[]|]; vm_compute; reflexivity. Qed.
Lemma inst_inv sub c : Z.lxor (jump_inst sub (Some c) false) (Z.shiftl 8 21) .& 0x03ff0001 = Z.shiftl (16 - bo_of sub (Some c)) 21 .| Z.shiftl (bi_of sub (Some c)) 16.
Proof. destruct sub, c; vm_compute; reflexivity. Qed.
Lemma inst_lk sub c lk : jump_inst sub c lk .& 1 = lkz lk.
Proof. destruct sub, lk, c as [[]|]; vm_compute; reflexivity. Qed.
Lemma dec_inst sub c lk : decode (jump_inst sub c lk) = Some (Bcctr_ (bo_of sub c) (bi_of sub c) lk).
Proof. destruct sub, lk, c as [[]|]; vm_compute; reflexivity. Qed.
Lemma bits_b sub c : 0 <= bo_of sub c < 32 /\ 0 <= bi_of sub c < 32 /\ 0 <= 16 - bo_of sub (Some CEqual) < 32 /\ (is_cond c = true -> 0 <= 16 - bo_of sub c < 32).
Proof. destruct sub, c as [[]|]; vm_compute; repeat split; try congruence; intros H; congruence. Qed.
Lemma dec_b b (ab lk : bool) : 0 <= b < 2 ^ 24 -> decode (Bx .| Z.shiftl b 2 .| (if ab then 2 else 0) .| lkz lk) = Some (B_ b ab lk).
Proof. intros H. destruct ab, lk; unfold lkz, decode; ifs. Qed.
Lemma dec_bc b bo bi (ab lk : bool) : 0 <= b < 2 ^ 14 -> 0 <= bo < 32 -> 0 <= bi < 32 ->
  decode (BCx .| Z.shiftl b 2 .| (if ab then 2 else 0) .| (Z.shiftl bo 21 .| Z.shiftl bi 16 .| lkz lk)) = Some (Bc_ bo bi b ab lk).
Proof. intros. destruct ab, lk; unfold lkz, decode; ifs. Qed.
Lemma dec_skip bo bi : 0 <= bo < 32 -> 0 <= bi < 32 -> decode (BCx .| Z.shiftl 2 2 .| (Z.shiftl bo 21 .| Z.shiftl bi 16)) = Some (Bc_ bo bi 2 false false).
Proof. intros. unfold decode; ifs. Qed.

Lemma taken_ok sub s c : taken s (bo_of sub c) (bi_of sub c) = Some (tested sub s c).
Proof. destruct sub, c as [[]|]; reflexivity. Qed.
Lemma taken_inv sub s c : taken s (16 - bo_of sub (Some c)) (bi_of sub (Some c)) = Some (negb (tested sub s (Some c))).
Proof. destruct sub, c; cbn [tested cond_holds]; rewrite ?negb_involutive; reflexivity. Qed.

(** The field of a branch: its target. *)
Lemma sgn_wrap_mod x : exists k, sgn (wrap x) = x + k * 2 ^ 64.
Proof. unfold sgn, wrap. rewrite sext_low by lia. destruct (sext_mod 64 x ltac:(lia)) as (k & K). exists (- k). lia. Qed.
Lemma field_ok n (ab : bool) p t M : 2 < n <= 32 -> isw t -> t mod 4 = 0 -> p mod 4 = 0 -> M = 2 ^ n - 4 ->
  - 2 ^ (n - 1) <= (if ab then t else sgn (wrap (t - p))) < 2 ^ (n - 1) ->
  exists b, 0 <= b < 2 ^ (n - 2) /\ u32 (if ab then t else t - p) .& M = Z.shiftl b 2 /\ wrap ((if ab then 0 else wrap p) + sext n (b * 4)) = t.
Proof.
  intros Hn Ht T4 P4 HM F. set (D := if ab then t else sgn (wrap (t - p))) in *.
  assert (ED : exists k, D = (if ab then t else t - p) + k * 2 ^ 64).
  { unfold D. destruct ab; [exists 0; lia|]. apply sgn_wrap_mod. }
  destruct ED as (k & ED). clearbody D.
  assert (D4 : D mod 4 = 0).
  { rewrite ED. change (2 ^ 64) with (2 ^ 62 * 4). rewrite Z.mul_assoc, Z_mod_plus_full. destruct ab; [exact T4|]. rewrite Zminus_mod, T4, P4. reflexivity. }
  assert (DM : (if ab then t else t - p) = D + - k * 2 ^ 64) by lia.
  pose proof (pow_pos (n - 2) ltac:(lia)) as P. assert (PN : 2 ^ n = 2 ^ (n - 2) * 4) by (change 4 with (2 ^ 2); rewrite <- Z.pow_add_r by lia; f_equal; lia).
  exists ((D / 4) mod 2 ^ (n - 2)). split; [apply mod_b; lia|]. split.
  - rewrite DM. unfold u32. change (2 ^ 64) with (2 ^ 32 * 2 ^ 32). rewrite Z.mul_assoc, Z_mod_plus_full.
    rewrite (land_mask _ 2 (n - 2)) by (change (2 ^ 2) with 4; lia). rewrite Z.shiftl_mul_pow2 by lia. f_equal. change 4 with (2 ^ 2).
    rewrite !div_mod_swap by lia. f_equal. apply mod_back. lia.
  - assert (E : (D / 4) mod 2 ^ (n - 2) * 4 = D mod 2 ^ n).
    { change 4 with (2 ^ 2). rewrite div_mod_swap by lia. replace (2 + (n - 2)) with n by lia. change (2 ^ 2) with 4.
      assert (M4 : (D mod 2 ^ n) mod 4 = 0) by (change 4 with (2 ^ 2) in *; rewrite mod_back by lia; exact D4). pose proof (Z.div_mod (D mod 2 ^ n) 4 ltac:(lia)). lia. }
    rewrite E, sext_low, sext_small by lia. destruct ab.
    + replace (0 + D) with (t + k * 2 ^ 64) by lia. unfold wrap. rewrite Z_mod_plus_full. apply Z.mod_small. exact Ht.
    + rewrite wrap_add_l. replace (p + D) with (t + k * 2 ^ 64) by lia. unfold wrap. rewrite Z_mod_plus_full. apply Z.mod_small. exact Ht.
Qed.

(** ** Jumps *)
Lemma core_link elf lk pc s : core elf lk (pc + 4) s (link s lk (wrap pc)).
Proof.
  unfold core, link, upd. destruct lk; [|split; [reflexivity|discriminate]]. split.
  - intros r _ _ H. specialize (H eq_refl). replace (r =? LR) with false by lia. reflexivity.
  - intros _. rewrite Z.eqb_refl. apply wrap_add_l.
Qed.
Lemma dec_mtctr elf : decode (MTCTR .| D_ (TMP_CALL_REG elf)) = Some (Mtctr_ (call_r elf)).
Proof. destruct elf; vm_compute; reflexivity. Qed.
Lemma jump_ok so code p s elf f sub lk c t :
  (is_cond c = true -> lk = false) -> isw t -> t mod 4 = 0 -> p mod 4 = 0 -> form_ok f (is_cond c) p t ->
  let ws := jump_words elf f (is_cond c) (jump_inst sub c lk) p t in
  let e := p + 4 * Z.of_nat (length ws) in
  code_at 4 ws p code ->
  if tested sub s c
  then exists s', goes so code p s t s' /\ core elf lk e s s' /\ (is_far f = true -> s' (call_r elf) = t)
  else exists s', goes so code p s e s' /\ core elf false e s s'.
Proof.
  intros L Ht T4 P4 FO ws e.
  assert (TG : forall x s', runs (step so code) (wrap p, s) (x, s') -> x = t -> goes so code p s t s').
  { intros x s' R ->. unfold goes. rewrite (wrap_small t) by exact Ht. exact R. }
  destruct (bits_b sub c) as (B1 & B2 & _ & B3).
  assert (FAR : is_far f = true -> far_ok f t -> ws = load_addr f (TMP_CALL_REG elf) t ++ [MTCTR .| D_ (TMP_CALL_REG elf); jump_inst sub c lk] ->
    code_at 4 ws p code ->
    if tested sub s c
    then exists s', goes so code p s t s' /\ core elf lk e s s' /\ (is_far f = true -> s' (call_r elf) = t)
    else exists s', goes so code p s e s' /\ core elf false e s s').
  { intros IF FK EW C. rewrite EW in C.
    assert (RM : reg_map (TMP_CALL_REG elf) = call_r elf) by (destruct elf; reflexivity).
    assert (CB : 1 <= TMP_CALL_REG elf <= 28) by (destruct elf; split; vm_compute; discriminate).
    destruct (load_addr_ok so code p s (TMP_CALL_REG elf) f t _ CB Ht FK C) as (s1 & G1 & O1 & (C1 & C2 & _)).
    rewrite RM in O1.
    set (q := p + 4 * Z.of_nat (length (load_addr f (TMP_CALL_REG elf) t))) in *.
    assert (Ee : e = q + 8). { unfold e, q. rewrite EW, app_length. cbn [length]. lia. } clearbody q e.
    set (s2 := upd s1 CTR t).
    assert (G2 : goes so code q s1 (q + 4) s2).
    { apply runs_1. unfold step. rewrite C1, dec_mtctr, wrap_add_l. rewrite (proj1 O1). reflexivity. }
    assert (G12 : goes so code p s (q + 4) s2) by (eapply goes_trans; eauto).
    assert (ST : step so code (wrap (q + 4), s2) = Some (if tested sub s c then t else wrap (q + 8), link s2 lk (wrap (q + 4)))).
    { unfold step. rewrite C2, dec_inst, taken_ok.
      assert (ES : tested sub s2 c = tested sub s c).
      { assert (K : forall n, 100 <= n < 110 \/ n = CA -> s2 n = s n).
        { intros n Hn. unfold s2, upd, CTR. unfold CA in Hn. replace (n =? 200) with false by lia. apply (proj2 O1). unfold call_r. destruct elf; lia. }
        unfold tested, cond_holds, bit, CR. destruct c as [[]|]; rewrite ?K by (unfold CA; lia); reflexivity. }
      rewrite ES, wrap_add_l. replace (q + 4 + 4) with (q + 8) by lia.
      assert (E4 : s2 CTR / 4 * 4 = t) by (unfold s2, upd; rewrite Z.eqb_refl; pose proof (Z.div_mod t 4 ltac:(lia)); lia).
      rewrite E4. reflexivity. }
    assert (CO : forall l, (lk = false -> l = false) -> (l = false -> lk = true -> False) -> core elf l e s (link s2 lk (wrap (q + 4)))).
    { intros l L1 L2. destruct (core_link elf lk (q + 4) s2) as (K1 & K2). split.
      - intros r R1 R2 R3. rewrite K1; auto.
        + unfold s2, upd. replace (r =? CTR) with false by lia. apply (proj2 O1). exact R2.
        + intros ->. apply R3. destruct l; [reflexivity|]. exfalso. apply L2; reflexivity.
      - intros ->. rewrite K2 by (destruct lk; [reflexivity|discriminate (L1 eq_refl)]). f_equal. lia. }
    destruct (tested sub s c) eqn:TE.
    - eexists. split; [|split].
      + eapply TG; [eapply runs_trans; [exact G12|]; apply runs_1; exact ST|reflexivity].
      + apply CO; auto. intros -> X. discriminate X.
      + intros _. unfold link, s2, upd. assert (N1 : (call_r elf =? CTR) = false) by (destruct elf; reflexivity).
        destruct lk; rewrite ?N1; try apply (proj1 O1). assert (N2 : (call_r elf =? LR) = false) by (destruct elf; reflexivity). rewrite N2. apply (proj1 O1).
    - eexists. split; [|apply CO; auto].
      + rewrite Ee. eapply goes_trans; [exact G12|]. apply runs_1. exact ST.
      + destruct c as [c|]; [|discriminate TE]. intros _ X. rewrite (L eq_refl) in X. discriminate X. }
  destruct f as [ab|ab| | |]; try (apply FAR; [reflexivity|exact FO|reflexivity]).
  - intros C. cbn [form_ok] in FO. unfold ws in C. cbn [jump_words] in C. destruct c as [c|]; cbn [is_cond] in *.
    + specialize (L eq_refl). subst lk. destruct C as (C & _).
      destruct (field_ok 16 ab p t 0xfffc ltac:(lia) Ht T4 P4 eq_refl FO) as (b & Hb & E1 & E2).
      rewrite E1, inst_bits in C. change (16 - 2) with 14 in Hb.
      assert (ST : step so code (wrap p, s) = Some (if tested sub s (Some c) then t else wrap (p + 4), s)).
      { unfold step. rewrite C, dec_bc by lia. rewrite taken_ok, E2, wrap_add_l. reflexivity. }
      destruct (tested sub s (Some c)).
      * exists s. split; [eapply TG; [apply runs_1; exact ST|reflexivity]|]. split; [|discriminate]. split; [reflexivity|discriminate].
      * exists s. split; [|split; [reflexivity|discriminate]]. apply runs_1. exact ST.
    + destruct C as (C & _). destruct (field_ok 26 ab p t 0x03fffffc ltac:(lia) Ht T4 P4 eq_refl FO) as (b & Hb & E1 & E2).
      rewrite E1, inst_lk in C. change (26 - 2) with 24 in Hb. cbn [tested cond_holds].
      exists (link s lk (wrap p)). split; [eapply TG; [apply runs_1|reflexivity]|].
      * unfold step. rewrite C, dec_b by lia. rewrite E2. reflexivity.
      * split; [|discriminate]. change e with (p + 4). apply core_link.
  - intros C. cbn [form_ok] in FO. destruct FO as (IC & FO). unfold ws in C. cbn [jump_words] in C.
    destruct c as [c|]; [|discriminate IC]. specialize (L eq_refl). subst lk. destruct C as (C1 & C2 & _).
    rewrite inst_inv in C1. specialize (B3 eq_refl).
    assert (P44 : (p + 4) mod 4 = 0) by (replace (p + 4) with (p + 1 * 4) by lia; rewrite Z_mod_plus_full; exact P4).
    destruct (field_ok 26 ab (p + 4) t 0x03fffffc ltac:(lia) Ht T4 P44 eq_refl FO) as (b & Hb & E1 & E2).
    rewrite E1 in C2. change (Bx .& 1) with (lkz false) in C2. change (26 - 2) with 24 in Hb.
    assert (ST : step so code (wrap p, s) = Some (if tested sub s (Some c) then wrap (p + 4) else wrap (p + 8), s)).
    { unfold step. rewrite C1, dec_skip by lia. rewrite taken_inv, !wrap_add_l. change (sext 16 (2 * 4)) with 8. destruct (tested sub s (Some c)); reflexivity. }
    destruct (tested sub s (Some c)).
    + exists s. split; [|split; [split; [reflexivity|discriminate]|discriminate]].
      eapply TG; [eapply runs_trans; [apply runs_1; exact ST|]; apply runs_1|reflexivity].
      unfold step. rewrite C2, dec_b by lia. rewrite E2. reflexivity.
    + exists s. split; [|split; [reflexivity|discriminate]]. apply runs_1. exact ST.
Qed.

(** The form chosen for a fixed target. *)
Lemma link_form_ok elf rw call c p t : isw t -> let f := link_form elf rw call c p t in
  ~ (f = FB true /\ is_cond c = true /\ 0x8000 <= t) -> form_ok f (is_cond c) p t.
Proof.
  intros Ht. unfold link_form, detect_jump_type. set (D := sgn (wrap (t - p))). unfold isw in Ht.
  assert (FF : form_ok (far_form t) (is_cond c) p t).
  { pose proof (far_form_ok t) as K. unfold far_form in *. destruct (t <? 0x80000000); [exact K|]. destruct (t <? 0x800000000000); exact K. }
  cbv zeta. destruct rw; [intros _; exact I|]. destruct (elf && call); [intros _; exact FF|].
  destruct (is_cond c) eqn:IC.
  - destruct ((D <=? 32767) && (-32768 <=? D)) eqn:E1.
    { intros _. cbn. fold D. lia. }
    destruct (t <=? 65535) eqn:E2.
    { intros N. cbn. destruct (Z.lt_ge_cases t 0x8000); [lia|]. exfalso. apply N. auto. }
    destruct ((D - 4 <=? 33554431) && (-33554432 <=? D - 4)) eqn:E3.
    { intros _. split; [reflexivity|]. destruct (sgn_wrap_mod (t - p)) as (k & K). fold D in K.
      assert (E : sgn (wrap (t - (p + 4))) = D - 4).
      { unfold sgn, wrap. rewrite sext_low by lia. apply sext_unique with (- k); [lia|change (2 ^ (64 - 1)) with (2 ^ 63); lia|lia]. }
      rewrite E. change (2 ^ (26 - 1)) with 33554432. lia. }
    destruct (t <=? 33554431) eqn:E4.
    { intros _. split; [reflexivity|]. change (2 ^ (26 - 1)) with 33554432. lia. }
    intros _. exact FF.
  - destruct ((D <=? 33554431) && (-33554432 <=? D)) eqn:E3.
    { intros _. cbn. fold D. lia. }
    destruct (t <=? 33554431) eqn:E4.
    { intros _. cbn. lia. }
    intros _. exact FF.
Qed.
Lemma call_far rw c p t : is_far (link_form true rw true c p t) = true.
Proof. unfold link_form, detect_jump_type. cbn [andb]. destruct rw; [reflexivity|]. unfold far_form. destruct (t <? 0x80000000); [reflexivity|]. destruct (t <? 0x800000000000); reflexivity. Qed.

(** The addition before a jump on the carry. *)
Definition carried (c : option cond) (s s1 : regs) : Prop :=
  forall r, s1 r = s r \/ (is_carry c = true /\ (r = 10 \/ r = CA \/ r = CR 0 \/ r = CR 1 \/ r = CR 2 \/ r = CR 3)).
Lemma carry_ok so code p s sub c tl : s 31 = 0 -> code_at 4 (carry_words c ++ tl) p code ->
  exists s1, goes so code p s (p + 4 * Z.of_nat (length (carry_words c))) s1 /\ carried c s s1 /\ tested sub s1 c = cond_holds sub s c /\
    code_at 4 tl (p + 4 * Z.of_nat (length (carry_words c))) code.
Proof.
  intros Z0 C. apply code_at_app in C. destruct C as (C & CT).
  assert (ID : is_carry c = false -> exists s1, goes so code p s (p + 4 * Z.of_nat (length (carry_words c))) s1 /\ carried c s s1 /\ tested sub s1 c = cond_holds sub s c /\
    code_at 4 tl (p + 4 * Z.of_nat (length (carry_words c))) code).
  { intros N. exists s. split; [|split; [intros r; left; reflexivity|split; [|exact CT]]].
    - unfold carry_words. rewrite N. cbn [length]. replace (p + 4 * Z.of_nat 0) with p by lia. apply goes_0.
    - destruct c as [[]|]; try reflexivity; discriminate N. }
  destruct (is_carry c) eqn:IC; [clear ID|apply ID; reflexivity].
  unfold carry_words in *. rewrite IC in *. cbn [length] in *. replace (p + 4 * Z.of_nat 1) with (p + 4) in * by lia. destruct C as (C & _).
  set (v := Z.b2z (bit s CA)).
  exists (record (upd (upd s 10 (wrap v)) CA (v / 2 ^ 64)) (wrap v) so). split; [|split; [|split; [|exact CT]]].
  - apply runs_1. unfold step. rewrite C. change (decode (ADDE .| 1 .| D_ TMP_REG2 .| A_ TMP_ZERO .| Bn (reg_map TMP_ZERO))) with (Some (Adde1_ 10 31 31)).
    cbv beta iota. rewrite Z0, wrap_add_l. reflexivity.
  - intros r. unfold record, upd, CR, CA.
    destruct (r =? 100 + 3) eqn:R1; [right; split; [exact IC|lia]|]. destruct (r =? 100 + 2) eqn:R2; [right; split; [exact IC|lia]|].
    destruct (r =? 100 + 1) eqn:R3; [right; split; [exact IC|lia]|]. destruct (r =? 100 + 0) eqn:R4; [right; split; [exact IC|lia]|].
    destruct (r =? 202) eqn:R5; [right; split; [exact IC|lia]|]. destruct (r =? 10) eqn:R6; [right; split; [exact IC|lia]|]. left. reflexivity.
  - assert (B2 : forall s0 x y, bit (record s0 x y) (CR 2) = (sgn x =? 0)).
    { intros s0 x y. unfold bit, record, upd. change (CR 2 =? CR 3) with false. change (CR 2 =? CR 2) with true. cbv iota. destruct (sgn x =? 0); reflexivity. }
    destruct c as [[]|]; try discriminate IC; cbn [tested cond_holds]; rewrite !B2; unfold v; destruct sub, (bit s CA); reflexivity.
Qed.

Theorem link_jump_ok so code p s elf rw sub call lk c t :
  legal call lk c -> isw t -> t mod 4 = 0 -> p mod 4 = 0 -> s 31 = 0 ->
  ~ (link_form elf rw call c (p + 4 * Z.of_nat (length (carry_words c))) t = FB true /\ is_cond c = true /\ 0x8000 <= t) ->
  code_at 4 (words elf rw sub call lk c p t) p code ->
  let e := p + 4 * Z.of_nat (length (words elf rw sub call lk c p t)) in
  if cond_holds sub s c
  then exists s', goes so code p s t s' /\ jumped elf call lk c t e s s'
  else exists s', goes so code p s e s' /\ jumped elf false false c t e s s'.
Proof.
  intros (L1 & L2) Ht T4 P4 Z0 N C e. unfold words in C.
  destruct (carry_ok so code p s sub c _ Z0 C) as (s1 & G1 & K & TE & C2). rewrite <- TE.
  set (q := p + 4 * Z.of_nat (length (carry_words c))) in *.
  assert (Q4 : q mod 4 = 0) by (unfold q; rewrite Z.mul_comm, Z_mod_plus_full; exact P4).
  assert (Ee : e = q + 4 * Z.of_nat (length (link_jump elf rw sub call lk c q t))) by (unfold e, words; rewrite app_length; fold q; lia).
  pose proof (jump_ok so code q s1 elf (link_form elf rw call c q t) sub lk c t L1 Ht T4 Q4 (link_form_ok elf rw call c q t Ht N) C2) as J.
  fold (link_jump elf rw sub call lk c q t) in J. rewrite <- Ee in J.
  assert (CL : forall l r, ~ clobbered elf l c r -> s1 r = s r /\ r <> CTR /\ r <> call_r elf /\ (l = true -> r <> LR)).
  { intros l r NC. split; [destruct (K r) as [X | (X & Y)]; [exact X|]; exfalso; apply NC; right; right; right; auto|].
    split; [intros ->; apply NC; left; reflexivity|]. split; [intros ->; apply NC; right; left; reflexivity|]. intros LT ->. apply NC. right; right; left. auto. }
  destruct (tested sub s1 c).
  - destruct J as (s' & G & (K1 & K2) & KF). exists s'. split; [eapply goes_trans; eauto|]. split; [|split; [exact K2|]].
    + intros r NC. destruct (CL lk r NC) as (A & B & B2 & B3). rewrite K1; auto.
    + intros -> ->. apply KF. apply call_far.
  - destruct J as (s' & G & (K1 & K2)). exists s'. split; [eapply goes_trans; eauto|]. split; [|split; [exact K2|discriminate]].
    intros r NC. destruct (CL false r NC) as (A & B & B2 & B3). rewrite K1; auto. 
Qed.

(** sljit_emit_ijump to the address in a register. *)
Lemma dec_mt r : 0 <= r < 32 -> decode (MTCTR .| Dn r) = Some (Mtctr_ r).
Proof. intros. unfold decode, Dn. ifs. Qed.
Lemma dec_or d j : 0 <= d < 32 -> 0 <= j < 32 -> decode (OR .| Dn j .| An d .| Bn j) = Some (Or_ d j j).
Proof. intros. unfold decode, Dn, An, Bn. ifs. Qed.
Theorem ijump_reg_ok so code p s elf call lk src t : (call = true -> lk = true) -> 1 <= src <= 28 -> s (reg_map src) = t -> isw t -> t mod 4 = 0 ->
  code_at 4 (ijump_reg elf call lk src) p code ->
  exists s', goes so code p s t s' /\ jumped elf call lk None t (p + 4 * Z.of_nat (length (ijump_reg elf call lk src))) s s'.
Proof.
  intros L Hs V Ht T4 C. unfold ijump_reg in *. cbv zeta in *.
  set (mv := elf && call && negb (src =? TMP_CALL_REG elf)) in *.
  assert (RM : reg_map (TMP_CALL_REG elf) = call_r elf) by (destruct elf; reflexivity).
  pose proof (reg_map_b src ltac:(lia)) as Hr. apply code_at_app in C. destruct C as (C & C2).
  assert (P1 : exists s1, goes so code p s (p + 4 * Z.of_nat (length (if mv then [OR .| D_ src .| A_ (TMP_CALL_REG elf) .| Bn (reg_map src)] else []))) s1 /\
    (forall r, r <> call_r elf -> s1 r = s r) /\ s1 (reg_map (if mv then TMP_CALL_REG elf else src)) = t /\ (elf = true -> call = true -> s1 12 = t)).
  { destruct mv eqn:M.
    - destruct C as (C & _). exists (upd s (call_r elf) t). split; [|split; [|split]].
      + apply runs_1. unfold step. rewrite C. unfold D_, A_. rewrite RM. rewrite dec_or by (try exact Hr; clear - elf; destruct elf; cbn; lia). rewrite Z.lor_diag, V, wrap_add_l. reflexivity.
      + intros r R. unfold upd. replace (r =? call_r elf) with false by lia. reflexivity.
      + rewrite RM. unfold upd. rewrite Z.eqb_refl. reflexivity.
      + intros -> _. reflexivity.
    - exists s. split; [cbn [length]; replace (p + 4 * Z.of_nat 0) with p by lia; apply goes_0|]. split; [reflexivity|]. split; [exact V|].
      intros -> ->. cbn [andb] in M. unfold mv in M. apply negb_false_iff, Z.eqb_eq in M. subst src. exact V. }
  destruct P1 as (s1 & G1 & K1 & V1 & K2). set (pre := if mv then _ else _) in *. set (r := if mv then TMP_CALL_REG elf else src) in *.
  set (q := p + 4 * Z.of_nat (length pre)) in *. destruct C2 as (C2 & C3 & _).
  assert (Hr2 : 0 <= reg_map r < 32) by (unfold r; destruct mv; [rewrite RM; destruct elf; cbn; lia|exact Hr]).
  set (s2 := upd s1 CTR t).
  assert (G2 : goes so code q s1 (q + 4) s2).
  { apply runs_1. unfold step. rewrite C2. unfold D_. rewrite dec_mt by lia. rewrite V1, wrap_add_l. reflexivity. }
  assert (ST : step so code (wrap (q + 4), s2) = Some (t, link s2 lk (wrap (q + 4)))).
  { unfold step. rewrite C3. replace (decode (BCCTR .| Z.shiftl 20 21 .| (if lk then 1 else 0))) with (Some (Bcctr_ 20 0 lk)) by (destruct lk; reflexivity).
    change (taken s2 20 0) with (Some true). cbv beta iota. assert (E4 : s2 CTR / 4 * 4 = t) by (unfold s2, upd; rewrite Z.eqb_refl; pose proof (Z.div_mod t 4 ltac:(lia)); lia).
    rewrite E4. reflexivity. }
  exists (link s2 lk (wrap (q + 4))). split; [|].
  - eapply goes_trans; [exact G1|]. eapply goes_trans; [exact G2|]. apply runs_1. rewrite ST. rewrite (wrap_small t) by exact Ht. reflexivity.
  - destruct (core_link elf lk (q + 4) s2) as (A & B). split; [|split].
    + intros r0 NC. assert (R1 : r0 <> CTR) by (intros ->; apply NC; left; reflexivity). assert (R2 : r0 <> call_r elf) by (intros ->; apply NC; right; left; reflexivity).
      rewrite A; auto.
      * unfold s2, upd. replace (r0 =? CTR) with false by lia. apply K1. exact R2.
      * intros LT ->. apply NC. right; right; left. auto.
    + intros LT. rewrite B by exact LT. f_equal. rewrite app_length. cbn [length]. lia.
    + intros E1 E2. unfold link, s2, upd. change (12 =? CTR) with false. change (12 =? LR) with false. destruct lk; apply K2; auto.
Qed.

(** ** Space *)
Lemma jump_len elf f cnd w p t : length (jump_words elf f cnd w p t) = match f with FB _ => 1%nat | FBB _ => 2%nat | FAbs32 => 4%nat | FAbs48 => 6%nat | FFull => 7%nat end.
Proof. destruct f, cnd; reflexivity. Qed.
Theorem jump_space_ok elf rw sub call lk c p t : isw t -> elf && call = false -> (is_cond c = true -> t <= 0xffff \/ 0x01ffffff < t) ->
  Z.of_nat (length (link_jump elf rw sub call lk c p t)) <= reserved rw t.
Proof.
  intros Ht NC H. unfold link_jump. rewrite jump_len. unfold link_form, detect_jump_type, reserved. rewrite NC. destruct rw; [cbn; lia|].
  set (D := sgn (wrap (t - p))). cbv zeta. unfold far_form. destruct (is_cond c).
  - destruct ((D <=? 32767) && (-32768 <=? D)); [destruct (t <=? 33554431), (t <? 2147483648), (t <? 140737488355328); cbn; lia|].
    destruct (t <=? 65535) eqn:E2; [replace (t <=? 33554431) with true by lia; cbn; lia|].
    assert (T1 : (t <=? 33554431) = false) by (destruct (H eq_refl); lia). rewrite T1.
    destruct ((D - 4 <=? 33554431) && (-33554432 <=? D - 4)), (t <? 2147483648), (t <? 140737488355328); cbn; lia.
  - destruct ((D <=? 33554431) && (-33554432 <=? D)), (t <=? 33554431), (t <? 2147483648), (t <? 140737488355328); cbn; lia.
Qed.
Theorem label_space_ok elf rw sub call lk c p k k0 : isw p -> isw (p + 4 * k) -> elf && call = false -> nearer k k0 ->
  Z.of_nat (length (link_jump elf rw sub call lk c p (p + 4 * k))) <= reserved_label rw (is_cond c) k0.
Proof.
  intros Hp Ht NC H. unfold link_jump. rewrite jump_len. unfold link_form, detect_jump_type, reserved_label. rewrite NC. destruct rw; [cbn; lia|].
  replace (p + 4 * k - p) with (4 * k) by lia. set (D := sgn (wrap (4 * k))). set (t := p + 4 * k) in *. unfold isw in *.
  assert (ED : - 2 ^ 63 <= 4 * k < 2 ^ 63 -> D = 4 * k).
  { intros B. unfold D, sgn, wrap. rewrite sext_low by lia. apply sext_small; [lia|]. change (2 ^ (64 - 1)) with (2 ^ 63). lia. }
  clearbody D t. cbv zeta. unfold far_form. change (32767 / 4) with 8191. change (-32768 / 4) with (-8192). change (33554431 / 4) with 8388607. change (-33554432 / 4) with (-8388608).
  assert (B7 : forall f, Z.of_nat match f with FB _ => 1%nat | FBB _ => 2%nat | FAbs32 => 4%nat | FAbs48 => 6%nat | FFull => 7%nat end <= 7) by (intros []; cbn; lia).
  destruct (is_cond c).
  - destruct ((k0 <=? 8191) && (-8192 <=? k0)) eqn:K1.
    + rewrite ED by (unfold nearer in H; lia). replace ((4 * k <=? 32767) && (-32768 <=? 4 * k)) with true by (unfold nearer in H; lia). cbn. lia.
    + destruct ((k0 - 1 <=? 8388607) && (-8388608 <=? k0 - 1)) eqn:K2; [|apply B7].
      rewrite ED by (unfold nearer in H; lia). destruct ((4 * k <=? 32767) && (-32768 <=? 4 * k)); [cbn; lia|]. destruct (t <=? 65535); [cbn; lia|].
      replace ((4 * k - 4 <=? 33554431) && (-33554432 <=? 4 * k - 4)) with true by (unfold nearer in H; lia). cbn. lia.
  - destruct ((k0 <=? 8388607) && (-8388608 <=? k0)) eqn:K2; [|apply B7].
    rewrite ED by (unfold nearer in H; lia). replace ((4 * k <=? 33554431) && (-33554432 <=? 4 * k)) with true by (unfold nearer in H; lia). cbn. lia.
Qed.
