(** ARM64: constants, jumps, addresses and conditions. *)
Require Import ZArith List Bool Lia Zify ZifyBool.
From Verif Require Import Rv.RvLib Rv.RvBits Imm.ImmLib Imm.PpProofs Imm.PpJump Arm.ArmIsa Arm.ArmBr Arm.ArmEnc Arm.ArmBits Arm.ArmLoadImm Arm.ArmLogImm Arm.ArmJump Arm.ArmJumpSpec.
Import ListNotations.
Open Scope Z_scope.
Ltac Zify.zify_post_hook ::= idtac.

(** ** Runs *)
Lemma goes_0 code a s : goes code a s a s.
Proof. constructor. Qed.
Lemma goes_trans code a s b s' c s'' : goes code a s b s' -> goes code b s' c s'' -> goes code a s c s''.
Proof. unfold goes. intros. eapply runs_trans; eauto. Qed.
Lemma only_gets s s' r v : only s s' r v -> gets s s' r v.
Proof. intros (A & B & C). split; [exact A|]. split; [exact B|exact C]. Qed.
(** A straight line sequence. *)
Lemma goes_run code : forall ws a s s', Forall (fun w => decode_br w = None) ws -> run ws s = Some s' -> code_at 4 ws a code ->
  goes code a s (a + 4 * Z.of_nat (length ws)) s'.
Proof.
  induction ws as [|w ws IH]; intros a s s' F R C.
  - injection R as <-. cbn [length]. replace (a + 4 * Z.of_nat 0) with a by lia. constructor.
  - inversion F as [|x l F1 F2]; subst. destruct C as (C & CT). cbn [run] in R. destruct (decode w) as [i|] eqn:D; [|discriminate R].
    destruct (exec i s) as [s1|] eqn:E; [|discriminate R].
    eapply runs_S with (wrap (a + 4), s1).
    + unfold step. rewrite C, F1, D, E, wrap_add_l. reflexivity.
    + replace (a + 4 * Z.of_nat (length (w :: ws))) with (a + 4 + 4 * Z.of_nat (length ws)) by (cbn [length]; lia). apply IH; auto.
Qed.

(** ** Decoding *)
Ltac decbr :=
  unfold decode_br; cbv zeta;
  repeat match goal with
  | |- (if ?c then _ else _) = _ =>
      first [ replace c with true by (symmetry; flds) | replace c with false by (symmetry; flds) ]; cbv iota
  end;
  try reflexivity; flds.
Lemma nbr_movw op rd imm hw : movw_op op -> 0 <= rd < 32 -> 0 <= imm < 65536 -> 0 <= hw < 4 -> decode_br (op .| rd .| Z.shiftl imm 5 .| Z.shiftl hw 21) = None.
Proof. intros [-> | [-> | [-> | ->]]] H1 H2 H3; destruct (four hw H3) as [-> | [-> | [-> | ->]]]; decbr. Qed.
Lemma nbr_movw0 op rd imm : movw_op op -> 0 <= rd < 32 -> 0 <= imm < 65536 -> decode_br (op .| rd .| Z.shiftl imm 5) = None.
Proof. intros [-> | [-> | [-> | ->]]] H1 H2; decbr. Qed.

(** ** Move wide *)
Lemma go_1 code a s w i s' tl : decode_br w = None -> decode w = Some i -> exec i s = Some s' -> code_at 4 (w :: tl) a code -> goes code a s (a + 4) s' /\ code_at 4 tl (a + 4) code.
Proof.
  intros N D E (C & CT). split; [|exact CT]. apply runs_1. unfold step. rewrite C, N, D, E, wrap_add_l. reflexivity.
Qed.
Lemma go_movz code a s r imm tl : 0 <= r < 31 -> 0 <= imm < 65536 -> code_at 4 ((MOVZ .| r .| Z.shiftl imm 5) :: tl) a code ->
  exists s', goes code a s (a + 4) s' /\ only s s' r imm /\ code_at 4 tl (a + 4) code.
Proof.
  intros Hr Hi C. destruct (exec_movz s r imm 0 ltac:(lia) ltac:(lia) Hi) as (s' & E & O). exists s'.
  destruct (go_1 code a s _ _ s' tl (nbr_movw0 MOVZ r imm ltac:(left; reflexivity) ltac:(lia) Hi) (dec_movw0 MOVZ r imm ltac:(left; reflexivity) ltac:(lia) Hi) E C) as (G & CT).
  change (16 * 0) with 0 in O. rewrite Z.pow_0_r, Z.mul_1_r in O. auto.
Qed.
Lemma go_movn code a s r imm tl : 0 <= r < 31 -> 0 <= imm < 65536 -> code_at 4 ((MOVN .| r .| Z.shiftl imm 5) :: tl) a code ->
  exists s', goes code a s (a + 4) s' /\ only s s' r (2 ^ 64 - 1 - imm) /\ code_at 4 tl (a + 4) code.
Proof.
  intros Hr Hi C. destruct (exec_movn s r imm 0 ltac:(lia) ltac:(lia) Hi) as (s' & E & O). exists s'.
  destruct (go_1 code a s _ _ s' tl (nbr_movw0 MOVN r imm ltac:(right; left; reflexivity) ltac:(lia) Hi) (dec_movw0 MOVN r imm ltac:(right; left; reflexivity) ltac:(lia) Hi) E C) as (G & CT).
  change (16 * 0) with 0 in O. rewrite Z.pow_0_r, Z.mul_1_r in O. auto.
Qed.
Lemma movk_small x imm hw : 0 <= x < 2 ^ (16 * hw) -> movk x imm hw = x + imm * 2 ^ (16 * hw).
Proof. intros H. unfold movk. rewrite Z.div_small by lia. change (0 mod 2 ^ 16) with 0. lia. Qed.
Lemma go_movk code a s r imm hw x tl : 0 <= r < 31 -> 0 <= imm < 65536 -> 0 <= hw < 4 -> xr s r = x -> isw x ->
  code_at 4 ((MOVK .| r .| Z.shiftl imm 5 .| Z.shiftl hw 21) :: tl) a code ->
  exists s', goes code a s (a + 4) s' /\ only s s' r (movk x imm hw) /\ code_at 4 tl (a + 4) code.
Proof.
  intros Hr Hi Hh X Hx C. subst x. destruct (exec_movk s r imm hw ltac:(lia) Hh Hi Hx) as (s' & E & O). exists s'.
  assert (MO : movw_op MOVK) by (right; right; left; reflexivity).
  destruct (go_1 code a s _ _ s' tl (nbr_movw MOVK r imm hw MO ltac:(lia) Hi Hh) (dec_movw MOVK r imm hw MO ltac:(lia) Hi Hh) E C) as (G & CT). auto.
Qed.

(** The half words of an address. *)
Lemma ch_shr j t : 0 <= j -> u32 (Z.shiftr t (16 * j)) .& 0xffff = ch j t.
Proof.
  intros Hj. rewrite ch_u32. unfold ch. rewrite Z.shiftr_div_pow2 by lia. change (2 ^ (16 * 0)) with 1. rewrite Z.div_1_r. reflexivity.
Qed.
Lemma ch_top t : isw t -> u32 (Z.shiftr t 48) = ch 3 t.
Proof.
  intros Ht. unfold isw in Ht. unfold u32, ch. rewrite Z.shiftr_div_pow2 by lia. change (16 * 3) with 48.
  assert (B : t / 2 ^ 48 < 2 ^ 16) by (apply Z.div_lt_upper_bound; lia). assert (0 <= t / 2 ^ 48) by (apply Z.div_pos; lia).
  rewrite !Z.mod_small by lia. reflexivity.
Qed.
Definition mov_words (r a b c d : Z) : list Z :=
  [MOVZ .| r .| Z.shiftl a 5; MOVK .| r .| Z.shiftl b 5 .| Z.shiftl 1 21; MOVK .| r .| Z.shiftl c 5 .| Z.shiftl 2 21; MOVK .| r .| Z.shiftl d 5 .| Z.shiftl 3 21].
Lemma lor_swap a b c : a .| b .| c = a .| c .| b.
Proof. rewrite <- !Z.lor_assoc. f_equal. apply Z.lor_comm. Qed.
Lemma abs_words_eq n r t : isw t -> abs_words n r t = firstn n (mov_words r (ch 0 t) (ch 1 t) (ch 2 t) (ch 3 t)).
Proof.
  intros Ht. unfold abs_words, mov_words. rewrite (ch_u32 t), (ch_top t Ht).
  change 16 with (16 * 1). change 32 with (16 * 2). rewrite !ch_shr by lia. f_equal.
  rewrite (lor_swap MOVZ (Z.shiftl (ch 0 t) 5) r).
  assert (E : forall x y, MOVK .| x .| y .| r = MOVK .| r .| x .| y) by (intros x y; rewrite (lor_swap (MOVK .| x) y r), (lor_swap MOVK x r); reflexivity).
  rewrite !E. reflexivity.
Qed.
Lemma imm64_eq dst t : isw t -> emit_imm64_const dst t = mov_words (reg_map dst) (ch 0 t) (ch 1 t) (ch 2 t) (ch 3 t).
Proof.
  intros Ht. unfold emit_imm64_const, mov_words, RD. rewrite (ch_low t), (ch_top t Ht).
  change 16 with (16 * 1). change 32 with (16 * 2). rewrite !ch_shr by lia. reflexivity.
Qed.
Lemma go_mov code a s r t n tl : 0 <= r < 31 -> isw t -> (n = 2%nat /\ t < 2 ^ 32) \/ (n = 3%nat /\ t < 2 ^ 48) \/ n = 4%nat ->
  code_at 4 (firstn n (mov_words r (ch 0 t) (ch 1 t) (ch 2 t) (ch 3 t)) ++ tl) a code ->
  exists s', goes code a s (a + 4 * Z.of_nat n) s' /\ only s s' r t /\ code_at 4 tl (a + 4 * Z.of_nat n) code.
Proof.
  intros Hr Ht Hn C. pose proof (ch_sum t Ht) as CS.
  pose proof (ch_range 0 t) as B0. pose proof (ch_range 1 t) as B1. pose proof (ch_range 2 t) as B2. pose proof (ch_range 3 t) as B3. unfold isw in Ht.
  assert (P1 : 2 ^ (16 * 1) = 65536) by reflexivity. assert (P2 : 2 ^ (16 * 2) = 2 ^ 32) by reflexivity. assert (P3 : 2 ^ (16 * 3) = 2 ^ 48) by reflexivity.
  set (c0 := ch 0 t) in *. set (c1 := ch 1 t) in *. set (c2 := ch 2 t) in *. set (c3 := ch 3 t) in *. clearbody c0 c1 c2 c3.
  assert (W : forall tl2 u, code_at 4 ((MOVZ .| r .| Z.shiftl c0 5) :: (MOVK .| r .| Z.shiftl c1 5 .| Z.shiftl 1 21) :: tl2) a code -> u = c0 + c1 * 65536 ->
    exists s', goes code a s (a + 8) s' /\ only s s' r u /\ code_at 4 tl2 (a + 8) code).
  { intros tl2 u C2 ->. destruct (go_movz code a s r c0 _ Hr B0 C2) as (s1 & G1 & O1 & C3).
    destruct (go_movk code (a + 4) s1 r c1 1 c0 _ Hr B1 ltac:(lia) (proj1 O1) ltac:(unfold isw; lia) C3) as (s2 & G2 & O2 & C4).
    rewrite movk_small, P1 in O2 by lia. replace (a + 4 + 4) with (a + 8) in * by lia. exists s2. split; [eapply goes_trans; eauto|]. split; [eapply only_trans; eauto|exact C4]. }
  assert (W3 : forall tl2 u, code_at 4 ((MOVZ .| r .| Z.shiftl c0 5) :: (MOVK .| r .| Z.shiftl c1 5 .| Z.shiftl 1 21) :: (MOVK .| r .| Z.shiftl c2 5 .| Z.shiftl 2 21) :: tl2) a code ->
    u = c0 + c1 * 65536 + c2 * 2 ^ 32 -> exists s', goes code a s (a + 12) s' /\ only s s' r u /\ code_at 4 tl2 (a + 12) code).
  { intros tl2 u C2 ->. destruct (W _ _ C2 eq_refl) as (s1 & G1 & O1 & C3).
    destruct (go_movk code (a + 8) s1 r c2 2 _ _ Hr B2 ltac:(lia) (proj1 O1) ltac:(unfold isw; lia) C3) as (s2 & G2 & O2 & C4).
    rewrite movk_small, P2 in O2 by lia. replace (a + 8 + 4) with (a + 12) in * by lia. exists s2. split; [eapply goes_trans; eauto|]. split; [eapply only_trans; eauto|exact C4]. }
  destruct Hn as [(-> & Hn) | [(-> & Hn) | ->]]; unfold mov_words in C; cbn [firstn app] in C.
  - change (4 * Z.of_nat 2) with 8. apply W; [exact C|lia].
  - change (4 * Z.of_nat 3) with 12. apply W3; [exact C|lia].
  - change (4 * Z.of_nat 4) with 16. destruct (W3 _ _ C eq_refl) as (s1 & G1 & O1 & C3).
    destruct (go_movk code (a + 12) s1 r c3 3 _ _ Hr B3 ltac:(lia) (proj1 O1) ltac:(unfold isw; lia) C3) as (s2 & G2 & O2 & C4).
    rewrite movk_small, P3 in O2 by lia. replace (a + 12 + 4) with (a + 16) in * by lia. exists s2. split; [eapply goes_trans; eauto|]. split; [|exact C4].
    eapply only_trans; [exact O1|]. replace t with (c0 + c1 * 65536 + c2 * 2 ^ 32 + c3 * 2 ^ 48) by lia. exact O2.
Qed.

(** ** Constants *)
Lemma low8 v : v .& 0xff = v mod 2 ^ 8.
Proof. apply land_low; lia. Qed.
Lemma field32 v : Z.shiftr v 11 .& 0x1fffe0 = Z.shiftl (ch 1 v) 5.
Proof.
  rewrite (land_mask _ 5 16) by lia. rewrite Z.shiftl_mul_pow2, Z.shiftr_div_pow2 by lia. unfold ch. rewrite Z.div_div by lia. reflexivity.
Qed.
Lemma sljit_emit_const_ok code a s op dst v : 1 <= dst <= 26 \/ 28 <= dst <= 31 -> code_at 4 (sljit_emit_const op dst v) a code ->
  exists s', goes code a s (a + 4 * Z.of_nat (length (sljit_emit_const op dst v))) s' /\ gets s s' (reg_map dst) (const_value op v).
Proof.
  intros Hd C. pose proof (dst_ok dst Hd) as Hr.
  assert (S32 : forall u, u = u32 v \/ u = s32 v -> code_at 4 [const_s32 u .| RD dst; MOVK .| Z.shiftl 1 21 .| (Z.shiftr u 11 .& 0x1fffe0) .| RD dst] a code ->
    exists s', goes code a s (a + 8) s' /\ gets s s' (reg_map dst) (wrap u)).
  { intros u Hu C2. rewrite field32 in C2. unfold RD in C2.
    assert (RU : - 2 ^ 31 <= u < 2 ^ 32).
    { destruct Hu as [-> | ->]; [pose proof (mod_b v 32 ltac:(lia)); unfold u32; lia|]. pose proof (sext_range 32 v ltac:(lia)) as R. change (2 ^ (32 - 1)) with (2 ^ 31) in R. unfold s32. lia. }
    assert (E1 : MOVK .| Z.shiftl 1 21 .| Z.shiftl (ch 1 u) 5 .| reg_map dst = MOVK .| reg_map dst .| Z.shiftl (ch 1 u) 5 .| Z.shiftl 1 21).
    { rewrite (lor_swap (MOVK .| Z.shiftl 1 21) (Z.shiftl (ch 1 u) 5) (reg_map dst)), (lor_swap MOVK (Z.shiftl 1 21) (reg_map dst)), (lor_swap (MOVK .| reg_map dst)). reflexivity. }
    rewrite E1 in C2. clear E1. pose proof (ch_range 1 u) as B1. unfold const_s32 in C2.
    assert (D0 : u / 2 ^ 16 = ch 1 u + (u / 2 ^ 32) * 2 ^ 16).
    { unfold ch. change (16 * 1) with 16. change (2 ^ 32) with (2 ^ 16 * 2 ^ 16). rewrite <- Z.div_div by lia. pose proof (Z.div_mod (u / 2 ^ 16) (2 ^ 16) ltac:(lia)). lia. }
    pose proof (Z.div_mod u (2 ^ 16) ltac:(lia)) as DM. pose proof (mod_b u 16 ltac:(lia)) as BM.
    assert (E0 : ch 0 u = u mod 2 ^ 16) by (unfold ch; change (2 ^ (16 * 0)) with 1; rewrite Z.div_1_r; reflexivity).
    destruct (u <? 0) eqn:N.
    - rewrite ch_low, ch_lnot in C2 by lia. rewrite lor_swap in C2. pose proof (ch_range 0 u) as B0.
      destruct (go_movn code a s (reg_map dst) (65535 - ch 0 u) _ Hr ltac:(lia) C2) as (s1 & G1 & O1 & C3).
      destruct (go_movk code (a + 4) s1 (reg_map dst) (ch 1 u) 1 _ _ Hr B1 ltac:(lia) (proj1 O1) ltac:(unfold isw; lia) C3) as (s2 & G2 & O2 & _).
      replace (a + 4 + 4) with (a + 8) in * by lia. exists s2. split; [eapply goes_trans; eauto|]. apply only_gets. eapply only_trans; [exact O1|].
      assert (Q : u / 2 ^ 32 = -1) by (symmetry; apply Z.div_unique with (u + 2 ^ 32); [left|]; lia).
      assert (WV : wrap u = movk (2 ^ 64 - 1 - (65535 - ch 0 u)) (ch 1 u) 1).
      { unfold movk. change (2 ^ (16 * 1)) with (2 ^ 16).
        assert (E2 : (2 ^ 64 - 1 - (65535 - ch 0 u)) / 2 ^ 16 = 2 ^ 48 - 1) by (symmetry; apply Z.div_unique with (ch 0 u); [left|]; lia).
        rewrite E2. change ((2 ^ 48 - 1) mod 2 ^ 16) with 65535. unfold wrap. symmetry. apply Z.mod_unique with (-1); lia. }
      rewrite WV. exact O2.
    - rewrite ch_low in C2. rewrite lor_swap in C2. pose proof (ch_range 0 u) as B0.
      destruct (go_movz code a s (reg_map dst) _ _ Hr B0 C2) as (s1 & G1 & O1 & C3).
      destruct (go_movk code (a + 4) s1 (reg_map dst) (ch 1 u) 1 _ _ Hr B1 ltac:(lia) (proj1 O1) ltac:(unfold isw; lia) C3) as (s2 & G2 & O2 & _).
      replace (a + 4 + 4) with (a + 8) in * by lia. exists s2. split; [eapply goes_trans; eauto|]. apply only_gets. eapply only_trans; [exact O1|].
      rewrite movk_small in O2 by (change (2 ^ (16 * 1)) with 65536; lia). change (2 ^ (16 * 1)) with (2 ^ 16) in O2.
      assert (Q : u / 2 ^ 32 = 0) by (apply Z.div_small; lia).
      rewrite wrap_small by (unfold isw; lia). replace u with (ch 0 u + ch 1 u * 2 ^ 16) at 1 by lia. exact O2. }
  destruct op; cbn [sljit_emit_const const_value length] in *.
  - assert (Hw : isw (wrap v)) by apply wrap_isw. rewrite imm64_eq in C by exact Hw. rewrite <- (app_nil_r (mov_words _ _ _ _ _)) in C.
    destruct (go_mov code a s (reg_map dst) (wrap v) 4 [] Hr Hw ltac:(right; right; reflexivity) C) as (s' & G & O & _). exists s'. split; [exact G|apply only_gets; exact O].
  - destruct (S32 (u32 v) ltac:(left; reflexivity) C) as (s' & G & O). exists s'. split; [exact G|].
    rewrite wrap_small in O by (pose proof (mod_b v 32 ltac:(lia)); unfold isw, u32; lia). exact O.
  - destruct (S32 (s32 v) ltac:(right; reflexivity) C) as (s' & G & O). exists s'. split; [exact G|exact O].
  - change (4 * Z.of_nat 1) with 4. unfold const_u8, RD in C. rewrite !low8 in C. rewrite (bit_test v 8 0x100 ltac:(lia) eq_refl) in C. change (8 + 1) with 9 in C.
    pose proof (mod_b v 8 ltac:(lia)) as M8. pose proof (mod_b v 9 ltac:(lia)) as M9.
    assert (LN : Z.lnot v mod 2 ^ 8 = 255 - v mod 2 ^ 8).
    { unfold Z.lnot. pose proof (Z.div_mod v (2 ^ 8) ltac:(lia)). symmetry. apply Z.mod_unique with (- (v / 2 ^ 8) - 1); [left|]; lia. }
    rewrite LN in C. assert (E9 : v mod 2 ^ 9 = v mod 2 ^ 8 \/ v mod 2 ^ 9 = v mod 2 ^ 8 + 256).
    { change (2 ^ 9) with (2 ^ 8 * 2). rewrite Z.rem_mul_r by lia. pose proof (Z.mod_pos_bound (v / 2 ^ 8) 2 ltac:(lia)). lia. }
    assert (SX : sext 9 v = (if v mod 2 ^ 9 <? 2 ^ 8 then v mod 2 ^ 9 else v mod 2 ^ 9 - 2 ^ 9)) by reflexivity.
    rewrite SX. destruct (v mod 2 ^ 9 <? 2 ^ 8) eqn:T; cbn [negb] in C.
    + rewrite lor_swap in C. destruct (go_movz code a s (reg_map dst) (v mod 2 ^ 8) _ Hr ltac:(lia) C) as (s1 & G1 & O1 & _). exists s1. split; [exact G1|]. apply only_gets.
      rewrite wrap_small by (unfold isw; lia). replace (v mod 2 ^ 9) with (v mod 2 ^ 8) by lia. exact O1.
    + rewrite lor_swap in C. destruct (go_movn code a s (reg_map dst) (255 - v mod 2 ^ 8) _ Hr ltac:(lia) C) as (s1 & G1 & O1 & _). exists s1. split; [exact G1|]. apply only_gets.
      replace (wrap (v mod 2 ^ 9 - 2 ^ 9)) with (2 ^ 64 - 1 - (255 - v mod 2 ^ 8)) by (unfold wrap; apply Z.mod_unique with (-1); [left|]; lia). exact O1.
Qed.

(** ** sljit_set_const, sljit_set_jump_addr *)
Lemma low5 w : w .& 0x1f = fld w 0 5.
Proof. unfold fld. rewrite Z.shiftr_0_r. reflexivity. Qed.
Lemma low5_mov op r x hw : movw_op op -> 0 <= r < 32 -> 0 <= x < 65536 -> 0 <= hw < 4 -> (op .| r .| Z.shiftl x 5 .| Z.shiftl hw 21) .& 0x1f = r.
Proof. intros [-> | [-> | [-> | ->]]] H1 H2 H3; rewrite low5; destruct (four hw H3) as [-> | [-> | [-> | ->]]]; flds. Qed.
Lemma low5_mov0 op r x : movw_op op -> 0 <= r < 32 -> 0 <= x < 65536 -> (op .| r .| Z.shiftl x 5) .& 0x1f = r.
Proof. intros [-> | [-> | [-> | ->]]] H1 H2; rewrite low5; flds. Qed.
Lemma set_jump_addr_eq ws r t : isw t -> nth 0 ws 0 .& 0x1f = r -> sljit_set_jump_addr ws t = mov_words r (ch 0 t) (ch 1 t) (ch 2 t) (ch 3 t) ++ skipn 4 ws.
Proof.
  intros Ht E. unfold sljit_set_jump_addr. rewrite E, (ch_u32 t), (ch_top t Ht).
  change (Z.shiftr t 16) with (Z.shiftr t (16 * 1)). change (Z.shiftr t 32) with (Z.shiftr t (16 * 2)). rewrite !ch_shr by lia. reflexivity.
Qed.
Lemma u8_low5 v r : 0 <= r < 32 -> (const_u8 v .| r) .& 0x1f = r.
Proof.
  intros Hr. unfold const_u8. rewrite !low8. pose proof (mod_b v 8 ltac:(lia)). pose proof (mod_b (Z.lnot v) 8 ltac:(lia)).
  destruct (negb (v .& 0x100 =? 0)); rewrite lor_swap; apply low5_mov0; (exact Hr || lia || (left; reflexivity) || (right; left; reflexivity)).
Qed.
Lemma s32_low5 v r : 0 <= r < 32 -> (const_s32 v .| r) .& 0x1f = r.
Proof.
  intros Hr. unfold const_s32. rewrite !ch_low. pose proof (ch_range 0 v). pose proof (ch_range 0 (Z.lnot v)).
  destruct (v <? 0); rewrite lor_swap; apply low5_mov0; (exact Hr || lia || (left; reflexivity) || (right; left; reflexivity)).
Qed.
Lemma set_const_ok op dst v v' : 1 <= dst <= 26 \/ 28 <= dst <= 31 -> sljit_set_const op (sljit_emit_const op dst v) v' = sljit_emit_const op dst v'.
Proof.
  intros Hd. pose proof (dst_ok dst Hd) as Hr.
  assert (K : forall u, (MOVK .| Z.shiftl 1 21 .| (Z.shiftr u 11 .& 0x1fffe0) .| RD dst) .& 0x1f = RD dst).
  { intros u. rewrite field32. unfold RD. pose proof (ch_range 1 u). set (x := ch 1 u) in *. clearbody x. rewrite low5. set (r := reg_map dst) in *. clearbody r.
    assert (0 <= r < 32) by lia. assert (0 <= x < 2 ^ 16) by lia. clear Hr H. flds. }
  destruct op; cbn [sljit_set_const sljit_emit_const nth skipn app].
  - assert (H1 : isw (wrap v)) by apply wrap_isw. assert (H2 : isw (wrap v')) by apply wrap_isw. rewrite !imm64_eq by assumption. rewrite (set_jump_addr_eq _ (reg_map dst)); [apply app_nil_r|exact H2|].
    unfold mov_words. cbn [nth]. apply low5_mov0; [left; reflexivity|lia|apply ch_range].
  - rewrite !K. unfold RD. rewrite s32_low5 by lia. reflexivity.
  - rewrite !K. unfold RD. rewrite s32_low5 by lia. reflexivity.
  - unfold RD. rewrite u8_low5 by lia. reflexivity.
Qed.

(** ** Branch words *)
Lemma dec_b (lk : bool) imm : 0 <= imm < 2 ^ 26 -> decode_br ((if lk then BL else B) .| imm) = Some (IB lk imm).
Proof. intros H. destruct lk; decbr. Qed.
Lemma dec_bc imm cc : 0 <= imm < 2 ^ 19 -> 0 <= cc < 16 -> decode_br (B_CC .| Z.shiftl imm 5 .| cc) = Some (IBc imm cc).
Proof. intros. decbr. Qed.
Definition cb_op (sf nz : bool) : Z := 0x34000000 .| (if sf then 2 ^ 31 else 0) .| (if nz then 2 ^ 24 else 0).
Lemma dec_cb (sf nz : bool) imm rt : 0 <= imm < 2 ^ 19 -> 0 <= rt < 32 -> decode_br (cb_op sf nz .| Z.shiftl imm 5 .| rt) = Some (ICb sf nz imm rt).
Proof. intros. unfold cb_op. destruct sf, nz; decbr. Qed.
Lemma dec_br (lk : bool) rn : 0 <= rn < 32 -> decode_br ((if lk then BLR else BR) .| Z.shiftl rn 5) = Some (IBr lk rn).
Proof. intros. destruct lk; decbr. Qed.
Lemma dec_adr (pg : bool) hi lo0 rd : 0 <= hi < 2 ^ 19 -> 0 <= lo0 < 4 -> 0 <= rd < 32 ->
  decode_br ((if pg then ADRP else ADR) .| Z.shiftl lo0 29 .| Z.shiftl hi 5 .| rd) = Some (IAdr pg hi lo0 rd).
Proof. intros. destruct pg; decbr. Qed.
Lemma nbr_addi r x : 0 <= r < 32 -> 0 <= x < 2 ^ 12 -> decode_br (ADDI .| r .| Z.shiftl r 5 .| Z.shiftl x 10) = None.
Proof. intros. decbr. Qed.
Lemma dec_addi r x : 0 <= r < 32 -> 0 <= x < 2 ^ 12 -> decode (ADDI .| r .| Z.shiftl r 5 .| Z.shiftl x 10) = Some (IAddI true false false 0 x r r).
Proof. intros. dec. Qed.

(** ** Distances *)
Lemma field n D M : 1 <= n <= 32 -> M = 2 ^ n - 1 -> D mod 4 = 0 -> - 2 ^ (n + 1) <= D < 2 ^ (n + 1) ->
  0 <= Z.shiftr D 2 .& M < 2 ^ n /\ 4 * sext n (Z.shiftr D 2 .& M) = D.
Proof.
  intros Hn -> D4 HD. rewrite Z.shiftr_div_pow2 by lia. change (2 ^ 2) with 4. rewrite (land_low _ n) by lia.
  split; [apply mod_b; lia|]. rewrite sext_low by lia. pose proof (Z.div_mod D 4 ltac:(lia)) as DM. rewrite D4, Z.add_0_r in DM.
  assert (PN : 2 ^ (n + 1) = 4 * 2 ^ (n - 1)) by (change 4 with (2 ^ 2); rewrite <- Z.pow_add_r by lia; f_equal; lia).
  rewrite sext_small by lia. lia.
Qed.
Lemma dist p t : isw t -> exists k, sgn (wrap (t - p)) = t - p + k * 2 ^ 64 /\ wrap (wrap p + sgn (wrap (t - p))) = t.
Proof.
  intros Ht. destruct (sgn_wrap_mod (t - p)) as (k & K). exists k. split; [exact K|]. rewrite K, wrap_add_l.
  replace (p + (t - p + k * 2 ^ 64)) with (t + k * 2 ^ 64) by lia. unfold wrap. rewrite Z_mod_plus_full. apply Z.mod_small. exact Ht.
Qed.
Lemma dist4 p t : isw t -> t mod 4 = 0 -> p mod 4 = 0 -> sgn (wrap (t - p)) mod 4 = 0.
Proof.
  intros Ht T4 P4. destruct (dist p t Ht) as (k & K & _). rewrite K. change (2 ^ 64) with (2 ^ 62 * 4). rewrite Z.mul_assoc, Z_mod_plus_full, Zminus_mod, T4, P4. reflexivity.
Qed.
Lemma branch_to n p t M : 1 <= n <= 32 -> M = 2 ^ n - 1 -> isw t -> t mod 4 = 0 -> p mod 4 = 0 -> - 2 ^ (n + 1) <= sgn (wrap (t - p)) < 2 ^ (n + 1) ->
  let b := Z.shiftr (sgn (wrap (t - p))) 2 .& M in 0 <= b < 2 ^ n /\ wrap (wrap p + 4 * sext n b) = t.
Proof.
  intros Hn HM Ht T4 P4 HD b. destruct (field n _ M Hn HM (dist4 p t Ht T4 P4) HD) as (B1 & B2). split; [exact B1|].
  unfold b. rewrite B2. destruct (dist p t Ht) as (_ & _ & E). exact E.
Qed.
Lemma u32_land x m n : 0 <= n <= 32 -> m = 2 ^ n - 1 -> u32 x .& m = x mod 2 ^ n.
Proof. intros Hn ->. rewrite (land_low _ n) by lia. unfold u32. apply mod_back. lia. Qed.
Lemma join4 x n : 0 <= n -> (x / 4) mod 2 ^ n * 4 + x mod 4 = x mod 2 ^ (n + 2).
Proof.
  intros Hn. rewrite (Z.pow_add_r 2 n 2) by lia. change (2 ^ 2) with 4. rewrite (Z.mul_comm (2 ^ n) 4). pose proof (pow_pos n Hn). rewrite Z.rem_mul_r by lia. lia.
Qed.

(** ** ADR, ADRP and ADD *)
Lemma go_adr code a s (pg : bool) hi lo0 r tl : 0 <= hi < 2 ^ 19 -> 0 <= lo0 < 4 -> 0 <= r < 31 ->
  code_at 4 (((if pg then ADRP else ADR) .| Z.shiftl lo0 29 .| Z.shiftl hi 5 .| r) :: tl) a code ->
  exists s', goes code a s (a + 4) s' /\
    only s s' r (if pg then wrap (wrap a / 4096 * 4096 + sext 21 (hi * 4 + lo0) * 4096) else wrap (wrap a + sext 21 (hi * 4 + lo0))) /\ code_at 4 tl (a + 4) code.
Proof.
  intros H1 H2 H3 (C & CT). eexists. split; [|split; [apply only_wX; lia|exact CT]].
  apply runs_1. unfold step. rewrite C, dec_adr by lia. rewrite wrap_add_l. reflexivity.
Qed.
Lemma go_addi code a s r x v tl : 0 <= r < 31 -> 0 <= x < 2 ^ 12 -> xr s r = v -> isw v -> code_at 4 ((ADDI .| r .| Z.shiftl r 5 .| Z.shiftl x 10) :: tl) a code ->
  exists s', goes code a s (a + 4) s' /\ only s s' r (wrap (v + x)) /\ code_at 4 tl (a + 4) code.
Proof.
  intros Hr Hx V Hv C.
  destruct (go_1 code a s _ _ (wSP s r (wrap (v + x))) tl (nbr_addi r x ltac:(lia) Hx) (dec_addi r x ltac:(lia) Hx)) with (2 := C) as (G & CT).
  - unfold exec. cbn [dsz]. change (0 =? 1) with false. cbv iota zeta. unfold awc, rSP, lo. cbn [Z.b2z]. rewrite V. cbv zeta.
    replace (v mod 2 ^ 64) with v by (symmetry; apply Z.mod_small; exact Hv). rewrite Z.add_0_r. reflexivity.
  - exists (wSP s r (wrap (v + x))). split; [exact G|]. split; [apply only_wSP|exact CT].
Qed.
Lemma page_of p : exists k, wrap p / 4096 * 4096 = p / 4096 * 4096 + k * 2 ^ 64.
Proof.
  unfold wrap. pose proof (Z.div_mod p (2 ^ 64) ltac:(lia)) as DM. exists (- (p / 2 ^ 64)).
  replace (p mod 2 ^ 64) with (p + (- (p / 2 ^ 64) * 2 ^ 52) * 4096) by (change (2 ^ 64) with (2 ^ 52 * 4096) in *; lia).
  rewrite Z_div_plus_full by lia. change (2 ^ 64) with (2 ^ 52 * 4096). lia.
Qed.
Lemma ldiff_page p : Z.ldiff p 0xfff = p / 4096 * 4096.
Proof.
  change 0xfff with (Z.ones 12). rewrite Z.ldiff_ones_r, Z.shiftl_mul_pow2, Z.shiftr_div_pow2 by lia. reflexivity.
Qed.
Lemma go_page code a s r t tl : 0 <= r < 31 -> isw t -> - 2 ^ 32 <= sgn (wrap (t - a / 4096 * 4096)) < 2 ^ 32 -> code_at 4 (page_words r a t ++ tl) a code ->
  exists s', goes code a s (a + 8) s' /\ only s s' r t /\ code_at 4 tl (a + 8) code.
Proof.
  intros Hr Ht HA C. unfold page_words in C. rewrite ldiff_page in C. destruct (sgn_wrap_mod (t - a / 4096 * 4096)) as (k & K).
  set (A := sgn (wrap (t - a / 4096 * 4096))) in *. clearbody A. cbn [app] in C. cbv zeta in C.
  rewrite (u32_land _ 3 2), (u32_land _ 0x7ffff 19) in C by (reflexivity || lia). rewrite (land_low A 12) in C by (reflexivity || lia).
  rewrite !Z.shiftr_div_pow2 in C by lia. change (2 ^ 14) with (2 ^ 12 * 4) in C. rewrite <- Z.div_div in C by lia. change (2 ^ 12) with 4096 in C.
  destruct (go_adr code a s true ((A / 4096 / 4) mod 2 ^ 19) ((A / 4096) mod 2 ^ 2) r _ (mod_b _ 19 ltac:(lia)) (mod_b _ 2 ltac:(lia)) Hr C) as (s1 & G1 & O1 & C1).
  change (2 ^ 2) with 4 in O1. rewrite join4 in O1 by lia. change (19 + 2) with 21 in O1. pose proof (Z.div_mod A 4096 ltac:(lia)) as DM. pose proof (Z.mod_pos_bound A 4096 ltac:(lia)) as MB.
  rewrite sext_low, sext_small in O1 by (change (2 ^ (21 - 1)) with (2 ^ 20); lia).
  destruct (go_addi code (a + 4) s1 r (A mod 4096) _ _ Hr ltac:(lia) (proj1 O1) (wrap_isw _) C1) as (s2 & G2 & O2 & C2).
  replace (a + 4 + 4) with (a + 8) in * by lia. exists s2. split; [eapply goes_trans; eauto|]. split; [|exact C2]. eapply only_trans; [exact O1|].
  rewrite wrap_add_l in O2. destruct (page_of a) as (k2 & K2). rewrite K2 in O2.
  replace (a / 4096 * 4096 + k2 * 2 ^ 64 + A / 4096 * 4096 + A mod 4096) with (t + (k + k2) * 2 ^ 64) in O2 by lia.
  unfold wrap in O2. rewrite Z_mod_plus_full in O2. rewrite (Z.mod_small t) in O2 by exact Ht. exact O2.
Qed.

(** ** The branch in front *)
Definition skip_ok (c : jcond) : Prop := match c with JZero _ _ src => 1 <= src <= 26 \/ src = TMP_REG1 | _ => True end.
Lemma src_ok src : 1 <= src <= 26 \/ src = TMP_REG1 -> 0 <= reg_map src < 31.
Proof. intros [H | ->]; [apply dst_ok; auto|]. vm_compute. split; [discriminate|reflexivity]. Qed.
Lemma get_cc_range f ty : 0 <= get_cc f ty < 14.
Proof. destruct ty, f; cbn; lia. Qed.
Definition base (c : jcond) (inv : bool) (imm : Z) : Z :=
  match c with
  | JFlag f ty => B_CC .| Z.shiftl imm 5 .| (if inv then Z.lxor (get_cc f ty) 1 else get_cc f ty)
  | JZero eq w32 src => cb_op (negb w32) (xorb eq inv) .| Z.shiftl imm 5 .| reg_map src
  end.
Lemma skip_base c k : skip_ok c -> k = 0 \/ k = 1 \/ k = 2 \/ k = 4 -> skip_word c - Z.shiftl k 5 = base c false (6 - k).
Proof.
  intros S K. destruct c as [f ty | eq w32 src].
  - destruct K as [-> | [-> | [-> | ->]]]; destruct ty, f; reflexivity.
  - apply src_ok in S. unfold skip_word, base, RD. set (r := reg_map src) in *. clearbody r. rewrite xorb_false_r.
    assert (F : forallb (fun r => forallb (fun eq : bool => forallb (fun w32 : bool => forallb (fun k =>
      Z.lxor CBZ ((if w32 then W_OP else 0) .| (if eq then Z.shiftl 1 24 else 0)) .| Z.shiftl 6 5 .| r - Z.shiftl k 5 =? cb_op (negb w32) eq .| Z.shiftl (6 - k) 5 .| r)
      [0; 1; 2; 4]) [true; false]) [true; false]) (zseq 0 31) = true) by (vm_compute; reflexivity).
    rewrite forallb_forall in F. specialize (F r). rewrite forallb_forall in F. specialize (F ltac:(apply in_zseq; lia) eq ltac:(destruct eq; cbn; auto)).
    rewrite forallb_forall in F. specialize (F w32 ltac:(destruct w32; cbn; auto)). rewrite forallb_forall in F. specialize (F k ltac:(cbn; lia)). apply Z.eqb_eq in F. exact F.
Qed.
Lemma cond_base c imm : skip_ok c -> 0 <= imm < 2 ^ 19 ->
  (Z.lxor (skip_word c) (if is_cbz c then Z.shiftl 1 24 else 1) .& 0xff00001f) .| Z.shiftl imm 5 = base c true imm.
Proof.
  intros S _.
  assert (G : exists K r, Z.lxor (skip_word c) (if is_cbz c then Z.shiftl 1 24 else 1) .& 0xff00001f = K .| r /\ base c true imm = K .| Z.shiftl imm 5 .| r).
  { destruct c as [f ty | eq w32 src]; cbn [is_cbz base].
    - exists B_CC, (Z.lxor (get_cc f ty) 1). split; [destruct ty, f; reflexivity|reflexivity].
    - apply src_ok in S. exists (cb_op (negb w32) (xorb eq true)), (reg_map src). split; [|reflexivity]. unfold skip_word, RD. set (r := reg_map src) in *. clearbody r.
      assert (F : forallb (fun r => forallb (fun eq : bool => forallb (fun w32 : bool =>
        Z.lxor (Z.lxor CBZ ((if w32 then W_OP else 0) .| (if eq then Z.shiftl 1 24 else 0)) .| Z.shiftl 6 5 .| r) (Z.shiftl 1 24) .& 0xff00001f =? cb_op (negb w32) (xorb eq true) .| r)
        [true; false]) [true; false]) (zseq 0 31) = true) by (vm_compute; reflexivity).
      rewrite forallb_forall in F. specialize (F r). rewrite forallb_forall in F. specialize (F ltac:(apply in_zseq; lia) eq ltac:(destruct eq; cbn; auto)).
      rewrite forallb_forall in F. specialize (F w32 ltac:(destruct w32; cbn; auto)). apply Z.eqb_eq in F. exact F. }
  destruct G as (K & r & -> & ->). apply lor_swap.
Qed.
Lemma get_cc_ok f ty s : cond_holds s (get_cc f ty) = negb (flag_holds f ty s).
Proof. destruct ty, f; cbn; destruct (nf s), (zf s), (cf s), (vf s); reflexivity. Qed.
Lemma get_cc_inv f ty s : cond_holds s (Z.lxor (get_cc f ty) 1) = flag_holds f ty s.
Proof. destruct ty, f; cbn; destruct (nf s), (zf s), (cf s), (vf s); reflexivity. Qed.
Lemma step_base code a s c (inv : bool) imm : skip_ok c -> 0 <= imm < 2 ^ 19 -> code (wrap a) = base c inv imm ->
  step code (wrap a, s) = Some (if Bool.eqb inv (jcond_holds (Some c) s) then wrap (wrap a + 4 * sext 19 imm) else wrap (a + 4), s).
Proof.
  intros S I E. unfold step. rewrite E, wrap_add_l. destruct c as [f ty | eq w32 src]; cbn [base jcond_holds].
  - pose proof (get_cc_range f ty) as R. destruct inv.
    + rewrite dec_bc; [|exact I|]. 2:{ assert (L : Z.lxor (get_cc f ty) 1 < 16 /\ 0 <= Z.lxor (get_cc f ty) 1) by (destruct ty, f; cbn; lia). lia. }
      rewrite get_cc_inv. destruct (flag_holds f ty s); reflexivity.
    + rewrite dec_bc by lia. rewrite get_cc_ok. destruct (flag_holds f ty s); reflexivity.
  - apply src_ok in S. rewrite dec_cb by lia. cbv zeta. unfold rX, lo. replace (reg_map src =? 31) with false by lia.
    replace (dsz (negb w32)) with (if w32 then 32 else 64) by (destruct w32; reflexivity).
    destruct (xr s (reg_map src) mod 2 ^ (if w32 then 32 else 64) =? 0), eq, inv; reflexivity.
Qed.

(** ** Jumps *)
Lemma go_br code a s (lk : bool) r tl : 0 <= r < 31 -> code_at 4 (((if lk then BLR else BR) .| Z.shiftl r 5) :: tl) a code -> isw (xr s r) ->
  goes code a s (xr s r) (if lk then wX s 30 (wrap (a + 4)) else s).
Proof.
  intros Hr (C & _) I. unfold goes. rewrite (wrap_small (xr s r) I). apply runs_1. unfold step. rewrite C, dec_br by lia. unfold rX. replace (r =? 31) with false by lia.
  rewrite wrap_add_l. reflexivity.
Qed.
Lemma link_jumped s s1 v (lk : bool) ret : same_but (fun k => k = 10) s s1 -> v = wrap ret -> jumped lk ret s (if lk then wX s1 30 v else s1).
Proof.
  intros (A & B & C & D & E & F) ->. unfold jumped, same_but. destruct lk.
  - unfold wX, upd. change (30 =? 31) with false. cbv iota. cbn [xr nf zf cf vf mm]. split; [|intros _; reflexivity]. split; [|auto].
    intros k Hk. replace (k =? 30) with false by lia. apply A. intros ->. apply Hk. auto.
  - split; [|discriminate]. split; [|auto]. intros k Hk. apply A. intros ->. apply Hk. auto.
Qed.
Lemma same_refl f s : same_but f s s.
Proof. repeat split; auto. Qed.
Definition load_ok (n : Z) (ws : list Z) (q t : Z) : Prop := forall code s tl, code_at 4 (ws ++ tl) q code ->
  exists s', goes code q s (q + 4 * n) s' /\ only s s' 10 t /\ code_at 4 tl (q + 4 * n) code.
Lemma load_br n ws q t lk code s : isw t -> load_ok n ws q t -> code_at 4 (ws ++ [br_word lk]) q code ->
  exists s', goes code q s t s' /\ jumped lk (q + 4 * n + 4) s s'.
Proof.
  intros Ht L C. destruct (L code s _ C) as (s1 & G1 & O1 & C1). destruct (only_gets _ _ _ _ O1) as (X & SB).
  unfold br_word, RN in C1. change (reg_map TMP_REG2) with 10 in C1.
  pose proof (go_br code _ s1 lk 10 _ ltac:(lia) C1) as G2. rewrite X in G2. specialize (G2 Ht).
  eexists. split; [eapply goes_trans; [exact G1|exact G2]|]. apply link_jumped; [exact SB|reflexivity].
Qed.
Lemma load_abs n q t : isw t -> (n = 2%nat /\ t < 2 ^ 32) \/ (n = 3%nat /\ t < 2 ^ 48) \/ n = 4%nat -> load_ok (Z.of_nat n) (abs_words n 10 t) q t.
Proof. intros Ht Hn code s tl C. rewrite abs_words_eq in C by exact Ht. exact (go_mov code q s 10 t n tl ltac:(lia) Ht Hn C). Qed.
Lemma load_page q t : isw t -> - 2 ^ 32 <= sgn (wrap (t - q / 4096 * 4096)) < 2 ^ 32 -> load_ok 2 (page_words 10 q t) q t.
Proof. intros Ht HA code s tl C. exact (go_page code q s 10 t tl ltac:(lia) Ht HA C). Qed.
(** The part after the branch in front. *)
Definition tail_ok (n : Z) (ws : list Z) (lk : bool) (q t : Z) : Prop := Z.of_nat (length ws) = n /\
  forall code s, code_at 4 ws q code -> exists s', goes code q s t s' /\ jumped lk (q + 4 * n) s s'.
Lemma tail_b q t (lk : bool) : isw t -> t mod 4 = 0 -> q mod 4 = 0 -> - 2 ^ 27 <= sgn (wrap (t - q)) < 2 ^ 27 ->
  tail_ok 1 [(if lk then BL else B) .| (Z.shiftr (sgn (wrap (t - q))) 2 .& 0x3ffffff)] lk q t.
Proof.
  intros Ht T4 Q4 HD. split; [reflexivity|]. intros code s (C & _).
  destruct (branch_to 26 q t 0x3ffffff ltac:(lia) eq_refl Ht T4 Q4 HD) as (B1 & B2). set (b := Z.shiftr (sgn (wrap (t - q))) 2 .& 0x3ffffff) in *. clearbody b.
  exists (if lk then wX s 30 (wrap (q + 4)) else s). split.
  - unfold goes. rewrite (wrap_small t Ht). apply runs_1. unfold step. rewrite C, dec_b by lia. rewrite B2, wrap_add_l. reflexivity.
  - apply link_jumped; [apply same_refl|reflexivity].
Qed.
Lemma tail_load n ws q t lk : isw t -> Z.of_nat (length ws) = n -> load_ok n ws q t -> tail_ok (n + 1) (ws ++ [br_word lk]) lk q t.
Proof.
  intros Ht L LO. split; [rewrite app_length; cbn [length]; lia|]. intros code s C. replace (q + 4 * (n + 1)) with (q + 4 * n + 4) by lia.
  exact (load_br n ws q t lk code s Ht LO C).
Qed.
Lemma jump_tail c lk k n ws p t code s : legal c lk -> isw t -> 5 - k = n -> k = 0 \/ k = 1 \/ k = 2 \/ k = 4 ->
  tail_ok n ws lk (if is_cond c then p + 4 else p) t -> code_at 4 (skip_words c k ++ ws) p code ->
  let e := p + 4 * Z.of_nat (length (skip_words c k ++ ws)) in
  if jcond_holds c s then exists s', goes code p s t s' /\ jumped lk e s s' else goes code p s e s.
Proof.
  intros (L1 & L2) Ht Hk K (TL & T) C e. unfold e. clear e. rewrite app_length.
  destruct c as [c|]; cbn [is_cond skip_words app length] in *.
  - destruct C as (C1 & C2). rewrite (skip_base c k L2 K) in C1.
    assert (R : 0 <= 6 - k < 2 ^ 19) by lia. pose proof (step_base code p s c false (6 - k) L2 R C1) as ST.
    rewrite sext_small in ST by (change (2 ^ (19 - 1)) with (2 ^ 18); lia). rewrite wrap_add_l in ST.
    destruct (jcond_holds (Some c) s); cbn [Bool.eqb] in ST.
    + destruct (T code s C2) as (s' & G & J). exists s'. split; [eapply goes_trans; [apply runs_1; exact ST|exact G]|].
      replace (p + 4 * Z.of_nat (1 + length ws)) with (p + 4 + 4 * n) by lia. exact J.
    + replace (p + 4 * Z.of_nat (1 + length ws)) with (p + 4 * (6 - k)) by lia. apply runs_1. exact ST.
  - cbn [jcond_holds]. destruct (T code s C) as (s' & G & J). exists s'. split; [exact G|]. replace (p + 4 * Z.of_nat (0 + length ws)) with (p + 4 * n) by lia. exact J.
Qed.
Lemma jump_ok f c lk p t code s : legal c lk -> isw t -> t mod 4 = 0 -> p mod 4 = 0 -> form_ok f c p t -> code_at 4 (jump_words f c lk p t) p code ->
  let e := p + 4 * Z.of_nat (length (jump_words f c lk p t)) in
  if jcond_holds c s then exists s', goes code p s t s' /\ jumped lk e s s' else goes code p s e s.
Proof.
  intros L Ht T4 P4 F. pose proof L as (L1 & L2).
  assert (Q4 : (if is_cond c then p + 4 else p) mod 4 = 0).
  { destruct (is_cond c); [|exact P4]. replace (p + 4) with (p + 1 * 4) by lia. rewrite Z_mod_plus_full. exact P4. }
  unfold jump_words. replace (Z.shiftr (br_word lk) 5 .& 0x1f) with 10 by (destruct lk; reflexivity).
  destruct f; cbn [form_ok] in F; cbv zeta.
  - destruct F as (F1 & F2). destruct c as [c|]; [|discriminate F1]. specialize (L1 eq_refl). subst lk. intros (C & _).
    destruct (branch_to 19 p t 0x7ffff ltac:(lia) eq_refl Ht T4 P4 F2) as (B1 & B2). set (b := Z.shiftr (sgn (wrap (t - p))) 2 .& 0x7ffff) in *. clearbody b.
    rewrite (cond_base c b L2 B1) in C. pose proof (step_base code p s c true b L2 B1 C) as ST. rewrite B2 in ST. cbn [length].
    destruct (jcond_holds (Some c) s); cbn [Bool.eqb] in ST.
    + exists s. split; [unfold goes; rewrite (wrap_small t Ht); apply runs_1; exact ST|]. split; [apply same_refl|discriminate].
    + change (4 * Z.of_nat 1) with 4. apply runs_1. exact ST.
  - intros C. eapply jump_tail with (n := 1); try eassumption; [lia|auto|]. apply tail_b; assumption.
  - intros C. eapply jump_tail with (n := 3); try eassumption; [lia|auto|]. apply (tail_load 2); [exact Ht|reflexivity|]. apply (load_abs 2); [exact Ht|auto].
  - intros C. eapply jump_tail with (n := 3); try eassumption; [lia|auto|]. apply (tail_load 2); [exact Ht|reflexivity|]. apply load_page; assumption.
  - intros C. eapply jump_tail with (n := 4); try eassumption; [lia|auto|]. apply (tail_load 3); [exact Ht|reflexivity|]. apply (load_abs 3); [exact Ht|auto].
  - intros C. eapply jump_tail with (n := 5); try eassumption; [lia|auto|]. apply (tail_load 4); [exact Ht|reflexivity|]. apply (load_abs 4); [exact Ht|auto].
Qed.
(** The form chosen. *)
Lemma page_near p t : isw t -> - 2 ^ 32 <= sgn (wrap (t - p)) <= 0xfffff000 -> - 2 ^ 32 <= sgn (wrap (t - p / 4096 * 4096)) < 2 ^ 32.
Proof.
  intros Ht H. pose proof (Z.div_mod p 4096 ltac:(lia)) as DM. pose proof (Z.mod_pos_bound p 4096 ltac:(lia)) as MB.
  destruct (sgn_wrap_mod (t - p)) as (k & K).
  assert (E : sgn (wrap (t - p / 4096 * 4096)) = sgn (wrap (t - p)) + p mod 4096).
  { unfold sgn at 1. unfold wrap at 1. rewrite sext_low by lia. apply (sext_unique 64 _ _ (- k)); [lia|change (2 ^ (64 - 1)) with (2 ^ 63); lia|lia]. }
  rewrite E. lia.
Qed.
Lemma detect_ok rw c p t : isw t -> form_ok (link_form rw c p t) c p t.
Proof.
  intros Ht. unfold link_form. set (q := if is_cond c then p + 4 else p). unfold detect_jump_type. pose proof (page_near q t Ht) as PN.
  pose proof (dist q t Ht) as (k & K & _). set (D := sgn (wrap (t - q))) in *.
  destruct rw; [exact I|]. destruct (is_cond c && ((D + 4 <=? 0xfffff) && (-0x100000 <=? D + 4))) eqn:W1.
  { cbn [form_ok]. apply andb_prop in W1. destruct W1 as (W0 & W1). split; [exact W0|].
    assert (K' : D = t - (p + 4) + k * 2 ^ 64) by (rewrite K; unfold q; rewrite W0; reflexivity).
    assert (DB : - 2 ^ 20 <= D + 4 < 2 ^ 20) by (clearbody D; clear - W1; lia). clearbody D. clear PN W1 K.
    assert (E : sgn (wrap (t - p)) = D + 4).
    { unfold sgn, wrap. rewrite sext_low by lia. apply (sext_unique 64 _ _ (- k)); [lia|change (2 ^ (64 - 1)) with (2 ^ 63); lia|lia]. }
    rewrite E. exact DB. }
  destruct ((D <=? 0x7ffffff) && (-0x8000000 <=? D)) eqn:W2; [cbn [form_ok]; fold q; fold D; lia|].
  destruct (t <? 0x100000000) eqn:W3; [cbn [form_ok]; lia|].
  destruct ((D <=? 0xfffff000) && (-0x100000000 <=? D)) eqn:W4; [cbn [form_ok]; fold q; apply PN; lia|].
  destruct (t <? 0x1000000000000) eqn:W5; cbn [form_ok]; [lia|exact I].
Qed.
Lemma link_jump_ok rw c lk p t code s : legal c lk -> isw t -> t mod 4 = 0 -> p mod 4 = 0 -> code_at 4 (link_jump rw c lk p t) p code ->
  let e := p + 4 * Z.of_nat (length (link_jump rw c lk p t)) in
  if jcond_holds c s then exists s', goes code p s t s' /\ jumped lk e s s' else goes code p s e s.
Proof. intros L Ht T4 P4 C. apply jump_ok; auto. apply detect_ok. exact Ht. Qed.

(** ** Sizes *)
Definition form_len (f : form) : Z := match f with FCond => 0 | FB => 1 | FAbs32 | FB32 => 3 | FAbs48 => 4 | FAbs64 => 5 end.
Lemma words_len f c lk p t : Z.of_nat (length (jump_words f c lk p t)) = Z.b2z (is_cond c) + form_len f.
Proof. destruct f, c as [c|]; reflexivity. Qed.
Lemma link_jump_len rw c lk p t : Z.of_nat (length (link_jump rw c lk p t)) <= Z.b2z (is_cond c) + reserved rw t.
Proof.
  unfold link_jump. rewrite words_len.
  unfold link_form, detect_jump_type, reserved. cbv zeta. destruct rw; [cbn [form_len]; lia|]. set (q := if is_cond c then p + 4 else p). clearbody q.
  set (D := sgn (wrap (t - q))). clearbody D. destruct (is_cond c); cbn [andb];
  repeat match goal with |- context [form_len (if ?b then _ else _)] => destruct b eqn:?; cbn [form_len] end;
  destruct (t <? 0x100000000) eqn:?; destruct (t <? 0x1000000000000) eqn:?; try discriminate; lia.
Qed.
(** A jump to a label: the distance [k] in instructions from the jump (the word after the branch in front), [k0] when the space was kept. *)
Lemma link_label_len rw c lk p k k0 : 0 <= p -> isw (p + 4 * k) -> - 2 ^ 60 <= k0 < 2 ^ 60 -> nearer k k0 -> let p0 := if is_cond c then p - 4 else p in
  Z.of_nat (length (link_jump rw c lk p0 (p + 4 * k))) <= Z.b2z (is_cond c) + reserved_label rw (is_cond c) k0.
Proof.
  intros Hp Ht Hk N p0. set (t := p + 4 * k) in *. unfold link_jump. rewrite words_len.
  unfold link_form. replace (if is_cond c then p0 + 4 else p0) with p by (unfold p0; destruct (is_cond c); lia).
  assert (E : sgn (wrap (t - p)) = 4 * k).
  { unfold sgn, wrap. rewrite sext_low by lia. replace (t - p) with (4 * k) by (unfold t; lia). apply sext_small; unfold nearer in N; change (2 ^ (64 - 1)) with (2 ^ 63); lia. }
  unfold detect_jump_type, reserved_label. rewrite E. clear E. clearbody t. unfold nearer in N.
  change (0xfffff / 4) with 0x3ffff. change (-0x100000 / 4) with (-0x40000). change (0x7ffffff / 4) with 0x1ffffff. change (-0x8000000 / 4) with (-0x2000000).
  change (0xfffff000 / 4) with 0x3ffffc00. change (-0x100000000 / 4) with (-0x40000000). cbv zeta.
  destruct rw; [cbn [form_len]; lia|]. destruct (is_cond c); cbn [andb Z.b2z];
  repeat match goal with |- context [form_len (if ?b then _ else _)] => destruct b eqn:?; cbn [form_len] end;
  repeat match goal with |- context [if ?b then _ else _] => destruct b eqn:? end; try discriminate; lia.
Qed.
Lemma ijump_ok code a s lk src : 1 <= src <= 26 \/ 28 <= src <= 31 -> isw (xr s (reg_map src)) -> code_at 4 (ijump_reg lk src) a code ->
  exists s', goes code a s (xr s (reg_map src)) s' /\ jumped lk (a + 4) s s'.
Proof.
  intros Hs I C. pose proof (dst_ok src Hs) as Hr. eexists. split; [apply (go_br code a s lk _ [] Hr C I)|]. apply link_jumped; [apply same_refl|reflexivity].
Qed.

(** ** Addresses *)
Definition aform_ok (f : aform) (p t : Z) : Prop :=
  match f with
  | AAdr => - 2 ^ 20 <= sgn (wrap (t - p)) < 2 ^ 20
  | APage => - 2 ^ 32 <= sgn (wrap (t - p / 4096 * 4096)) < 2 ^ 32
  | AAbs n => (n = 2%nat /\ t < 2 ^ 32) \/ (n = 3%nat /\ t < 2 ^ 48) \/ n = 4%nat
  end.
Lemma addr_ok f r p t code s : 0 <= r < 31 -> isw t -> aform_ok f p t -> code_at 4 (mov_addr_words f r p t) p code ->
  exists s', goes code p s (p + 4 * Z.of_nat (length (mov_addr_words f r p t))) s' /\ gets s s' r t.
Proof.
  intros Hr Ht F C. rewrite <- (app_nil_r (mov_addr_words f r p t)) in C. destruct f; cbn [mov_addr_words aform_ok] in *.
  - rewrite (u32_land _ 3 2), (u32_land _ 0x7ffff 19) in C by (reflexivity || lia). rewrite Z.shiftr_div_pow2 in C by lia. cbn [app] in C. pose proof (dist p t Ht) as (k & _ & K).
    set (A := sgn (wrap (t - p))) in *. clearbody A.
    destruct (go_adr code p s false ((A / 2 ^ 2) mod 2 ^ 19) (A mod 2 ^ 2) r _ (mod_b _ 19 ltac:(lia)) (mod_b _ 2 ltac:(lia)) Hr C) as (s1 & G1 & O1 & C1).
    change (2 ^ 2) with 4 in O1. rewrite join4 in O1 by lia. change (19 + 2) with 21 in O1. rewrite sext_low, sext_small, K in O1 by (change (2 ^ (21 - 1)) with (2 ^ 20); lia).
    exists s1. split; [exact G1|apply only_gets; exact O1].
  - destruct (go_page code p s r t _ Hr Ht F C) as (s1 & G1 & O1 & C1). exists s1. split; [exact G1|apply only_gets; exact O1].
  - rewrite abs_words_eq in * by exact Ht. destruct (go_mov code p s r t n _ Hr Ht F C) as (s1 & G1 & O1 & C1). exists s1. split; [|apply only_gets; exact O1].
    replace (length (firstn n (mov_words r (ch 0 t) (ch 1 t) (ch 2 t) (ch 3 t)))) with n; [exact G1|].
    destruct F as [(-> & _) | [(-> & _) | ->]]; reflexivity.
Qed.
Lemma mov_addr_form_ok p t : isw t -> aform_ok (mov_addr_form p t) p t.
Proof.
  intros Ht. unfold mov_addr_form. pose proof (page_near p t Ht) as PN. set (D := sgn (wrap (t - p))) in *.
  destruct ((D <=? 0xfffff) && (-0x100000 <=? D)) eqn:W1; [cbn [aform_ok]; fold D; lia|].
  destruct ((D <=? 0xfffff000) && (-0x100000000 <=? D)) eqn:W2; [cbn [aform_ok]; apply PN; lia|].
  destruct (t <? 0x100000000) eqn:W3; [left; split; [reflexivity|lia]|].
  destruct (t <? 0x1000000000000) eqn:W4; [right; left; split; [reflexivity|lia]|right; right; reflexivity].
Qed.
Lemma link_addr_ok reg p t code s : 1 <= reg <= 26 \/ 28 <= reg <= 31 -> isw t -> code_at 4 (link_addr reg p t) p code ->
  exists s', goes code p s (p + 4 * Z.of_nat (length (link_addr reg p t))) s' /\ gets s s' (reg_map reg) t.
Proof. intros Hr Ht C. apply addr_ok; [apply dst_ok; exact Hr|exact Ht|apply mov_addr_form_ok; exact Ht|exact C]. Qed.
Definition aform_len (f : aform) : Z := match f with AAdr => 1 | APage => 2 | AAbs n => Z.of_nat (Nat.min n 4) end.
Lemma addr_words_len f r p t : Z.of_nat (length (mov_addr_words f r p t)) = aform_len f.
Proof. destruct f; try reflexivity. cbn [mov_addr_words aform_len]. unfold abs_words. rewrite firstn_length. reflexivity. Qed.
Lemma link_addr_len reg p t : Z.of_nat (length (link_addr reg p t)) <= reserved_addr t.
Proof.
  unfold link_addr. rewrite addr_words_len. unfold mov_addr_form, reserved_addr. cbv zeta. set (D := sgn (wrap (t - p))). clearbody D.
  repeat match goal with |- context [aform_len (if ?b then _ else _)] => destruct b eqn:?; cbn [aform_len] end;
  repeat match goal with |- context [if ?b then _ else _] => destruct b eqn:? end; try discriminate; cbn; lia.
Qed.
Lemma link_addr_label_len reg p k k0 : 0 <= p -> isw (p + 4 * k) -> - 2 ^ 60 <= k0 < 2 ^ 60 -> nearer k k0 ->
  Z.of_nat (length (link_addr reg p (p + 4 * k))) <= reserved_addr_label k0.
Proof.
  intros Hp Ht Hk N. unfold link_addr. rewrite addr_words_len. set (t := p + 4 * k) in *.
  assert (E : sgn (wrap (t - p)) = 4 * k).
  { unfold sgn, wrap. rewrite sext_low by lia. replace (t - p) with (4 * k) by (unfold t; lia). apply sext_small; unfold nearer in N; change (2 ^ (64 - 1)) with (2 ^ 63); lia. }
  unfold mov_addr_form, reserved_addr_label. rewrite E. clear E. clearbody t. unfold nearer in N.
  change (0xfffff / 4) with 0x3ffff. change (-0x100000 / 4) with (-0x40000). change (0xfffff000 / 4) with 0x3ffffc00. change (-0x100000000 / 4) with (-0x40000000). cbv zeta.
  repeat match goal with |- context [aform_len (if ?b then _ else _)] => destruct b eqn:?; cbn [aform_len] end;
  repeat match goal with |- context [if ?b then _ else _] => destruct b eqn:? end; try discriminate; cbn [Z.of_nat Nat.min Pos.of_succ_nat Pos.succ]; lia.
Qed.

(** A rewritable jump after sljit_set_jump_addr is the jump to the new target. *)
Lemma set_rewritable_ok c lk p t t' : isw t -> isw t' ->
  let n := if is_cond c then 1%nat else 0%nat in
  firstn n (link_jump true c lk p t) ++ sljit_set_jump_addr (skipn n (link_jump true c lk p t)) t' = link_jump true c lk p t'.
Proof.
  intros Ht Ht' n. unfold link_jump, link_form, detect_jump_type, jump_words. cbv zeta.
  replace (Z.shiftr (br_word lk) 5 .& 0x1f) with 10 by (destruct lk; reflexivity). rewrite !abs_words_eq by assumption.
  assert (W : sljit_set_jump_addr (mov_words 10 (ch 0 t) (ch 1 t) (ch 2 t) (ch 3 t) ++ [br_word lk]) t' = mov_words 10 (ch 0 t') (ch 1 t') (ch 2 t') (ch 3 t') ++ [br_word lk]).
  { rewrite (set_jump_addr_eq _ 10 t' Ht'); [reflexivity|]. unfold mov_words. cbn [app nth]. apply low5_mov0; [left; reflexivity|lia|apply ch_range]. }
  change (firstn 4 (mov_words 10 (ch 0 t) (ch 1 t) (ch 2 t) (ch 3 t))) with (mov_words 10 (ch 0 t) (ch 1 t) (ch 2 t) (ch 3 t)).
  change (firstn 4 (mov_words 10 (ch 0 t') (ch 1 t') (ch 2 t') (ch 3 t'))) with (mov_words 10 (ch 0 t') (ch 1 t') (ch 2 t') (ch 3 t')).
  unfold n. destruct c as [c|]; cbn [is_cond skip_words app firstn skipn]; rewrite W; reflexivity.
Qed.
