(** Constants on x86-64: what the code of sljit_emit_const does, and where the value is. *)
Require Import ZArith List Bool Lia.
From Verif Require Import Rv.RvLib Rv.RvBits Rv.RvIsa Rv.RvMem Rv.RvEmitOp1 X86.X86Isa X86.X86Emit X86.X86Spec X86.X86Enc X86.X86EncTop X86.X86OpSpec X86.X86Op X86.X86Ins X86.X86Ins2 X86.X86Mov X86.X86Op1 X86.X86C43 X86.X86Link X86.X86Const.
Import ListNotations.
Ltac Zify.zify_post_hook ::= idtac.
Open Scope Z_scope.

Lemma lebytes_mod : forall k v v', v mod 2 ^ (8 * Z.of_nat k) = v' mod 2 ^ (8 * Z.of_nat k) -> lebytes k v = lebytes k v'.
Proof.
  induction k as [|k IH]; intros v v' H; [reflexivity|]. cbn [lebytes]. replace (8 * Z.of_nat (S k)) with (8 + 8 * Z.of_nat k) in H by lia. rewrite Z.pow_add_r in H by lia. change (2 ^ 8) with 256 in H.
  assert (P : 0 < 2 ^ (8 * Z.of_nat k)) by (apply Z.pow_pos_nonneg; lia). rewrite !Z.rem_mul_r in H by lia.
  pose proof (Z.mod_pos_bound v 256 ltac:(lia)). pose proof (Z.mod_pos_bound v' 256 ltac:(lia)). pose proof (Z.mod_pos_bound (v / 256) _ P). pose proof (Z.mod_pos_bound (v' / 256) _ P).
  f_equal; [lia|]. apply IH. lia.
Qed.
Lemma norm_u8_sext : forall v, norm_u8 v = sext 9 v.
Proof.
  intros v. unfold norm_u8. assert (B : Z.land v 0x100 =? 0 = negb (Z.testbit v 8)).
  { change 0x100 with (2 ^ 8). destruct (Z.testbit v 8) eqn:E; cbn [negb].
    - apply Z.eqb_neq. intros X. assert (Y : Z.testbit (Z.land v (2 ^ 8)) 8 = false) by (rewrite X; reflexivity). rewrite Z.land_spec, E, Z.pow2_bits_true in Y by lia. discriminate.
    - apply Z.eqb_eq. apply Z.bits_inj'. intros i I. rewrite Z.land_spec, Z.bits_0, Z.pow2_bits_eqb by lia. destruct (Z.eqb_spec 8 i); [subst i; rewrite E; reflexivity|apply andb_false_r]. }
  rewrite B, negb_involutive. assert (N : 9 - 1 = 8) by reflexivity.
  assert (D : v mod 512 = v mod 256 + 256 * ((v / 256) mod 2)) by (change 512 with (256 * 2); apply Z.rem_mul_r; lia).
  assert (T : Z.testbit v 8 = ((v / 256) mod 2 =? 1)). { rewrite Z.testbit_eqb by lia. reflexivity. }
  pose proof (Z.mod_pos_bound v 256 ltac:(lia)) as R. pose proof (Z.mod_pos_bound (v / 256) 2 ltac:(lia)) as R2.
  unfold sext. change (2 ^ 9) with 512. change (2 ^ (9 - 1)) with 256. rewrite D. rewrite T. destruct (Z.eqb_spec ((v / 256) mod 2) 1) as [E|E].
  - rewrite E. assert (L : Z.lor v (-0x100) = v mod 256 - 256).
    { apply Z.bits_inj'. intros i I. rewrite Z.lor_spec. replace (v mod 256 - 256) with (v mod 2 ^ 8 + (-1) * 2 ^ 8) by (change (2 ^ 8) with 256; lia). change (-0x100) with (-1 * 2 ^ 8).
      destruct (Z_lt_le_dec i 8) as [L|L].
      - rewrite <- (Z.mod_pow2_bits_low (v mod 2 ^ 8 + _) 8 i), Z.mod_add, Z.mod_mod, Z.mod_pow2_bits_low by lia. rewrite Z.mul_pow2_bits_low by lia. apply orb_false_r.
      - rewrite Z.mul_pow2_bits, Z.bits_m1 by lia. rewrite orb_true_r. symmetry. replace (v mod 2 ^ 8 + -1 * 2 ^ 8) with (-1 - (255 - v mod 2 ^ 8)) by (change (2 ^ 8) with 256; lia).
        replace (-1 - (255 - v mod 2 ^ 8)) with (Z.lnot (255 - v mod 2 ^ 8)) by (unfold Z.lnot; lia). rewrite Z.lnot_spec by lia. rewrite (Z.bits_above_log2 (255 - v mod 2 ^ 8)); [reflexivity|change (2 ^ 8) with 256; lia|].
        apply Z.le_lt_trans with (Z.log2 255); [apply Z.log2_le_mono; change (2 ^ 8) with 256; lia|cbn; lia]. }
    rewrite L. replace (v mod 256 + 256 * 1 <? 256) with false by (symmetry; apply Z.ltb_ge; lia). lia.
  - replace ((v / 256) mod 2) with 0 by lia. unfold u8. replace (v mod 256 + 256 * 0 <? 256) with true by (symmetry; apply Z.ltb_lt; lia). lia.
Qed.

(** ** Where the value is *)
Lemma sext_bounds : forall n v, 1 <= n -> - 2 ^ (n - 1) <= sext n v < 2 ^ (n - 1).
Proof.
  intros n v N. unfold sext. assert (E : 2 ^ n = 2 * 2 ^ (n - 1)) by (rewrite <- Z.pow_succ_r by lia; f_equal; lia). assert (P : 0 < 2 ^ (n - 1)) by (apply Z.pow_pos_nonneg; lia).
  pose proof (Z.mod_pos_bound v (2 ^ n) ltac:(lia)) as R. cbv zeta. destruct (Z.ltb_spec (v mod 2 ^ n) (2 ^ (n - 1))); lia.
Qed.
Lemma half_of : forall v, - 2 ^ 31 <= v < 2 ^ 31 -> is_halfword v = true /\ not_halfword v = false.
Proof. intros v H. unfold is_halfword, not_halfword. rewrite andb_true_iff, orb_false_iff. lia. Qed.
Lemma ins_shape : forall w m b immb v l, - 2 ^ 31 <= v < 2 ^ 31 -> ins w m (fl 1) 0xc7 AImm v b immb = Some l ->
  exists h, l = h ++ lebytes 4 v /\ forall v', - 2 ^ 31 <= v' < 2 ^ 31 -> ins w m (fl 1) 0xc7 AImm v' b immb = Some (h ++ lebytes 4 v').
Proof.
  intros w m b immb v l V E.
  assert (G : forall v, - 2 ^ 31 <= v < 2 ^ 31 -> ins w m (fl 1) 0xc7 AImm v b immb =
    (let '(pre, b1, immb1) := big_disp w b immb in
     match size_b w (fl 1) (if negb m then REX_W else 0) b1 immb1 with
     | None => None
     | Some (b2, szb, rex) =>
       let head := if rex =? 0 then [] else [rex] in
       let tl := put_b w (fl 1) 0 b2 immb1 in
       if Z.of_nat (length head) + 1 + Z.of_nat (length tl + 4) =? 1 + 1 + 0 + szb + 4 + (if rex =? 0 then 0 else 1) then Some ((pre ++ head ++ [0xc7] ++ tl) ++ lebytes 4 v) else None
     end)).
  { clear - b. intros v V. destruct (half_of v V) as [HW _]. unfold ins, emit_x86. replace (asserts m (fl 1) AImm v) with true by (unfold asserts; rewrite HW; destruct m; reflexivity). cbn [negb f_norexw fl f_rex]. rewrite andb_true_r.
    destruct (big_disp w b immb) as [[pre b1] immb1]. destruct (size_b w (fl 1) (if negb m then REX_W else 0) b1 immb1) as [[[b2 szb] rex]|]; [|reflexivity].
    cbn [f_vex fl andb negb f_size size_a f_bin f_shift f_byte f_half pref f_66 f_f2 f_f3 orb is_imm]. cbv zeta. cbn [app]. rewrite app_length, lebytes_length. destruct (_ =? _); [|reflexivity]. unfold put1, option_map. cbn [o_pre o_head o_tail].
    rewrite <- !app_assoc. reflexivity. }
  rewrite G in E by exact V. destruct (big_disp w b immb) as [[pre b1] immb1]. destruct (size_b w (fl 1) (if negb m then REX_W else 0) b1 immb1) as [[[b2 szb] rex]|]; [|discriminate].
  cbv zeta in E. destruct (_ =? _) eqn:C; [|discriminate]. injection E as <-. eexists. split; [reflexivity|]. intros v' V'. rewrite G by exact V'. cbv zeta. rewrite C. reflexivity.
Qed.
Lemma norm_range : forall v, - 2 ^ 31 <= norm_u8 v < 2 ^ 31.
Proof. intros v. rewrite norm_u8_sext. pose proof (sext_bounds 9 v ltac:(lia)). change (2 ^ (9 - 1)) with 256 in *. lia. Qed.
Lemma mov_shape : forall w (m : bool) dst dstw v l, - 2 ^ 31 <= v < 2 ^ 31 -> emit_mov w m dst dstw AImm v = Some l ->
  exists h, l = h ++ lebytes 4 v /\ forall v', - 2 ^ 31 <= v' < 2 ^ 31 -> emit_mov w m dst dstw AImm v' = Some (h ++ lebytes 4 v').
Proof.
  intros w m dst dstw v l V E. cbn [emit_mov] in *.
  assert (N : forall v, - 2 ^ 31 <= v < 2 ^ 31 -> not_halfword v = false) by (intros x X; apply half_of, X).
  destruct dst as [d| |x y].
  - destruct m; cbn [negb] in *.
    + injection E as <-. unfold do_imm32. set (r := if 8 <=? reg_map w d then REX_B else 0). exists ((if r =? 0 then [] else [r]) ++ [u8 (Z.lor 0xb8 (reg_lmap w d))]). split; [rewrite <- app_assoc; reflexivity|]. intros v' _. rewrite <- app_assoc. reflexivity.
    + rewrite N in E by exact V. destruct (ins_shape _ _ _ _ _ _ V E) as (h & A & B). exists h. split; [exact A|]. intros v' V'. rewrite N by exact V'. apply B, V'.
  - rewrite N, andb_false_r in E by exact V. destruct (ins_shape _ _ _ _ _ _ V E) as (h & A & B). exists h. split; [exact A|]. intros v' V'. rewrite N, andb_false_r by exact V'. apply B, V'.
  - rewrite N, andb_false_r in E by exact V. destruct (ins_shape _ _ _ _ _ _ V E) as (h & A & B). exists h. split; [exact A|]. intros v' V'. rewrite N, andb_false_r by exact V'. apply B, V'.
Qed.
(** The code before the marker ends with the bytes written by sljit_set_const; nothing else depends on the value. *)
Lemma const_shape : forall w c dst dstw v pre post, emit_const w c dst dstw v = Some (pre, post) ->
  exists h, pre = h ++ const_bytes c v /\ forall v', emit_const w c dst dstw v' = Some (h ++ const_bytes c v', post).
Proof.
  intros w c dst dstw v pre post E. assert (S32 : forall v, - 2 ^ 31 <= sext 32 v < 2 ^ 31) by (intros x; apply (sext_bounds 32); lia).
  assert (L32 : forall v, lebytes 4 (sext 32 v) = lebytes 4 v) by (intros x; apply lebytes_mod; apply (sext_mod2 32); lia).
  destruct c as [| | |m]; cbn [emit_const const_bytes] in *.
  - destruct (if is_mem dst then _ else _) as [po|] eqn:P; [|discriminate]. injection E as <- <-. unfold load_imm64. set (reg := if is_reg dst then _ else _).
    exists [if reg_map w reg <=? 7 then REX_W else Z.lor REX_W REX_B; u8 (Z.lor 0xb8 (reg_lmap w reg))]. split; [reflexivity|]. intros v'. reflexivity.
  - destruct (emit_mov w true dst dstw AImm (sext 32 v)) as [l|] eqn:M; [|discriminate]. injection E as <- <-. destruct (mov_shape _ _ _ _ _ _ (S32 v) M) as (h & A & B). exists h. rewrite L32 in A. split; [exact A|].
    intros v'. rewrite B by apply S32. rewrite L32. reflexivity.
  - destruct (emit_mov w false dst dstw AImm (sext 32 v)) as [l|] eqn:M; [|discriminate]. injection E as <- <-. destruct (mov_shape _ _ _ _ _ _ (S32 v) M) as (h & A & B). exists h. rewrite L32 in A. split; [exact A|].
    intros v'. rewrite B by apply S32. rewrite L32. reflexivity.
  - destruct (emit_mov w m _ 0 AImm (norm_u8 v)) as [l|] eqn:M; [|discriminate]. destruct (if is_mem dst then _ else _) as [po|] eqn:P; [|discriminate]. injection E as <- <-.
    destruct (mov_shape _ _ _ _ _ _ (norm_range v) M) as (h & A & B). exists h. split; [exact A|]. intros v'. rewrite B by apply norm_range. reflexivity.
Qed.

(** ** What the code does *)
Definition const_code (w : bool) (c : cop) (dst : arg) (dstw v : Z) : option (list Z) := match emit_const w c dst dstw v with Some (a, b) => Some (a ++ b) | None => None end.
Lemma const_code_cat : forall w c D Dw v, const_code w c D Dw v =
  match c with
  | CMovU8 m => emit_mov w m (AReg (if is_reg D then reg_of D else TMP_REG1)) 0 AImm (norm_u8 v) +++ (if is_mem D then emit_mov_byte w false D Dw (AReg TMP_REG1) 0 else Some [])
  | CMov => Some (load_imm64 w (if is_reg D then reg_of D else TMP_REG1) v) +++ (if is_mem D then emit_mov w false D Dw (AReg TMP_REG1) 0 else Some [])
  | _ => emit_mov w (match c with CMov32 => true | _ => false end) D Dw AImm (sext 32 v)
  end.
Proof.
  intros w c D Dw v. unfold const_code. destruct c as [| | |m]; cbn [emit_const].
  - destruct (if is_mem D then _ else _); reflexivity.
  - destruct (emit_mov w true D Dw AImm (sext 32 v)); [rewrite app_nil_r|]; reflexivity.
  - destruct (emit_mov w false D Dw AImm (sext 32 v)); [rewrite app_nil_r|]; reflexivity.
  - destruct (emit_mov w m _ 0 AImm (norm_u8 v)); [|reflexivity]. destruct (if is_mem D then _ else _); reflexivity.
Qed.
Lemma const_ok : forall u w c D Dw v s, xdst_legal D Dw -> - 2 ^ 63 <= v < 2 ^ 63 -> xwf s ->
  does u (const_code w c D Dw v) s (fun s' => wrote1 w (const_bits c) (const_size c) True TMPS s D Dw (const_val c v) s' /\ flags_same s s').
Proof.
  intros u w c D Dw v s DL V W. destruct (dst_sok _ _ DL) as (DK & DI). rewrite const_code_cat.
  assert (S32 : forall v, - 2 ^ 63 <= sext 32 v < 2 ^ 63) by (intros x; pose proof (sext_bounds 32 x ltac:(lia)); change (2 ^ (32 - 1)) with (2 ^ 31) in *; lia).
  assert (N0 : is_imm AImm = true) by reflexivity.
  destruct c as [| | |m]; cbn [const_bits const_size const_val].
  - destruct D as [d| |b o]; [|discriminate|]; cbn [is_reg is_mem reg_of].
    + destruct DL as [DU ->]. unfold xureg in DU. eapply does_seq; [apply load_imm_ok; [lia|exact W]|]. intros s1 W1 (A & B). apply does_nil; [exact W1|]. split; [|exact B].
      eapply (wr1 w 64 64 8); [exact A|intros x []|lia|reflexivity|reflexivity|]. reflexivity.
    + eapply does_seq; [apply load_imm_ok; [unfold TMP_REG1; lia|exact W]|]. intros s1 W1 (A & B). destruct (wrote_reg_only _ _ _ _ _ _ _ _ A) as (A1 & A2).
      eapply does_conseq; [apply mov_from_tmp; assumption|]. intros s2 _ (E & F). split; [|eapply flags_trans; eauto].
      eapply (wr1 w 64 64 8); [eapply wrote_trans; [exact DK|exact A1| |exact E]| |lia|reflexivity|reflexivity|].
      * eapply apart_incl; [apply (sok_far_tmp (AMem b o) Dw DK)|]. intros x [X|[]]. left. exact X.
      * intros x. rewrite in_app_iff. intros [[X|[]]|X]; [left; exact X|exact X].
      * rewrite A2. cbn [size_of]. rewrite !Z.mod_mod by (vm_compute; discriminate). reflexivity.
  - eapply does_conseq; [apply mov_ok; [exact DK|exact DI|apply S32|discriminate|exact W]|]. intros s1 _ (A & B). split; [|exact B].
    eapply (wr1 w 32 32 4); [exact A|apply mov_tmps_TMPS|lia|reflexivity|reflexivity|]. cbn [xval size_of]. rewrite Z.mod_mod by (vm_compute; discriminate). apply (sext_mod2 32); lia.
  - eapply does_conseq; [apply mov_ok; [exact DK|exact DI|apply S32|discriminate|exact W]|]. intros s1 _ (A & B). split; [|exact B].
    eapply (wr1 w 64 64 8); [exact A|apply mov_tmps_TMPS|lia|reflexivity|reflexivity|]. cbn [xval size_of]. rewrite Z.mod_mod by (vm_compute; discriminate). reflexivity.
  - pose proof (norm_range v) as NR. rewrite norm_u8_sext in *. assert (NS : sok AImm (sext 9 v)) by (cbn; lia).
    destruct D as [d| |b o]; [|discriminate|]; cbn [is_reg is_mem reg_of].
    + destruct DL as [DU ->]. unfold xureg in DU. eapply does_seq; [apply mov_ok; [cbn; lia|reflexivity|exact NS|discriminate|exact W]|]. intros s1 W1 (A & B). apply does_nil; [exact W1|]. split; [|exact B].
      eapply (wr1_reg w (size_of m)); [exact A| | |apply mov_tmps_TMPS]; cbn [xval]; destruct m; cbn [size_of]; rewrite !Z.mod_mod by (vm_compute; discriminate); try reflexivity; intros _; apply Z.mod_pos_bound; reflexivity.
    + eapply does_seq; [apply movr_ok; [unfold TMP_REG1; lia|exact NS|exact W]|]. intros s1 W1 (A1 & A2 & B). rewrite small_byte. unfold small. cbn [is_imm is_reg is_mem andb reg_of].
      assert (E0 : forall x, Some [] +++ x = x) by (destruct x; reflexivity). rewrite E0. eapply does_conseq; [apply st_r_ok; [left; reflexivity|unfold TMP_REG1; lia|exact DK|exact W1]|].
      intros s2 _ (E & F). split; [|eapply flags_trans; eauto]. eapply wr1_mem; [eapply wrote_trans; [exact DK|exact A1| |exact E]|reflexivity| |].
      * eapply apart_incl; [apply (sok_far_tmp (AMem b o) Dw DK)|]. intros x [X|[]]. left. exact X.
      * rewrite A2. cbn [xval]. destruct m; cbn [size_of].
        -- change (2 ^ 32) with (2 ^ 8 * 2 ^ 24). rewrite Z.rem_mul_r by lia. rewrite (Z.mul_comm (2 ^ 8)), Z.mod_add, Z.mod_mod by lia. reflexivity.
        -- change (2 ^ 64) with (2 ^ 8 * 2 ^ 56). rewrite Z.rem_mul_r by lia. rewrite (Z.mul_comm (2 ^ 8)), Z.mod_add, Z.mod_mod by lia. reflexivity.
      * intros x. rewrite in_app_iff. intros [[X|[]]|X]; [left; exact X|exact X].
Qed.
