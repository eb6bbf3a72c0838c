(** LoongArch64: patched constants, jumps and addresses. *)
Require Import ZArith List Bool Lia Zify ZifyBool.
From Verif Require Import Rv.RvLib Rv.RvBits Imm.ImmLib Imm.LaIsa Imm.LaModel Imm.LaSpec Imm.LaProofs.
Import ListNotations.
Open Scope Z_scope.
Ltac Zify.zify_post_hook ::= idtac.

(** ** Patched words *)
Lemma m_1ri20 c d i : c = LU12I_W \/ c = LU32I_D -> 0 <= d < 32 -> 0 <= i < 1048576 ->
  (c .| d .| Z.shiftl i 5) .& (OPC_1RI20 0x7f .| 0x1f) = (c .| d).
Proof. intros [-> | ->] Hd Hi; masks; reflexivity. Qed.
Lemma m_2ri12 c d j i : c = LU52I_D \/ c = ORI -> 0 <= d < 32 -> 0 <= j < 32 -> 0 <= i < 4096 ->
  (c .| d .| Z.shiftl j 5 .| Z.shiftl i 10) .& (OPC_2RI12 0x3ff .| 0x3ff) = (c .| d .| Z.shiftl j 5).
Proof. intros [-> | ->] Hd Hj Hi; masks; reflexivity. Qed.
Lemma m_ori c d j i : c = ORI -> 0 <= d < 32 -> 0 <= j < 32 -> 0 <= i < 4096 ->
  (c .| d .| Z.shiftl j 5 .| Z.shiftl i 10) .& OPC_2RI12 0x3ff = ORI.
Proof. intros -> Hd Hj Hi; masks; reflexivity. Qed.
Lemma m_u8 d i : 0 <= d < 32 -> 0 <= i < 4096 ->
  (ADDI_D .| d .| RJ TMP_ZERO .| Z.shiftl i 10) .& 0xffc003ff = (ADDI_D .| d .| RJ TMP_ZERO).
Proof. intros Hd Hi. change (RJ TMP_ZERO) with 0. masks. reflexivity. Qed.
Lemma m_32a d i : 0 <= d < 32 -> 0 <= i < 1048576 ->
  (LU12I_W .| d .| Z.shiftl i 5) .& (OPC_1RI20 0xa .| 0x1f) = (LU12I_W .| d).
Proof. intros Hd Hi; masks; reflexivity. Qed.
Lemma m_32b d j i : 0 <= d < 32 -> 0 <= j < 32 -> 0 <= i < 4096 ->
  (ORI .| d .| Z.shiftl j 5 .| Z.shiftl i 10) .& (OPC_2RI12 0xe .| 0x3ff) = (ORI .| d .| Z.shiftl j 5).
Proof. intros Hd Hj Hi; masks; reflexivity. Qed.

Lemma HI20_wrap v : HI20 (wrap v) = HI20 v.
Proof.
  rewrite !HI20_eq. f_equal. rewrite <- !div_mod_swap by lia. f_equal. unfold wrap.
  change 64 with (32 + 32). rewrite Z.pow_add_r by lia. rewrite Z.rem_mul_r by lia.
  change (12 + 20) with 32. rewrite Z.mul_comm, Z_mod_plus_full. apply Z.mod_mod. lia.
Qed.
Lemma MID20_wrap v : MID20 (wrap v) = MID20 v.
Proof.
  rewrite !MID20_eq. f_equal. rewrite <- !div_mod_swap by lia. f_equal. unfold wrap.
  change (2 ^ 64) with (2 ^ (32 + 20) * 2 ^ 12). rewrite Z.rem_mul_r by lia.
  rewrite Z.mul_comm, Z_mod_plus_full. apply Z.mod_mod. lia.
Qed.
Lemma I12_wrap v : IMM_I12 (wrap v) = IMM_I12 v.
Proof.
  rewrite !I12_eq. f_equal. unfold wrap. change (2 ^ 64) with (2 ^ 12 * 2 ^ 52). rewrite Z.rem_mul_r by lia.
  rewrite Z.mul_comm, Z_mod_plus_full. apply Z.mod_mod. lia.
Qed.
Lemma TOP_wrap v : IMM_I12 (Z.shiftr (wrap v) 52) = IMM_I12 (Z.shiftr v 52).
Proof.
  rewrite !I12_eq, !shr_div by lia. f_equal. unfold wrap. change 64 with (52 + 12). rewrite div_mod_swap by lia. apply Z.mod_mod. lia.
Qed.
Lemma u32_small x : 0 <= x < 2 ^ 32 -> u32 x = x.
Proof. apply Z.mod_small. Qed.
Lemma shl12 x : u32 (Z.shiftl (x .& 0xfff) 10) = IMM_I12 x.
Proof.
  rewrite I12_eq, (land_low x 12) by lia. apply u32_small. rewrite Z.shiftl_mul_pow2 by lia. pose proof (mod_b x 12 ltac:(lia)). lia.
Qed.

Lemma set_emit_const dst v v' : 1 <= dst <= 29 -> sljit_set_jump_addr (emit_const dst v) v' = emit_const dst v'.
Proof.
  intros Hd. pose proof (reg_ok dst Hd). unfold emit_const, sljit_set_jump_addr.
  rewrite (HI20_eq v), (MID20_eq v), (I12_eq v), (I12_eq (Z.shiftr v 52)).
  pose proof (mod_b (v / 2 ^ 12) 20 ltac:(lia)). pose proof (mod_b (v / 2 ^ 32) 20 ltac:(lia)).
  pose proof (mod_b v 12 ltac:(lia)). pose proof (mod_b (Z.shiftr v 52) 12 ltac:(lia)).
  unfold RD, RJ. rewrite !m_1ri20 by (auto || lia). rewrite !m_2ri12 by (auto || lia). rewrite m_ori by (auto || lia).
  rewrite Z.eqb_refl. reflexivity.
Qed.
Lemma set_const_ok op dst v v' : 1 <= dst <= 29 -> sljit_set_const op (sljit_emit_const op dst v) v' = sljit_emit_const op dst v'.
Proof.
  intros Hd. pose proof (reg_ok dst Hd). destruct op; cbn [sljit_set_const sljit_emit_const].
  - rewrite set_emit_const by auto. unfold emit_const. rewrite HI20_wrap, MID20_wrap, I12_wrap, TOP_wrap. reflexivity.
  - rewrite !hi7, (HI20_eq v), (I12_eq v), shl12. unfold RD, RJ.
    pose proof (mod_b (v / 2 ^ 12) 20 ltac:(lia)). pose proof (mod_b v 12 ltac:(lia)).
    rewrite m_32a, m_32b by lia. reflexivity.
  - rewrite (I12_eq (u8val v)), shl12. unfold RD. pose proof (mod_b (u8val v) 12 ltac:(lia)).
    rewrite m_u8 by lia. reflexivity.
Qed.

(** ** Jumps *)
Lemma last_jump op reg call x : last_inst op reg (Some (jump_inst call)) x =
  (JIRL .| Z.shiftl 13 5 .| (if call then 1 else 0) .| Z.shiftl ((x mod 2 ^ 12) / 2 ^ 2) 10).
Proof.
  unfold last_inst. rewrite I16_eq, (land_low x 12), shr_div by lia. pose proof (mod_b x 12 ltac:(lia)).
  assert (0 <= x mod 2 ^ 12 / 2 ^ 2 < 2 ^ 10).
  { split; [apply Z.div_pos; lia|apply Z.div_lt_upper_bound; lia]. }
  rewrite (Z.mod_small (x mod 2 ^ 12 / 2 ^ 2)) by lia. f_equal. destruct call; reflexivity.
Qed.
Lemma m_jirl (call : bool) i : 0 <= i < 1024 ->
  ((JIRL .| Z.shiftl 13 5 .| (if call then 1 else 0) .| Z.shiftl i 10) .& OPC_2RI12 0x3ff =? ORI) = false.
Proof. intros Hi. destruct call; masks; reflexivity. Qed.
Lemma m_jirl2 (call : bool) i : 0 <= i < 1024 ->
  (JIRL .| Z.shiftl 13 5 .| (if call then 1 else 0) .| Z.shiftl i 10) .& (OPC_2RI16 0x3f .| 0x3ff) =
  (JIRL .| Z.shiftl 13 5 .| (if call then 1 else 0)).
Proof. intros Hi. destruct call; masks; reflexivity. Qed.

Lemma set_jump_ok call a t t' :
  sljit_set_jump_addr (patch_jump PATCH_FULL None call a t) t' = patch_jump PATCH_FULL None call a t'.
Proof.
  unfold patch_jump, over, load_addr_to_reg, sljit_set_jump_addr. cbn [app]. rewrite !last_jump.
  rewrite (HI20_eq t), (MID20_eq t), (I12_eq (Z.shiftr t 52)).
  pose proof (mod_b (t / 2 ^ 12) 20 ltac:(lia)). pose proof (mod_b (t / 2 ^ 32) 20 ltac:(lia)).
  pose proof (mod_b t 12 ltac:(lia)). pose proof (mod_b (Z.shiftr t 52) 12 ltac:(lia)).
  assert (forall x, 0 <= x mod 2 ^ 12 / 2 ^ 2 < 1024).
  { intros x. pose proof (mod_b x 12 ltac:(lia)). split; [apply Z.div_pos; lia|apply Z.div_lt_upper_bound; lia]. }
  change (RD TMP_REG1) with 13. unfold RJ. change (reg_map TMP_REG1) with 13.
  rewrite !m_1ri20 by (auto || lia). rewrite !m_2ri12 by (auto || lia). rewrite m_jirl, m_jirl2 by auto.
  do 3 f_equal. f_equal. f_equal. rewrite I12_eq, (land_low t' 12), shr_div by lia. pose proof (H3 t').
  rewrite (Z.mod_small (t' mod 2 ^ 12 / 2 ^ 2)) by lia. reflexivity.
Qed.

(** The branch of a conditional jump: its kind (0x16 + k) and registers. *)
Definition bcc (k j d : Z) : Z := OPC_2RI16 (0x16 + k) .| Z.shiftl j 5 .| d.
Definition flip (k : Z) : Z := Z.lxor k 1.
Lemma short_eq k j d : 0 <= k < 6 -> 0 <= j < 32 -> 0 <= d < 32 -> branch_short (bcc k j d) = bcc (flip k) j d.
Proof.
  intros Hk Hj Hd.
  assert (F : forallb (fun k => forallb (fun j => forallb (fun d => branch_short (bcc (Z.of_nat k) (Z.of_nat j) (Z.of_nat d)) =?
    bcc (flip (Z.of_nat k)) (Z.of_nat j) (Z.of_nat d)) (seq 0 32)) (seq 0 32)) (seq 0 6) = true) by (vm_compute; reflexivity).
  rewrite forallb_forall in F. specialize (F (Z.to_nat k)). rewrite in_seq in F. specialize (F ltac:(lia)).
  rewrite forallb_forall in F. specialize (F (Z.to_nat j)). rewrite in_seq in F. specialize (F ltac:(lia)).
  rewrite forallb_forall in F. specialize (F (Z.to_nat d)). rewrite in_seq in F. specialize (F ltac:(lia)).
  rewrite !Z2Nat.id in F by lia. apply Z.eqb_eq. exact F.
Qed.
Lemma flip_ok k : 0 <= k < 6 -> 0 <= flip k < 6 /\ (forall x y, taken (flip k) x y = negb (taken k x y)).
Proof.
  intros Hk. assert (K : k = 0 \/ k = 1 \/ k = 2 \/ k = 3 \/ k = 4 \/ k = 5) by lia.
  destruct K as [-> | [-> | [-> | [-> | [-> | ->]]]]]; cbn; (split; [lia|]); intros; unfold taken; cbn; rewrite ?negb_involutive; reflexivity.
Qed.

Lemma sext_cut n v : 13 <= n -> sext n v = sext n (cut v) + v mod 2 ^ 12.
Proof.
  intros Hn. destruct (sext_mod n (cut v) ltac:(lia)) as (k & K). unfold cut in *.
  pose proof (sext_range n (v / 2 ^ 12 * 2 ^ 12) ltac:(lia)) as R.
  assert (P : 2 ^ n = 2 ^ (n - 12) * 2 ^ 12) by (rewrite <- Z.pow_add_r by lia; f_equal; lia).
  assert (P1 : 2 ^ (n - 1) = 2 ^ (n - 13) * 2 ^ 12) by (rewrite <- Z.pow_add_r by lia; f_equal; lia).
  pose proof (mod_b v 12 ltac:(lia)) as Bl.
  set (q := v / 2 ^ 12 - k * 2 ^ (n - 12)).
  assert (E : sext n (v / 2 ^ 12 * 2 ^ 12) = q * 2 ^ 12) by (unfold q; rewrite P in K; lia).
  apply sext_unique with k; [lia| |].
  - rewrite E in *. rewrite P1 in *. nia.
  - rewrite E. pose proof (Z.div_mod v (2 ^ 12) ltac:(lia)). unfold q. rewrite P. lia.
Qed.

(** The jump through the register. *)
Lemma go_jirl code a s call op reg x v : s 13 = v -> code (wrap a) = last_inst op reg (Some (jump_inst call)) x ->
  x mod 4 = 0 ->
  exists s', goes code a s (v + x mod 2 ^ 12) s' /\ jumped call (a + 4) s s'.
Proof.
  intros V C M. rewrite last_jump in C. pose proof (mod_b x 12 ltac:(lia)) as Bx.
  set (i := x mod 2 ^ 12 / 2 ^ 2) in *.
  assert (Hi : 0 <= i < 1024). { split; [apply Z.div_pos; lia|apply Z.div_lt_upper_bound; lia]. }
  assert (E : i * 4 = x mod 2 ^ 12).
  { unfold i. change (2 ^ 2) with 4. pose proof (Z.div_mod (x mod 2 ^ 12) 4 ltac:(lia)).
    assert ((x mod 2 ^ 12) mod 4 = x mod 4).
    { change (2 ^ 12) with (4 * 1024). rewrite Z.rem_mul_r by lia. rewrite Z.mul_comm, Z_mod_plus_full. apply Z.mod_mod. lia. }
    lia. }
  eexists. split.
  - eapply goes_1; [exact C| |].
    + apply dec_jirl; [destruct call; lia|lia|lia].
    + cbn [exec]. rewrite rG_nz by lia. rewrite V. rewrite Z.shiftl_mul_pow2 by lia. change (2 ^ 2) with 4. rewrite E.
      rewrite sext_small by (change (2 ^ (18 - 1)) with 131072; lia). reflexivity.
  - split.
    + intros r Hr Hc. unfold wG. destruct call; cbn; [|reflexivity]. unfold upd. replace (r =? 1) with false by (specialize (Hc eq_refl); lia). reflexivity.
    + intros ->. cbn. rewrite wrap_add_l. reflexivity.
Qed.

Lemma jumped_only call ret s s1 s2 v : only s s1 13 v -> jumped call ret s1 s2 -> jumped call ret s s2.
Proof. intros (A & O) (J & C). split; auto. intros r H1 H2. rewrite J, O; auto. Qed.

(** pcaddu12i. *)
Lemma go_pcadd code a s dst v : 1 <= dst <= 29 -> code (wrap a) = (PCADDU12I .| RD dst .| IMM_I20 v) ->
  exists s', goes code a s (a + 4) s' /\ only s s' (reg_map dst) (wrap (a + sext 32 (cut v))).
Proof.
  intros Hd C. pose proof (reg_ok dst Hd). pose proof (mod_b (v / 2 ^ 12) 20 ltac:(lia)) as Bv. rewrite I20_eq in C.
  eexists. split.
  - eapply goes_1; [eassumption|apply dec_pcadd; [unfold RD; lia|lia]|cbn [exec]; rewrite wrap_add_l; reflexivity].
  - rewrite wrap_add_l.
    replace (sext 32 (Z.shiftl ((v / 2 ^ 12) mod 2 ^ 20) 12)) with (sext 32 (cut v)); [apply wG_only; unfold RD; lia|].
    unfold cut. rewrite Z.shiftl_mul_pow2 by lia.
    apply sext_eq with (v / 2 ^ 12 / 2 ^ 20); [lia|]. pose proof (Z.div_mod (v / 2 ^ 12) (2 ^ 20) ltac:(lia)). lia.
Qed.

(** The difference of two addresses. *)
Lemma diff_back a t : isw t -> wrap (a + sgn (wrap (t - a))) = t.
Proof.
  intros Ht. destruct (sext_mod 64 (wrap (t - a)) ltac:(lia)) as (k & K). fold (sgn (wrap (t - a))) in K.
  replace (sgn (wrap (t - a))) with (wrap (t - a) + (- k) * 2 ^ 64) by lia.
  rewrite Z.add_assoc. erewrite wrap_eq; [|reflexivity]. rewrite wrap_add_r. replace (a + (t - a)) with t by lia. apply wrap_small. auto.
Qed.
Lemma sgn_sext n x : 1 <= n <= 64 -> - 2 ^ (n - 1) <= sgn x < 2 ^ (n - 1) -> sext n x = sgn x.
Proof.
  intros Hn R. destruct (sext_mod 64 x ltac:(lia)) as (k & K). fold (sgn x) in K.
  apply sext_unique with (k * 2 ^ (64 - n)); [lia|auto|].
  rewrite <- Z.mul_assoc, <- Z.pow_add_r by lia. replace (64 - n + n) with 64 by lia. exact K.
Qed.
Lemma sext_div4 n x : 1 <= n -> x mod 4 = 0 -> sext (n + 2) (Z.shiftl ((x / 4) mod 2 ^ n) 2) = sext (n + 2) x.
Proof.
  intros Hn M. rewrite Z.shiftl_mul_pow2 by lia. change (2 ^ 2) with 4.
  apply sext_eq with (- (x / 4 / 2 ^ n)); [lia|]. pose proof (Z.div_mod x 4 ltac:(lia)).
  pose proof (Z.div_mod (x / 4) (2 ^ n)). pose proof (pow_pos n ltac:(lia)).
  rewrite Z.pow_add_r by lia. change (2 ^ 2) with 4. nia.
Qed.
Lemma wrap_mod4 x : wrap x mod 4 = x mod 4.
Proof. unfold wrap. change (2 ^ 64) with (4 * 2 ^ 62). rewrite Z.rem_mul_r by lia. rewrite Z.mul_comm, Z_mod_plus_full. apply Z.mod_mod. lia. Qed.

(** b and bl. *)
Lemma go_b code a s (call : bool) t : isw t -> (t - a) mod 4 = 0 -> within (sgn (wrap (t - a))) JUMP_MIN JUMP_MAX = true ->
  code (wrap a) = ((if call then BL else B) .| IMM_I26 (Z.shiftr (wrap (t - a)) 2)) ->
  exists s', goes code a s t s' /\ jumped call (a + 4) s s'.
Proof.
  intros Ht M W C. unfold within in W. change JUMP_MIN with (-134217728) in W. change JUMP_MAX with 134217724 in W.
  set (x := wrap (t - a)) in *. rewrite I26_eq, shr_div in C by lia. change (2 ^ 2) with 4 in C.
  pose proof (mod_b (x / 4) 16 ltac:(lia)) as B1. pose proof (mod_b (x / 4 / 2 ^ 16) 10 ltac:(lia)) as B2.
  assert (E : wrap (a + sext 28 (Z.shiftl (Z.lor (Z.shiftl ((x / 4 / 2 ^ 16) mod 2 ^ 10) 16) ((x / 4) mod 2 ^ 16)) 2)) = wrap t).
  { rewrite (Z.shiftl_mul_pow2 _ 16) by lia. rewrite lor_add by lia.
    replace ((x / 4 / 2 ^ 16) mod 2 ^ 10 * 2 ^ 16 + (x / 4) mod 2 ^ 16) with ((x / 4) mod 2 ^ 26).
    2: { change 26 with (16 + 10). rewrite Z.pow_add_r by lia. rewrite Z.rem_mul_r by lia. lia. }
    change 28 with (26 + 2). rewrite sext_div4 by (try lia; unfold x; rewrite wrap_mod4; auto).
    rewrite sgn_sext by (change (2 ^ (26 + 2 - 1)) with 134217728; lia).
    unfold x. rewrite diff_back by auto. symmetry. apply wrap_small. auto. }
  assert (E2 : wrap (wrap a + sext 28 (Z.shiftl (Z.lor (Z.shiftl ((x / 4 / 2 ^ 16) mod 2 ^ 10) 16) ((x / 4) mod 2 ^ 16)) 2)) = wrap t).
  { rewrite wrap_add_l. exact E. }
  destruct call; eexists.
  - split; [eapply goes_1; [exact C|apply dec_bl; lia|cbn [exec]; rewrite E2; reflexivity]|].
    split; [|intros _; cbn; rewrite wrap_add_l; reflexivity].
    intros r H1 H2. unfold wG, upd. cbn. replace (r =? 1) with false by (specialize (H2 eq_refl); lia). reflexivity.
  - split; [eapply goes_1; [exact C|apply dec_b; lia|cbn [exec]; rewrite E2; reflexivity]|].
    split; [auto|discriminate].
Qed.

(** A conditional branch. *)
Lemma go_bcc code a s k j d off w : 0 <= k < 6 -> 0 <= j < 32 -> 0 <= d < 32 ->
  code (wrap a) = w -> w = (bcc k j d .| IMM_I16 off) ->
  goes code a s (if taken k (rG s j) (rG s d) then a + sext 18 (Z.shiftl (off mod 2 ^ 16) 2) else a + 4) s.
Proof.
  intros Hk Hj Hd C ->. rewrite I16_eq in C. pose proof (mod_b off 16 ltac:(lia)).
  eapply goes_1; [exact C|unfold bcc; apply dec_bcc; lia|].
  cbn [exec]. rewrite !wrap_add_l. destruct (taken k (rG s j) (rG s d)); reflexivity.
Qed.
Lemma goes_wrap code a s b c s' : goes code a s b s' -> wrap b = wrap c -> goes code a s c s'.
Proof. unfold goes. intros G <-. exact G. Qed.

(** The parts of a jump after the branch: to [t]. *)
Lemma bit11_eq x : bit11 x = (2048 <=? x mod 2 ^ 12).
Proof.
  unfold bit11. rewrite (bit_test x 11) by lia. change (2 ^ (11 + 1)) with (2 ^ 12). change (2 ^ 11) with 2048.
  rewrite Z.leb_antisym. reflexivity.
Qed.

(** The address reached by a patched jump. *)
Lemma body_ok code a s m call t : isw t -> t mod 4 = 0 -> (t - a) mod 4 = 0 -> mode_ok m a t ->
  m <> PATCH_B -> m <> PATCH_J ->
  (m = PATCH_REL32 -> bit11 (wrap (t - a)) = false) ->
  code_at 4 (load_addr_to_reg m TMP_REG1 (Some (jump_inst call)) a t) a code ->
  exists s', goes code a s t s' /\
    jumped call (a + 4 * Z.of_nat (length (load_addr_to_reg m TMP_REG1 (Some (jump_inst call)) a t))) s s'.
Proof.
  intros Ht M4 D4 OK NB NJ HR C. pose proof (Z.div_mod t (2 ^ 12) ltac:(lia)) as DT.
  assert (CT : cut t + t mod 2 ^ 12 = t) by (unfold cut; lia). pose proof (mod_b t 12 ltac:(lia)) as B12.
  unfold isw in Ht.
  assert (C0 : 0 <= cut t <= t) by (unfold cut in *; pose proof (Z.div_pos t (2 ^ 12)); lia).
  assert (R25 : 1 <= TMP_REG1 <= 29) by (unfold TMP_REG1; lia).
  destruct m; try congruence; cbn [load_addr_to_reg code_at length mode_ok] in *.
  - unfold bit11 in HR. specialize (HR eq_refl). apply negb_false_iff in HR. rewrite HR in *. cbn [code_at length] in *.
    destruct C as (C1 & C2 & _). destruct (go_pcadd code a s TMP_REG1 (wrap (t - a)) R25 C1) as (s1 & G1 & O1).
    change (reg_map TMP_REG1) with 13 in *.
    destruct (go_jirl code (a + 4) s1 call _ _ _ _ (proj1 O1) C2) as (s2 & G2 & J2); [rewrite wrap_mod4; auto|].
    exists s2. split; [|replace (a + 4 * Z.of_nat 2) with (a + 4 + 4) by lia; eapply jumped_only; eauto].
    eapply goes_trans; [exact G1|]. eapply goes_wrap; [exact G2|].
    rewrite wrap_add_l, <- Z.add_assoc, <- sext_cut by lia.
    unfold within in OK. change S32_MIN with (-2147483648) in OK. change S32_MAX with 2147483647 in OK.
    rewrite sgn_sext by (change (2 ^ (32 - 1)) with 2147483648; lia). rewrite diff_back by exact Ht. symmetry. apply wrap_small. exact Ht.
  - change S32_MAX with 2147483647 in OK.
    destruct C as (C1 & C2 & _). destruct (go_lu12 code a s TMP_REG1 R25 t C1) as (s1 & G1 & O1).
    change (reg_map TMP_REG1) with 13 in *.
    destruct (go_jirl code (a + 4) s1 call _ _ _ _ (proj1 O1) C2) as (s2 & G2 & J2); [auto|].
    exists s2. split; [|replace (a + 4 * Z.of_nat 2) with (a + 4 + 4) by lia; eapply jumped_only; eauto].
    eapply goes_trans; [exact G1|]. eapply goes_wrap; [exact G2|].
    rewrite sxw_small by (change (2 ^ (32 - 1)) with 2147483648; lia). rewrite wrap_add_l. f_equal. exact CT.
  - change S52_MAX with 2251799813685247 in OK.
    destruct C as (C1 & C2 & C3 & _). destruct (go_lu12 code a s TMP_REG1 R25 t C1) as (s1 & G1 & O1).
    assert (M : MID20 t = MID20 (cut t)).
    { rewrite !MID20_eq. f_equal. f_equal. unfold cut. change 32 with (12 + 20). rewrite Z.pow_add_r by lia.
      rewrite <- !Z.div_div by lia. rewrite Z.div_mul by lia. reflexivity. }
    rewrite M in C2.
    destruct (go_lu32 code _ s1 TMP_REG1 R25 (cut t) ltac:(destruct O1 as (-> & _); apply sxw_mod; lia) C2) as (s2 & G2 & O2).
    change (reg_map TMP_REG1) with 13 in *.
    destruct (go_jirl code (a + 4 + 4) s2 call _ _ _ _ (proj1 O2) C3) as (s3 & G3 & J3); [auto|].
    exists s3. split; [|replace (a + 4 * Z.of_nat 3) with (a + 4 + 4 + 4) by lia; eapply jumped_only; [exact O1|]; eapply jumped_only; eauto].
    eapply goes_trans; [exact G1|]. eapply goes_trans; [exact G2|]. eapply goes_wrap; [exact G3|].
    rewrite sxw_small by (change (2 ^ (52 - 1)) with 2251799813685248; lia). rewrite wrap_add_l. f_equal. exact CT.
  - destruct (go_3 code a s TMP_REG1 t _ R25 C) as (s1 & G1 & O1 & C4).
    change (reg_map TMP_REG1) with 13 in *.
    destruct (go_jirl code (a + 12) s1 call _ _ _ _ (proj1 O1) C4) as (s2 & G2 & J2); [auto|].
    exists s2. split; [|replace (a + 4 * Z.of_nat 4) with (a + 12 + 4) by lia; eapply jumped_only; eauto].
    eapply goes_trans; [exact G1|]. eapply goes_wrap; [exact G2|]. rewrite wrap_add_l. f_equal. exact CT.
Qed.

(** The wrong case: a relative jump with bit 11 of the difference set goes 4096 bytes too far. *)
Lemma body_wrong code a s call t : isw t -> (t - a) mod 4 = 0 ->
  S32_MIN <= sgn (wrap (t - a)) <= S32_MAX - 0x1000 -> bit11 (wrap (t - a)) = true ->
  code_at 4 (load_addr_to_reg PATCH_REL32 TMP_REG1 (Some (jump_inst call)) a t) a code ->
  exists s', goes code a s (t + 0x1000) s'.
Proof.
  intros Ht D4 OK HB C. cbn [load_addr_to_reg] in C. unfold bit11 in HB. apply negb_true_iff in HB. rewrite HB in C.
  set (x := wrap (t - a)) in *. change S32_MIN with (-2147483648) in OK. change (S32_MAX - 0x1000) with 2147479551 in OK.
  cbn [code_at] in C. destruct C as (C1 & C2 & _).
  assert (R25 : 1 <= TMP_REG1 <= 29) by (unfold TMP_REG1; lia).
  destruct (go_pcadd code a s TMP_REG1 (wrap (x + 0x1000)) R25 C1) as (s1 & G1 & O1).
  change (reg_map TMP_REG1) with 13 in *.
  destruct (go_jirl code (a + 4) s1 call _ _ _ _ (proj1 O1) C2) as (s2 & G2 & J2).
  { rewrite wrap_mod4. replace (x + 0x1000) with (x + 1024 * 4) by lia. rewrite Z_mod_plus_full. unfold x. rewrite wrap_mod4. exact D4. }
  exists s2. eapply goes_trans; [exact G1|]. eapply goes_wrap; [exact G2|].
  rewrite wrap_add_l, <- Z.add_assoc, <- sext_cut by lia.
  replace (sext 32 (wrap (x + 0x1000))) with (sgn x + 0x1000).
  - rewrite Z.add_assoc, <- wrap_add_l. unfold x. rewrite diff_back by exact Ht. reflexivity.
  - symmetry. destruct (sext_mod 64 x ltac:(lia)) as (k & K). fold (sgn x) in K.
    unfold wrap. pose proof (Z.div_mod (x + 0x1000) (2 ^ 64) ltac:(lia)).
    apply sext_unique with ((k - (x + 0x1000) / 2 ^ 64) * 2 ^ 32); [lia|change (2 ^ (32 - 1)) with 2147483648; lia|].
    rewrite <- Z.mul_assoc. change (2 ^ 32 * 2 ^ 32) with (2 ^ 64). lia.
Qed.

(** ** The whole jump *)
Lemma mode_detect rw cond a t : mode_ok (detect_jump_type rw cond a t) a t.
Proof.
  unfold detect_jump_type, mode_ok. cbv zeta. destruct rw; [exact I|].
  destruct (cond && within (sgn (wrap (t - a)) + 4) BRANCH16_MIN BRANCH16_MAX) eqn:E1; [apply andb_prop in E1; apply E1|].
  destruct (within (sgn (wrap (t - a))) JUMP_MIN JUMP_MAX) eqn:E2; [reflexivity|].
  destruct (within (sgn (wrap (t - a))) S32_MIN S32_MAX) eqn:E3; [reflexivity|].
  destruct (t <=? S32_MAX) eqn:E4; [lia|]. destruct (t <=? S52_MAX) eqn:E5; [lia|exact I].
Qed.
Lemma jcond_bcc s c w : jcond_legal c false -> jcond_word c = Some w ->
  exists k j d, 0 <= k < 6 /\ 0 <= j < 32 /\ 0 <= d < 32 /\ w = bcc k j d /\ taken k (rG s j) (rG s d) = negb (jcond_holds s c).
Proof.
  intros L W. destruct c as [|c x y|f]; cbn [jcond_word] in W; [discriminate| |]; injection W as <-.
  - destruct L as (Hx & Hy & _).
    assert (R : forall r, 0 <= r <= 29 -> 0 <= reg_map r < 32 /\ rG s (reg_map r) = value s r).
    { intros r Hr. unfold value. destruct (r =? 0) eqn:E.
      - assert (r = 0) by lia. subst. cbn. split; [lia|reflexivity].
      - pose proof (reg_ok r ltac:(lia)). split; [lia|]. apply rG_nz. lia. }
    destruct (R x Hx) as (Rx & Vx). destruct (R y Hy) as (Ry & Vy).
    destruct c; cbn [cmp_inst jcond_holds cmp_holds];
      first [ exists 0, (reg_map x), (reg_map y); repeat (split; [lia|]); split; [reflexivity|]; rewrite Vx, Vy; cbn; lia
            | exists 1, (reg_map x), (reg_map y); repeat (split; [lia|]); split; [reflexivity|]; rewrite Vx, Vy; cbn; lia
            | exists 2, (reg_map x), (reg_map y); repeat (split; [lia|]); split; [reflexivity|]; rewrite Vx, Vy; cbn; lia
            | exists 3, (reg_map x), (reg_map y); repeat (split; [lia|]); split; [reflexivity|]; rewrite Vx, Vy; cbn; lia
            | exists 4, (reg_map x), (reg_map y); repeat (split; [lia|]); split; [reflexivity|]; rewrite Vx, Vy; cbn; lia
            | exists 5, (reg_map x), (reg_map y); repeat (split; [lia|]); split; [reflexivity|]; rewrite Vx, Vy; cbn; lia
            | exists 2, (reg_map y), (reg_map x); repeat (split; [lia|]); split; [reflexivity|]; rewrite Vx, Vy; cbn; lia
            | exists 3, (reg_map y), (reg_map x); repeat (split; [lia|]); split; [reflexivity|]; rewrite Vx, Vy; cbn; lia
            | exists 4, (reg_map y), (reg_map x); repeat (split; [lia|]); split; [reflexivity|]; rewrite Vx, Vy; cbn; lia
            | exists 5, (reg_map y), (reg_map x); repeat (split; [lia|]); split; [reflexivity|]; rewrite Vx, Vy; cbn; lia ].
  - destruct f; cbn [get_jump_instruction jcond_holds];
      first [ exists 1, 12, 0; repeat (split; [lia|]); split; [reflexivity|]; reflexivity
            | exists 0, 12, 0; repeat (split; [lia|]); split; [reflexivity|]; cbn; rewrite negb_involutive; reflexivity
            | exists 0, 15, 0; repeat (split; [lia|]); split; [reflexivity|]; cbn; rewrite negb_involutive; reflexivity
            | exists 1, 15, 0; repeat (split; [lia|]); split; [reflexivity|]; reflexivity ].
Qed.

Lemma patch_jump_ok code p s m c call t : jcond_legal c call -> isw t -> t mod 4 = 0 -> p mod 4 = 0 ->
  let a := p + 4 * jcond_size c in
  let ws := patch_jump m (jcond_word c) call a t in
  mode_ok m a t -> (m = PATCH_B -> c <> JAlways) -> (m = PATCH_REL32 -> bit11 (wrap (t - a)) = false) ->
  code_at 4 ws p code ->
  if jcond_holds s c
  then exists s', goes code p s t s' /\ jumped call (p + 4 * Z.of_nat (length ws)) s s'
  else goes code p s (p + 4 * Z.of_nat (length ws)) s.
Proof.
  intros L Ht T4 P4 a ws OK NB R11 C.
  assert (D4 : (t - a) mod 4 = 0).
  { unfold a. pose proof (Z.div_mod t 4). pose proof (Z.div_mod p 4).
    replace (t - (p + 4 * jcond_size c)) with ((t / 4 - p / 4 - jcond_size c) * 4) by lia. apply Z_mod_mult. }
  destruct (jcond_word c) as [w|] eqn:W.
  - assert (call = false) as -> by (destruct c; cbn in L; [discriminate|tauto|auto]).
    assert (SZ : jcond_size c = 1) by (destruct c; [discriminate|reflexivity|reflexivity]).
    assert (A4 : a = p + 4) by (unfold a; lia).
    destruct (jcond_bcc s c w L W) as (k & j & d & Hk & Hj & Hd & EW & TK).
    destruct (flip_ok k Hk) as (Fk & FT).
    assert (NF : forall n, 0 <= n < 16 -> goes code p s (if taken k (rG s j) (rG s d) then p + 4 * n else p + 4) s \/ code (wrap p) <> branch_over w n).
    { intros n Hn. destruct (Z.eq_dec (code (wrap p)) (branch_over w n)) as [E|E]; [left|right; auto].
      unfold branch_over in E. rewrite EW in E.
      pose proof (go_bcc code p s k j d n _ Hk Hj Hd E eq_refl) as G.
      rewrite (Z.mod_small n), Z.shiftl_mul_pow2, sext_small in G by (change (2 ^ (18 - 1)) with 131072; lia).
      change (2 ^ 2) with 4 in G. rewrite (Z.mul_comm n 4) in G. exact G. }
    assert (REST : forall n tl, ws = branch_over w n :: tl -> n = 1 + Z.of_nat (length tl) -> n < 16 ->
       (jcond_holds s c = true -> exists s', goes code a s t s' /\ jumped false (a + 4 * Z.of_nat (length tl)) s s') ->
       if jcond_holds s c then exists s', goes code p s t s' /\ jumped false (p + 4 * Z.of_nat (length ws)) s s'
       else goes code p s (p + 4 * Z.of_nat (length ws)) s).
    { intros n tl EQ Hn H16 B. rewrite EQ in C |- *. cbn [code_at length] in C |- *. destruct C as (C1 & C2).
      destruct (NF n ltac:(lia)) as [G|G]; [|congruence]. rewrite TK in G.
      destruct (jcond_holds s c); cbn [negb] in G.
      - destruct (B eq_refl) as (s' & G' & J'). exists s'. split.
        + eapply goes_trans; [exact G|]. rewrite <- A4. exact G'.
        + replace (p + 4 * Z.of_nat (S (length tl))) with (a + 4 * Z.of_nat (length tl)) by lia. exact J'.
      - replace (p + 4 * Z.of_nat (S (length tl))) with (p + 4 * n) by lia. exact G. }
    destruct m; cbn [patch_jump over app] in ws.
    + unfold ws in C |- *. cbn [length code_at] in C |- *. destruct C as (C1 & _).
      rewrite EW, short_eq in C1 by auto.
      pose proof (go_bcc code p s (flip k) j d _ _ Fk Hj Hd C1 eq_refl) as G.
      rewrite FT, TK, negb_involutive in G.
      destruct (jcond_holds s c); [|exact G].
      exists s. split; [|split; [auto|discriminate]].
      eapply goes_wrap; [exact G|].
      replace (a - 4) with p in * by lia. rewrite shr_div by lia. change (2 ^ 2) with 4.
      change 18 with (16 + 2). rewrite sext_div4.
      2: lia. 2: { rewrite wrap_mod4. pose proof (Z.div_mod t 4). pose proof (Z.div_mod p 4). replace (t - p) with ((t / 4 - p / 4) * 4) by lia. apply Z_mod_mult. }
      cbn [mode_ok] in OK. unfold within in OK. change BRANCH16_MIN with (-131072) in OK. change BRANCH16_MAX with 131068 in OK.
      assert (S4 : sgn (wrap (t - p)) = sgn (wrap (t - a)) + 4).
      { destruct (sext_mod 64 (wrap (t - a)) ltac:(lia)) as (k1 & K1). fold (sgn (wrap (t - a))) in K1.
        unfold sgn at 1. pose proof (Z.div_mod (t - a) (2 ^ 64)). pose proof (Z.div_mod (t - p) (2 ^ 64)).
        fold (wrap (t - a)) in H. fold (wrap (t - p)) in H0.
        apply sext_unique with (k1 + (t - a) / 2 ^ 64 - (t - p) / 2 ^ 64); [lia| |lia]. change (2 ^ (64 - 1)) with 9223372036854775808. lia. }
      rewrite <- S4 in OK. rewrite sgn_sext by (change (2 ^ (16 + 2 - 1)) with 131072; lia).
      rewrite diff_back by exact Ht. symmetry. apply wrap_small. exact Ht.
    + apply REST with 2 [B .| IMM_I26 (Z.shiftr (wrap (t - a)) 2)]; [reflexivity|reflexivity|lia|].
      intros H. unfold ws in C. cbn [app over code_at] in C. destruct C as (_ & C2 & _). rewrite <- A4 in C2.
      destruct (go_b code a s false t Ht D4 OK C2) as (s' & G' & J'). eauto.
    + apply REST with 3 (load_addr_to_reg PATCH_REL32 TMP_REG1 (Some (jump_inst false)) a t); [reflexivity|reflexivity|lia|].
      intros H. unfold ws in C. cbn [app over] in C. destruct C as (_ & C2). rewrite <- A4 in C2.
      apply body_ok; auto; discriminate.
    + apply REST with 3 (load_addr_to_reg PATCH_ABS32 TMP_REG1 (Some (jump_inst false)) a t); [reflexivity|reflexivity|lia|].
      intros H. unfold ws in C. cbn [app over] in C. destruct C as (_ & C2). rewrite <- A4 in C2.
      apply body_ok; auto; discriminate.
    + apply REST with 4 (load_addr_to_reg PATCH_ABS52 TMP_REG1 (Some (jump_inst false)) a t); [reflexivity|reflexivity|lia|].
      intros H. unfold ws in C. cbn [app over] in C. destruct C as (_ & C2). rewrite <- A4 in C2.
      apply body_ok; auto; discriminate.
    + apply REST with 5 (load_addr_to_reg PATCH_FULL TMP_REG1 (Some (jump_inst false)) a t); [reflexivity|reflexivity|lia|].
      intros H. unfold ws in C. cbn [app over] in C. destruct C as (_ & C2). rewrite <- A4 in C2.
      apply body_ok; auto; discriminate.
  - assert (c = JAlways) as -> by (destruct c; [reflexivity|discriminate|discriminate]).
    cbn [jcond_holds]. cbn [jcond_size] in a. assert (Aa : a = p) by (unfold a; lia). clearbody a. subst a.
    destruct m; cbn [patch_jump over app jcond_word] in ws; [exfalso; apply NB; reflexivity| | | | |]; subst ws.
    + destruct C as (C1 & _). apply go_b; auto.
    + apply body_ok; auto; discriminate.
    + apply body_ok; auto; discriminate.
    + apply body_ok; auto; discriminate.
    + apply body_ok; auto; discriminate.
Qed.

Lemma link_size rw cw call a t : isw t ->
  Z.of_nat (length (link_jump rw cw call a t)) <= (match cw with Some _ => 1 | None => 0 end) + reduce_jump_addr rw t.
Proof.
  intros Ht. unfold link_jump, detect_jump_type, reduce_jump_addr. cbv zeta. destruct rw.
  - destruct cw; cbn; lia.
  - destruct (_ && _) eqn:E1.
    { destruct cw; [|discriminate]. cbn. destruct (t <=? S32_MAX); [lia|]. destruct (t <=? S52_MAX); lia. }
    destruct (within _ JUMP_MIN _); [|destruct (within _ S32_MIN _); [|destruct (t <=? S32_MAX); [|destruct (t <=? S52_MAX)]]];
      destruct cw; cbn [patch_jump over app length load_addr_to_reg Z.of_nat Pos.of_succ_nat Pos.succ]; try lia;
      destruct (t <=? S32_MAX); try lia; destruct (t <=? S52_MAX); lia.
Qed.

(** ** Addresses *)
Lemma link_addr_ok code a s reg t : 1 <= reg <= 29 -> isw t -> ~ 0x7ffff800 <= sgn (wrap (t - a)) <= 0x7fffffff ->
  code_at 4 (link_addr reg a t) a code ->
  exists s', goes code a s (a + 4 * Z.of_nat (length (link_addr reg a t))) s' /\ only s s' (reg_map reg) t.
Proof.
  intros Hr Ht ND C. unfold link_addr, mov_addr_mode in *. cbv zeta in *. set (x := wrap (t - a)) in *.
  assert (CT : cut t + t mod 2 ^ 12 = t) by (unfold cut; pose proof (Z.div_mod t (2 ^ 12)); lia). pose proof (mod_b t 12 ltac:(lia)) as B12.
  assert (WT : wrap t = t) by (apply wrap_small; auto). unfold isw in Ht.
  assert (C0 : 0 <= cut t <= t) by (unfold cut in *; pose proof (Z.div_pos t (2 ^ 12)); lia).
  destruct (within (sgn x) S32_MIN S32_MAX) eqn:E1; [|destruct (t <=? S32_MAX) eqn:E2; [|destruct (t <=? S52_MAX) eqn:E3]].
  - unfold within in E1. change S32_MIN with (-2147483648) in E1. change S32_MAX with 2147483647 in E1.
    cbn [load_addr_to_reg last_inst code_at length] in *. fold x in C |- *.
    set (y := if x .& 0x800 =? 0 then x else wrap (x + 0x1000)) in *.
    destruct C as (C1 & C2 & _). destruct (go_pcadd code a s reg y Hr C1) as (s1 & G1 & O1).
    destruct (go_addi code (a + 4) s1 reg Hr y _ (proj1 O1) C2) as (s2 & G2 & O2).
    exists s2. split; [replace (a + 4 * Z.of_nat 2) with (a + 4 + 4) by lia; eapply goes_trans; eauto|].
    eapply only_trans; [exact O1|].
    replace (wrap (wrap (a + sext 32 (cut y)) + sext 12 y)) with t in O2; [exact O2|].
    rewrite wrap_add_l, <- Z.add_assoc.
    replace (sext 32 (cut y) + sext 12 y) with (sgn x); [symmetry; apply diff_back; exact Ht|].
    pose proof (bit11_eq x) as B11. unfold bit11 in B11. pose proof (mod_b x 12 ltac:(lia)) as Bx.
    destruct (x .& 0x800 =? 0) eqn:E; cbn [negb] in B11; unfold y.
    + unfold sext at 2. cbv zeta. change (2 ^ (12 - 1)) with 2048. replace (x mod 2 ^ 12 <? 2048) with true by lia.
      rewrite <- sext_cut by lia. symmetry. apply sgn_sext; [lia|change (2 ^ (32 - 1)) with 2147483648; lia].
    + assert (Y12 : wrap (x + 0x1000) mod 2 ^ 12 = x mod 2 ^ 12).
      { unfold wrap. change (2 ^ 64) with (2 ^ 12 * 2 ^ 52). rewrite Z.rem_mul_r by lia. rewrite Z.mul_comm, Z_mod_plus_full, Z.mod_mod by lia.
        change 0x1000 with (1 * 2 ^ 12). apply Z_mod_plus_full. }
      unfold sext at 2. cbv zeta. rewrite Y12. change (2 ^ (12 - 1)) with 2048. replace (x mod 2 ^ 12 <? 2048) with false by lia.
      assert (S32 : sext 32 (wrap (x + 0x1000)) = sgn x + 0x1000).
      { destruct (sext_mod 64 x ltac:(lia)) as (k & K). fold (sgn x) in K.
        unfold wrap. pose proof (Z.div_mod (x + 0x1000) (2 ^ 64) ltac:(lia)).
        assert (SX : sgn x mod 2 ^ 12 = x mod 2 ^ 12).
        { rewrite K at 2. change (2 ^ 64) with (2 ^ 52 * 2 ^ 12). rewrite Z.mul_assoc. symmetry. apply Z_mod_plus_full. }
        assert (sgn x < 0x7ffff000).
        { assert (sgn x < 0x7ffff800) by lia. pose proof (Z.div_mod (sgn x) (2 ^ 12)). change (2 ^ 12) with 4096 in *. lia. }
        apply sext_unique with ((k - (x + 0x1000) / 2 ^ 64) * 2 ^ 32); [lia|change (2 ^ (32 - 1)) with 2147483648; lia|].
        rewrite <- Z.mul_assoc. change (2 ^ 32 * 2 ^ 32) with (2 ^ 64). lia. }
      rewrite (sext_cut 32) in S32 by lia. rewrite Y12 in S32. change (2 ^ 12) with 4096 in *. lia.
  - change S32_MAX with 2147483647 in E2. destruct C as (C1 & C2 & _). cbn [last_inst] in C2.
    destruct (go_lu12 code a s reg Hr t C1) as (s1 & G1 & O1).
    destruct (go_ori code (a + 4) s1 reg Hr 32 t ltac:(lia) (proj1 O1) C2) as (s2 & G2 & O2).
    exists s2. split; [cbn [load_addr_to_reg length]; replace (a + 4 * Z.of_nat 2) with (a + 4 + 4) by lia; eapply goes_trans; eauto|].
    rewrite sxw_small, WT in O2 by (change (2 ^ (32 - 1)) with 2147483648; lia). eapply only_trans; eauto.
  - change S52_MAX with 2251799813685247 in E3. destruct C as (C1 & C2 & C3 & _). cbn [last_inst] in C3.
    assert (M : MID20 t = MID20 (cut t)).
    { rewrite !MID20_eq. f_equal. f_equal. unfold cut. change 32 with (12 + 20). rewrite Z.pow_add_r by lia.
      rewrite <- !Z.div_div by lia. rewrite Z.div_mul by lia. reflexivity. }
    rewrite M in C2.
    destruct (go_lu12 code a s reg Hr t C1) as (s1 & G1 & O1).
    destruct (go_lu32 code _ s1 reg Hr (cut t) ltac:(destruct O1 as (-> & _); apply sxw_mod; lia) C2) as (s2 & G2 & O2).
    destruct (go_ori code _ s2 reg Hr 52 t ltac:(lia) (proj1 O2) C3) as (s3 & G3 & O3).
    exists s3. split; [cbn [load_addr_to_reg length]; replace (a + 4 * Z.of_nat 3) with (a + 4 + 4 + 4) by lia; eapply goes_trans; [exact G1|eapply goes_trans; eauto]|].
    rewrite sxw_small, WT in O3 by (change (2 ^ (52 - 1)) with 2251799813685248; lia). eapply only_trans; [exact O1|]. eapply only_trans; eauto.
  - destruct (emit_const_ok code a s reg t Hr C) as (s1 & G1 & O1). rewrite WT in O1. exists s1. split; [exact G1|exact O1].
Qed.

Lemma link_jump_ok code p s rw c call t : jcond_legal c call -> isw t -> t mod 4 = 0 -> p mod 4 = 0 ->
  let a := p + 4 * jcond_size c in
  let ws := link_jump rw (jcond_word c) call a t in
  (detect_jump_type rw (match jcond_word c with Some _ => true | None => false end) a t = PATCH_REL32 -> bit11 (wrap (t - a)) = false) ->
  code_at 4 ws p code ->
  if jcond_holds s c
  then exists s', goes code p s t s' /\ jumped call (p + 4 * Z.of_nat (length ws)) s s'
  else goes code p s (p + 4 * Z.of_nat (length ws)) s.
Proof.
  intros L Ht T4 P4 a ws R C. unfold ws, link_jump in *.
  apply patch_jump_ok; auto; fold a; [apply mode_detect|].
  intros EB ->. cbn [jcond_word] in EB. unfold detect_jump_type in EB. cbv zeta in EB. cbn [andb] in EB.
  destruct rw; [discriminate|]. revert EB. repeat match goal with |- context [if ?c then _ else _] => destruct c end; discriminate.
Qed.
