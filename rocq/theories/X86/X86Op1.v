(** sljit_emit_op1 on x86-64. *)
Require Import ZArith List Bool Lia.
From Verif Require Import Rv.RvLib Rv.RvIsa Rv.RvMem Rv.RvMemProofs Rv.RvOp Rv.RvLir Rv.RvEmitOp1 Rv.RvRevBits X86.X86Isa X86.X86Emit X86.X86Spec X86.X86Enc X86.X86EncTop X86.X86OpSpec
  X86.X86Op X86.X86Ins X86.X86Ins2 X86.X86Mov X86.X86Bin X86.X86Mul X86.X86Shift X86.X86Ins3.
Import ListNotations.
Ltac Zify.zify_post_hook ::= idtac.
Open Scope Z_scope.

(** ** What the operations access (sljitLir.h:1232-1315) *)
(** The length of the operation. *)
Definition n1 (k : op1k) (is32 : bool) : Z :=
  match k with O_MOV | O_MOV_P | O_MOV_U32 | O_MOV_S32 | O_REV_U32 | O_REV_S32 => 64 | O_MOV32 => 32 | _ => nbits is32 end.
(** Bytes read from a memory source, and written to a memory destination. *)
Definition sz1 (k : op1k) (is32 : bool) : Z :=
  match k with
  | O_MOV | O_MOV_P => 8
  | O_MOV_U8 | O_MOV_S8 => 1
  | O_MOV_U16 | O_MOV_S16 | O_REV_U16 | O_REV_S16 => 2
  | O_MOV_U32 | O_MOV_S32 | O_MOV32 | O_REV_U32 | O_REV_S32 => 4
  | O_CLZ | O_CTZ | O_REV => nbits is32 / 8
  end.
(** Immediate sources are for moves only (sljitLir.h:1285-1315). *)
Definition is_mov (k : op1k) : bool := match k with O_CLZ | O_CTZ | O_REV | O_REV_U16 | O_REV_S16 | O_REV_U32 | O_REV_S32 => false | _ => true end.
Definition src1_legal (k : op1k) (S : arg) (Sw : Z) : Prop := xsrc_legal S Sw /\ (is_mov k = false -> S <> AImm).
(** The destination has the value [r] of [N] bits (registers; with [ex] the rest of the register is clear), or [B] bytes of it (memory). *)
Definition wrote1 (w : bool) (N B : Z) (ex : Prop) (L : list Z) (s : xst) (a : arg) (imm r : Z) (s' : xst) : Prop :=
  match a with
  | AReg d => xr s' (reg_map w d) mod 2 ^ N = r mod 2 ^ N /\ (ex -> xr s' (reg_map w d) < 2 ^ N) /\ xm s' = xm s /\ regs_same w (d :: L) s s'
  | AImm => False
  | AMem b o => xm s' = store (xm s) (xaddr w s b o imm) (r mod 2 ^ (8 * B)) (Z.to_nat B) /\ regs_same w L s s'
  end.
(** The operations that leave a 32 bit result sign extended to 64 bits, or do nothing. *)
Definition clears (k : op1k) (D S : arg) : bool :=
  match k with O_MOV_S8 | O_MOV_S16 => false | O_REV_S16 => arg_eqb S D | O_MOV32 => negb (arg_eqb S D) | _ => true end.

Lemma wr1_reg : forall w n N B (ex : Prop) L s d i i' v r s', wrote w n L s (AReg d) i v s' -> (v mod 2 ^ n) mod 2 ^ N = r mod 2 ^ N -> (ex -> v mod 2 ^ n < 2 ^ N) -> incl L TMPS ->
  wrote1 w N B ex TMPS s (AReg d) i' r s'.
Proof.
  intros w n N B ex L s d i i' v r s' (A & B' & C) E F I. cbn [wrote1]. rewrite A. split; [exact E|]. split; [exact F|]. split; [exact B'|].
  eapply regs_weaken; [exact C|]. intros x [X|X]; [left; exact X|right; apply I; exact X].
Qed.
Lemma wr1_mem : forall w n N B (ex : Prop) L s b o i v r s', wrote w n L s (AMem b o) i v s' -> n = 8 * B -> v mod 2 ^ n = r mod 2 ^ n -> incl L TMPS ->
  wrote1 w N B ex TMPS s (AMem b o) i r s'.
Proof.
  intros w n N B ex L s b o i v r s' (A & C) E F I. cbn [wrote1]. subst n. rewrite A, F. split.
  - replace (8 * B / 8) with B by (apply Z.div_unique with 0; lia). reflexivity.
  - eapply regs_weaken; [exact C|exact I].
Qed.
Lemma xv_bound : forall w n s a imm, 8 * Z.of_nat (Z.to_nat (n / 8)) = n -> xwf s -> 0 <= xval w n s a imm < 2 ^ n.
Proof.
  intros w n s a imm N W. assert (0 <= n) by lia. destruct a as [r| |b o]; cbn [xval]; try (apply Z.mod_pos_bound; apply Z.pow_pos_nonneg; lia).
  pose proof (load_bound (xm s) (Z.to_nat (n / 8)) (xaddr w s b o imm)) as L. rewrite N in L. exact L.
Qed.
Lemma sext_lift : forall k x, 1 <= k <= 64 -> (wrap (sext k x)) mod 2 ^ k = x mod 2 ^ k.
Proof.
  intros k x K. unfold wrap. replace (2 ^ 64) with (2 ^ k * 2 ^ (64 - k)) by (rewrite <- Z.pow_add_r by lia; f_equal; lia).
  assert (0 < 2 ^ k) by (apply Z.pow_pos_nonneg; lia). assert (0 < 2 ^ (64 - k)) by (apply Z.pow_pos_nonneg; lia).
  rewrite Z.rem_mul_r by lia. rewrite Z.mul_comm, Z.mod_add, Z.mod_mod by lia. apply sext_mod_le; lia.
Qed.
Lemma sext_of_mod : forall k x, 1 <= k -> sext k (x mod 2 ^ k) = sext k x.
Proof. intros k x K. unfold sext. rewrite Z.mod_mod; [reflexivity|]. apply Z.pow_nonzero; lia. Qed.

Section U.
Variables (u : Z) (w : bool).
(** ** Moves of 8 and 16 bits *)
Definition st_r (from r : Z) (D : arg) (Dw : Z) : option (list Z) :=
  if from =? 8 then ins w false (with_norexw (with_rex (fl 1))) 0x88 (AReg r) 0 D Dw else ins w false (with_66 (with_norexw (fl 1))) 0x89 (AReg r) 0 D Dw.
Definition st_i (from imm : Z) (D : arg) (Dw : Z) : option (list Z) :=
  if from =? 8 then ins w false (with_norexw (with_byte (fl 1))) 0xc6 AImm imm D Dw else ins w false (with_66 (with_norexw (with_half (fl 1)))) 0xc7 AImm imm D Dw.
Definition small (from : Z) (sg : bool) (D : arg) (Dw : Z) (S : arg) (Sw : Z) : option (list Z) :=
  if is_imm S then (if is_reg D then ins w false (fl 1) 0xc7 AImm Sw D 0 else st_i from Sw D Dw)
  else
    let d := if is_reg D then reg_of D else if is_reg S then reg_of S else TMP_REG1 in
    (if is_mem D && is_reg S then Some [] else groupf w false false (mx_op sg from) d S Sw) +++ (if is_mem D then st_r from d D Dw else Some []).
Lemma small_byte : forall sg D Dw S Sw, emit_mov_byte w sg D Dw S Sw = small 8 sg D Dw S Sw. Proof. destruct sg; reflexivity. Qed.
Lemma small_half : forall sg D Dw S Sw, emit_mov_half w sg D Dw S Sw = small 16 sg D Dw S Sw. Proof. destruct sg; reflexivity. Qed.
Lemma st_r_ok : forall from r b o Dw s, from = 8 \/ from = 16 -> 1 <= r <= 15 -> sok (AMem b o) Dw -> xwf s ->
  does u (st_r from r (AMem b o) Dw) s (fun s' => wrote w from TMPS s (AMem b o) Dw (xr s (reg_map w r)) s' /\ flags_same s s').
Proof.
  intros from r b o Dw s F R K W. destruct (sok_gop (AMem b o) Dw K eq_refl) as (G & _).
  assert (OK : okr (AMem b o) Dw r) by (split; [lia|intros _; unfold TMP_REG2; lia]).
  destruct F; subst from; unfold st_r; cbn [Z.eqb Pos.eqb].
  - eapply does_conseq; [apply store8_ok; [exact OK|exact G|exact W]|]. intros s' _ (A & B). split; [|exact B].
    eapply wrote_weaken; [eapply wrote_val; [exact A|]|apply ftmp_TMPS]. apply Z.mod_mod. vm_compute; discriminate.
  - eapply does_conseq; [apply store16_ok; [exact OK|exact G|exact W]|]. intros s' _ (A & B). split; [|exact B].
    eapply wrote_weaken; [eapply wrote_val; [exact A|]|apply ftmp_TMPS]. apply Z.mod_mod. vm_compute; discriminate.
Qed.
Lemma st_i_ok : forall from imm b o Dw s, from = 8 \/ from = 16 -> - 2 ^ 31 <= imm < 2 ^ 31 -> sok (AMem b o) Dw -> xwf s ->
  does u (st_i from imm (AMem b o) Dw) s (fun s' => wrote w from TMPS s (AMem b o) Dw imm s' /\ flags_same s s').
Proof.
  intros from imm b o Dw s F R K W. destruct (sok_gop (AMem b o) Dw K eq_refl) as (G & _).
  destruct F; subst from; unfold st_i; cbn [Z.eqb Pos.eqb].
  - eapply does_conseq; [apply storei8_ok; [exact R|exact G|exact W]|]. intros s' _ (A & B). split; [|exact B].
    eapply wrote_weaken; [exact A|apply ftmp_TMPS].
  - eapply does_conseq; [apply storei16_ok; [exact R|exact G|exact W]|]. intros s' _ (A & B). split; [|exact B].
    eapply wrote_weaken; [exact A|apply ftmp_TMPS].
Qed.
(** [Sw'] is the immediate after the cast. *)
Lemma small_ok : forall from sg D Dw S Sw Sw' s, from = 8 \/ from = 16 -> sok D Dw -> is_imm D = false -> (forall r, D = AReg r -> r <= 16) -> xsrc_legal S Sw ->
  (S = AImm -> - 2 ^ 31 <= Sw' < 2 ^ 31 /\ Sw' mod 2 ^ 64 = (if sg : bool then sext from Sw else Sw mod 2 ^ from) mod 2 ^ 64) -> (S <> AImm -> Sw' = Sw) -> xwf s ->
  does u (small from sg D Dw S Sw') s (fun s' =>
    (match D with AReg _ => wrote w 64 TMPS s D Dw (if sg then sext from (xval w from s S Sw) else xval w from s S Sw) s'
     | _ => wrote w from TMPS s D Dw (xval w from s S Sw) s' end) /\ flags_same s s').
Proof.
  intros from sg D Dw S Sw Sw' s F DK DI DR SL SI SN W.
  assert (F1 : 1 <= from <= 64) by (destruct F; lia). assert (FP : 2 ^ from <> 0) by (apply Z.pow_nonzero; lia).
  assert (LOW : forall v, ((if sg then sext from v else v) mod 2 ^ 64) mod 2 ^ from = v mod 2 ^ from).
  { intros v. change (v mod 2 ^ 64) with (wrap v). assert (Q : forall z, (z mod 2 ^ 64) mod 2 ^ from = z mod 2 ^ from).
    { intros z. replace (2 ^ 64) with (2 ^ from * 2 ^ (64 - from)) by (rewrite <- Z.pow_add_r by lia; f_equal; lia).
      assert (0 < 2 ^ from) by lia. assert (0 < 2 ^ (64 - from)) by (apply Z.pow_pos_nonneg; lia).
      rewrite Z.rem_mul_r by lia. rewrite Z.mul_comm, Z.mod_add, Z.mod_mod by lia. reflexivity. }
    rewrite Q. destruct sg; [apply sext_mod_le; lia|reflexivity]. }
  destruct (is_imm S) eqn:EI.
  - destruct S; try discriminate. destruct (SI eq_refl) as (R & C). unfold small. cbn [is_imm].
    destruct D as [d| |b o]; [|discriminate|]; cbn [is_reg].
    + simpl in DK. eapply does_conseq; [apply (mov_imm_ok u w false)|].
      { intros _; exact R. } { split; [simpl; unfold isreg; lia|]. intros Q; injection Q; lia. } { exact W. }
      intros s' _ (A & B). split; [|exact B]. eapply wrote_weaken; [eapply wrote_val; [exact A|]|apply (ftmp_TMPS (AReg d) 0)].
      cbn [size_of]. rewrite Z.mod_mod by (vm_compute; discriminate). rewrite C. cbn [xval]. destruct sg; [|reflexivity]. rewrite sext_of_mod by lia. reflexivity.
    + eapply does_conseq; [apply st_i_ok; [exact F|exact R|exact DK|exact W]|]. intros s' _ (A & B). split; [|exact B].
      eapply wrote_val; [exact A|]. cbn [xval]. rewrite Z.mod_mod by exact FP. rewrite <- (LOW Sw).
      transitivity ((Sw' mod 2 ^ 64) mod 2 ^ from).
      * symmetry. pose proof (LOW Sw') as Q. destruct sg; [|exact Q].
        replace (2 ^ 64) with (2 ^ from * 2 ^ (64 - from)) by (rewrite <- Z.pow_add_r by lia; f_equal; lia).
        assert (0 < 2 ^ from) by lia. assert (0 < 2 ^ (64 - from)) by (apply Z.pow_pos_nonneg; lia).
        rewrite Z.rem_mul_r by lia. rewrite Z.mul_comm, Z.mod_add, Z.mod_mod by lia. reflexivity.
      * rewrite C. destruct sg; [reflexivity|]. rewrite (Z.mod_small (Sw mod 2 ^ from)) by (destruct F; subst from; pose proof (Z.mod_pos_bound Sw (2 ^ 8)); pose proof (Z.mod_pos_bound Sw (2 ^ 16)); lia).
        rewrite Z.mod_mod by exact FP. symmetry. apply LOW.
  - assert (SA : S <> AImm) by (intros ->; discriminate). rewrite (SN SA). clear SI SN Sw'. pose proof (src_sok S Sw SL) as SK. unfold small. rewrite EI. cbv zeta.
    destruct D as [d| |b o]; [|discriminate|]; cbn [is_reg is_mem reg_of andb].
    + simpl in DK. eapply does_seq with (P := fun s' => wrote w 64 TMPS s (AReg d) Dw (if sg then sext from (xval w from s S Sw) else xval w from s S Sw) s' /\ flags_same s s').
      { eapply does_conseq; [apply movx_ok; [exact F|exact DK|apply sok_gop; assumption|exact W]|]. intros s' _ (A & B). split; [|exact B]. eapply wrote_weaken; [exact A|apply ftmp_TMPS]. }
      intros s1 W1 H. apply does_nil; assumption.
    + destruct S as [r| |b' o']; [|discriminate|]; cbn [is_reg reg_of andb].
      * simpl in SL. unfold xureg in SL. eapply does_seq with (P := fun s' => s' = s); [apply does_nil; auto|]. intros s1 W1 ->.
        eapply does_conseq; [apply st_r_ok; [exact F|lia|exact DK|exact W]|]. intros s' _ (A & B). split; [|exact B]. eapply wrote_val; [exact A|].
        cbn [xval]. rewrite Z.mod_mod by exact FP. reflexivity.
      * eapply does_seq; [apply movx_ok; [exact F|unfold TMP_REG1; lia|apply sok_gop; [exact SK|reflexivity]|exact W]|]. intros s1 W1 (A & B).
        destruct (wrote_reg_only _ _ _ _ _ _ _ _ A) as (A1 & A2).
        assert (I : incl (TMP_REG1 :: ftmp (AMem b' o') Sw) TMPS). { intros x. simpl. intros [X|X]; [left; exact X|]. apply ftmp_TMPS in X. exact X. }
        eapply does_conseq; [apply st_r_ok; [exact F|unfold TMP_REG1; lia|exact DK|exact W1]|]. intros s2 _ (C & E). split; [|eapply flags_trans; eauto].
        eapply wrote_weaken; [eapply wrote_trans; [exact DK|exact A1| |eapply wrote_val; [exact C|]]|].
        -- eapply apart_incl; [apply (sok_far_tmp _ Dw DK)|exact I].
        -- rewrite A2. apply LOW.
        -- intros x. rewrite in_app_iff. intros [X|X]; [apply I; exact X|exact X].
Qed.
Lemma mod_64_32 : forall z, (z mod 2 ^ 64) mod 2 ^ 32 = z mod 2 ^ 32.
Proof. intros z. change (2 ^ 64) with (2 ^ 32 * 2 ^ 32). rewrite Z.rem_mul_r by lia. rewrite Z.mul_comm, Z.mod_add, Z.mod_mod by lia. reflexivity. Qed.
(** ** Moves of 32 bits *)
Lemma int_ok : forall sg D Dw S Sw Sw' s, sok D Dw -> is_imm D = false -> xsrc_legal S Sw ->
  (S = AImm -> Sw' = if sg : bool then sext 32 Sw else Sw mod 2 ^ 32) -> (S <> AImm -> Sw' = Sw) -> xwf s ->
  does u (emit_mov_int w sg D Dw S Sw') s (fun s' =>
    (match D with AReg _ => wrote w 64 TMPS s D Dw (if sg then sext 32 (xval w 32 s S Sw) else xval w 32 s S Sw) s'
     | _ => wrote w 32 TMPS s D Dw (xval w 32 s S Sw) s' end) /\ flags_same s s').
Proof.
  intros sg D Dw S Sw Sw' s DK DI SL SI SN W.
  destruct (is_imm S) eqn:EI.
  - destruct S; try discriminate. specialize (SI eq_refl). clear SN. unfold emit_mov_int. cbn [is_imm].
    assert (C : Sw' mod 2 ^ 32 = Sw mod 2 ^ 32). { rewrite SI. destruct sg; [apply sext_mod_le; lia|apply Z.mod_mod; lia]. }
    destruct D as [d| |b o]; [|discriminate|]; cbn [is_reg reg_of].
    + simpl in DK. destruct (negb sg || (Sw' mod 2 ^ 32 <=? 0x7fffffff)) eqn:CC.
      * replace (if reg_map w d <=? 7 then 0 else REX_B) with (if 8 <=? reg_map w d then REX_B else 0).
        2: { destruct (Z.leb_spec 8 (reg_map w d)), (Z.leb_spec (reg_map w d) 7); try lia; reflexivity. }
        eapply does_conseq; [apply mov_b8_ok; [exact DK|exact W]|]. intros s' _ (A & B). split; [|exact B].
        destruct A as (A1 & A2 & A3). split; [|split; [exact A2|]].
        -- rewrite A1, C. cbn [xval]. pose proof (Z.mod_pos_bound Sw (2 ^ 32) ltac:(lia)). destruct sg.
           ++ cbn [negb orb] in CC. apply Z.leb_le in CC. rewrite C in CC. rewrite sext_of_mod by lia.
              replace (sext 32 Sw) with (Sw mod 2 ^ 32); [symmetry; apply Z.mod_small; lia|]. symmetry.
              unfold sext. destruct (Z.ltb_spec (Sw mod 2 ^ 32) (2 ^ (32 - 1))); [reflexivity|]. change (2 ^ (32 - 1)) with 2147483648 in *. lia.
           ++ symmetry. apply Z.mod_small. lia.
        -- eapply regs_weaken; [exact A3|]. intros x [X|[]]. left. exact X.
      * apply orb_false_iff in CC. destruct CC as (CC & _). destruct sg; [|discriminate].
        eapply does_conseq; [apply (mov_imm_ok u w false)|].
        { intros _. pose proof (sext_range 32 Sw' ltac:(lia)). lia. } { split; [simpl; unfold isreg; lia|]. intros Q; injection Q; lia. } { exact W. }
        intros s' _ (A & B). split; [|exact B]. eapply wrote_weaken; [eapply wrote_val; [exact A|]|apply (ftmp_TMPS (AReg d) Dw)].
        cbn [size_of xval]. rewrite Z.mod_mod by (vm_compute; discriminate). rewrite sext_of_mod by lia. rewrite SI.
        rewrite (sext_small 32 (sext 32 Sw)); [reflexivity|lia|]. apply sext_range. lia.
    + eapply does_conseq; [apply (mov_imm_ok u w true)|].
      { discriminate. } { apply sok_gop; assumption. } { exact W. }
      intros s' _ (A & B). split; [|exact B]. eapply wrote_weaken; [eapply wrote_val; [exact A|]|apply ftmp_TMPS].
      cbn [size_of xval]. rewrite !Z.mod_mod by (vm_compute; discriminate). rewrite sext_mod_le by lia. exact C.
  - assert (SA : S <> AImm) by (intros ->; discriminate). rewrite (SN SA). clear SI SN Sw'. pose proof (src_sok S Sw SL) as SK. unfold emit_mov_int. rewrite EI. cbv zeta.
    assert (LD : forall d s, 1 <= d <= 16 -> xwf s -> does u (if sg then ins w false (fl 1) 0x63 (AReg d) 0 S Sw else emit_mov w true (AReg d) 0 S Sw) s (fun s' =>
      wrote w 64 (ftmp S Sw) s (AReg d) 0 (if sg then sext 32 (xval w 32 s S Sw) else xval w 32 s S Sw) s' /\ flags_same s s')).
    { intros d s0 DD W0. destruct sg.
      - apply movsxd_ok; [exact DD|apply sok_gop; assumption|exact W0].
      - eapply does_conseq; [apply (movr_ok u w true); [exact DD|exact SK|exact W0]|]. intros s' _ ((A1 & A2) & B & C). split; [|exact C].
        split; [|split; [exact A1|exact A2]]. rewrite B. symmetry. apply Z.mod_small. pose proof (xval_range w true s0 S Sw W0) as Q. cbn [size_of] in Q. cbn [size_of]. lia. }
    destruct D as [d| |b o]; [|discriminate|]; cbn [is_reg is_mem reg_of andb].
    + simpl in DK. eapply does_seq with (P := fun s' => wrote w 64 TMPS s (AReg d) Dw (if sg then sext 32 (xval w 32 s S Sw) else xval w 32 s S Sw) s' /\ flags_same s s').
      { eapply does_conseq; [apply LD; assumption|]. intros s' _ (A & B). split; [|exact B]. eapply wrote_weaken; [exact A|apply ftmp_TMPS]. }
      intros s1 W1 H. apply does_nil; assumption.
    + destruct S as [r| |b' o']; [|discriminate|]; cbn [is_reg reg_of andb].
      * simpl in SL. unfold xureg in SL. eapply does_seq with (P := fun s' => s' = s); [apply does_nil; auto|]. intros s1 W1 ->.
        eapply does_conseq; [apply (mov_store_ok u w true); [split; [lia|intros _; unfold TMP_REG2; lia]|apply sok_gop; [exact DK|reflexivity]|exact W]|].
        intros s' _ (A & B). split; [|exact B]. eapply wrote_weaken; [exact A|apply ftmp_TMPS].
      * eapply does_seq; [apply LD; [unfold TMP_REG1; lia|exact W]|]. intros s1 W1 (A & B).
        destruct (wrote_reg_only _ _ _ _ _ _ _ _ A) as (A1 & A2).
        assert (I : incl (TMP_REG1 :: ftmp (AMem b' o') Sw) TMPS). { intros x. simpl. intros [X|X]; [left; exact X|]. apply ftmp_TMPS in X. exact X. }
        eapply does_conseq; [apply (mov_store_ok u w true); [split; [unfold TMP_REG1; lia|intros _; unfold TMP_REG1, TMP_REG2; lia]|apply sok_gop; [exact DK|reflexivity]|exact W1]|].
        intros s2 _ (C & E). split; [|eapply flags_trans; eauto].
        eapply wrote_weaken; [eapply wrote_trans; [exact DK|exact A1| |eapply wrote_val; [exact C|]]|].
        -- eapply apart_incl; [apply (sok_far_tmp _ Dw DK)|exact I].
        -- rewrite A2. cbn [size_of]. rewrite mod_64_32. rewrite Z.mod_mod by lia. destruct sg; [apply sext_mod_le; lia|reflexivity].
        -- intros x. rewrite in_app_iff. intros [X|X]; [apply I; exact X|apply ftmp_TMPS in X; exact X].
Qed.
End U.

(** ** Counting bits *)
Lemma clz_is : forall n a, 1 <= n -> 0 <= a < 2 ^ n -> is_clz n a (if a =? 0 then n else n - 1 - Z.log2 a).
Proof.
  intros n a N A. unfold is_clz. rewrite (Z.mod_small a) by exact A. destruct (Z.eqb_spec a 0) as [->|Z0].
  - split; [lia|]. rewrite Z.sub_diag. split; [vm_compute; reflexivity|lia].
  - assert (0 < a) by lia. destruct (Z.log2_spec a ltac:(lia)) as (L1 & L2).
    assert (Z.log2 a < n) by (apply Z.log2_lt_pow2; lia). pose proof (Z.log2_nonneg a).
    split; [lia|]. replace (n - (n - 1 - Z.log2 a)) with (Z.succ (Z.log2 a)) by lia. split; [exact L2|]. intros _.
    replace (Z.succ (Z.log2 a) - 1) with (Z.log2 a) by lia. exact L1.
Qed.
Lemma tz_spec : forall k a, 0 < a < 2 ^ Z.of_nat k -> 0 <= tz k a < Z.of_nat k /\ a mod 2 ^ tz k a = 0 /\ a mod 2 ^ (tz k a + 1) <> 0.
Proof.
  induction k as [|k IH]; intros a A.
  - change (2 ^ Z.of_nat 0) with 1 in A. lia.
  - cbn [tz]. destruct (Z.odd a) eqn:O.
    + change (2 ^ 0) with 1. change (2 ^ (0 + 1)) with 2. rewrite Z.mod_1_r. split; [lia|]. split; [reflexivity|]. rewrite Zmod_odd, O. lia.
    + assert (E : a = 2 * (a / 2)). { pose proof (Z.div_mod a 2 ltac:(lia)) as D. rewrite Zmod_odd, O in D. lia. }
      set (q := a / 2) in *. clearbody q. subst a.
      destruct (IH q) as (B & C & D).
      { rewrite Nat2Z.inj_succ, Z.pow_succ_r in A by lia. lia. }
      set (e := tz k q) in *. clearbody e. assert (0 < 2 ^ e) by (apply Z.pow_pos_nonneg; lia). assert (0 < 2 ^ (e + 1)) by (apply Z.pow_pos_nonneg; lia).
      split; [lia|]. replace (1 + e) with (Z.succ e) by lia. replace (Z.succ e + 1) with (Z.succ (e + 1)) by lia.
      rewrite !(Z.pow_succ_r 2) by lia. rewrite !Z.mul_mod_distr_l by lia. lia.
Qed.
Lemma ctz_is : forall n a, 1 <= n -> 0 <= a < 2 ^ n -> is_ctz n a (if a =? 0 then n else tz (Z.to_nat n) a).
Proof.
  intros n a N A. unfold is_ctz. rewrite (Z.mod_small a) by exact A. destruct (Z.eqb_spec a 0) as [->|Z0].
  - split; [lia|]. split; [apply Z.mod_0_l; apply Z.pow_nonzero; lia|lia].
  - destruct (tz_spec (Z.to_nat n) a) as (B & C & D). { rewrite Z2Nat.id by lia. lia. }
    rewrite Z2Nat.id in B by lia. split; [lia|]. auto.
Qed.
Definition cnt_val (clz : bool) (n a : Z) : Z := if a =? 0 then n else if clz then n - 1 - Z.log2 a else tz (Z.to_nat n) a.
Lemma cnt_range : forall clz n a, 1 <= n -> 0 <= a < 2 ^ n -> 0 <= cnt_val clz n a <= n.
Proof.
  intros clz n a N A. unfold cnt_val. destruct clz.
  - apply (clz_is n a N A).
  - apply (ctz_is n a N A).
Qed.

Section M.
Variables (u : Z) (w m : bool).
Notation n := (size_of m).
Lemma max_len : forall d v, 1 <= d <= 15 -> 0 <= v < 2 ^ 31 -> exists l, emit_mov w m (AReg d) 0 AImm v = Some l /\ Z.of_nat (length l) < 128.
Proof.
  intros d v D V. cbn [emit_mov]. replace (not_halfword v) with false.
  2: { symmetry. unfold not_halfword. apply orb_false_iff. split; [apply Z.ltb_ge|apply Z.ltb_ge]; lia. }
  destruct m; cbn [negb].
  - eexists. split; [reflexivity|]. unfold do_imm32. rewrite app_length. cbn [length]. destruct (8 <=? reg_map w d); vm_compute; reflexivity.
  - assert (d = 1 \/ d = 2 \/ d = 3 \/ d = 4 \/ d = 5 \/ d = 6 \/ d = 7 \/ d = 8 \/ d = 9 \/ d = 10 \/ d = 11 \/ d = 12 \/ d = 13 \/ d = 14 \/ d = 15) as K by lia.
    assert (H : is_halfword v = true) by (unfold is_halfword; apply andb_true_intro; split; apply Z.leb_le; lia).
    assert (AS : asserts false (fl 1) AImm v = true) by (unfold asserts; cbn; rewrite H; reflexivity).
    unfold ins, emit_x86. rewrite AS. cbn [negb].
    repeat destruct K as [K|K]; subst d; destruct w; (eexists; split; [reflexivity|]); vm_compute; reflexivity.
Qed.
Notation rv s r := (xr s (reg_map w r)).
Lemma only_trans : forall L1 L2 L s s1 s2, only w L1 s s1 -> only w L2 s1 s2 -> incl L1 L -> incl L2 L -> only w L s s2.
Proof.
  intros L1 L2 L s s1 s2 (A1 & A2) (B1 & B2) I1 I2. split; [congruence|]. intros q Q N. rewrite B2, A2; auto.
Qed.
Lemma alu_xor : forall v x c, alu_val Xor n v x c = Z.lxor v x. Proof. reflexivity. Qed.
Lemma lxor_max : forall a, 0 < a < 2 ^ n -> Z.lxor (Z.log2 a) (n - 1) = n - 1 - Z.log2 a.
Proof.
  intros a A. assert (L : 0 <= Z.log2 a < n). { split; [apply Z.log2_nonneg|]. apply Z.log2_lt_pow2; lia. }
  set (e := Z.log2 a) in *. clearbody e. clear A.
  assert (Q : forall k : nat, forall e, 0 <= e < 2 ^ Z.of_nat k -> Z.lxor e (2 ^ Z.of_nat k - 1) = 2 ^ Z.of_nat k - 1 - e).
  { clear. intros k e E. assert (O : 2 ^ Z.of_nat k - 1 = Z.ones (Z.of_nat k)) by (rewrite Z.ones_equiv; lia). rewrite O at 1.
    assert (X : Z.lxor e (Z.ones (Z.of_nat k)) + e = Z.ones (Z.of_nat k)).
    { rewrite Z.add_nocarry_lxor; [rewrite (Z.lxor_comm e), Z.lxor_assoc, Z.lxor_nilpotent, Z.lxor_0_r; reflexivity|].
      apply Z.bits_inj'. intros i I. rewrite Z.land_spec, Z.lxor_spec, Z.bits_0.
      destruct (Z_lt_le_dec i (Z.of_nat k)).
      - rewrite Z.ones_spec_low by lia. destruct (Z.testbit e i); reflexivity.
      - assert (Z.testbit e i = false) as ->; [|apply andb_false_r].
        destruct (Z.eq_dec e 0) as [->|]; [apply Z.bits_0|]. apply Z.bits_above_log2; [lia|]. apply Z.log2_lt_pow2; [lia|]. apply Z.lt_le_trans with (2 ^ Z.of_nat k); [lia|apply Z.pow_le_mono_r; lia]. }
    lia. }
  destruct m; cbn [size_of] in *; [exact (Q 5%nat e L)|exact (Q 6%nat e L)].
Qed.
Definition bs_val (clz : bool) (a : Z) : Z := if a =? 0 then (if clz then 2 * n - 1 else n) else if clz then Z.log2 a else tz (Z.to_nat n) a.
Lemma bs_small : forall clz a, 0 <= a < 2 ^ n -> 0 <= bs_val clz a < 2 ^ 31.
Proof.
  intros clz a A. unfold bs_val. assert (N : n = 32 \/ n = 64) by (destruct m; auto). assert (n < 2 ^ 31 /\ 2 * n < 2 ^ 31) by (destruct N as [-> | ->]; lia).
  destruct (Z.eqb_spec a 0) as [EZ|EZ]; [destruct clz; lia|]. destruct clz.
  - split; [apply Z.log2_nonneg|]. assert (Z.log2 a < n) by (apply Z.log2_lt_pow2; lia). lia.
  - destruct (tz_spec (Z.to_nat n) a); [rewrite Z2Nat.id; lia|]. rewrite Z2Nat.id in H0; lia.
Qed.
Lemma p31n : 2 ^ 31 < 2 ^ n. Proof. destruct m; reflexivity. Qed.
Lemma small_n : forall v, 0 <= v < 2 ^ 31 -> v mod 2 ^ n = v. Proof. intros v V. apply Z.mod_small. pose proof p31n. lia. Qed.
Lemma bs_xor : forall a, 0 <= a < 2 ^ n -> Z.lxor (bs_val true a) (n - 1) = cnt_val true n a.
Proof.
  intros a A. unfold bs_val, cnt_val. destruct (Z.eqb_spec a 0) as [EZ|EZ].
  - destruct m; reflexivity.
  - apply lxor_max. lia.
Qed.
Lemma clz_ctz_ok : forall (cnt cmov clz : bool) D Dw S Sw s, xdst_legal D Dw -> xsrc_legal S Sw -> S <> AImm -> xwf s ->
  does u (emit_clz_ctz w cnt cmov m clz D Dw S Sw) s (fun s' => wrote w n TMPS s D Dw (cnt_val clz n (xval w n s S Sw)) s').
Proof.
  intros cnt cmov clz D Dw S Sw s DL SL SI W. destruct (dst_sok _ _ DL) as (DK & DI). pose proof (src_sok S Sw SL) as SK.
  assert (G : gop S Sw) by (apply sok_gop; [exact SK|destruct S; [reflexivity|congruence|reflexivity]]).
  pose proof (xval_range w m s S Sw W) as AR. unfold emit_clz_ctz. set (a := xval w n s S Sw) in *. set (d := if is_reg D then reg_of D else TMP_REG1).
  assert (DR : 1 <= d <= 15). { subst d. destruct D as [q| |b o]; cbn [is_reg reg_of]; [simpl in DL; unfold xureg in DL; lia|discriminate|unfold TMP_REG1; lia]. }
  assert (FIN : forall v s1, wrote w n TMPS s (AReg d) 0 v s1 -> xwf s1 ->
    does u (if is_mem D then emit_mov w m D Dw (AReg TMP_REG1) 0 else Some []) s1 (fun s' => wrote w n TMPS s D Dw v s')).
  { intros v s1 H W1. subst d. destruct D as [q| |b o]; cbn [is_reg is_mem reg_of] in *; [|discriminate|].
    - apply does_nil; assumption.
    - eapply does_conseq; [apply (fin_tmp u w m _ _ s s1 v); [left; exact DL|exact H|exact W1]|]. intros s2 _ (A & _). exact A. }
  clearbody d.
  destruct cnt.
  - eapply does_seq with (P := fun s1 => wrote w n TMPS s (AReg d) 0 (cnt_val clz n a) s1).
    { eapply does_conseq; [apply cnt_ok; [lia|exact G|exact W]|]. intros s1 _ H. eapply wrote_weaken; [exact H|apply ftmp_TMPS]. }
    intros s1 W1 H. apply FIN; assumption.
  - set (mx := if clz then if m then 32 + 31 else 64 + 63 else if m then 32 else 64). cbv zeta. fold mx.
    assert (MX : mx = if clz then 2 * n - 1 else n) by (subst mx; destruct clz, m; reflexivity).
    assert (MR : 0 <= mx < 2 ^ 31) by (subst mx; destruct clz, m; lia).
    eapply does_seq with (P := fun s1 => only w (d :: ftmp S Sw) s s1 /\ xzf s1 = Some (a =? 0) /\ (a <> 0 -> rv s1 d = bs_val clz a)).
    { eapply does_conseq; [apply bs_ok; [lia|exact G|exact W]|]. intros s1 _ (H1 & H2 & H3 & H4). split; [split; assumption|]. split; [exact H3|].
      intros NZ. rewrite (H4 NZ). fold a. rewrite <- (small_n (bs_val clz a)) by (apply bs_small; exact AR). unfold bs_val. destruct (Z.eqb_spec a 0) as [EZ|EZ]; [congruence|reflexivity]. }
    intros s1 W1 (O1 & Z1 & V1).
    eapply does_seq with (P := fun s2 => only w (d :: TMPS) s s2 /\ rv s2 d = bs_val clz a).
    { assert (I1 : incl (d :: ftmp S Sw) (d :: TMPS)) by (intros x [X|X]; [left; exact X|right; apply (ftmp_TMPS S Sw); exact X]).
      destruct cmov.
      - eapply does_seq with (P := fun s2 => only w (d :: TMPS) s s2 /\ xzf s2 = Some (a =? 0) /\ (a <> 0 -> rv s2 d = bs_val clz a) /\ rv s2 TMP_REG2 = mx).
        { eapply does_conseq; [apply movr_ok; [unfold TMP_REG2; lia|simpl; lia|exact W1]|]. intros s2 _ (A & B & (_ & C & _)). cbn [ftmp far] in A.
          split; [eapply only_trans; [exact O1|exact A|exact I1|]|].
          { intros x [X|[]]. right. right. left. exact X. }
          split; [congruence|]. split.
          { intros NZ. rewrite <- (V1 NZ). apply A; [lia|]. intros [X|[]]. unfold TMP_REG2 in X. lia. }
          rewrite B. cbn [xval]. apply small_n. exact MR. }
        intros s2 W2 (O2 & Z2 & V2 & M2). change 0x44 with (0x40 + 4).
        eapply does_conseq; [apply (cmov_ok u w m 4 d (AReg TMP_REG2) 0 s2 (a =? 0)); [lia|split; [lia|discriminate]|apply sok_gop; [simpl; unfold TMP_REG2; lia|reflexivity]|exact W2|unfold cond_val; change (cond_base s2 (4 / 2)) with (xzf s2); rewrite Z2; reflexivity]|].
        intros s3 _ (A & _). destruct (wrote_reg_only _ _ _ _ _ _ _ _ A) as (A1 & A2). split.
        + eapply only_trans; [exact O2|exact A1|apply incl_refl|]. intros x [X|X]; [left; exact X|destruct X].
        + rewrite A2. pose proof (bs_small clz a AR) as BR. destruct (Z.eqb_spec a 0) as [E|E].
          * cbn [xval]. rewrite M2, Z.mod_mod by (apply Z.pow_nonzero; destruct m; cbn; lia). rewrite small_n by exact MR. unfold bs_val. rewrite E, MX. reflexivity.
          * rewrite (V2 E). apply small_n. exact BR.
      - unfold cmov_generic_imm. destruct (max_len d mx DR MR) as (l & EL & LL). rewrite EL.
        destruct (Z.eqb_spec a 0) as [E|E].
        + destruct (movr_ok u w m d AImm mx s1 ltac:(lia) ltac:(simpl; lia) W1) as (l' & E' & s2 & R2 & (A & B & _) & W2). rewrite EL in E'. injection E' as <-.
          eexists. split; [reflexivity|]. exists s2. split; [|split; [|exact W2]].
          * change 0x75 with (0x70 + 5). apply (skip_ok u 5 l s1 s2 false); [lia|exact LL| |exact R2]. unfold cond_val. change (cond_base s1 (5 / 2)) with (xzf s1). rewrite Z1. try (apply Z.eqb_neq in E; rewrite E). try (rewrite (proj2 (Z.eqb_eq a 0) E)). reflexivity.
          * cbn [ftmp far] in A. split; [eapply only_trans; [exact O1|exact A|exact I1|]; intros x [X|[]]; left; exact X|].
            rewrite B. cbn [xval]. rewrite small_n by exact MR. unfold bs_val. rewrite E, MX. reflexivity.
        + eexists. split; [reflexivity|]. exists s1. split; [|split; [|exact W1]].
          * change 0x75 with (0x70 + 5). apply (skip_ok u 5 l s1 s1 true); [lia|exact LL| |reflexivity]. unfold cond_val. change (cond_base s1 (5 / 2)) with (xzf s1). rewrite Z1. try (apply Z.eqb_neq in E; rewrite E). try (rewrite (proj2 (Z.eqb_eq a 0) E)). reflexivity.
          * split; [eapply only_trans; [exact O1|split; [reflexivity|intros q _ _; reflexivity]|exact I1|apply incl_refl]|]. apply V1. exact E. }
    intros s2 W2 (O2 & V2). pose proof (bs_small clz a AR) as BR. pose proof (cnt_range clz n a ltac:(destruct m; cbn; lia) AR) as CR.
    eapply does_seq with (P := fun s3 => wrote w n TMPS s (AReg d) 0 (cnt_val clz n a) s3).
    2:{ intros s3 W3 H. apply FIN; assumption. }
    destruct clz.
    + change 0x30 with (b_imm (bop_of Xor)).
      eapply does_conseq; [apply (alu_imm_ok u w m Xor (Z.shiftr mx 1) (AReg d) 0 s2 false); [discriminate| |apply sok_gop; [simpl; lia|reflexivity]|exact W2|intros X; discriminate]|].
      { subst mx. intros X. rewrite X. vm_compute. split; [discriminate|reflexivity]. }
      intros s3 _ (A & _). rewrite alu_xor in A. cbn [xval] in A. rewrite V2, (small_n _ BR) in A.
      replace (Z.shiftr mx 1 mod 2 ^ n) with (n - 1) in A by (subst mx; destruct m; reflexivity). rewrite bs_xor in A by exact AR.
      eapply reg_after; [exact O2|apply incl_refl| |exact A]. intros x X. destruct X.
    + apply does_nil; [exact W2|]. apply (only_reg_wrote w m (d :: TMPS)); [exact O2|apply incl_refl|]. rewrite V2. rewrite small_n.
      { reflexivity. } { unfold cnt_val, bs_val in *. exact BR. }
Qed.
End M.

(** ** Reversing bytes *)
Lemma revb_rev : forall k x, revb k x = rev_bytes k x.
Proof. induction k as [|k IH]; intros x; cbn [revb rev_bytes]; [reflexivity|]. unfold byte. rewrite IH, Z.mul_0_r, Z.pow_0_r, Z.div_1_r. reflexivity. Qed.
Lemma rev_div : forall k m x, rev_bytes (k + m) x / 2 ^ (8 * Z.of_nat k) = rev_bytes m x.
Proof.
  intros k m. induction m as [|m IH]; intros x; assert (P : 0 < 2 ^ (8 * Z.of_nat k)) by (apply Z.pow_pos_nonneg; lia).
  - rewrite Nat.add_0_r. cbn [rev_bytes]. apply Z.div_small. apply rev_bytes_lt.
  - rewrite Nat.add_succ_r. cbn [rev_bytes]. rewrite Nat2Z.inj_add. replace (8 * (Z.of_nat k + Z.of_nat m)) with (8 * Z.of_nat m + 8 * Z.of_nat k) by lia.
    rewrite Z.pow_add_r, Z.mul_assoc, Z.div_add_l by lia. rewrite IH. reflexivity.
Qed.
Lemma sext_div : forall n c v, 0 <= c -> c + 1 <= n -> sext n v / 2 ^ c = sext (n - c) (v / 2 ^ c).
Proof.
  intros n c v C N. destruct (sext_mod n v ltac:(lia)) as (k & E). pose proof (sext_range n v ltac:(lia)) as R. set (y := sext n v) in *. clearbody y. subst v.
  assert (P : 0 < 2 ^ c) by (apply Z.pow_pos_nonneg; lia). replace (2 ^ n) with (2 ^ (n - c) * 2 ^ c) by (rewrite <- Z.pow_add_r by lia; f_equal; lia).
  replace (y + k * (2 ^ (n - c) * 2 ^ c)) with (y + k * 2 ^ (n - c) * 2 ^ c) by ring. rewrite Z.div_add by lia. symmetry. apply sext_unique with k; [lia| |reflexivity].
  replace (2 ^ (n - 1)) with (2 ^ (n - c - 1) * 2 ^ c) in R by (rewrite <- Z.pow_add_r by lia; f_equal; lia).
  split; [apply Z.div_le_lower_bound; lia|apply Z.div_lt_upper_bound; lia].
Qed.

Section R.
Variables (u : Z) (w : bool).
Notation rv s r := (xr s (reg_map w r)).
Lemma load_rev_ok : forall (m : bool) (half : bool) d S Sw s, 1 <= d <= 15 -> xsrc_legal S Sw -> S <> AImm -> xwf s ->
  does u (if negb (arg_eqb S (AReg d)) then (if half then emit_mov_half w false (AReg d) 0 S Sw else emit_mov w m (AReg d) 0 S Sw) else Some []) s (fun s' =>
    only w (d :: TMPS) s s' /\ rv s' d mod 2 ^ (if half then 16 else size_of m) = xval w (if half then 16 else size_of m) s S Sw).
Proof.
  intros m half d S Sw s D SL SI W. pose proof (src_sok S Sw SL) as SK. destruct (arg_eqb S (AReg d)) eqn:E; cbn [negb].
  - apply arg_eqb_eq in E. subst S. apply does_nil; [exact W|]. split; [split; [reflexivity|intros q _ _; reflexivity]|reflexivity].
  - destruct half.
    + rewrite small_half. eapply does_conseq; [apply (small_ok u w 16 false (AReg d) 0 S Sw Sw); auto|].
      { simpl; lia. } { intros r X. injection X as <-. lia. } { intros X; contradiction. }
      intros s' _ (A & _). cbn beta iota in A. destruct (wrote_reg_only _ _ _ _ _ _ _ _ A) as (A1 & A2). split; [exact A1|].
      rewrite A2. pose proof (xv_bound w 16 s S Sw eq_refl W). rewrite (Z.mod_small (xval w 16 s S Sw)) by lia. apply Z.mod_small. lia.
    + eapply does_conseq; [apply movr_ok; [lia|exact SK|exact W]|]. intros s' _ ((A1 & A2) & B & _). split.
      * split; [exact A1|]. eapply regs_weaken; [exact A2|]. intros x [X|X]; [left; exact X|right; apply (ftmp_TMPS S Sw); exact X].
      * rewrite B. apply Z.mod_small. apply xval_range. exact W.
Qed.
Lemma bsw : forall m d s0 s, 1 <= d <= 16 -> only w (d :: TMPS) s0 s -> xwf s ->
  does u (Some (bswap_bytes w m d)) s (fun s' => only w (d :: TMPS) s0 s' /\ rv s' d = rev_bytes (Z.to_nat (size_of m / 8)) (rv s d)).
Proof.
  intros m d s0 s D O W. eapply does_conseq; [apply bswap_ok; assumption|]. intros s' _ (A & _). destruct (wrote_reg_only _ _ _ _ _ _ _ _ A) as (A1 & A2). split.
  - eapply only_trans; [exact O|exact A1|apply incl_refl|]. intros x [X|[]]. left. exact X.
  - rewrite A2, revb_rev. rewrite Z.mod_small.
    + apply rev_mod. destruct m; cbn [size_of]; apply Z.mod_mod; vm_compute; discriminate.
    + pose proof (rev_bytes_lt (Z.to_nat (size_of m / 8)) (rv s d mod 2 ^ size_of m)) as L. destruct m; exact L.
Qed.
(** Words and int32 values. *)
Lemma rev_word : forall m d S Sw s, 1 <= d <= 15 -> xsrc_legal S Sw -> S <> AImm -> xwf s ->
  does u ((if negb (arg_eqb S (AReg d)) then emit_mov w m (AReg d) 0 S Sw else Some []) +++ Some (bswap_bytes w m d)) s (fun s' =>
    only w (d :: TMPS) s s' /\ rv s' d = rev_bytes (Z.to_nat (size_of m / 8)) (xval w (size_of m) s S Sw)).
Proof.
  intros m d S Sw s D SL SI W. eapply does_seq; [exact (load_rev_ok m false d S Sw s D SL SI W)|]. intros s1 W1 (O1 & V1). cbn beta iota in V1.
  eapply does_conseq; [apply (bsw m d s s1); [lia|exact O1|exact W1]|]. intros s2 _ (A & B). split; [exact A|]. rewrite B, <- V1. apply rev_mod.
  destruct m; cbn [size_of]; symmetry; apply Z.mod_mod; vm_compute; discriminate.
Qed.
(** Halfwords: the upper 16 bits of the reversed register. *)
Definition sh16 (sg : bool) : shk := if sg then Sar else Shr.
Lemma rev_half : forall m (sg : bool) d S Sw s, 1 <= d <= 15 -> xsrc_legal S Sw -> S <> AImm -> xwf s ->
  let m' := if negb (arg_eqb S (AReg d)) then false else m in
  does u ((if negb (arg_eqb S (AReg d)) then emit_mov_half w false (AReg d) 0 S Sw else Some []) +++ Some (bswap_bytes w m' d)
    +++ shift_ins w m' (8 * smode (sh16 sg)) AImm (if m' then 16 else 48) (AReg d) 0) s (fun s' =>
    only w (d :: TMPS) s s' /\ let v := rev_bytes 2 (xval w 16 s S Sw) in rv s' d = if sg then sext 16 v mod 2 ^ size_of m' else v).
Proof.
  intros m sg d S Sw s D SL SI W m'. eapply does_seq; [exact (load_rev_ok m true d S Sw s D SL SI W)|]. intros s1 W1 (O1 & V1). cbn beta iota in V1. clearbody m'.
  eapply does_seq; [apply (bsw m' d s s1); [lia|exact O1|exact W1]|]. intros s2 W2 (O2 & V2). cbv zeta.
  set (v := rev_bytes 2 (xval w 16 s S Sw)). set (R := rev_bytes (Z.to_nat (size_of m' / 8)) (rv s1 d)) in *.
  assert (RV : R / 2 ^ (size_of m' - 16) = v).
  { subst R v. rewrite <- V1. rewrite <- (rev_mod 2 (rv s1 d) (rv s1 d mod 2 ^ 16)) by (symmetry; apply Z.mod_mod; vm_compute; discriminate).
    destruct m'; [exact (rev_div 2 2 (rv s1 d))|exact (rev_div 6 2 (rv s1 d))]. }
  assert (RR : 0 <= R < 2 ^ size_of m'). { pose proof (rev_bytes_lt (Z.to_nat (size_of m' / 8)) (rv s1 d)) as L. subst R. destruct m'; exact L. }
  pose proof (rev_bytes_lt 2 (xval w 16 s S Sw)) as VR. fold v in VR. change (8 * Z.of_nat 2) with 16 in VR.
  eapply does_conseq; [apply (sh_reg u w m' (sh16 sg) d AImm (if m' then 16 else 48) s2 R (if m' then 16 else 48)); auto|].
  { lia. } { destruct m'; simpl; lia. } { destruct m'; reflexivity. } { rewrite V2. apply Z.mod_small. exact RR. }
  intros s3 _ (A & B & _). split.
  - eapply only_trans; [exact O2|exact A|apply incl_refl|]. intros x [X|[]]. left. exact X.
  - rewrite B. replace (if m' then 16 else 48) with (size_of m' - 16) by (destruct m'; reflexivity). clearbody R v. destruct sg; cbn [sh16 sh_res].
    + rewrite sext_div by (destruct m'; cbn; lia). replace (size_of m' - (size_of m' - 16)) with 16 by lia. rewrite RV. reflexivity.
    + rewrite RV. apply Z.mod_small. split; [lia|]. apply Z.lt_trans with (2 ^ 16); [lia|destruct m'; reflexivity].
Qed.
End R.

Lemma wr1 : forall w M N B (ex : Prop) L s D Dw v r s', wrote w M L s D Dw v s' -> incl L TMPS -> 0 < M -> M = 8 * B -> N = M -> v mod 2 ^ M = r mod 2 ^ M ->
  wrote1 w N B ex TMPS s D Dw r s'.
Proof.
  intros w M N B ex L s D Dw v r s' H I M0 MB -> E. assert (P : 0 < 2 ^ M) by (apply Z.pow_pos_nonneg; lia). destruct D as [d| |b o]; [|destruct H|].
  - eapply wr1_reg; [exact H| | |exact I]; [rewrite Z.mod_mod by lia; exact E|]. intros _. apply Z.mod_pos_bound. exact P.
  - eapply wr1_mem; [exact H|exact MB|exact E|exact I].
Qed.
Definition op1_post (w : bool) (k : op1k) (m : bool) (D : arg) (Dw : Z) (S : arg) (Sw : Z) (s s' : xst) : Prop :=
  (exists r, res1 k (n1 k m) (xval w (8 * sz1 k m) s S Sw) r /\ wrote1 w (n1 k m) (sz1 k m) (clears k D S = true) TMPS s D Dw r s')
  /\ (is_mov k = true -> flags_same s s').

Section T.
Variables (u : Z) (w : bool).
Notation rv s r := (xr s (reg_map w r)).
Lemma sw_mod : forall x, (wrap (sext 32 x)) mod 2 ^ 32 = x mod 2 ^ 32. Proof. intros. apply sext_lift. lia. Qed.
Lemma src_ntmp2 : forall S Sw, xsrc_legal S Sw -> S <> AReg TMP_REG2.
Proof. intros S Sw H ->. simpl in H. unfold xureg, TMP_REG2 in H. lia. Qed.
Lemma word_ok : forall (k : op1k) (m mm : bool) D Dw S Sw s, (k = O_MOV \/ k = O_MOV_P) /\ mm = false \/ k = O_MOV32 /\ mm = true -> xdst_legal D Dw -> xsrc_legal S Sw -> xwf s ->
  does u (if is_reg S && arg_eqb S D && negb (type_cast_needed k) then Some [] else emit_mov w mm D Dw S (if is_imm S then Sw else Sw)) s (op1_post w k m D Dw S Sw s).
Proof.
  intros k m mm D Dw S Sw s K DL SL W. destruct (dst_sok _ _ DL) as (DK & DI). pose proof (src_sok S Sw SL) as SK.
  assert (N : n1 k m = size_of mm) by (destruct K as [([-> | ->] & ->)|(-> & ->)]; reflexivity).
  assert (B : 8 * sz1 k m = size_of mm) by (destruct K as [([-> | ->] & ->)|(-> & ->)]; reflexivity).
  assert (V : forall a, 0 <= a < 2 ^ size_of mm -> exists r, res1 k (n1 k m) a r /\ a mod 2 ^ size_of mm = r mod 2 ^ size_of mm).
  { intros a A. destruct K as [([-> | ->] & ->)|(-> & ->)]; (eexists; split; [reflexivity|]); cbn [size_of].
    - unfold wrap. symmetry. apply Z.mod_mod. vm_compute; discriminate.
    - unfold wrap. symmetry. apply Z.mod_mod. vm_compute; discriminate.
    - symmetry. apply sw_mod. }
  pose proof (xval_range w mm s S Sw W) as R. destruct (V _ R) as (r & E1 & E2).
  assert (TC : type_cast_needed k = false) by (destruct K as [([-> | ->] & ->)|(-> & ->)]; reflexivity). rewrite TC, andb_true_r.
  destruct (is_reg S && arg_eqb S D) eqn:Q.
  - apply andb_prop in Q. destruct Q as (Q1 & Q2). apply arg_eqb_eq in Q2. subst D. destruct S as [d| |]; try discriminate. apply does_nil; [exact W|].
    split; [exists r; split; [rewrite B; exact E1|]|intros _; repeat split].
    cbn [wrote1]. rewrite N. cbn [xval] in E2. rewrite nsize_mod in E2. split; [exact E2|]. split; [|split; [reflexivity|intros q _ _; reflexivity]].
    intros C. destruct K as [([-> | ->] & ->)|(-> & ->)]; cbn [size_of]; try exact (proj2 (W _)). cbn [clears] in C. rewrite arg_eqb_refl in C. discriminate.
  - replace (if is_imm S then Sw else Sw) with Sw by (destruct (is_imm S); reflexivity).
    eapply does_conseq; [apply mov_ok; auto|]. { intros _. eapply src_ntmp2; exact SL. }
    intros s' _ (A & F). split; [|intros _; exact F]. exists r. split; [rewrite B; exact E1|].
    eapply wr1; [exact A|apply mov_tmps_TMPS|destruct mm; reflexivity|lia|exact N|exact E2].
Qed.
Definition small_of (k : op1k) : option (Z * bool) :=
  match k with O_MOV_U8 => Some (8, false) | O_MOV_S8 => Some (8, true) | O_MOV_U16 => Some (16, false) | O_MOV_S16 => Some (16, true) | _ => None end.
Lemma sm_ok : forall (k : op1k) (m : bool) from (sg : bool) D Dw S Sw s, small_of k = Some (from, sg) -> xdst_legal D Dw -> xsrc_legal S Sw -> xwf s ->
  does u (small w from sg D Dw S (if is_imm S then (if sg then sext from Sw else Sw mod 2 ^ from) else Sw)) s (op1_post w k m D Dw S Sw s).
Proof.
  intros k m from sg D Dw S Sw s K DL SL W. destruct (dst_sok _ _ DL) as (DK & DI).
  assert (F : from = 8 \/ from = 16) by (destruct k; try discriminate; injection K; lia).
  eapply does_conseq; [apply (small_ok u w from sg D Dw S Sw); auto|].
  { intros r ->. simpl in DL. unfold xureg in DL. lia. }
  { intros ->. cbn [is_imm]. destruct sg; split; try reflexivity.
    - pose proof (sext_range from Sw ltac:(lia)) as R. destruct F as [-> | ->]; cbn in R; lia.
    - pose proof (Z.mod_pos_bound Sw (2 ^ from) ltac:(apply Z.pow_pos_nonneg; lia)) as R. destruct F as [-> | ->]; lia. }
  { intros X. destruct S; [reflexivity|congruence|reflexivity]. }
  intros s' _ (A & FS). split; [|intros _; exact FS].
  assert (AR : 0 <= xval w from s S Sw < 2 ^ from) by (apply xv_bound; [destruct F as [-> | ->]; reflexivity|exact W]).
  assert (B : 8 * sz1 k m = from) by (destruct k; try discriminate; injection K as <- <-; reflexivity). rewrite B.
  set (a := xval w from s S Sw) in *. clearbody a.
  set (r := wrap (if sg then sext from a else a)).
  exists r. assert (Rr : res1 k (n1 k m) a r).
  { subst r. destruct k; try discriminate; injection K as <- <-; cbn [res1]; try reflexivity; (rewrite (Z.mod_small a) by exact AR); apply Z.mod_small; lia. }
  split; [exact Rr|].
  assert (NN : n1 k m = 32 \/ n1 k m = 64) by (destruct k, m; try discriminate; auto).
  destruct D as [d| |b o]; [|discriminate|].
  - eapply wr1_reg; [exact A|reflexivity| |apply incl_refl]. intros C.
    assert (sg = false) as -> by (destruct k; try discriminate; injection K; auto). assert (a < 2 ^ 16) by (destruct F as [-> | ->]; lia). rewrite Z.mod_small by lia. destruct NN as [-> | ->]; lia.
  - eapply wr1_mem; [exact A|congruence| |apply incl_refl]. subst r. destruct sg.
    + symmetry. apply sext_lift. lia.
    + unfold wrap. rewrite (Z.mod_small a (2 ^ 64)); [reflexivity|]. destruct F as [-> | ->]; lia.
Qed.
Lemma it_ok : forall (k : op1k) (m : bool) (sg : bool) D Dw S Sw s, k = (if sg then O_MOV_S32 else O_MOV_U32) -> xdst_legal D Dw -> xsrc_legal S Sw -> xwf s ->
  does u (emit_mov_int w sg D Dw S (if is_imm S then (if sg then sext 32 Sw else Sw mod 2 ^ 32) else Sw)) s (op1_post w k m D Dw S Sw s).
Proof.
  intros k m sg D Dw S Sw s K DL SL W. destruct (dst_sok _ _ DL) as (DK & DI).
  eapply does_conseq; [apply (int_ok u w sg D Dw S Sw); auto|].
  { intros ->. reflexivity. }
  { intros X. destruct S; [reflexivity|congruence|reflexivity]. }
  intros s' _ (A & FS). split; [|intros _; exact FS].
  pose proof (xv_bound w 32 s S Sw eq_refl W) as AR.
  assert (B : sz1 k m = 4) by (subst k; destruct sg; reflexivity). rewrite B. change (8 * 4) with 32.
  assert (N : n1 k m = 64) by (subst k; destruct sg; reflexivity). rewrite N.
  set (a := xval w 32 s S Sw) in *. clearbody a.
  exists (wrap (if sg then sext 32 a else a)). split.
  { subst k; destruct sg; cbn [res1]; [reflexivity|]. rewrite (Z.mod_small a) by exact AR. apply Z.mod_small. lia. }
  destruct D as [d| |b o]; [|discriminate|].
  - eapply wr1_reg; [exact A|reflexivity| |apply incl_refl]. intros _. apply Z.mod_pos_bound. reflexivity.
  - eapply wr1_mem; [exact A|reflexivity| |apply incl_refl]. destruct sg.
    + symmetry. apply sw_mod.
    + unfold wrap. rewrite (Z.mod_small a (2 ^ 64)); [reflexivity|lia].
Qed.
Lemma ct_ok : forall (k : op1k) (m cnt cmov clz : bool) D Dw S Sw s, k = (if clz then O_CLZ else O_CTZ) -> xdst_legal D Dw -> xsrc_legal S Sw -> S <> AImm -> xwf s ->
  does u (emit_clz_ctz w cnt cmov m clz D Dw S Sw) s (op1_post w k m D Dw S Sw s).
Proof.
  intros k m cnt cmov clz D Dw S Sw s K DL SL SI W. eapply does_conseq; [apply clz_ctz_ok; assumption|]. intros s' _ A. split; [|subst k; destruct clz; discriminate].
  assert (N : n1 k m = size_of m) by (subst k; destruct clz, m; reflexivity). assert (B : 8 * sz1 k m = size_of m) by (subst k; destruct clz, m; reflexivity). rewrite N, B.
  eexists. split; [|eapply wr1; [exact A|apply incl_refl|destruct m; reflexivity|lia|reflexivity|reflexivity]].
  pose proof (xval_range w m s S Sw W) as AR. assert (1 <= size_of m) by (destruct m; cbn; lia).
  subst k. unfold cnt_val. destruct clz; cbn [res1]; [apply clz_is|apply ctz_is]; assumption.
Qed.
(** From the register holding the result of the reversal to the destination. *)
Lemma rev_fin : forall (half m : bool) D Dw v s s1, xdst_legal D Dw -> only w ((if is_reg D then reg_of D else TMP_REG1) :: TMPS) s s1 -> rv s1 (if is_reg D then reg_of D else TMP_REG1) = v -> is_mem D = true -> xwf s1 ->
  does u (if half then emit_mov_half w false D Dw (AReg TMP_REG1) 0 else emit_mov w m D Dw (AReg TMP_REG1) 0) s1 (fun s' => wrote w (if half then 16 else size_of m) TMPS s D Dw v s').
Proof.
  intros half m D Dw v s s1 DL O V DM W1. destruct (dst_sok _ _ DL) as (DK & DI). destruct D as [d| |b o]; try discriminate. cbn [is_reg] in *.
  assert (I : incl (TMP_REG1 :: TMPS) TMPS) by (intros x [X|X]; [left; exact X|exact X]).
  destruct half.
  - rewrite small_half. unfold small. cbn [is_imm is_reg is_mem andb reg_of]. eapply does_seq with (P := fun s' => s' = s1); [apply does_nil; auto|]. intros s2 W2 ->.
    eapply does_conseq; [apply st_r_ok; [right; reflexivity|unfold TMP_REG1; lia|exact DK|exact W1]|]. intros s3 _ (A & _). rewrite V in A.
    eapply wrote_weaken; [eapply wrote_trans; [exact DK|exact O| |exact A]|].
    + eapply apart_incl; [apply (sok_far_tmp _ Dw DK)|exact I].
    + intros x. rewrite in_app_iff. intros [X|X]; [apply I; exact X|exact X].
  - eapply does_conseq; [apply mov_from_tmp; auto|]. intros s3 _ (A & _). rewrite V in A.
    eapply wrote_weaken; [eapply wrote_trans; [exact DK|exact O| |exact A]|].
    + eapply apart_incl; [apply (sok_far_tmp _ Dw DK)|exact I].
    + intros x. rewrite in_app_iff. intros [X|X]; [apply I; exact X|exact X].
Qed.
Lemma wr1_only : forall N B (ex : Prop) s d i r s', only w (d :: TMPS) s s' -> rv s' d mod 2 ^ N = r mod 2 ^ N -> (ex -> rv s' d < 2 ^ N) -> wrote1 w N B ex TMPS s (AReg d) i r s'.
Proof. intros N B ex s d i r s' (A & C) E F. cbn [wrote1]. auto. Qed.
Lemma does_assoc' : forall a b c s P, does u ((a +++ b) +++ c) s P -> does u (a +++ b +++ c) s P.
Proof. intros a b c s P (l & E & H). exists l. split; [|exact H]. rewrite <- E. unfold cat. destruct a, b, c; try reflexivity. rewrite app_assoc. reflexivity. Qed.
Lemma rev_word_ok : forall (k : op1k) (m m0 : bool) D Dw S Sw s, k = O_REV /\ m0 = m \/ (k = O_REV_U32 \/ k = O_REV_S32) /\ m0 = true -> xdst_legal D Dw -> xsrc_legal S Sw -> S <> AImm -> xwf s ->
  let d := if is_reg D then reg_of D else TMP_REG1 in
  does u ((if negb (arg_eqb S (AReg d)) then emit_mov w m0 (AReg d) 0 S Sw else Some []) +++ Some (bswap_bytes w m0 d) +++
    (if is_mem D then emit_mov w m0 D Dw (AReg TMP_REG1) 0 else match k with O_REV_S32 => ins w false (fl 1) 0x63 D 0 D 0 | _ => Some [] end)) s (op1_post w k m D Dw S Sw s).
Proof.
  intros k m m0 D Dw S Sw s K DL SL SI W d. destruct (dst_sok _ _ DL) as (DK & DI).
  assert (DR : 1 <= d <= 15). { subst d. destruct D as [q| |b o]; cbn [is_reg reg_of]; [simpl in DL; unfold xureg in DL; lia|discriminate|unfold TMP_REG1; lia]. }
  assert (B : 8 * sz1 k m = size_of m0) by (destruct K as [(-> & ->)|([-> | ->] & ->)]; [destruct m|..]; reflexivity).
  apply does_assoc'. eapply does_seq; [exact (rev_word u w m0 d S Sw s DR SL SI W)|]. intros s1 W1 (O1 & V1). set (v := rev_bytes (Z.to_nat (size_of m0 / 8)) (xval w (size_of m0) s S Sw)) in *.
  assert (VR : 0 <= v < 2 ^ size_of m0). { pose proof (rev_bytes_lt (Z.to_nat (size_of m0 / 8)) (xval w (size_of m0) s S Sw)) as L. subst v. destruct m0; exact L. }
  set (r := match k with O_REV => canon (size_of m0) v | O_REV_S32 => wrap (sext 32 v) | _ => v end).
  assert (RES : res1 k (n1 k m) (xval w (8 * sz1 k m) s S Sw) r).
  { rewrite B. subst r v. destruct K as [(-> & ->)|([-> | ->] & ->)]; [|reflexivity|reflexivity]. destruct m; reflexivity. }
  clearbody v.
  destruct D as [q| |b o]; [|discriminate|]; cbn [is_reg is_mem reg_of] in *.
  - subst d. destruct K as [(-> & ->)|([-> | ->] & ->)]; cbn [size_of] in *.
    + apply does_nil; [exact W1|]. split; [|discriminate]. exists r. split; [exact RES|]. replace (n1 O_REV m) with (size_of m) by (destruct m; reflexivity).
      apply wr1_only; [exact O1| |]; rewrite V1; [|intros _; lia]. subst r. unfold canon. symmetry. destruct m; [apply sw_mod|apply sext_lift; cbn; lia].
    + apply does_nil; [exact W1|]. split; [|discriminate]. exists r. split; [exact RES|]. apply wr1_only; [exact O1| |]; rewrite V1; [reflexivity|intros _; cbn; lia].
    + eapply does_conseq; [apply movsxd_ok; [lia|apply sok_gop; [simpl; lia|reflexivity]|exact W1]|]. intros s2 _ (A & _). split; [|discriminate]. exists r. split; [exact RES|].
      cbn [xval] in A. rewrite V1, (Z.mod_small v) in A by exact VR. destruct (wrote_reg_only _ _ _ _ _ _ _ _ A) as (A1 & A2).
      apply wr1_only.
      * eapply only_trans; [exact O1|exact A1|apply incl_refl|]. intros x [X|X]; [left; exact X|destruct X].
      * rewrite A2. reflexivity.
      * intros _. rewrite A2. apply Z.mod_pos_bound. reflexivity.
  - eapply does_conseq; [exact (rev_fin false m0 (AMem b o) Dw v s s1 DL O1 V1 eq_refl W1)|]. intros s2 _ A. split; [|destruct K as [(-> & ->)|([-> | ->] & ->)]; discriminate].
    exists r. split; [exact RES|]. cbn beta iota in A. eapply wr1_mem; [exact A|symmetry; exact B| |apply incl_refl]. subst r.
    destruct K as [(-> & ->)|([-> | ->] & ->)]; [|reflexivity|symmetry; apply sw_mod]. unfold canon. symmetry. destruct m; [apply sw_mod|apply sext_lift; cbn; lia].
Qed.
Lemma rev_half_ok : forall (k : op1k) (m : bool) (sg : bool) D Dw S Sw s, k = (if sg then O_REV_S16 else O_REV_U16) -> xdst_legal D Dw -> xsrc_legal S Sw -> S <> AImm -> xwf s ->
  let d := if is_reg D then reg_of D else TMP_REG1 in
  let m' := if negb (arg_eqb S (AReg d)) then false else m in
  does u ((if negb (arg_eqb S (AReg d)) then emit_mov_half w false (AReg d) 0 S Sw else Some []) +++ Some (bswap_bytes w m' d)
    +++ shift_ins w m' (8 * smode (sh16 sg)) AImm (if m' then 16 else 48) (AReg d) 0 +++
    (if is_mem D then emit_mov_half w false D Dw (AReg TMP_REG1) 0 else Some [])) s (op1_post w k m D Dw S Sw s).
Proof.
  intros k m sg D Dw S Sw s K DL SL SI W d m'. destruct (dst_sok _ _ DL) as (DK & DI).
  assert (DR : 1 <= d <= 15). { subst d. destruct D as [q| |b o]; cbn [is_reg reg_of]; [simpl in DL; unfold xureg in DL; lia|discriminate|unfold TMP_REG1; lia]. }
  assert (B : sz1 k m = 2) by (subst k; destruct sg; reflexivity). assert (N : n1 k m = 32 \/ n1 k m = 64) by (subst k; destruct sg, m; auto).
  assert (FL : is_mov k = true -> forall s', flags_same s s') by (subst k; destruct sg; discriminate).
  apply does_assoc', does_assoc'. eapply does_seq.
  { apply does_assoc. exact (rev_half u w m sg d S Sw s DR SL SI W). }
  intros s1 W1 (O1 & V1). cbv zeta in V1. fold m' in V1. set (v := rev_bytes 2 (xval w 16 s S Sw)) in *.
  assert (VR : 0 <= v < 2 ^ 16) by (apply (rev_bytes_lt 2)).
  set (r := if sg then wrap (sext 16 v) else v).
  assert (RES : res1 k (n1 k m) (xval w (8 * sz1 k m) s S Sw) r). { rewrite B. subst r v k. destruct sg; reflexivity. }
  clearbody v.
  destruct D as [q| |b o]; [|discriminate|]; cbn [is_reg is_mem reg_of] in *.
  - apply does_nil; [exact W1|]. split; [|intros X; apply FL; exact X]. exists r. split; [exact RES|]. subst d. apply wr1_only; [exact O1| |]; rewrite V1.
    + subst r. destruct sg; [|reflexivity]. unfold wrap. destruct m' eqn:M'; cbn [size_of].
      * subst m'. destruct (arg_eqb S (AReg q)); [|discriminate]. cbn [negb] in M'. subst m k. change (n1 O_REV_S16 true) with 32.
        rewrite Z.mod_mod by (vm_compute; discriminate). symmetry. apply mod_64_32.
      * reflexivity.
    + intros C. destruct sg.
      * subst k. cbn [clears] in C. subst m'. rewrite C. cbn [negb]. replace (n1 O_REV_S16 m) with (size_of m) by (destruct m; reflexivity). apply Z.mod_pos_bound. destruct m; reflexivity.
      * apply Z.lt_trans with (2 ^ 16); [lia|]. destruct N as [-> | ->]; reflexivity.
  - eapply does_conseq; [exact (rev_fin true false (AMem b o) Dw _ s s1 DL O1 V1 eq_refl W1)|]. intros s2 _ A. cbn beta iota in A. split; [|intros X; apply FL; exact X].
    exists r. split; [exact RES|]. rewrite B. eapply wr1_mem; [exact A|reflexivity| |apply incl_refl]. subst r. destruct sg; [|reflexivity].
    transitivity (v mod 2 ^ 16); [|symmetry; apply sext_lift; lia]. rewrite <- (sext_mod_le 16 16 v) by lia. set (y := sext 16 v).
    destruct m'; cbn [size_of]; [change (2 ^ 32) with (2 ^ 16 * 2 ^ 16)|change (2 ^ 64) with (2 ^ 16 * 2 ^ 48)]; rewrite Z.rem_mul_r by lia; rewrite Z.mul_comm, Z.mod_add, Z.mod_mod by lia; reflexivity.
Qed.
Lemma nil_l : forall x, Some [] +++ x = x. Proof. destruct x; reflexivity. Qed.
Lemma bswap_word : forall (k : op1k) (m m0 : bool) D Dw S Sw, k = O_REV /\ m0 = m \/ (k = O_REV_U32 \/ k = O_REV_S32) /\ m0 = true ->
  emit_bswap w m k D Dw S Sw = let d := if is_reg D then reg_of D else TMP_REG1 in
  (if negb (arg_eqb S (AReg d)) then emit_mov w m0 (AReg d) 0 S Sw else Some []) +++ Some (bswap_bytes w m0 d) +++
    (if is_mem D then emit_mov w m0 D Dw (AReg TMP_REG1) 0 else match k with O_REV_S32 => ins w false (fl 1) 0x63 D 0 D 0 | _ => Some [] end).
Proof.
  intros k m m0 D Dw S Sw K. unfold emit_bswap. cbv zeta. destruct K as [(-> & ->)|([-> | ->] & ->)]; rewrite andb_false_r; cbv iota; rewrite nil_l; reflexivity.
Qed.
Theorem op1_ok : forall lz tz cmov m k D Dw S Sw s, xdst_legal D Dw -> src1_legal k S Sw -> xwf s ->
  does u (emit_op1 w lz tz cmov m k D Dw S Sw) s (op1_post w k m D Dw S Sw s).
Proof.
  intros lz tz cmov m k D Dw S Sw s DL (SL & SI) W. unfold emit_op1.
  assert (X : forall (b : bool), b && arg_eqb S D && negb true = false) by (intros b; rewrite andb_false_r; reflexivity).
  destruct k; cbn [is_mov type_cast_needed negb] in *; rewrite ?andb_false_r; cbv iota.
  - pose proof (word_ok O_MOV m false D Dw S Sw s) as H. cbn [type_cast_needed negb] in H. apply H; auto.
  - rewrite small_byte. apply (sm_ok O_MOV_U8 m 8 false); auto.
  - rewrite small_byte. apply (sm_ok O_MOV_S8 m 8 true); auto.
  - rewrite small_half. apply (sm_ok O_MOV_U16 m 16 false); auto.
  - rewrite small_half. apply (sm_ok O_MOV_S16 m 16 true); auto.
  - apply (it_ok O_MOV_U32 m false); auto.
  - apply (it_ok O_MOV_S32 m true); auto.
  - pose proof (word_ok O_MOV32 m true D Dw S Sw s) as H. cbn [type_cast_needed negb] in H. apply H; auto.
  - pose proof (word_ok O_MOV_P m false D Dw S Sw s) as H. cbn [type_cast_needed negb] in H. apply H; auto.
  - apply (ct_ok O_CLZ m lz cmov true); auto.
  - apply (ct_ok O_CTZ m tz cmov false); auto.
  - rewrite bswap_word with (m0 := m) by auto. exact (rev_word_ok O_REV m m D Dw S Sw s ltac:(auto) DL SL (SI eq_refl) W).
  - unfold emit_bswap. cbv zeta. rewrite andb_true_r. pose proof (rev_half_ok O_REV_U16 m false D Dw S Sw s eq_refl DL SL (SI eq_refl) W) as H. exact H.
  - unfold emit_bswap. cbv zeta. rewrite andb_true_r. pose proof (rev_half_ok O_REV_S16 m true D Dw S Sw s eq_refl DL SL (SI eq_refl) W) as H. exact H.
  - rewrite bswap_word with (m0 := true) by auto. exact (rev_word_ok O_REV_U32 m true D Dw S Sw s ltac:(auto) DL SL (SI eq_refl) W).
  - rewrite bswap_word with (m0 := true) by auto. exact (rev_word_ok O_REV_S32 m true D Dw S Sw s ltac:(auto) DL SL (SI eq_refl) W).
Qed.
End T.
