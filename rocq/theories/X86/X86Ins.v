(** The effect of each emitted instruction, in terms of the operands of the LIR. *)
Require Import ZArith List Bool Lia.
From Verif Require Import Rv.RvLib Rv.RvIsa Rv.RvMem Rv.RvMemProofs Rv.RvEmitOp1 X86.X86Isa X86.X86Emit X86.X86Spec X86.X86Enc X86.X86EncTop X86.X86OpSpec X86.X86Op.
Import ListNotations.
Ltac Zify.zify_post_hook ::= idtac.
Open Scope Z_scope.

(** ** States *)
Lemma isw_mod32 : forall x, isw (x mod 2 ^ 32).
Proof. intros. pose proof (Z.mod_pos_bound x (2 ^ 32) ltac:(lia)). unfold isw. lia. Qed.
Lemma isw_mod : forall n x, n = 32 \/ n = 64 -> isw (x mod 2 ^ n).
Proof. intros n x [->| ->]. - apply isw_mod32. - apply wrap_isw. Qed.
Lemma xwf_setr : forall s r v, xwf s -> isw v -> xwf (setr s r v).
Proof. intros s r v H V q. unfold setr. cbn [xr]. destruct (q =? r); auto. Qed.
Lemma xwf_setfl : forall s a b c d, xwf s -> xwf (setfl s a b c d). Proof. intros s a b c d H q. apply H. Qed.
Lemma xwf_setmem : forall s m, xwf s -> xwf (setmem s m). Proof. intros s m H q. apply H. Qed.
Definition ftmp (b : arg) (immb : Z) : list Z := if far b immb then [TMP_REG2] else [].
Lemma setr_same : forall s r v, xr (setr s r v) r = v. Proof. intros. unfold setr. cbn. rewrite Z.eqb_refl. reflexivity. Qed.
Lemma setr_reg : forall w s r v q, 1 <= r <= 16 -> 1 <= q <= 16 -> q <> r -> xr (setr s (reg_map w r) v) (reg_map w q) = xr s (reg_map w q).
Proof.
  intros w s r v q A B N. unfold setr. cbn [xr]. destruct (Z.eqb_spec (reg_map w q) (reg_map w r)) as [E|E]; [|reflexivity].
  exfalso. apply N. apply (reg_inj w); unfold isreg; auto; lia.
Qed.
Lemma after_pre_same : forall w b immb s, xm (after_pre w b immb s) = xm s /\ xcf (after_pre w b immb s) = xcf s /\ xzf (after_pre w b immb s) = xzf s
  /\ xsf (after_pre w b immb s) = xsf s /\ xof (after_pre w b immb s) = xof s.
Proof. intros. unfold after_pre. destruct (far b immb); repeat split. Qed.
Lemma after_pre_reg : forall w b immb s r, 1 <= r <= 16 -> ~ In r (ftmp b immb) -> xr (after_pre w b immb s) (reg_map w r) = xr s (reg_map w r).
Proof.
  intros w b immb s r R N. unfold after_pre, ftmp in *. destruct (far b immb); [|reflexivity].
  apply setr_reg; unfold TMP_REG2 in *; simpl in N; lia.
Qed.
Lemma after_pre_wf : forall w b immb s, xwf s -> xwf (after_pre w b immb s).
Proof. intros. unfold after_pre. destruct (far b immb); [|assumption]. apply xwf_setr; auto. apply wrap_isw. Qed.

(** ** Operands *)
Lemma same_rd : forall w f b immb opn n s, same_operand w f b immb opn -> f_sse2 f = false ->
  rdo n (after_pre w b immb s) opn = xval w n s b immb.
Proof.
  intros w f b immb opn n s H F. destruct b as [r| |base offs]; destruct opn as [r'|e|v]; simpl in H; try contradiction.
  - rewrite F in H. subst r'. reflexivity.
  - cbn [rdo xval]. rewrite (proj1 (after_pre_same w (AMem base offs) immb s)). apply load_cong. specialize (H s). rewrite H. rewrite wrap_wrap. reflexivity.
Qed.
Lemma same_wr : forall w f b immb opn n s v, same_operand w f b immb opn -> f_sse2 f = false -> n = 32 \/ n = 64 -> genop b immb -> b <> AReg 0 -> xwf s ->
  exists s', wro n (after_pre w b immb s) opn v = Some s' /\ wrote w n (ftmp b immb) s b immb v s' /\ flags_same s s' /\ xwf s'.
Proof.
  intros w f b immb opn n s v H F N G B0 W. destruct (after_pre_same w b immb s) as (M & F1 & F2 & F3 & F4).
  destruct b as [r| |base offs]; destruct opn as [r'|e|v']; simpl in H; try contradiction.
  - rewrite F in H. subst r'. cbn [wro]. eexists. split; [reflexivity|].
    assert (E : n <? 32 = false) by (destruct N as [->| ->]; reflexivity). rewrite E.
    assert (R : 1 <= r <= 16). { simpl in G. unfold isreg in G. assert (r <> 0) by congruence. lia. }
    split; [|split; [repeat split|]].
    + cbn [wrote]. rewrite setr_same. split; [reflexivity|]. split; [reflexivity|]. intros q Q I. simpl in I.
      apply setr_reg; auto; intros ->; tauto.
    + apply xwf_setr; [exact W|]. apply isw_mod. exact N.
  - cbn [wro]. eexists. split; [reflexivity|]. split; [|split].
    + cbn [wrote setmem xm]. split.
      * rewrite M. apply store_cong. specialize (H s). rewrite H, wrap_wrap. reflexivity.
      * intros q Q I. cbn [setmem xr]. apply after_pre_reg; auto.
    + repeat split; assumption.
    + apply xwf_setmem. apply after_pre_wf. exact W.
Qed.
Lemma wrote_setfl : forall w n L s a imm v s' c z g o, wrote w n L s a imm v s' -> wrote w n L s a imm v (setfl s' c z g o).
Proof. intros. destruct a; exact H. Qed.

(** ** Sequences *)
Lemma does_nil : forall u s (P : xst -> Prop), xwf s -> P s -> does u (Some []) s P.
Proof. intros u s P W H. exists []. split; [reflexivity|]. exists s. split; [apply runs_nil|]. auto. Qed.
Lemma does_seq : forall u a b s (P Q : xst -> Prop), does u a s P -> (forall s1, xwf s1 -> P s1 -> does u b s1 Q) -> does u (a +++ b) s Q.
Proof.
  intros u a b s P Q (l & E & s1 & R & H & W) K. destruct (K s1 W H) as (l2 & E2 & s2 & R2 & H2 & W2).
  subst. exists (l ++ l2). split; [reflexivity|]. exists s2. split; [eapply runs_app; eauto|]. auto.
Qed.
Lemma does_conseq : forall u a s (P Q : xst -> Prop), does u a s P -> (forall s', xwf s' -> P s' -> Q s') -> does u a s Q.
Proof. intros u a s P Q (l & E & s1 & R & H & W) K. exists l. split; [exact E|]. exists s1. auto. Qed.

(** ** One instruction *)
Definition size_of (m : bool) : Z := if m then 32 else 64.
Lemma size_of_cases : forall m, size_of m = 32 \/ size_of m = 64. Proof. intros []; auto. Qed.
(** The decoded instruction: [mk] gives it from the register field, the general operand and the bytes that follow. *)
Definition notj (i : instr) : Prop := match i with XJcc _ _ => False | _ => True end.
Lemma notj_ok : forall i, notj i -> forall c d, i <> XJcc c d. Proof. intros i H c d E. subst i. exact H. Qed.
Definition dec_as (p : pfx) (two : bool) (op : Z) (x : X86Isa.rex) (mk : Z -> opd -> list Z -> option (instr * list Z)) : Prop :=
  forall l, (if two then decode2 p x op l else decode1 p x op l) = match modrm x l with Some (r, o, l) => mk r o l | None => None end.
Lemma or_hd_0 : forall l, or_hd (8 * 0) l = l. Proof. destruct l; simpl; [reflexivity|]. rewrite Z.lor_0_r. reflexivity. Qed.
Lemma pre_runs : forall u w b immb s, runs u (if far b immb then load_imm64 w TMP_REG2 immb else []) s (after_pre w b immb s).
Proof. intros. unfold after_pre. destruct (far b immb); [|apply runs_nil]. apply load_imm64_ok. unfold isreg, TMP_REG2. lia. Qed.
(** Everything at once: a one or two byte opcode, a digit in the register field, extra bytes [ex] after the instruction. *)
Definition bytes_of (two : bool) (op d : Z) (o : xo) (ex : list Z) : list Z :=
  o_pre o ++ o_head o ++ (if two then 0x0f :: op :: or_hd (8 * d) (o_tail o) else op :: or_hd (8 * d) (o_tail o)) ++ ex.
Lemma ins_run : forall u w m f a imma b immb two op d ex (mk : Z -> opd -> list Z -> option (instr * list Z)),
  flags_ok f -> firstop m f a imma -> genop b immb -> digit_ok f a d -> (two = false -> opbyte op /\ op <> 0x0f) ->
  (forall x, rW x = negb m && negb (f_norexw f) -> (rW x || f_rex f = true -> rP x = true) -> dec_as (want_pfx f) two op x mk) ->
  exists o opn, emit_x86 w m f a imma b immb = Some o /\ same_operand w f b immb opn /\ o_first o = want_first f a imma
    /\ forall s s' i, (forall rest, mk (want_reg w f a + d) opn (lebytes (imm_size f a imma) imma ++ ex ++ rest) = Some (i, rest)) -> notj i ->
         exec u (after_pre w b immb s) i = Some s' -> runs u (bytes_of two op d o ex) s s'.
Proof.
  intros u w m f a imma b immb two op d ex mk FO AO G D OP DE.
  destruct (emit_x86_ok w m f a imma b immb FO AO G) as (o & x & opn & E & EN). destruct EN.
  exists o, opn. split; [exact E|]. split; [exact en_op|]. split; [exact en_first|].
  intros s s' i MK NJ EX. unfold bytes_of. rewrite en_pre.
  eapply runs_app; [apply pre_runs|].
  eapply runs_instr; [|apply notj_ok; exact NJ|exact EX].
  assert (DX : dec_as (want_pfx f) two op x mk).
  { apply DE; [exact en_W|]. intros H. rewrite en_P. rewrite en_W in H. rewrite H. reflexivity. }
  intros rest. destruct two.
  - rewrite <- !app_assoc. change (decode (o_head o ++ (15 :: op :: or_hd (8 * d) (o_tail o) ++ (ex ++ rest))) = Some (i, rest)).
    rewrite en_dec by (unfold opbyte; repeat split; try lia; vm_compute; discriminate). unfold decop. change (15 =? 15) with true. cbv iota.
    rewrite DX. rewrite en_rm by exact D. apply MK.
  - destruct (OP eq_refl) as (O1 & O2).
    rewrite <- !app_assoc. change (decode (o_head o ++ (op :: or_hd (8 * d) (o_tail o) ++ (ex ++ rest))) = Some (i, rest)).
    rewrite en_dec by exact O1. unfold decop. destruct (Z.eqb_spec op 15); [contradiction|].
    rewrite DX. rewrite en_rm by exact D. apply MK.
Qed.
Lemma bytes_put1 : forall op o, bytes_of false op 0 o [] = put1 op o.
Proof. intros. unfold bytes_of, put1. rewrite or_hd_0, app_nil_r. reflexivity. Qed.
Lemma bytes_put1d : forall op d o, bytes_of false op d o [] = put1d op (8 * d) o.
Proof. intros. unfold bytes_of, put1d. rewrite app_nil_r. reflexivity. Qed.
Lemma bytes_putf : forall op d o, o_first o = Some op -> bytes_of false op d o [] = putf (8 * d) o.
Proof. intros op d o H. unfold bytes_of, putf. rewrite H. rewrite app_nil_r. reflexivity. Qed.
Lemma bytes_put2 : forall op o, bytes_of true op 0 o [] = put2 0x0f op o.
Proof. intros. unfold bytes_of, put2. rewrite or_hd_0, app_nil_r. reflexivity. Qed.
Lemma bytes_put1_ex : forall op o ex, bytes_of false op 0 o ex = put1 op o ++ ex.
Proof. intros. unfold bytes_of, put1. rewrite or_hd_0, <- !app_assoc. reflexivity. Qed.
Lemma bytes_put2_ex : forall op o ex, bytes_of true op 0 o ex = put2 0x0f op o ++ ex.
Proof. intros. unfold bytes_of, put2. rewrite or_hd_0, <- !app_assoc. reflexivity. Qed.

Lemma flags_ok_fl : forall n, 0 <= n -> flags_ok (fl n).
Proof. intros n H. unfold flags_ok, fl. cbn. repeat split; auto; try (intros (A & B); discriminate); intros [A|A]; discriminate. Qed.

(** ins with register or immediate first operand, flags [fl 1] *)
Lemma ins_reg : forall u w m op r b immb mk,
  isreg r -> genop b immb -> opbyte op -> op <> 0x0f ->
  (forall x, rW x = negb m -> dec_as PNone false op x mk) ->
  exists l opn, ins w m (fl 1) op (AReg r) 0 b immb = Some l /\ same_operand w (fl 1) b immb opn
    /\ forall s s' i, (forall rest, mk (reg_map w r) opn rest = Some (i, rest)) -> notj i ->
         exec u (after_pre w b immb s) i = Some s' -> runs u l s s'.
Proof.
  intros u w m op r b immb mk R G O1 O2 DE.
  destruct (ins_run u w m (fl 1) (AReg r) 0 b immb false op 0 [] mk) as (o & opn & E & S & F & RUN).
  - apply flags_ok_fl; lia.
  - simpl. split; [exact R|discriminate].
  - exact G.
  - split; [lia|auto].
  - auto.
  - intros x H _. apply DE. rewrite H. cbn. apply andb_true_r.
  - exists (put1 op o), opn. split. { unfold ins. rewrite E. reflexivity. }
    split; [exact S|]. intros s s' i MK NJ EX. rewrite <- bytes_put1. eapply RUN; eauto. intros rest.
    cbn [want_reg fl f_shift f_sse1 imm_size lebytes app]. rewrite Z.add_0_r. apply MK.
Qed.
Lemma ins_imm : forall u w m op imm b immb mk,
  (m = false -> - 2 ^ 31 <= imm < 2 ^ 31) -> genop b immb -> opbyte op -> op <> 0x0f ->
  (forall x, rW x = negb m -> dec_as PNone false op x mk) ->
  exists l opn, ins w m (fl 1) op AImm imm b immb = Some l /\ same_operand w (fl 1) b immb opn
    /\ forall s s' i, (forall rest, mk 0 opn (lebytes 4 imm ++ rest) = Some (i, rest)) -> notj i ->
         exec u (after_pre w b immb s) i = Some s' -> runs u l s s'.
Proof.
  intros u w m op imm b immb mk R G O1 O2 DE.
  destruct (ins_run u w m (fl 1) AImm imm b immb false op 0 [] mk) as (o & opn & E & S & F & RUN).
  - apply flags_ok_fl; lia.
  - simpl. auto.
  - exact G.
  - split; [lia|auto].
  - auto.
  - intros x H _. apply DE. rewrite H. cbn. apply andb_true_r.
  - exists (put1 op o), opn. split. { unfold ins. rewrite E. reflexivity. }
    split; [exact S|]. intros s s' i MK NJ EX. rewrite <- bytes_put1. eapply RUN; eauto.
Qed.
(** groupf *)
Lemma ins_groupf : forall u w m (f3 : bool) op r b immb mk,
  isreg r -> genop b immb ->
  (forall x, rW x = negb m -> (rW x = true -> rP x = true) -> dec_as (if f3 then PF3 else PNone) true op x mk) ->
  exists l opn, groupf w m f3 op r b immb = Some l /\ same_operand w (fl 2) b immb opn
    /\ forall s s' i, (forall rest, mk (reg_map w r) opn rest = Some (i, rest)) -> notj i ->
         exec u (after_pre w b immb s) i = Some s' -> runs u l s s'.
Proof.
  intros u w m f3 op r b immb mk R G DE. set (f := if f3 then with_f3 (fl 2) else fl 2).
  destruct (ins_run u w m f (AReg r) 0 b immb true op 0 [] mk) as (o & opn & E & S & F & RUN).
  - unfold f. destruct f3; [|apply flags_ok_fl; lia].
    unfold flags_ok, with_f3, fl. cbn. repeat split; auto; try lia; try (intros (A & B); discriminate); intros [A|A]; discriminate.
  - simpl. split; [exact R|]. unfold f. destruct f3; discriminate.
  - exact G.
  - split; [lia|]. auto.
  - discriminate.
  - intros x H H2. replace (want_pfx f) with (if f3 then PF3 else PNone) by (unfold f; destruct f3; reflexivity). apply DE.
    + rewrite H. unfold f. destruct f3; cbn; apply andb_true_r.
    + intros Q. apply H2. rewrite Q. reflexivity.
  - exists (put2 0x0f op o), opn. split. { unfold groupf. fold f. rewrite E. reflexivity. }
    split. { unfold same_operand in *. destruct b, opn; auto. replace (f_sse2 f) with false in S by (unfold f; destruct f3; reflexivity). exact S. }
    intros s s' i MK NJ EX. rewrite <- bytes_put2. eapply RUN; eauto. intros rest.
    replace (want_reg w f (AReg r) + 0) with (reg_map w r) by (unfold f; destruct f3; cbn; lia). apply MK.
Qed.

(** ** Decoding of the opcodes in use *)
Lemma osize_of : forall p x m, rW x = negb m -> p = PNone \/ p = PF3 -> osize p x = size_of m.
Proof. intros p x m H P. unfold osize. rewrite H. destruct m; [|reflexivity]. destruct P; subst p; reflexivity. Qed.
Ltac dec_tac := match goal with H : rW ?x = negb ?m |- _ =>
  let l := fresh in intros l; cbv beta iota zeta delta [decode1 decode2]; rewrite (osize_of _ x m H) by auto;
  destruct (modrm x l) as [((?, ?), ?)|]; reflexivity end.
Definition bop_of (k : alu) : bop :=
  match k with Add => B_ADD | Or => B_OR | Adc => B_ADC | Sbb => B_SBB | And => B_AND | Sub => B_SUB | Xor => B_XOR | Cmp => B_CMP end.
Ltac opb := unfold opbyte; repeat split; try lia; vm_compute; discriminate.
Lemma bop_bytes : forall k, opbyte (b_rm (bop_of k)) /\ b_rm (bop_of k) <> 15 /\ opbyte (b_mr (bop_of k)) /\ b_mr (bop_of k) <> 15.
Proof. destruct k; repeat split; try (vm_compute; congruence); vm_compute; discriminate. Qed.
Lemma dec_rm : forall k m x, rW x = negb m -> dec_as PNone false (b_rm (bop_of k)) x (fun r o l => Some (XAlu k (size_of m) (OR r) o, l)).
Proof. intros k m x H. destruct k; dec_tac. Qed.
Lemma dec_mr : forall k m x, rW x = negb m -> dec_as PNone false (b_mr (bop_of k)) x (fun r o l => Some (XAlu k (size_of m) o (OR r), l)).
Proof. intros k m x H. destruct k; dec_tac. Qed.
Lemma dec_mov_store : forall m x, rW x = negb m -> dec_as PNone false 0x89 x (fun r o l => Some (XMov (size_of m) o (OR r), l)).
Proof. intros m x H. dec_tac. Qed.
Lemma dec_mov_load : forall m x, rW x = negb m -> dec_as PNone false 0x8b x (fun r o l => Some (XMov (size_of m) (OR r) o, l)).
Proof. intros m x H. dec_tac. Qed.
Lemma dec_test : forall m x, rW x = negb m -> dec_as PNone false 0x85 x (fun r o l => Some (XTest (size_of m) o (OR r), l)).
Proof. intros m x H. dec_tac. Qed.
Lemma imm_of_32 : forall m l, imm_of (size_of m) l = sle 4 l. Proof. intros []; reflexivity. Qed.
Lemma dec_mov_imm : forall m x, rW x = negb m -> dec_as PNone false 0xc7 x (fun r o l =>
  if r mod 8 =? 0 then match sle 4 l with Some (v, l) => Some (XMov (size_of m) o (OI v), l) | None => None end else None).
Proof.
  intros m x H l. cbv beta iota zeta delta [decode1 decode2]. rewrite (osize_of _ x m H) by auto.
  destruct (modrm x l) as [((?, ?), ?)|]; [|reflexivity]. cbn -[Z.modulo]. destruct m; reflexivity.
Qed.
Lemma dec_f7 : forall m x, rW x = negb m -> dec_as PNone false 0xf7 x (fun r o l =>
      let k := r mod 8 in let n := size_of m in
      if k =? 0 then match sle 4 l with Some (v, l) => Some (XTest n o (OI v), l) | None => None end
      else if k =? 1 then None
      else if k =? 2 then Some (XNot n o, l)
      else if k =? 3 then Some (XNeg n o, l)
      else if k =? 4 then Some (XMul1 false n o, l)
      else if k =? 5 then Some (XMul1 true n o, l)
      else if k =? 6 then Some (XDiv1 false n o, l)
      else Some (XDiv1 true n o, l)).
Proof.
  intros m x H l. cbv beta iota zeta delta [decode1 decode2]. rewrite (osize_of _ x m H) by auto.
  destruct (modrm x l) as [((?, ?), ?)|]; [|reflexivity]. cbn -[Z.modulo]. rewrite imm_of_32. reflexivity.
Qed.
Lemma dec_81 : forall m x, rW x = negb m -> dec_as PNone false 0x81 x (fun r o l =>
  match sle 4 l with Some (v, l) => Some (XAlu (alu_of (r mod 8)) (size_of m) o (OI v), l) | None => None end).
Proof.
  intros m x H l. cbv beta iota zeta delta [decode1 decode2]. rewrite (osize_of _ x m H) by auto.
  destruct (modrm x l) as [((?, ?), ?)|]; [|reflexivity]. cbn -[Z.modulo]. rewrite imm_of_32. reflexivity.
Qed.
Lemma dec_83 : forall m x, rW x = negb m -> dec_as PNone false 0x83 x (fun r o l =>
  match sle 1 l with Some (v, l) => Some (XAlu (alu_of (r mod 8)) (size_of m) o (OI v), l) | None => None end).
Proof. intros m x H. dec_tac. Qed.
Lemma dec_69 : forall m x, rW x = negb m -> dec_as PNone false 0x69 x (fun r o l =>
  match sle 4 l with Some (v, l) => Some (XImul (size_of m) r o (OI v), l) | None => None end).
Proof.
  intros m x H l. cbv beta iota zeta delta [decode1 decode2]. rewrite (osize_of _ x m H) by auto.
  destruct (modrm x l) as [((?, ?), ?)|]; [|reflexivity]. cbn -[Z.modulo]. rewrite imm_of_32. reflexivity.
Qed.
Lemma dec_6b : forall m x, rW x = negb m -> dec_as PNone false 0x6b x (fun r o l =>
  match sle 1 l with Some (v, l) => Some (XImul (size_of m) r o (OI v), l) | None => None end).
Proof. intros m x H. dec_tac. Qed.
Lemma dec_lea : forall m x, rW x = negb m -> dec_as PNone false 0x8d x (fun r o l => match o with OM e => Some (XLea (size_of m) r e, l) | _ => None end).
Proof. intros m x H. dec_tac. Qed.
Lemma dec_imul : forall m x, rW x = negb m -> dec_as PNone true 0xaf x (fun r o l => Some (XImul (size_of m) r (OR r) o, l)).
Proof. intros m x H. dec_tac. Qed.
Lemma dec_movsxd : forall m x, rW x = negb m -> dec_as PNone false 0x63 x (fun r o l => Some (XMovx true 32 (size_of m) r o, l)).
Proof. intros m x H. dec_tac. Qed.
Lemma dec_sh : forall op m x, op = 0xc1 \/ op = 0xd1 \/ op = 0xd3 -> rW x = negb m -> dec_as PNone false op x (fun r o l =>
  match sh_of (r mod 8) with
  | Some k => if op =? 0xc1 then match le 1 l with Some (v, l) => Some (XShift k (size_of m) o (OI v), l) | None => None end
      else Some (XShift k (size_of m) o (if op =? 0xd1 then OI 1 else OR 1), l)
  | None => None end).
Proof. intros op m x [O|[O|O]] H; subst op; dec_tac. Qed.
Lemma dec_shd : forall op m x, op = 0xa5 \/ op = 0xad -> rW x = negb m -> dec_as PNone true op x (fun r o l => Some (XShiftd (op =? 0xa5) (size_of m) o r (OR 1), l)).
Proof. intros op m x [O|O] H; subst op; dec_tac. Qed.
Lemma dec_shdi : forall op m x, op = 0xa4 \/ op = 0xac -> rW x = negb m -> dec_as PNone true op x (fun r o l =>
  match le 1 l with Some (v, l) => Some (XShiftd (op =? 0xa4) (size_of m) o r (OI v), l) | None => None end).
Proof. intros op m x [O|O] H; subst op; dec_tac. Qed.

(** ** The effect *)
Definition okr (b : arg) (immb r : Z) : Prop := 1 <= r <= 16 /\ (far b immb = true -> r <> TMP_REG2).
Definition gop (b : arg) (immb : Z) : Prop := genop b immb /\ b <> AReg 0.
Lemma okr_in : forall b immb r, okr b immb r -> 1 <= r <= 16 /\ ~ In r (ftmp b immb).
Proof. intros b immb r (A & B). split; [exact A|]. unfold ftmp. destruct (far b immb); simpl; [|tauto]. intros [E|[]]. apply B; auto. Qed.
Lemma okr_isreg : forall b immb r, okr b immb r -> isreg r. Proof. intros b immb r (A & B). unfold isreg. lia. Qed.
Lemma rd_reg : forall w b immb n s r, okr b immb r -> rdo n (after_pre w b immb s) (OR (reg_map w r)) = xr s (reg_map w r) mod 2 ^ n.
Proof. intros w b immb n s r H. cbn [rdo]. apply okr_in in H. rewrite after_pre_reg by tauto. reflexivity. Qed.
Lemma nsize_mod : forall m v, (v mod 2 ^ size_of m) mod 2 ^ size_of m = v mod 2 ^ size_of m.
Proof. intros. apply Z.mod_mod. destruct m; vm_compute; discriminate. Qed.
(** A register result. *)
Lemma reg_wrote : forall w m b immb s r v, okr b immb r -> xwf s ->
  exists s', wro (size_of m) (after_pre w b immb s) (OR (reg_map w r)) v = Some s'
    /\ wrote w (size_of m) (ftmp b immb) s (AReg r) 0 v s' /\ flags_same s s' /\ xwf s'.
Proof.
  intros w m b immb s r v K W. destruct (after_pre_same w b immb s) as (M & F1 & F2 & F3 & F4). destruct (okr_in _ _ _ K) as (R & NI).
  cbn [wro]. eexists. split; [reflexivity|]. replace (size_of m <? 32) with false by (destruct m; reflexivity).
  split; [|split; [repeat split; assumption|apply xwf_setr; [apply after_pre_wf; exact W|apply isw_mod; apply size_of_cases]]].
  cbn [wrote]. rewrite setr_same. split; [reflexivity|]. split; [exact M|].
  intros q Q I. simpl in I. rewrite setr_reg by (auto; intros ->; tauto). apply after_pre_reg; tauto.
Qed.
Definition alu_val (k : alu) (n x y : Z) (c : bool) : Z := fst (fst (alu_res k n x y c)).
Definition alu_fl (k : alu) (n x y : Z) (c : bool) (s' : xst) : Prop :=
  let '(r, cf, of) := alu_res k n x y c in xcf s' = Some cf /\ xzf s' = zfl n r /\ xsf s' = sfl n r /\ xof s' = Some of.
Definition cf_in (k : alu) (c : bool) (s : xst) : Prop := needs_cf k = true -> xcf s = Some c.
Lemma alu_res_c : forall k n a b c, needs_cf k = false -> alu_res k n a b c = alu_res k n a b false.
Proof. intros k n a b c H. destruct k; try discriminate; reflexivity. Qed.
Lemma exec_alu : forall u t k n d o c t', cf_in k c t -> k <> Cmp -> wro n t d (alu_val k n (rdo n t d) (rdo n t o) c) = Some t' ->
  exists t2, exec u t (XAlu k n d o) = Some t2 /\ alu_fl k n (rdo n t d) (rdo n t o) c t2 /\ xr t2 = xr t' /\ xm t2 = xm t'.
Proof.
  intros u t k n d o c t' C K Wr. cbn [exec].
  assert (E : exists c', (if needs_cf k then xcf t else Some false) = Some c' /\ alu_res k n (rdo n t d) (rdo n t o) c' = alu_res k n (rdo n t d) (rdo n t o) c).
  { unfold cf_in in C. destruct (needs_cf k) eqn:N; [exists c; rewrite C by reflexivity; auto|]. exists false. split; [reflexivity|]. symmetry. apply alu_res_c. exact N. }
  destruct E as (c' & E1 & E2). rewrite E1, E2. unfold alu_val in Wr. unfold alu_fl.
  destruct (alu_res k n (rdo n t d) (rdo n t o) c) as ((r, cf), of). cbn [fst] in Wr.
  replace (match k with Cmp => Some t | _ => wro n t d r end) with (Some t') by (destruct k; congruence).
  eexists. split; [reflexivity|]. repeat split.
Qed.
Lemma exec_cmp : forall u t n d o c, exists t2, exec u t (XAlu Cmp n d o) = Some t2 /\ alu_fl Cmp n (rdo n t d) (rdo n t o) c t2 /\ xr t2 = xr t /\ xm t2 = xm t.
Proof. intros. cbn [exec needs_cf alu_res]. eexists. split; [reflexivity|]. repeat split. Qed.
Lemma wrote_ext : forall w n L s a imm v s' s2, wrote w n L s a imm v s' -> xr s2 = xr s' -> xm s2 = xm s' -> wrote w n L s a imm v s2.
Proof.
  intros w n L s a imm v s' s2 H R M. destruct a as [r| |b o]; cbn [wrote] in *; unfold regs_same in *; rewrite ?R, ?M; auto.
Qed.
Lemma xwf_ext : forall s s', xwf s -> xr s' = xr s -> xwf s'. Proof. intros s s' H E r. rewrite E. apply H. Qed.

Section U.
Variables (u : Z) (w m : bool).
Notation n := (size_of m).
Lemma cf_after : forall k c b immb s, cf_in k c s -> cf_in k c (after_pre w b immb s).
Proof. intros k c b immb s H N. rewrite (proj1 (proj2 (after_pre_same w b immb s))). apply H. exact N. Qed.
Lemma alu_rm_ok : forall k r b immb s c, k <> Cmp -> okr b immb r -> gop b immb -> xwf s -> cf_in k c s ->
  does u (ins w m (fl 1) (b_rm (bop_of k)) (AReg r) 0 b immb) s (fun s' =>
    wrote w n (ftmp b immb) s (AReg r) 0 (alu_val k n (xr s (reg_map w r) mod 2 ^ n) (xval w n s b immb) c) s'
    /\ alu_fl k n (xr s (reg_map w r) mod 2 ^ n) (xval w n s b immb) c s').
Proof.
  intros k r b immb s c KC K (G & G0) W C. destruct (bop_bytes k) as (O1 & O2 & _ & _).
  destruct (ins_reg u w m (b_rm (bop_of k)) r b immb (fun r o l => Some (XAlu k n (OR r) o, l))) as (l & opn & E & S & RUN); auto.
  { eapply okr_isreg; eauto. } { intros; apply dec_rm; auto. }
  destruct (reg_wrote w m b immb s r (alu_val k n (xr s (reg_map w r) mod 2 ^ n) (xval w n s b immb) c) K W) as (s1 & W1 & W2 & W3 & W4).
  pose proof (same_rd w (fl 1) b immb opn n s S eq_refl) as V. pose proof (rd_reg w b immb n s r K) as V2.
  destruct (exec_alu u (after_pre w b immb s) k n (OR (reg_map w r)) opn c s1 (cf_after _ _ _ _ _ C) KC) as (t & T1 & T2 & T3 & T4).
  { rewrite V, V2. exact W1. }
  exists l. split; [exact E|]. exists t. split; [|split].
  - eapply RUN; [intros; reflexivity|exact Logic.I|exact T1].
  - split; [eapply wrote_ext; eauto|]. rewrite V, V2 in T2. exact T2.
  - eapply xwf_ext; eauto.
Qed.
Lemma alu_mr_ok : forall k r b immb s c, k <> Cmp -> okr b immb r -> gop b immb -> xwf s -> cf_in k c s ->
  does u (ins w m (fl 1) (b_mr (bop_of k)) (AReg r) 0 b immb) s (fun s' =>
    wrote w n (ftmp b immb) s b immb (alu_val k n (xval w n s b immb) (xr s (reg_map w r) mod 2 ^ n) c) s'
    /\ alu_fl k n (xval w n s b immb) (xr s (reg_map w r) mod 2 ^ n) c s').
Proof.
  intros k r b immb s c KC K (G & G0) W C. destruct (bop_bytes k) as (_ & _ & O1 & O2).
  destruct (ins_reg u w m (b_mr (bop_of k)) r b immb (fun r o l => Some (XAlu k n o (OR r), l))) as (l & opn & E & S & RUN); auto.
  { eapply okr_isreg; eauto. } { intros; apply dec_mr; auto. }
  destruct (same_wr w (fl 1) b immb opn n s (alu_val k n (xval w n s b immb) (xr s (reg_map w r) mod 2 ^ n) c) S eq_refl (size_of_cases m) G G0 W)
    as (s1 & W1 & W2 & W3 & W4).
  pose proof (same_rd w (fl 1) b immb opn n s S eq_refl) as V. pose proof (rd_reg w b immb n s r K) as V2.
  destruct (exec_alu u (after_pre w b immb s) k n opn (OR (reg_map w r)) c s1 (cf_after _ _ _ _ _ C) KC) as (t & T1 & T2 & T3 & T4).
  { rewrite V, V2. exact W1. }
  exists l. split; [exact E|]. exists t. split; [|split].
  - eapply RUN; [intros; reflexivity|exact Logic.I|exact T1].
  - split; [eapply wrote_ext; eauto|]. rewrite V, V2 in T2. exact T2.
  - eapply xwf_ext; eauto.
Qed.
(** Nothing is written. *)
Definition only (L : list Z) (s s' : xst) : Prop := xm s' = xm s /\ regs_same w L s s'.
Lemma only_after : forall b immb s t, xr t = xr (after_pre w b immb s) -> xm t = xm (after_pre w b immb s) -> only (ftmp b immb) s t.
Proof.
  intros b immb s t R M. split; [rewrite M; apply (after_pre_same w b immb s)|]. intros q Q I. rewrite R. apply after_pre_reg; auto.
Qed.
Lemma cmp_rm_ok : forall r b immb s c, okr b immb r -> gop b immb -> xwf s ->
  does u (ins w m (fl 1) 0x3b (AReg r) 0 b immb) s (fun s' => only (ftmp b immb) s s'
    /\ alu_fl Cmp n (xr s (reg_map w r) mod 2 ^ n) (xval w n s b immb) c s').
Proof.
  intros r b immb s c K (G & G0) W. destruct (bop_bytes Cmp) as (O1 & O2 & _ & _).
  destruct (ins_reg u w m 0x3b r b immb (fun r o l => Some (XAlu Cmp n (OR r) o, l))) as (l & opn & E & S & RUN); auto.
  { eapply okr_isreg; eauto. } { intros; apply (dec_rm Cmp); auto. }
  pose proof (same_rd w (fl 1) b immb opn n s S eq_refl) as V. pose proof (rd_reg w b immb n s r K) as V2.
  destruct (exec_cmp u (after_pre w b immb s) n (OR (reg_map w r)) opn c) as (t & T1 & T2 & T3 & T4).
  exists l. split; [exact E|]. exists t. split; [|split].
  - eapply RUN; [intros; reflexivity|exact Logic.I|exact T1].
  - split; [apply only_after; assumption|]. rewrite V, V2 in T2. exact T2.
  - eapply xwf_ext; [apply (after_pre_wf w b immb s W)|exact T3].
Qed.
Lemma cmp_mr_ok : forall r b immb s c, okr b immb r -> gop b immb -> xwf s ->
  does u (ins w m (fl 1) 0x39 (AReg r) 0 b immb) s (fun s' => only (ftmp b immb) s s'
    /\ alu_fl Cmp n (xval w n s b immb) (xr s (reg_map w r) mod 2 ^ n) c s').
Proof.
  intros r b immb s c K (G & G0) W. destruct (bop_bytes Cmp) as (_ & _ & O1 & O2).
  destruct (ins_reg u w m 0x39 r b immb (fun r o l => Some (XAlu Cmp n o (OR r), l))) as (l & opn & E & S & RUN); auto.
  { eapply okr_isreg; eauto. } { intros; apply (dec_mr Cmp); auto. }
  pose proof (same_rd w (fl 1) b immb opn n s S eq_refl) as V. pose proof (rd_reg w b immb n s r K) as V2.
  destruct (exec_cmp u (after_pre w b immb s) n opn (OR (reg_map w r)) c) as (t & T1 & T2 & T3 & T4).
  exists l. split; [exact E|]. exists t. split; [|split].
  - eapply RUN; [intros; reflexivity|exact Logic.I|exact T1].
  - split; [apply only_after; assumption|]. rewrite V, V2 in T2. exact T2.
  - eapply xwf_ext; [apply (after_pre_wf w b immb s W)|exact T3].
Qed.
Lemma test_ok : forall r b immb s c, okr b immb r -> gop b immb -> xwf s ->
  does u (ins w m (fl 1) 0x85 (AReg r) 0 b immb) s (fun s' => only (ftmp b immb) s s'
    /\ alu_fl And n (xval w n s b immb) (xr s (reg_map w r) mod 2 ^ n) c s').
Proof.
  intros r b immb s c K (G & G0) W.
  destruct (ins_reg u w m 0x85 r b immb (fun r o l => Some (XTest n o (OR r), l))) as (l & opn & E & S & RUN); auto.
  { eapply okr_isreg; eauto. } { opb. } { discriminate. } { intros; apply dec_test; auto. }
  pose proof (same_rd w (fl 1) b immb opn n s S eq_refl) as V. pose proof (rd_reg w b immb n s r K) as V2.
  exists l. split; [exact E|]. eexists. split; [|split].
  - eapply RUN; [intros; reflexivity|exact Logic.I|]. cbn [exec]. reflexivity.
  - rewrite V, V2. split; [apply only_after; reflexivity|]. repeat split.
  - apply xwf_setfl. apply after_pre_wf. exact W.
Qed.
Lemma mov_store_ok : forall r b immb s, okr b immb r -> gop b immb -> xwf s ->
  does u (ins w m (fl 1) 0x89 (AReg r) 0 b immb) s (fun s' => wrote w n (ftmp b immb) s b immb (xr s (reg_map w r) mod 2 ^ n) s' /\ flags_same s s').
Proof.
  intros r b immb s K (G & G0) W.
  destruct (ins_reg u w m 0x89 r b immb (fun r o l => Some (XMov n o (OR r), l))) as (l & opn & E & S & RUN); auto.
  { eapply okr_isreg; eauto. } { opb. } { discriminate. } { intros; apply dec_mov_store; auto. }
  pose proof (rd_reg w b immb n s r K) as V2.
  destruct (same_wr w (fl 1) b immb opn n s (xr s (reg_map w r) mod 2 ^ n) S eq_refl (size_of_cases m) G G0 W) as (s1 & W1 & W2 & W3 & W4).
  exists l. split; [exact E|]. exists s1. split; [|split; [split; assumption|exact W4]].
  eapply RUN; [intros; reflexivity|exact Logic.I|]. cbn [exec]. rewrite V2. exact W1.
Qed.
(** A load may use the register of the result for the address. *)
Lemma reg_wrote' : forall b immb s r v, 1 <= r <= 16 -> xwf s ->
  exists s', wro n (after_pre w b immb s) (OR (reg_map w r)) v = Some s'
    /\ wrote w n (ftmp b immb) s (AReg r) 0 v s' /\ flags_same s s' /\ xwf s'.
Proof.
  intros b immb s r v R W. destruct (after_pre_same w b immb s) as (M & F1 & F2 & F3 & F4).
  cbn [wro]. eexists. split; [reflexivity|]. replace (n <? 32) with false by (destruct m; reflexivity).
  split; [|split; [repeat split; assumption|apply xwf_setr; [apply after_pre_wf; exact W|apply isw_mod; apply size_of_cases]]].
  cbn [wrote]. rewrite setr_same. split; [reflexivity|]. split; [exact M|].
  intros q Q I. simpl in I. rewrite setr_reg by (auto; intros ->; tauto). apply after_pre_reg; tauto.
Qed.
Lemma mov_load_ok : forall r b immb s, 1 <= r <= 16 -> gop b immb -> xwf s ->
  does u (ins w m (fl 1) 0x8b (AReg r) 0 b immb) s (fun s' => wrote w n (ftmp b immb) s (AReg r) 0 (xval w n s b immb) s' /\ flags_same s s').
Proof.
  intros r b immb s K (G & G0) W.
  destruct (ins_reg u w m 0x8b r b immb (fun r o l => Some (XMov n (OR r) o, l))) as (l & opn & E & S & RUN); auto.
  { unfold isreg; lia. } { opb. } { discriminate. } { intros; apply dec_mov_load; auto. }
  pose proof (same_rd w (fl 1) b immb opn n s S eq_refl) as V.
  destruct (reg_wrote' b immb s r (xval w n s b immb) K W) as (s1 & W1 & W2 & W3 & W4).
  exists l. split; [exact E|]. exists s1. split; [|split; [split; assumption|exact W4]].
  eapply RUN; [intros; reflexivity|exact Logic.I|]. cbn [exec]. rewrite V. exact W1.
Qed.
End U.
