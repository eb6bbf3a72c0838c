(** Statements for the properties C43 (sljit_emit_op_flags, sljit_emit_select) and C44 (sljit_emit_op0). *)
Require Import ZArith List Bool Lia.
From Verif Require Import Rv.RvLib Rv.RvBits Rv.RvIsa Rv.RvMem Rv.RvOp Rv.RvLir Rv.RvCond Rv.RvCondSpec X86.X86Isa X86.X86Emit X86.X86Spec X86.X86Enc X86.X86OpSpec X86.X86Op
  X86.X86Cond X86.X86Ins X86.X86Mov X86.X86Bin X86.X86Op2 X86.X86Op2Top X86.X86Op1 X86.X86C34 X86.X86C36 X86.X86Misc X86.X86MiscP X86.X86Op0P.
Import ListNotations.
Ltac Zify.zify_post_hook ::= idtac.
Open Scope Z_scope.

(** sljit_emit_op_flags: the operations; no variable flag (check_sljit_emit_op_flags, sljitLir.c:2672-2674). *)
Definition flags_op (o : op) (k : option op2k) : Prop := vf o = VNone /\ match k with None => setz o = false | Some k => k = O_AND \/ k = O_OR \/ k = O_XOR end.
(** The value an operation on the destination has to give. *)
Definition flags_val (k : option op2k) (n x : Z) (c : bool) : Z :=
  match k with
  | Some O_AND => Z.land x (Z.b2z c)
  | Some O_OR => Z.lor x (Z.b2z c)
  | Some O_XOR => Z.lxor x (Z.b2z c)
  | _ => Z.b2z c
  end.
Lemma flags_logic : forall o k, flags_op o k -> forall k', k = Some k' -> is_logic k' = true.
Proof. intros o k (_ & H) k' ->. destruct H as [->|[->| ->]]; reflexivity. Qed.
Lemma wrote_1 : forall w m L s D Dw v s' (ex : Prop), xwf s' -> wrote w (size_of m) L s D Dw v s' -> wrote1 w (size_of m) (size_of m / 8) ex L s D Dw v s'.
Proof.
  intros w m L s D Dw v s' ex W H. destruct (npow m) as (P & Q). destruct D as [d| |b o]; cbn [wrote wrote1] in *; [|exact H|].
  - destruct H as (A & B & C). split; [rewrite A; apply Z.mod_mod; lia|]. split; [intros _; rewrite A; apply Z.mod_pos_bound; lia|]. auto.
  - destruct H as (A & B). split; [|exact B]. rewrite A. replace (8 * (size_of m / 8)) with (size_of m) by (destruct m; reflexivity). reflexivity.
Qed.
Lemma wr1_ex : forall w n B (e e' : Prop) L s D Dw v s', (e' -> e) -> wrote1 w n B e L s D Dw v s' -> wrote1 w n B e' L s D Dw v s'.
Proof. intros w n B e e' L s D Dw v s' I H. destruct D; cbn [wrote1] in *; [|exact H|exact H]. destruct H as (A & A1 & A2). auto. Qed.
Lemma res_flags : forall k n x c, (k = O_AND \/ k = O_OR \/ k = O_XOR) -> 0 <= n -> (res2 k n x (Z.b2z c) false) mod 2 ^ n = flags_val (Some k) n x c mod 2 ^ n.
Proof.
  intros k n x c H N. assert (P : 2 ^ n <> 0) by (apply Z.pow_nonzero; lia).
  destruct H as [->|[->| ->]]; cbn [res2 flags_val]; rewrite <- !Z.land_ones by exact N; apply Z.bits_inj'; intros i I; rewrite ?Z.land_spec, ?Z.lor_spec, ?Z.lxor_spec, ?Z.land_spec, ?Z.lor_spec, ?Z.lxor_spec, ?Z.land_spec;
    destruct (Z.testbit (Z.ones n) i), (Z.testbit x i), (Z.testbit (Z.b2z c) i); reflexivity.
Qed.
Lemma wr1_val : forall w n B e L s D Dw v v' s', 0 <= n -> B = n / 8 -> n = 8 * B -> v mod 2 ^ n = v' mod 2 ^ n -> wrote1 w n B e L s D Dw v s' -> wrote1 w n B e L s D Dw v' s'.
Proof. intros w n B e L s D Dw v v' s' N E E8 V H. destruct D; cbn [wrote1] in *; [|exact H|]; rewrite <- ?E8 in *; rewrite <- V; exact H. Qed.

Lemma flags_user : forall u w o k D Dw t s c, flags_op o k -> xdst_legal D Dw -> ctype t -> xwf s -> cond_val s (jump_code t - 0x80) = Some c ->
  let n := nbits (f32 o) in
  does u (emit_op_flags w o k D Dw t) s (fun s' =>
    wrote1 w n (n / 8) (setz o = true \/ k <> Some O_OR) TMPS s D Dw (flags_val k n (xval w n s D Dw) c) s'
    /\ (k = None -> flags_same s s')
    /\ (setz o = true -> forall t', t' = SLJIT_EQUAL \/ t' = SLJIT_NOT_EQUAL -> cond_val s' (jump_code t' - 0x80) = Some (xorb (t' =? SLJIT_NOT_EQUAL) (flags_val k n (xval w n s D Dw) c mod 2 ^ n =? 0)))).
Proof.
  intros u w o k D Dw t s c FO DL T W C n. eapply does_conseq; [apply op_flags_ok with (c := c); [eapply flags_logic; exact FO|apply FO|exact DL|exact T|exact W|exact C]|].
  intros s' W' H. unfold flags_post in H. destruct FO as (VF & FK). destruct k as [k|].
  - destruct H as (A & B). fold n in A, B.
    assert (N : 0 <= n) by (unfold n; destruct (f32 o); discriminate).
    split; [|split; [discriminate|]].
    + eapply wr1_ex; [|eapply (wr1_val w n (n / 8)); [exact N|reflexivity| |apply res_flags; [exact FK|exact N]|exact A]].
      * intros [Z1|Z1] _; [left; unfold has_flags; rewrite Z1; reflexivity|right; left; congruence].
      * unfold n; destruct (f32 o); reflexivity.
    + intros Z1 t' T'. specialize (B Z1). rewrite res_flags in B by (exact FK || exact N).
      destruct T' as [-> | ->]; [change (jump_code SLJIT_EQUAL - 128) with 4|change (jump_code SLJIT_NOT_EQUAL - 128) with 5]; unfold cond_val, cond_base; [change (4 / 2) with 2|change (5 / 2) with 2]; cbn [Z.eqb Pos.eqb Z.odd]; rewrite B; destruct (_ =? 0); reflexivity.
  - destruct H as (A & B). split; [|split; [intros _; exact B|rewrite FK; discriminate]]. apply wrote_1; [exact W'|exact A].
Qed.
Lemma select_user : forall u w cmov m t d A Aw r2 s c, ctype t -> xureg d -> xsrc_legal A Aw -> xureg r2 -> xwf s -> cond_val s (jump_code t - 0x80) = Some c ->
  let n := nbits m in
  does u (emit_select w cmov m t d A Aw r2) s (fun s' =>
    wrote1 w n (n / 8) (cmov = true \/ (d <> r2 /\ A <> AReg d)) TMPS s (AReg d) 0 (if c then xval w n s A Aw else xval w n s (AReg r2) 0) s' /\ flags_same s s').
Proof.
  intros u w cmov m t d A Aw r2 s c T D L R2 W C n. eapply does_conseq; [apply select_ok with (c := c); assumption|]. intros s' _ (H & F). split; [|exact F].
  eapply (wr1_val w n (n / 8)); [unfold n; destruct m; discriminate|reflexivity|unfold n; destruct m; reflexivity| |exact H].
  destruct c; [reflexivity|]. cbn [xval]. symmetry. apply Z.mod_mod. unfold n; destruct m; discriminate.
Qed.
Lemma does_run_conj : forall u a s (P Q : xst -> Prop), does u a s (fun s' => P s' /\ Q s') -> does u a s P.
Proof. intros u a s P Q H. eapply does_conseq; [exact H|]. intros s' _ (A & _). exact A. Qed.
(** After a comparison, test or another operation without a result. *)
Lemma compare_flags : forall u w o k cy S1 S1w S2 S2w o2 k2 D Dw t s,
  xsrc_legal S1 S1w -> xsrc_legal S2 S2w -> flags_legal k (setz o) (vf o) -> op2u_bad k S2 S2w = false -> carry_known k s cy -> xwf s -> ctype t -> requested o t ->
  flags_op o2 k2 -> xdst_legal D Dw ->
  let n := nbits (f32 o) in let n2 := nbits (f32 o2) in let b := cond t k n (xval w n s S1 S1w) (xval w n s S2 S2w) cy in
  does u (emit_op2u w o k S1 S1w S2 S2w +++ emit_op_flags w o2 k2 D Dw t) s (fun s' => wrote1 w n2 (n2 / 8) False TMPS s D Dw (flags_val k2 n2 (xval w n2 s D Dw) b) s').
Proof.
  intros u w o k cy S1 S1w S2 S2w o2 k2 D Dw t s L1 L2 FL NB CK W T RQ FO DL n n2 b.
  eapply does_seq; [apply op2u_user with (c := cy); assumption|]. intros s1 W1 ((M1 & R1) & C1). specialize (C1 t T RQ). change (nbits (f32 o)) with n in C1.
  eapply does_conseq; [apply flags_user with (c := b); [exact FO|exact DL|exact T|exact W1|exact C1]|]. intros s' _ (H & _).
  assert (O1 : only w TMPS s s1) by (split; assumption).
  rewrite (only_ause w TMPS D Dw s s1 DL O1 (fun x X => X)) in H. fold n2 in H. clear - H R1 M1 DL.
  destruct D as [d| |x y]; cbn [wrote1] in *; [|exact H|].
  - destruct H as (A & _ & B & C). split; [exact A|]. split; [contradiction|]. split; [congruence|]. intros q Q N. rewrite C by assumption. apply R1; [exact Q|]. intros X. apply N. right. exact X.
  - destruct H as (A & C). split.
    + rewrite A, M1. f_equal. apply (xaddr_keep w TMPS s s1); [exact R1| | |]; destruct DL as (H & _); unfold xureg in H; try lia.
      intros r [X|[X|[]]] _ [Y|[Y|[]]]; subst; lia.
    + intros q Q N. rewrite C, R1 by assumption. reflexivity.
Qed.
(** ** Upper halves *)
Definition demo32 : xst := mkX (fun q => if q =? 0 then 2 ^ 40 + 5 else if q =? 6 then 2 ^ 41 + 7 else 0) (Some true) (Some true) (Some false) (Some false) (fun _ => 0).
Lemma demo32_wf : xwf demo32. Proof. intros r. unfold demo32. cbn [xr]. unfold isw. destruct (r =? 0); [lia|]. destruct (r =? 6); lia. Qed.
Lemma flags_upper_wrong : flags_op (mkOp (K2 O_OR) true false VNone) (Some O_OR) /\ xureg 1 /\ xureg 2 /\ xwf demo32 /\ cond_val demo32 (jump_code SLJIT_EQUAL - 0x80) = Some true
  /\ ~ does 0 (emit_op_flags false (mkOp (K2 O_OR) true false VNone) (Some O_OR) (AReg 1) 0 SLJIT_EQUAL) demo32 (fun s' => 0 <= xr s' (reg_map false 1) < 2 ^ 32)
  /\ ~ does 0 (emit_select false false true SLJIT_NOT_EQUAL 1 (AReg 2) 0 1) demo32 (fun s' => 0 <= xr s' (reg_map false 1) < 2 ^ 32)
  /\ ~ does 0 (emit_select false false true SLJIT_EQUAL 1 (AReg 1) 0 2) demo32 (fun s' => 0 <= xr s' (reg_map false 1) < 2 ^ 32).
Proof.
  split; [split; [reflexivity|right; left; reflexivity]|]. split; [legal|]. split; [legal|]. split; [exact demo32_wf|]. split; [reflexivity|]. split; [wrong|]. split; wrong.
Qed.

(** ** sljit_emit_op0 *)
(** The operations: multiplications exist for words only (check_sljit_emit_op0, sljitLir.c:1659-1662). *)
Definition op0_legal (k : op0k) (m : bool) : Prop :=
  match k with O_LMUL_UW | O_LMUL_SW => m = false | O_DIVMOD_UW | O_DIVMOD_SW | O_DIV_UW | O_DIV_SW => True | _ => False end.
(** The low and the high word of the product, or the quotient and what is left in SLJIT_R1; None: undefined. *)
Definition val0 (k : op0k) (n x y : Z) : option (Z * Z) :=
  let a := x mod 2 ^ n in let b := y mod 2 ^ n in
  let sa := sext n x in let sb := sext n y in
  let bad := (sb =? 0) || ((sb =? -1) && (sa =? - 2 ^ (n - 1))) in
  match k with
  | O_LMUL_UW => Some (a * b, a * b / 2 ^ n)
  | O_LMUL_SW => Some (sa * sb, sa * sb / 2 ^ n)
  | O_DIVMOD_UW => if b =? 0 then None else Some (a / b, a mod b)
  | O_DIVMOD_SW => if bad then None else Some (Z.quot sa sb, Z.rem sa sb)
  | O_DIV_UW => if b =? 0 then None else Some (a / b, y)
  | O_DIV_SW => if bad then None else Some (Z.quot sa sb, y)
  | _ => None
  end.
Lemma val0_res : forall m k x y q r, op0_legal k m -> isw x -> isw y -> val0 k (size_of m) x y = Some (q, r) ->
  exists q' r', res0 k (size_of m) x y = Some (q', r') /\ q' mod 2 ^ size_of m = q mod 2 ^ size_of m /\ r' mod 2 ^ size_of m = r mod 2 ^ size_of m.
Proof.
  intros m k x y q r L X Y H. destruct (npow m) as (PA & PB). destruct k; cbn [op0_legal] in L; try contradiction; try subst m; cbn [val0] in H; cbv zeta in H; cbn [res0]; cbv zeta.
  - unfold size_of, isw in *. rewrite !Z.mod_small in H by assumption. injection H as <- <-. do 2 eexists. split; [reflexivity|]. split; [apply Z.mod_mod; lia|reflexivity].
  - unfold size_of in *. injection H as <- <-. do 2 eexists. split; [reflexivity|]. change (sext 64 x) with (sgn x). change (sext 64 y) with (sgn y). split; apply Z.mod_mod; lia.
  - match type of H with (if ?c then _ else _) = _ => destruct c; [discriminate|] end. injection H as <- <-. do 2 eexists. split; [reflexivity|]. rewrite !canon_n. split; reflexivity.
  - match type of H with (if ?c then _ else _) = _ => destruct c; [discriminate|] end. injection H as <- <-. do 2 eexists. split; [reflexivity|]. rewrite !canon_n. split; reflexivity.
  - match type of H with (if ?c then _ else _) = _ => destruct c; [discriminate|] end. injection H as <- <-. do 2 eexists. split; [reflexivity|]. rewrite !canon_n. split; reflexivity.
  - match type of H with (if ?c then _ else _) = _ => destruct c; [discriminate|] end. injection H as <- <-. do 2 eexists. split; [reflexivity|]. rewrite !canon_n. split; reflexivity.
Qed.
Lemma op0_user : forall u w m k s q r, op0_legal k m -> xwf s -> let n := nbits m in
  val0 k n (xr s (reg_map w 1)) (xr s (reg_map w 2)) = Some (q, r) ->
  does u (emit_op0 w k m) s (fun s' => xr s' (reg_map w 1) = q mod 2 ^ n /\ xr s' (reg_map w 2) mod 2 ^ n = r mod 2 ^ n
    /\ (keeps k = false -> xr s' (reg_map w 2) < 2 ^ n) /\ (keeps k = true -> w && m = false -> xr s' (reg_map w 2) = xr s (reg_map w 2))
    /\ xm s' = xm s /\ regs_same w (1 :: 2 :: TMPS) s s').
Proof.
  intros u w m k s q r L W n H. destruct (val0_res m k _ _ q r L (W _) (W _) H) as (q' & r' & E & Q & R).
  eapply does_conseq; [eapply op0_ok; [|exact W|exact E]|].
  - destruct k; cbn [op0_legal] in L; try contradiction; auto.
  - intros s' W' ((M & RS) & A & B & C & D & F). change (size_of m) with n in *. split; [|split; [rewrite <- R; exact B|auto]].
    rewrite <- Q, <- A. symmetry. apply Z.mod_small. split; [apply W'|exact C].
Qed.
(** On Windows the 32 bit division changes the upper half of SLJIT_R1. *)
Definition demod : xst := mkX (fun q => if q =? 0 then 100 else if q =? 2 then 2 ^ 40 + 7 else 0) None None None None (fun _ => 0).
Lemma demod_wf : xwf demod. Proof. intros r. unfold demod. cbn [xr]. unfold isw. destruct (r =? 0); [lia|]. destruct (r =? 2); lia. Qed.
Lemma op0_keeps_wrong : op0_legal O_DIV_UW true /\ xwf demod /\ val0 O_DIV_UW 32 (xr demod (reg_map true 1)) (xr demod (reg_map true 2)) = Some (14, 2 ^ 40 + 7) /\
  ~ does 0 (emit_op0 true O_DIV_UW true) demod (fun s' => xr s' (reg_map true 2) = xr demod (reg_map true 2)).
Proof. split; [exact Logic.I|]. split; [exact demod_wf|]. split; [reflexivity|]. wrong. Qed.
