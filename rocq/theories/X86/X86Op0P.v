(** sljit_emit_op0 on x86-64: the emitted code. *)
Require Import ZArith List Bool Lia Znumtheory.
From Verif Require Import Rv.RvLib Rv.RvBits Rv.RvIsa Rv.RvMem Rv.RvMemProofs Rv.RvOp Rv.RvLir Rv.RvCond Rv.RvCondSpec X86.X86Isa X86.X86Emit X86.X86Spec X86.X86Enc X86.X86EncTop X86.X86OpSpec X86.X86Op
  X86.X86Cond X86.X86Ins X86.X86Ins2 X86.X86Ins3 X86.X86Mov X86.X86Bin X86.X86Op2 X86.X86Op1 X86.X86C34 X86.X86Misc X86.X86MiscP.
Import ListNotations.
Ltac Zify.zify_post_hook ::= idtac.
Open Scope Z_scope.

(** ** Bytes *)
Definition is_mul (k : op0k) : bool := match k with O_LMUL_UW | O_LMUL_SW => true | _ => false end.
Definition is_signed (k : op0k) : bool := match k with O_LMUL_SW | O_DIVMOD_SW | O_DIV_SW => true | _ => false end.
Definition keeps (k : op0k) : bool := match k with O_DIV_UW | O_DIV_SW => true | _ => false end.
(** The register that is edx, and the operand of the instruction. *)
Definition edx (w : bool) : Z := if w then R1 else TMP_REG1.
Definition opr (w : bool) (k : op0k) : Z := if w && is_div k then TMP_REG1 else R1.
Lemma dec_f7 : forall w m k rest, is_mul k = true \/ is_div k = true ->
  decode (f7_bytes w m k ++ rest) = Some ((if is_mul k then XMul1 (is_signed k) (size_of m) (OR (reg_map w (opr w k))) else XDiv1 (is_signed k) (size_of m) (OR (reg_map w (opr w k)))), rest).
Proof. intros w m k rest H. destruct w, m, k; try (destruct H; discriminate); reflexivity. Qed.
Lemma dec_cdq : forall (m : bool) rest, decode ((if negb m then [REX_W; 0x99] else [0x99]) ++ rest) = Some (XCdq (size_of m), rest).
Proof. intros [|] rest; reflexivity. Qed.

(** ** Arithmetic *)
Section N.
Variable m : bool.
Notation n := (size_of m).
Lemma npow : 2 ^ n = 2 * 2 ^ (n - 1) /\ 0 < 2 ^ (n - 1). Proof. destruct m; split; reflexivity. Qed.
Lemma sext_val : forall x, - 2 ^ (n - 1) <= sext n x < 2 ^ (n - 1).
Proof.
  intros x. unfold sext. cbv zeta. destruct npow as (A & B). pose proof (Z.mod_pos_bound x (2 ^ n) ltac:(lia)). destruct (Z.ltb_spec (x mod 2 ^ n) (2 ^ (n - 1))); lia.
Qed.
Lemma sext_modn : forall x, sext n (x mod 2 ^ n) = sext n x.
Proof. intros x. unfold sext. cbv zeta. rewrite Z.mod_mod; [reflexivity|]. destruct npow; lia. Qed.
Lemma testbit_top : forall x, 0 <= x < 2 ^ n -> Z.testbit x (n - 1) = negb (x <? 2 ^ (n - 1)).
Proof.
  intros x H. destruct npow as (A & B). assert (N : 0 <= n - 1) by (destruct m; discriminate).
  rewrite Z.testbit_odd, Z.shiftr_div_pow2 by exact N. destruct (Z.ltb_spec x (2 ^ (n - 1))).
  - rewrite Z.div_small by lia. reflexivity.
  - replace (x / 2 ^ (n - 1)) with 1; [reflexivity|]. apply Z.div_unique with (r := x - 2 ^ (n - 1)); lia.
Qed.
(** The double word dividend of the signed division. *)
Lemma cdq_val : forall x, 0 <= x < 2 ^ n -> sext (2 * n) ((if Z.testbit x (n - 1) then 2 ^ n - 1 else 0) * 2 ^ n + x) = sext n x.
Proof.
  intros x H. rewrite testbit_top by exact H. destruct npow as (A & B).
  assert (P2 : 2 ^ (2 * n) = 2 ^ n * 2 ^ n) by (rewrite <- Z.pow_add_r; [f_equal; lia| |]; destruct m; discriminate).
  assert (P3 : 2 ^ (2 * n - 1) = 2 ^ n * 2 ^ (n - 1)) by (rewrite <- Z.pow_add_r; [f_equal; lia| |]; destruct m; discriminate).
  unfold sext. cbv zeta. rewrite P2, P3. rewrite (Z.mod_small x (2 ^ n)) by exact H. destruct (Z.ltb_spec x (2 ^ (n - 1))); cbn [negb].
  - rewrite Z.mul_0_l, Z.add_0_l, Z.mod_small by nia. replace (x <? 2 ^ n * 2 ^ (n - 1)) with true; [reflexivity|]. symmetry. apply Z.ltb_lt. nia.
  - rewrite Z.mod_small by nia. replace ((2 ^ n - 1) * 2 ^ n + x <? 2 ^ n * 2 ^ (n - 1)) with false; [lia|]. symmetry. apply Z.ltb_ge. nia.
Qed.
Lemma quot_in : forall a b, - 2 ^ (n - 1) <= a < 2 ^ (n - 1) -> b <> 0 -> ~ (b = -1 /\ a = - 2 ^ (n - 1)) -> oor n (Z.quot a b) = false.
Proof.
  intros a b A B C. destruct npow as (P & Q). unfold oor. apply negb_false_iff. apply andb_true_intro.
  assert (H : Z.abs (Z.quot a b) * Z.abs b <= Z.abs a).
  { rewrite <- Z.quot_abs by exact B. rewrite Z.mul_comm. apply Z.mul_quot_le; lia. }
  assert (BB : 1 <= Z.abs b) by lia.
  destruct (Z.eq_dec (Z.abs b) 1) as [E1|E1].
  - assert (b = 1 \/ b = -1) as [->| ->] by lia.
    + rewrite Z.quot_1_r. split; [apply Z.leb_le|apply Z.ltb_lt]; lia.
    + change (-1) with (- (1)). rewrite Z.quot_opp_r, Z.quot_1_r by lia. split; [apply Z.leb_le|apply Z.ltb_lt]; lia.
  - split; [apply Z.leb_le|apply Z.ltb_lt]; nia.
Qed.
End N.

Section U.
Variables (u : Z) (w m : bool).
Notation n := (size_of m).
Notation rv s r := (xr s (reg_map w r)).
Lemma edx_2 : reg_map w (edx w) = 2. Proof. destruct w; reflexivity. Qed.
Lemma r0_0 : reg_map w R0 = 0. Proof. destruct w; reflexivity. Qed.
Lemma edx_reg : 1 <= edx w <= 16 /\ edx w <> R0. Proof. destruct w; split; try discriminate; split; discriminate. Qed.
Lemma r0_reg : 1 <= R0 <= 16. Proof. split; discriminate. Qed.
Lemma opr_reg : forall k, 1 <= opr w k <= 16. Proof. intros k. unfold opr. destruct (w && is_div k); split; discriminate. Qed.
Lemma isw_mod : forall v, isw (v mod 2 ^ n).
Proof. intros v. destruct (npow m) as (A & B). pose proof (Z.mod_pos_bound v (2 ^ n) ltac:(lia)) as C. unfold isw. assert (2 ^ n <= 2 ^ 64) by (destruct m; discriminate). lia. Qed.
Lemma n32 : (n <? 32) = false. Proof. destruct m; reflexivity. Qed.
Lemma set_edx : forall s v q, 1 <= q <= 16 -> q <> edx w -> xr (setr s 2 v) (reg_map w q) = rv s q.
Proof. intros s v q Q N. replace (setr s 2 v) with (setr s (reg_map w (edx w)) v) by (rewrite edx_2; reflexivity). apply setr_reg; auto. apply edx_reg. Qed.
Lemma set_r0 : forall s v q, 1 <= q <= 16 -> q <> R0 -> xr (setr s 0 v) (reg_map w q) = rv s q.
Proof. intros s v q Q N. replace (setr s 0 v) with (setr s (reg_map w R0) v) by (rewrite r0_0; reflexivity). apply setr_reg; auto. apply r0_reg. Qed.
(** Two registers written. *)
Lemma two_ok : forall s a b s2, xwf s -> s2 = setfl (setr (setr s 0 (a mod 2 ^ n)) 2 (b mod 2 ^ n)) None None None None ->
  only w [R0; edx w] s s2 /\ rv s2 R0 = a mod 2 ^ n /\ rv s2 (edx w) = b mod 2 ^ n /\ xwf s2.
Proof.
  intros s a b s2 W ->. destruct edx_reg as (E1 & E2). pose proof r0_reg as R. split; [split; [reflexivity|]|split; [|split]].
  - intros q Q N. simpl in N. cbn [xr setfl]. rewrite set_edx, set_r0 by (auto; intros ->; tauto). reflexivity.
  - change (xr (setr (setr s 0 (a mod 2 ^ n)) 2 (b mod 2 ^ n)) (reg_map w R0) = a mod 2 ^ n). rewrite set_edx by (auto; congruence). rewrite r0_0. apply setr_same.
  - change (xr (setr (setr s 0 (a mod 2 ^ n)) 2 (b mod 2 ^ n)) (reg_map w (edx w)) = b mod 2 ^ n). rewrite edx_2. apply setr_same.
  - apply xwf_setfl, xwf_setr, isw_mod. apply xwf_setr, isw_mod. exact W.
Qed.
Lemma wro_ok : forall s r v, wro n s (OR r) v = Some (setr s r (v mod 2 ^ n)).
Proof. intros s r v. cbn [wro]. rewrite n32. reflexivity. Qed.
Lemma mul_ok : forall k s, is_mul k = true -> xwf s ->
  let v := if is_signed k then sext n (rv s R0) * sext n (rv s R1) else (rv s R0 mod 2 ^ n) * (rv s R1 mod 2 ^ n) in
  does u (Some (f7_bytes w m k)) s (fun s' => only w [R0; edx w] s s' /\ rv s' R0 = v mod 2 ^ n /\ rv s' (edx w) = (v / 2 ^ n) mod 2 ^ n).
Proof.
  intros k s K W v. assert (OP : opr w k = R1) by (unfold opr; destruct k; try discriminate; destruct w; reflexivity).
  eexists. split; [reflexivity|]. eexists. split.
  - eapply runs_instr; [intros rest; rewrite dec_f7 by auto; rewrite K; reflexivity|discriminate|]. cbn [exec]. rewrite wro_ok. cbv iota. rewrite wro_ok. reflexivity.
  - match goal with |- context [setfl ?x None None None None] => destruct (two_ok s v (v / 2 ^ n) (setfl x None None None None) W) as (A & B & C & D) end.
    + cbn [rdo]. rewrite OP. rewrite !sext_modn.
      destruct (npow m). rewrite !Z.mod_mod by lia. unfold v. rewrite r0_0. reflexivity.
    + auto.
Qed.
Lemma div_ok : forall k s hi lo y q r, is_div k = true -> xwf s -> rv s R0 mod 2 ^ n = lo -> rv s (edx w) mod 2 ^ n = hi -> rv s (opr w k) mod 2 ^ n = y mod 2 ^ n ->
  (if is_signed k then let bad := (sext n y =? 0) || ((sext n y =? -1) && (sext n lo =? - 2 ^ (n - 1))) in
     hi = (if Z.testbit lo (n - 1) then 2 ^ n - 1 else 0) /\ bad = false /\ q = Z.quot (sext n lo) (sext n y) /\ r = Z.rem (sext n lo) (sext n y)
   else hi = 0 /\ y mod 2 ^ n <> 0 /\ q = lo / (y mod 2 ^ n) /\ r = lo mod (y mod 2 ^ n)) ->
  does u (Some (f7_bytes w m k)) s (fun s' => only w [R0; edx w] s s' /\ rv s' R0 = q mod 2 ^ n /\ rv s' (edx w) = r mod 2 ^ n).
Proof.
  intros k s hi lo y q r K W LO HI Y H. destruct (npow m) as (PA & PB).
  assert (NM : is_mul k = false) by (destruct k; try discriminate; reflexivity).
  assert (LR : 0 <= lo < 2 ^ n) by (subst lo; apply Z.mod_pos_bound; lia).
  destruct (two_ok s q r _ W eq_refl) as (A & B & C & D).
  eexists. split; [reflexivity|]. eexists. split; [|split; [split; [exact A|split; [exact B|exact C]]|exact D]].
  eapply runs_instr; [intros rest; rewrite dec_f7 by auto; rewrite NM; reflexivity|discriminate|]. cbn [exec rdo].
  rewrite Y. rewrite r0_0 in LO. rewrite edx_2 in HI. rewrite LO, HI. rewrite sext_modn. destruct (is_signed k).
  - destruct H as (H1 & H2 & H3 & H4). apply orb_false_iff in H2. destruct H2 as (H2 & H5). apply Z.eqb_neq in H2.
    assert (YN : y mod 2 ^ n <> 0). { intros E. apply H2. unfold sext. cbv zeta. rewrite E. replace (0 <? 2 ^ (n - 1)) with true; [reflexivity|]. symmetry. apply Z.ltb_lt. lia. }
    apply Z.eqb_neq in YN. rewrite YN. rewrite H1. rewrite cdq_val by exact LR. rewrite quot_in; [|apply sext_val|exact H2|].
    2: { intros (E1 & E2). rewrite E1, E2, !Z.eqb_refl in H5. discriminate. }
    rewrite wro_ok. cbv iota. rewrite wro_ok. rewrite H3, H4. reflexivity.
  - destruct H as (H1 & H2 & H3 & H4). pose proof (Z.mod_pos_bound y (2 ^ n) ltac:(lia)) as YB. rewrite H1. rewrite Z.mul_0_l, Z.add_0_l. destruct (Z.eqb_spec (y mod 2 ^ n) 0) as [E0|E0]; [congruence|].
    rewrite <- H3, <- H4. replace (2 ^ n <=? q) with false.
    + rewrite wro_ok. cbv iota. rewrite wro_ok. reflexivity.
    + symmetry. apply Z.leb_gt. subst q. apply Z.div_lt_upper_bound; nia.
Qed.

(** Before the division: the high half of the dividend, and on Windows the divisor is moved from edx. *)
Definition setup (k : op0k) : option (list Z) :=
  match k with
  | O_DIVMOD_UW | O_DIV_UW =>
    if w then emit_mov w m (AReg TMP_REG1) 0 (AReg R1) 0 +++ ins w m (fl 1) 0x33 (AReg R1) 0 (AReg R1) 0
    else ins w m (fl 1) 0x33 (AReg TMP_REG1) 0 (AReg TMP_REG1) 0
  | _ => (if w then emit_mov w m (AReg TMP_REG1) 0 (AReg R1) 0 else Some []) +++ Some (if negb m then [REX_W; 0x99] else [0x99])
  end.
Lemma xor_ok : forall r s, 1 <= r <= 16 -> xwf s -> does u (ins w m (fl 1) 0x33 (AReg r) 0 (AReg r) 0) s (fun s' => only w [r] s s' /\ rv s' r = 0).
Proof.
  intros r s R W. eapply does_conseq; [apply (alu_rm_ok u w m Xor r (AReg r) 0 s false); [discriminate|split; [exact R|discriminate]|apply sok_gop; [exact R|reflexivity]|exact W|discriminate]|].
  intros s' _ ((A & B & C) & _). split; [split; [exact B|exact C]|]. rewrite A. cbn [xval]. unfold alu_val. cbn. rewrite Z.lxor_nilpotent. apply Z.mod_0_l. destruct (npow m); lia.
Qed.
Lemma cdq_ok : forall s, xwf s -> does u (Some (if negb m then [REX_W; 0x99] else [0x99])) s (fun s' =>
  only w [edx w] s s' /\ rv s' (edx w) = if Z.testbit (rv s R0 mod 2 ^ n) (n - 1) then 2 ^ n - 1 else 0).
Proof.
  intros s W. destruct (npow m) as (PA & PB).
  eexists. split; [reflexivity|]. eexists. split; [eapply runs_instr; [apply dec_cdq|discriminate|]; cbn [exec]; rewrite wro_ok; reflexivity|].
  assert (V : forall b : bool, (if b then 2 ^ n - 1 else 0) mod 2 ^ n = if b then 2 ^ n - 1 else 0) by (intros []; apply Z.mod_small; lia).
  rewrite V. cbn [rdo]. rewrite r0_0. split; [split; [split; [reflexivity|]|]|].
  - intros q Q N. simpl in N. apply set_edx; [exact Q|]. intros ->. tauto.
  - rewrite edx_2. apply setr_same.
  - apply xwf_setr; [exact W|]. rewrite <- V. apply isw_mod.
Qed.
Lemma mov1_ok : forall a b s, 1 <= a <= 16 -> 1 <= b <= 16 -> xwf s -> does u (emit_mov w m (AReg a) 0 (AReg b) 0) s (fun s' => only w [a] s s' /\ rv s' a = rv s b mod 2 ^ n).
Proof.
  intros a b s A B W. eapply does_conseq; [apply (movr_ok u w m a (AReg b) 0 s); [exact A|exact B|exact W]|].
  intros s' _ (O & V & _). split; [exact O|exact V].
Qed.
Lemma setup_ok : forall k s, is_div k = true -> xwf s -> does u (setup k) s (fun s' =>
  only w (edx w :: TMPS) s s' /\ rv s' (opr w k) mod 2 ^ n = rv s R1 mod 2 ^ n /\ (w = false -> rv s' R1 = rv s R1) /\
  rv s' (edx w) = if is_signed k then (if Z.testbit (rv s R0 mod 2 ^ n) (n - 1) then 2 ^ n - 1 else 0) else 0).
Proof.
  intros k s K W. unfold setup. destruct (npow m) as (PA & PB).
  assert (M1 : w = true -> forall c (Q : xst -> Prop), (forall s1, xwf s1 -> only w [TMP_REG1] s s1 -> rv s1 TMP_REG1 = rv s R1 mod 2 ^ n -> does u c s1 Q) -> does u (emit_mov w m (AReg TMP_REG1) 0 (AReg R1) 0 +++ c) s Q).
  { intros _ c Q H. eapply does_seq; [apply mov1_ok; [split; discriminate|split; discriminate|exact W]|]. intros s1 W1 (A & B). apply H; auto. }
  assert (ED : forall s1 s2, w = true -> only w [TMP_REG1] s s1 -> rv s1 TMP_REG1 = rv s R1 mod 2 ^ n -> only w [edx w] s1 s2 ->
     only w (edx w :: TMPS) s s2 /\ rv s2 TMP_REG1 mod 2 ^ n = rv s R1 mod 2 ^ n /\ rv s1 R0 = rv s R0).
  { intros s1 s2 E O1 V1 O2. split; [|split].
    - eapply X86Op1.only_trans; [exact O1|exact O2| |]; intros x [X|[]]; subst; simpl; auto.
    - rewrite (proj2 O2); [|split; discriminate|unfold edx; rewrite E; intros [X|[]]; discriminate]. rewrite V1. apply Z.mod_mod. lia.
    - apply (proj2 O1); [split; discriminate|]. intros [X|[]]; discriminate. }
  assert (SV : forall s2, w = false -> only w [edx w] s s2 -> only w (edx w :: TMPS) s s2 /\ rv s2 R1 = rv s R1).
  { intros s2 E O. split; [eapply only_weaken; [exact O|]; intros x [X|[]]; left; exact X|]. apply (proj2 O); [split; discriminate|]. unfold edx. rewrite E. intros [X|[]]; discriminate. }
  assert (OW : forall e, w = e -> opr w k = if e then TMP_REG1 else R1) by (intros e ->; unfold opr; rewrite K; destruct e; reflexivity).
  assert (EW : forall e, w = e -> edx w = if e then R1 else TMP_REG1) by (intros e ->; reflexivity).
  destruct (Bool.bool_dec w true) as [E|E].
  - specialize (OW _ E). specialize (EW _ E). cbv iota in OW, EW.
    assert (XX : does u (emit_mov w m (AReg TMP_REG1) 0 (AReg R1) 0 +++ ins w m (fl 1) 0x33 (AReg R1) 0 (AReg R1) 0) s (fun s' => only w (edx w :: TMPS) s s' /\ rv s' (opr w k) mod 2 ^ n = rv s R1 mod 2 ^ n /\ rv s' (edx w) = 0)).
    { apply M1; [exact E|]. intros s1 W1 O1 V1. eapply does_conseq; [apply xor_ok; [split; discriminate|exact W1]|]. intros s2 _ (O2 & V2). rewrite <- EW in O2, V2.
      destruct (ED s1 s2 E O1 V1 O2) as (A & B & _). rewrite OW. auto. }
    assert (CC : does u (emit_mov w m (AReg TMP_REG1) 0 (AReg R1) 0 +++ Some (if negb m then [REX_W; 0x99] else [0x99])) s (fun s' => only w (edx w :: TMPS) s s' /\ rv s' (opr w k) mod 2 ^ n = rv s R1 mod 2 ^ n /\ rv s' (edx w) = if Z.testbit (rv s R0 mod 2 ^ n) (n - 1) then 2 ^ n - 1 else 0)).
    { apply M1; [exact E|]. intros s1 W1 O1 V1. eapply does_conseq; [apply cdq_ok; exact W1|]. intros s2 _ (O2 & V2).
      destruct (ED s1 s2 E O1 V1 O2) as (A & B & C). rewrite OW. rewrite C in V2. auto. }
    assert (NE : w <> false) by (rewrite E; discriminate).
    destruct k; try discriminate; rewrite E at 1; cbv iota; (eapply does_conseq; [first [exact XX|exact CC]|]); intros s' _ (A & B & C); (split; [exact A|split; [exact B|split; [intros X; contradiction|exact C]]]).
  - apply not_true_is_false in E. specialize (OW _ E). specialize (EW _ E). cbv iota in OW, EW.
    assert (XX : does u (ins w m (fl 1) 0x33 (AReg TMP_REG1) 0 (AReg TMP_REG1) 0) s (fun s' => only w (edx w :: TMPS) s s' /\ rv s' R1 = rv s R1 /\ rv s' (edx w) = 0)).
    { eapply does_conseq; [apply xor_ok; [split; discriminate|exact W]|]. intros s2 _ (O2 & V2). rewrite <- EW in O2, V2. destruct (SV s2 E O2). auto. }
    assert (CC : does u (Some [] +++ Some (if negb m then [REX_W; 0x99] else [0x99])) s (fun s' => only w (edx w :: TMPS) s s' /\ rv s' R1 = rv s R1 /\ rv s' (edx w) = if Z.testbit (rv s R0 mod 2 ^ n) (n - 1) then 2 ^ n - 1 else 0)).
    { rewrite cat_nil. eapply does_conseq; [apply cdq_ok; exact W|]. intros s2 _ (O2 & V2). destruct (SV s2 E O2). auto. }
    destruct k; try discriminate; rewrite E at 1; cbv iota; (eapply does_conseq; [first [exact XX|exact CC]|]); intros s' _ (A & B & C); (split; [exact A|split; [rewrite OW, B; reflexivity|split; [intros _; exact B|exact C]]]).
Qed.

(** What an operation without operands leaves in R0 and R1. *)
Definition op0_post (k : op0k) (s : xst) (q r : Z) (s' : xst) : Prop :=
  only w (R0 :: R1 :: TMPS) s s' /\ rv s' R0 mod 2 ^ n = q mod 2 ^ n /\ rv s' R1 mod 2 ^ n = r mod 2 ^ n /\ rv s' R0 < 2 ^ n /\
  (keeps k = false -> rv s' R1 < 2 ^ n) /\ (keeps k = true -> w && m = false -> rv s' R1 = rv s R1).
Lemma canon_n : forall x, canon n x mod 2 ^ n = x mod 2 ^ n.
Proof.
  intros x. unfold canon, wrap. destruct (npow m) as (PA & PB).
  assert (D : exists c, 2 ^ 64 = c * 2 ^ n) by (destruct m; [exists (2 ^ 32)|exists 1]; reflexivity). destruct D as (c & D).
  rewrite D. rewrite <- (Zmod_div_mod (2 ^ n) (c * 2 ^ n)); [|lia|rewrite <- D; reflexivity|exists c; reflexivity].
  unfold sext. cbv zeta. destruct (x mod 2 ^ n <? 2 ^ (n - 1)); [apply Z.mod_mod; lia|].
  replace (x mod 2 ^ n - 2 ^ n) with (x mod 2 ^ n + (-1) * 2 ^ n) by lia. rewrite Z.mod_add by lia. apply Z.mod_mod. lia.
Qed.
Lemma incl_all : incl (edx w :: TMPS) (R0 :: R1 :: TMPS) /\ incl [R0; edx w] (R0 :: R1 :: TMPS).
Proof. unfold edx. split; intros x; destruct w; simpl; unfold R0, R1, TMP_REG1; lia. Qed.
(** Moving the high word of the product or the remainder to R1. *)
Lemma final_ok : forall s0 k s q r, w = false -> keeps k = false -> xwf s -> only w (R0 :: R1 :: TMPS) s0 s -> rv s R0 = q mod 2 ^ n -> rv s (edx w) = r mod 2 ^ n ->
  does u (emit_mov w m (AReg R1) 0 (AReg TMP_REG1) 0) s (fun s' => op0_post k s0 q r s').
Proof.
  intros s0 k s q r E K W O Q R. destruct (npow m) as (PA & PB). eapply does_conseq; [apply mov1_ok; [split; discriminate|split; discriminate|exact W]|]. intros s' _ (O1 & V1).
  assert (EE : edx w = TMP_REG1) by (unfold edx; rewrite E; reflexivity). rewrite EE in R. rewrite R, Z.mod_mod in V1 by lia.
  assert (V0 : rv s' R0 = q mod 2 ^ n) by (rewrite (proj2 O1); [exact Q|split; discriminate|intros [X|[]]; discriminate]).
  unfold op0_post. rewrite V0, V1, !Z.mod_mod by lia. split; [|split; [reflexivity|split; [reflexivity|split; [apply Z.mod_pos_bound; lia|split; [intros _; apply Z.mod_pos_bound; lia|congruence]]]]].
  eapply X86Op1.only_trans; [exact O|exact O1|intros x X; exact X|]. intros x [X|[]]. right. left. exact X.
Qed.
Lemma op0_ok : forall k s q r, (is_mul k = true /\ m = false) \/ is_div k = true -> xwf s -> res0 k n (rv s R0) (rv s R1) = Some (q, r) ->
  does u (emit_op0 w k m) s (fun s' => op0_post k s q r s').
Proof.
  intros k s q r K W H. destruct (npow m) as (PA & PB). destruct incl_all as (IN1 & IN2).
  assert (OK : forall s' q' r', w = true -> keeps k = false -> only w (R0 :: R1 :: TMPS) s s' -> rv s' R0 = q' mod 2 ^ n -> rv s' (edx w) = r' mod 2 ^ n -> q' mod 2 ^ n = q mod 2 ^ n -> r' mod 2 ^ n = r mod 2 ^ n -> op0_post k s q r s').
  { intros s' q' r' E KK O Q R Q' R'. assert (EE : edx w = R1) by (unfold edx; rewrite E; reflexivity). rewrite EE in R. unfold op0_post. rewrite Q, R, Q', R', !Z.mod_mod by lia.
    split; [exact O|split; [reflexivity|split; [reflexivity|split; [apply Z.mod_pos_bound; lia|split; [intros _; apply Z.mod_pos_bound; lia|congruence]]]]]. }
  destruct K as [(K & M)|K].
  - assert (KP : keeps k = false) by (destruct k; try discriminate; reflexivity). assert (EM : emit_op0 w k m = Some [] +++ (Some (f7_bytes w m k) +++ (if w then Some [] else emit_mov w m (AReg R1) 0 (AReg TMP_REG1) 0))) by (destruct k; try discriminate; reflexivity).
    rewrite EM, cat_nil. eapply does_seq; [apply mul_ok; [exact K|exact W]|]. intros s1 W1 (O1 & Q1 & R1').
    assert (N64 : n = 64) by (rewrite M; reflexivity).
    set (v := if is_signed k then sext n (rv s R0) * sext n (rv s R1) else (rv s R0 mod 2 ^ n) * (rv s R1 mod 2 ^ n)) in *.
    assert (B0 : rv s R0 mod 2 ^ 64 = rv s R0) by (apply Z.mod_small; apply W). assert (B1 : rv s R1 mod 2 ^ 64 = rv s R1) by (apply Z.mod_small; apply W).
    assert (QV : v mod 2 ^ n = q mod 2 ^ n /\ (v / 2 ^ n) mod 2 ^ n = r mod 2 ^ n).
    { unfold v. clear v Q1 R1'. rewrite N64 in *. destruct k; try discriminate; cbn [is_signed]; cbn [res0] in H; injection H as <- <-.
      - rewrite B0, B1. change (Z.pow_pos 2 64) with (2 ^ 64). rewrite !Z.mod_mod by lia. split; reflexivity.
      - change (Z.pow_pos 2 64) with (2 ^ 64). rewrite !Z.mod_mod by lia. split; reflexivity. }
    destruct QV as (QV & RV). pose proof (only_weaken _ _ _ _ _ O1 IN2) as O1'. destruct (Bool.bool_dec w true) as [E|E].
    + rewrite E at 1. apply does_nil; [exact W1|]. eapply OK; eauto.
    + apply not_true_is_false in E. rewrite E at 1. apply final_ok; auto; congruence.
  - assert (EM : emit_op0 w k m = setup k +++ (Some (f7_bytes w m k) +++ (if w then (if keeps k then emit_mov w m (AReg R1) 0 (AReg TMP_REG1) 0 else Some []) else (if keeps k then Some [] else emit_mov w m (AReg R1) 0 (AReg TMP_REG1) 0)))) by (destruct k; try discriminate; reflexivity).
    rewrite EM. eapply does_seq; [apply setup_ok; [exact K|exact W]|]. intros s1 W1 (O1 & Y1 & Z1 & E1).
    assert (X0 : rv s1 R0 = rv s R0). { apply (proj2 O1); [split; discriminate|]. unfold edx. destruct w; simpl; unfold R0, R1, TMP_REG1; lia. }
    assert (RES : exists q' r', (if is_signed k then let bad := (sext n (rv s R1) =? 0) || ((sext n (rv s R1) =? -1) && (sext n (rv s R0 mod 2 ^ n) =? - 2 ^ (n - 1))) in
       rv s1 (edx w) mod 2 ^ n = (if Z.testbit (rv s R0 mod 2 ^ n) (n - 1) then 2 ^ n - 1 else 0) /\ bad = false /\ q' = Z.quot (sext n (rv s R0 mod 2 ^ n)) (sext n (rv s R1)) /\ r' = Z.rem (sext n (rv s R0 mod 2 ^ n)) (sext n (rv s R1))
       else rv s1 (edx w) mod 2 ^ n = 0 /\ rv s R1 mod 2 ^ n <> 0 /\ q' = (rv s R0 mod 2 ^ n) / (rv s R1 mod 2 ^ n) /\ r' = (rv s R0 mod 2 ^ n) mod (rv s R1 mod 2 ^ n))
       /\ q' mod 2 ^ n = q mod 2 ^ n /\ if keeps k then r = rv s R1 else r' mod 2 ^ n = r mod 2 ^ n).
    { rewrite sext_modn. assert (ME : forall b : bool, (if b then 2 ^ n - 1 else 0) mod 2 ^ n = if b then 2 ^ n - 1 else 0) by (intros []; apply Z.mod_small; lia).
      rewrite E1. destruct k; try discriminate; cbn [is_signed keeps] in *; cbn [res0] in H; cbv zeta in H;
        match type of H with (if ?c then _ else _) = _ => destruct c eqn:BAD; [discriminate|] end; injection H as <- <-; do 2 eexists;
        (split; [split; [|split; [|split; reflexivity]]|split; [|]]). all: first [reflexivity|apply ME|apply Z.mod_0_l; lia|apply Z.eqb_neq; exact BAD|rewrite canon_n; reflexivity]. }
    destruct RES as (q' & r' & RES & QE & RE).
    eapply does_seq; [apply (div_ok k s1 (rv s1 (edx w) mod 2 ^ n) (rv s R0 mod 2 ^ n) (rv s R1) q' r'); [exact K|exact W1|rewrite X0; reflexivity|reflexivity|exact Y1|exact RES]|].
    intros s2 W2 (O2 & Q2 & R2). pose proof (X86Op1.only_trans _ _ _ _ _ _ _ O1 O2 IN1 IN2) as O3.
    destruct (Bool.bool_dec w true) as [E|E].
    + rewrite E at 1. destruct (keeps k) eqn:KP.
      * assert (OP : opr w k = TMP_REG1) by (unfold opr; rewrite E, K; reflexivity). rewrite OP in Y1.
        eapply does_conseq; [apply mov1_ok; [split; discriminate|split; discriminate|exact W2]|]. intros s' _ (O4 & V4).
        rewrite (proj2 O2 TMP_REG1) in V4; [|split; discriminate|unfold edx; rewrite E; simpl; unfold R0, R1, TMP_REG1; lia]. rewrite Y1 in V4.
        assert (V0 : rv s' R0 = q mod 2 ^ n) by (rewrite (proj2 O4); [congruence|split; discriminate|intros [X|[]]; discriminate]).
        unfold op0_post. rewrite V0, V4, RE, !Z.mod_mod by lia. rewrite KP. split; [|split; [reflexivity|split; [reflexivity|split; [apply Z.mod_pos_bound; lia|split; [discriminate|]]]]].
        { eapply X86Op1.only_trans; [exact O3|exact O4|intros x X; exact X|]. intros x [X|[]]. right. left. exact X. }
        intros _ M. rewrite E in M. cbn in M. apply Z.mod_small. rewrite M. apply W.
      * apply does_nil; [exact W2|]. eapply OK; eauto.
    + apply not_true_is_false in E. rewrite E at 1. destruct (keeps k) eqn:KP.
      * apply does_nil; [exact W2|]. assert (V1 : rv s2 R1 = rv s R1). { rewrite (proj2 O2); [auto|split; discriminate|unfold edx; rewrite E; simpl; unfold R0, R1, TMP_REG1; lia]. }
        unfold op0_post. rewrite Q2, V1, RE, QE, !Z.mod_mod by lia. rewrite KP. split; [exact O3|split; [reflexivity|split; [reflexivity|split; [apply Z.mod_pos_bound; lia|split; [discriminate|reflexivity]]]]].
      * apply final_ok; auto; congruence.
Qed.
End U.
