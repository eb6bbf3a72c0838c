(** ARM64: loads and stores reach the address of the operand. *)
Require Import ZArith List Bool Lia Zify ZifyBool.
From Verif Require Import Rv.RvLib Rv.RvBits Imm.ImmLib Imm.MsProofs Imm.PpProofs Arm.ArmIsa Arm.ArmBr Arm.ArmEnc Arm.ArmBits Arm.ArmImm Arm.ArmImmProofs Arm.ArmLogImm Arm.ArmLoadImm
  Arm.ArmJump Arm.ArmJumpSpec Arm.ArmJumpProofs Arm.ArmCondProofs Arm.ArmOp Arm.ArmOpSpec Arm.ArmOpDec Arm.ArmOpProofs Arm.ArmOpImm Arm.ArmOp1 Arm.ArmMem Arm.ArmMemSpec.
Import ListNotations.
Open Scope Z_scope.
Ltac Zify.zify_post_hook ::= idtac.

(** ** Decoding *)
Definition opc_of (sg store : bool) : Z := if store then 0 else if sg then 2 else 1.
Lemma size_cases sh : 0 <= sh <= 3 -> sh = 0 \/ sh = 1 \/ sh = 2 \/ sh = 3.
Proof. lia. Qed.
Lemma opc_b sg store : 0 <= opc_of sg store < 4.
Proof. destruct sg, store; cbn; lia. Qed.
Lemma mem_type_eq sh sg store : mem_type sh sg store = (Z.shiftl sh 30 .| Z.shiftl (opc_of sg store) 22).
Proof. unfold mem_type. f_equal. destruct sg, store; reflexivity. Qed.
(** The class of loads and stores. *)
Lemma decode_ls w k : fld w 24 6 = k -> k = 56 \/ k = 57 ->
  decode w = (let rd := fld w 0 5 in let rn := fld w 5 5 in let rm := fld w 16 5 in
    if k =? 57 then Some (ILdI (fld w 30 2) (fld w 22 2) (fld w 10 12) rn rd)
    else if bit w 21 then if fld w 10 2 =? 2 then Some (ILdR (fld w 30 2) (fld w 22 2) rm (fld w 13 3) (fld w 12 1) rn rd) else None
    else if fld w 10 2 =? 0 then Some (ILdU (fld w 30 2) (fld w 22 2) (fld w 12 9) rn rd) else None).
Proof.
  intros E K.
  assert (U : exists u, (fld w 24 6 = (u / 8) mod 64) /\ (fld w 26 3 = (u / 32) mod 8) /\ (fld w 24 5 = (u / 8) mod 32) /\ fld w 21 8 = u mod 256).
  { exists (w / 2 ^ 21). rewrite !fld_div by lia. change 8 with (2 ^ 3) at 1 4. change 32 with (2 ^ 5) at 1. rewrite !Z.div_div by lia. auto. }
  destruct U as (u & U1 & U2 & U3 & U4). unfold decode. cbv zeta. rewrite E in *.
  replace (fld w 26 3 =? 4) with false by (Z.to_euclidean_division_equations; lia). replace (fld w 24 5 =? 10) with false by (Z.to_euclidean_division_equations; lia).
  replace (fld w 24 5 =? 11) with false by (Z.to_euclidean_division_equations; lia). replace (fld w 21 8 =? 208) with false by (Z.to_euclidean_division_equations; lia).
  replace (fld w 21 8 =? 212) with false by (Z.to_euclidean_division_equations; lia). replace (fld w 21 8 =? 214) with false by (Z.to_euclidean_division_equations; lia).
  replace (fld w 24 5 =? 27) with false by (Z.to_euclidean_division_equations; lia). destruct K as [-> | ->]; reflexivity.
Qed.
Ltac mwords := rewrite mem_type_eq; unfold RT, RD, RN, RM; regs;
  repeat match goal with |- context [opc_of ?a ?b] => let x := fresh "o" in let H := fresh "O" in pose proof (opc_b a b) as H; set (x := opc_of a b) in *; clearbody x end.
Ltac fl1 := match goal with |- context [fld ?w ?l ?n] => let H := fresh in let v := fresh "v" in eassert (H : fld w l n = _) by (repeat fld1; lor0; rewrite ?Z.sub_diag, ?Z.shiftl_0_r; reflexivity); rewrite H; clear H end.
Ltac ls k := rewrite (decode_ls _ k) by (solve [flds] || auto); cbv zeta; rewrite ?bit_fld by lia; repeat fl1; reflexivity.
Lemma dec_ldi sh sg store reg b imm : 0 <= sh < 4 -> 0 <= imm < 4096 ->
  decode (STRBI .| mem_type sh sg store .| RT reg .| RN b .| Z.shiftl imm 10) = Some (ILdI sh (opc_of sg store) imm (reg_map b) (reg_map reg)).
Proof. intros H I. mwords. ls 57. Qed.
Lemma dec_ldi0 sh sg store reg b : 0 <= sh < 4 -> decode (STRBI .| mem_type sh sg store .| RT reg .| RN b) = Some (ILdI sh (opc_of sg store) 0 (reg_map b) (reg_map reg)).
Proof. intros H. mwords. ls 57. Qed.
Lemma dec_ldu sh sg store reg b imm : 0 <= sh < 4 -> 0 <= imm < 512 ->
  decode (STURBI .| mem_type sh sg store .| RT reg .| RN b .| Z.shiftl imm 12) = Some (ILdU sh (opc_of sg store) imm (reg_map b) (reg_map reg)).
Proof. intros H I. mwords. ls 56. Qed.
Lemma dec_ldr sh sg store reg b o : 0 <= sh < 4 -> decode (STRB .| mem_type sh sg store .| RT reg .| RN b .| RM o) = Some (ILdR sh (opc_of sg store) (reg_map o) 3 0 (reg_map b) (reg_map reg)).
Proof. intros H. mwords. ls 56. Qed.
Lemma dec_ldrs sh sg store reg b o : 0 <= sh < 4 -> decode (STRB .| mem_type sh sg store .| RT reg .| RN b .| RM o .| Z.shiftl 1 12) = Some (ILdR sh (opc_of sg store) (reg_map o) 3 1 (reg_map b) (reg_map reg)).
Proof. intros H. mwords. ls 56. Qed.
Lemma dec_adds d a b k : 0 <= k < 4 -> decode (ADD .| RD d .| RN a .| RM b .| Z.shiftl k 10) = Some (IAddR true false false 0 (reg_map b) k (reg_map a) (reg_map d)).
Proof. intros K. words. dec. Qed.
Lemma dec_add22 (sub : bool) d a imm : 0 <= imm < 4096 -> decode ((if sub then SUBI else ADDI) .| Z.shiftl 1 22 .| RD d .| RN a .| Z.shiftl imm 10) = Some (IAddI true sub false 1 imm (reg_map a) (reg_map d)).
Proof. intros K. words. destruct sub; dec. Qed.

(** ** Bytes *)
Lemma value_S m a n : value m a (S n) = m (a mod 2 ^ 64) + 256 * value m (a + 1) n.
Proof.
  induction n as [|n IH]; [cbn [value Z.of_nat]; rewrite Z.add_0_r; change (2 ^ (8 * 0)) with 1; ring|].
  change (value m a (S (S n))) with (value m a (S n) + m ((a + Z.of_nat (S n)) mod 2 ^ 64) * 2 ^ (8 * Z.of_nat (S n))). rewrite IH. cbn [value].
  replace (a + 1 + Z.of_nat n) with (a + Z.of_nat (S n)) by lia. replace (8 * Z.of_nat (S n)) with (8 * Z.of_nat n + 8) by lia. rewrite Z.pow_add_r by lia. change (2 ^ 8) with 256. ring.
Qed.
Lemma le_value m : forall n a, le_bytes n m a = value m a n.
Proof. induction n as [|n IH]; intros a; [reflexivity|]. rewrite value_S. cbn [le_bytes]. rewrite IH. reflexivity. Qed.
Lemma add_cong a b i : a mod 2 ^ 64 = b mod 2 ^ 64 -> (a + i) mod 2 ^ 64 = (b + i) mod 2 ^ 64.
Proof. intros E. rewrite <- (Z.add_mod_idemp_l a), <- (Z.add_mod_idemp_l b), E by lia. reflexivity. Qed.
Lemma value_cong m a b n : a mod 2 ^ 64 = b mod 2 ^ 64 -> value m a n = value m b n.
Proof. intros E. induction n as [|n IH]; cbn [value]; [reflexivity|]. rewrite IH, (add_cong a b _ E). reflexivity. Qed.
Lemma value_b m a n : byte_mem m -> 0 <= value m a n < 2 ^ (8 * Z.of_nat n).
Proof.
  intros B. induction n as [|n IH]; cbn [value]; [cbn; lia|]. specialize (B ((a + Z.of_nat n) mod 2 ^ 64)). replace (8 * Z.of_nat (S n)) with (8 * Z.of_nat n + 8) by lia.
  rewrite Z.pow_add_r by lia. change (2 ^ 8) with 256. pose proof (pow_pos (8 * Z.of_nat n) ltac:(lia)) as P. nia.
Qed.
Lemma stored_cong m m' a b n v w : a mod 2 ^ 64 = b mod 2 ^ 64 -> (forall i, 0 <= i < n -> byte v i = byte w i) -> stored m m' a n v -> stored m m' b n w.
Proof.
  intros E V (A & B). split.
  - intros i I. rewrite <- (add_cong a b i E), A by exact I. apply V. exact I.
  - intros x X. apply B. intros i I. rewrite (add_cong a b i E). apply X. exact I.
Qed.
Lemma byte_S v i : 0 <= i -> byte v (i + 1) = byte (v / 256) i.
Proof. intros I. unfold byte. replace (8 * (i + 1)) with (8 + 8 * i) by lia. rewrite Z.pow_add_r by lia. rewrite <- Z.div_div by (try lia; apply pow_pos; lia). reflexivity. Qed.
Lemma st_stored : forall n m a v, (n <= 8)%nat -> stored m (st_bytes n m a v) a (Z.of_nat n) v.
Proof.
  induction n as [|n IH]; intros m a v N; [split; [intros i I; lia|reflexivity]|]. cbn [st_bytes]. destruct (IH (upd m (wrap a) (v mod 256)) (a + 1) (v / 256) ltac:(lia)) as (A & B). split.
  - intros i I. destruct (Z.eq_dec i 0) as [-> | NZ].
    + rewrite Z.add_0_r. rewrite B.
      * unfold upd, wrap. rewrite Z.eqb_refl. unfold byte. change (8 * 0) with 0. rewrite Z.pow_0_r, Z.div_1_r. reflexivity.
      * intros j J E. assert (Q := Z.div_mod a (2 ^ 64) ltac:(lia)). assert (Q' := Z.div_mod (a + 1 + j) (2 ^ 64) ltac:(lia)). rewrite E in Q. lia.
    + specialize (A (i - 1) ltac:(lia)). replace (a + 1 + (i - 1)) with (a + i) in A by lia. rewrite A. rewrite <- byte_S by lia. f_equal. lia.
  - intros x X. rewrite B.
    + unfold upd. destruct (x =? wrap a) eqn:E; [|reflexivity]. exfalso. apply (X 0 ltac:(lia)). rewrite Z.add_0_r. unfold wrap in E. lia.
    + intros i I. replace (a + 1 + i) with (a + (i + 1)) by lia. apply X. lia.
Qed.

(** ** One access *)
Definition acc (sh : Z) (sg store : bool) (reg a : Z) (s s' : st) : Prop :=
  same_flags s s' /\ (forall k, (store = false -> k <> reg_map reg) -> xr s' k = xr s k) /\
  if store then stored (mm s) (mm s') a (2 ^ sh) (xr s (reg_map reg))
  else mm s' = mm s /\ xr s' (reg_map reg) = let v := value (mm s) a (Z.to_nat (2 ^ sh)) in if sg then sext (8 * 2 ^ sh) v mod 2 ^ 64 else v.
Lemma ldst_ok sh sg store reg a s : 0 <= sh <= 3 -> (sg = true -> sh <= 2) -> reg_map reg <> 31 -> exists s', ldst s sh (opc_of sg store) a (reg_map reg) = Some s' /\ acc sh sg store reg a s s'.
Proof.
  intros H G R. unfold ldst. cbv zeta. assert (N : (Z.to_nat (2 ^ sh) <= 8)%nat) by (destruct (size_cases sh H) as [-> | [-> | [-> | ->]]]; vm_compute; lia).
  assert (N2 : Z.of_nat (Z.to_nat (2 ^ sh)) = 2 ^ sh) by (apply Z2Nat.id; apply Z.lt_le_incl, pow_pos; lia). rewrite le_value. destruct store; cbn [opc_of].
  - cbn [Z.eqb]. eexists. split; [reflexivity|]. split; [unfold same_flags; cbn; auto|]. split; [reflexivity|]. cbn [mm wMem]. rewrite rX_xr by exact R. rewrite <- N2 at 2. apply st_stored. exact N.
  - destruct sg; cbn [Z.eqb Pos.eqb].
    + replace (sh <=? 2) with true by (specialize (G eq_refl); lia). eexists. split; [reflexivity|]. split; [apply flags_wX|]. split; [intros k K; apply xr_wX_ne; apply K; reflexivity|].
      split; [apply mm_wX|]. rewrite xr_wX_eq by exact R. reflexivity.
    + eexists. split; [reflexivity|]. split; [apply flags_wX|]. split; [intros k K; apply xr_wX_ne; apply K; reflexivity|]. split; [apply mm_wX|]. rewrite xr_wX_eq by exact R. reflexivity.
Qed.
Definition legal_reg (reg : Z) : Prop := 1 <= reg <= 26 \/ reg = TMP_REG1 \/ reg = TMP_REG2 \/ reg = TMP_LR.
Lemma legal_31 reg : legal_reg reg -> reg_map reg <> 31.
Proof. intros [H | [-> | [-> | ->]]]; [apply (reg_ok reg H)|discriminate|discriminate|discriminate]. Qed.
Definition legal_tmp (tmp : Z) : Prop := tmp = TMP_REG1 \/ tmp = TMP_REG2.
Lemma tmp_31 tmp : legal_tmp tmp -> reg_map tmp <> 31.
Proof. intros [-> | ->]; discriminate. Qed.
Lemma reg_ne reg tmp : legal_reg reg -> legal_tmp tmp -> reg <> tmp -> reg_map reg <> reg_map tmp.
Proof. intros [H | [-> | [-> | ->]]] [-> | ->] N; try (exfalso; apply N; reflexivity); try discriminate; destruct (reg_ok reg H) as (_ & A & B & _); assumption. Qed.

(** The access is the whole operation; the access comes after the address is in a temporary register. *)
Lemma did_acc sh sg store reg m tmp a s s' : a mod 2 ^ 64 = addr s m mod 2 ^ 64 -> acc sh sg store reg a s s' -> did_mem sh sg store reg m tmp s s'.
Proof.
  intros E (F & K & V). split; [exact F|]. split; [intros k _; apply K|]. destruct store.
  - apply (stored_cong _ _ a _ _ (xr s (reg_map reg))); [exact E|reflexivity|exact V].
  - rewrite <- (value_cong (mm s) a _ _ E). exact V.
Qed.
Lemma did_acc2 sh sg store reg m tmp v a s s1 s' : (store = true -> reg_map reg <> reg_map tmp) -> only s s1 (reg_map tmp) v -> a mod 2 ^ 64 = addr s m mod 2 ^ 64 -> acc sh sg store reg a s1 s' ->
  did_mem sh sg store reg m tmp s s'.
Proof.
  intros N (_ & O & F1 & F2 & F3 & F4 & M) E ((G1 & G2 & G3 & G4) & K & V). split; [unfold same_flags; repeat split; congruence|]. split; [intros k K1 K2; rewrite K by exact K2; apply O; exact K1|].
  rewrite M in V. destruct store.
  - rewrite (O (reg_map reg) (N eq_refl)) in V. apply (stored_cong _ _ a _ _ (xr s (reg_map reg))); [exact E|reflexivity|exact V].
  - rewrite <- (value_cong (mm s) a _ _ E). exact V.
Qed.

(** ** The words *)
Section WORDS.
Variables (sh : Z) (sg store : bool) (reg : Z).
Hypothesis SH : 0 <= sh <= 3.
Hypothesis SG : sg = true -> sh <= 2.
Hypothesis R31 : reg_map reg <> 31.
Lemma ldi_word b imm s : 0 <= imm < 4096 -> exists s', run [STRBI .| mem_type sh sg store .| RT reg .| RN b .| Z.shiftl imm 10] s = Some s' /\ acc sh sg store reg (xr s (reg_map b) + imm * 2 ^ sh) s s'.
Proof. intros I. destruct (ldst_ok sh sg store reg (xr s (reg_map b) + imm * 2 ^ sh) s SH SG R31) as (s' & E & A). exists s'. split; [|exact A]. eapply run1; [apply dec_ldi; lia|]. exact E. Qed.
Lemma ldi0_word b s : exists s', run [STRBI .| mem_type sh sg store .| RT reg .| RN b] s = Some s' /\ acc sh sg store reg (xr s (reg_map b)) s s'.
Proof. destruct (ldst_ok sh sg store reg (xr s (reg_map b)) s SH SG R31) as (s' & E & A). exists s'. split; [|exact A]. eapply run1; [apply dec_ldi0; lia|]. cbn [exec]. rewrite Z.mul_0_l, Z.add_0_r. exact E. Qed.
Lemma ldu_word b imm s : 0 <= imm < 512 -> exists s', run [STURBI .| mem_type sh sg store .| RT reg .| RN b .| Z.shiftl imm 12] s = Some s' /\ acc sh sg store reg (xr s (reg_map b) + sext 9 imm) s s'.
Proof. intros I. destruct (ldst_ok sh sg store reg (xr s (reg_map b) + sext 9 imm) s SH SG R31) as (s' & E & A). exists s'. split; [|exact A]. eapply run1; [apply dec_ldu; lia|]. exact E. Qed.
Lemma ldr_word (sc : bool) b o s : exists s', run [STRB .| mem_type sh sg store .| RT reg .| RN b .| RM o .| (if sc then Z.shiftl 1 12 else 0)] s = Some s' /\
  acc sh sg store reg (xr s (reg_map b) + rX s (reg_map o) * 2 ^ (if sc then sh else 0)) s s'.
Proof.
  destruct (ldst_ok sh sg store reg (xr s (reg_map b) + rX s (reg_map o) * 2 ^ (if sc then sh else 0)) s SH SG R31) as (s' & E & A). exists s'. split; [|exact A].
  destruct sc; [eapply run1; [apply dec_ldrs; lia|]|rewrite Z.lor_0_r; eapply run1; [apply dec_ldr; lia|]]; exact E.
Qed.
End WORDS.
Lemma adds_word d a b k s : 0 <= k < 4 -> reg_map d <> 31 -> reg_map a <> 31 -> reg_map b <> 31 ->
  run [ADD .| RD d .| RN a .| RM b .| Z.shiftl k 10] s = Some (wX s (reg_map d) ((xr s (reg_map a) + xr s (reg_map b) * 2 ^ k) mod 2 ^ 64)).
Proof.
  intros K D A B. eapply run1; [apply dec_adds; exact K|]. cbn [exec dsz]. replace ((0 =? 3) || (64 <=? k)) with false by lia. cbv zeta. unfold shreg. cbn [Z.eqb]. unfold awc. cbv zeta. cbn [Z.b2z].
  rewrite !rX_xr by assumption. do 2 f_equal. unfold lo. rewrite Z.shiftl_mul_pow2, Z.add_0_r by lia. rewrite <- Z.add_mod by lia. rewrite <- (Z.add_mod_idemp_r _ (_ * _)) by lia. rewrite Z.mul_mod_idemp_l by lia. rewrite Z.add_mod_idemp_r by lia. reflexivity.
Qed.
Lemma add22_word (sub : bool) d a imm s : 0 <= imm < 4096 -> reg_map d <> 31 ->
  run [(if sub then SUBI else ADDI) .| Z.shiftl 1 22 .| RD d .| RN a .| Z.shiftl imm 10] s = Some (wX s (reg_map d) ((xr s (reg_map a) + (if sub then - (imm * 4096) else imm * 4096)) mod 2 ^ 64)).
Proof.
  intros K D. eapply run1; [apply dec_add22; exact K|]. cbn [exec dsz Z.eqb Pos.eqb]. cbv zeta. unfold rSP, awc. cbv zeta. destruct sub; cbn [Z.b2z]; rewrite wSP_wX by exact D; do 2 f_equal.
  - rewrite (lo_lnot 64 (imm * 4096)) by lia. unfold lo. replace (xr s (reg_map a) mod 2 ^ 64 + (2 ^ 64 - 1 - imm * 4096) + 1) with (xr s (reg_map a) mod 2 ^ 64 + - (imm * 4096) + 1 * 2 ^ 64) by ring.
    rewrite Z_mod_plus_full. apply Z.add_mod_idemp_l. lia.
  - unfold lo. rewrite Z.add_0_r. apply Z.add_mod_idemp_l. lia.
Qed.
