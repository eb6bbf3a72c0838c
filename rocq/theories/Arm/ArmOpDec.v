(** ARM64: decoding of the words of the operators. *)
Require Import ZArith List Bool Lia Zify ZifyBool.
From Verif Require Import Rv.RvLib Rv.RvBits Imm.ImmLib Arm.ArmIsa Arm.ArmBr Arm.ArmEnc Arm.ArmBits Arm.ArmImm Arm.ArmImmProofs Arm.ArmLogImm Arm.ArmLoadImm Arm.ArmJump Arm.ArmOp.
Import ListNotations.
Open Scope Z_scope.
Ltac Zify.zify_post_hook ::= idtac.

Lemma reg_lt r : 0 <= reg_map r < 32.
Proof.
  assert (F : Forall (fun x => 0 <= x < 32) reg_map_list) by (unfold reg_map_list; repeat constructor; lia).
  unfold reg_map. destruct (nth_in_or_default (Z.to_nat r) reg_map_list 0) as [H | ->]; [|lia]. rewrite Forall_forall in F. apply F. exact H.
Qed.

(** Make the registers of a word variables with known bounds. *)
Ltac regs :=
  repeat match goal with
  | |- context [reg_map ?r] => let x := fresh "r" in let H := fresh "R" in pose proof (reg_lt r) as H; set (x := reg_map r) in *; clearbody x
  end.
Ltac words := unfold set_flags, flag_bits, inv_bits, RD, RN, RM, RT2; regs.

Definition addr (sub : bool) : Z := if sub then SUB else ADD.
Definition addi (sub : bool) : Z := if sub then SUBI else ADDI.
Lemma dec_add sub w32 fl d a b : decode (Z.lxor (addr sub) (flag_bits w32 fl (Z.shiftl 1 29)) .| RD d .| RN a .| RM b) =
  Some (IAddR (negb w32) sub fl 0 (reg_map b) 0 (reg_map a) (reg_map d)).
Proof. words. destruct sub, w32, fl; dec. Qed.
Lemma dec_adc (sub : bool) w32 fl d a b : decode (Z.lxor (if sub then SBC else ADC) (flag_bits w32 fl (Z.shiftl 1 29)) .| RD d .| RN a .| RM b) =
  Some (IAdc (negb w32) sub fl (reg_map b) (reg_map a) (reg_map d)).
Proof. words. destruct sub, w32, fl; dec. Qed.
Lemma dec_addi sub w32 fl d a imm : 0 <= imm < 4096 -> decode (Z.lxor (addi sub) (flag_bits w32 fl (Z.shiftl 1 29)) .| RD d .| RN a .| Z.shiftl imm 10) =
  Some (IAddI (negb w32) sub fl 0 imm (reg_map a) (reg_map d)).
Proof. intros H. words. destruct sub, w32, fl; dec. Qed.
Lemma dec_addi0 sub w32 fl d a : decode (Z.lxor (addi sub) (flag_bits w32 fl (Z.shiftl 1 29)) .| RD d .| RN a) =
  Some (IAddI (negb w32) sub fl 0 0 (reg_map a) (reg_map d)).
Proof. words. destruct sub, w32, fl; dec. Qed.
Lemma dec_addi12 sub w32 fl d a imm : 0 <= imm < 4096 -> decode (Z.lxor (addi sub) (flag_bits w32 fl (Z.shiftl 1 29)) .| RD d .| RN a .| Z.shiftl imm 10 .| Z.shiftl 1 22) =
  Some (IAddI (negb w32) sub fl 1 imm (reg_map a) (reg_map d)).
Proof. intros H. words. destruct sub, w32, fl; dec. Qed.
Lemma dec_madd w32 d a b c : decode (Z.lxor MADD (inv_bits w32) .| RD d .| RN a .| RM b .| RT2 c) =
  Some (IDp3 (negb w32) 0 0 (reg_map b) (reg_map c) (reg_map a) (reg_map d)).
Proof. words. destruct w32; dec. Qed.
Lemma dec_madd64 d a b c : decode (MADD .| RD d .| RN a .| RM b .| RT2 c) = Some (IDp3 true 0 0 (reg_map b) (reg_map c) (reg_map a) (reg_map d)).
Proof. words. dec. Qed.
Lemma dec_smaddl d a b : decode (SMADDL .| RD d .| RN a .| RM b .| Z.shiftl 31 10) = Some (IDp3 true 1 0 (reg_map b) 31 (reg_map a) (reg_map d)).
Proof. words. dec. Qed.
Lemma dec_mulh sg d a b : decode ((if sg : bool then SMULH else UMULH) .| RD d .| RN a .| RM b) = Some (IDp3 true (if sg then 2 else 6) 0 (reg_map b) 15 (reg_map a) (reg_map d)).
Proof. words. destruct sg; dec. Qed.
Lemma dec_asr31 d a b : decode (ADD .| RD d .| RN a .| RM b .| Z.shiftl 2 22 .| Z.shiftl 31 10) = Some (IAddR true false false 2 (reg_map b) 31 (reg_map a) (reg_map d)).
Proof. words. dec. Qed.
Lemma dec_asr63 d a b : decode (SUBS .| RD d .| RN a .| RM b .| Z.shiftl 2 22 .| Z.shiftl 63 10) = Some (IAddR true true true 2 (reg_map b) 63 (reg_map a) (reg_map d)).
Proof. words. dec. Qed.
Lemma dec_and w32 (fl : bool) d a b : decode (Z.lxor AND (flag_bits w32 fl (Z.shiftl 3 29)) .| RD d .| RN a .| RM b) =
  Some (ILogR (negb w32) (if fl then 3 else 0) 0 false (reg_map b) 0 (reg_map a) (reg_map d)).
Proof. words. destruct w32, fl; dec. Qed.
Lemma dec_or w32 x d a b : decode (Z.lxor (if x : bool then EOR else ORR) (inv_bits w32) .| RD d .| RN a .| RM b) =
  Some (ILogR (negb w32) (if x then 2 else 1) 0 false (reg_map b) 0 (reg_map a) (reg_map d)).
Proof. words. destruct w32, x; dec. Qed.
Lemma dec_orn w32 d a b : decode (Z.lxor ORN (inv_bits w32) .| RD d .| RN a .| RM b) = Some (ILogR (negb w32) 1 0 true (reg_map b) 0 (reg_map a) (reg_map d)).
Proof. words. destruct w32; dec. Qed.
(** 0 LSLV, 1 LSRV, 2 ASRV, 3 RORV. *)
Definition shv (k : Z) : Z := if k =? 0 then LSLV else if k =? 1 then LSRV else if k =? 2 then ASRV else RORV.
Lemma dec_shv w32 k d a b : In k [0; 1; 2; 3] -> decode (Z.lxor (shv k) (inv_bits w32) .| RD d .| RN a .| RM b) = Some (IDp2 (negb w32) (8 + k) (reg_map b) (reg_map a) (reg_map d)).
Proof. intros H. words. cbn [In] in H. destruct w32; destruct H as [<- | [<- | [<- | [<- | []]]]]; dec. Qed.
Lemma dec_div w32 sg d a b : decode (Z.lxor (if sg : bool then SDIV else UDIV) (inv_bits w32) .| RD d .| RN a .| RM b) = Some (IDp2 (negb w32) (if sg then 3 else 2) (reg_map b) (reg_map a) (reg_map d)).
Proof. words. destruct w32, sg; dec. Qed.
(** The comparison with zero after shifts and logical operations; shifts with an immediate change further bits. *)
Definition inv_ok (w32 : bool) (inv : Z) : Prop :=
  inv = inv_bits w32 \/ inv = (inv_bits w32 .| Z.shiftr (inv_bits w32) 9) \/ inv = (inv_bits w32 .| Z.shiftr (inv_bits w32) 9 .| Z.shiftl 1 30).
Lemma dec_zero w32 inv d : inv_ok w32 inv -> exists sub sh, sh <> 3 /\ decode (Z.lxor SUBS inv .| RD TMP_ZERO .| RN d .| RM TMP_ZERO) = Some (IAddR (negb w32) sub true sh 31 0 (reg_map d) 31).
Proof.
  change (RD TMP_ZERO) with 31. change (RM TMP_ZERO) with (Z.shiftl 31 16). unfold inv_ok, inv_bits, RN. pose proof (reg_lt d) as H. set (r := reg_map d) in *. clearbody r.
  intros [-> | [-> | ->]]; destruct w32.
  - exists true, 0. split; [lia|]. dec.
  - exists true, 0. split; [lia|]. dec.
  - exists true, 1. split; [lia|]. dec.
  - exists true, 0. split; [lia|]. dec.
  - exists false, 1. split; [lia|]. dec.
  - exists false, 0. split; [lia|]. dec.
Qed.
(** Bit fields: [sg] signed. *)
Definition bfm (w32 sg : bool) : Z := Z.lxor (if sg then SBFM else UBFM) (inv_bits w32 .| Z.shiftr (inv_bits w32) 9).
Definition nbit (w32 : bool) : Z := if w32 then 0 else 1.
Lemma dec_bfm w32 sg d a immr imms : 0 <= immr < 64 -> 0 <= imms < 64 ->
  decode (bfm w32 sg .| RD d .| RN a .| (Z.shiftl immr 16 .| Z.shiftl imms 10)) = Some (IBfm (negb w32) (if sg then 0 else 2) (nbit w32) immr imms (reg_map a) (reg_map d)).
Proof. intros H1 H2. unfold bfm. words. destruct w32, sg; dec. Qed.
Lemma dec_bfm22 sg d a immr imms : 0 <= immr < 64 -> 0 <= imms < 64 ->
  decode (bfm false sg .| RD d .| RN a .| (Z.shiftl 1 22 .| Z.shiftl immr 16 .| Z.shiftl imms 10)) = Some (IBfm true (if sg then 0 else 2) 1 immr imms (reg_map a) (reg_map d)).
Proof. intros H1 H2. unfold bfm. words. destruct sg; dec. Qed.
Lemma dec_ext w32 sg d a imms : 0 <= imms < 64 ->
  decode (bfm w32 sg .| RD d .| RN a .| Z.shiftl imms 10) = Some (IBfm (negb w32) (if sg then 0 else 2) (nbit w32) 0 imms (reg_map a) (reg_map d)).
Proof. intros H. unfold bfm. words. destruct w32, sg; dec. Qed.
Lemma dec_sxtw d a : decode (SBFM .| Z.shiftl 1 22 .| RD d .| RN a .| Z.shiftl 31 10) = Some (IBfm true 0 1 0 31 (reg_map a) (reg_map d)).
Proof. words. dec. Qed.
Lemma dec_extr w32 d a b imm : 0 <= imm < 64 -> decode (Z.lxor EXTR (inv_bits w32 .| Z.shiftr (inv_bits w32) 9) .| RD d .| RN a .| RM b .| Z.shiftl imm 10) =
  Some (IExtr (negb w32) (nbit w32) (reg_map b) imm (reg_map a) (reg_map d)).
Proof. intros H. words. destruct w32; dec. Qed.
(** Logical operations with an immediate. *)
Lemma bits_lor N immr imms : 0 <= N < 2 -> 0 <= immr < 64 -> 0 <= imms < 64 ->
  N * 2 ^ 22 + immr * 2 ^ 16 + imms * 2 ^ 10 = (Z.shiftl N 22 .| Z.shiftl immr 16 .| Z.shiftl imms 10).
Proof.
  intros H2 H3 H4. rewrite !Z.shiftl_mul_pow2 by lia. rewrite <- (add_lor 22 N (immr * 2 ^ 16)) by lia.
  replace (N * 2 ^ 22 + immr * 2 ^ 16) with ((N * 2 ^ 6 + immr) * 2 ^ 16) by ring. rewrite <- (add_lor 16 _ (imms * 2 ^ 10)) by lia. ring.
Qed.
Lemma dec_andi w32 fl d a N immr imms : 0 <= N < 2 -> 0 <= immr < 64 -> 0 <= imms < 64 ->
  decode (Z.lxor ANDI (flag_bits w32 fl (Z.shiftl 3 29)) .| RD d .| RN a .| (N * 2 ^ 22 + immr * 2 ^ 16 + imms * 2 ^ 10)) =
  Some (ILogI (negb w32) (if fl then 3 else 0) N immr imms (reg_map a) (reg_map d)).
Proof. intros H2 H3 H4. rewrite bits_lor by assumption. words. destruct w32, fl; dec. Qed.
Lemma lxor_lor a b c : Z.land a c = 0 -> Z.lxor (a .| b) c = (Z.lxor b c .| a).
Proof.
  intros H. apply Z.bits_inj'. intros i Hi. assert (E := f_equal (fun x => Z.testbit x i) H). cbv beta in E. rewrite Z.land_spec, Z.bits_0 in E.
  rewrite !Z.lxor_spec, !Z.lor_spec, Z.lxor_spec. destruct (Z.testbit a i), (Z.testbit b i), (Z.testbit c i); try discriminate E; reflexivity.
Qed.
Lemma dec_ori w32 x d a N immr imms : 0 <= N < 2 -> 0 <= immr < 64 -> 0 <= imms < 64 ->
  decode (Z.lxor ((N * 2 ^ 22 + immr * 2 ^ 16 + imms * 2 ^ 10) .| (if x : bool then EORI else ORRI)) (inv_bits w32) .| RD d .| RN a) =
  Some (ILogI (negb w32) (if x then 2 else 1) N immr imms (reg_map a) (reg_map d)).
Proof.
  intros H2 H3 H4. rewrite lxor_lor.
  2: { unfold inv_bits. destruct w32; [|apply Z.land_0_r]. change W_OP with ((2 ^ 1 - 1) * 2 ^ 31). rewrite (land_mask _ 31 1 _ ltac:(lia) ltac:(lia) eq_refl).
       rewrite Z.div_small by lia. reflexivity. }
  rewrite bits_lor by assumption. words. destruct w32, x; dec.
Qed.
(** One operand. *)
Definition dp1 (k : Z) : Z := if k =? 0 then RBIT else if k =? 1 then REV16 else if k =? 3 then REV else CLZ.
Lemma dec_clz w32 d a : decode (Z.lxor CLZ (inv_bits w32) .| RD d .| RN a) = Some (IDp1 (negb w32) 4 (reg_map a) (reg_map d)).
Proof. words. destruct w32; dec. Qed.
Lemma dec_rbit w32 d a : decode (Z.lxor RBIT (inv_bits w32) .| RD d .| RN a) = Some (IDp1 (negb w32) 0 (reg_map a) (reg_map d)).
Proof. words. destruct w32; dec. Qed.
Lemma dec_rev w32 d a : decode (Z.lxor REV (inv_bits w32 .| Z.shiftr (inv_bits w32) 21) .| RD d .| RN a) = Some (IDp1 (negb w32) (if w32 then 2 else 3) (reg_map a) (reg_map d)).
Proof. words. destruct w32; dec. Qed.
Lemma dec_rev16 d a : decode (Z.lxor REV16 0x80000000 .| RD d .| RN a) = Some (IDp1 false 1 (reg_map a) (reg_map d)).
Proof. words. dec. Qed.
Lemma dec_rev32 d a : decode (Z.lxor REV 0x80000400 .| RD d .| RN a) = Some (IDp1 false 2 (reg_map a) (reg_map d)).
Proof. words. dec. Qed.
Lemma dec_mov w32 d b : decode (Z.lxor MOV (inv_bits w32) .| RD d .| RM b) = Some (ILogR (negb w32) 1 0 false (reg_map b) 0 31 (reg_map d)).
Proof. words. destruct w32; dec. Qed.

(** A word of this part is not a branch. *)
Lemma fld_fld w l n : 21 <= l -> 0 <= n -> l + n <= 30 -> fld w l n = fld (fld w 21 9) (l - 21) n.
Proof.
  intros Hl Hn H. unfold fld. apply Z.bits_inj'. intros i Hi. rewrite !Z.land_spec, !Z.shiftr_spec, Z.land_spec, Z.shiftr_spec by lia.
  destruct (Z.lt_ge_cases i n) as [L|G]; [|rewrite !(Z.ones_spec_high n) by lia; rewrite !andb_false_r; reflexivity].
  rewrite (Z.ones_spec_low 9) by lia. rewrite andb_true_r. do 2 f_equal. lia.
Qed.
Definition is_dp (u : Z) : bool :=
  if fld u 5 3 =? 4 then let k := fld u 2 3 in (k =? 2) || (k =? 4) || (k =? 5) || (k =? 6) || (k =? 7)
  else (fld u 3 5 =? 10) || (fld u 3 5 =? 11) || (fld u 0 8 =? 208) || (fld u 0 8 =? 212) || (fld u 0 8 =? 214) || (fld u 3 5 =? 27) || (fld u 3 6 =? 57) || (fld u 3 6 =? 56).
Definition is_br (u : Z) : bool := (fld u 5 3 =? 5) || (fld u 3 5 =? 16) || (fld u 1 8 =? 0xe9).
Lemma dp_br : forallb (fun u => negb (is_dp u && is_br u)) (zseq 0 512) = true.
Proof. vm_compute. reflexivity. Qed.
Lemma decode_not_br w i : decode w = Some i -> decode_br w = None.
Proof.
  intros D. set (u := fld w 21 9).
  assert (U : 0 <= u < 0 + 512) by (pose proof (fld_range w 21 9 512 eq_refl ltac:(lia) ltac:(lia)); unfold u; lia).
  assert (A : is_dp u = true).
  { unfold is_dp. subst u. cbv zeta. change (fld (fld w 21 9) 5 3) with (fld (fld w 21 9) (26 - 21) 3). rewrite <- (fld_fld w 26 3) by lia.
    revert D. unfold decode. cbv zeta. destruct (fld w 26 3 =? 4) eqn:E1.
    - change (fld (fld w 21 9) 2 3) with (fld (fld w 21 9) (23 - 21) 3). rewrite <- (fld_fld w 23 3) by lia.
      destruct (fld w 23 3 =? 2) eqn:K2; [reflexivity|]. destruct (fld w 23 3 =? 4) eqn:K4; [reflexivity|]. destruct (fld w 23 3 =? 5) eqn:K5; [reflexivity|].
      destruct (fld w 23 3 =? 6) eqn:K6; [reflexivity|]. destruct (fld w 23 3 =? 7) eqn:K7; [reflexivity|]. intros D; discriminate D.
    - change (fld (fld w 21 9) 3 5) with (fld (fld w 21 9) (24 - 21) 5). change (fld (fld w 21 9) 3 6) with (fld (fld w 21 9) (24 - 21) 6). change (fld (fld w 21 9) 0 8) with (fld (fld w 21 9) (21 - 21) 8).
      rewrite <- (fld_fld w 24 5), <- (fld_fld w 24 6), <- (fld_fld w 21 8) by lia.
      destruct (fld w 24 5 =? 10) eqn:K1; [reflexivity|]. destruct (fld w 24 5 =? 11) eqn:K2; [reflexivity|].
      destruct (fld w 21 8 =? 208) eqn:K3; [reflexivity|]. destruct (fld w 21 8 =? 212) eqn:K4; [reflexivity|]. destruct (fld w 21 8 =? 214) eqn:K5; [reflexivity|].
      destruct (fld w 24 5 =? 27) eqn:K6; [reflexivity|]. destruct (fld w 24 6 =? 57) eqn:K7; [reflexivity|]. destruct (fld w 24 6 =? 56) eqn:K8; [reflexivity|]. intros D; discriminate D. }
  pose proof dp_br as F. rewrite forallb_forall in F. specialize (F u (in_zseq 0 512 u U)). rewrite A in F. cbn [andb] in F. unfold is_br in F.
  subst u. change (fld (fld w 21 9) 5 3) with (fld (fld w 21 9) (26 - 21) 3) in F. change (fld (fld w 21 9) 3 5) with (fld (fld w 21 9) (24 - 21) 5) in F.
  change (fld (fld w 21 9) 1 8) with (fld (fld w 21 9) (22 - 21) 8) in F. rewrite <- (fld_fld w 26 3), <- (fld_fld w 24 5), <- (fld_fld w 22 8) in F by lia.
  unfold decode_br. destruct (fld w 26 3 =? 5); [discriminate F|]. destruct (fld w 24 5 =? 16); [discriminate F|]. destruct (fld w 22 8 =? 0xe9); [discriminate F|]. reflexivity.
Qed.
Lemma run_not_br ws : forall s s', run ws s = Some s' -> Forall (fun w => decode_br w = None) ws.
Proof.
  induction ws as [|w ws IH]; intros s s' R; [constructor|]. cbn [run] in R. destruct (decode w) as [i|] eqn:D; [|discriminate R].
  destruct (exec i s) as [s1|]; [|discriminate R]. constructor; [apply (decode_not_br w i D)|apply (IH s1 s' R)].
Qed.
