(** ARM64: replicating an integer to all lanes of a vector register. *)
Require Import ZArith List Bool Lia Zify ZifyBool.
From Verif Require Import Rv.RvLib Rv.RvBits Imm.ImmLib Arm.ArmIsa Arm.ArmBr Arm.ArmEnc Arm.ArmBits Arm.ArmImm Arm.ArmImmProofs Arm.ArmLogImm Arm.ArmLoadImm
  Arm.ArmJump Arm.ArmJumpSpec Arm.ArmJumpProofs Arm.ArmOp Arm.ArmOpSpec Arm.ArmOpDec Arm.ArmOpProofs Arm.ArmOp1 Arm.ArmMem Arm.ArmMemSpec Arm.ArmMemProofs Arm.ArmMemOp2 Arm.ArmFrame Arm.ArmFrameDec
  Arm.ArmRetProofs Arm.ArmVec Arm.ArmSimd Arm.ArmSimdSpec.
Import ListNotations.
Open Scope Z_scope.
Ltac Zify.zify_post_hook ::= idtac.

(** ** Lanes *)
Lemma copies_b n k v : 0 < n -> 0 <= v < 2 ^ n -> 0 <= copies n k v < 2 ^ (n * Z.of_nat k).
Proof.
  intros N V. induction k as [|k IH]; cbn [copies]; [rewrite Z.mul_0_r; cbn; lia|].
  replace (n * Z.of_nat (S k)) with (n + n * Z.of_nat k) by lia. rewrite Z.pow_add_r by lia. pose proof (Z.pow_pos_nonneg 2 n ltac:(lia) ltac:(lia)) as P.
  pose proof (Z.mul_nonneg_nonneg (2 ^ n) (copies n k v) ltac:(lia) ltac:(lia)). pose proof (Z.mul_le_mono_nonneg_l (copies n k v + 1) (2 ^ (n * Z.of_nat k)) (2 ^ n) ltac:(lia) ltac:(lia)). lia.
Qed.
Lemma copies_lane n v : 0 < n -> 0 <= v < 2 ^ n -> forall k i, 0 <= i < Z.of_nat k -> (copies n k v / 2 ^ (n * i)) mod 2 ^ n = v.
Proof.
  intros N V. pose proof (Z.pow_pos_nonneg 2 n ltac:(lia) ltac:(lia)) as P. induction k as [|k IH]; intros i I; [lia|]. cbn [copies]. destruct (Z.eq_dec i 0) as [-> | I0].
  - rewrite Z.mul_0_r, Z.pow_0_r, Z.div_1_r, Z.mul_comm, Z.mod_add by lia. apply Z.mod_small. exact V.
  - assert (NI : 0 <= n * (i - 1)) by (apply Z.mul_nonneg_nonneg; lia). pose proof (Z.pow_pos_nonneg 2 (n * (i - 1)) ltac:(lia) NI) as P1.
    replace (n * i) with (n + n * (i - 1)) by lia. rewrite Z.pow_add_r by lia. rewrite <- Z.div_div by lia. rewrite (Z.mul_comm (2 ^ n)), Z.div_add, (Z.div_small v), Z.add_0_l by lia. apply IH. lia.
Qed.

(** ** Decoding *)
Definition results : list Z := [0xe000; 0x8000; 0xa000; 0x2000a000; 0x20008000; 0; 0x2000; 0x4000; 0x6000; 0xc000; 0xd000; 0x20000000; 0x20002000; 0x20004000; 0x20006000; 0x2000c000; 0x2000d000].
Definition enc (v r : Z) : Z := Z.shiftl (u32 v .& 0x1f) 5 .| Z.shiftl (u32 v .& 0xe0) 11 .| r.
Definition vinstr_eqb (a b : option vinstr) : bool :=
  match a, b with
  | Some (VImm q o c i d), Some (VImm q' o' c' i' d') => Bool.eqb q q' && Bool.eqb o o' && (c =? c') && (i =? i') && (d =? d')
  | Some (VDup q i n d), Some (VDup q' i' n' d') => Bool.eqb q q' && (i =? i') && (n =? n') && (d =? d')
  | _, _ => false
  end.
Lemma vinstr_eq a b : vinstr_eqb a b = true -> a = b.
Proof.
  destruct a as [[q o c i d|q i n d]|], b as [[q' o' c' i' d'|q' i' n' d']|]; cbn [vinstr_eqb]; intros H; try discriminate H;
  repeat (apply andb_prop in H; destruct H as (H & ?)); repeat match goal with E : Bool.eqb _ _ = true |- _ => apply Bool.eqb_prop in E | E : (_ =? _) = true |- _ => apply Z.eqb_eq in E end; subst; reflexivity.
Qed.
Definition qbit (q : bool) : Z := if q then Z.shiftl 1 30 else 0.
Definition none_eqb (w : Z) : bool := match decode w with None => true | _ => false end.
(** The destination register is in the low five bits, which no other field reads. *)
Lemma fld_low b d lo n : 0 <= d < 32 -> 5 <= lo -> fld (b .| d) lo n = fld b lo n.
Proof.
  intros D L. unfold fld. rewrite Z.shiftr_lor. replace (Z.shiftr d lo) with 0; [rewrite Z.lor_0_r; reflexivity|]. rewrite Z.shiftr_div_pow2 by lia. symmetry. apply Z.div_small.
  assert (2 ^ 5 <= 2 ^ lo) by (apply Z.pow_le_mono_r; lia). lia.
Qed.
Lemma bit_low b d k : 0 <= d < 32 -> 5 <= k -> bit (b .| d) k = bit b k.
Proof.
  intros D L. unfold bit. rewrite Z.lor_spec. replace (Z.testbit d k) with false; [apply orb_false_r|]. symmetry. destruct (Z.eq_dec d 0) as [-> | N]; [apply Z.testbit_0_l|].
  apply Z.bits_above_log2; [lia|]. apply Z.log2_lt_pow2; [lia|]. assert (2 ^ 5 <= 2 ^ k) by (apply Z.pow_le_mono_r; lia). lia.
Qed.
Lemma fld_rd b d : 0 <= d < 32 -> fld b 0 5 = 0 -> fld (b .| d) 0 5 = d.
Proof.
  intros D B. unfold fld in *. rewrite Z.shiftr_0_r in *. rewrite Z.land_lor_distr_l, B, Z.lor_0_l, Z.land_ones by lia. apply Z.mod_small. lia.
Qed.
Ltac lows b d D := repeat match goal with |- context[fld (b .| d) ?lo ?n] => rewrite (fld_low b d lo n D) by lia | |- context[bit (b .| d) ?k] => rewrite (bit_low b d k D) by lia end.
Lemma none_low b d : 0 <= d < 32 -> decode b = None -> decode (b .| d) = None.
Proof.
  intros D. unfold decode. cbv zeta. lows b d D.
  repeat match goal with |- context[if ?c then _ else _] => destruct c end; intros E; try discriminate E; reflexivity.
Qed.
Definition set_rd (i : vinstr) (d : Z) : vinstr := match i with VImm q o c v _ => VImm q o c v d | VDup q i n _ => VDup q i n d end.
Lemma dec_low b d i : 0 <= d < 32 -> fld b 0 5 = 0 -> decode_v b = Some i -> decode_v (b .| d) = Some (set_rd i d).
Proof.
  intros D B. unfold decode_v. rewrite (fld_rd b d D B). lows b d D.
  repeat match goal with |- context[if ?c then _ else _] => destruct c end; intros E; try discriminate E; injection E as <-; reflexivity.
Qed.
Lemma dec_movi_all : forallb (fun q => forallb (fun r => forallb (fun v =>
   let w := MOVI .| (enc v r .| qbit q) in none_eqb w && (fld w 0 5 =? 0) && vinstr_eqb (decode_v w) (Some (VImm q (bit r 29) (fld r 12 4) v 0))) (zseq 0 256)) results) [false; true] = true.
Proof. vm_cast_no_check (eq_refl true). Qed.
Lemma dec_movi q r v d : In r results -> 0 <= v < 256 -> 0 <= d < 32 -> let w := MOVI .| (enc v r .| qbit q) .| d in
  decode w = None /\ decode_v w = Some (VImm q (bit r 29) (fld r 12 4) v d).
Proof.
  intros R V D w. pose proof dec_movi_all as A. rewrite forallb_forall in A. specialize (A q ltac:(destruct q; cbn; auto)). rewrite forallb_forall in A. specialize (A r R).
  rewrite forallb_forall in A. specialize (A v (in_zseq 0 256 v ltac:(lia))). cbv zeta in A. apply andb_prop in A. destruct A as (A & B). apply andb_prop in A. destruct A as (A & C). apply Z.eqb_eq in C.
  split; [apply none_low; [exact D|]; unfold none_eqb in A; destruct (decode (MOVI .| (enc v r .| qbit q))); [discriminate A|reflexivity]|exact (dec_low _ d _ D C (vinstr_eq _ _ B))].
Qed.
Definition dins (q : bool) (es : Z) : Z := Z.shiftl 1 (16 + es) .| qbit q.
Lemma dec_dup_all : forallb (fun q => forallb (fun es => forallb (fun n => forallb (fun d =>
   let w := DUP_g .| dins q es .| d .| Z.shiftl n 5 in none_eqb w && vinstr_eqb (decode_v w) (Some (VDup q (2 ^ es) n d))) (zseq 0 32)) (zseq 0 32)) (zseq 0 4)) [false; true] = true.
Proof. vm_compute. reflexivity. Qed.
Lemma dec_dup q es n d : 0 <= es <= 3 -> 0 <= n < 32 -> 0 <= d < 32 -> let w := DUP_g .| dins q es .| d .| Z.shiftl n 5 in
  decode w = None /\ decode_v w = Some (VDup q (2 ^ es) n d).
Proof.
  intros E N D w. pose proof dec_dup_all as A. rewrite forallb_forall in A. specialize (A q ltac:(destruct q; cbn; auto)). rewrite forallb_forall in A. specialize (A es (in_zseq 0 4 es ltac:(lia))).
  rewrite forallb_forall in A. specialize (A n (in_zseq 0 32 n ltac:(lia))). rewrite forallb_forall in A. specialize (A d (in_zseq 0 32 d ltac:(lia))). cbv zeta in A. fold w in A. apply andb_prop in A. destruct A as (A & B).
  split; [unfold none_eqb in A; destruct (decode w); [discriminate A|reflexivity]|exact (vinstr_eq _ _ B)].
Qed.

(** ** simd_get_imm *)
Definition K (es : Z) : Z := if es =? 0 then 0x0101010101010101 else if es =? 1 then 0x0001000100010001 else if es =? 2 then 0x0000000100000001 else 1.
Lemma low8 v : v .& 0xff = v mod 256. Proof. change 0xff with (Z.ones 8). rewrite Z.land_ones by lia. reflexivity. Qed.
Lemma low16 v : v .& 0xffff = v mod 65536. Proof. change 0xffff with (Z.ones 16). rewrite Z.land_ones by lia. reflexivity. Qed.
Lemma inverted n v : 0 <= n -> 0 <= v < 2 ^ n -> Z.lxor v (Z.ones n) = 2 ^ n - 1 - v.
Proof.
  intros N V. assert (H : v + Z.lxor v (Z.ones n) = Z.ones n).
  { rewrite Z.add_nocarry_lxor.
    - rewrite <- Z.lxor_assoc, Z.lxor_nilpotent. apply Z.lxor_0_l.
    - apply Z.bits_inj'. intros i I. rewrite Z.land_spec, Z.lxor_spec, Z.bits_0. destruct (Z_lt_le_dec i n) as [L | L]; [rewrite Z.ones_spec_low by lia; destruct (Z.testbit v i); reflexivity|].
      rewrite Z.ones_spec_high by lia. replace (Z.testbit v i) with false; [reflexivity|]. symmetry. destruct (Z.eq_dec v 0) as [-> | V0]; [apply Z.bits_0|]. apply Z.bits_above_log2; [lia|]. apply Z.log2_lt_pow2; [lia|]. apply Z.lt_le_trans with (2 ^ n); [lia|]. apply Z.pow_le_mono_r; lia. }
  rewrite Z.ones_equiv in H. rewrite Z.ones_equiv. lia.
Qed.
Lemma one_byte k v : k = 8 \/ k = 16 \/ k = 24 -> 0 <= v < 2 ^ 32 -> v .& (2 ^ 64 - 1 - Z.shiftl 0xff k) = 0 -> v = Z.shiftr v k * 2 ^ k /\ 0 <= Z.shiftr v k < 256.
Proof.
  intros KK V H. assert (VA : v = v .& Z.shiftl 0xff k).
  { transitivity (v .& (Z.shiftl 0xff k .| (2 ^ 64 - 1 - Z.shiftl 0xff k))); [|rewrite Z.land_lor_distr_r, H, Z.lor_0_r; reflexivity].
    replace (Z.shiftl 0xff k .| (2 ^ 64 - 1 - Z.shiftl 0xff k)) with (Z.ones 64) by (destruct KK as [-> | [-> | ->]]; vm_compute; reflexivity). rewrite Z.land_ones, Z.mod_small by lia. reflexivity. }
  assert (LO : v mod 2 ^ k = 0).
  { rewrite <- Z.land_ones by lia. rewrite VA, <- Z.land_assoc. replace (Z.shiftl 0xff k .& Z.ones k) with 0 by (destruct KK as [-> | [-> | ->]]; vm_compute; reflexivity). apply Z.land_0_r. }
  assert (HI : v / 2 ^ (k + 8) = 0).
  { rewrite <- Z.shiftr_div_pow2 by lia. rewrite VA, Z.shiftr_land. replace (Z.shiftr (Z.shiftl 0xff k) (k + 8)) with 0 by (destruct KK as [-> | [-> | ->]]; vm_compute; reflexivity). apply Z.land_0_r. }
  rewrite Z.shiftr_div_pow2 by lia. pose proof (Z.div_mod v (2 ^ k) ltac:(destruct KK as [-> | [-> | ->]]; discriminate)) as DM. rewrite LO in DM. split; [lia|]. split; [apply Z.div_pos; [lia|destruct KK as [-> | [-> | ->]]; reflexivity]|].
  apply Z.div_lt_upper_bound; [destruct KK as [-> | [-> | ->]]; reflexivity|]. apply Z.div_small_iff in HI; [|destruct KK as [-> | [-> | ->]]; discriminate]. destruct KK as [-> | [-> | ->]]; cbn in *; lia.
Qed.
(** The value made by a form. *)
Definition form_value (r v : Z) : option Z := if r =? 0x8000 then Some v else if r =? 0xa000 then Some (v * 2 ^ 8) else if r =? 0 then Some v else if r =? 0x2000 then Some (v * 2 ^ 8) else if r =? 0x4000 then Some (v * 2 ^ 16)
  else if r =? 0x6000 then Some (v * 2 ^ 24) else if r =? 0xc000 then Some (v * 2 ^ 8 + 0xff) else if r =? 0xd000 then Some (v * 2 ^ 16 + 0xffff) else None.
Lemma try16_ok v r e : 0 <= v < 2 ^ 16 -> try16 v r = Some e -> exists r0, In r0 [0x8000; 0xa000] /\ snd e = r .| r0 /\ 0 <= fst e < 256 /\ form_value r0 (fst e) = Some v.
Proof.
  intros V. unfold try16. destruct (Z.leb_spec v 0xff); [intros E; injection E as <-; exists 0x8000; cbn; repeat split; auto; lia|]. rewrite low8.
  destruct (Z.eqb_spec (v mod 256) 0) as [M | M]; [|discriminate]. intros E; injection E as <-. exists 0xa000. rewrite Z.shiftr_div_pow2 by lia. cbn [fst snd]. pose proof (Z.div_mod v 256 ltac:(lia)) as DM. change (2 ^ 8) with 256.
  split; [cbn; auto|]. split; [reflexivity|]. split; [split; [apply Z.div_pos; lia|apply Z.div_lt_upper_bound; lia]|]. unfold form_value. cbn [Z.eqb Pos.eqb]. f_equal. change (2 ^ 8) with 256. lia.
Qed.
Lemma try32_ok v r e : 0 <= v < 2 ^ 32 -> try32 v r = Some e -> exists r0, In r0 [0; 0x2000; 0x4000; 0x6000; 0xc000; 0xd000] /\ snd e = r .| r0 /\ 0 <= fst e < 256 /\ form_value r0 (fst e) = Some v.
Proof.
  intros V. unfold try32. destruct (Z.leb_spec v 0xff); [intros E; injection E as <-; exists 0; cbn [fst snd]; split; [cbn; auto|]; split; [reflexivity|]; split; [lia|reflexivity]|].
  destruct (Z.eqb_spec (v .& (2 ^ 64 - 1 - 0xff00)) 0) as [M | _].
  { intros E; injection E as <-. destruct (one_byte 8 v ltac:(auto) V M) as (A & B). exists 0x2000. cbn [fst snd]. split; [cbn; auto|]. split; [reflexivity|]. split; [exact B|]. unfold form_value. cbn [Z.eqb Pos.eqb]. f_equal. lia. }
  destruct (Z.eqb_spec (v .& (2 ^ 64 - 1 - 0xff0000)) 0) as [M | _].
  { intros E; injection E as <-. destruct (one_byte 16 v ltac:(auto) V M) as (A & B). exists 0x4000. cbn [fst snd]. split; [cbn; auto|]. split; [reflexivity|]. split; [exact B|]. unfold form_value. cbn [Z.eqb Pos.eqb]. f_equal. lia. }
  destruct (Z.eqb_spec (v .& (2 ^ 64 - 1 - 0xff000000)) 0) as [M | _].
  { intros E; injection E as <-. destruct (one_byte 24 v ltac:(auto) V M) as (A & B). exists 0x6000. cbn [fst snd]. split; [cbn; auto|]. split; [reflexivity|]. split; [exact B|]. unfold form_value. cbn [Z.eqb Pos.eqb]. f_equal. lia. }
  rewrite low8, low16, !Z.shiftr_div_pow2 by lia. change (2 ^ 8) with 256. change (2 ^ 16) with 65536. change (2 ^ 24) with 16777216.
  destruct (Z.eqb_spec (v mod 256) 0xff) as [M | _]; cbn [andb].
  - destruct (Z.eqb_spec (v / 65536) 0) as [N | _].
    + intros E; injection E as <-. exists 0xc000. cbn [fst snd]. split; [cbn; auto 8|]. split; [reflexivity|]. apply Z.div_small_iff in N; [|lia]. pose proof (Z.div_mod v 256 ltac:(lia)) as DM.
      split; [split; [apply Z.div_pos; lia|apply Z.div_lt_upper_bound; lia]|]. unfold form_value. cbn [Z.eqb Pos.eqb]. f_equal. change (2 ^ 8) with 256. lia.
    + destruct (Z.eqb_spec (v mod 65536) 0xffff) as [M2 | _]; cbn [andb]; [|discriminate]. destruct (Z.eqb_spec (v / 16777216) 0) as [N | _]; [|discriminate].
      intros E; injection E as <-. exists 0xd000. cbn [fst snd]. split; [cbn; auto 8|]. split; [reflexivity|]. apply Z.div_small_iff in N; [|lia]. pose proof (Z.div_mod v 65536 ltac:(lia)) as DM.
      split; [split; [apply Z.div_pos; lia|apply Z.div_lt_upper_bound; lia]|]. unfold form_value. cbn [Z.eqb Pos.eqb]. f_equal. change (2 ^ 16) with 65536. lia.
  - destruct (Z.eqb_spec (v mod 65536) 0xffff) as [M2 | _]; cbn [andb]; [|discriminate]. destruct (Z.eqb_spec (v / 16777216) 0) as [N | _]; [|discriminate].
    intros E; injection E as <-. exists 0xd000. cbn [fst snd]. split; [cbn; auto 8|]. split; [reflexivity|]. apply Z.div_small_iff in N; [|lia]. pose proof (Z.div_mod v 65536 ltac:(lia)) as DM.
    split; [split; [apply Z.div_pos; lia|apply Z.div_lt_upper_bound; lia]|]. unfold form_value. cbn [Z.eqb Pos.eqb]. f_equal. change (2 ^ 16) with 65536. lia.
Qed.
