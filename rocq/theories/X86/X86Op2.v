(** sljit_emit_op2, sljit_emit_op2u, sljit_emit_op2r: results and conditions. *)
Require Import ZArith List Bool Lia.
From Verif Require Import Rv.RvLib Rv.RvIsa Rv.RvMem Rv.RvMemProofs Rv.RvOp Rv.RvLir Rv.RvCond Rv.RvCondSpec Rv.RvEmitOp1 X86.X86Isa X86.X86Emit X86.X86Spec X86.X86Enc X86.X86EncTop X86.X86OpSpec X86.X86Op X86.X86Cond X86.X86Ins X86.X86Ins2 X86.X86Mov X86.X86Bin X86.X86Mul X86.X86Shift.
Import ListNotations.
Ltac Zify.zify_post_hook ::= idtac.
Open Scope Z_scope.

(** The nibble of the condition. *)
Definition ccode (t : Z) : Z := jump_code t - 0x80.
Definition conds (P : Z -> Prop) (k : op2k) (n x y : Z) (c : bool) (s : xst) : Prop :=
  forall t, ctype t -> P t -> cond_val s (ccode t) = Some (cond t k n x y c).

Ltac ctypes := let t := fresh "t" in let H := fresh "H" in intros t H; unfold ctype in H;
  assert (t = 0 \/ t = 1 \/ t = 2 \/ t = 3 \/ t = 4 \/ t = 5 \/ t = 6 \/ t = 7 \/ t = 8 \/ t = 9 \/ t = 10 \/ t = 11 \/ t = 12 \/ t = 13) by lia;
  repeat match goal with H : _ \/ _ |- _ => destruct H as [H|H] end; subst t.

Section N.
Variable m : bool.
Notation n := (size_of m).
Lemma npos : 0 < 2 ^ n. Proof. destruct m; vm_compute; reflexivity. Qed.
Lemma n1 : 1 <= n. Proof. destruct m; vm_compute; discriminate. Qed.
Lemma half2 : 2 ^ n = 2 * 2 ^ (n - 1). Proof. destruct m; reflexivity. Qed.
Lemma sext_mod_eq : forall x, sext n x mod 2 ^ n = x mod 2 ^ n.
Proof. intros x. destruct (sext_mod n x n1) as (k & E). rewrite E at 2. rewrite Z.mod_add by apply pow2n. reflexivity. Qed.
Lemma top_bit : forall z, Z.testbit z (n - 1) = (sext n z <? 0).
Proof.
  intros z. pose proof n1. pose proof half2 as HH. rewrite <- (Z.mod_pow2_bits_low z n (n - 1)) by lia.
  unfold sext. pose proof (Z.mod_pos_bound z (2 ^ n) npos). set (y := z mod 2 ^ n) in *. clearbody y.
  rewrite Z.testbit_eqb by lia. destruct (Z.ltb_spec y (2 ^ (n - 1))).
  - rewrite Z.div_small by lia. destruct (Z.ltb_spec y 0); [lia|reflexivity].
  - assert (y / 2 ^ (n - 1) = 1) as ->. { symmetry. apply (Z.div_unique y (2 ^ (n - 1)) 1 (y - 2 ^ (n - 1))); [left|]; lia. }
    destruct (Z.ltb_spec (y - 2 ^ n) 0); [reflexivity|lia].
Qed.
(** Sign and overflow of a difference. *)
Lemma sig_less : forall x y, xorb (Z.testbit (x - y) (n - 1)) (oor n (sext n x - sext n y)) = (sext n x <? sext n y).
Proof.
  intros x y. rewrite top_bit. pose proof n1. pose proof half2 as HH.
  pose proof (sext_range n x n1). pose proof (sext_range n y n1). destruct (sext_mod n x n1) as (k1 & E1). destruct (sext_mod n y n1) as (k2 & E2).
  set (a := sext n x) in *. set (b := sext n y) in *. set (h := 2 ^ (n - 1)) in *. unfold oor. fold h.
  assert (X : x - y = a - b + (k1 - k2) * 2 ^ n) by lia.
  destruct (Z.leb_spec (- h) (a - b)) as [L1|L1]; [destruct (Z.ltb_spec (a - b) h) as [L2|L2]|].
  - cbn [andb negb]. rewrite (sext_unique n (x - y) (a - b) (k1 - k2) n1) by (fold h; lia). rewrite xorb_false_r.
    destruct (Z.ltb_spec (a - b) 0), (Z.ltb_spec a b); reflexivity || lia.
  - cbn [andb negb]. rewrite (sext_unique n (x - y) (a - b - 2 ^ n) (k1 - k2 + 1) n1) by (fold h; lia). rewrite xorb_true_r.
    destruct (Z.ltb_spec (a - b - 2 ^ n) 0), (Z.ltb_spec a b); reflexivity || lia.
  - cbn [andb negb]. rewrite (sext_unique n (x - y) (a - b + 2 ^ n) (k1 - k2 - 1) n1) by (fold h; lia). rewrite xorb_true_r.
    destruct (Z.ltb_spec (a - b + 2 ^ n) 0), (Z.ltb_spec a b); reflexivity || lia.
Qed.
Definition inr (x : Z) : Prop := 0 <= x < 2 ^ n.
Lemma inr_mod : forall x, inr x -> x mod 2 ^ n = x. Proof. intros. apply Z.mod_small. assumption. Qed.
Lemma zero_diff : forall x y, inr x -> inr y -> ((x - y) mod 2 ^ n =? 0) = (x =? y).
Proof.
  intros x y X Y. unfold inr in *. destruct (Z.eqb_spec x y) as [->|N].
  - rewrite Z.sub_diag. rewrite Z.mod_0_l by apply pow2n. reflexivity.
  - destruct (Z.eqb_spec ((x - y) mod 2 ^ n) 0) as [E|E]; [|reflexivity].
    apply Z.mod_divide in E; [|apply pow2n]. destruct E as (q & E). exfalso.
    assert (q = 0) by nia. nia.
Qed.
Lemma sext_inj : forall x y, inr x -> inr y -> sext n x = sext n y -> x = y.
Proof. intros x y X Y E. rewrite <- (inr_mod x X), <- (inr_mod y Y), <- (sext_mod_eq x), <- (sext_mod_eq y), E. reflexivity. Qed.
(** All conditions after a subtraction or comparison. *)
Lemma sub_conds : forall x y c s, inr x -> inr y ->
  xcf s = Some (x <? y) /\ xzf s = zfl n (x - y) /\ xsf s = sfl n (x - y) /\ xof s = Some (oor n (sext n x - sext n y)) ->
  conds (fun _ => True) O_SUB n x y c s.
Proof.
  intros x y c s X Y (F1 & F2 & F3 & F4). unfold conds.
  assert (B : forall t, cond t O_SUB n x y c = cond t O_SUB n x y false) by reflexivity.
  pose proof (zero_diff x y X Y) as ZD. pose proof (sig_less x y) as SL.
  assert (EQ : (sext n x =? sext n y) = (x =? y)).
  { destruct (Z.eqb_spec x y) as [->|N]; [apply Z.eqb_refl|]. apply Z.eqb_neq. intros E. apply N. apply sext_inj; auto. }
  ctypes; intros _; unfold cond_val, cond, res2, ccode; rewrite ?(inr_mod x X), ?(inr_mod y Y);
    match goal with |- context [cond_base s ?e] => let v := eval vm_compute in e in change e with v end;
    match goal with |- context [Z.odd ?e] => let v := eval vm_compute in (Z.odd e) in change (Z.odd e) with v end;
    unfold cond_base;
    repeat match goal with |- context [Z.eqb ?p ?q] => first [change (Z.eqb p q) with true | change (Z.eqb p q) with false] end;
    cbv iota; rewrite ?F1, ?F2, ?F3, ?F4; unfold zfl, sfl; rewrite ?SL, ?ZD; cbv iota; f_equal;
    destruct (Z.ltb_spec x y), (Z.eqb_spec x y); try destruct (Z.ltb_spec (sext n x) (sext n y)); try destruct (Z.eqb_spec (sext n x) (sext n y));
    cbn; try reflexivity; try discriminate; unfold out_of_range, oor; try reflexivity;
    symmetry; rewrite ?Z.ltb_lt, ?Z.ltb_ge, ?Z.leb_le, ?Z.leb_gt; try lia; try congruence.
Qed.

(** The conditions of the other operations. *)
Lemma flag_conds : forall o k x y c s, k <> O_SUB -> flags_legal k (setz o) (vf o) ->
  (setz o = true -> xzf s = Some (cond 0 k n x y c)) -> (vf o = VOverflow -> xof s = Some (cond 10 k n x y c)) -> (vf o = VCarry -> xcf s = Some (cond 12 k n x y c)) ->
  conds (requested o) k n x y c s.
Proof.
  intros o k x y c s K FL Z O C. unfold conds.
  assert (VF : match vf o with VNone | VOverflow | VCarry => True | _ => False end).
  { destruct k; cbn [flags_legal] in FL; try (contradiction K; reflexivity); intuition; repeat match goal with H : vf o = _ |- _ => rewrite H; clear H end; exact I. }
  clear FL.
  ctypes; intros R; unfold requested, needs in R; cbn in R;
    match type of R with
    | setz o = true => specialize (Z R)
    | vf o = VOverflow => specialize (O R)
    | vf o = VCarry => specialize (C R)
    | _ => exfalso; rewrite R in VF; exact VF
    end; unfold cond_val, ccode;
    match goal with |- context [cond_base s ?e] => let v := eval vm_compute in e in change e with v end;
    match goal with |- context [Z.odd ?e] => let v := eval vm_compute in (Z.odd e) in change (Z.odd e) with v end;
    unfold cond_base;
    repeat match goal with |- context [Z.eqb ?p ?q] => first [change (Z.eqb p q) with true | change (Z.eqb p q) with false] end;
    cbv iota; rewrite ?Z, ?O, ?C; reflexivity.
Qed.
Lemma none_conds : forall o k x y c s, has_flags o = false -> conds (requested o) k n x y c s.
Proof.
  intros o k x y c s F t T R. exfalso. unfold has_flags, has_v, is_v in F. apply orb_false_elim in F. destruct F as (F1 & F2).
  unfold requested, needs in R. unfold ctype in T. destruct (t <? 2) eqn:E0; [congruence|].
  destruct (vf o); try discriminate. destruct (t <? 4); [discriminate|]. destruct (t <? 6); [discriminate|]. destruct (t <? 8); [discriminate|]. destruct (t <? 10); [discriminate|]. destruct (t <? 12); discriminate.
Qed.
Lemma conds_weaken : forall (P Q : Z -> Prop) k x y c s, conds P k n x y c s -> (forall t, Q t -> P t) -> conds Q k n x y c s.
Proof. intros P Q k x y c s H I t T R. apply H; auto. Qed.

(** Values. *)
Definition aluk (k : op2k) : alu := match k with O_ADD => Add | O_ADDC => Adc | O_SUB => Sub | O_SUBC => Sbb | O_AND => And | O_OR => Or | _ => Xor end.
Definition is_alu (k : op2k) : bool := match k with O_ADD | O_ADDC | O_SUB | O_SUBC | O_AND | O_OR | O_XOR => true | _ => false end.
Lemma b2z_eq : forall c, Z.b2z c = b2z c. Proof. destruct c; reflexivity. Qed.
Lemma alu_res2 : forall k x y c, is_alu k = true -> inr x -> inr y -> alu_val (aluk k) n x y c = res2 k n x y c.
Proof.
  intros k x y c K X Y. unfold res2. rewrite (inr_mod x X), (inr_mod y Y). destruct k; try discriminate; unfold alu_val; cbn [aluk alu_res fst]; rewrite ?b2z_eq; reflexivity.
Qed.
Lemma alu_conds : forall o k x y c s, is_alu k = true -> inr x -> inr y -> flags_legal k (setz o) (vf o) -> alu_fl (aluk k) n x y c s -> conds (requested o) k n x y c s.
Proof.
  intros o k x y c s K X Y FL F. assert (KS : k = O_SUB \/ k <> O_SUB) by (destruct k; auto; right; discriminate). destruct KS as [->|KS].
  - apply (conds_weaken (fun _ => True)); [|auto]. apply sub_conds; auto.
  - apply flag_conds; auto.
    + intros Z. unfold alu_fl in F. destruct k; try discriminate; cbn [aluk alu_res] in F; destruct F as (_ & F & _); rewrite F; unfold zfl, cond, res2; rewrite (inr_mod x X), (inr_mod y Y); cbn; rewrite ?b2z_eq; reflexivity.
    + intros V. rewrite V in FL. destruct k; cbn [flags_legal] in FL; try discriminate; try (exfalso; intuition discriminate).
      unfold alu_fl in F. cbn [aluk alu_res] in F. destruct F as (_ & _ & _ & F). rewrite F. unfold cond. rewrite (inr_mod x X), (inr_mod y Y). reflexivity.
    + intros V. rewrite V in FL. destruct k; cbn [flags_legal] in FL; try discriminate; try (exfalso; intuition discriminate);
        unfold alu_fl in F; cbn [aluk alu_res] in F; destruct F as (F & _); rewrite F; unfold cond; rewrite (inr_mod x X), (inr_mod y Y); rewrite ?b2z_eq; reflexivity.
Qed.
Lemma not_xor : forall x, inr x -> Z.lxor x (2 ^ n - 1) = 2 ^ n - 1 - x.
Proof.
  intros x X. assert (Z.ones n = 2 ^ n - 1) as <- by (rewrite Z.ones_equiv; lia).
  assert (E : Z.land x (Z.lxor x (Z.ones n)) = 0).
  { apply Z.bits_inj'. intros i I. rewrite Z.land_spec, Z.lxor_spec, Z.bits_0. destruct (Z.ltb_spec i n).
    - rewrite Z.ones_spec_low by lia. destruct (Z.testbit x i); reflexivity.
    - rewrite <- (inr_mod x X), Z.mod_pow2_bits_high by (pose proof n1; lia). reflexivity. }
  apply Z.add_nocarry_lxor in E. rewrite <- Z.lxor_assoc, Z.lxor_nilpotent, Z.lxor_0_l in E. lia.
Qed.
Lemma add_disj : forall a b j, 0 <= j -> 0 <= b < 2 ^ j -> a mod 2 ^ j = 0 -> a + b = Z.lor a b.
Proof.
  intros a b j J B A. assert (E : Z.land a b = 0).
  { apply Z.bits_inj'. intros i I. rewrite Z.land_spec, Z.bits_0. destruct (Z.ltb_spec i j).
    - rewrite <- (Z.mod_pow2_bits_low a j i) by lia. rewrite A, Z.bits_0. reflexivity.
    - rewrite <- (Z.mod_small b (2 ^ j)) by lia. rewrite Z.mod_pow2_bits_high by lia. apply andb_false_r. }
  rewrite (Z.add_nocarry_lxor _ _ E). apply Z.lxor_lor. exact E.
Qed.
Lemma rot_eq : forall x c, inr x -> 0 <= c < n -> Z.lor (x * 2 ^ c) (x / 2 ^ (n - c)) mod 2 ^ n = rot_left n x c mod 2 ^ n.
Proof.
  intros x c X C. unfold rot_left. pose proof n1. unfold inr in X.
  assert (PC : 0 < 2 ^ c) by (apply Z.pow_pos_nonneg; lia). assert (PD : 0 < 2 ^ (n - c)) by (apply Z.pow_pos_nonneg; lia).
  assert (PP : 2 ^ n = 2 ^ (n - c) * 2 ^ c) by (rewrite <- Z.pow_add_r by lia; f_equal; lia).
  assert (Q : 0 <= x / 2 ^ (n - c) < 2 ^ c) by (split; [apply Z.div_pos; lia|apply Z.div_lt_upper_bound; lia]).
  rewrite (add_disj _ _ c) by (try lia; rewrite PP, Z.mul_mod_distr_r by lia; apply Z.mod_mul; lia).
  apply Z.bits_inj'. intros i I. destruct (Z.ltb_spec i n).
  - rewrite !Z.mod_pow2_bits_low by lia. rewrite !Z.lor_spec. rewrite Z.mod_pow2_bits_low by lia. reflexivity.
  - rewrite !Z.mod_pow2_bits_high by lia. reflexivity.
Qed.
Definition shkof (k : op2k) : shk := match k with O_SHL | O_MSHL => Shl | O_LSHR | O_MLSHR => Shr | O_ASHR | O_MASHR => Sar | O_ROTL => Rol | _ => Ror end.
Definition is_sh (k : op2k) : bool := match k with O_SHL | O_MSHL | O_LSHR | O_MLSHR | O_ASHR | O_MASHR | O_ROTL | O_ROTR => true | _ => false end.
Lemma sh_res2 : forall k x y c, is_sh k = true -> inr x -> inr y -> sh_res (shkof k) n x (y mod n) mod 2 ^ n = res2 k n x y c mod 2 ^ n.
Proof.
  intros k x y c K X Y. unfold res2. rewrite (inr_mod x X), (inr_mod y Y). pose proof n1. pose proof (Z.mod_pos_bound y n) as B.
  set (d := y mod n) in *. destruct k; try discriminate; cbn [shkof sh_res]; try reflexivity.
  - apply rot_eq; auto. lia.
  - destruct (Z.eqb_spec d 0) as [E|E].
    + rewrite E, Z.sub_0_r, Z.mod_same by lia. rewrite <- rot_eq by (auto; lia). rewrite Z.sub_0_r. change (2 ^ 0) with 1. rewrite Z.div_1_r, Z.mul_1_r.
      unfold inr in X. rewrite (Z.div_small x (2 ^ n)) by exact X. rewrite Z.lor_0_r.
      apply Z.bits_inj'. intros i I. destruct (Z.ltb_spec i n).
      * rewrite !Z.mod_pow2_bits_low by lia. rewrite Z.lor_spec. rewrite Z.mul_pow2_bits_low by lia. apply orb_false_r.
      * rewrite !Z.mod_pow2_bits_high by lia. reflexivity.
    + rewrite (Z.mod_small (n - d)) by lia. rewrite <- rot_eq by (auto; lia). rewrite Z.lor_comm. f_equal. f_equal. f_equal. f_equal. lia.
Qed.
End N.
