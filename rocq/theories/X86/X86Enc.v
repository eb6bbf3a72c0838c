(** The instructions written by emit_x86_instruction, seen by the decoder of the processor. *)
Require Import ZArith List Bool Lia.
From Verif Require Import Rv.RvLib Rv.RvIsa Rv.RvMem X86.X86Isa X86.X86Emit X86.X86Spec.
Import ListNotations.
Open Scope Z_scope.
Ltac Zify.zify_post_hook ::= idtac.

(** ** Finite checks *)
Fixpoint upto (n : nat) : list Z := match n with O => [] | S n => upto n ++ [Z.of_nat n] end.
Lemma upto_in : forall n x, 0 <= x < Z.of_nat n -> In x (upto n).
Proof.
  induction n; intros x H. - lia.
  - simpl upto. apply in_or_app. destruct (Z.eq_dec x (Z.of_nat n)) as [->|N]. + right. left. reflexivity. + left. apply IHn. lia.
Qed.
Lemma upto_all : forall n (p : Z -> bool), forallb p (upto n) = true -> forall x, 0 <= x < Z.of_nat n -> p x = true.
Proof. intros n p H x B. rewrite forallb_forall in H. apply H. apply upto_in. exact B. Qed.

Definition chk_byte (md k lb : Z) : bool :=
  let b := Z.lor (Z.lor (8 * k) (64 * md)) lb in
  (b / 64 =? md) && ((b / 8) mod 8 =? k) && (b mod 8 =? lb) && (b <? 256) && (0 <=? b).
Lemma byte_fields : forall md k lb, 0 <= md < 4 -> 0 <= k < 8 -> 0 <= lb < 8 ->
  let b := Z.lor (Z.lor (8 * k) (64 * md)) lb in b / 64 = md /\ (b / 8) mod 8 = k /\ b mod 8 = lb /\ 0 <= b < 256.
Proof.
  assert (H : forallb (fun md => forallb (fun k => forallb (chk_byte md k) (upto 8)) (upto 8)) (upto 4) = true) by (vm_compute; reflexivity).
  intros md k lb A B C.
  pose proof (upto_all 4 _ H md A) as H1. cbv beta in H1.
  pose proof (upto_all 8 _ H1 k B) as H2. cbv beta in H2.
  pose proof (upto_all 8 _ H2 lb C) as H3. unfold chk_byte in H3.
  repeat rewrite andb_true_iff in H3. destruct H3 as [[[[H3 H4] H5] H6] H7]. cbv zeta. lia.
Qed.
Definition chk_sib (sc ix lb : Z) : bool :=
  let b := u8 (Z.lor (Z.lor lb (Z.shiftl ix 3)) (Z.shiftl sc 6)) in
  (b / 64 =? sc) && ((b / 8) mod 8 =? ix) && (b mod 8 =? lb) && (b <? 256) && (0 <=? b).
Lemma sib_fields : forall sc ix lb, 0 <= sc < 4 -> 0 <= ix < 8 -> 0 <= lb < 8 ->
  let b := u8 (Z.lor (Z.lor lb (Z.shiftl ix 3)) (Z.shiftl sc 6)) in b / 64 = sc /\ (b / 8) mod 8 = ix /\ b mod 8 = lb /\ 0 <= b < 256.
Proof.
  assert (H : forallb (fun md => forallb (fun k => forallb (chk_sib md k) (upto 8)) (upto 8)) (upto 4) = true) by (vm_compute; reflexivity).
  intros md k lb A B C.
  pose proof (upto_all 4 _ H md A) as H1. cbv beta in H1.
  pose proof (upto_all 8 _ H1 k B) as H2. cbv beta in H2.
  pose proof (upto_all 8 _ H2 lb C) as H3. unfold chk_sib in H3.
  repeat rewrite andb_true_iff in H3. destruct H3 as [[[[H3 H4] H5] H6] H7]. cbv zeta. lia.
Qed.

(** The registers. *)
Lemma inmap_isreg : forall r, inmap r = true <-> isreg r.
Proof. intros. unfold inmap, isreg. rewrite andb_true_iff. lia. Qed.
Definition chk_reg (w : bool) (r : Z) : bool :=
  (reg_lmap w r <? 8) && (0 <=? reg_lmap w r) && (reg_map w r =? ext (8 <=? reg_map w r) (reg_lmap w r)) && (reg_map w r <? 16)
  && Bool.eqb (reg_map w r =? 4) (r =? 14) && ((reg_lmap w r <? 4) || (reg_lmap w r <? 8)).
Lemma reg_facts : forall w r, isreg r ->
  0 <= reg_lmap w r < 8 /\ reg_map w r = ext (8 <=? reg_map w r) (reg_lmap w r) /\ 0 <= reg_map w r < 16 /\ ((reg_map w r =? 4) = (r =? 14)).
Proof.
  intros w r H. unfold isreg in H.
  assert (C : forallb (chk_reg w) (upto 17) = true) by (destruct w; vm_compute; reflexivity).
  pose proof (upto_all 17 _ C r ltac:(lia)) as E. unfold chk_reg in E. repeat rewrite andb_true_iff in E.
  destruct E as [[[[[E1 E2] E3] E4] E5] E6]. apply eqb_prop in E5.
  rewrite Z.eqb_eq in E3. split; [lia|split; [exact E3|split; [|exact E5]]].
  assert (0 <= reg_map w r). { rewrite E3. unfold ext. destruct (8 <=? reg_map w r); lia. } lia.
Qed.
Lemma reg_inj : forall w r r', isreg r -> isreg r' -> 1 <= r -> 1 <= r' -> reg_map w r = reg_map w r' -> r = r'.
Proof.
  intros w r r' A B C D E. unfold isreg in *.
  assert (K : forallb (fun a => forallb (fun b => (a =? b) || (a =? 0) || (b =? 0) || negb (reg_map w a =? reg_map w b)) (upto 17)) (upto 17) = true)
    by (destruct w; vm_compute; reflexivity).
  pose proof (upto_all 17 _ K r ltac:(lia)) as K1. cbv beta in K1. pose proof (upto_all 17 _ K1 r' ltac:(lia)) as K2. cbv beta in K2.
  rewrite !orb_true_iff, negb_true_iff in K2. lia.
Qed.
Lemma freg_facts : forall r, isreg r ->
  0 <= freg_lmap r < 8 /\ freg_map r = ext (8 <=? freg_map r) (freg_lmap r) /\ 0 <= freg_map r < 16.
Proof.
  intros r H. unfold isreg in H.
  assert (C : forallb (fun r => (freg_lmap r <? 8) && (0 <=? freg_lmap r) && (freg_map r =? ext (8 <=? freg_map r) (freg_lmap r)) && (freg_map r <? 16)) (upto 17) = true)
    by (vm_compute; reflexivity).
  pose proof (upto_all 17 _ C r ltac:(lia)) as E. cbv beta in E. repeat rewrite andb_true_iff in E. destruct E as [[[E1 E2] E3] E4].
  rewrite Z.eqb_eq in E3. split; [lia|split; [exact E3|]].
  assert (0 <= freg_map r). { rewrite E3. unfold ext. destruct (8 <=? freg_map r); lia. } lia.
Qed.

(** ** Immediates *)
Lemma le_app : forall k v l, le k (lebytes k v ++ l) = Some (v mod 2 ^ (8 * Z.of_nat k), l).
Proof.
  induction k; intros v l.
  - simpl. rewrite Z.mod_1_r. reflexivity.
  - replace (lebytes (S k) v) with (v mod 256 :: lebytes k (v / 256)) by reflexivity.
    rewrite <- app_comm_cons. cbn [le]. rewrite IHk. f_equal. f_equal.
    replace (8 * Z.of_nat (S k)) with (8 + 8 * Z.of_nat k) by lia.
    rewrite Z.pow_add_r by lia. change (2 ^ 8) with 256. rewrite Z.rem_mul_r by (try apply Z.pow_pos_nonneg; lia). lia.
Qed.
Lemma sext_of_mod : forall n v, 1 <= n -> sext n (v mod 2 ^ n) = sext n v.
Proof. intros. apply sext_eq with (- (v / 2 ^ n)); [lia|]. pose proof (Z.div_mod v (2 ^ n) ltac:(apply Z.pow_nonzero; lia)). lia. Qed.
Lemma sle_app : forall k v l, (1 <= k)%nat -> sle k (lebytes k v ++ l) = Some (sext (8 * Z.of_nat k) v, l).
Proof. intros k v l H. unfold sle. rewrite le_app. rewrite sext_of_mod by lia. reflexivity. Qed.
Lemma lebytes_length : forall k v, length (lebytes k v) = k.
Proof. induction k; intros; simpl; auto. Qed.
Lemma sle1 : forall v l, sle 1 (u8 v :: l) = Some (sext 8 v, l).
Proof. intros. apply (sle_app 1 v l). lia. Qed.

(** ** Prefixes *)
Definition rexof (rex : Z) : X86Isa.rex :=
  if rex =? 0 then mkRex false false false false false else mkRex true (Z.testbit rex 3) (Z.testbit rex 2) (Z.testbit rex 1) (Z.testbit rex 0).
Definition rexbyte (r0 : Z) (b x r : bool) : Z :=
  let r1 := if b then Z.lor r0 REX_B else r0 in
  let r2 := if x then Z.lor r1 REX_X else r1 in
  if r then Z.lor r2 REX_R else r2.
Definition rex0 (m32 : bool) (f : xf) : Z := if negb m32 && negb (f_norexw f) then REX_W else if f_rex f then REX else 0.
Lemma rexof_byte : forall m32 f b x r,
  let y := rexof (rexbyte (rex0 m32 f) b x r) in
  rW y = negb m32 && negb (f_norexw f) /\ rB y = b /\ rX y = x /\ rR y = r
  /\ rP y = (negb m32 && negb (f_norexw f) || f_rex f || b || x || r).
Proof.
  intros m32 f b x r. unfold rex0. destruct (negb m32 && negb (f_norexw f)), (f_rex f), b, x, r; vm_compute; auto.
Qed.
Lemma rexbyte_cases : forall m32 f b x r, let y := rexbyte (rex0 m32 f) b x r in y = 0 \/ (y / 16 = 4 /\ y <> 0x66 /\ y <> 0xf2 /\ y <> 0xf3 /\ y <> 0).
Proof.
  intros m32 f b x r. unfold rex0. destruct (negb m32 && negb (f_norexw f)), (f_rex f), b, x, r; vm_compute; auto; right; repeat split; discriminate.
Qed.
(** What the decoder does after the prefixes. *)
Definition decop (p : pfx) (x : X86Isa.rex) (op : Z) (l : list Z) : option (instr * list Z) :=
  if op =? 0x0f then match l with op :: l => decode2 p x op l | [] => None end else decode1 p x op l.
Definition pfxbytes (f : xf) : list Z := if f_f2 f then [0xf2] else if f_f3 f then [0xf3] else if f_66 f then [0x66] else [].
Lemma get_rex_ok : forall m32 f b x r op l, opbyte op ->
  let y := rexbyte (rex0 m32 f) b x r in
  get_rex ((if y =? 0 then [] else [y]) ++ op :: l) = (rexof y, op :: l).
Proof.
  intros m32 f b x r op l H y. unfold rexof. pose proof (rexbyte_cases m32 f b x r) as RC. cbv zeta in RC. fold y in RC. destruct RC as [E|(E1 & E2 & E3 & E4 & E5)].
  - rewrite E. simpl. destruct H as (H1 & H2 & H3 & H4 & H5). destruct (Z.eqb_spec (op / 16) 4); [contradiction|reflexivity].
  - destruct (Z.eqb_spec y 0); [contradiction|]. cbn [app get_rex]. rewrite E1. reflexivity.
Qed.
Lemma get_pfx_ok : forall m32 f b x r op l, opbyte op -> 
  let y := rexbyte (rex0 m32 f) b x r in
  let t := (if y =? 0 then [] else [y]) ++ op :: l in
  get_pfx (pfxbytes f ++ t) = (want_pfx f, t).
Proof.
  intros m32 f b x r op l H y t. unfold pfxbytes, want_pfx.
  destruct (f_f2 f); [reflexivity|]. destruct (f_f3 f); [reflexivity|]. destruct (f_66 f); [reflexivity|].
  simpl app. unfold t. destruct H as (H1 & H2 & H3 & H4 & H5).
  pose proof (rexbyte_cases m32 f b x r) as RC. cbv zeta in RC. fold y in RC. destruct RC as [E|(E1 & E2 & E3 & E4 & E5)].
  - rewrite E. cbn [Z.eqb app get_pfx].
    destruct (Z.eqb_spec op 0x66); [contradiction|]. destruct (Z.eqb_spec op 0xf2); [contradiction|].
    destruct (Z.eqb_spec op 0xf3); [contradiction|reflexivity].
  - destruct (Z.eqb_spec y 0); [contradiction|]. cbn [app get_pfx].
    destruct (Z.eqb_spec y 0x66); [contradiction|]. destruct (Z.eqb_spec y 0xf2); [contradiction|].
    destruct (Z.eqb_spec y 0xf3); [contradiction|reflexivity].
Qed.
Lemma decode_ok : forall m32 f b x r op l, opbyte op ->
  let y := rexbyte (rex0 m32 f) b x r in
  decode ((pfxbytes f ++ (if y =? 0 then [] else [y])) ++ op :: l) = decop (want_pfx f) (rexof y) op l.
Proof.
  intros m32 f b x r op l H y. unfold decode. rewrite <- app_assoc. unfold y. rewrite get_pfx_ok by exact H.
  rewrite get_rex_ok by exact H. reflexivity.
Qed.

(** ** ModR/M *)
Lemma lor_md : forall k md lb, Z.lor (Z.lor (8 * k) lb) (64 * md) = Z.lor (Z.lor (8 * k) (64 * md)) lb.
Proof. intros. rewrite <- !Z.lor_assoc. f_equal. apply Z.lor_comm. Qed.
Definition fin_op (w : bool) (f : xf) (b : arg) (immb : Z) : opd :=
  match b with
  | AImm => OI 0
  | AReg r => OR (if f_sse2 f then freg_map r else reg_map w r)
  | AMem base offs =>
    OM (if base =? 0 then mkEA None None 0 immb
        else if (offs =? 0) || (offs =? 14) then mkEA (Some (reg_map w base)) None 0 immb
        else mkEA (Some (reg_map w base)) (Some (reg_map w offs)) immb 0)
  end.
Definition fin_ok (w : bool) (b : arg) (immb : Z) : Prop :=
  match b with
  | AImm => False
  | AReg r => isreg r
  | AMem base offs =>
    isreg base /\ isreg offs /\ (base = 0 -> offs = 0)
    /\ (if (offs =? 0) || (offs =? 14) then - 2 ^ 31 <= immb < 2 ^ 31 else 0 <= immb <= 3)
    /\ (offs = 0 -> base <> 0 -> reg_lmap w base <> 4)
  end.
Definition bit_b (w : bool) (f : xf) (b : arg) : bool :=
  match b with AReg r => 8 <=? (if f_sse2 f then freg_map r else reg_map w r) | AMem base _ => if base =? 0 then false else 8 <=? reg_map w base | _ => false end.
Definition bit_x (w : bool) (b : arg) : bool :=
  match b with AMem base offs => if (base =? 0) || (offs =? 0) then false else 8 <=? reg_map w offs | _ => false end.
Lemma sext32_small : forall v, - 2 ^ 31 <= v < 2 ^ 31 -> sext 32 v = v.
Proof. intros. apply sext_small; lia. Qed.
Lemma sext8_small : forall v, -128 <= v <= 127 -> sext 8 v = v.
Proof. intros. apply sext_small; [lia|]. change (2 ^ (8 - 1)) with 128. lia. Qed.
Lemma disp8_spec : forall v, disp8 v = true <-> -128 <= v <= 127.
Proof. intros. unfold disp8. rewrite andb_true_iff. lia. Qed.
(** The displacement. *)
Definition disp_part (reg : Z) (md : Z) (base index : option Z) (sc : Z) (l : list Z) : option (Z * opd * list Z) :=
  if md =? 0 then
    match base with
    | None => match sle 4 l with Some (d, l) => Some (reg, OM (mkEA None index sc d), l) | None => None end
    | _ => Some (reg, OM (mkEA base index sc 0), l)
    end
  else match sle (if md =? 1 then 1 else 4) l with Some (d, l) => Some (reg, OM (mkEA base index sc d), l) | None => None end.
Lemma modrm_mem : forall x b l md k m, b / 64 = md -> (b / 8) mod 8 = k -> b mod 8 = m -> md <> 3 -> m <> 4 -> ~ (m = 5 /\ md = 0) ->
  modrm x (b :: l) = disp_part (ext (rR x) k) md (Some (ext (rB x) m)) None 0 l.
Proof.
  intros x b l md k m <- <- <- A B C. cbv beta iota zeta delta [modrm].
  destruct (Z.eqb_spec (b / 64) 3); [contradiction|].
  destruct (Z.eqb_spec (b mod 8) 4); [contradiction|].
  destruct ((b mod 8 =? 5) && (b / 64 =? 0)) eqn:E; [exfalso; apply C; rewrite andb_true_iff in E; lia|reflexivity].
Qed.
Lemma modrm_sib : forall x b sb l md k sc ix bs, b / 64 = md -> (b / 8) mod 8 = k -> b mod 8 = 4 -> md <> 3 ->
  sb / 64 = sc -> (sb / 8) mod 8 = ix -> sb mod 8 = bs ->
  modrm x (b :: sb :: l) = disp_part (ext (rR x) k) md (if (bs =? 5) && (md =? 0) then None else Some (ext (rB x) bs))
    (if ext (rX x) ix =? 4 then None else Some (ext (rX x) ix)) sc l.
Proof.
  intros x b sb l md k sc ix bs <- <- A B <- <- <-. cbv beta iota zeta delta [modrm].
  destruct (Z.eqb_spec (b / 64) 3); [contradiction|]. rewrite A. reflexivity.
Qed.
Lemma modrm_reg : forall x b l k m, b / 64 = 3 -> (b / 8) mod 8 = k -> b mod 8 = m -> modrm x (b :: l) = Some (ext (rR x) k, OR (ext (rB x) m), l).
Proof. intros x b l k m A <- <-. cbv beta iota zeta delta [modrm]. rewrite A. reflexivity. Qed.
Lemma lor_md4 : forall k md, Z.lor (Z.lor (8 * k) (64 * md)) 4 = Z.lor (Z.lor (8 * k) (64 * md)) 4. Proof. reflexivity. Qed.
Lemma sib_no_scale : forall ix lb, Z.lor lb (Z.shiftl ix 3) = Z.lor (Z.lor lb (Z.shiftl ix 3)) (Z.shiftl 0 6).
Proof. intros. rewrite Z.shiftl_0_l, Z.lor_0_r. reflexivity. Qed.
Lemma md0 : forall k, 8 * k = Z.lor (8 * k) (64 * 0). Proof. intros. rewrite Z.mul_0_r, Z.lor_0_r. reflexivity. Qed.
Lemma put_b_ok : forall w f b immb k x l, fin_ok w b immb -> 0 <= k < 8 -> rB x = bit_b w f b -> rX x = bit_x w b ->
  modrm x (put_b w f (8 * k) b immb ++ l) = Some (ext (rR x) k, fin_op w f b immb, l).
Proof.
  intros w f b immb k x l F K HB HX. destruct b as [r| |base offs]; [|destruct F|].
  - (* register *)
    simpl in F, HB. unfold put_b. cbn [app fin_op].
    set (lm := if f_sse2 f then freg_lmap r else reg_lmap w r) in *.
    assert (L : 0 <= lm < 8 /\ (if f_sse2 f then freg_map r else reg_map w r) = ext (8 <=? (if f_sse2 f then freg_map r else reg_map w r)) lm).
    { unfold lm. destruct (f_sse2 f). - destruct (freg_facts r F) as (A & B & C). auto. - destruct (reg_facts w r F) as (A & B & C & D). auto. }
    destruct L as (L1 & L2).
    destruct (byte_fields 3 k lm ltac:(lia) K L1) as (A & B & C & D). change (64 * 3) with 0xc0 in *.
    unfold u8. rewrite Z.mod_small by exact D. rewrite (modrm_reg x _ l k lm A B C). rewrite HB, <- L2. reflexivity.
  - simpl in F. destruct F as (F1 & F2 & F3 & F4 & F5). simpl in HB, HX. unfold put_b, fin_op.
    destruct (Z.eqb_spec base 0) as [E0|E0].
    + subst base. specialize (F3 eq_refl). subst offs. simpl in F4, HX.
      destruct (byte_fields 0 k 4 ltac:(lia) K ltac:(lia)) as (A & B & C & D). rewrite <- md0 in *.
      rewrite <- !app_comm_cons.
      rewrite (modrm_sib x _ 0x25 _ 0 k 0 4 5 A B C ltac:(lia) eq_refl eq_refl eq_refl). rewrite HX. simpl (_ && _).
      change (ext false 4 =? 4) with true. unfold disp_part. change (0 =? 0) with true. cbv beta iota.
      rewrite sle_app by lia. change (8 * Z.of_nat 4) with 32. rewrite sext32_small by exact F4. reflexivity.
    + destruct (reg_facts w base F1) as (G1 & G2 & G3 & G4). destruct (reg_facts w offs F2) as (H1 & H2 & H3 & H4).
      change SLJIT_SP with 14.
      assert (XD : forall rg md m bs ix sc ll, md = (if negb (immb =? 0) || (reg_lmap w base =? 5) then (if disp8 immb then 1 else 2) else 0) ->
        m = (if (bs =? 5) && (md =? 0) then None else Some (reg_map w base)) -> bs = reg_lmap w base -> - 2 ^ 31 <= immb < 2 ^ 31 ->
        disp_part rg md m ix sc ((if negb (immb =? 0) || (reg_lmap w base =? 5) then (if disp8 immb then [u8 immb] else lebytes 4 immb) else []) ++ ll)
        = Some (rg, OM (mkEA (Some (reg_map w base)) ix sc immb), ll)).
      { intros rg md m bs ix sc ll -> -> -> R. unfold disp_part.
        destruct (Z.eqb_spec immb 0) as [I0|I0]; cbn [negb orb].
        - destruct (Z.eqb_spec (reg_lmap w base) 5) as [I5|I5].
          + rewrite (proj2 (disp8_spec immb)) by lia. simpl (_ =? _). cbn [andb]. cbn [app]. rewrite sle1.
            rewrite sext8_small by lia. reflexivity.
          + cbn [andb app]. change (0 =? 0) with true. cbv beta iota. rewrite I0. reflexivity.
        - destruct (disp8 immb) eqn:D8.
          + change (1 =? 0) with false. change (1 =? 1) with true. rewrite andb_false_r. cbv beta iota. cbn [app]. rewrite sle1.
            apply disp8_spec in D8. rewrite sext8_small by lia. reflexivity.
          + change (2 =? 0) with false. change (2 =? 1) with false. rewrite andb_false_r. cbv beta iota. rewrite sle_app by lia.
            change (8 * Z.of_nat 4) with 32. rewrite sext32_small by exact R. reflexivity. }
      destruct ((offs =? 0) || (offs =? 14)) eqn:EO.
      * (* base and displacement *)
        cbv zeta.
        set (dsp := negb (immb =? 0) || (reg_lmap w base =? 5)) in *.
        set (md := if dsp then (if disp8 immb then 1 else 2) else 0).
        assert (M : (if dsp then Z.lor (8 * k) (if disp8 immb then 64 else 128) else 8 * k) = Z.lor (8 * k) (64 * md)).
        { unfold md. destruct dsp; [destruct (disp8 immb); reflexivity|apply md0]. }
        rewrite M.
        assert (MD : 0 <= md < 3) by (unfold md; destruct dsp; [destruct (disp8 immb)|]; lia).
        rewrite <- app_assoc.
        destruct (Z.eqb_spec offs 0) as [O0|O0].
        -- specialize (F5 O0 E0). cbn [app].
           destruct (byte_fields md k (reg_lmap w base) ltac:(lia) K G1) as (A & B & C & D).
           assert (N5 : ~ (reg_lmap w base = 5 /\ md = 0)).
           { intros (N1 & N2). revert N2. unfold md, dsp. rewrite N1. rewrite orb_true_r. destruct (disp8 immb); discriminate. }
           rewrite (modrm_mem x _ _ md k (reg_lmap w base) A B C ltac:(lia) F5 N5).
           rewrite HB, <- G2. apply (XD _ md _ (reg_lmap w base) None 0 l eq_refl); [|reflexivity|exact F4].
           destruct ((reg_lmap w base =? 5) && (md =? 0)) eqn:Q; [|reflexivity]. exfalso. apply N5. rewrite andb_true_iff in Q. lia.
        -- cbn [app]. assert (O14 : offs = 14). { cbn [orb] in EO. lia. }
           destruct (byte_fields md k 4 ltac:(lia) K ltac:(lia)) as (A & B & C & D).
           rewrite sib_no_scale.
           destruct (sib_fields 0 (reg_lmap w offs) (reg_lmap w base) ltac:(lia) H1 G1) as (P & Q & R & T).
           rewrite (modrm_sib x _ _ _ md k 0 (reg_lmap w offs) (reg_lmap w base) A B C ltac:(lia) P Q R).
           rewrite HX, HB. cbn [orb]. rewrite <- G2, <- H2.
           assert (Y : (reg_map w offs =? 4) = true) by (rewrite H4; subst offs; reflexivity). rewrite Y.
           rewrite (XD _ md _ (reg_lmap w base) None 0 l eq_refl); [reflexivity| |reflexivity|exact F4]. reflexivity.
      * rewrite orb_false_iff in EO. destruct EO as (EO1 & EO2).
        set (md := if reg_lmap w base =? 5 then 1 else 0).
        assert (M : (if reg_lmap w base =? 5 then Z.lor (8 * k) 64 else 8 * k) = Z.lor (8 * k) (64 * md)).
        { unfold md. destruct (reg_lmap w base =? 5); [reflexivity|apply md0]. }
        rewrite M.
        assert (MD : 0 <= md < 2) by (unfold md; destruct (reg_lmap w base =? 5); lia).
        rewrite <- app_assoc. cbn [app].
        destruct (byte_fields md k 4 ltac:(lia) K ltac:(lia)) as (A & B & C & D).
        destruct (sib_fields immb (reg_lmap w offs) (reg_lmap w base) ltac:(lia) H1 G1) as (P & Q & R & T).
        rewrite (modrm_sib x _ _ _ md k immb (reg_lmap w offs) (reg_lmap w base) A B C ltac:(lia) P Q R).
        rewrite HX, HB. rewrite EO1. cbn [orb]. rewrite <- G2, <- H2.
        rewrite H4, EO2. unfold disp_part, md.
        destruct (Z.eqb_spec (reg_lmap w base) 5) as [I5|I5].
        -- change (1 =? 0) with false. change (1 =? 1) with true. cbn [andb app]. change (0 :: l) with (u8 0 :: l). rewrite sle1. reflexivity.
        -- reflexivity.
Qed.
