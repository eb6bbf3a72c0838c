(** emit_x86_instruction as a whole: the processor decodes exactly the requested prefix, operand size, registers, address and immediate. *)
Require Import ZArith List Bool Lia.
From Verif Require Import Rv.RvLib Rv.RvIsa Rv.RvMem X86.X86Isa X86.X86Emit X86.X86Spec X86.X86Enc.
Import ListNotations.
Open Scope Z_scope.
Ltac Zify.zify_post_hook ::= idtac.

Lemma put_b_length : forall w f m b immb, b <> AImm ->
  Z.of_nat (length (put_b w f m b immb)) =
  1 + match b with
      | AImm => 0 | AReg _ => 0
      | AMem base offs =>
        if base =? 0 then 5
        else if (offs =? 0) || (offs =? SLJIT_SP) then
          (if offs =? 0 then 0 else 1) + (if negb (immb =? 0) || (reg_lmap w base =? 5) then (if disp8 immb then 1 else 4) else 0)
        else 1 + (if reg_lmap w base =? 5 then 1 else 0)
      end.
Proof.
  intros w f m b immb H. destruct b as [r| |base offs]; [reflexivity|contradiction|].
  unfold put_b. destruct (base =? 0). { simpl length. reflexivity. }
  destruct ((offs =? 0) || (offs =? SLJIT_SP)).
  - cbv zeta. rewrite app_length. destruct (offs =? 0), (negb (immb =? 0) || (reg_lmap w base =? 5)); try (destruct (disp8 immb)); reflexivity.
  - rewrite app_length. destruct (reg_lmap w base =? 5); reflexivity.
Qed.

(** The general operand after X64:101-108. *)
Definition mid_ok (b : arg) (immb : Z) : Prop :=
  match b with
  | AImm => False
  | AReg r => isreg r
  | AMem base offs => isreg base /\ isreg offs /\ offs <> 14 /\ (base = 0 -> offs = 0) /\ (if offs =? 0 then - 2 ^ 31 <= immb < 2 ^ 31 else 0 <= immb <= 3)
  end.
Definition op_eq (w : bool) (s : xst) (b : arg) (immb : Z) (b' : arg) (immb' : Z) (s' : xst) : Prop :=
  match b, b' with
  | AReg r, AReg r' => r = r'
  | AMem base offs, AMem base' offs' => wrap (xaddr w s' base' offs' immb') = wrap (xaddr w s base offs immb)
  | _, _ => False
  end.
Lemma nothw : forall v, - 2 ^ 63 <= v < 2 ^ 63 -> not_halfword v = false -> - 2 ^ 31 <= v < 2 ^ 31.
Proof. intros v _ H. unfold not_halfword in H. rewrite orb_false_iff in H. lia. Qed.
Lemma big_disp_ok : forall w b immb, genop b immb ->
  exists b' immb', big_disp w b immb = ((if far b immb then load_imm64 w TMP_REG2 immb else []), b', immb') /\ mid_ok b' immb'
  /\ forall s, op_eq w s b immb b' immb' (after_pre w b immb s).
Proof.
  intros w b immb G. destruct b as [r| |base offs]; [|destruct G|].
  - exists (AReg r), immb. split; [reflexivity|]. split; [exact G|]. intros s. reflexivity.
  - simpl in G. destruct G as (A & B & C & D & E). unfold big_disp, far, after_pre, far.
    destruct (Z.eqb_spec offs 0) as [O|O].
    + subst offs. destruct E as (E1 & E2). destruct (not_halfword immb) eqn:N.
      * exists (if base =? 0 then AMem TMP_REG2 0 else AMem base TMP_REG2), 0. split; [reflexivity|].
        specialize (E2 eq_refl). destruct (Z.eqb_spec base 0) as [B0|B0].
        -- split. { simpl. unfold isreg, TMP_REG2. repeat split; lia. }
           intros s. simpl. unfold xaddr. subst base. change (0 =? 0) with true. change (TMP_REG2 =? 0) with false. cbv iota.
           unfold setr. cbn [xr]. rewrite Z.eqb_refl. rewrite Z.add_0_r, Z.add_0_l. apply wrap_wrap.
        -- split. { simpl. unfold isreg, TMP_REG2 in *. repeat split; try lia. }
           intros s. simpl. unfold xaddr. change (TMP_REG2 =? 0) with false. change (0 =? 0) with true.
           destruct (Z.eqb_spec base 0); [contradiction|]. cbv iota.
           unfold setr. cbn [xr]. rewrite Z.eqb_refl.
           destruct (Z.eqb_spec (reg_map w base) (reg_map w TMP_REG2)) as [Q|Q].
           { exfalso. apply E2. apply (reg_inj w base TMP_REG2 A); unfold isreg, TMP_REG2 in *; first [lia|exact Q]. }
           rewrite Z.pow_0_r, Z.mul_1_r. apply wrap_add_r.
      * exists (AMem base 0), immb. split; [reflexivity|]. split.
        { simpl. repeat split; try (unfold isreg in *; lia); apply (nothw immb E1 N). }
        intros s. reflexivity.
    + exists (AMem base offs), immb. assert (X : match offs with 0 => not_halfword immb | _ => false end = false) by (destruct offs; [contradiction|reflexivity..]).
      assert (Y : forall A (p q : A), (match offs with 0 => p | _ => q end) = q) by (intros; destruct offs; [contradiction|reflexivity..]).
      rewrite Y. rewrite X. split; [reflexivity|]. split.
      { simpl. destruct (Z.eqb_spec offs 0); [contradiction|]. auto. }
      intros s. reflexivity.
Qed.

Definition rex_b (w : bool) (f : xf) (rex : Z) (b : arg) : Z :=
  let r1 := if bit_b w f b then Z.lor rex REX_B else rex in if bit_x w b then Z.lor r1 REX_X else r1.
Lemma size_b_ok : forall w f rex b immb, mid_ok b immb ->
  exists b' sz, size_b w f rex b immb = Some (b', sz, rex_b w f rex b') /\ fin_ok w b' immb
  /\ (forall m, Z.of_nat (length (put_b w f m b' immb)) = 1 + sz)
  /\ match b with
     | AReg r => fin_op w f b' immb = OR (if f_sse2 f then freg_map r else reg_map w r)
     | AMem base offs => exists e, fin_op w f b' immb = OM e /\ forall s, eaddr s e = wrap (xaddr w s base offs immb)
     | AImm => False
     end.
Proof.
  intros w f rex b immb G. destruct b as [r| |base offs]; [|destruct G|].
  - exists (AReg r), 0. unfold size_b. rewrite (proj2 (inmap_isreg r)) by exact G.
    split. { reflexivity. }
    split; [exact G|]. split; [intros; apply put_b_length; discriminate|reflexivity].
  - simpl in G. destruct G as (A & B & C & D & E). unfold size_b. rewrite (proj2 (inmap_isreg base) A), (proj2 (inmap_isreg offs) B). cbn [andb negb].
    destruct (Z.eqb_spec base 0) as [B0|B0].
    { specialize (D B0). subst base offs. exists (AMem 0 0), 5. split; [reflexivity|].
      split. { simpl in *. repeat split; try (unfold isreg; lia). }
      split. { intros. apply put_b_length; discriminate. }
      eexists. split; [reflexivity|]. intros s. unfold eaddr, xaddr. simpl. f_equal; lia. }
    destruct (reg_facts w base A) as (G1 & G2 & G3 & G4). destruct (reg_facts w offs B) as (H1 & H2 & H3 & H4).
    destruct (negb (immb =? 0) && (offs =? 0)) eqn:C1.
    + rewrite andb_true_iff, negb_true_iff in C1. destruct C1 as (C1 & C2). rewrite Z.eqb_eq in C2. subst offs. rewrite Z.eqb_refl in E.
      rewrite Z.eqb_refl. rewrite andb_true_r.
      set (o' := if reg_lmap w base =? 4 then SLJIT_SP else 0).
      exists (AMem base o'), ((if disp8 immb then 1 else 4) + (if o' =? 0 then 0 else 1)).
      assert (L4 : o' = 0 \/ o' = 14) by (unfold o', SLJIT_SP; destruct (reg_lmap w base =? 4); auto).
      split. { unfold rex_b, bit_b, bit_x. destruct (Z.eqb_spec base 0); [contradiction|]. cbn [orb].
        destruct (Z.eqb_spec o' 0) as [Q|Q]; [rewrite Z.add_0_r|]; reflexivity. }
      split. { simpl. split; [exact A|]. split; [unfold isreg; lia|]. split; [lia|]. split.
        - destruct L4 as [L|L]; rewrite L; exact E.
        - intros Q _. unfold o', SLJIT_SP in Q. destruct (Z.eqb_spec (reg_lmap w base) 4); [discriminate|assumption]. }
      split. { intros m. rewrite put_b_length by discriminate. destruct (Z.eqb_spec base 0); [contradiction|].
        change SLJIT_SP with 14. rewrite C1. cbn [negb orb].
        destruct L4 as [L|L]; rewrite L; cbn [Z.eqb Pos.eqb orb]; lia. }
      eexists. split; [reflexivity|]. intros s. destruct (Z.eqb_spec base 0); [contradiction|].
      assert (X : (o' =? 0) || (o' =? 14) = true) by (destruct L4 as [L|L]; rewrite L; reflexivity).
      rewrite X. unfold eaddr, xaddr. cbn [eb ei esc ed rego]. destruct (Z.eqb_spec base 0); [contradiction|].
      rewrite Z.eqb_refl. f_equal. lia.
    + rewrite andb_false_iff, negb_false_iff in C1.
      destruct (reg_lmap w base =? 5) eqn:B5.
      * destruct (negb (offs =? 0) && (Z.land immb 3 =? 0) && negb (reg_lmap w offs =? 5)) eqn:SW.
        -- (* exchanged *)
          rewrite !andb_true_iff, !negb_true_iff in SW. destruct SW as ((S1 & S2) & S3). rewrite S1 in E.
          assert (I0 : immb = 0).
          { destruct (Z.eq_dec immb 0); [assumption|]. exfalso.
            assert (immb = 1 \/ immb = 2 \/ immb = 3) as [Q | [Q | Q]] by lia; subst immb; discriminate. }
          subst immb. rewrite Z.eqb_eq in B5.
          assert (OB : (reg_lmap w offs =? 4) && (base =? 0) = false) by (rewrite andb_false_iff; right; lia). rewrite OB.
          exists (AMem offs base), 1.
          assert (B14 : base <> 14).
          { intros ->. rewrite Z.eqb_refl in G4. rewrite Z.eqb_eq in G4. rewrite G4 in G2. rewrite B5 in G2. vm_compute in G2. discriminate. }
          destruct (Z.eqb_spec base 0); [contradiction|].
          split. { unfold rex_b, bit_b, bit_x. rewrite S1. destruct (Z.eqb_spec base 0); [contradiction|]. cbn [orb]. reflexivity. }
          split. { simpl. split; [exact B|]. split; [exact A|]. split; [lia|]. split.
            - destruct (Z.eqb_spec base 0); [contradiction|]. destruct (Z.eqb_spec base 14); [contradiction|]. cbn [orb]. lia.
            - intros; contradiction. }
          split. { intros m. rewrite put_b_length by discriminate. rewrite S1. change SLJIT_SP with 14.
            destruct (Z.eqb_spec base 0); [contradiction|]. destruct (Z.eqb_spec base 14); [contradiction|]. cbn [orb]. rewrite S3. reflexivity. }
          eexists. split; [reflexivity|]. intros s. rewrite S1. destruct (Z.eqb_spec base 0); [contradiction|]. destruct (Z.eqb_spec base 14); [contradiction|].
          cbn [orb]. unfold eaddr, xaddr. cbn [eb ei esc ed rego]. rewrite S1. destruct (Z.eqb_spec base 0); [contradiction|]. f_equal. lia.
        -- rewrite Z.eqb_eq in B5.
          assert (OB : (reg_lmap w base =? 4) && (offs =? 0) = false) by (rewrite andb_false_iff; left; lia). rewrite OB.
          exists (AMem base offs), (1 + (if offs =? 0 then 0 else 1)).
          split. { unfold rex_b, bit_b, bit_x. destruct (Z.eqb_spec base 0); [contradiction|]. cbn [orb].
            destruct (Z.eqb_spec offs 0) as [Q|Q]; [rewrite Z.add_0_r|]; reflexivity. }
          split. { simpl. split; [exact A|]. split; [exact B|]. split; [exact D|]. split.
            - destruct (Z.eqb_spec offs 14); [contradiction|]. rewrite orb_false_r. exact E.
            - intros; lia. }
          split. { intros m. rewrite put_b_length by discriminate. destruct (Z.eqb_spec base 0); [contradiction|]. change SLJIT_SP with 14.
            destruct (Z.eqb_spec offs 14); [contradiction|]. rewrite orb_false_r. rewrite B5. change (5 =? 5) with true. rewrite orb_true_r.
            destruct (Z.eqb_spec offs 0) as [Q|Q]; [|reflexivity].
            assert (I0 : immb = 0) by (destruct C1 as [C1|C1]; lia). rewrite I0. reflexivity. }
          eexists. split; [reflexivity|]. intros s. destruct (Z.eqb_spec base 0); [contradiction|]. destruct (Z.eqb_spec offs 14); [contradiction|].
          rewrite orb_false_r. destruct (Z.eqb_spec offs 0) as [Q|Q]; unfold eaddr, xaddr; cbn [eb ei esc ed rego];
            destruct (Z.eqb_spec base 0); try contradiction; destruct (Z.eqb_spec offs 0); try contradiction; f_equal; lia.
      * rewrite Z.eqb_neq in B5.
        set (o' := if (reg_lmap w base =? 4) && (offs =? 0) then SLJIT_SP else offs).
        assert (L4 : (o' = 14 /\ offs = 0 /\ reg_lmap w base = 4) \/ (o' = offs /\ (offs = 0 -> reg_lmap w base <> 4))).
        { unfold o', SLJIT_SP. destruct ((reg_lmap w base =? 4) && (offs =? 0)) eqn:Q. - left. rewrite andb_true_iff in Q. lia.
          - right. split; [reflexivity|]. intros Z0. subst offs. rewrite andb_true_r in Q. lia. }
        exists (AMem base o'), (if o' =? 0 then 0 else 1).
        split. { unfold rex_b, bit_b, bit_x. destruct (Z.eqb_spec base 0); [contradiction|]. cbn [orb].
          destruct (Z.eqb_spec o' 0) as [Q|Q]; reflexivity. }
        assert (I0 : offs = 0 -> immb = 0) by (intros Q; destruct C1 as [C1|C1]; lia).
        split. { simpl. split; [exact A|]. split; [unfold isreg in *; lia|]. split; [lia|].
          destruct L4 as [(L1 & L2 & L3)|(L1 & L2)].
          - rewrite L1. split; [|lia]. cbn [Z.eqb Pos.eqb orb]. rewrite L2 in E. rewrite Z.eqb_refl in E. exact E.
          - rewrite L1. split; [|intros Q _; auto]. destruct (Z.eqb_spec offs 14); [contradiction|]. rewrite orb_false_r. exact E. }
        split. { intros m. rewrite put_b_length by discriminate. destruct (Z.eqb_spec base 0); [contradiction|]. change SLJIT_SP with 14.
          destruct (Z.eqb_spec (reg_lmap w base) 5); [contradiction|].
          destruct L4 as [(L1 & L2 & L3)|(L1 & L2)]; rewrite L1.
          - rewrite (I0 L2). reflexivity.
          - destruct (Z.eqb_spec offs 14); [contradiction|]. rewrite orb_false_r. destruct (Z.eqb_spec offs 0) as [Q|Q]; [rewrite (I0 Q)|]; reflexivity. }
        eexists. split; [reflexivity|]. intros s. destruct (Z.eqb_spec base 0); [contradiction|].
        destruct L4 as [(L1 & L2 & L3)|(L1 & L2)]; rewrite L1.
        -- cbn [Z.eqb Pos.eqb orb]. unfold eaddr, xaddr. cbn [eb ei esc ed rego]. destruct (Z.eqb_spec base 0); [contradiction|]. rewrite L2. rewrite Z.eqb_refl.
           f_equal. lia.
        -- destruct (Z.eqb_spec offs 14); [contradiction|]. rewrite orb_false_r.
           destruct (Z.eqb_spec offs 0) as [Q|Q]; unfold eaddr, xaddr; cbn [eb ei esc ed rego];
            destruct (Z.eqb_spec base 0); try contradiction; destruct (Z.eqb_spec offs 0); try contradiction; f_equal; lia.
Qed.

(** ** emit_load_imm64 *)
Lemma decode1_mov_imm : forall x k l, 0 <= k < 8 -> rW x = true ->
  decode1 PNone x (0xb8 + k) l = match sle 8 l with Some (v, l) => Some (XMov 64 (OR (ext (rB x) k)) (OI v), l) | None => None end.
Proof.
  intros x k l H W. assert (k = 0 \/ k = 1 \/ k = 2 \/ k = 3 \/ k = 4 \/ k = 5 \/ k = 6 \/ k = 7) as K by lia.
  unfold decode1, osize. rewrite W.
  destruct K as [K | [K | [K | [K | [K | [K | [K | K]]]]]]]; subst k; reflexivity.
Qed.
Lemma lor_b8 : forall k, 0 <= k < 8 -> u8 (Z.lor 0xb8 k) = 0xb8 + k.
Proof.
  intros k H. assert (k = 0 \/ k = 1 \/ k = 2 \/ k = 3 \/ k = 4 \/ k = 5 \/ k = 6 \/ k = 7) as K by lia.
  destruct K as [K | [K | [K | [K | [K | [K | [K | K]]]]]]]; subst k; reflexivity.
Qed.
Lemma steps_trans : forall u l s l1 s1 l2 s2, steps u l s l1 s1 -> steps u l1 s1 l2 s2 -> steps u l s l2 s2.
Proof. intros u l s l1 s1 l2 s2 H. induction H; intros; auto. econstructor; eauto. Qed.
Lemma runs_app : forall u l l' s s1 s2, runs u l s s1 -> runs u l' s1 s2 -> runs u (l ++ l') s s2.
Proof. intros u l l' s s1 s2 A B rest. rewrite <- app_assoc. eapply steps_trans; [apply A|apply B]. Qed.
Lemma runs_nil : forall u s, runs u [] s s.
Proof. intros u s rest. constructor. Qed.
Lemma runs_instr : forall u l i s s', (forall rest, decode (l ++ rest) = Some (i, rest)) -> (forall c d, i <> XJcc c d) -> exec u s i = Some s' -> runs u l s s'.
Proof.
  intros u l i s s' D J E rest. econstructor; [|constructor]. unfold step. rewrite D.
  destruct i; try (rewrite E; reflexivity). exfalso. eapply J; reflexivity.
Qed.
Lemma decode_load_imm64 : forall w r imm rest, isreg r ->
  decode (load_imm64 w r imm ++ rest) = Some (XMov 64 (OR (reg_map w r)) (OI (sext 64 imm)), rest).
Proof.
  intros w r imm rest R. destruct (reg_facts w r R) as (A & B & C & D).
  unfold load_imm64. rewrite lor_b8 by exact A. rewrite <- !app_comm_cons.
  set (x := mkRex true true false false (8 <=? reg_map w r)).
  assert (G : forall l, get_rex ((if reg_map w r <=? 7 then REX_W else Z.lor REX_W REX_B) :: l) = (x, l)).
  { intros l. unfold x. destruct (Z.leb_spec (reg_map w r) 7), (Z.leb_spec 8 (reg_map w r)); try lia; reflexivity. }
  unfold decode.
  assert (P : forall l, get_pfx ((if reg_map w r <=? 7 then REX_W else Z.lor REX_W REX_B) :: l) = (PNone, (if reg_map w r <=? 7 then REX_W else Z.lor REX_W REX_B) :: l)).
  { intros l. destruct (reg_map w r <=? 7); reflexivity. }
  rewrite P, G. destruct (Z.eqb_spec (184 + reg_lmap w r) 15); [lia|].
  rewrite decode1_mov_imm by (auto || reflexivity). rewrite sle_app by lia. change (8 * Z.of_nat 8) with 64.
  unfold x. cbn [rB]. rewrite <- B. reflexivity.
Qed.
Lemma sext64_wrap : forall v, (sext 64 v) mod 2 ^ 64 = wrap v.
Proof. intros. destruct (sext_mod 64 v ltac:(lia)) as (k & E). unfold wrap. rewrite E at 2. rewrite Z.mod_add by lia. reflexivity. Qed.
Lemma mod_wrap : forall v, v mod 2 ^ 64 = wrap v. Proof. reflexivity. Qed.
Lemma load_imm64_ok : forall u w r imm s, isreg r -> runs u (load_imm64 w r imm) s (setr s (reg_map w r) (wrap imm)).
Proof.
  intros u w r imm s R. eapply runs_instr; [intros; apply decode_load_imm64; exact R|discriminate|].
  cbn [exec wro rdo]. change (64 <? 32) with false. cbv iota. rewrite !sext64_wrap. rewrite mod_wrap, wrap_wrap. reflexivity.
Qed.

(** ** emit_x86_instruction *)
Lemma or_hd_put_b : forall w f d b immb t, fin_ok w b immb -> 0 <= d < 8 ->
  or_hd (8 * d) (put_b w f 0 b immb ++ t) = put_b w f (8 * d) b immb ++ t.
Proof.
  intros w f d b immb t F D. destruct b as [r| |base offs]; [|destruct F|].
  - simpl in F. unfold put_b. cbn [app or_hd]. f_equal.
    set (lm := if f_sse2 f then freg_lmap r else reg_lmap w r).
    assert (L : 0 <= lm < 8) by (unfold lm; destruct (f_sse2 f); [apply freg_facts|apply reg_facts]; exact F).
    destruct (byte_fields 3 d lm ltac:(lia) D L) as (_ & _ & _ & B1). destruct (byte_fields 3 0 lm ltac:(lia) ltac:(lia) L) as (_ & _ & _ & B2).
    change (64 * 3) with 192 in *. change (8 * 0) with 0 in *. unfold u8. rewrite !Z.mod_small by assumption.
    rewrite Z.lor_0_l. rewrite (Z.lor_comm (8 * d) 192). rewrite <- !Z.lor_assoc. f_equal. apply Z.lor_comm.
  - assert (C1 : forall m v, Z.lor (Z.lor 0 m) v = Z.lor m v) by (intros; rewrite Z.lor_0_l; reflexivity).
    assert (C2 : forall y, Z.lor (Z.lor 0 y) (8 * d) = Z.lor (8 * d) y) by (intros; rewrite Z.lor_0_l; apply Z.lor_comm).
    assert (C3 : forall y z, Z.lor (Z.lor (Z.lor 0 y) z) (8 * d) = Z.lor (Z.lor (8 * d) y) z).
    { intros. rewrite Z.lor_0_l. rewrite (Z.lor_comm (8 * d) y). rewrite <- !Z.lor_assoc. f_equal. apply Z.lor_comm. }
    unfold put_b. destruct (base =? 0). { rewrite <- !app_comm_cons. cbn [or_hd]. rewrite C2. reflexivity. }
    destruct ((offs =? 0) || (offs =? SLJIT_SP)).
    + cbv zeta. destruct (offs =? 0), (negb (immb =? 0) || (reg_lmap w base =? 5)); cbn [app or_hd]; rewrite ?C3, ?C2; reflexivity.
    + destruct (reg_lmap w base =? 5); cbn [app or_hd]; rewrite ?C3, ?C2; reflexivity.
Qed.

Lemma rexof_full : forall m32 f w b (r : bool),
  let y := rexof (if r then Z.lor (rex_b w f (rex0 m32 f) b) REX_R else rex_b w f (rex0 m32 f) b) in
  rW y = negb m32 && negb (f_norexw f) /\ rB y = bit_b w f b /\ rX y = bit_x w b /\ rR y = r
  /\ rP y = (negb m32 && negb (f_norexw f) || f_rex f || bit_b w f b || bit_x w b || r).
Proof. intros. apply (rexof_byte m32 f (bit_b w f b) (bit_x w b) r). Qed.

(** The register field of the first operand. *)
Definition want_reg (w : bool) (f : xf) (a : arg) : Z :=
  match a with AReg r => if f_shift f then 0 else if f_sse1 f then freg_map r else reg_map w r | _ => 0 end.
Definition digit_ok (f : xf) (a : arg) (d : Z) : Prop := 0 <= d < 8 /\ (is_imm a = false -> f_shift f = false -> a <> AReg 0 -> d = 0).
Definition want_first (f : xf) (a : arg) (imma : Z) : option Z :=
  if f_shift f then Some (if is_imm a then (if imma =? 1 then 0xd1 else 0xc1) else 0xd3)
  else if f_bin f && is_imm a then Some (if disp8 imma then 0x83 else 0x81) else None.
Record encodes (w m32 : bool) (f : xf) (a : arg) (imma : Z) (b : arg) (immb : Z) (o : xo) (x : X86Isa.rex) (opn : opd) : Prop := {
  en_pre : o_pre o = (if far b immb then load_imm64 w TMP_REG2 immb else []);
  en_hole : o_hole o = f_size f;
  en_first : o_first o = want_first f a imma;
  en_dec : forall op l, opbyte op -> decode (o_head o ++ op :: l) = decop (want_pfx f) x op l;
  en_W : rW x = negb m32 && negb (f_norexw f);
  en_P : rP x = (negb m32 && negb (f_norexw f) || f_rex f || rB x || rX x || rR x);
  en_op : same_operand w f b immb opn;
  en_rm : forall d l, digit_ok f a d ->
    modrm x (or_hd (8 * d) (o_tail o) ++ l) = Some (want_reg w f a + d, opn, lebytes (imm_size f a imma) imma ++ l);
  en_rex : forall op l, opbyte op -> pref f = false -> get_rex (o_head o ++ op :: l) = (x, op :: l) }.

Lemma or_hd_app : forall d t l, t <> [] -> or_hd d t ++ l = or_hd d (t ++ l).
Proof. intros d t l H. destruct t; [contradiction|reflexivity]. Qed.
Theorem emit_x86_ok : forall w m32 f a imma b immb, flags_ok f -> firstop m32 f a imma -> genop b immb ->
  exists o x opn, emit_x86 w m32 f a imma b immb = Some o /\ encodes w m32 f a imma b immb o x opn.
Proof.
  intros w m32 f a imma b immb FO AO G.
  destruct FO as (F0 & F1 & F2 & F3 & F4 & F5 & F6 & F7).
  unfold emit_x86.
  assert (AS : asserts m32 f a imma = true).
  { unfold asserts. repeat rewrite andb_true_iff.
    split; [split; [split; [split; [split; [split|]|]|]|]|].
    - destruct a; try reflexivity. simpl. destruct m32; [reflexivity|]. simpl in *.
      destruct AO as (_ & _ & AO). unfold is_halfword. rewrite andb_true_iff. destruct (f_shift f); lia.
    - destruct (f_bin f), (f_shift f); try reflexivity. exfalso. auto.
    - destruct (f_bin f), (f_shift f); try reflexivity; destruct F2 as (F21 & F22); auto; rewrite F21, F22; reflexivity.
    - destruct (f_byte f), (f_half f); try reflexivity. exfalso. auto.
    - destruct a; try reflexivity. simpl in *. destruct AO as (A1 & A2 & _). rewrite A1, A2. reflexivity.
    - destruct (f_66 f), (f_f2 f), (f_f3 f); try reflexivity; exfalso; auto.
    - rewrite F7. reflexivity. }
  rewrite AS. cbn [negb].
  destruct (big_disp_ok w b immb G) as (b1 & i1 & E1 & M1 & Q1). rewrite E1.
  change (if negb m32 && negb (f_norexw f) then REX_W else if f_rex f then REX else 0) with (rex0 m32 f).
  destruct (size_b_ok w f (rex0 m32 f) b1 i1 M1) as (b2 & szb & E2 & M2 & L2 & Q2). rewrite E2.
  rewrite F7. cbn [andb].
  (* the first operand *)
  set (rR' := match a with AReg r => 8 <=? (if f_sse1 f then freg_map r else reg_map w r) | _ => false end).
  set (rex := if rR' then Z.lor (rex_b w f (rex0 m32 f) b2) REX_R else rex_b w f (rex0 m32 f) b2).
  assert (SA : exists sza byte, size_a w m32 f (rex_b w f (rex0 m32 f) b2) a imma = Some (sza, byte, rex)
    /\ (is_imm a = false -> sza = 0)
    /\ (is_imm a = true -> (if byte then [u8 imma] else if f_half f then lebytes 2 imma else if f_shift f then [] else lebytes 4 imma) = lebytes (imm_size f a imma) imma
        /\ sza = Z.of_nat (imm_size f a imma) /\ (f_bin f = true -> byte = disp8 imma))).
  { destruct a as [r| |? ?]; [| |destruct AO].
    - simpl in AO. destruct AO as (A1 & A2). unfold size_a. rewrite (proj2 (inmap_isreg r) A1).
      assert (X : negb (f_shift f) || (r =? PREF_SHIFT_REG) = true).
      { destruct (f_shift f); [|reflexivity]. destruct (A2 eq_refl) as (A3 & _). subst r. reflexivity. }
      rewrite X. cbn [andb]. exists 0, (f_byte f). split; [reflexivity|]. split; [reflexivity|]. discriminate.
    - simpl in AO. destruct AO as (A1 & A2 & A3). unfold size_a, imm_size. fold rex.
      assert (D8 : (-128 <=? imma) && (imma <=? 127) = disp8 imma) by (unfold disp8; apply andb_comm). rewrite D8.
      assert (RX : rex_b w f (rex0 m32 f) b2 = rex) by reflexivity. rewrite RX.
      destruct (f_bin f) eqn:FB.
      + destruct (F2 (or_introl eq_refl)) as (Y1 & Y2).
        assert (FS : f_shift f = false) by (destruct (f_shift f); [exfalso; auto|reflexivity]).
        destruct (disp8 imma); eexists _, _; (split; [reflexivity|]); split; try discriminate; intros _; rewrite ?Y1, ?Y2, ?FS; auto.
      + destruct (f_shift f) eqn:FS.
        * destruct (F2 (or_intror eq_refl)) as (Y1 & Y2).
          assert (X : (imma <=? (if m32 then 31 else 63)) = true) by (destruct m32; lia). rewrite X.
          destruct (imma =? 1); eexists _, _; (split; [reflexivity|]); split; try discriminate; intros _; rewrite ?Y1, ?Y2; repeat split; discriminate.
        * destruct (f_byte f) eqn:FY.
          -- eexists _, _; (split; [reflexivity|]); split; try discriminate; intros _; repeat split; discriminate.
          -- destruct (f_half f); eexists _, _; (split; [reflexivity|]); split; try discriminate; intros _; repeat split; discriminate. }
  destruct SA as (sza & byte & SA & SA1 & SA2). rewrite SA. clear SA.
  (* the number of bytes *)
  set (m := if f_shift f then 0 else match a with AReg r => u8 (Z.shiftl (if f_sse1 f then freg_lmap r else reg_lmap w r) 3) | _ => 0 end).
  set (imms := if is_imm a then (if byte then [u8 imma] else if f_half f then lebytes 2 imma else if f_shift f then [] else lebytes 4 imma) else []).
  assert (IM : imms = lebytes (imm_size f a imma) imma).
  { unfold imms. destruct a; simpl is_imm; try reflexivity. apply SA2. reflexivity. }
  assert (SZ : sza = Z.of_nat (length imms)).
  { rewrite IM, lebytes_length. destruct a; simpl is_imm in *; try (rewrite SA1 by reflexivity; reflexivity). apply SA2. reflexivity. }
  assert (LEN : Z.of_nat (length ((if f_f2 f then [0xf2] else if f_f3 f then [0xf3] else if f_66 f then [0x66] else []) ++ (if rex =? 0 then [] else [rex])))
      + f_size f + Z.of_nat (length (put_b w f m b2 i1 ++ imms))
    =? f_size f + 1 + (if pref f then 1 else 0) + szb + sza + (if rex =? 0 then 0 else 1) = true).
  { rewrite Z.eqb_eq. rewrite !app_length, !Nat2Z.inj_add, L2, <- SZ.
    assert (X : Z.of_nat (length (if rex =? 0 then [] else [rex])) = if rex =? 0 then 0 else 1) by (destruct (rex =? 0); reflexivity). rewrite X.
    assert (Y : Z.of_nat (length (if f_f2 f then [0xf2] else if f_f3 f then [0xf3] else if f_66 f then [0x66] else [])) = if pref f then 1 else 0)
      by (unfold pref; destruct (f_f2 f), (f_f3 f), (f_66 f); reflexivity). rewrite Y. lia. }
  rewrite LEN. clear LEN.
  exists (mkO (if far b immb then load_imm64 w TMP_REG2 immb else []) (pfxbytes f ++ (if rex =? 0 then [] else [rex])) (f_size f)
     (if f_shift f then Some (if is_imm a then (if imma =? 1 then 0xd1 else 0xc1) else 0xd3) else if f_bin f && is_imm a then Some (if byte then 0x83 else 0x81) else None)
     (put_b w f m b2 i1 ++ imms)).
  exists (rexof rex), (fin_op w f b2 i1). split; [reflexivity|].
  destruct (rexof_full m32 f w b2 rR') as (X1 & X2 & X3 & X4 & X5). fold rex in X1, X2, X3, X4, X5.
  constructor; cbn [o_pre o_head o_hole o_first o_tail].
  - reflexivity.
  - reflexivity.
  - unfold want_first. destruct (f_shift f); [reflexivity|]. destruct (f_bin f) eqn:FB; [|reflexivity]. destruct a; simpl; try reflexivity.
    destruct (SA2 eq_refl) as (_ & _ & Q). rewrite Q by reflexivity. reflexivity.
  - intros op l O. apply (decode_ok m32 f (bit_b w f b2) (bit_x w b2) rR' op l O).
  - exact X1.
  - rewrite X2, X3, X4. exact X5.
  - destruct b as [r| |base offs]; [|destruct G|].
    + specialize (Q1 (mkX (fun _ => 0) None None None None (fun _ => 0))). simpl in Q1. destruct b1 as [r1| |? ?]; try contradiction. subst r1. rewrite Q2. reflexivity.
    + destruct b1 as [r1| |base1 offs1].
      * specialize (Q1 (mkX (fun _ => 0) None None None None (fun _ => 0))). destruct Q1.
      * specialize (Q1 (mkX (fun _ => 0) None None None None (fun _ => 0))). destruct Q1.
      * destruct Q2 as (e & Q2 & Q3). rewrite Q2. simpl. intros s. rewrite Q3. apply (Q1 s).
  - intros d l (D1 & D2).
    assert (NE : put_b w f m b2 i1 ++ imms <> []).
    { intros E. apply (f_equal (@length Z)) in E. rewrite app_length in E. cbn [length] in E.
      assert (B2 : b2 <> AImm) by (intros ->; destruct M2).
      pose proof (put_b_length w f m b2 i1 B2) as PL. pose proof (L2 m) as PL2.
      assert (N : length (put_b w f m b2 i1) = 0%nat) by lia.
      destruct b2 as [r2| |base2 offs2]; [discriminate|contradiction|].
      revert N. unfold put_b. destruct (base2 =? 0); [discriminate|]. destruct ((offs2 =? 0) || (offs2 =? SLJIT_SP)); cbv zeta; rewrite app_length; [destruct (offs2 =? 0)|]; simpl; lia. }
    rewrite or_hd_app by exact NE. rewrite <- app_assoc, IM.
    set (tl := lebytes (imm_size f a imma) imma ++ l).
    destruct (is_imm a || f_shift f || match a with AReg r => r =? 0 | _ => false end) eqn:IS.
    + assert (M0 : m = 0).
      { unfold m. destruct (f_shift f); [reflexivity|]. destruct a as [r| |? ?]; try reflexivity. simpl in IS. rewrite Z.eqb_eq in IS. subst r.
        destruct (f_sse1 f), w; reflexivity. }
      assert (R0 : rR' = false).
      { unfold rR'. destruct a as [r| |? ?]; try reflexivity. simpl in IS. simpl in AO. destruct AO as (_ & AO). rewrite orb_true_iff in IS. destruct IS as [IS|IS].
        - destruct (AO IS) as (A1 & A2). subst r. rewrite A2. destruct w; reflexivity.
        - rewrite Z.eqb_eq in IS. subst r. destruct (f_sse1 f), w; reflexivity. }
      rewrite M0. rewrite or_hd_put_b by assumption. rewrite (put_b_ok w f b2 i1 d (rexof rex) tl M2 D1 X2 X3).
      rewrite X4, R0. cbn [ext].
      assert (WR : want_reg w f a = 0).
      { unfold want_reg. destruct a as [r| |? ?]; try reflexivity. simpl in IS. destruct (f_shift f); [reflexivity|]. simpl in IS. rewrite Z.eqb_eq in IS. subst r.
        destruct (f_sse1 f), w; reflexivity. }
      rewrite WR. reflexivity.
    + rewrite !orb_false_iff in IS. destruct IS as ((I1 & I2) & I3).
      specialize (D2 I1 I2). assert (NA : a <> AReg 0) by (intros ->; discriminate). specialize (D2 NA). subst d.
      destruct a as [r| |? ?]; [|discriminate|destruct AO]. simpl in AO. destruct AO as (A1 & _).
      set (k := if f_sse1 f then freg_lmap r else reg_lmap w r).
      assert (KB : 0 <= k < 8) by (unfold k; destruct (f_sse1 f); [apply freg_facts|apply reg_facts]; exact A1).
      assert (MK : m = 8 * k).
      { unfold m. rewrite I2. fold k. unfold u8. rewrite Z.shiftl_mul_pow2 by lia. rewrite Z.mod_small by lia. lia. }
      change (8 * 0) with 0.
      assert (OZ : forall t, or_hd 0 t = t) by (destruct t; [reflexivity|]; simpl; rewrite Z.lor_0_r; reflexivity).
      rewrite OZ, MK. rewrite (put_b_ok w f b2 i1 k (rexof rex) tl M2 KB X2 X3).
      rewrite X4. unfold want_reg. rewrite I2. rewrite Z.add_0_r. f_equal. f_equal. f_equal.
      unfold rR', k. destruct (f_sse1 f); [destruct (freg_facts r A1) as (_ & Q & _)|destruct (reg_facts w r A1) as (_ & Q & _)]; symmetry; exact Q.
  - intros op l O PF. assert (PB : pfxbytes f = []) by (unfold pfxbytes, pref in *; destruct (f_f2 f), (f_f3 f), (f_66 f); try discriminate; reflexivity).
    rewrite PB. cbn [app]. apply (get_rex_ok m32 f (bit_b w f b2) (bit_x w b2) rR' op l O).
Qed.
