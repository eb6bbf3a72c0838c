(** Symbolic execution of the cases of emit_single_op. *)
Require Import ZArith List Bool Lia Zify ZifyBool.
From Verif Require Import Rv.RvLib Rv.RvBits Rv.RvIsa Rv.RvEnc Rv.RvImm Rv.RvRun Rv.RvImmProofs Rv.RvCtl Rv.RvWf Rv.RvMem Rv.RvRunMem Rv.RvOp Rv.RvLir Rv.RvCanon Rv.RvOpLib.
Import ListNotations.
Open Scope Z_scope.
Ltac Zify.zify_post_hook ::= idtac.

(** ** Symbolic execution *)
Ltac vl := unfold vreg in *; lia.
Lemma rd_wr_eq s r v q : q = r -> vreg r -> r <> 0 -> rd (wr s r v) q = v.
Proof. intros ->. apply rd_wr_same. Qed.
Ltac rdw :=
  repeat match goal with
  | |- context [rd (wr ?s ?r ?v) ?r] => rewrite (rd_wr_same s r v) by vl
  | |- context [rd (wr ?s ?r ?v) ?q] => rewrite (rd_wr_other s r v q) by vl
  | |- context [rd (wr ?s ?r ?v) ?q] => rewrite (rd_wr_eq s r v q) by vl
  end; rewrite ?rd_0.
Ltac iw := repeat first [ assumption | apply canon_isw | apply wrap_isw | apply b2z_isw | apply isw_0 | apply land_isw | apply lor_isw | apply lxor_isw | apply wf_rd ].
(** One instruction whose word bit is [wd f]. *)
Ltac sxw f :=
  match goal with
  | |- ok (E32 (ADD .| _ .| RD _ .| RS1 _ .| RS2 _)) _ _ => apply (x_ADD _ _ f); [vl|vl|vl|]
  | |- ok (E32 (SUB .| _ .| RD _ .| RS1 _ .| RS2 _)) _ _ => apply (x_SUB _ _ f); [vl|vl|vl|]
  | |- ok (E32 (MUL .| _ .| RD _ .| RS1 _ .| RS2 _)) _ _ => apply (x_MUL _ _ f); [vl|vl|vl|]
  | |- ok (E32 (SLL .| _ .| RD _ .| RS1 _ .| RS2 _)) _ _ => apply (x_SLL _ _ f); [vl|vl|vl|]
  | |- ok (E32 (SRL .| _ .| RD _ .| RS1 _ .| RS2 _)) _ _ => apply (x_SRL _ _ f); [vl|vl|vl|rdw; iw|]
  | |- ok (E32 (SRA .| _ .| RD _ .| RS1 _ .| RS2 _)) _ _ => apply (x_SRA _ _ f); [vl|vl|vl|]
  | |- ok (E32 (ADDI .| _ .| RD _ .| RS1 _ .| IMM_I _)) _ _ => apply (x_ADDI _ _ f); [vl|vl|]
  | |- ok (E32 (SLLI .| _ .| RD _ .| RS1 _ .| IMM_I _)) _ _ => apply (x_SLLI _ _ f); [vl|vl|try vl|]
  | |- ok (E32 (SRLI .| _ .| RD _ .| RS1 _ .| IMM_I _)) _ _ => apply (x_SRLI _ _ f); [vl|vl|try vl|rdw; iw|]
  | |- ok (E32 (SRAI .| _ .| RD _ .| RS1 _ .| IMM_I _)) _ _ => apply (x_SRAI _ _ f); [vl|vl|try vl|]
  end.
(** One instruction with a constant opcode. *)
Ltac sxc :=
  lazymatch goal with
  | |- ok (E32 (?k .| RD ?d .| RS1 ?a .| RS2 ?b)) ?s ?P =>
    let x := eval vm_compute in (dec_R k) in
    lazymatch x with
    | Some ?o => apply (x_R s P k o d a b eq_refl); [vl|vl|vl|cbn [alu]]
    | None => let y := eval vm_compute in (dec_RW k) in
      lazymatch y with Some ?o => apply (x_RW s P k o d a b eq_refl); [vl|vl|vl|cbn [aluw]] end
    end
  | |- ok (E32 (?k .| RD ?d .| RS1 ?a .| IMM_I ?i)) ?s ?P =>
    let x := eval vm_compute in (dec_I k) in
    lazymatch x with
    | Some ?o => apply (x_I s P k o d a i eq_refl); [vl|vl|cbn [alui]]
    | None => let y := eval vm_compute in (dec_Sh k) in
      lazymatch y with
      | Some ?o => apply (x_Sh s P k o d a i eq_refl); [vl|vl|vl|cbn [alush]]
      | None => let z := eval vm_compute in (dec_ShW k) in
        lazymatch z with Some ?o => apply (x_ShW s P k o d a i eq_refl); [vl|vl|vl|cbn [alush]] end
      end
    end
  | |- ok (E32 (?k .| RD ?d .| RS1 ?a)) ?s ?P =>
    let x := eval vm_compute in (dec_Un k) in
    lazymatch x with Some ?o => apply (x_Un s P k o d a eq_refl); [vl|vl|cbn [aluun]] end
  end.
Ltac sx1 f :=
  cbv beta; cbn [ifE];
  lazymatch goal with
  | |- ok (_ ;; _) _ _ => apply ok_then
  | |- ok (_ ;? _) _ _ => apply ok_ign
  | |- ok ENop _ _ => apply ok_nop
  | |- ok (E32 (_ .| wd _ .| RD _ .| RS1 _ .| RS2 _)) _ _ => sxw f; rdw
  | |- ok (E32 (_ .| wd _ .| RD _ .| RS1 _ .| IMM_I _)) _ _ => sxw f; rdw
  | |- ok (E32 _) _ _ => sxc; rdw
  | |- ok (mv_reg _ _ _) _ _ => apply x_mv; [vl|vl|first [vl | intros; match goal with H : cC _ = true -> _ |- _ => apply H; solve [assumption | vl] end]|rdw; iw|]; rdw
  | |- ok (add_imm _ _ _ _ _) _ _ => apply (x_add_imm _ _ f); [vl|vl|vl|vl|]; rdw
  | |- ok (sub_reg _ _ _ _ _) _ _ => apply (x_sub_reg _ _ f); [vl|vl|vl|]; rdw
  | |- ok (emit_add _ _ _ _ _) _ _ => apply (x_emit_add _ _ f); [vl|vl|vl|]; rdw
  end.
Ltac kps := repeat (apply keeps_wr; [vl|cbn [In]; tauto|]); first [apply keeps_refl | assumption].


(** Where the registers of emit_single_op come from (emit_op). *)
Definition dreg (r : Z) : Prop := 1 <= r <= 23 \/ r = 26.
Definition s1reg (r : Z) : Prop := 0 <= r <= 23 \/ r = 25.
Definition s2reg (r : Z) : Prop := 0 <= r <= 23 \/ r = 25 \/ r = 26.
(** The second operand: an immediate or a register. *)
Definition opnd (s : mst) (f : bool) (i2 : bool) (src2 b : Z) : Prop :=
  if i2 then -2048 <= src2 <= 2047 /\ src2 <> 0 /\ wrap src2 = canon (nbits f) b else s2reg src2 /\ rd s src2 = canon (nbits f) b.
(** Result and flags. *)
Definition post2 (o : op) (u : bool) (dst : Z) (s : mst) (res : Z) (fl : bool) (s' : mst) : Prop :=
  keeps s s' [dst; 25; 26; 28; 29] /\
  (u = false -> rd s' dst = canon (nbits (f32 o)) res) /\
  (setz o = true -> (rd s' 28 =? 0) = (res mod 2 ^ nbits (f32 o) =? 0)) /\
  (has_v o = true -> rd s' 29 = b2z fl).

Ltac prep o := unfold so_add, so_addc, so_sub, so_sub_pre, so_sub_cmp, so_sub_other, so_subc, so_overflow, so_overflow_pre, so_mul, so_shift, so_rot, emit_logical, word,
  EQUAL_FLAG, OTHER_FLAG, TMP_REG1, TMP_REG2, TMP_REG3, TMP_ZERO, SIMM_MIN in *;
  unfold dreg, s1reg, s2reg in *; change (if f32 o then 8 else 0) with (wd (f32 o)); cbv zeta.
Ltac cnz := repeat match goal with H : rd _ ?r = canon _ _ |- _ => rewrite H | H : sext 12 _ = _ |- _ => rewrite H | H : canon _ _ = canon _ _ |- _ => rewrite H | H : wrap _ = canon _ _ |- _ => rewrite H end;
  rewrite ?canon_add_l, ?canon_add_r, ?canon_sub_l, ?canon_sub_r, ?canon_land, ?canon_lor, ?canon_lxor, ?canon_ltu, ?canon_canon.
Lemma imm_add f b i x : -2048 <= i <= 2047 -> wrap i = canon (nbits f) b -> canon (nbits f) (x + i) = canon (nbits f) (x + b).
Proof.
  intros Hi Wi. rewrite <- (canon_add_r f x i), <- (canon_add_r f x b). rewrite (canon_small f i) by lia. rewrite Wi. reflexivity.
Qed.
Lemma imm_sub f b i x : -2048 <= i <= 2047 -> wrap i = canon (nbits f) b -> canon (nbits f) (x + - i) = canon (nbits f) (x - b).
Proof.
  intros Hi Wi. replace (x + - i) with (x - i) by lia. rewrite <- (canon_sub_r f x i), <- (canon_sub_r f x b). rewrite (canon_small f i) by lia. rewrite Wi. reflexivity.
Qed.
Lemma wrap_m1 f : wrap (-1) = canon (nbits f) (-1). Proof. symmetry. apply canon_small. lia. Qed.
Lemma sb_imm f b i : 0 <= b < 2 ^ nbits f -> -2048 <= i <= 2047 -> wrap i = canon (nbits f) b -> sb (nbits f) b = (i <? 0).
Proof.
  intros Bb Hi Wi. rewrite sb_le by auto. rewrite canon_val, (Z.mod_small b) in Wi by auto.
  assert (wrap i = if i <? 0 then i + 2 ^ 64 else i) as E.
  { destruct (i <? 0) eqn:E; [|apply wrap_small; unfold isw; lia].
    transitivity (wrap (i + 2 ^ 64)). { apply wrap_eq with (-1). lia. } apply wrap_small. unfold isw. lia. }
  rewrite E in Wi. clear E. revert Bb Wi. destruct f; cbn [nbits]; change (32 - 1) with 31; change (64 - 1) with 63;
  intros; destruct (b <? _) eqn:E1, (i <? 0) eqn:E2; lia.
Qed.
Lemma sext_imm f b i : -2048 <= i <= 2047 -> wrap i = canon (nbits f) b -> sext (nbits f) b = i.
Proof.
  intros Hi Wi. rewrite <- (sgn_canon f b), <- Wi. apply sgn_wrap. lia.
Qed.
Lemma wrap_canon f x : wrap (canon (nbits f) x) = canon (nbits f) x. Proof. apply wrap_wrap. Qed.
Lemma imm_ext31 o : IMM_EXTEND o 31 = IMM_I (nbits (f32 o) - 1). Proof. unfold IMM_EXTEND. destruct (f32 o); reflexivity. Qed.
Lemma sb_m1 f : sb (nbits f) (-1) = true. Proof. unfold sb. apply Z.bits_m1. destruct f; cbn; lia. Qed.
Ltac cn f := cnz; rewrite ?canon_mod, ?top_bit, ?canon_b2z, ?lxor_b2z, ?lor_b2z;
  change (sext 12 (-1)) with (-1); change (sext 12 0) with 0; rewrite ?Z.add_0_r, ?wrap_canon;
  rewrite ?imm_ext31, ?(wrap_m1 f).
Ltac go f := rewrite ?orb_true_r; change (0 =? 0) with true; change (29 =? 0) with false; change (28 =? 0) with false; cbn [negb orb andb ifE]; cn f; repeat (sx1 f; cn f).
Ltac fin := unfold post2; split; [kps|]; unfold has_v, is_v;
  repeat match goal with H : vf _ = _ |- _ => rewrite H | H : setz _ = _ |- _ => rewrite H | H : ?u = _ |- _ => is_var u; rewrite H end; cbn [negb];
  rdw; cnz; rewrite ?canon_eqb0; repeat split; try discriminate; try reflexivity; intros _.
Lemma modN f x : 0 <= x < 2 ^ nbits f -> x mod 2 ^ nbits f = x. Proof. apply Z.mod_small. Qed.
