(** SLJIT_REV, SLJIT_REV_U32, SLJIT_REV_S32, SLJIT_REV_U16, SLJIT_REV_S16. *)
Require Import ZArith List Bool Lia Zify ZifyBool.
From Verif Require Import Rv.RvLib Rv.RvBits Rv.RvIsa Rv.RvEnc Rv.RvImm Rv.RvRun Rv.RvImmProofs Rv.RvCtl Rv.RvWf Rv.RvMem Rv.RvRunMem Rv.RvOp Rv.RvLir Rv.RvCanon Rv.RvOpLib Rv.RvSx Rv.RvRevBits.
Import ListNotations.
Open Scope Z_scope.
Ltac Zify.zify_post_hook ::= idtac.

Lemma imm_ext_16 o : IMM_EXTEND o 16 = IMM_I (nbits (f32 o) - 16). Proof. unfold IMM_EXTEND. destruct (f32 o); reflexivity. Qed.
Lemma imm_ext_24 o : IMM_EXTEND o 24 = IMM_I (nbits (f32 o) - 8). Proof. unfold IMM_EXTEND. destruct (f32 o); reflexivity. Qed.

Section S1.
Variables (c : cfg) (o : op) (dst src : Z) (s : mst).
Notation f := (f32 o).
Hypotheses (W : wf s) (Hd : dreg dst) (H2 : 0 <= src <= 23 \/ src = 26).
Notation x := (rd s src).
Definition postv (v : Z) (s' : mst) : Prop := keeps s s' [dst; 25; 26; 28; 29] /\ rd s' dst = v.

Ltac fold29 := repeat match goal with |- context [wr _ ?r ?v] => match r with 29 => idtac | 28 => idtac end;
  lazymatch v with context [rd _ _] => fail | _ => idtac end; let v' := eval vm_compute in v in match v' with Zpos _ => idtac end; progress change v with v' end.
Ltac sxr := lazymatch goal with |- ok (_ ;; _) _ _ => apply ok_then | _ => idtac end; lazymatch goal with |- ok (E32 (LUI .| _ .| _)) _ _ => apply x_LUI; [vl|lia|reflexivity|] | _ => sxc end; rdw; fold29.
Ltac finv := split; [kps|]; rdw.

Lemma emit_rev64_ok : f = false -> ok (emit_rev o dst src) s (postv (rev_bytes 8 x)).
Proof.
  intros F. unfold emit_rev, OTHER_FLAG, EQUAL_FLAG, TMP_REG1, dreg in *. rewrite F. cbn [negb]. set (P := postv _).
  repeat sxr. finv. assert (isw x) by (apply wf_rd; auto).
  apply bits64; [repeat first [apply land_isw | apply lor_isw | apply wrap_isw | apply div_isw | assumption | lia | (unfold isw; lia)]|apply rev_isw; lia|].
  bits_all.
Qed.

Lemma emit_rev32_ok : f = true -> ok (emit_rev o dst src) s
  (postv (match kind o with K1 O_REV_S32 => wrap (sext 32 (rev_bytes 4 x)) | _ => rev_bytes 4 x end)).
Proof.
  intros F. unfold emit_rev, OTHER_FLAG, EQUAL_FLAG, TMP_REG1, dreg in *. rewrite F. cbn [negb]. set (P := postv _).
  assert (isw x) by (apply wf_rd; auto).
  do 8 sxr.
  match goal with |- context [SLLI .| ?w] => assert (EW : w = 8 /\ P = postv (wrap (sext 32 (rev_bytes 4 x))) \/ w = 0 /\ P = postv (rev_bytes 4 x)) end.
  { subst P. destruct (kind o) as [k|k]; [destruct k|]; auto. }
  destruct EW as [(-> & ->)|(-> & ->)].
  - change (SLLI .| 8) with (SLLI .| 8). apply ok_then. apply (x_ShW _ _ (SLLI .| 8) Slliw); [reflexivity|vl|vl|lia|]. cbn [alush]. rdw. sxr. finv.
    unfold sx32, zext.
    apply bits64; [repeat first [apply land_isw | apply lor_isw | apply wrap_isw | apply div_isw | assumption | lia | (unfold isw; lia)]|apply wrap_isw|].
    bits_all.
  - apply ok_then. apply (x_Sh _ _ (SLLI .| 0) Slli); [reflexivity|vl|vl|lia|]. cbn [alush]. rdw. sxr. finv.
    unfold sx32, zext.
    apply bits64; [repeat first [apply land_isw | apply lor_isw | apply wrap_isw | apply div_isw | assumption | lia | (unfold isw; lia)]|apply rev_isw; lia|].
    bits_all.
Qed.

(** :2004-2019.  Without the bit manipulation extension SLJIT_REV | SLJIT_32 leaves its result zero extended. *)
Definition rev_res : Z :=
  match kind o with
  | K1 O_REV_U32 => rev_bytes 4 x
  | K1 O_REV_S32 => wrap (sext 32 (rev_bytes 4 x))
  | _ => if f then if cB c then wrap (sext 32 (rev_bytes 4 x)) else rev_bytes 4 x else rev_bytes 8 x
  end.
Lemma so_rev_ok : (kind o = K1 O_REV \/ (kind o = K1 O_REV_U32 \/ kind o = K1 O_REV_S32) /\ f = true) ->
  ok (so_rev c o dst src) s (postv rev_res).
Proof.
  intros K. unfold so_rev. unfold rev_res. destruct (cB c) eqn:EB.
  - assert (X : isw x) by (apply wf_rd; auto). set (P := postv _). unfold dreg in *.
    assert (A : forall (P : mst -> Prop), P (wr (wr s dst (rev_bytes 8 x)) dst (wrap (sgn (rev_bytes 8 x) / 2 ^ 32))) ->
      ok (E32 (REV8 .| RD dst .| RS1 src);; E32 (SRAI .| RD dst .| RS1 dst .| IMM_I 32)) s P).
    { intros Q H. apply ok_then. sxc. rewrite rev8_rev. sxc. rdw. auto. }
    assert (A' : forall (P : mst -> Prop), P (wr (wr s dst (rev_bytes 8 x)) dst (rev_bytes 8 x / 2 ^ 32)) ->
      ok (E32 (REV8 .| RD dst .| RS1 src);; E32 (SRLI .| RD dst .| RS1 dst .| IMM_I 32)) s P).
    { intros Q H. apply ok_then. sxc. rewrite rev8_rev. sxc. rdw. auto. }
    assert (B : wrap (sgn (rev_bytes 8 x) / 2 ^ 32) = wrap (sext 32 (rev_bytes 4 x))).
    { apply bits64; [isws|isws|]. unfold sgn. bits_all. }
    assert (B' : rev_bytes 8 x / 2 ^ 32 = rev_bytes 4 x).
    { apply bits64; [isws|isws|]. bits_all. }
    rewrite B in A. rewrite B' in A'.
    destruct K as [E|([E|E] & F)]; subst P; rewrite E; rewrite ?F; rewrite ?orb_true_r; cbn [orb ifE].
    + destruct f; cbn [orb ifE].
      * apply A. finv. reflexivity.
      * apply ok_then. sxc. rewrite rev8_rev. apply ok_nop. finv. reflexivity.
    + apply A'. finv. reflexivity.
    + apply A. finv. reflexivity.
  - destruct K as [E|([E|E] & F)]; rewrite E.
    + destruct f eqn:F; [|apply emit_rev64_ok; auto]. pose proof (emit_rev32_ok F) as Q. rewrite E in Q. exact Q.
    + pose proof (emit_rev32_ok F) as Q. rewrite E in Q. exact Q.
    + pose proof (emit_rev32_ok F) as Q. rewrite E in Q. exact Q.
Qed.

End S1.

