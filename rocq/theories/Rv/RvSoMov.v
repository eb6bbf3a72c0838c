(** Moves and SLJIT_REV_U16, SLJIT_REV_S16. *)
Require Import ZArith List Bool Lia Zify ZifyBool.
From Verif Require Import Rv.RvLib Rv.RvBits Rv.RvIsa Rv.RvEnc Rv.RvImm Rv.RvRun Rv.RvImmProofs Rv.RvCtl Rv.RvWf Rv.RvMem Rv.RvRunMem Rv.RvOp Rv.RvLir Rv.RvCanon Rv.RvOpLib Rv.RvSx Rv.RvRevBits.
Import ListNotations.
Open Scope Z_scope.
Ltac Zify.zify_post_hook ::= idtac.

From Verif Require Import Rv.RvSoRev.
Section S1.
Variables (c : cfg) (o : op) (dst src : Z) (s : mst).
Notation f := (f32 o).
Hypotheses (W : wf s) (Hd : dreg dst) (H2 : 0 <= src <= 23 \/ src = 26).
Notation x := (rd s src).
Notation postv := (postv dst s).
Ltac finv := split; [kps|]; rdw.
(** :2021-2033 *)
Lemma so_rev16_ok k : k = O_REV_U16 \/ k = O_REV_S16 -> kind o = K1 k ->
  ok (so_rev16 c o dst src) s (postv (match k with O_REV_U16 => rev_bytes 2 x | _ => wrap (sext 16 (rev_bytes 2 x)) end)).
Proof.
  intros K E. unfold so_rev16. rewrite E. assert (X : isw x) by (apply wf_rd; auto). unfold dreg in *. destruct (cB c).
  - apply ok_then. sxc. rewrite rev8_rev. destruct K as [-> | ->].
    + sxc. rdw. finv. apply bits64; [isws|isws|]. bits_all.
    + sxc. rdw. finv. apply bits64; [isws|isws|]. unfold sgn. bits_all.
  - unfold emit_rev16, word, TMP_REG1. rewrite E. cbv zeta. destruct f eqn:F.
    + apply ok_then. apply (x_ShW _ _ (SRLI .| 8) Srliw); [reflexivity|vl|vl|lia|]. cbn [alush].
      apply ok_then. apply (x_ShW _ _ (SLLI .| 8) Slliw); [reflexivity|vl|vl|lia|]. cbn [alush]. rdw.
      apply ok_then. sxc. rdw. change (wrap (sext 12 255)) with 255. destruct K as [-> | ->].
      * apply ok_then. apply (x_ShW _ _ (SRLI .| 8) Srliw); [reflexivity|vl|vl|lia|]. cbn [alush]. rdw. sxc. finv.
        change (32 - 8) with 24. change (32 - 16) with 16. unfold sx32, zext. apply bits64; [isws|isws|]. bits_all.
      * apply ok_then. apply (x_ShW _ _ (SRAI .| 8) Sraiw); [reflexivity|vl|vl|lia|]. cbn [alush]. rdw. sxc. finv.
        change (32 - 8) with 24. change (32 - 16) with 16. unfold sx32, zext. apply bits64; [isws|isws|]. bits_all.
    + apply ok_then. apply (x_Sh _ _ (SRLI .| 0) Srli); [reflexivity|vl|vl|lia|]. cbn [alush].
      apply ok_then. apply (x_Sh _ _ (SLLI .| 0) Slli); [reflexivity|vl|vl|lia|]. cbn [alush]. rdw.
      apply ok_then. sxc. rdw. change (wrap (sext 12 255)) with 255. destruct K as [-> | ->].
      * apply ok_then. apply (x_Sh _ _ (SRLI .| 0) Srli); [reflexivity|vl|vl|lia|]. cbn [alush]. rdw. sxc. finv.
        change (64 - 8) with 56. change (64 - 16) with 48. apply bits64; [isws|isws|]. bits_all.
      * apply ok_then. apply (x_Sh _ _ (SRAI .| 0) Srai); [reflexivity|vl|vl|lia|]. cbn [alush]. rdw. sxc. finv.
        change (64 - 8) with 56. change (64 - 16) with 48. unfold sgn. apply bits64; [isws|isws|]. bits_all.
Qed.
End S1.

(** ** Moves *)
(** The value that a move of kind [k] produces (specification, sljitLir.h:1232-1275). *)
Definition mext (k : op1k) (x : Z) : Z :=
  match k with
  | O_MOV_U8 => x mod 2 ^ 8
  | O_MOV_S8 => wrap (sext 8 x)
  | O_MOV_U16 => x mod 2 ^ 16
  | O_MOV_S16 => wrap (sext 16 x)
  | O_MOV_U32 => x mod 2 ^ 32
  | O_MOV_S32 => wrap (sext 32 x)
  | _ => x
  end.
(** Moves for which the bit manipulation extension has an instruction. *)
Definition has_ext (k : op1k) : bool := match k with O_MOV_S8 | O_MOV_U16 | O_MOV_S16 => true | _ => false end.
Definition mov_kind (k : op1k) : Prop :=
  match k with O_MOV | O_MOV_U8 | O_MOV_S8 | O_MOV_U16 | O_MOV_S16 | O_MOV_U32 | O_MOV_S32 => True | _ => False end.

Section Mov.
Variables (c : cfg) (o : op) (k : op1k) (i2 u rr : bool) (dst src1 src : Z) (s : mst).
Hypotheses (W : wf s) (Hd : 0 <= dst <= 23 \/ dst = 26) (H2 : 0 <= src <= 23 \/ src = 26) (E : kind o = K1 k) (K : mov_kind k)
  (R : rr = false -> dst = src) (R0 : rr = true -> dst <> 0 /\ src <> 0).
Notation x := (rd s src).
Ltac mv H := H; [kps|]; rdw.
Lemma mod_isw n y : 0 <= n <= 64 -> isw (y mod 2 ^ n).
Proof.
  intros. pose proof (Z.mod_pos_bound y (2 ^ n) ltac:(apply Z.pow_pos_nonneg; lia)). unfold isw. split; [lia|].
  eapply Z.lt_le_trans; [apply H0|]. apply Z.pow_le_mono_r; lia.
Qed.
(** The source register is converted if it must be, otherwise nothing is emitted. *)
Definition conv : bool := match k with O_MOV => false | _ => rr || cB c && has_ext k end.
Lemma so_movs_ok : ok (emit_single_op c o i2 u rr dst src1 src) s (fun s' =>
  if conv || negb (dst =? src) then keeps s s' [dst] /\ rd s' dst = mext k x else s' = s).
Proof.
  assert (X : isw x) by (apply wf_rd; auto).
  assert (MI : forall n y, 0 <= n <= 64 -> isw (y mod 2 ^ n)) by apply mod_isw.
  set (P := fun s' : mst => _). assert (FIN : conv = true \/ dst <> src -> forall s1 v, keeps s s1 [dst] -> v = mext k x -> P (wr s1 dst v)).
  { intros C s1 v K1 ->. subst P. cbv beta. replace (conv || negb (dst =? src)) with true by (destruct conv; cbn; lia).
    split. { kps. } destruct (Z.eq_dec dst 0) as [D0|D0]; [|rdw; reflexivity].
    assert (src = 0). { destruct rr; [|rewrite <- R; auto]. destruct R0; auto. contradiction. }
    rewrite D0, H, !rd_0. destruct k; try contradiction; reflexivity. }
  assert (NOP : conv = false -> dst = src -> P s).
  { intros C D. subst P. cbv beta. rewrite C. replace (dst =? src) with true by lia. reflexivity. }
  unfold emit_single_op. rewrite E. revert FIN NOP. unfold conv. destruct k; try contradiction; cbn [has_ext mext]; intros FIN NOP; rewrite ?andb_false_r, ?orb_false_r, ?andb_true_r in *.
  - unfold so_mov. destruct (dst =? src) eqn:ED. { apply ok_nop. apply NOP; auto. lia. }
    destruct (cC c); cbn [negb].
    + destruct (src =? 0) eqn:E0.
      * apply x_C_LI0; [vl|]. apply FIN; [lia|apply keeps_refl|]. assert (src = 0) as -> by lia. symmetry. apply rd_0.
      * apply x_C_MV; [vl|vl|lia|auto|]. apply FIN; auto; try apply keeps_refl. lia.
    + apply (x_I _ _ ADDI Addi); [reflexivity|vl|vl|]. cbn [alui]. change (sext 12 0) with 0. rewrite Z.add_0_r, wrap_small by auto. apply FIN; auto; try apply keeps_refl. lia.
  - unfold so_mov_u8. destruct rr; cbn [ifE]. 2:{ apply ok_nop. auto. }
    sxc. change (wrap (sext 12 255)) with (Z.ones 8). apply FIN; auto; try apply keeps_refl. apply Z.land_ones. lia.
  - unfold so_mov_ext, word. rewrite imm_ext_24. destruct (cB c). { sxc. apply FIN; auto; try apply keeps_refl. left. apply orb_true_r. }
    destruct rr; cbn [ifE orb] in *. 2:{ apply ok_nop. auto. }
    destruct (R0 eq_refl) as (D0 & S0). change (if f32 o then 8 else 0) with (wd (f32 o)).
    apply ok_then. apply (x_SLLI _ _ (f32 o)); [vl|vl|destruct (f32 o); cbn; lia|].
    apply (x_SRAI _ _ (f32 o)); [vl|vl|destruct (f32 o); cbn; lia|]. rdw. apply FIN; auto; [kps|].
    rewrite sext_canon. apply bits64; [isws|isws|]. destruct (f32 o); cbn [nbits]; unfold canon; change (32 - 8) with 24; change (64 - 8) with 56; bits_all.
  - unfold so_mov_ext, word. rewrite imm_ext_16. destruct (cB c). { sxc. apply FIN; auto; try apply keeps_refl. left. apply orb_true_r. }
    destruct rr; cbn [ifE orb] in *. 2:{ apply ok_nop. auto. }
    destruct (R0 eq_refl) as (D0 & S0). change (if f32 o then 8 else 0) with (wd (f32 o)).
    apply ok_then. apply (x_SLLI _ _ (f32 o)); [vl|vl|destruct (f32 o); cbn; lia|].
    apply (x_SRLI _ _ (f32 o)); [vl|vl|destruct (f32 o); cbn; lia|rdw; iw|]. rdw. apply FIN; auto; [kps|].
    rewrite canon_mod. apply bits64; [isws|apply MI; lia|]. destruct (f32 o); cbn [nbits]; unfold canon; change (32 - 16) with 16; change (64 - 16) with 48; bits_all.
  - unfold so_mov_ext, word. rewrite imm_ext_16. destruct (cB c). { sxc. apply FIN; auto; try apply keeps_refl. left. apply orb_true_r. }
    destruct rr; cbn [ifE orb] in *. 2:{ apply ok_nop. auto. }
    destruct (R0 eq_refl) as (D0 & S0). change (if f32 o then 8 else 0) with (wd (f32 o)).
    apply ok_then. apply (x_SLLI _ _ (f32 o)); [vl|vl|destruct (f32 o); cbn; lia|].
    apply (x_SRAI _ _ (f32 o)); [vl|vl|destruct (f32 o); cbn; lia|]. rdw. apply FIN; auto; [kps|].
    rewrite sext_canon. apply bits64; [isws|isws|]. destruct (f32 o); cbn [nbits]; unfold canon; change (32 - 16) with 16; change (64 - 16) with 48; bits_all.
  - unfold so_mov_u32. destruct rr; cbn [ifE]. 2:{ apply ok_nop. auto. }
    destruct (R0 eq_refl) as (D0 & S0). apply ok_then. sxc. sxc. rdw. apply FIN; auto; [kps|].
    apply bits64; [isws|apply MI; lia|]. bits_all.
  - unfold so_mov_s32. destruct rr; cbn [ifE]. 2:{ apply ok_nop. auto. }
    destruct (cC c && (dst =? src)) eqn:EC.
    + destruct (R0 eq_refl) as (D0 & S0). apply x_C_ADDIW0; [vl|lia|]. assert (D : dst = src) by lia. apply FIN; auto; try apply keeps_refl. unfold sx32. rewrite D. reflexivity.
    + apply (x_I _ _ (ADDI .| 8) Addiw); [reflexivity|vl|vl|]. cbn [alui]. change (sext 12 0) with 0. rewrite Z.add_0_r. apply FIN; auto; try apply keeps_refl.
Qed.
End Mov.
