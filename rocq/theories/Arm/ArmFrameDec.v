(** ARM64: the words of function entry and return, one by one. *)
Require Import ZArith List Bool Lia Zify ZifyBool.
From Verif Require Import Rv.RvLib Rv.RvBits Imm.ImmLib Imm.MsProofs Imm.PpProofs Arm.ArmIsa Arm.ArmBr Arm.ArmEnc Arm.ArmBits Arm.ArmImm Arm.ArmImmProofs Arm.ArmLogImm Arm.ArmLoadImm
  Arm.ArmJump Arm.ArmJumpSpec Arm.ArmJumpProofs Arm.ArmCondProofs Arm.ArmOp Arm.ArmOpSpec Arm.ArmOpDec Arm.ArmOpProofs Arm.ArmOpImm Arm.ArmOp1 Arm.ArmMem Arm.ArmMemSpec Arm.ArmMemProofs Arm.ArmPair Arm.ArmFrame Arm.ArmFrameSpec.
Import ListNotations.
Open Scope Z_scope.
Ltac Zify.zify_post_hook ::= idtac.

Lemma freg_lt r : 0 <= freg_map r < 32.
Proof.
  unfold freg_map. assert (F : forall l, forallb (fun x => (0 <=? x) && (x <? 32)) l = true -> forall n, 0 <= nth n l 0 < 32).
  { intros l H n. rewrite forallb_forall in H. destruct (nth_in_or_default n l 0) as [I | ->]; [apply H in I; lia|lia]. }
  apply F. reflexivity.
Qed.
Lemma num_lt v r : 0 <= num v r < 32.
Proof. destruct v; [apply freg_lt|apply reg_lt]. Qed.

Ltac decf :=
  unfold decode_f; cbv zeta;
  repeat match goal with
  | |- (if ?c then _ else _) = _ =>
      first [ replace c with true by (symmetry; flds) | replace c with false by (symmetry; flds) ]; cbv iota
  end;
  flds.
Definition pairk (ld v : bool) : Z := if ld then (if v then LDP_F64 else LDP) else if v then STP_F64 else STP.
Lemma dec_pair ld v p i j : 0 <= p < 32 -> 0 <= i < 32 -> 0 <= j < 128 -> decode_f (pairk ld v .| p .| Z.shiftl i 10 .| Z.shiftl 31 5 .| Z.shiftl j 15) = Some (FPair v ld 2 j i 31 p).
Proof. intros P I J. destruct ld, v; decf. Qed.
Lemma dec_pre p i j : 0 <= p < 32 -> 0 <= i < 32 -> 0 <= j < 128 -> decode_f (STP_PRE .| p .| Z.shiftl i 10 .| Z.shiftl 31 5 .| Z.shiftl j 15) = Some (FPair false false 3 j i 31 p).
Proof. intros P I J. decf. Qed.
Lemma dec_post p i j : 0 <= p < 32 -> 0 <= i < 32 -> 0 <= j < 128 -> decode_f (LDP_POST .| p .| Z.shiftl i 10 .| Z.shiftl 31 5 .| Z.shiftl j 15) = Some (FPair false true 1 j i 31 p).
Proof. intros P I J. decf. Qed.
Lemma dec_ldpost p j : 0 <= p < 32 -> 0 <= j < 512 -> decode_f (LDRI_POST .| p .| Z.shiftl 31 5 .| Z.shiftl j 12) = Some (FLdPost j 31 p).
Proof. intros P J. decf. Qed.
Lemma dec_vld (ld : bool) p j : 0 <= p < 32 -> 0 <= j < 4096 -> decode_f ((if ld then LDRI_F64 else STRI_F64) .| p .| Z.shiftl 31 5 .| Z.shiftl j 10) = Some (FVld ld j 31 p).
Proof. intros P J. destruct ld; decf. Qed.
(** Words which are not of this part. *)
Lemma dec_ldri (ld : bool) p j : 0 <= p < 32 -> 0 <= j < 4096 -> decode_f ((if ld then LDRI else STRI) .| p .| Z.shiftl 31 5 .| Z.shiftl j 10) = None /\
  decode ((if ld then LDRI else STRI) .| p .| Z.shiftl 31 5 .| Z.shiftl j 10) = Some (ILdI 3 (if ld then 1 else 0) j 31 p).
Proof. intros P J. split; [destruct ld; decf|destruct ld; ls 57]. Qed.
Lemma dec_addsp (sub : bool) p j : 0 <= p < 32 -> 0 <= j < 4096 -> decode_f ((if sub then SUBI else ADDI) .| p .| Z.shiftl 31 5 .| Z.shiftl j 10) = None /\
  decode ((if sub then SUBI else ADDI) .| p .| Z.shiftl 31 5 .| Z.shiftl j 10) = Some (IAddI true sub false 0 j 31 p).
Proof. intros P J. split; destruct sub; [decf|decf|dec|dec]. Qed.
Lemma dec_addsp12 (sub : bool) j : 0 <= j < 4096 -> decode_f ((if sub then SUBI else ADDI) .| 31 .| Z.shiftl 31 5 .| Z.shiftl j 10 .| Z.shiftl 1 22) = None /\
  decode ((if sub then SUBI else ADDI) .| 31 .| Z.shiftl 31 5 .| Z.shiftl j 10 .| Z.shiftl 1 22) = Some (IAddI true sub false 1 j 31 31).
Proof. intros J. split; destruct sub; [decf|decf|dec|dec]. Qed.
Lemma dec_movr d b : decode_f (MOV .| RD d .| RM b) = None /\ decode (MOV .| RD d .| RM b) = Some (ILogR true 1 0 false (reg_map b) 0 31 (reg_map d)).
Proof. split; [|apply (dec_mov false d b)]. change MOV with (Z.lxor MOV (inv_bits false)). words. decf. Qed.
Lemma dec_ret : decode_f (RET .| RN TMP_LR) = Some (FRet 30).
Proof. reflexivity. Qed.
