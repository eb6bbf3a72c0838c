(** The statements about the encoder, unfolded. *)
Require Import ZArith List Bool Lia.
From Verif Require Import Rv.RvLib Rv.RvIsa Rv.RvMem X86.X86Isa X86.X86Emit X86.X86Spec X86.X86Enc X86.X86EncTop X86.X86OpSpec X86.X86Op X86.X86Ins X86.X86Ins2 X86.X86Mov.
Import ListNotations.
Ltac Zify.zify_post_hook ::= idtac.
Open Scope Z_scope.
Lemma encoding_ok : forall w m32 f a imma b immb, flags_ok f -> firstop m32 f a imma -> genop b immb ->
  exists o x opn, emit_x86 w m32 f a imma b immb = Some o
    /\ (forall u s, runs u (o_pre o) s (after_pre w b immb s))
    /\ o_first o = want_first f a imma
    /\ (forall op l, opbyte op -> op <> 0x0f -> decode (o_head o ++ op :: l) = decode1 (want_pfx f) x op l)
    /\ (forall op l, decode (o_head o ++ 0x0f :: op :: l) = decode2 (want_pfx f) x op l)
    /\ rW x = (negb m32 && negb (f_norexw f)) /\ (f_rex f = true -> rP x = true)
    /\ same_operand w f b immb opn
    /\ (forall d l, digit_ok f a d ->
         modrm x (or_hd (8 * d) (o_tail o) ++ l) = Some (want_reg w f a + d, opn, lebytes (imm_size f a imma) imma ++ l)).
Proof.
  intros w m32 f a imma b immb FO AO G. destruct (emit_x86_ok w m32 f a imma b immb FO AO G) as (o & x & opn & E & EN). destruct EN.
  exists o, x, opn. split; [exact E|]. split; [intros u s; rewrite en_pre; apply pre_runs|]. split; [exact en_first|].
  split. { intros op l O1 O2. rewrite en_dec by exact O1. unfold decop. destruct (Z.eqb_spec op 15); [contradiction|reflexivity]. }
  split. { intros op l. rewrite en_dec by (unfold opbyte; repeat split; try lia; vm_compute; discriminate). reflexivity. }
  split; [exact en_W|]. split. { intros R. rewrite en_P, R. rewrite orb_true_r. reflexivity. }
  split; [exact en_op|exact en_rm].
Qed.
Lemma store_instr_ok : forall u w m r b o imm s, 1 <= r <= 15 -> xmem_legal b o imm -> xwf s ->
  does u (ins w m (fl 1) 0x89 (AReg r) 0 (AMem b o) imm) s (fun s' =>
    xm s' = store (xm s) (xaddr w s b o imm) (xr s (reg_map w r) mod 2 ^ size_of m) (if m then 4 else 8)%nat
    /\ forall q, 1 <= q <= 15 -> xr s' (reg_map w q) = xr s (reg_map w q)).
Proof.
  intros u w m r b o imm s R L W. eapply does_conseq; [apply mov_store_ok; auto|].
  - split; [lia|]. intros _. unfold TMP_REG2. lia.
  - apply sok_gop; [exact L|reflexivity].
  - intros s' _ ((A & B) & _). split.
    + rewrite A, nsize_mod. destruct m; reflexivity.
    + intros q Q. apply B; [lia|]. unfold ftmp. destruct (far (AMem b o) imm); simpl; [intros [I|[]]; unfold TMP_REG2 in I; lia|tauto].
Qed.
Lemma load_instr_ok : forall u w m r b o imm s, 1 <= r <= 15 -> xmem_legal b o imm -> xwf s ->
  does u (ins w m (fl 1) 0x8b (AReg r) 0 (AMem b o) imm) s (fun s' =>
    xr s' (reg_map w r) = load (xm s) (xaddr w s b o imm) (if m then 4 else 8)%nat
    /\ xm s' = xm s /\ forall q, 1 <= q <= 15 -> q <> r -> xr s' (reg_map w q) = xr s (reg_map w q)).
Proof.
  intros u w m r b o imm s R L W. eapply does_conseq; [apply mov_load_ok; auto; [lia|]|].
  - apply sok_gop; [exact L|reflexivity].
  - intros s' _ ((A & B & C) & _). split.
    + rewrite A. rewrite Z.mod_small by (apply X86Ins2.xval_range; exact W). destruct m; reflexivity.
    + split; [exact B|]. intros q Q N. apply C; [lia|]. unfold ftmp. intros [I|I]; [congruence|].
      destruct (far (AMem b o) imm); simpl in I; [destruct I as [I|[]]; unfold TMP_REG2 in I; lia|exact I].
Qed.
