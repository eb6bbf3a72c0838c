(** sljit_emit_op1 on x86-64: results, flags, the upper half of 32 bit results. *)
Require Import ZArith List Bool Lia.
From Verif Require Import Rv.RvLib Rv.RvIsa Rv.RvMem Rv.RvOp Rv.RvLir X86.X86Isa X86.X86Emit X86.X86Spec X86.X86OpSpec X86.X86Op X86.X86Ins X86.X86Mov X86.X86Op1 X86.X86C34.
Import ListNotations.
Ltac Zify.zify_post_hook ::= idtac.
Open Scope Z_scope.

Lemma wrote1_weaken : forall w N B (ex ex' : Prop) L s D Dw r s', (ex' -> ex) -> wrote1 w N B ex L s D Dw r s' -> wrote1 w N B ex' L s D Dw r s'.
Proof. intros w N B ex ex' L s D Dw r s' H A. destruct D; cbn [wrote1] in *; intuition. Qed.
Lemma op1_results : forall u w lz tz cmov is32 k D Dw S Sw s, xdst_legal D Dw -> src1_legal k S Sw -> xwf s ->
  does u (emit_op1 w lz tz cmov is32 k D Dw S Sw) s (fun s' =>
    exists r, res1 k (n1 k is32) (xval w (8 * sz1 k is32) s S Sw) r /\ wrote1 w (n1 k is32) (sz1 k is32) False TMPS s D Dw r s').
Proof.
  intros u w lz tz cmov is32 k D Dw S Sw s DL SL W. eapply does_conseq; [apply op1_ok; assumption|]. intros s' _ ((r & A & B) & _). exists r. split; [exact A|].
  eapply wrote1_weaken; [|exact B]. tauto.
Qed.
Lemma mov_keeps_flags : forall u w lz tz cmov is32 k D Dw S Sw s, xdst_legal D Dw -> xsrc_legal S Sw -> is_mov k = true -> xwf s ->
  does u (emit_op1 w lz tz cmov is32 k D Dw S Sw) s (fun s' => xcf s' = xcf s /\ xzf s' = xzf s /\ xsf s' = xsf s /\ xof s' = xof s).
Proof.
  intros u w lz tz cmov is32 k D Dw S Sw s DL SL M W. eapply does_conseq; [apply op1_ok; [exact DL| |exact W]|]; [split; [exact SL|congruence]|].
  intros s' _ (_ & F). exact (F M).
Qed.
Lemma op1_upper : forall u w lz tz cmov is32 k d S Sw s, xureg d -> src1_legal k S Sw -> n1 k is32 = 32 -> clears k (AReg d) S = true -> xwf s ->
  does u (emit_op1 w lz tz cmov is32 k (AReg d) 0 S Sw) s (fun s' => 0 <= xr s' (reg_map w d) < 2 ^ 32).
Proof.
  intros u w lz tz cmov is32 k d S Sw s D SL N C W. eapply does_conseq; [apply op1_ok; [split; [exact D|reflexivity]|exact SL|exact W]|].
  intros s' W' ((r & _ & (_ & A & _)) & _). rewrite N in A. split; [apply W'|exact (A C)].
Qed.
(** Registers with SLJIT_R1 = 0x8090. *)
Definition demo9 : xst := mkX (fun q => if q =? 6 then 0x8090 else 0) None None None None (fun _ => 0).
Lemma demo9_wf : xwf demo9. Proof. intros r. unfold demo9. cbn [xr]. unfold isw. destruct (r =? 6); lia. Qed.
Ltac wrong := match goal with |- ~ does ?u ?c ?s ?P => let H := fresh in intros H; apply (does_run u c s P 20) with (s1 := match c with Some l => match run u 20 l s with Some t => t | None => s end | None => s end) in H; [revert H; vm_compute; intros; intuition congruence|vm_compute; reflexivity] end.
Lemma upper_wrong : src1_legal O_MOV_S8 (AReg 2) 0 /\ src1_legal O_MOV_S16 (AReg 2) 0 /\ src1_legal O_REV_S16 (AReg 2) 0 /\ xureg 1 /\ xwf demo9
  /\ ~ does 0 (emit_op1 false true true true true O_MOV_S8 (AReg 1) 0 (AReg 2) 0) demo9 (fun s' => 0 <= xr s' (reg_map false 1) < 2 ^ 32)
  /\ ~ does 0 (emit_op1 false true true true true O_MOV_S16 (AReg 1) 0 (AReg 2) 0) demo9 (fun s' => 0 <= xr s' (reg_map false 1) < 2 ^ 32)
  /\ ~ does 0 (emit_op1 false true true true true O_REV_S16 (AReg 1) 0 (AReg 2) 0) demo9 (fun s' => 0 <= xr s' (reg_map false 1) < 2 ^ 32).
Proof.
  do 3 (split; [split; [legal|intros _; discriminate]|]). split; [legal|]. split; [exact demo9_wf|]. split; [wrong|]. split; wrong.
Qed.
