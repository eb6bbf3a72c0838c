(** A program with a constant and a rewritable jump, changed after its code was generated (a case of the property C45). *)
Require Import ZArith List Bool Lia.
From Verif Require Import Rv.RvLib Rv.RvIsa Rv.RvMem Rv.RvOp Rv.RvLir Rv.RvCond Rv.RvCondSpec X86.X86Isa X86.X86Emit X86.X86Spec X86.X86OpSpec X86.X86Op X86.X86Op2Top X86.X86Op1 X86.X86C34
  X86.X86Link X86.X86LinkSpec X86.X86C38 X86.X86Const X86.X86Lir X86.X86Prog X86.X86Hist X86.X86C42.
Import ListNotations.
Ltac Zify.zify_post_hook ::= idtac.
Open Scope Z_scope.

(** SLJIT_R0 = 5 (a constant), then a jump (to the next instruction) which may be changed to skip the addition of 1. *)
Definition var_prog : list lir := [LConst CMov (AReg 1) 0 5; LJump None true 2; LLabel; LOp2 oadd O_ADD (AReg 1) 0 (AReg 1) 0 AImm 1; LLabel].
Definition var_calls : list (list call) :=
  [match emit_const false CMov (AReg 1) 0 5 with Some (l, _) => [KIns l; KConst] | None => [] end; [KJump JAlways true (TLabel 0)]; [KLabel]; one (emit_op2 false oadd O_ADD (AReg 1) 0 (AReg 1) 0 AImm 1); [KLabel]].
Lemma var_compiled : compiled false true true true var_prog var_calls.
Proof.
  unfold compiled, var_prog, var_calls. repeat apply Forall2_cons; try apply Forall2_nil; cbn [compiled1]; try reflexivity.
  - exists [], [72; 184], []. split; [vm_compute; reflexivity|]. split; [constructor|]. vm_compute. reflexivity.
  - match goal with |- pieces ?e _ => let l := eval vm_compute in e in match l with Some ?l => apply (one_pieces e l); [vm_compute; reflexivity|discriminate] end end.
Qed.
Lemma var_ok : Forall (lir_ok var_prog) var_prog.
Proof.
  unfold var_prog at 2. repeat apply Forall_cons; try apply Forall_nil; cbn [lir_ok].
  - split; [legal|lia].
  - split; [exact Logic.I|]. eexists. split; reflexivity.
  - exact Logic.I.
  - split; [unfold legal2; legal|split; [cbn; auto|reflexivity]].
  - exact Logic.I.
Qed.
Definition var_gen : gen := Eval vm_compute in match generate false P40 0 (emits false (concat var_calls)) with Some g => g | None => mkGen [] [] [] [] 0 0 end.
Lemma var_size : csize (emits false (concat var_calls)) = 27. Proof. vm_compute. reflexivity. Qed.
Definition changes (v : Z) : list lch := [HConst 0 v; HJump 1 4].
(** The code after the changes. *)
Definition var_code (v : Z) : list Z := fold_left (set_ch false P40 var_prog var_calls var_gen) (changes v) (rb var_gen).
Lemma changes_ok : forall v, - 2 ^ 63 <= v < 2 ^ 63 -> Forall (ch_ok var_prog) (changes v).
Proof.
  intros v V. repeat apply Forall_cons; try apply Forall_nil; cbn [ch_ok].
  - split; [repeat eexists|exact V].
  - split; [repeat eexists|]. eexists. split; reflexivity.
Qed.
Lemma var_safe : forall v adr a, safe (fold_left change (changes v) var_prog) adr 2 0 a.
Proof. intros v adr a. right. split; [exact Logic.I|]. intros i1 a1 L. cbn [lstep nth_error] in L. destruct L as (-> & _). right. split; [exact Logic.I|]. intros. exact Logic.I. Qed.
Lemma var_runs : forall v codef u s, - 2 ^ 63 <= v < 2 ^ 63 -> fetches P40 0 (var_code v) codef -> xwf s ->
  exists s', csteps codef u P40 s (P40 + zlen (var_code v)) s' /\ xr s' 0 = v mod 2 ^ 64 /\ xm s' = xm s.
Proof.
  intros v codef u s V F W.
  destruct (program_changes false true true true var_prog var_calls P40 0 var_compiled var_ok) as (g & GE & ALL);
    [vm_compute; reflexivity|rewrite var_size; vm_compute; congruence|vm_compute; congruence|vm_compute; congruence|rewrite var_size; vm_compute; reflexivity|rewrite var_size; vm_compute; congruence|].
  assert (GS : g = var_gen) by (enough (Some g = Some var_gen) by congruence; rewrite <- GE; vm_compute; reflexivity). subst g. clear GE. specialize (ALL (changes v) (changes_ok v V)). cbv zeta in ALL. fold (var_code v) in ALL.
  destruct ALL as (P & P0 & PN & _ & SIM). set (a := absof false s (fun _ => None)).
  destruct (SIM codef u 2%nat 0%nat a s F) as (i' & a' & s' & GO & CS & AG); [apply agrees_none; exact W|apply var_safe|].
  cbn [goes] in GO. destruct GO as [(H & _)|(i1 & a1 & L1 & GO)]; [discriminate|]. cbn [lstep nth_error] in L1. destruct L1 as (-> & (V1 & W1 & R1 & M1) & _).
  destruct GO as [(H & _)|(i2 & a2 & L2 & GO)]; [discriminate|]. cbn [lstep nth_error] in L2. destruct L2 as (-> & ->). destruct GO as (-> & ->).
  exists s'. change (P 5%nat) with (P (length var_prog)) in CS. rewrite PN, P0 in CS. change (xpos P40 0 0) with P40 in CS. replace (xpos P40 0 (zlen (var_code v))) with (P40 + zlen (var_code v)) in CS by (unfold xpos; lia).
  split; [exact CS|]. destruct AG as (AR & AM & _ & AW). split; [|rewrite AM, M1; reflexivity]. change 0 with (reg_map false 1) at 1. rewrite AR by lia. apply word_eq; [rewrite <- AR by lia; apply AW|]. exact V1.
Qed.
