(** MIPS64: runs which show that statements about jumps and constants are false. *)
Require Import ZArith List Bool Lia Zify ZifyBool.
From Verif Require Import Rv.RvLib Rv.RvBits Imm.ImmLib Imm.MsIsa Imm.MsModel Imm.MsSpec Imm.MsProofs Imm.MsJump.
Import ListNotations.
Open Scope Z_scope.
Ltac Zify.zify_post_hook ::= idtac.

(** A run which stops visits the states of its trace only. *)
Section Trace.
  Context {C : Type} (f : C -> option C).
  Fixpoint trace (n : nat) (c : C) : list C := c :: match n with O => [] | S m => match f c with None => [] | Some d => trace m d end end.
  Fixpoint stops (n : nat) (c : C) : bool := match f c with None => true | Some d => match n with O => false | S m => stops m d end end.
  Lemma runs_trace : forall c e, runs f c e -> forall n, stops n c = true -> In e (trace n c).
  Proof.
    intros c e R. induction R as [c|c d e E R IH]; intros n S.
    - destruct n; left; reflexivity.
    - destruct n as [|n]; cbn [stops trace] in *; rewrite E in *; [discriminate S|]. right. apply IH. exact S.
  Qed.
  Lemma runs_view {V} (g : C -> V) c e n : runs f c e -> stops n c = true -> In (g e) (map g (trace n c)).
  Proof. intros R S. apply in_map. apply runs_trace; assumption. Qed.
End Trace.

(** The words [ws] at [p], and nothing else which can be executed. *)
Definition only_code (p : Z) (ws : list Z) : Z -> Z := fun x =>
  if (p <=? x) && (x <? p + 4 * Z.of_nat (length ws)) then nth (Z.to_nat ((x - p) / 4)) ws 0 else 0xffffffff.
Definition view (r : Z) (c : state) : Z * bool * Z := (fst (fst c), match snd (fst c) with None => false | _ => true end, snd c r).

(** ** A call after a load from an absolute address *)
Definition p1 : Z := 0x10000.
Definition t1 : Z := 0x10100.
Definition ld1 : Z := snd (load_abs 1 0x12345678).
Definition s1 : regs := fun r => if r =? 31 then 0x12340000 else 0.
Definition mem1 : Z -> Z := fun a => if a =? 0x12345678 then 7 else 9.
Definition ws1 (r6 : bool) : list Z := link_jump r6 false false (Some ld1) None true p1 0 t1.
Lemma call_false r6 : ~ jump_reaches r6.
Proof.
  intros H. assert (A : code_at 4 (ws1 r6) p1 (only_code p1 (ws1 r6))) by (destruct r6; vm_compute; tauto).
  assert (D : decode r6 ld1 = Some (Alu (Ld_ 2 31 0x5678))) by (destruct r6; vm_compute; reflexivity).
  assert (BF : before r6 mem1 (Some ld1) JAlways s1 (upd s1 2 7)).
  { exists (Ld_ 2 31 0x5678). split; [exact D|]. split; [vm_compute; reflexivity|]. intros r [<- | []]. split; [intros []|lia]. }
  assert (T : isw t1) by (split; [vm_compute; discriminate|reflexivity]).
  destruct (H mem1 (only_code p1 (ws1 r6)) p1 s1 (upd s1 2 7) false false (Some ld1) JAlways true 0 t1 I T eq_refl eq_refl eq_refl BF A) as (s' & G & J).
  assert (S : stops (step r6 mem1 (only_code p1 (ws1 r6))) 5 (wrap p1, None, s1) = true) by (destruct r6; vm_compute; reflexivity).
  pose proof (runs_view _ (view 2) _ _ 5 G S) as I. destruct J as (J & _). specialize (J 2 ltac:(lia) ltac:(lia)).
  unfold view at 1 in I. cbn [fst snd] in I. rewrite J in I. clear - I. destruct r6; vm_compute in I; repeat destruct I as [I|I]; try discriminate I; exact I.
Qed.

(** ** The region of a jump with an executable offset, and of a conditional jump *)
Definition code2 : Z -> Z := only_code 0x10000000 (link_jump false false false None None false 0x10000000 0x10000000 0x100000).
Lemma offset_wrong : code_at 4 (link_jump false false false None None false 0x10000000 0x10000000 0x100000) 0x10000000 code2 /\
  ~ exists s', goes false (fun _ => 0) code2 0x10000000 (fun _ => 0) 0x100000 s'.
Proof.
  split; [vm_compute; tauto|]. intros (s' & G).
  assert (S : stops (step false (fun _ => 0) code2) 5 (wrap 0x10000000, None, fun _ => 0) = true) by (vm_compute; reflexivity).
  pose proof (runs_view _ (fun c => fst (fst c)) _ _ 5 G S) as I. clear - I. vm_compute in I. repeat destruct I as [I|I]; try discriminate I; exact I.
Qed.
Definition ws3 : list Z := link_jump false false false None (Some (jump_branch false FEqual)) false 0xffffff0 0 0x18000000.
Definition code3 : Z -> Z := only_code 0xffffff0 ws3.
Lemma region_wrong : code_at 4 ws3 0xffffff0 code3 /\ jcond_holds false (fun _ => 0) (JFlag FEqual) = true /\
  ~ exists s', goes false (fun _ => 0) code3 0xffffff0 (fun _ => 0) 0x18000000 s'.
Proof.
  split; [vm_compute; tauto|]. split; [reflexivity|]. intros (s' & G).
  assert (S : stops (step false (fun _ => 0) code3) 5 (wrap 0xffffff0, None, fun _ => 0) = true) by (vm_compute; reflexivity).
  pose proof (runs_view _ (fun c => fst (fst c)) _ _ 5 G S) as I. clear - I. vm_compute in I. repeat destruct I as [I|I]; try discriminate I; exact I.
Qed.

(** ** Release 6: a floating point condition in the full form is not tested *)
Lemma float_always mem code p s c t rw eo : is_float c = true -> isw t -> link_form rw false None (jcond_branch true c) p eo t = FFull ->
  code_at 4 (link_jump true rw false None (jcond_branch true c) false p eo t) p code -> exists s', goes true mem code p s t s'.
Proof.
  intros Fl Ht Hf C. unfold link_jump in C. rewrite Hf in C. rewrite far_words in C by reflexivity. cbn [pre_words app] in C.
  destruct (jcond_branch true c) as [(w, k)|] eqn:EB; [|destruct c; discriminate].
  assert (L : jcond_legal c false) by (destruct c; try discriminate Fl; reflexivity).
  destruct (branch_of_ok true c false w k L EB) as (op & rs & rt & l & op' & rs' & rt' & bc & bc' & W1 & W1' & Hl & Ew & _ & Db & _ & Hb & _).
  rewrite Fl in Hl. cbn [andb] in Hl. subst l w. cbn [app code_at] in C. destruct C as (Cb & C2). cbn [skip_of] in Cb. rewrite W_sub in Cb by (auto; lia).
  specialize (Db 0 ltac:(lia)). change (0 - 0) with 0 in Cb. rewrite <- Cb in Db.
  destruct (load_addr_first true FFull t Ht) as (x & Hx & EX & DX).
  assert (CX : code (wrap (p + 4)) = (LUI .| TA 25 .| x)) by (rewrite <- EX; apply C2).
  assert (T : forall s, exists s2 s', goes true mem code (p + 4) s (p + 4 + 24) s2 /\ runs (step true mem code) (wrap (p + 4 + 24), None, s2) (t, None, s')).
  { intros s0. destruct (load_addr_ok true mem code (p + 4) s0 PIC_ADDR_REG FFull t _ ltac:(unfold PIC_ADDR_REG, TMP_REG1; lia) Ht I C2) as (s2 & G2 & O2 & CJ & CN & _).
    change (4 * Z.of_nat (length (load_addr FFull PIC_ADDR_REG t))) with 24 in *. change (reg_map PIC_ADDR_REG) with 25 in O2. exists s2, s2. split; [exact G2|].
    unfold jr_word in CJ. eapply (jump_core true mem code (p + 4 + 24) s2 s2 None c t); [|reflexivity|exact CN]. unfold step. rewrite CJ, dec_jr. unfold rG. cbn [Z.eqb]. rewrite (proj1 O2). reflexivity. }
  destruct (bcond_holds s bc) eqn:HB.
  - pose proof (go_branch true mem code p s bc _ _ _ _ Db CX DX eq_refl) as G. rewrite HB in G. change (sext 16 0) with 0 in G. replace (p + 4 + 4 * 0) with (p + 4) in G by lia.
    destruct (T (wG s 25 (wrap (sext 32 (Z.shiftl x 16))))) as (s2 & s' & G2 & R2). exists s'. eapply goes_to; [exact Ht| |exact R2]. eapply goes_trans; eauto.
  - destruct (T s) as (s2 & s' & G2 & R2). exists s'. eapply goes_to; [exact Ht| |exact R2].
    eapply not_taken; [exact Db|exact HB|rewrite CX; exact DX|lia|exact G2].
Qed.

(** ** A constant directly before a jump *)
Definition ws4 : list Z := const_jump CMovU8 1 1 0x10000 0x10100.
Definition code4 : Z -> Z := only_code 0x10000 (sljit_set_const CMovU8 ws4 2).
Lemma const_jump_false : ~ set_const_before_jump.
Proof.
  intros H. destruct (H (fun _ => 0) code4 0x10000 (fun _ => 0) CMovU8 1 1 2 0x10100) as (s' & G & V).
  - lia.
  - split; [vm_compute; discriminate|reflexivity].
  - reflexivity.
  - reflexivity.
  - vm_compute. tauto.
  - assert (S : stops (step false (fun _ => 0) code4) 5 (wrap 0x10000, None, fun _ => 0) = true) by (vm_compute; reflexivity).
    pose proof (runs_view _ (fun c => fst (fst c)) _ _ 5 G S) as I. clear - I. vm_compute in I. repeat destruct I as [I|I]; try discriminate I; exact I.
Qed.
