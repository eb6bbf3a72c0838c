(** A program and its code: a loop that adds the numbers from SLJIT_R1 down to 1 (a case of the property C42). *)
Require Import ZArith List Bool Lia.
From Verif Require Import Rv.RvLib Rv.RvIsa Rv.RvMem Rv.RvOp Rv.RvLir Rv.RvCond Rv.RvCondSpec X86.X86Isa X86.X86Emit X86.X86Spec X86.X86OpSpec X86.X86Op X86.X86Op2Top X86.X86Op1 X86.X86C34
  X86.X86Link X86.X86LinkSpec X86.X86C38 X86.X86Lir X86.X86Prog.
Import ListNotations.
Ltac Zify.zify_post_hook ::= idtac.
Open Scope Z_scope.

Definition oadd : op := mkOp (K2 O_ADD) false false VNone.
Definition osubz : op := mkOp (K2 O_SUB) false true VNone.
Definition sum_prog : list lir :=
  [LOp1 false O_MOV (AReg 1) 0 AImm 0; LLabel; LOp2 oadd O_ADD (AReg 1) 0 (AReg 1) 0 (AReg 2) 0; LOp2 osubz O_SUB (AReg 2) 0 (AReg 2) 0 AImm 1; LJump (Some SLJIT_NOT_EQUAL) false 1].
(** The calls, with one piece of code for each instruction. *)
Definition one (e : option (list Z)) : list call := match e with Some l => [KIns l] | None => [] end.
Definition sum_calls : list (list call) :=
  [one (emit_op1 false true true true false O_MOV (AReg 1) 0 AImm 0); [KLabel]; one (emit_op2 false oadd O_ADD (AReg 1) 0 (AReg 1) 0 (AReg 2) 0);
   one (emit_op2 false osubz O_SUB (AReg 2) 0 (AReg 2) 0 AImm 1); [KJump (JCond SLJIT_NOT_EQUAL) false (TLabel 0)]].
(** xor eax, eax ...; the loop ends with a short jump. *)
Definition sum_code : list Z := Eval vm_compute in match generate false P40 0 (emits false (concat sum_calls)) with Some g => rb g | None => [] end.
Lemma one_pieces : forall e l, e = Some l -> l <> [] -> pieces e (one e).
Proof. intros e l -> N. exists [l]. split; [reflexivity|]. split; [repeat constructor; exact N|]. cbn. rewrite app_nil_r. reflexivity. Qed.
Lemma sum_compiled : compiled false true true true sum_prog sum_calls.
Proof.
  unfold compiled, sum_prog, sum_calls. repeat apply Forall2_cons; try apply Forall2_nil; cbn [compiled1]; try reflexivity;
    match goal with |- pieces ?e _ => let l := eval vm_compute in e in match l with Some ?l => apply (one_pieces e l); [vm_compute; reflexivity|discriminate] end end.
Qed.
Lemma sum_ok : Forall (lir_ok sum_prog) sum_prog.
Proof.
  unfold sum_prog at 2. repeat apply Forall_cons; try apply Forall_nil; cbn [lir_ok].
  - split; [legal|split; [legal|discriminate]].
  - exact Logic.I.
  - split; [unfold legal2; legal|split; [cbn; auto|reflexivity]].
  - split; [unfold legal2; legal|split; [cbn; auto|reflexivity]].
  - split; [unfold ctype, SLJIT_NOT_EQUAL; lia|]. eexists. split; reflexivity.
Qed.

(** ** Its meaning *)
Section Meaning.
Variable adr : nat -> Z.
Definition inv (i : nat) (a : lst) : Prop := (i <= 5)%nat /\ (i = 4%nat -> lc a SLJIT_NOT_EQUAL <> None).
Lemma inv_def : forall i a, inv i a -> i = 5%nat \/ ldef sum_prog adr i a.
Proof.
  intros i a (I & J). destruct i as [|[|[|[|[|[|i]]]]]]; [right; exact Logic.I|right; exact Logic.I|right; exists true; exact Logic.I|right; exists true; exact Logic.I|right; exact (J eq_refl)|left; reflexivity|lia].
Qed.
Lemma inv_step : forall i a i1 a1, inv i a -> lstep sum_prog adr i a i1 a1 -> inv i1 a1.
Proof.
  intros i a i1 a1 (I & J) L. destruct i as [|[|[|[|[|[|i]]]]]]; cbn [lstep nth_error sum_prog] in L; try contradiction.
  - destruct L as (-> & _). split; [lia|discriminate].
  - destruct L as (-> & _). split; [lia|discriminate].
  - destruct L as (-> & _). split; [lia|discriminate].
  - destruct L as (-> & c & _ & _ & N). split; [lia|]. intros _. destruct (N SLJIT_NOT_EQUAL) as (N1 & _); [unfold ctype, SLJIT_NOT_EQUAL; lia|]. rewrite N1 by reflexivity. discriminate.
  - destruct L as (c & _ & -> & ->). split; [destruct c; lia|destruct c; discriminate].
Qed.
Lemma inv_safe : forall n i a, inv i a -> safe sum_prog adr n i a.
Proof.
  induction n as [|n IH]; intros i a I; [exact Logic.I|]. destruct (inv_def i a I) as [-> |D]; [left; reflexivity|]. right. split; [exact D|]. intros i1 a1 L. apply IH. eapply inv_step; eauto.
Qed.
Lemma word_eq : forall v r, isw v -> v mod 2 ^ 64 = r mod 2 ^ 64 -> v = r mod 2 ^ 64.
Proof. intros v r V E. rewrite <- E. symmetry. apply Z.mod_small. exact V. Qed.
(** One turn of the loop. *)
Lemma turn : forall n a i' a', goes sum_prog adr (3 + n) 2 a i' a' -> exists a1, lr a1 1 = (lr a 1 + lr a 2) mod 2 ^ 64 /\ lr a1 2 = (lr a 2 - 1) mod 2 ^ 64 /\ lm a1 = lm a /\
  goes sum_prog adr n (if lr a1 2 =? 0 then 5%nat else 2%nat) a1 i' a'.
Proof.
  intros n a i' a' H. cbn [plus goes] in H. destruct H as [(H & _)|(i1 & a1 & L1 & H)]; [discriminate|]. cbn [lstep nth_error sum_prog] in L1. destruct L1 as (-> & c1 & _ & (V1 & W1 & R1 & M1) & _).
  destruct H as [(H & _)|(i2 & a2 & L2 & H)]; [discriminate|]. cbn [lstep nth_error sum_prog] in L2. destruct L2 as (-> & c2 & _ & (V2 & W2 & R2 & M2) & N2).
  destruct H as [(H & _)|(i3 & a3 & L3 & H)]; [discriminate|]. cbn [lstep nth_error sum_prog] in L3. destruct L3 as (c3 & C3 & -> & ->).
  cbn [oadd osubz f32 nbits lval res2] in *. apply word_eq in V1; [|exact W1]. apply word_eq in V2; [|exact W2].
  destruct (N2 SLJIT_NOT_EQUAL) as (N & _); [unfold ctype, SLJIT_NOT_EQUAL; lia|]. rewrite N in C3 by reflexivity. injection C3 as <-.
  rewrite !Z.mod_mod, <- Z.add_mod in V1 by lia. rewrite (R1 2), !Z.mod_mod in V2 by lia. rewrite Zminus_mod_idemp_l in V2. change (1 mod 2 ^ 64) with 1 in V2.
  exists a2. split; [rewrite R2 by lia; exact V1|]. split; [exact V2|]. split; [congruence|].
  assert (E : cond SLJIT_NOT_EQUAL O_SUB 64 (lr a1 2 mod 2 ^ 64) (1 mod 2 ^ 64) c2 = negb (lr a2 2 =? 0)).
  { change (negb (((lr a1 2 mod 2 ^ 64) mod 2 ^ 64 - (1 mod 2 ^ 64) mod 2 ^ 64) mod 2 ^ 64 =? 0) = negb (lr a2 2 =? 0)). rewrite V2, !Z.mod_mod, Zminus_mod_idemp_l by lia. rewrite (R1 2) by lia. reflexivity. }
  change (goes sum_prog adr n (if cond SLJIT_NOT_EQUAL O_SUB 64 (lr a1 2 mod 2 ^ 64) (1 mod 2 ^ 64) c2 then 2%nat else 5%nat) a2 i' a') in H. rewrite E in H. destruct (lr a2 2 =? 0); exact H.
Qed.
Lemma loop : forall m a i' a', goes sum_prog adr (3 * S m) 2 a i' a' -> lr a 2 = Z.of_nat (S m) -> Z.of_nat (S m) < 2 ^ 64 ->
  i' = 5%nat /\ lm a' = lm a /\ exists q, 2 * q = Z.of_nat (S m) * (Z.of_nat (S m) + 1) /\ lr a' 1 mod 2 ^ 64 = (lr a 1 + q) mod 2 ^ 64.
Proof.
  induction m as [|m IH]; intros a i' a' H E B; [change (3 * 1)%nat with (3 + 0)%nat in H|replace (3 * S (S m))%nat with (3 + 3 * S m)%nat in H by lia]; destruct (turn _ _ _ _ H) as (a1 & V1 & V2 & M1 & G);
    rewrite E in V1, V2; rewrite (Z.mod_small (_ - 1)) in V2 by lia; rewrite V2 in G.
  - cbn in G. destruct G as (-> & ->). split; [reflexivity|]. split; [exact M1|]. exists 1. split; [reflexivity|]. rewrite V1. apply Z.mod_mod. lia.
  - replace (Z.of_nat (S (S m)) - 1 =? 0) with false in G by (symmetry; apply Z.eqb_neq; lia). destruct (IH a1 i' a' G ltac:(lia) ltac:(lia)) as (I & M2 & q & Q & L). split; [exact I|]. split; [congruence|].
    exists (q + Z.of_nat (S (S m))). split; [lia|]. rewrite L, V1, Zplus_mod_idemp_l. f_equal. lia.
Qed.
End Meaning.
Definition sum_gen : gen := Eval vm_compute in match generate false P40 0 (emits false (concat sum_calls)) with Some g => g | None => mkGen [] [] [] [] 0 0 end.
Lemma sum_size : csize (emits false (concat sum_calls)) = 29. Proof. vm_compute. reflexivity. Qed.
(** The code at 2 ^ 40, executed from its start with any [m] > 0 in SLJIT_R1 (rsi), gets to its end with the sum in SLJIT_R0 (rax). *)
Lemma sum_runs : forall codef u s m q, fetches P40 0 sum_code codef -> xwf s -> 0 < m -> xr s 6 = m -> 2 * q = m * (m + 1) ->
  exists s', csteps codef u P40 s (P40 + zlen sum_code) s' /\ xr s' 0 = q mod 2 ^ 64 /\ xm s' = xm s.
Proof.
  intros codef u s m q F W M RM QM.
  destruct (program_runs false true true true sum_prog sum_calls P40 0 sum_compiled sum_ok) as (g & P & GE & P0 & PN & _ & SIM);
    [vm_compute; reflexivity|rewrite sum_size; vm_compute; congruence|vm_compute; congruence|vm_compute; congruence|rewrite sum_size; vm_compute; reflexivity|rewrite sum_size; vm_compute; congruence|].
  assert (GS : g = sum_gen) by (enough (Some g = Some sum_gen) by congruence; rewrite <- GE; vm_compute; reflexivity). subst g. change (rb sum_gen) with sum_code in *.
  set (adr := fun j => xpos P40 0 (P (S j))) in *. set (a := absof false s (fun _ => None)).
  destruct (SIM codef u (2 + 3 * S (Z.to_nat (m - 1)))%nat 0%nat a s F) as (i' & a' & s' & GO & CS & AG); [apply agrees_none; exact W|apply inv_safe; split; [lia|discriminate]|].
  pose proof (W 6) as W6. rewrite RM in W6. unfold isw in W6.
  cbn [plus goes] in GO. destruct GO as [(H & _)|(i1 & a1 & L1 & GO)]; [discriminate|]. cbn [lstep nth_error sum_prog] in L1. destruct L1 as (-> & (r & RR & (V1 & W1 & R1 & M1)) & _).
  destruct GO as [(H & _)|(i2 & a2 & L2 & GO)]; [discriminate|]. cbn [lstep nth_error sum_prog] in L2. destruct L2 as (-> & ->).
  destruct (loop adr (Z.to_nat (m - 1)) a1 i' a') as (-> & M2 & q' & Q & L); [exact GO|rewrite R1 by lia; cbn [a absof lr]; change (reg_map false 2) with 6; lia|lia|].
  exists s'. change (P 5%nat) with (P (length sum_prog)) in CS. rewrite PN, P0 in CS. change (xpos P40 0 0) with P40 in CS. change (xpos P40 0 (zlen sum_code)) with (P40 + zlen sum_code) in CS. split; [exact CS|].
  destruct AG as (AR & AM & _ & AW). split; [|rewrite AM, M2, M1; reflexivity]. change 0 with (reg_map false 1) at 1. rewrite AR by lia.
  apply word_eq; [rewrite <- AR by lia; apply AW|]. rewrite L. cbn [res1] in RR.
  assert (V0 : lr a1 1 = 0). { apply word_eq in V1; [|exact W1]. rewrite V1. change (r = 0) in RR. subst r. reflexivity. }
  rewrite V0. f_equal. assert (E : Z.of_nat (S (Z.to_nat (m - 1))) = m) by lia. rewrite E in Q. lia.
Qed.
