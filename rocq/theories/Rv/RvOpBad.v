(** Concrete operations: the cases where the code of an operation is wrong. *)
Require Import ZArith List Bool Lia.
From Verif Require Import Rv.RvLib Rv.RvBits Rv.RvIsa Rv.RvEnc Rv.RvImm Rv.RvRun Rv.RvImmProofs Rv.RvCtl Rv.RvWf Rv.RvMem Rv.RvRunMem Rv.RvOp Rv.RvLir Rv.RvCanon Rv.RvMemProofs Rv.RvEmitOp Rv.RvEmitOp2 Rv.RvEmitOp1 Rv.RvShiftInto Rv.RvLinkTop.
Import ListNotations.
Open Scope Z_scope.
Ltac Zify.zify_post_hook ::= idtac.

(** A state for the examples: the given registers, 7 in all others, memory with byte [a mod 256] at [a]. *)
Definition st (l : list (Z * Z)) : mst := fold_left (fun s p => wr s (fst p) (wrap (snd p))) l (mkM (fun _ => 7) (fun _ => 0) (fun a => a mod 256) 0).
Lemma st_wf l : wf (st l).
Proof.
  unfold st. assert (H : wf (mkM (fun _ => 7) (fun _ => 0) (fun a => a mod 256) 0)).
  { intros x. unfold getr. cbn. destruct (x =? 0); unfold isw; lia. }
  revert H. generalize (mkM (fun _ => 7) (fun _ => 0) (fun a => a mod 256) 0). induction l as [|p l IH]; intros s H; cbn; auto.
  apply IH. apply wf_wr; auto. apply wrap_isw.
Qed.
(** The state after a fragment without jumps, and a decidable form of [ok]. *)
Lemma ok_b e s (p : mst -> bool) : match run (flat e) s with Some s' => p s' | None => false end = true -> ok e s (fun s' => p s' = true).
Proof. intros H. destruct (run (flat e) s) as [s'|] eqn:R; [|discriminate]. eapply ok_run; eauto. Qed.

Definition c_n : cfg := mkCfg false false false.
Definition c_c : cfg := mkCfg true false false.
Definition c_b : cfg := mkCfg true true true.

(** REV with SLJIT_32 without Zbb: the register is zero extended. *)
Lemma rev32_wrong : ok (emit_op1 c_n O_REV true (AReg 1) 0 (AReg 2) 0) (st [(2, 0x80)]) (fun s' => rd s' 1 = 0x80000000).
Proof. eapply ok_mono; [apply (ok_b _ _ (fun s' => rd s' 1 =? 0x80000000)); vm_compute; reflexivity|]. cbv beta. intros s' H. apply Z.eqb_eq. exact H. Qed.

(** MOV_S8 from a register to memory with Zbb: the source register changes; the address changes if it is the base. *)
Lemma mov8_wrong : ok (emit_op1 c_b O_MOV_S8 false (AMem 2 0) 0 (AReg 1) 0) (st [(1, 0x1ff); (2, 0x1000)]) (fun s' => rd s' 1 = wrap (-1)).
Proof. eapply ok_mono; [apply (ok_b _ _ (fun s' => rd s' 1 =? wrap (-1))); vm_compute; reflexivity|]. cbv beta. intros s' H. apply Z.eqb_eq. exact H. Qed.
Lemma mov8_address_wrong : ok (emit_op1 c_b O_MOV_U16 false (AMem 1 0) 0 (AReg 1) 0) (st [(1, 0x12345)])
  (fun s' => mem s' 0x12345 = 0x45 /\ mem s' 0x2346 = 0x23).
Proof.
  eapply ok_mono; [apply (ok_b _ _ (fun s' => (mem s' 0x12345 =? 0x45) && (mem s' 0x2346 =? 0x23))); vm_compute; reflexivity|]. cbv beta. intros s' H.
  apply andb_prop in H as (A & B). split; apply Z.eqb_eq; assumption.
Qed.

(** ADD with the carry flag: the flag is not computed. *)
Definition add_c : op := mkOp (K2 O_ADD) false false VCarry.
Lemma carry_wrong : ok (emit_op2 c_n add_c (AReg 1) 0 (AReg 1) 0 AImm 0) (st [(29, 1)]) (fun s' => rd s' 29 = 1).
Proof. eapply ok_mono; [apply (ok_b _ _ (fun s' => rd s' 29 =? 1)); vm_compute; reflexivity|]. cbv beta. intros s' H. apply Z.eqb_eq. exact H. Qed.

(** shift_into by an immediate zero emits nothing. *)
Lemma into_wrong : ok (emit_shift_into c_n true false false 1 2 3 AImm 64) (st [(1, 5); (2, 9)]) (fun s' => rd s' 1 = 5).
Proof. eapply ok_mono; [apply (ok_b _ _ (fun s' => rd s' 1 =? 5)); vm_compute; reflexivity|]. cbv beta. intros s' H. apply Z.eqb_eq. exact H. Qed.

(** ADD of two immediates with the overflow flag and the compressed extension: a jump to the address in the register of the zero
    flag. *)
Definition add_o : op := mkOp (K2 O_ADD) false false VOverflow.
Definition units_at (p : Z) (l : list Z) (a : Z) : Z := if (p <=? a) && (a <? p + 2 * Z.of_nat (length l)) then nth (Z.to_nat ((a - p) / 2)) l 0 else 0.
Lemma units_at_ok p l : 0 <= p -> p + 2 * Z.of_nat (length l) < 2 ^ 64 -> code_at (units_at p l) p l.
Proof.
  intros H0 H1 n v E. assert (L : (n < length l)%nat) by (apply nth_error_Some; congruence). rewrite wrap_small by (unfold isw; lia). unfold units_at.
  destruct ((p <=? p + 2 * Z.of_nat n) && (p + 2 * Z.of_nat n <? p + 2 * Z.of_nat (length l))) eqn:B.
  - replace (p + 2 * Z.of_nat n - p) with (Z.of_nat n * 2) by lia. rewrite Z.div_mul, Nat2Z.id by lia. apply nth_error_nth. exact E.
  - apply andb_false_iff in B. lia.
Qed.
Lemma overflow_wrong :
  let l := units_of (flat (emit_op2 c_c add_o (AReg 1) 0 AImm 0 AImm 5)) in
  code_at (units_at 0x1000 l) 0x1000 l /\
  ~ exists s', steps (units_at 0x1000 l) (setpc (st [(28, 0x5000)]) 0x1000) (setpc s' (0x1000 + 2 * Z.of_nat (length l))).
Proof.
  intros l. split.
  - apply units_at_ok; [lia|vm_compute; reflexivity].
  - intros (s' & S). apply (never (units_at 0x1000 l) 4 (setpc (st [(28, 0x5000)]) 0x1000) (fun s => pc s =? 0x1000 + 2 * Z.of_nat (length l)));
      [vm_compute; reflexivity|vm_compute; reflexivity|]. eexists. split; [exact S|]. apply Z.eqb_eq. reflexivity.
Qed.
