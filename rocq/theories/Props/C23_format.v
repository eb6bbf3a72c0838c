(** C23: 32 bit operations compose (RISC-V 64). *)
Require Import ZArith List Bool Lia.
From Verif Require Import Rv.RvLib Rv.RvIsa Rv.RvEnc Rv.RvImm Rv.RvRun Rv.RvWf Rv.RvMem Rv.RvRunMem Rv.RvOp Rv.RvLir Rv.RvCanon Rv.RvSoMov Rv.RvEmitOp2 Rv.RvEmitOp1 Rv.RvShiftInto Rv.RvOpTop Rv.RvOpBad.
Import ListNotations.
Open Scope Z_scope.

(** [in_format s 32 (AReg d)]: the register holds the sign extension of its low 32 bits, as the other theorems require of the register
    sources of 32 bit operations. *)
Theorem C23_op2 : forall c k setz v s cin d src1 w1 src2 w2,
  wf s -> ureg d -> src_legal src1 w1 -> src_legal src2 w2 -> in_format s 32 src1 -> in_format s 32 src2 ->
  flags_legal k setz v -> (k = O_ADDC \/ k = O_SUBC -> rd s OTHER_FLAG = b2z cin) ->
  (k = O_ADD \/ k = O_SUB -> cC c = true -> v = VOverflow -> bad_overflow 32 src1 w1 src2 w2 = false) ->
  (k = O_ADD \/ k = O_ADDC -> v = VCarry -> bad_carry 32 (AReg d) src1 w1 src2 w2 = false) ->
  ok (emit_op2 c (mkOp (K2 k) true setz v) (AReg d) 0 src1 w1 src2 w2) s (fun s' => in_format s' 32 (AReg d)).
Proof.
  intros c k setz v s cin d src1 w1 src2 w2 W D L1 L2 F1 F2 Fl Ci B1 B2. eapply ok_mono.
  - apply (emit_op2_ok c (mkOp (K2 k) true setz v) k s cin (AReg d) 0 src1 w1 src2 w2); auto.
    + unfold dst_okp, ureg, NREGS in *. lia.
    + intros Hk. apply Ci. destruct k; cbn in Hk; try discriminate; auto.
  - intros s' ((_ & V & _) & _). cbn [in_format]. rewrite V by (unfold ureg in D; lia). symmetry. apply (canon_canon true).
Qed.
Print Assumptions C23_op2.

(** MOV32, CLZ, CTZ, and REV with the Zbb extension (see below for REV without it). *)
Theorem C23_op1_partial : forall c k s d src w, k = O_MOV32 \/ k = O_CLZ \/ k = O_CTZ \/ k = O_REV ->
  wf s -> ureg d -> src_legal src w -> (k <> O_MOV32 -> is_imm src = false /\ in_format s 32 src) -> (k = O_REV -> cB c = true) ->
  ok (emit_op1 c k true (AReg d) 0 src w) s (fun s' => in_format s' 32 (AReg d)).
Proof.
  intros c k s d src w K W D L H B. destruct K as [->|K].
  - eapply ok_mono; [apply emit_mov_ok; auto; cbn; discriminate|]. cbv beta. intros s' ((_ & V & _) & _). cbn [in_format]. rewrite V by (unfold ureg in D; lia).
    cbn [mval mkind mext]. symmetry. apply (canon_canon true).
  - eapply ok_mono.
    + apply emit_un_ok; auto; try (destruct K as [->|[->| ->]]; cbn; auto; fail).
      * apply H. destruct K as [->|[->| ->]]; discriminate.
      * intros _. apply H. destruct K as [->|[->| ->]]; discriminate.
      * intros Hk _ Hb. specialize (B Hk). congruence.
    + cbv beta. intros s' (r & R & (_ & V & _)). cbn [in_format]. rewrite V by (unfold ureg in D; lia). clear V.
      destruct K as [->|[->| ->]]; cbn [res1] in R.
      * destruct R as (R & _). rewrite (canon_small true), wrap_small; auto; unfold isw; cbn in R; lia.
      * destruct R as (R & _). rewrite (canon_small true), wrap_small; auto; unfold isw; cbn in R; lia.
      * subst r. symmetry. apply (canon_canon true).
Qed.
Print Assumptions C23_op1_partial.

Theorem C23_muladd : forall c d src1 w1 src2 w2 s, wf s -> ureg d -> src_legal src1 w1 -> src_legal src2 w2 -> in_format s 32 src1 -> in_format s 32 src2 ->
  ok (emit_muladd c true d src1 w1 src2 w2) s (fun s' => in_format s' 32 (AReg d)).
Proof.
  intros c d src1 w1 src2 w2 s W D L1 L2 F1 F2. eapply ok_mono; [apply muladd_ok; auto|]. cbv beta. intros s' (_ & V & _). cbn [in_format].
  rewrite V by (unfold ureg in D; lia). symmetry. apply (canon_canon true).
Qed.
Print Assumptions C23_muladd.

Theorem C23_shift_into : forall c left nz d r1 r2 src3 w3 s,
  wf s -> ureg d -> ureg r1 -> ureg r2 -> d <> r2 -> src_legal src3 w3 -> in_format s 32 (AReg r1) -> in_format s 32 (AReg r2) -> in_format s 32 src3 ->
  (nz = true -> argval s 4 src3 w3 mod 32 <> 0) -> (src3 = AImm -> r1 <> r2 -> w3 mod 32 = 0 -> d = r1) ->
  ok (emit_shift_into c left true nz d r1 r2 src3 w3) s (fun s' => in_format s' 32 (AReg d)).
Proof.
  intros c left nz d r1 r2 src3 w3 s W D U1 U2 N L F1 F2 F3 Nz Iz. eapply ok_mono.
  - apply shift_into_ok; auto. intros ->. auto.
  - cbv beta. intros s' (_ & V & _). cbn [in_format]. rewrite V by (unfold ureg in D; lia). symmetry. apply (canon_canon true).
Qed.
Print Assumptions C23_shift_into.

(** REV | SLJIT_32 into a register without the Zbb extension is zero extended. *)
Theorem C23_rev_refuted : exists c s, wf s /\ in_format s 32 (AReg 2) /\
  ok (emit_op1 c O_REV true (AReg 1) 0 (AReg 2) 0) s (fun s' => ~ in_format s' 32 (AReg 1)).
Proof.
  exists c_n, (st [(2, 0x80)]). split; [apply st_wf|]. split; [vm_compute; reflexivity|]. eapply ok_mono; [apply rev32_wrong|]. cbv beta.
  intros s' E. cbn [in_format]. rewrite E. vm_compute. discriminate.
Qed.
Print Assumptions C23_rev_refuted.
(** A following 32 bit comparison gives the wrong answer: rev32(0x80) is not less than 0 (signed). *)
Theorem C23_rev_compose_refuted : exists c s, wf s /\ in_format s 32 (AReg 2) /\
  ok (emit_op1 c O_REV true (AReg 1) 0 (AReg 2) 0 ;; emit_op2 c (mkOp (K2 O_SUB) true false VSigLess) (AReg 0) 0 (AReg 1) 0 AImm 0) s
     (fun s' => rd s' OTHER_FLAG = 0) /\ flag2 O_SUB VSigLess 32 (rev_bytes 4 (rd s 2)) 0 false = true.
Proof.
  exists c_n, (st [(2, 0x80)]). split; [apply st_wf|]. split; [vm_compute; reflexivity|]. split; [|vm_compute; reflexivity].
  eapply ok_mono; [apply (ok_b _ _ (fun s' => rd s' OTHER_FLAG =? 0)); vm_compute; reflexivity|]. cbv beta. intros s' H. apply Z.eqb_eq. exact H.
Qed.
Print Assumptions C23_rev_compose_refuted.

Example C23_case : let s := st [(1, -5); (2, 0x1000); (3, 0x18)] in
  wf s /\ ureg 1 /\ src_legal (AReg 1) 0 /\ src_legal (AMem 2 3) 1 /\ in_format s 32 (AReg 1) /\ flags_legal O_SUB true VOverflow.
Proof. split; [apply st_wf|]. unfold src_legal, mem_legal, ureg, NREGS. repeat split; try lia; vm_compute; reflexivity. Qed.
