(** C19: operations change only their destination (RISC-V 64). *)
Require Import ZArith List Bool Lia.
From Verif Require Import Rv.RvLib Rv.RvIsa Rv.RvEnc Rv.RvImm Rv.RvRun Rv.RvWf Rv.RvMem Rv.RvRunMem Rv.RvOp Rv.RvLir Rv.RvCanon Rv.RvEmitOp2 Rv.RvEmitOp1 Rv.RvShiftInto Rv.RvOpTop Rv.RvOpBad.
Import ListNotations.
Open Scope Z_scope.

(** [visible]: the registers of the API, the stack pointer and the two registers reserved by the platform. *)
Theorem C19_op2 : forall c k (is32 : bool) setz v s cin dst dstw src1 w1 src2 w2,
  let n := if is32 then 32 else 64 in
  wf s -> dst = AReg 0 \/ dst_legal dst dstw -> src_legal src1 w1 -> src_legal src2 w2 -> in_format s n src1 -> in_format s n src2 ->
  flags_legal k setz v -> (k = O_ADDC \/ k = O_SUBC -> rd s OTHER_FLAG = b2z cin) ->
  (k = O_ADD \/ k = O_SUB -> cC c = true -> v = VOverflow -> bad_overflow n src1 w1 src2 w2 = false) ->
  (k = O_ADD \/ k = O_ADDC -> v = VCarry -> bad_carry n dst src1 w1 src2 w2 = false) ->
  ok (emit_op2 c (mkOp (K2 k) is32 setz v) dst dstw src1 w1 src2 w2) s (fun s' => frame s s' (if is32 then 4 else 8) dst dstw).
Proof.
  intros c k is32 setz v s cin dst dstw src1 w1 src2 w2 n W D L1 L2 F1 F2 Fl Ci B1 B2. eapply ok_mono.
  - apply (emit_op2_ok c (mkOp (K2 k) is32 setz v) k s cin dst dstw src1 w1 src2 w2); auto.
    + unfold dst_okp. destruct D as [->|D]; [lia|]. destruct dst; cbn in *; unfold ureg, NREGS in *; lia || auto.
    + intros Hk. apply Ci. destruct k; cbn in Hk; try discriminate; auto.
  - intros s' (A & _). eapply dest_frame; [|exact A]. cbn. destruct is32; lia.
Qed.
Print Assumptions C19_op2.

Theorem C19_op1 : forall c k (is32 : bool) s dst dstw src w, wf s -> dst_legal dst dstw -> src_legal src w ->
  (if is_move k then is_mem dst = true -> ~ changes c k s src
   else is_imm src = false /\ (k = O_CLZ \/ k = O_CTZ -> in_format s (if is32 then 32 else 64) src) /\ (k = O_REV -> is32 = true -> cB c = false -> is_mem dst = true)) ->
  ok (emit_op1 c k is32 dst dstw src w) s (fun s' => frame s s' (size1 k is32) dst dstw).
Proof.
  intros c k is32 s dst dstw src w W D L H. destruct (is_move k) eqn:M; (eapply ok_mono; [first [apply emit_mov_ok; auto; fail | apply emit_un_ok; tauto]|]); cbv beta.
  - intros s' (A & _). eapply dest_frame; [apply size1_le|exact A].
  - intros s' (r & _ & A). eapply dest_frame; [apply size1_le|exact A].
Qed.
Print Assumptions C19_op1.

Theorem C19_muladd : forall c (is32 : bool) d src1 w1 src2 w2 s, wf s -> ureg d -> src_legal src1 w1 -> src_legal src2 w2 ->
  let n := if is32 then 32 else 64 in in_format s n src1 -> in_format s n src2 ->
  ok (emit_muladd c is32 d src1 w1 src2 w2) s (fun s' => frame s s' 8 (AReg d) 0).
Proof. intros c is32 d src1 w1 src2 w2 s W D L1 L2 n F1 F2. eapply ok_mono; [apply muladd_ok; auto|]. cbv beta. intros s' A. eapply dest_frame; [|exact A]. lia. Qed.
Print Assumptions C19_muladd.

Theorem C19_shift_into : forall c left (is32 nz : bool) d r1 r2 src3 w3 s, let n := if is32 then 32 else 64 in let m := if is32 then 4%nat else 8%nat in
  wf s -> ureg d -> ureg r1 -> ureg r2 -> d <> r2 -> src_legal src3 w3 -> in_format s n (AReg r1) -> in_format s n (AReg r2) -> in_format s n src3 ->
  (nz = true -> argval s m src3 w3 mod n <> 0) -> (src3 = AImm -> r1 <> r2 -> w3 mod n = 0 -> d = r1) ->
  ok (emit_shift_into c left is32 nz d r1 r2 src3 w3) s (fun s' => frame s s' 8 (AReg d) 0).
Proof.
  intros c left is32 nz d r1 r2 src3 w3 s n m W D U1 U2 N L F1 F2 F3 Nz Iz. eapply ok_mono.
  - apply shift_into_ok; auto. intros ->. auto.
  - cbv beta. intros s' A. eapply dest_frame; [|exact A]. lia.
Qed.
Print Assumptions C19_shift_into.

(** MOV_S8, MOV_U16 and MOV_S16 from a register to memory with the Zbb extension change the source register, *)
Theorem C19_mov_refuted : exists c k s, is_move k = true /\ wf s /\ dst_legal (AMem 2 0) 0 /\ src_legal (AReg 1) 0 /\
  ok (emit_op1 c k false (AMem 2 0) 0 (AReg 1) 0) s (fun s' => rd s' 1 <> rd s 1).
Proof.
  exists c_b, O_MOV_S8, (st [(1, 0x1ff); (2, 0x1000)]). split; [reflexivity|]. split; [apply st_wf|]. unfold dst_legal, src_legal, mem_legal, ureg, NREGS. repeat (split; try lia).
  eapply ok_mono; [apply mov8_wrong|]. cbv beta. intros s' ->. vm_compute. discriminate.
Qed.
Print Assumptions C19_mov_refuted.
(** and when the register is also the base of the address, other memory is written. *)
Theorem C19_mov_address_refuted : exists c k s, is_move k = true /\ wf s /\ dst_legal (AMem 1 0) 0 /\ src_legal (AReg 1) 0 /\
  ok (emit_op1 c k false (AMem 1 0) 0 (AReg 1) 0) s (fun s' => exists x, isw x /\ Z.of_nat (size1 k false) <= wrap (x - rd s 1) /\ mem s' x <> mem s x).
Proof.
  exists c_b, O_MOV_U16, (st [(1, 0x12345)]). split; [reflexivity|]. split; [apply st_wf|]. unfold dst_legal, src_legal, mem_legal, ureg, NREGS. repeat (split; try lia).
  eapply ok_mono; [apply mov8_address_wrong|]. cbv beta. intros s' (_ & H). exists 0x2346. rewrite H. repeat split; vm_compute; congruence.
Qed.
Print Assumptions C19_mov_address_refuted.

(** With all three operands in memory, R1 used as base and index. *)
Example C19_case : let s := st [(1, 0x1000)] in wf s /\ dst_legal (AMem 1 1) 3 /\ src_legal (AMem 1 0) 0x12340 /\ src_legal (AMem 0 0) 0x22345678 /\ flags_legal O_SUB true VLess.
Proof. split; [apply st_wf|]. unfold dst_legal, src_legal, mem_legal, ureg, NREGS. repeat split; try lia. Qed.
Example C19_case_op1 : let s := st [(1, 0x1000)] in wf s /\ dst_legal (AReg 2) 0 /\ src_legal (AMem 1 1) 3 /\ is_imm (AMem 1 1) = false.
Proof. split; [apply st_wf|]. unfold dst_legal, src_legal, mem_legal, ureg, NREGS. repeat split; try lia. Qed.
