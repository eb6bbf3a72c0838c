(** C16: integer operations compute the documented result (RISC-V 64). *)
Require Import ZArith List Bool Lia.
From Verif Require Import Rv.RvLib Rv.RvIsa Rv.RvEnc Rv.RvImm Rv.RvRun Rv.RvImmProofs Rv.RvWf Rv.RvMem Rv.RvRunMem Rv.RvOp Rv.RvLir Rv.RvCanon Rv.RvEmitOp2 Rv.RvEmitOp1 Rv.RvShiftInto Rv.RvOpBad.
Import ListNotations.
Open Scope Z_scope.

(** [ok e s P]: the code emitted by [e], placed anywhere, takes the machine from state [s] to a state with [P] and falls through.
    [dest s s' m d w v]: the destination [d] ([m] bytes if it is in memory) holds [v] and nothing else that is visible has
    changed.  [canon n v]: the low [n] bits of [v] in the format of registers. *)

(** sljit_emit_op2 and sljit_emit_op2u ([AReg 0]): all operations, operands, aliasings, flag requests and values.  Register sources of 32
    bit operations have to be in the 32 bit format (documented).  The last two conditions are about immediate operands with
    value 0 (see C16_overflow_refuted, C17_carry_refuted). *)
Theorem C16_op2 : forall c k is32 setz v s cin dst dstw src1 w1 src2 w2,
  let o := mkOp (K2 k) is32 setz v in
  let n := if is32 then 32 else 64 in
  let m := if is32 then 4%nat else 8%nat in
  wf s -> dst = AReg 0 \/ dst_legal dst dstw -> src_legal src1 w1 -> src_legal src2 w2 -> in_format s n src1 -> in_format s n src2 ->
  flags_legal k setz v -> (k = O_ADDC \/ k = O_SUBC -> rd s OTHER_FLAG = b2z cin) ->
  (k = O_ADD \/ k = O_SUB -> cC c = true -> v = VOverflow -> bad_overflow n src1 w1 src2 w2 = false) ->
  (k = O_ADD \/ k = O_ADDC -> v = VCarry -> bad_carry n dst src1 w1 src2 w2 = false) ->
  ok (emit_op2 c o dst dstw src1 w1 src2 w2) s (fun s' =>
    dest s s' m dst dstw (canon n (res2 k n (argval s m src1 w1) (argval s m src2 w2) cin))).
Proof.
  intros c k is32 setz v s cin dst dstw src1 w1 src2 w2 o n m W D L1 L2 F1 F2 Fl Ci B1 B2. eapply ok_mono.
  - apply (emit_op2_ok c o k s cin dst dstw src1 w1 src2 w2); auto.
    + unfold dst_okp. destruct D as [->|D]; [lia|]. destruct dst; cbn in *; unfold ureg, NREGS in *; lia || auto.
    + intros Hk. apply Ci. destruct k; cbn in Hk; try discriminate; auto.
  - intros s' (A & _). exact A.
Qed.
Print Assumptions C16_op2.

(** sljit_emit_op1, moves: the value is extended from or truncated to the size of the operation; the flags keep their value.
    The last condition is about MOV_S8/U16/S16 from a register to memory with Zbb (see C19_mov_refuted). *)
Theorem C16_mov : forall c k is32 s dst dstw src w, is_move k = true -> wf s -> dst_legal dst dstw -> src_legal src w ->
  (is_mem dst = true -> ~ changes c k s src) ->
  ok (emit_op1 c k is32 dst dstw src w) s (fun s' =>
    (exists r, res1 k (if is32 then 32 else 64) (argval s (size1 k is32) src w) r /\ dest s s' (size1 k is32) dst dstw r) /\
    rd s' EQUAL_FLAG = rd s EQUAL_FLAG /\ rd s' OTHER_FLAG = rd s OTHER_FLAG).
Proof.
  intros c k is32 s dst dstw src w M W D L N. eapply ok_mono; [apply emit_mov_ok; auto|]. cbv beta. intros s' (A & B). split; auto.
  eexists. split; [apply mval_res; auto|exact A].
Qed.
Print Assumptions C16_mov.

(** The other operations of sljit_emit_op1; immediate sources are documented as unsupported. *)
Theorem C16_op1 : forall c k (is32 : bool) s dst dstw src w, is_move k = false -> is_imm src = false -> wf s -> dst_legal dst dstw -> src_legal src w ->
  (k = O_CLZ \/ k = O_CTZ -> in_format s (if is32 then 32 else 64) src) -> (k = O_REV -> is32 = true -> cB c = false -> is_mem dst = true) ->
  ok (emit_op1 c k is32 dst dstw src w) s (fun s' =>
    exists r, res1 k (if is32 then 32 else 64) (argval s (size1 k is32) src w) r /\ dest s s' (size1 k is32) dst dstw r).
Proof. intros. apply emit_un_ok; auto. Qed.
Print Assumptions C16_op1.

(** sljit_emit_op2r (SLJIT_MULADD). *)
Theorem C16_muladd : forall c (is32 : bool) d src1 w1 src2 w2 s, wf s -> ureg d -> src_legal src1 w1 -> src_legal src2 w2 ->
  let n := if is32 then 32 else 64 in let m := if is32 then 4%nat else 8%nat in
  in_format s n src1 -> in_format s n src2 ->
  ok (emit_muladd c is32 d src1 w1 src2 w2) s (fun s' =>
    dest s s' m (AReg d) 0 (canon n (rd s d + argval s m src1 w1 * argval s m src2 w2))).
Proof. exact muladd_ok. Qed.
Print Assumptions C16_muladd.

(** ADD and SUB with the overflow flag, two immediate operands and one of them zero, with the compressed extension: the code does not
    get to its end, it jumps to the address in an internal register. *)
Theorem C16_overflow_refuted : exists c o w1 w2 code p s,
  kind o = K2 O_ADD /\ flags_legal O_ADD (setz o) (vf o) /\ wf s /\
  let l := units_of (flat (emit_op2 c o (AReg 1) 0 AImm w1 AImm w2)) in
  code_at code p l /\ ~ exists s', steps code (setpc s p) (setpc s' (p + 2 * Z.of_nat (length l))).
Proof.
  exists c_c, add_o, 0, 5, (units_at 0x1000 (units_of (flat (emit_op2 c_c add_o (AReg 1) 0 AImm 0 AImm 5)))), 0x1000, (st [(28, 0x5000)]).
  split; [reflexivity|]. split; [cbn; auto|]. split; [apply st_wf|]. exact overflow_wrong.
Qed.
Print Assumptions C16_overflow_refuted.

(** R1 := R1 - [R2 + R3 << 1] in 32 bit mode, with flags, all extensions; the operands are 5 and 0x33323130. *)
Example C16_case : let s := st [(1, 5); (2, 0x1000); (3, 0x18)] in
  wf s /\ dst_legal (AReg 1) 0 /\ src_legal (AReg 1) 0 /\ src_legal (AMem 2 3) 1 /\ in_format s 32 (AReg 1) /\ flags_legal O_SUB true VOverflow /\
  argval s 4 (AMem 2 3) 1 = 0x33323130 /\
  match run (flat (emit_op2 c_b (mkOp (K2 O_SUB) true true VOverflow) (AReg 1) 0 (AReg 1) 0 (AMem 2 3) 1)) s with
  | Some s' => rd s' 1 = wrap (5 - 0x33323130) /\ length (flat (emit_op2 c_b (mkOp (K2 O_SUB) true true VOverflow) (AReg 1) 0 (AReg 1) 0 (AMem 2 3) 1)) = 9%nat | None => False end.
Proof. split; [apply st_wf|]. unfold dst_legal, src_legal, mem_legal, ureg, NREGS. repeat split; try lia; vm_compute; reflexivity. Qed.
(** MOV_S16 [R1 + 0x123456789] := R2 is not affected by the Zbb case when the register is already extended. *)
Example C16_case_mov : let s := st [(1, 5); (2, -3)] in wf s /\ dst_legal (AMem 1 0) 0x123456789 /\ src_legal (AReg 2) 0 /\ ~ changes c_b O_MOV_S16 s (AReg 2).
Proof. split; [apply st_wf|]. unfold dst_legal, src_legal, mem_legal, ureg, NREGS. repeat split; try lia. intros (_ & _ & H). apply H. vm_compute. reflexivity. Qed.
Example C16_case_clz : let s := st [(2, 1)] in wf s /\ in_format s 32 (AReg 2) /\ is_clz 32 (rd s 2) 31.
Proof. split; [apply st_wf|]. split; [vm_compute; reflexivity|]. repeat split; vm_compute; congruence. Qed.
Example C16_case_muladd : let s := st [(1, 5); (2, -3)] in wf s /\ ureg 1 /\ src_legal (AReg 2) 0 /\ src_legal AImm 7 /\ in_format s 32 (AReg 2) /\
  canon 32 (rd s 1 + rd s 2 * 7) = wrap (-16).
Proof. split; [apply st_wf|]. unfold src_legal, ureg, NREGS. repeat split; try lia; vm_compute; reflexivity. Qed.
