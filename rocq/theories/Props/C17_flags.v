(** C17: status flags have the documented meaning (RISC-V 64). *)
Require Import ZArith List Bool Lia.
From Verif Require Import Rv.RvLib Rv.RvIsa Rv.RvEnc Rv.RvImm Rv.RvRun Rv.RvImmProofs Rv.RvAddr Rv.RvAddrProofs Rv.RvWf Rv.RvMem Rv.RvRunMem Rv.RvOp Rv.RvLir Rv.RvEmitOp2 Rv.RvEmitOp1 Rv.RvLink Rv.RvLinkExec Rv.RvLinkApi Rv.RvLinkSpec Rv.RvOpBad Rv.RvCond Rv.RvCondSpec Rv.RvCondProofs Rv.RvSelect Rv.RvCondTop Rv.RvCondBad.
Import ListNotations.
Open Scope Z_scope.

(** [op2_legal]: the conditions of C16_op2.  [cond t k n x y cin]: the condition [t] computed from the operand values. *)

(** An operation followed by a conditional jump (sljit_emit_jump) in a generated program: all operations, conditions and values.  The
    restrictions on the target are those of C13. *)
Theorem C17_jump : forall c k (is32 : bool) setz v s cin dst dstw src1 w1 src2 w2 t cf calls code eo g codef pos i rewr,
  let o := mkOp (K2 k) is32 setz v in
  let n := if is32 then 32 else 64 in
  let m := if is32 then 4%nat else 8%nat in
  let x := argval s m src1 w1 in
  let y := argval s m src2 w2 in
  op2_legal c k is32 setz v s cin dst dstw src1 w1 src2 w2 -> ctype t -> requested o t ->
  program_at cf calls code eo g codef pos -> isw (xaddr code eo (pos i)) -> isw (xaddr code eo (pos (S i))) ->
  nth_error calls i = Some (KIns (flat (emit_op2 c o dst dstw src1 w1 src2 w2))) -> nth_error calls (S i) = Some (KJump (jump_jc t) rewr false) ->
  let j := next_jump (emits cf (firstn (S i) calls)) in
  let to := taddr g (nth j (targets calls) None) in
  to mod 2 = 0 -> ~ bad_abs52 to -> (is_addr (nth j (targets calls) None) -> ~ bad_b16 (jump_jc t) to (xaddr code eo (pos (S i)))) ->
  pc s = xaddr code eo (pos i) ->
  exists s', steps codef s s' /\ pc s' = (if cond t k n x y cin then to else xaddr code eo (pos (S (S i)))) /\
    dest s s' m dst dstw (canon n (res2 k n x y cin)).
Proof. intros. eapply op2_jump; eauto. Qed.
Print Assumptions C17_jump.

(** An operation followed by sljit_emit_op_flags with a move: the destination gets 1 or 0, the flags do not change. [old]: what earlier
    calls left in status_flags_state. *)
Theorem C17_flags_mov : forall c k (is32 : bool) setz v s cin dst dstw src1 w1 src2 w2 t old (mov32 : bool) d2 d2w,
  let o := mkOp (K2 k) is32 setz v in
  let n := if is32 then 32 else 64 in
  let m := if is32 then 4%nat else 8%nat in
  let x := argval s m src1 w1 in
  let y := argval s m src2 w2 in
  op2_legal c k is32 setz v s cin dst dstw src1 w1 src2 w2 -> ctype t -> requested o t -> dst_legal d2 d2w ->
  ok (emit_op2 c o dst dstw src1 w1 src2 w2 ;; emit_op_flags c (adds_after old k) (mkOp (K1 (if mov32 then O_MOV32 else O_MOV)) false false VNone) d2 d2w t) s
    (fun s' => exists s1, dest s s1 m dst dstw (canon n (res2 k n x y cin)) /\ dest s1 s' (if mov32 then 4 else 8)%nat d2 d2w (b2z (cond t k n x y cin)) /\
       rd s' EQUAL_FLAG = rd s1 EQUAL_FLAG /\ rd s' OTHER_FLAG = rd s1 OTHER_FLAG).
Proof. intros. apply op2_flags_mov; auto. Qed.
Print Assumptions C17_flags_mov.

(** The same with AND, OR and XOR of the destination and the condition, which may set the zero flag again. *)
Theorem C17_flags_op : forall c k (is32 : bool) setz v s cin dst dstw src1 w1 src2 w2 t old k2 (f2 setz2 : bool) d2 d2w,
  let o := mkOp (K2 k) is32 setz v in
  let n := if is32 then 32 else 64 in
  let m := if is32 then 4%nat else 8%nat in
  let x := argval s m src1 w1 in
  let y := argval s m src2 w2 in
  op2_legal c k is32 setz v s cin dst dstw src1 w1 src2 w2 -> ctype t -> requested o t ->
  dst_legal d2 d2w -> k2 = O_AND \/ k2 = O_OR \/ k2 = O_XOR ->
  let n2 := if f2 then 32 else 64 in
  let m2 := if f2 then 4%nat else 8%nat in
  (forall s1, dest s s1 m dst dstw (canon n (res2 k n x y cin)) -> in_format s1 n2 d2) ->
  ok (emit_op2 c o dst dstw src1 w1 src2 w2 ;; emit_op_flags c (adds_after old k) (mkOp (K2 k2) f2 setz2 VNone) d2 d2w t) s
    (fun s' => exists s1, dest s s1 m dst dstw (canon n (res2 k n x y cin)) /\
       let res := res2 k2 n2 (argval s1 m2 d2 d2w) (b2z (cond t k n x y cin)) false in
       dest s1 s' m2 d2 d2w (canon n2 res) /\ (setz2 = true -> (rd s' EQUAL_FLAG =? 0) = (res mod 2 ^ n2 =? 0))).
Proof. intros. apply op2_flags_op; auto. Qed.
Print Assumptions C17_flags_op.

(** An operation followed by sljit_emit_select.  The last two conditions: C22_base_refuted, C22_select32_refuted. *)
Theorem C17_select : forall c k (is32 : bool) setz v s cin dst dstw src1 w1 src2 w2 t d a w r2 (sel32 : bool),
  let o := mkOp (K2 k) is32 setz v in
  let n := if is32 then 32 else 64 in
  let m := if is32 then 4%nat else 8%nat in
  let x := argval s m src1 w1 in
  let y := argval s m src2 w2 in
  op2_legal c k is32 setz v s cin dst dstw src1 w1 src2 w2 -> ctype t -> requested o t ->
  ureg d -> src_legal a w -> ureg r2 -> (d = r2 -> base_safe d a w) ->
  (sel32 = true -> forall s1, dest s s1 m dst dstw (canon n (res2 k n x y cin)) -> 
     rd s1 r2 = canon 32 (rd s1 r2) /\ match a with AReg r => rd s1 r = canon 32 (rd s1 r) | AImm => True | AMem b f => load (mem s1) (addr s1 b f w) 4 < 2 ^ 31 end) ->
  ok (emit_op2 c o dst dstw src1 w1 src2 w2 ;; emit_select c t sel32 d a w r2) s
    (fun s' => exists s1, dest s s1 m dst dstw (canon n (res2 k n x y cin)) /\
       dest s1 s' 8 (AReg d) 0 (canon (if sel32 then 32 else 64) (if cond t k n x y cin then argval s1 (if sel32 then 4 else 8)%nat a w else rd s1 r2)) /\
       rd s' EQUAL_FLAG = rd s1 EQUAL_FLAG /\ rd s' OTHER_FLAG = rd s1 OTHER_FLAG).
Proof. intros. apply op2_select; auto. Qed.
Print Assumptions C17_select.

(** ADD R1, R1, #0 with the carry flag: the carry flag is not computed, SLJIT_CARRY may hold after it. *)
Theorem C17_carry_refuted : exists c s t o, requested o t /\ flags_legal O_ADD (setz o) (vf o) /\ kind o = K2 O_ADD /\ wf s /\
  cond t O_ADD 64 (rd s 1) 0 false = false /\
  ok (emit_op2 c o (AReg 1) 0 (AReg 1) 0 AImm 0) s (fun s' => jc_holds (jump_jc t) s' = true).
Proof.
  exists c_n, (st [(29, 1)]), SLJIT_CARRY, add_c. split; [reflexivity|]. split; [cbn; auto|]. split; [reflexivity|]. split; [apply st_wf|]. split; [vm_compute; reflexivity|].
  eapply ok_mono; [exact carry_wrong|]. cbv beta. intros s' H. change (jump_jc SLJIT_CARRY) with (JBr Bne OTHER_FLAG TMP_ZERO). cbn [jc_holds condb]. unfold OTHER_FLAG, TMP_ZERO. rewrite H, rd_0. reflexivity.
Qed.
Print Assumptions C17_carry_refuted.

(** SUB R1, R2, [R3] with the zero and the signed less flags; -5 < 0x33323130 as 32 bit numbers. *)
Example C17_case : let s := st [(2, -5); (3, 0x1030)] in
  op2_legal c_b O_SUB true true VSigLess s false (AReg 1) 0 (AReg 2) 0 (AMem 3 0) 0 /\ requested (mkOp (K2 O_SUB) true true VSigLess) SLJIT_SIG_LESS /\
  requested (mkOp (K2 O_SUB) true true VSigLess) SLJIT_EQUAL /\
  cond SLJIT_SIG_LESS O_SUB 32 (argval s 4 (AReg 2) 0) (argval s 4 (AMem 3 0) 0) false = true /\ cond SLJIT_LESS O_SUB 32 (argval s 4 (AReg 2) 0) (argval s 4 (AMem 3 0) 0) false = false.
Proof.
  cbv zeta. split; [|repeat split; vm_compute; reflexivity]. unfold op2_legal. split; [apply st_wf|]. unfold dst_legal, src_legal, mem_legal, ureg, NREGS.
  repeat split; try lia; try discriminate; try (vm_compute; reflexivity); try (intros [?|?]; discriminate).
Qed.
