(** C22: conditional select (RISC-V 64). *)
Require Import ZArith List Bool Lia.
From Verif Require Import Rv.RvLib Rv.RvIsa Rv.RvEnc Rv.RvImm Rv.RvRun Rv.RvImmProofs Rv.RvWf Rv.RvMem Rv.RvRunMem Rv.RvOp Rv.RvLir Rv.RvEmitOp Rv.RvOpBad Rv.RvCond Rv.RvCondSpec Rv.RvCondProofs Rv.RvSelect Rv.RvCondBad.
Import ListNotations.
Open Scope Z_scope.

(** [flags_for t mul s z v]: the machine has the zero flag [z] or the variable flag [v] (left by a multiplication if [mul]) that [t] tests;
    operations establish it (C17).  All conditions, operands, aliasings and values, except two cases: see below. *)
Theorem C22_select_partial : forall c t (is32 mul : bool) dst src1 w1 src2 s z v,
  ctype t -> flags_for t mul s z v -> wf s -> ureg dst -> src_legal src1 w1 -> ureg src2 ->
  (is32 = true -> rd s src2 = canon 32 (rd s src2) /\ match src1 with AReg r => rd s r = canon 32 (rd s r) | AImm => True | AMem b o => load (mem s) (addr s b o w1) 4 < 2 ^ 31 end) ->
  (dst = src2 -> base_safe dst src1 w1) ->
  let n := if is32 then 32 else 64 in
  let m := if is32 then 4%nat else 8%nat in
  ok (emit_select c t is32 dst src1 w1 src2) s (fun s' =>
    keeps s s' [dst; TMP_REG1; TMP_REG3] /\ rd s' dst = canon n (if holds t z v then argval s m src1 w1 else rd s src2)).
Proof. intros. apply (select_ok c t is32 mul dst src1 w1 src2 s z v); auto. Qed.
Print Assumptions C22_select_partial.

(** 32 bit select from memory: a negative value is not in the 32 bit format. *)
Theorem C22_select32_refuted : exists c dst src1 w1 src2 s, flags_for SLJIT_LESS false s false true /\ wf s /\ ureg dst /\ src_legal src1 w1 /\ ureg src2 /\
  rd s src2 = canon 32 (rd s src2) /\
  ok (emit_select c SLJIT_LESS true dst src1 w1 src2) s (fun s' => rd s' dst <> canon 32 (argval s 4 src1 w1)).
Proof.
  exists c_n, 2, (AMem 1 0), 0, 3, (st [(1, 0x10fc); (29, 1)]). split; [vm_compute; reflexivity|]. split; [apply st_wf|]. unfold src_legal, mem_legal, ureg, NREGS.
  split; [lia|]. split; [lia|]. split; [lia|]. split; [vm_compute; reflexivity|].
  eapply ok_mono; [exact select_mem_wrong|]. cbv beta. intros s' ->. vm_compute. congruence.
Qed.
Print Assumptions C22_select32_refuted.

(** dst_reg = src2_reg is also the base of src1 and the offset is large: the base is lost before it is used. *)
Theorem C22_base_refuted : exists c dst w1 s, flags_for SLJIT_LESS false s false true /\ wf s /\ ureg dst /\ src_legal (AMem dst 0) w1 /\
  ok (emit_select c SLJIT_LESS false dst (AMem dst 0) w1 dst) s (fun s' => rd s' dst <> argval s 8 (AMem dst 0) w1).
Proof.
  exists c_n, 1, 0x12345, (st [(1, 0x1001); (29, 1)]). split; [vm_compute; reflexivity|]. split; [apply st_wf|]. unfold src_legal, mem_legal, ureg, NREGS.
  split; [lia|]. split; [lia|]. eapply ok_mono; [exact select_base_wrong|]. cbv beta. intros s' ->. vm_compute. congruence.
Qed.
Print Assumptions C22_base_refuted.

(** R1 := R1 or [R1 + R2 << 1], the destination is part of the address; the condition holds. *)
Example C22_case : let s := st [(1, 0x1000); (2, 0x18); (3, -9); (28, 0)] in ctype SLJIT_EQUAL /\ flags_for SLJIT_EQUAL false s true false /\ wf s /\ src_legal (AMem 1 2) 1 /\
  load (mem s) (addr s 1 2 1) 4 < 2 ^ 31 /\ rd s 3 = canon 32 (rd s 3) /\ holds SLJIT_EQUAL true false = true /\ argval s 4 (AMem 1 2) 1 = 0x33323130 /\
  length (flat (emit_select c_c SLJIT_EQUAL true 1 (AMem 1 2) 1 3)) = 6%nat.
Proof. split; [vm_compute; split; congruence|]. split; [vm_compute; reflexivity|]. split; [apply st_wf|]. unfold src_legal, mem_legal, ureg, NREGS. repeat split; try lia; vm_compute; reflexivity. Qed.
