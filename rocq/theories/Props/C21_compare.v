(** C21: compare and branch takes the branch iff the condition holds (RISC-V 64). *)
Require Import ZArith List Bool Lia.
From Verif Require Import Rv.RvLib Rv.RvIsa Rv.RvEnc Rv.RvImm Rv.RvRun Rv.RvImmProofs Rv.RvAddr Rv.RvAddrProofs Rv.RvWf Rv.RvMem Rv.RvRunMem Rv.RvOp Rv.RvLir Rv.RvLink Rv.RvLinkExec Rv.RvLinkApi Rv.RvLinkSpec Rv.RvOpBad Rv.RvCond Rv.RvCondSpec Rv.RvCmp Rv.RvCondTop Rv.RvCondBad.
Import ListNotations.
Open Scope Z_scope.

(** The instructions of sljit_emit_cmp and the condition of its jump: all comparisons and operands.  In 32 bit mode memory operands with
    a set sign bit and immediates outside of the signed 32 bit range are excluded (see C21_cmp32_refuted). *)
Theorem C21_cmp_partial : forall c t is32 src1 w1 src2 w2 s, 0 <= t < 10 -> wf s -> src_legal src1 w1 -> src_legal src2 w2 ->
  (is32 = true -> sign_clear s src1 w1 /\ sign_clear s src2 w2) ->
  let n := if is32 then 32 else 64 in
  let m := if is32 then 4%nat else 8%nat in
  let '(e, j) := emit_cmp c t is32 src1 w1 src2 w2 in
  jc_ok j /\ match j with JZ _ _ => cC c = true | JAlways => False | _ => True end /\
  ok e s (fun s' => keeps s s' [TMP_REG1; TMP_REG2; TMP_REG3] /\ jc_holds j s' = compare t n (argval s m src1 w1) (argval s m src2 w2)).
Proof. exact cmp_ok. Qed.
Print Assumptions C21_cmp_partial.

(** Two 32 bit memory operands, equality and unsigned comparisons: all values. *)
Theorem C21_cmp_memory : forall c t b1 o1 w1 b2 o2 w2 s, 0 <= t < 6 -> wf s -> mem_legal b1 o1 w1 -> mem_legal b2 o2 w2 ->
  let '(e, j) := emit_cmp c t true (AMem b1 o1) w1 (AMem b2 o2) w2 in
  jc_ok j /\ match j with JZ _ _ => cC c = true | JAlways => False | _ => True end /\
  ok e s (fun s' => keeps s s' [TMP_REG1; TMP_REG2; TMP_REG3] /\ jc_holds j s' = compare t 32 (argval s 4 (AMem b1 o1) w1) (argval s 4 (AMem b2 o2) w2)).
Proof. exact cmp_mem_ok. Qed.
Print Assumptions C21_cmp_memory.

(** In a generated program: the branch is taken exactly if the comparison holds; the restrictions on the target are those of C13. *)
Theorem C21_program_partial : forall c t (is32 : bool) src1 w1 src2 w2 s cf calls code eo g codef pos i rewr,
  0 <= t < 10 -> wf s -> src_legal src1 w1 -> src_legal src2 w2 -> (is32 = true -> sign_clear s src1 w1 /\ sign_clear s src2 w2) ->
  let '(e, x) := emit_cmp c t is32 src1 w1 src2 w2 in
  program_at cf calls code eo g codef pos -> isw (xaddr code eo (pos i)) -> isw (xaddr code eo (pos (S i))) ->
  nth_error calls i = Some (KIns (flat e)) -> nth_error calls (S i) = Some (KJump x rewr false) ->
  let j := next_jump (emits cf (firstn (S i) calls)) in
  let to := taddr g (nth j (targets calls) None) in
  to mod 2 = 0 -> ~ bad_abs52 to -> (is_addr (nth j (targets calls) None) -> ~ bad_b16 x to (xaddr code eo (pos (S i)))) ->
  pc s = xaddr code eo (pos i) ->
  let n := if is32 then 32 else 64 in
  let m := if is32 then 4%nat else 8%nat in
  exists s', steps codef s s' /\ same_but s s' [TMP_REG1; TMP_REG2; TMP_REG3] /\
    pc s' = if compare t n (argval s m src1 w1) (argval s m src2 w2) then to else xaddr code eo (pos (S (S i))).
Proof.
  intros c t is32 src1 w1 src2 w2 s cf calls code eo g codef pos i rewr T W L1 L2 F. pose proof (cmp_ok c t is32 src1 w1 src2 w2 s T W L1 L2 F) as C. cbv zeta in C.
  destruct (emit_cmp c t is32 src1 w1 src2 w2) as [e x] eqn:E. destruct C as (_ & _ & C). intros P I0 I1 N0 N1 j to A1 A2 A3 PC n m.
  assert (E1 : e = fst (emit_cmp c t is32 src1 w1 src2 w2)) by (rewrite E; reflexivity). assert (E2 : x = snd (emit_cmp c t is32 src1 w1 src2 w2)) by (rewrite E; reflexivity).
  subst e x. clear E. destruct (cmp_jump c t is32 src1 w1 src2 w2 s cf calls code eo g codef pos i rewr _ C P I0 I1 N0 N1 A1 A2 A3 PC) as (s' & S1 & S2 & S3).
  exists s'. split; [exact S1|]. split; [exact S3|]. exact S2.
Qed.
Print Assumptions C21_program_partial.

(** 32 bit comparison: a negative number in memory is not equal to the same immediate; -1 in a register is not equal to 0xffffffff. *)
Theorem C21_cmp32_refuted : exists c src1 w1 src2 w2 s, wf s /\ src_legal src1 w1 /\ src_legal src2 w2 /\ is_mem src1 = true /\
  compare SLJIT_EQUAL 32 (argval s 4 src1 w1) (argval s 4 src2 w2) = true /\
  let '(e, j) := emit_cmp c SLJIT_EQUAL true src1 w1 src2 w2 in ok e s (fun s' => jc_holds j s' = false).
Proof.
  exists c_n, (AMem 1 0), 0, AImm, (sext 32 neg_word), (st [(1, 0x10fc)]). split; [apply st_wf|]. unfold src_legal, mem_legal, ureg, NREGS.
  split; [lia|]. split; [vm_compute; split; congruence|]. split; [reflexivity|]. split; [vm_compute; reflexivity|]. exact cmp_mem_wrong.
Qed.
Print Assumptions C21_cmp32_refuted.
Theorem C21_cmp32_imm_refuted : exists c w2 s, wf s /\ src_legal AImm w2 /\ rd s 1 = canon 32 (rd s 1) /\
  compare SLJIT_EQUAL 32 (rd s 1) w2 = true /\
  let '(e, j) := emit_cmp c SLJIT_EQUAL true (AReg 1) 0 AImm w2 in ok e s (fun s' => jc_holds j s' = false).
Proof. exists c_n, 0xffffffff, (st [(1, -1)]). split; [apply st_wf|]. split; [cbn; lia|]. split; [vm_compute; reflexivity|]. split; [vm_compute; reflexivity|]. exact cmp_imm_wrong. Qed.
Print Assumptions C21_cmp32_imm_refuted.

(** 32 bit signed comparison of a register with a word in memory. *)
Example C21_case : let s := st [(1, 0x1030); (2, -5)] in wf s /\ src_legal (AReg 2) 0 /\ src_legal (AMem 1 0) 0 /\ sign_clear s (AReg 2) 0 /\ sign_clear s (AMem 1 0) 0 /\
  compare SLJIT_SIG_LESS 32 (argval s 4 (AReg 2) 0) (argval s 4 (AMem 1 0) 0) = true /\ compare SLJIT_LESS 32 (argval s 4 (AReg 2) 0) (argval s 4 (AMem 1 0) 0) = false.
Proof. split; [apply st_wf|]. unfold src_legal, mem_legal, ureg, NREGS. repeat split; try lia; vm_compute; reflexivity. Qed.
