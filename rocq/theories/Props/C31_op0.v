(** C31: operations without operands: long multiplication and division (RISC-V 64). *)
Require Import ZArith List Bool Lia.
From Verif Require Import Rv.RvLib Rv.RvIsa Rv.RvEnc Rv.RvImm Rv.RvRun Rv.RvImmProofs Rv.RvWf Rv.RvMem Rv.RvRunMem Rv.RvOp Rv.RvLir Rv.RvOpBad Rv.RvCond Rv.RvCondSpec Rv.RvOp0.
Import ListNotations.
Open Scope Z_scope.

(** [res0 k n x y]: the values of R0 and R1 after the operation, from the values [x] and [y] before; None when the documentation says
    undefined.  Nothing else changes but a temporary register: flags are kept too. *)
Theorem C31_op0 : forall c k (is32 : bool) s x' y', wf s -> res0 k (if is32 then 32 else 64) (rd s SLJIT_R0) (rd s SLJIT_R1) = Some (x', y') ->
  ok (emit_op0 c k is32) s (fun s' => rd s' SLJIT_R0 = x' /\ rd s' SLJIT_R1 = y' /\ keeps s s' [SLJIT_R0; SLJIT_R1; TMP_REG1]).
Proof. exact op0_ok. Qed.
Print Assumptions C31_op0.

(** The two halves of a long multiplication are the product. *)
Theorem C31_lmul : forall c (sg is32 : bool) s, wf s ->
  let v x := if sg then sgn x else x in
  ok (emit_op0 c (if sg then O_LMUL_SW else O_LMUL_UW) is32) s (fun s' =>
    v (rd s' SLJIT_R1) * 2 ^ 64 + rd s' SLJIT_R0 = v (rd s SLJIT_R0) * v (rd s SLJIT_R1)).
Proof. exact lmul_ok. Qed.
Print Assumptions C31_lmul.

(** Quotient and remainder. *)
Theorem C31_divmod : forall c (sg is32 : bool) s, wf s ->
  let n := if is32 then 32 else 64 in
  let v x := if sg then sext n x else x mod 2 ^ n in
  let a := v (rd s SLJIT_R0) in
  let b := v (rd s SLJIT_R1) in
  b <> 0 -> ~ (sg = true /\ b = -1 /\ a = - 2 ^ (n - 1)) ->
  ok (emit_op0 c (if sg then O_DIVMOD_SW else O_DIVMOD_UW) is32) s (fun s' =>
    let q := v (rd s' SLJIT_R0) in
    let r := v (rd s' SLJIT_R1) in
    a = q * b + r /\ Z.abs r < Z.abs b /\ (r = 0 \/ Z.sgn r = Z.sgn a)).
Proof. exact divmod_ok. Qed.
Print Assumptions C31_divmod.

Example C31_case : let s := st [(1, -7); (2, 2)] in wf s /\ res0 O_DIVMOD_SW 32 (rd s 1) (rd s 2) = Some (wrap (-3), wrap (-1)) /\
  res0 O_LMUL_SW 64 (rd s 1) (rd s 2) = Some (wrap (-14), wrap (-1)) /\ res0 O_DIVMOD_UW 64 (rd s 1) 0 = None.
Proof. split; [apply st_wf|]. repeat split; vm_compute; reflexivity. Qed.
