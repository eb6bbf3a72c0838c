(** C42: the generated x86-64 code behaves as the program. *)
Require Import ZArith List Bool Lia.
From Verif Require Import Rv.RvLib Rv.RvIsa Rv.RvMem Rv.RvOp Rv.RvLir Rv.RvCond X86.X86Isa X86.X86Emit X86.X86Spec X86.X86OpSpec X86.X86Op X86.X86Op2Top X86.X86Op1 X86.X86Link X86.X86LinkSpec
  X86.X86C38 X86.X86Lir X86.X86Prog X86.X86C42.
Import ListNotations.
Open Scope Z_scope.

(** Whatever number of steps the program makes (all of them defined), the processor, started in a corresponding state at the code of the instruction, gets to the code of
    the instruction the program gets to, in a corresponding state.  [P i] is the position of the code of the call [i]; labels have the addresses the API reports.
    Full statement: the theorem without the exclusions in [lir_ok] (operands for which single operations are wrong, C34_op2_refuted, C37_into_refuted) and without the
    hypothesis on [mov_label] (C38_memory_refuted). *)
Theorem C42_programs_partial : forall w lz tz cmov p G code eo, compiled w lz tz cmov p G -> Forall (lir_ok p) p -> mov_label false (concat G) = false ->
  csize (emits w (concat G)) <= 2 ^ 31 - 32 -> 0 <= code -> 0 <= code + eo -> code + eo + csize (emits w (concat G)) + 15 < 2 ^ 64 -> code + csize (emits w (concat G)) <= 2 ^ 64 ->
  exists g P, generate w code eo (emits w (concat G)) = Some g /\ P 0%nat = 0 /\ P (length p) = zlen (rb g) /\
    (forall j x, nth_error p j = Some x -> is_label x = true -> laddr (nth (lno w G j) (rlabels g) (mkXL 0 None 0)) = xpos code eo (P (S j))) /\
    forall codef u n i a s, fetches code eo (rb g) codef -> agrees w a s -> safe p (fun j => xpos code eo (P (S j))) n i a ->
      exists i' a' s', goes p (fun j => xpos code eo (P (S j))) n i a i' a' /\ csteps codef u (xpos code eo (P i)) s (xpos code eo (P i')) s' /\ agrees w a' s'.
Proof. exact program_runs. Qed.
Print Assumptions C42_programs_partial.

(** The loop of X86C42.v: the hypotheses hold, and the theorem gives the result of the code for all numbers of turns (SLJIT_R1 is rsi = 6, SLJIT_R0 is rax = 0). *)
Example C42_hypotheses : compiled false true true true sum_prog sum_calls /\ Forall (lir_ok sum_prog) sum_prog /\ mov_label false (concat sum_calls) = false
  /\ (forall adr n a, safe sum_prog adr n 0 a) /\ csize (emits false (concat sum_calls)) = 29.
Proof. split; [exact sum_compiled|]. split; [exact sum_ok|]. split; [reflexivity|]. split; [|exact sum_size]. intros adr n a. apply inv_safe. split; [lia|discriminate]. Qed.
Example C42_sum : sum_code = [72; 199; 192; 0; 0; 0; 0; 72; 3; 198; 72; 131; 238; 1; 117; 247] /\
  forall codef u s m q, fetches (2 ^ 40) 0 sum_code codef -> xwf s -> 0 < m -> xr s 6 = m -> 2 * q = m * (m + 1) ->
  exists s', csteps codef u (2 ^ 40) s (2 ^ 40 + zlen sum_code) s' /\ xr s' 0 = q mod 2 ^ 64 /\ xm s' = xm s.
Proof. split; [reflexivity|]. exact sum_runs. Qed.
