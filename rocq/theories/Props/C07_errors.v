(** C07: a failed allocation is recorded and stays. *)
Require Import ZArith List Bool Lia Permutation.
From Verif Require Import Rv.RvLib Rv.RvIsa Rv.RvEnc Rv.RvImm Rv.RvLink Rv.RvLinkExec Rv.RvLinkApi Comp.CpMem Comp.CpState Comp.CpCore Comp.CpRep Comp.CpCalls Comp.CpHist Comp.CpView Comp.CpErr Comp.CpPieces Comp.CpFinal Comp.CpCases.
Import ListNotations.
Open Scope Z_scope.

(** With an error recorded (any state), a sequence of emit calls changes nothing, and each call returns the error or NULL. *)
Theorem C07_sticky : forall cf ks s, cerr s <> 0 -> Forall emitting ks ->
  snd (ccalls_run cf ks s) = s /\ Forall2 failed ks (fst (ccalls_run cf ks s)).
Proof. intros cf ks s. exact (sticky_hist cf ks s). Qed.
Print Assumptions C07_sticky.
(** Any calls, including sljit_set_label, sljit_set_target (which store to a jump record the caller has) and sljit_set_compiler_memory_error:
    the error, the lists, the size and the other members do not change, and nothing is allocated. *)
Theorem C07_sticky_any : forall cf ks s, cerr s <> 0 ->
  same_lists s (snd (ccalls_run cf ks s)) /\ hlive (ch (snd (ccalls_run cf ks s))) = hlive (ch s) /\ hsched (ch (snd (ccalls_run cf ks s))) = hsched (ch s).
Proof. intros cf ks s. exact (sticky_any cf ks s). Qed.
Print Assumptions C07_sticky_any.
(** Code generation fails, and changes nothing. *)
Theorem C07_generate : forall cf code eo m0 s, cerr s <> 0 -> api_generate cf code eo m0 s = (None, s).
Proof. exact generate_err. Qed.
Print Assumptions C07_generate.
(** After code generation, successful or not, an error is recorded, so all this applies. *)
Theorem C07_generated : forall cf code eo m0 s, cerr (snd (api_generate cf code eo m0 s)) <> 0.
Proof. exact generate_sets. Qed.
Print Assumptions C07_generated.
(** A state with an error which is reached by a failed allocation. *)
Example C07_sticky_case : exists rs s, reached cf_n (heap1 sched2) (nops 1020 ++ [CIns (E32 NOP)]) rs s /\ cerr s <> 0 /\ Forall emitting (nops 3 ++ [CLabel; CAlign 3 [5]; CAlloc 4]).
Proof. exists (results2 (nops 1020 ++ [CIns (E32 NOP)])), (state2 (nops 1020 ++ [CIns (E32 NOP)])). split; [exact case3|]. split; [rewrite (proj1 case3_values); discriminate|]. repeat constructor. Qed.

(** Every allocation which fails is recorded, wherever it happens in the history; and without one (and without
    sljit_set_compiler_memory_error) no error arises.  [used] are the results of the allocations of the history; when the list of
    results is at its end, further allocations fail. *)
Theorem C07_recorded : forall cf h ks rs s, reached cf h ks rs s -> ~ In CMemError ks ->
  exists s0 h0 used, create_compiler h = (Some s0, h0) /\ hsched h0 = used ++ hsched (ch s) /\
  (In 0 used -> cerr s = ERR_ALLOC_FAILED) /\ (cerr s <> 0 -> In 0 used \/ hsched (ch s) = []).
Proof. exact recorded. Qed.
Print Assumptions C07_recorded.
(** The failing call itself returns the error or NULL, when it checks the results of its parts ([ccall_checked]; all functions do, except
    load_immediate in one case, see below). *)
Theorem C07_reported : forall cf h ks k rs r s', reached cf h (ks ++ [k]) (rs ++ [r]) s' ->
  exists s, reached cf h ks rs s /\ ccall_run cf k (jump_ptrs s) (label_ptrs s) s = (r, s') /\
  (cerr s = 0 -> cerr s' <> 0 -> ccall_checked k -> failed k r).
Proof. intros cf h ks k rs r s' R. destruct (reached_step _ _ _ _ _ _ _ R) as (s & X1 & X2 & X3 & _). exists s. auto. Qed.
Print Assumptions C07_reported.
Example C07_reported_case : reached cf_n (heap1 sched2) (nops 1020 ++ [CIns (E32 NOP)]) (repeat 0 1020 ++ [2]) (state2 (nops 1020 ++ [CIns (E32 NOP)])) /\
  cerr (state2 (nops 1020 ++ [CIns (E32 NOP)])) = ERR_ALLOC_FAILED /\ ccall_checked (CIns (E32 NOP)).
Proof. pose proof case3 as C. destruct case3_values as (V1 & V2). rewrite V2 in C. exact (conj C (conj V1 Logic.I)). Qed.
(** load_immediate ignores the result of its nested call (sljitNativeRISCV_64.c:104): when only that allocation fails, the call
    returns success although the error is recorded (and an instruction is missing). *)
Theorem C07_reported_refuted : exists cf h ks imm rs s, reached cf h (ks ++ [CIns (load_immediate cf 10 imm 7)]) (rs ++ [0]) s /\
  cerr s = ERR_ALLOC_FAILED /\ Forall (fun k => k = CIns (E32 NOP)) ks /\ Forall (fun r => r = 0) rs.
Proof. exact ignored. Qed.
Print Assumptions C07_reported_refuted.
