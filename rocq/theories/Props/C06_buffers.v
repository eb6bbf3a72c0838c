(** C06: the buffers of the compiler. *)
Require Import ZArith List Bool Lia Permutation.
From Verif Require Import Rv.RvLib Rv.RvIsa Rv.RvEnc Rv.RvImm Rv.RvLink Rv.RvLinkExec Rv.RvLinkApi Comp.CpMem Comp.CpState Comp.CpCore Comp.CpRep Comp.CpCalls Comp.CpHist Comp.CpView Comp.CpErr Comp.CpPieces Comp.CpFinal Comp.CpCases.
Import ListNotations.
Open Scope Z_scope.

(** After any history of calls on a new compiler, and then any sequence of requests to ensure_buf and ensure_abuf (1 to 256 bytes, as in
    the assertions of these functions) mixed with arbitrary writes of the users inside their pieces: the pieces do not overlap, each is
    inside the memory of a block which the compiler has allocated ([placed]: after the header of 16 bytes, within 4096 bytes), and the chains
    of blocks are intact (sljit_free_compiler releases exactly the blocks of the compiler). *)
Theorem C06_pieces : forall cf h ks rs s reqs, reached cf h ks rs s -> Forall req_ok reqs ->
  let (ps, s') := req_run reqs [] s in no_overlap ps /\ Forall (placed (hlive (ch s'))) ps /\ Permutation (hlive (free_compiler s')) (hlive h).
Proof. exact reached_pieces. Qed.
Print Assumptions C06_pieces.
Example C06_pieces_case : reached cf_c (heap1 sched1) prog1 results1 state1 /\ Forall req_ok reqs1 /\
  length (fst (req_run reqs1 [] state1)) = 53%nat /\ length (hlive (ch (snd (req_run reqs1 [] state1)))) = 6%nat.
Proof. exact (conj case1 (conj reqs1_ok reqs1_values)). Qed.

(** When no error is recorded, the code seen by code generation (the half words of the fragments after reverse_buf) is the concatenation of
    what the calls emitted, in order. *)
Theorem C06_units : forall cf h ks rs s, reached cf h ks rs s -> cerr s = 0 -> cbuf (view s) = flat_map (call_units cf) ks.
Proof. exact reached_units. Qed.
Print Assumptions C06_units.
Example C06_units_case : reached cf_c (heap1 sched1) prog1 results1 state1 /\ cerr state1 = 0 /\ length (flat_map (call_units cf_c) prog1) = 28%nat.
Proof. exact (conj case1 (conj (proj1 case1_values) (proj2 case1_units))). Qed.

(** The labels, jumps, constants and the size too: code generation sees the abstract compiler state of the linker model ([emits], the state which
    C13, C14, C15 and C25 are about), and the members set by sljit_emit_enter are the last ones set. *)
Theorem C06_program : forall cf h ks rs s, reached cf h ks rs s -> cerr s = 0 ->
  view s = emits cf (kall cf ks) /\ cfld s = fold_left fstep ks fields0.
Proof. exact reached_view. Qed.
Print Assumptions C06_program.
(** With a second code fragment. *)
Example C06_program_case : reached cf_c (heap1 sched1) (nops 1300 ++ prog1) (match run_from cf_c (heap1 sched1) (nops 1300 ++ prog1) with Some (rs, _) => rs | None => [] end) state4 /\
  cerr state4 = 0 /\ hlive (ch state4) = [0x50000; 0x30000; 0x20000; 0x10000; 0x5000].
Proof. exact (conj case4 case4_values). Qed.

(** The code generated from the memory of the compiler is the code of the linker model for the history. *)
Theorem C06_generate : forall cf h ks rs s code eo m0, reached cf h ks rs s -> cerr s = 0 -> code <> 0 ->
  let (g, s') := api_generate cf code eo m0 s in g = Some (generate_code cf code eo m0 (emits cf (kall cf ks))) /\ cerr s' = ERR_COMPILED.
Proof. exact reached_generate. Qed.
Print Assumptions C06_generate.
Example C06_generate_case : (exists s', api_generate cf_c 0x100000 0 (fun _ => 0) state1 = (Some (generate_code cf_c 0x100000 0 (fun _ => 0) (emits cf_c (kall cf_c prog1))), s')) /\
  option_map rend (fst (api_generate cf_c 0x100000 0 (fun _ => 0) state1)) = Some (rend (generate_code cf_c 0x100000 0 (fun _ => 0) (emits cf_c (kall cf_c prog1)))).
Proof.
  pose proof (C06_generate cf_c (heap1 sched1) prog1 results1 state1 0x100000 0 (fun _ => 0) case1 (proj1 case1_values) ltac:(discriminate)) as X.
  destruct (api_generate cf_c 0x100000 0 (fun _ => 0) state1) as (g, s'). destruct X as (-> & _). split; [exists s'; reflexivity|reflexivity].
Qed.

(** The result of a successful call is the record it created: the last label (also when an existing label is returned), jump or constant. *)
Theorem C06_results : forall cf h ks k rs r s', reached cf h (ks ++ [k]) (rs ++ [r]) s' -> cerr s' = 0 -> res_ok k r s'.
Proof. intros cf h ks k rs r s' R E. destruct (reached_step _ _ _ _ _ _ _ R) as (s & _ & _ & _ & X). exact (X E). Qed.
Print Assumptions C06_results.
Example C06_results_case : exists s, reached cf_c (heap1 sched1) ([CLabel; CIns (E32 NOP)] ++ [CJump (E32 NOP) (JZ true 10) true false]) ([196624; 0] ++ [196648]) s /\ cerr s = 0 /\
  196648 = last (jump_ptrs s) 0.
Proof. exact case5. Qed.
