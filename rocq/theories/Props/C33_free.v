(** C33: the memory of the compiler is released. *)
Require Import ZArith List Bool Lia Permutation.
From Verif Require Import Rv.RvLib Rv.RvIsa Rv.RvEnc Rv.RvImm Rv.RvLink Rv.RvLinkExec Rv.RvLinkApi Comp.CpMem Comp.CpState Comp.CpCore Comp.CpRep Comp.CpCalls Comp.CpHist Comp.CpView Comp.CpErr Comp.CpPieces Comp.CpFinal Comp.CpCases.
Import ListNotations.
Open Scope Z_scope.

(** After any history, including failed allocations at any place, sljit_free_compiler releases exactly the blocks which the compiler
    allocated: the live blocks are those before sljit_create_compiler. *)
Theorem C33_free : forall cf h ks rs s, reached cf h ks rs s -> Permutation (hlive (free_compiler s)) (hlive h).
Proof. exact reached_free. Qed.
Print Assumptions C33_free.
(** The same after sljit_generate_code, which reverses the chain of code fragments (successful or not). *)
Theorem C33_generate_free : forall cf h ks rs s code eo m0, reached cf h ks rs s ->
  Permutation (hlive (free_compiler (snd (api_generate cf code eo m0 s)))) (hlive h).
Proof. exact reached_generate_free. Qed.
Print Assumptions C33_generate_free.
(** When sljit_create_compiler fails, it has released what it allocated. *)
Theorem C33_create : forall h h', heap_ok h -> create_compiler h = (None, h') -> hlive h' = hlive h.
Proof. exact create_none. Qed.
Print Assumptions C33_create.

Example C33_free_case : reached cf_n (heap1 sched2) (nops 1020 ++ [big]) (results2 (nops 1020 ++ [big])) (state2 (nops 1020 ++ [big])) /\
  cerr (state2 (nops 1020 ++ [big])) = ERR_ALLOC_FAILED /\ length (hlive (ch (state2 (nops 1020 ++ [big])))) = 5%nat /\ hlive (free_compiler (state2 (nops 1020 ++ [big]))) = [0x5000].
Proof. split; [exact case2|]. vm_compute. auto. Qed.
Example C33_create_case : heap_ok (heap1 [0x10000; 0; 0x20000]) /\ fst (create_compiler (heap1 [0x10000; 0; 0x20000])) = None.
Proof. split; [apply sched_ok|]; vm_compute; reflexivity. Qed.
