(** C09: serialization does not disturb the compiler. *)
Require Import ZArith List Bool Lia Permutation.
From Verif Require Import Rv.RvLib Rv.RvIsa Rv.RvEnc Rv.RvImm Rv.RvLink Rv.RvLinkExec Rv.RvLinkApi Comp.CpMem Comp.CpState Comp.CpCore Comp.CpRep Comp.CpCalls Comp.CpHist Comp.CpView Comp.CpErr Comp.CpPieces Comp.CpFinal Comp.CpCases
  Comp.CpSer Comp.CpSerParse Comp.CpSerW Comp.CpSerR Comp.CpSerT Comp.CpSerA Comp.CpSerCases.
Import ListNotations.
Open Scope Z_scope.

(** After any history: on success, the only changes are the new block (which was not in use before) and the consumed allocation; the memory of
    the compiler and all its members are the same, hence also what code generation uses and what the application can ask.  All stores are inside of the
    block ([SBad] is a store outside), whose length is the reported size.  On failure, only the error is recorded. *)
Theorem C09_unchanged : forall cf h ks rs s d, reached cf h ks rs s ->
  match serialize d s with
  | SOk p n buf s' => hsched (ch s) = p :: hsched (ch s') /\ p <> 0 /\ ~ In p (hlive (ch s)) /\ n = Z.of_nat (length buf) /\
      s' = set_h s (mkH (hm (ch s)) (hsched (ch s')) (p :: hlive (ch s))) /\ view s' = view s /\ observe s' = observe s /\ cerr s = 0
  | SNull s' => hm (ch s') = hm (ch s) /\ hlive (ch s') = hlive (ch s) /\ (cerr s <> 0 /\ s' = s \/ cerr s = 0 /\ s' = set_err (set_h s (ch s')) ERR_ALLOC_FAILED)
  | SBad => False
  end.
Proof. exact ser_state. Qed.
Print Assumptions C09_unchanged.
Example C09_unchanged_case : reached cf_c (heap1 sched1) prog1 results1 state1 /\ serialize dbg6 state1 = SOk (ser_p ser6) (ser_n ser6) (ser_buf ser6) (ser_s state1 ser6) /\ ser_n ser6 = 280.
Proof. exact (conj case1 (conj ser6_eq (proj1 values6))). Qed.

(** Serializing twice writes the same bytes to the same places of the block ([None]: not written); what is written does not depend on what the block
    contained before. *)
Theorem C09_twice_partial : forall cf h ks rs s d p n buf s1 p2 n2 buf2 s2, reached cf h ks rs s ->
  serialize d s = SOk p n buf s1 -> serialize d s1 = SOk p2 n2 buf2 s2 ->
  n2 = n /\ buf2 = buf /\ (forall g g' i v, nth_error buf i = Some (Some v) -> nth_error (fill buf g 0) i = Some v /\ nth_error (fill buf2 g' 0) i = Some v).
Proof.
  intros cf h ks rs s d p n buf s1 p2 n2 buf2 s2 A B C. destruct (ser_twice _ _ _ _ _ _ _ _ _ _ _ _ _ _ A B C) as (-> & ->). split; [reflexivity|]. split; [reflexivity|].
  intros g g' i v H. split; apply fill_nth; exact H.
Qed.
Print Assumptions C09_twice_partial.
Example C09_twice_case : reached cf_c (heap1 sched1) prog1 results1 state1 /\ serialize dbg6 state1 = SOk (ser_p ser6) (ser_n ser6) (ser_buf ser6) (ser_s state1 ser6) /\
  serialize dbg6 (ser_s state1 ser6) = SOk (ser_p ser8) (ser_n ser8) (ser_buf ser8) (ser_s state1 ser8) /\ ser_p ser6 = 0x50000 /\ ser_p ser8 = 0x40000.
Proof. exact (conj case1 (conj ser6_eq (conj ser8_eq ser68))). Qed.

(** The missing part of the full statement: the padding after a fragment is never written, so the bytes of two buffers can differ there (and the buffer
    contains whatever was in the memory before). *)
Theorem C09_bytes_refuted : exists cf h ks rs s d p n buf s1 g g', reached cf h ks rs s /\ serialize d s = SOk p n buf s1 /\
  (forall i, isb (g i)) /\ (forall i, isb (g' i)) /\ fill buf g 0 <> fill buf g' 0.
Proof.
  exists cf_c, (heap1 sched1), prog9, [0; 0; 0], state9, None, (ser_p ser9), (ser_n ser9), (ser_buf ser9), (ser_s state9 ser9), (fun _ => 0), (fun _ => 255).
  split; [exact case9|]. split; [exact ser9_eq|]. split; [intros i; unfold isb; lia|]. split; [intros i; unfold isb; lia|]. exact ser9_pad.
Qed.
Print Assumptions C09_bytes_refuted.

(** Continuing with the compiler after serialization gives the compiler state of the history without it. *)
Theorem C09_continue : forall cf h ks rs s d p n buf s1 ks2 rs2 s2, reached cf h ks rs s -> serialize d s = SOk p n buf s1 ->
  ccalls_ok cf (ks ++ ks2) empty -> csize (emits cf (kall cf (ks ++ ks2))) < 2 ^ 63 -> ccalls_run cf ks2 s1 = (rs2, s2) ->
  Permutation (hlive (free_compiler s2)) (p :: hlive h) /\ (cerr s2 = ERR_ALLOC_FAILED \/ cerr s2 = 0 /\ view s2 = emits cf (kall cf (ks ++ ks2)) /\ cfld s2 = fold_left fstep (ks ++ ks2) fields0).
Proof. exact ser_continue. Qed.
Print Assumptions C09_continue.
Example C09_continue_case : reached cf_c (heap1 sched1) prog1 results1 state1 /\ serialize dbg6 state1 = SOk (ser_p ser6) (ser_n ser6) (ser_buf ser6) (ser_s state1 ser6) /\
  ccalls_ok cf_c (prog1 ++ more) empty /\ csize (emits cf_c (kall cf_c (prog1 ++ more))) < 2 ^ 63 /\ cerr (snd (ccalls_run cf_c more (ser_s state1 ser6))) = 0.
Proof. exact (conj case1 (conj ser6_eq (conj (proj1 cont6_ok) (conj (proj1 (proj2 cont6_ok)) cont_old)))). Qed.
