(** C13: every jump lands on its label or target after code generation (RISC-V 64). *)
Require Import ZArith List Bool Lia.
From Verif Require Import Rv.RvLib Rv.RvIsa Rv.RvEnc Rv.RvImm Rv.RvRun Rv.RvImmProofs Rv.RvAddr Rv.RvAddrProofs Rv.RvLink Rv.RvLinkExec Rv.RvLinkApi Rv.RvLinkSpec Rv.RvLinkThm Rv.RvLinkTop Rv.RvLinkBad Rv.RvTop1.
Import ListNotations.
Open Scope Z_scope.

(** For every sequence of calls, code address, executable offset and initial memory content: the calls have consecutive places
    [pos] in the generated code, and at each place is code with the meaning of the call (call_at in RvLinkSpec): jumps reach
    their target iff their condition holds and continue behind themselves otherwise, other instructions are copied
    unchanged, labels are where they were emitted. *)
Theorem C13_program : forall cf calls code eo m0,
  prog_ok cf calls -> loadable cf calls code eo -> eo = 0 \/ ends_with_label false calls = false ->
  let g := generate_code cf code eo m0 (emits cf calls) in
  exists pos, forall codef, fetches code eo g codef -> program_at cf calls code eo g codef pos.
Proof. exact program_ok. Qed.
Print Assumptions C13_program.

(** The same for jumps to labels, without the vocabulary of RvLinkSpec; only labels above 2^51 - 2^11 are excluded (see C15_address_refuted). *)
Theorem C13_label_jumps : forall cf calls code eo m0,
  prog_ok cf calls -> loadable cf calls code eo -> eo = 0 \/ ends_with_label false calls = false ->
  let g := generate_code cf code eo m0 (emits cf calls) in
  exists pos : nat -> Z, pos 0%nat = 0 /\ pos (length calls) = rend g /\
  forall codef, (forall p, 0 <= p < rend g -> codef (wrap (code + 2 * p + eo)) = munit (rmem g) p) ->
  forall i x rewr call l, nth_error calls i = Some (KJump x rewr call) ->
    nth (next_jump (emits cf (firstn i calls))) (targets calls) None = Some (TLabel l) -> label_addr (rlabels g) l < 0x7fffffffff800 ->
    pos i <= pos (S i) /\
    forall s, pc s = code + 2 * pos i + eo ->
    exists s', steps codef s s' /\ pc s' = (if jc_holds x s then label_addr (rlabels g) l else code + 2 * pos (S i) + eo) /\
      (call = true -> rd s' RETURN_ADDR_REG = code + 2 * pos (S i) + eo) /\
      same_but s s' (TMP_REG1 :: TMP_REG3 :: if call then [RETURN_ADDR_REG] else []).
Proof. exact label_jumps_ok. Qed.
Print Assumptions C13_label_jumps.

(** A compressed conditional branch to an absolute address exactly 256 bytes away jumps elsewhere (detect_jump_type compares the
    distance from the end of the branch with BRANCH16_MAX). *)
Theorem C13_absolute_branch_refuted : exists cf calls code eo m0 codef x T s,
  prog_ok cf calls /\ loadable cf calls code eo /\ eo = 0 /\
  let g := generate_code cf code eo m0 (emits cf calls) in
  fetches code eo g codef /\ nth_error calls 0 = Some (KJump x false false) /\ targets calls = [Some (TAddr T)] /\ T mod 2 = 0 /\
  pc s = code + eo /\ jc_holds x s = true /\ ~ exists s', steps codef s s' /\ pc s' = T.
Proof. exact b16_refuted. Qed.
Print Assumptions C13_absolute_branch_refuted.

(** A program with a branch forward, an address load, an aligned label, a rewritable jump back, a call and a constant; an
    executable offset. *)
Example C13_case : forall cf, cf = cf_c \/ cf = cf_n -> prog_ok cf ex_calls /\ loadable cf ex_calls 0x10000 0x1000 /\
  ends_with_label false ex_calls = false /\ ends_with_jump false ex_calls = false.
Proof. exact ex_ok. Qed.
(** The forward branch of this program, executed. *)
Example C13_case_branch : exists s', steps (view 0x10000 0x1000 (gen_of cf_c 0x10000 0x1000 ex_calls)) (wr (st0 0x11004) 1 5) s' /\ pc s' = 0x11020.
Proof.
  destruct (C13_label_jumps cf_c ex_calls 0x10000 0x1000 zero_mem) as (pos & P0 & PN & P);
    [apply (ex_ok cf_c); auto|apply (ex_ok cf_c); auto|right; reflexivity|].
  destruct (C13_program cf_c ex_calls 0x10000 0x1000 zero_mem) as (pos2 & Q);
    [apply (ex_ok cf_c); auto|apply (ex_ok cf_c); auto|right; reflexivity|].
  assert (F : fetches 0x10000 0x1000 (gen_of cf_c 0x10000 0x1000 ex_calls) (view 0x10000 0x1000 (gen_of cf_c 0x10000 0x1000 ex_calls))) by (apply view_fetches; vm_compute; congruence).
  specialize (Q _ F). destruct Q as (Q0 & QN & Q).
  destruct (Q 0%nat _ eq_refl) as (_ & _ & (_ & Q1)). destruct (Q 1%nat _ eq_refl) as (_ & _ & (_ & Q2)). rewrite Q0 in Q1. rewrite Q1 in Q2.
  destruct (Q 2%nat _ eq_refl) as (_ & _ & (J & _)). rewrite Q2 in J.
  destruct (J ltac:(vm_compute; reflexivity) ltac:(vm_compute; intros (A & _); apply A; reflexivity) ltac:(intros []) (wr (st0 0x11004) 1 5) ltac:(vm_compute; reflexivity)) as (s' & S & P' & _).
  exists s'. split; [exact S|]. rewrite P'. vm_compute. reflexivity.
Qed.
