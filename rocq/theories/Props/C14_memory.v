(** C14: generated code fits its memory and label addresses are the real ones (RISC-V 64). *)
Require Import ZArith List Bool Lia.
From Verif Require Import Rv.RvLib Rv.RvIsa Rv.RvEnc Rv.RvImm Rv.RvRun Rv.RvImmProofs Rv.RvAddr Rv.RvAddrProofs Rv.RvLink Rv.RvLinkExec Rv.RvLinkApi Rv.RvLinkSpec Rv.RvLinkThm Rv.RvLinkTop Rv.RvLinkBad.
Import ListNotations.
Open Scope Z_scope.

(** No write of sljit_generate_code is outside of the allocated memory ([mok] is cleared by the first write outside), and the code
    ends inside of it. *)
Theorem C14_memory : forall cf calls code eo m0,
  prog_ok cf calls -> loadable cf calls code eo -> eo = 0 \/ ends_with_label false calls = false ->
  ends_with_jump false calls = false ->
  let g := generate_code cf code eo m0 (emits cf calls) in
  mok (rmem g) = true /\ 0 <= rend g <= csize (reduce_code_size cf (emits cf calls)).
Proof. intros. split; [apply memory_ok; auto|apply end_ok; auto]. Qed.
Print Assumptions C14_memory.

(** Without the last condition one unit behind the memory is written: a branch which needs no space of its own, as the last
    instruction. *)
Theorem C14_last_branch_refuted : exists cf calls code eo m0, prog_ok cf calls /\ loadable cf calls code eo /\ eo = 0 /\
  mok (rmem (generate_code cf code eo m0 (emits cf calls))) = false.
Proof. exact last_branch_refuted. Qed.
Print Assumptions C14_last_branch_refuted.

(** Each label has the address where the code after it starts; aligned labels are aligned (before the executable offset is added). *)
Theorem C14_labels : forall cf calls code eo m0,
  prog_ok cf calls -> loadable cf calls code eo -> eo = 0 \/ ends_with_label false calls = false ->
  let g := generate_code cf code eo m0 (emits cf calls) in
  exists pos, forall codef, fetches code eo g codef -> program_at cf calls code eo g codef pos /\
  forall i, let a := label_addr (rlabels g) (ret_label (emits cf (firstn (S i) calls))) in
   (nth_error calls i = Some KLabel -> a = code + 2 * pos (S i) + eo /\ pos i = pos (S i)) /\
   (forall al, nth_error calls i = Some (KAlign al) -> a = code + 2 * pos (S i) + eo /\ (a - eo) mod 2 ^ al = 0).
Proof. exact labels_at_ok. Qed.
Print Assumptions C14_labels.

(** The buffers of an aligned label: the label of a buffer is followed by at least the requested number of bytes before anything else. *)
Theorem C14_buffers : forall cf calls code eo g codef pos pre al sizes post j size,
  calls = pre ++ aligned_label_calls cf al sizes ++ post ->
  program_at cf calls code eo g codef pos ->
  nth_error sizes j = Some size -> 0 <= size ->
  let i := (length pre + 2 * j)%nat in
  let a := label_addr (rlabels g) (ret_label (emits cf (firstn (S i) calls))) in
  (j = 0%nat -> (a - eo) mod 2 ^ al = 0) /\ a = code + 2 * pos (S i) + eo /\ a + size <= code + 2 * pos (S (S i)) + eo.
Proof. exact buffers_ok. Qed.
Print Assumptions C14_buffers.

(** A label after the last instruction does not include the executable offset. *)
Theorem C14_last_label_refuted : exists cf calls code eo m0, prog_ok cf calls /\ loadable cf calls code eo /\
  let g := generate_code cf code eo m0 (emits cf calls) in
  last calls (KIns []) = KLabel /\ label_addr (rlabels g) (ret_label (emits cf calls)) <> code + 2 * rend g + eo.
Proof. exact last_label_refuted. Qed.
Print Assumptions C14_last_label_refuted.

Example C14_case : forall cf, cf = cf_c \/ cf = cf_n -> prog_ok cf ex_calls /\ loadable cf ex_calls 0x10000 0x1000 /\
  ends_with_label false ex_calls = false /\ ends_with_jump false ex_calls = false /\
  label_addr (rlabels (gen_of cf 0x10000 0x1000 ex_calls)) 1 = 0x11020.
Proof. intros cf H. destruct (ex_ok cf H) as (A & B & C & D). repeat (split; [assumption|]). destruct H as [->| ->]; vm_compute; reflexivity. Qed.
(** Two buffers of 5 and 3 bytes aligned to 16, without the compressed extension: at 0x10010 and 0x10018. *)
Definition buf_calls : list call := KIns [P32 NOP] :: aligned_label_calls cf_n 4 [5; 3] ++ [KIns [P32 NOP]].
Example C14_case_buffers : prog_ok cf_n buf_calls /\ loadable cf_n buf_calls 0x10000 0 /\
  map (label_addr (rlabels (gen_of cf_n 0x10000 0 buf_calls))) [0%nat; 1%nat] = [0x10010; 0x10018].
Proof. split; [prog|]. split; [load|]. vm_compute. reflexivity. Qed.
