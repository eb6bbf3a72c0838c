(** C01-C04: the executable memory allocator (sljitExecAllocatorCore.c). *)
Require Import ZArith List Bool Lia.
From Verif Require Import Alloc.AllocModel Alloc.AllocSpec Alloc.AllocTop.
Import ListNotations.
Open Scope Z_scope.

(** C01: correct use never reaches undefined behaviour (an access outside of the mapped memory,
    a failed internal assertion, an endless loop, an unmap of a region which is not mapped). *)
Theorem C01_no_undefined_behaviour : forall s live o,
  reach s live -> valid_op s live o -> exists r s', step s o = Some (r, s').
Proof. exact reach_no_ub. Qed.
Print Assumptions C01_no_undefined_behaviour.

(** C01: every live block is aligned, not null, has at least the requested size, and lies with
    its 16 byte header inside a mapped chunk. *)
Theorem C01_live_blocks_mapped_aligned : forall s live p n,
  reach s live -> In (p, n) live ->
  0 < p /\ p mod 8 = 0 /\
  exists c, In c (chunks s) /\ fst c + 16 <= p /\ p + n <= fst c + snd c - 16.
Proof. exact reach_live_wf. Qed.
Print Assumptions C01_live_blocks_mapped_aligned.

(** C01: live blocks with their headers are pairwise disjoint. *)
Theorem C01_live_blocks_disjoint : forall s live,
  reach s live ->
  ForallOrdPairs (fun a b => disjoint (fst a - 16, snd a + 16) (fst b - 16, snd b + 16)) live.
Proof. exact reach_disjoint. Qed.
Print Assumptions C01_live_blocks_disjoint.

(** C02: whenever the usable part of some chunk has a range of the needed length that no live
    allocation occupies (an allocation of k bytes occupies at most footprint k + 64 bytes from
    its header on), malloc succeeds, and does not change the set of chunks, whatever the OS would answer. *)
Theorem C02_free_space_is_reusable : forall s live n os c a,
  reach s live -> 0 <= n < 2 ^ 62 ->
  In c (chunks s) -> fst c <= a -> a + footprint n <= fst c + snd c - 16 ->
  (forall p k, In (p, k) live -> disjoint (p - 16, footprint k + 64) (a, footprint n)) ->
  exists r s', step s (Malloc n os) = Some (r, s') /\ r <> 0 /\ chunks s' = chunks s.
Proof. exact reach_gap_alloc. Qed.
Print Assumptions C02_free_space_is_reusable.

(** C03: the counters. *)
Theorem C03_counters : forall s live,
  reach s live ->
  sum_footprints live <= allocated s <= sum_footprints live + 64 * Z.of_nat (length live) /\
  total s = fold_right (fun c acc => snd c - 16 + acc) 0 (chunks s) /\
  allocated s <= total s.
Proof. exact reach_counters. Qed.
Print Assumptions C03_counters.

(** C03: after sljit_free_unused_memory_exec every chunk still mapped has a live allocation
    (in particular, none is mapped when nothing is live). *)
Theorem C03_free_unused_releases : forall s live r s',
  reach s live -> step s FreeUnused = Some (r, s') ->
  forall c, In c (chunks s') -> exists p n, In (p, n) live /\ fst c <= p /\ p + n <= fst c + snd c.
Proof. exact reach_free_unused. Qed.
Print Assumptions C03_free_unused_releases.

(** C03: the release policy of sljit_free_exec. *)
Theorem C03_free_policy : forall s live p n r s' c,
  reach s live -> In (p, n) live -> step s (Free p) = Some (r, s') ->
  In c (chunks s') -> fst c <= p < fst c + snd c ->
  (forall q k, In (q, k) (next_live live (Free p) r) -> q < fst c \/ fst c + snd c <= q) ->
  total s' - (snd c - 16) <= allocated s' * 3 / 2.
Proof. exact reach_free_policy. Qed.
Print Assumptions C03_free_policy.

(** C04: no call changes the content of a block that stays live. *)
Theorem C04_content_preserved : forall s live o r s' p n x,
  reach s live -> valid_op s live o -> step s o = Some (r, s') ->
  In (p, n) live -> In (p, n) (next_live live o r) -> p <= x < p + n ->
  (forall a v, o = Write a v -> x <> a) ->
  mem s' x = mem s x.
Proof. exact reach_content. Qed.
Print Assumptions C04_content_preserved.

(** The bound on the requested size is needed: a size near 2^64 wraps, and the block returned
    is smaller than requested (it does not fit in the mapped memory). *)
Theorem C01_huge_size_refuted : exists n os r s',
  0 <= n < 2 ^ 64 /\ os_answer_ok init_st (chunk_size_for (block_size n)) os /\
  step init_st (Malloc n os) = Some (r, s') /\ r <> 0 /\
  forall c, In c (chunks s') -> ~ (fst c <= r /\ r + n <= fst c + snd c).
Proof.
  exists (2 ^ 64 - 1), (Some (65536, fun _ => 0)).
  eexists _, _. split; [lia|]. split; [vm_compute; split; [reflexivity|split; [reflexivity|split; [discriminate|intros c []]]]|].
  split; [vm_compute; reflexivity|]. split; [discriminate|].
  intros c [<-|[]]. simpl. lia.
Qed.
Print Assumptions C01_huge_size_refuted.

(** ** A concrete history: three allocations in one chunk, the middle one freed. *)
Definition fresh : Z -> Z := fun _ => 77.
Definition nxt (s : st) (o : op) : st := match step s o with Some (_, s') => s' | None => s end.
Lemma nxt_eq s o r : option_map fst (step s o) = Some r -> step s o = Some (r, nxt s o).
Proof. unfold nxt. destruct (step s o) as [[r' s']|]; simpl; congruence. Qed.
Definition ex1 := nxt init_st (Malloc 100 (Some (65536, fresh))).
Definition ex2 := nxt ex1 (Malloc 1000 None).
Definition ex3 := nxt ex2 (Malloc 1 None).
Definition ex4 := nxt ex3 (Write 65552 12345).
Definition ex5 := nxt ex4 (Free 130056).
Definition ex_live := [(129992, 1); (65552, 100)].

Example ex_reach : reach ex5 ex_live.
Proof.
  assert (R1 : reach ex1 [(65552, 100)]).
  { apply (reach_step init_st [] (Malloc 100 (Some (65536, fresh))) 65552 ex1); [constructor| |apply nxt_eq; vm_compute; reflexivity].
    vm_compute. repeat split; try discriminate. intros c []. }
  assert (R2 : reach ex2 [(130056, 1000); (65552, 100)]).
  { apply (reach_step ex1 _ (Malloc 1000 None) 130056 ex2 R1); [|apply nxt_eq; vm_compute; reflexivity].
    split; [vm_compute; split; [discriminate|reflexivity]|exact I]. }
  assert (R3 : reach ex3 [(129992, 1); (130056, 1000); (65552, 100)]).
  { apply (reach_step ex2 _ (Malloc 1 None) 129992 ex3 R2); [|apply nxt_eq; vm_compute; reflexivity].
    split; [vm_compute; split; [discriminate|reflexivity]|exact I]. }
  assert (R4 : reach ex4 [(129992, 1); (130056, 1000); (65552, 100)]).
  { apply (reach_step ex3 _ (Write 65552 12345) 0 ex4 R3); [|apply nxt_eq; vm_compute; reflexivity].
    simpl. split; [reflexivity|]. exists 65552, 100. simpl. split; [tauto|lia]. }
  apply (reach_step ex4 _ (Free 130056) 0 ex5 R4); [|apply nxt_eq; vm_compute; reflexivity].
  simpl. exists 1000. auto.
Qed.

(** The hypotheses of C02 are met by the hole left by the freed block and by C04. *)
Example ex_C02 : forall p k, In (p, k) ex_live -> disjoint (p - 16, footprint k + 64) (130104, footprint 900).
Proof. intros p k [E|[E|[]]]; inversion E; subst; unfold disjoint; vm_compute; [left|left]; discriminate. Qed.
Example ex_C02_chunk : chunks ex5 = [(65536, 65536)] /\ 130104 + footprint 900 <= 65536 + 65536 - 16.
Proof. split; [vm_compute; reflexivity|vm_compute; discriminate]. Qed.
Example ex_C04 : mem ex5 65552 = 12345 /\ mem ex4 65552 = 12345.
Proof. split; vm_compute; reflexivity. Qed.
Example ex_counters : allocated ex5 = 184 /\ total ex5 = 65520 /\ sum_footprints ex_live = 184.
Proof. repeat split; vm_compute; reflexivity. Qed.

(** Everything freed: one trim call returns the chunk. *)
Definition ex6 := nxt (nxt ex5 (Free 129992)) (Free 65552).
Example ex_release : chunks ex6 = [(65536, 65536)] \/ chunks ex6 = [].
Proof. vm_compute. auto. Qed.
Example ex_release2 : chunks (nxt ex6 FreeUnused) = [].
Proof. vm_compute; reflexivity. Qed.
