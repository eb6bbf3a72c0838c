(** Specification of the executable allocator, from the client's point of view.

    Nothing here refers to the allocator's headers or free list: a client sees the
    pointers returned, the sizes it asked for, and the memory mapped by the OS. *)
Require Import ZArith List Bool.
From Verif Require Import Alloc.AllocModel.
Import ListNotations.
Open Scope Z_scope.

(** The live allocations: (pointer, requested size). *)
Definition live_set := list (Z * Z).

(** The bytes an allocation of [n] bytes needs: a 16 byte header, rounded up to 8,
    at least 64. *)
Definition footprint (n : Z) : Z := Z.max 64 ((n + 16 + 7) / 8 * 8).

(** Two half open ranges (start, length) do not overlap. *)
Definition disjoint (c d : Z * Z) : Prop := fst c + snd c <= fst d \/ fst d + snd d <= fst c.

(** The OS may refuse (None), or give a region which is not null, word aligned, in the
    user half of the address space and disjoint from the regions it gave before.
    The length is the one requested by the allocator. *)
Definition os_answer_ok (s : st) (len : Z) (os : option (Z * (Z -> Z))) : Prop :=
  match os with
  | None => True
  | Some (base, _) => 0 < base /\ base mod 8 = 0 /\ base + len <= 2 ^ 62 /\
                      forall c, In c (chunks s) -> disjoint (base, len) c
  end.

(** Correct use of the interface. *)
Definition valid_op (s : st) (live : live_set) (o : op) : Prop :=
  match o with
  | Malloc n os => 0 <= n < 2 ^ 62 /\ os_answer_ok s (chunk_size_for (block_size n)) os
  | Free p => exists n, In (p, n) live
  | FreeUnused => True
  | Write a v => a mod 8 = 0 /\ exists p n, In (p, n) live /\ p <= a /\ a + 8 <= p + n
  end.

Definition next_live (live : live_set) (o : op) (r : Z) : live_set :=
  match o with
  | Malloc n _ => if r =? 0 then live else (r, n) :: live
  | Free p => filter (fun e => negb (fst e =? p)) live
  | _ => live
  end.

(** States reachable by correct use, with the allocations live in them. *)
Inductive reach : st -> live_set -> Prop :=
| reach_init : reach init_st []
| reach_step s live o r s' :
    reach s live -> valid_op s live o -> step s o = Some (r, s') ->
    reach s' (next_live live o r).
