(** Specification for C05: what the OS may answer, and the histories of one stack. *)
Require Import ZArith List Bool.
From Verif Require Import Stack.StackModel.
Import ListNotations.
Open Scope Z_scope.

(** The page size is a power of two, at most 2^30. *)
Definition page_ok (pa : Z) : Prop := exists k, 0 <= k <= 30 /\ pa = 2 ^ k - 1.

(** What the OS guarantees for a new region of [n] bytes: never for zero bytes (mmap fails with EINVAL;
    malloc(0) cannot happen), not at NULL, inside the address space, page aligned except for malloc. *)
Definition region_ok (P : plat) (pa n : Z) (r : option Z) : Prop :=
  match r with
  | None => True
  | Some p => 0 < n /\ 0 < p /\ p + n < 2 ^ 64 /\ (P = Simple \/ p mod (pa + 1) = 0)
  end.

Definition region_size (P : plat) (pa n : Z) : Z :=
  match P with Simple => n | _ => align_up pa n end.

(** [history P pa lo hi s w]: [s] is a stack and [w] the memory after a successful allocation
    with reserved region [lo, hi), and any sequence of resizes and stores in the usable area. *)
Inductive history (P : plat) (pa : Z) : Z -> Z -> stack -> world -> Prop :=
| h_alloc w0 ss ms o s w p :
    0 <= ss < 2 ^ 64 -> 0 <= ms < 2 ^ 64 ->
    os_region o = Some p -> region_ok P pa (region_size P pa ms) (os_region o) ->
    allocate_stack P pa w0 ss ms o = Some (Some s, w) ->
    history P pa p (p + region_size P pa ms) s w
| h_resize lo hi s w n o r s' w' :
    history P pa lo hi s w -> 0 <= n < 2 ^ 64 ->
    stack_resize P pa w s n o = (r, s', w') -> history P pa lo hi s' w'
| h_write lo hi s w a v w' :
    history P pa lo hi s w -> start s <= a < end_ s ->
    write w a v = Some w' -> history P pa lo hi s w'
| h_top lo hi s w t :
    history P pa lo hi s w ->
    history P pa lo hi (mkStack t (end_ s) (start s) (min_start s)) w.
