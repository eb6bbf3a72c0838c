(** Model of the stack utility: sljit_src/sljitUtils.c:168-342 and the structure in
    sljit_src/sljitLir.h:2651-2662.  Addresses are integers below 2^64. *)
Require Import ZArith List Bool Lia.
Import ListNotations.
Open Scope Z_scope.

Definition W : Z := 2 ^ 64.
Definition uw (x : Z) : Z := x mod W.

(** The build variants: SLJIT_UTIL_SIMPLE_STACK_ALLOCATION (lines 171-216), POSIX without
    and with POSIX_MADV_DONTNEED (line 321), and _WIN32. *)
Inductive plat := Simple | PosixNoAdvise | Posix | Win.

(** struct sljit_stack, sljitLir.h:2651-2662 *)
Record stack := mkStack { top : Z; end_ : Z; start : Z; min_start : Z }.

(** The address space of the process: content, and whether the byte can be accessed;
    [reserved] is the region obtained from the OS (or malloc) for the stack. *)
Record world := mkWorld {
  content : Z -> Z;
  acc : Z -> bool;
  reserved : option (Z * Z)
}.

Definition inr (a b x : Z) : bool := (a <=? x) && (x <? b).

(** [madvise(DONTNEED / FREE)] on [a, b): the content becomes arbitrary ([d]). *)
Definition discard (w : world) (a b : Z) (d : Z -> Z) : world :=
  mkWorld (fun x => if inr a b x then d x else content w x) (acc w) (reserved w).
(** VirtualAlloc(MEM_COMMIT) on the page aligned range [a, b): accessible; the pages that were not
    accessible get an arbitrary content. *)
Definition commit (w : world) (a b : Z) (d : Z -> Z) : world :=
  mkWorld (fun x => if inr a b x && negb (acc w x) then d x else content w x)
          (fun x => inr a b x || acc w x) (reserved w).
(** VirtualFree(MEM_DECOMMIT) on the page aligned range [a, b). *)
Definition decommit (w : world) (a b : Z) (d : Z -> Z) : world :=
  mkWorld (fun x => if inr a b x then d x else content w x)
          (fun x => negb (inr a b x) && acc w x) (reserved w).
(** mmap / malloc / VirtualAlloc(MEM_RESERVE) of [n] bytes at [p]. *)
Definition reserve (w : world) (p n : Z) (accessible : bool) (d : Z -> Z) : world :=
  mkWorld (fun x => if inr p (p + n) x then d x else content w x)
          (fun x => if inr p (p + n) x then accessible else acc w x) (Some (p, n)).
(** munmap / free / VirtualFree(MEM_RELEASE); the call must name the reserved region
    ([n = None] where the length is not an argument), otherwise it is an error. *)
Definition release (w : world) (p : Z) (n : option Z) : option world :=
  match reserved w with
  | Some (p', n') =>
    if (p =? p') && match n with Some n => n =? n' | None => true end
    then Some (mkWorld (content w) (fun x => negb (inr p' (p' + n') x) && acc w x) None)
    else None
  | None => None
  end.

(** The answers of the OS to one library call. *)
Record os := mkOs {
  os_struct : bool;              (** the SLJIT_MALLOC of the structure succeeds *)
  os_region : option Z;          (** base address of the new region, if successful *)
  os_page : bool;                (** VirtualAlloc(MEM_COMMIT) or VirtualFree(MEM_DECOMMIT) succeeds *)
  os_data : Z -> Z               (** content of new or discarded memory *)
}.

(** [(sljit_uw)p & ~page_align], lines 300-301, 325-326; [pa] is the page size minus one
    (get_page_alignment, lines 130-166). *)
Definition align_down (pa p : Z) : Z := Z.land p (uw (Z.lnot pa)).
(** Line 250. *)
Definition align_up (pa n : Z) : Z := Z.land (uw (n + pa)) (uw (Z.lnot pa)).

(** sljit_stack_resize, lines 209-216 (simple) and 288-340.  The result is the returned pointer. *)
Definition stack_resize (P : plat) (pa : Z) (w : world) (s : stack) (new_start : Z) (o : os)
  : Z * stack * world :=
  if (new_start <? min_start s) || (end_ s <=? new_start) then (0, s, w)
  else
    let ok w' := (new_start, mkStack (top s) (end_ s) new_start (min_start s), w') in
    let an := align_down pa new_start in
    let ao := align_down pa (start s) in
    match P with
    | Simple | PosixNoAdvise => ok w
    | Win =>
      if an =? ao then ok w
      else if an <? ao
           then (if os_page o then ok (commit w an ao (os_data o)) else (0, s, w))
           else (if os_page o then ok (decommit w ao an (os_data o)) else (0, s, w))
    | Posix =>
      if start s <? new_start
      then (if ao <? an then ok (discard w ao an (os_data o)) else ok w)
      else ok w
    end.

(** sljit_free_stack, lines 202-207, 222-227, 231-236. *)
Definition free_stack (P : plat) (w : world) (s : stack) : option world :=
  match P with
  | Simple | Win => release w (min_start s) None
  | PosixNoAdvise | Posix => release w (min_start s) (Some (uw (end_ s - min_start s)))
  end.

(** sljit_allocate_stack, lines 173-200 (simple) and 240-286.  [None] is an error
    (it cannot happen, see the theorems), [Some (None, w)] a NULL result. *)
Definition allocate_stack (P : plat) (pa : Z) (w : world) (start_size max_size : Z) (o : os)
  : option (option stack * world) :=
  if (max_size <? start_size) || (start_size <? 1) then Some (None, w)
  else if negb (os_struct o) then Some (None, w)
  else
    let max_size := match P with Simple => max_size | _ => align_up pa max_size end in
    match os_region o with
    | None => Some (None, w)
    | Some ptr =>
      let e := uw (ptr + max_size) in
      match P with
      | Win =>
        let w := reserve w ptr max_size false (os_data o) in
        let s := mkStack 0 e e ptr in
        match stack_resize Win pa w s (uw (e - start_size)) o with
        | (0, s, w) => match free_stack Win w s with Some w => Some (None, w) | None => None end
        | (_, s, w) => Some (Some (mkStack e (end_ s) (start s) (min_start s)), w)
        end
      | _ =>
        Some (Some (mkStack e e (uw (e - start_size)) ptr), reserve w ptr max_size true (os_data o))
      end
    end.

(** A store of the application (or of the generated code) into the stack area. *)
Definition write (w : world) (a v : Z) : option world :=
  if acc w a then Some (mkWorld (fun x => if x =? a then v else content w x) (acc w) (reserved w))
  else None.
