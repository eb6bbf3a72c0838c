(** Model of the executable memory allocator.

    Source: /repo/sljit_src/allocator_src/sljitExecAllocatorCore.c (whole file) as
    included by sljitExecAllocatorPosix.c (no chunk header, no executable offset:
    CHUNK_HEADER_SIZE = 0 and struct block_header has the two fields size, prev_size).

    Memory is word addressed by byte address: every access of the allocator is an
    aligned 8 byte access, so [mem : Z -> Z] maps the (8-aligned) byte address of a
    word to its value.  Accesses outside of the memory currently mapped by the OS,
    or unaligned accesses, are undefined behaviour and make the model return [None].

    Not modelled: the lock (calls are serialised by it, so a history is a sequence),
    SLJIT_UPDATE_WX_FLAGS (empty in this configuration). *)

Require Import ZArith List Bool.
Import ListNotations.
Open Scope Z_scope.

(** sljit_uw arithmetic wraps at 2^64. *)
Definition uw (z : Z) : Z := z mod 2 ^ 64.

(** sizeof(struct block_header): sljitExecAllocatorCore.c:94-100 *)
Definition HDR : Z := 16.
(** sljitExecAllocatorCore.c:89-92 CHUNK_SIZE *)
Definition CHUNK_SIZE : Z := 65536.
(** sljitExecAllocatorCore.c:116 CHUNK_EXTRA_SIZE with CHUNK_HEADER_SIZE = 0 *)
Definition CHUNK_EXTRA : Z := HDR.

(** Field offsets of struct block_header / struct free_block,
    sljitExecAllocatorCore.c:94-107 *)
Definition o_size : Z := 0.
Definition o_prev_size : Z := 8.
Definition o_next : Z := 16.
Definition o_prev : Z := 24.
Definition o_fsize : Z := 32.

(** sljitExecAllocatorCore.c:115 ALIGN_SIZE *)
Definition align_size (size : Z) : Z := Z.land (uw (size + HDR + 7)) (uw (Z.lnot 7)).

(** The allocator's global variables, sljitExecAllocatorCore.c:118-120, the memory,
    and the list of mapped regions (base, byte length), which belongs to the OS. *)
Record st := mkSt {
  mem : Z -> Z;
  chunks : list (Z * Z);
  free_blocks : Z;      (* sljit_free_blocks, 0 is NULL *)
  allocated : Z;        (* sljit_allocated_size *)
  total : Z             (* sljit_total_size *)
}.

Definition init_st : st := mkSt (fun _ => 0) [] 0 0 0.

Definition mapped (cs : list (Z * Z)) (a : Z) : bool :=
  existsb (fun c => (fst c <=? a) && (a + 8 <=? fst c + snd c)) cs.

Definition acc_ok (s : st) (a : Z) : bool := (a mod 8 =? 0) && mapped (chunks s) a.

(** Memory read and write; [None] is undefined behaviour. *)
Definition ld (s : st) (a : Z) : option Z :=
  if acc_ok s a then Some (mem s a) else None.

Definition upd (m : Z -> Z) (a v : Z) : Z -> Z := fun x => if x =? a then v else m x.

Definition st_ (s : st) (a v : Z) : option st :=
  if acc_ok s a
  then Some (mkSt (upd (mem s) a v) (chunks s) (free_blocks s) (allocated s) (total s))
  else None.

Definition set_free_blocks (s : st) (v : Z) : st :=
  mkSt (mem s) (chunks s) v (allocated s) (total s).
Definition set_allocated (s : st) (v : Z) : st :=
  mkSt (mem s) (chunks s) (free_blocks s) v (total s).
Definition set_total (s : st) (v : Z) : st :=
  mkSt (mem s) (chunks s) (free_blocks s) (allocated s) v.
Definition set_chunks (s : st) (m : Z -> Z) (cs : list (Z * Z)) : st :=
  mkSt m cs (free_blocks s) (allocated s) (total s).

Definition bind {A B} (o : option A) (f : A -> option B) : option B :=
  match o with Some a => f a | None => None end.
Notation "x <- e ;; f" := (bind e (fun x => f)) (at level 61, e at next level, right associativity).

(** sljitExecAllocatorCore.c:122-132 sljit_insert_free_block *)
Definition insert_free_block (s : st) (fb size : Z) : option st :=
  s <- st_ s (fb + o_size) 0 ;;
  s <- st_ s (fb + o_fsize) size ;;
  s <- st_ s (fb + o_next) (free_blocks s) ;;
  s <- st_ s (fb + o_prev) 0 ;;
  s <- (if free_blocks s =? 0 then Some s else st_ s (free_blocks s + o_prev) fb) ;;
  Some (set_free_blocks s fb).

(** sljitExecAllocatorCore.c:134-145 sljit_remove_free_block *)
Definition remove_free_block (s : st) (fb : Z) : option st :=
  nx <- ld s (fb + o_next) ;;
  s <- (if nx =? 0 then Some s
        else pv <- ld s (fb + o_prev) ;; st_ s (nx + o_prev) pv) ;;
  pv <- ld s (fb + o_prev) ;;
  if pv =? 0
  then (if free_blocks s =? fb          (* SLJIT_ASSERT, line 142 *)
        then nx <- ld s (fb + o_next) ;; Some (set_free_blocks s nx)
        else None)
  else nx <- ld s (fb + o_next) ;; st_ s (pv + o_next) nx.

(** Lines 169-195: the search loop of sljit_malloc_exec.  Returns the free block with
    enough space, if any; running out of fuel is an error, like an endless loop. *)
Fixpoint find_free (fuel : nat) (s : st) (fb size : Z) : option (option Z) :=
  match fuel with
  | O => None
  | S fuel =>
    if fb =? 0 then Some None
    else sz <- ld s (fb + o_fsize) ;;
         if size <=? sz then Some (Some fb)
         else nx <- ld s (fb + o_next) ;; find_free fuel s nx size
  end.

(** Upper bound on the number of blocks: one per 8 mapped bytes. *)
Definition fuel_of (s : st) : nat :=
  S (Z.to_nat (fold_right (fun c acc => snd c / 8 + acc) 0 (chunks s))).

(** Lines 164-166: the size of the block for a request. *)
Definition block_size (size : Z) : Z :=
  let size := if size <? 64 - HDR then 64 - HDR else size in
  align_size size.

(** Line 197: the size of a new chunk. *)
Definition chunk_size_for (size : Z) : Z :=
  Z.land (uw (size + CHUNK_EXTRA + CHUNK_SIZE - 1)) (uw (Z.lnot (CHUNK_SIZE - 1))).

(** Lines 171-192: taking the block from the free block [fb]. *)
Definition take_free (s : st) (fb size : Z) : option (Z * st) :=
  csz <- ld s (fb + o_fsize) ;;
  if uw (size + 64) <? csz then
    let csz' := uw (csz - size) in
    s <- st_ s (fb + o_fsize) csz' ;;
    let header := fb + csz' in
    s <- st_ s (header + o_prev_size) csz' ;;
    s <- st_ s (header + size + o_prev_size) size ;;
    let s := set_allocated s (uw (allocated s + size)) in
    s <- st_ s (header + o_size) size ;;
    Some (header + HDR, s)
  else
    s <- remove_free_block s fb ;;
    let s := set_allocated s (uw (allocated s + csz)) in
    s <- st_ s (fb + o_size) csz ;;
    Some (fb + HDR, s).

(** Lines 197-244: a new chunk.  [os] is the result of alloc_chunk (sljitExecAllocatorPosix.c:30-55,
    mmap): [None] for failure, or the base address and the initial content. *)
Definition take_new (s : st) (size : Z) (os : option (Z * (Z -> Z))) : option (Z * st) :=
  let csz := chunk_size_for size in
  match os with
  | None => Some (0, s)
  | Some (base, content) =>
    let s := set_chunks s (fun x => if (base <=? x) && (x <? base + csz) then content x else mem s x)
                        ((base, csz) :: chunks s) in
    let csz := uw (csz - CHUNK_EXTRA) in
    let s := set_total s (uw (total s + csz)) in
    let header := base in
    s <- st_ s (header + o_prev_size) 0 ;;
    if uw (size + 64) <? csz then
      let s := set_allocated s (uw (allocated s + size)) in
      s <- st_ s (header + o_size) size ;;
      let csz := uw (csz - size) in
      let fb := header + size in
      s <- st_ s (fb + o_prev_size) size ;;
      s <- insert_free_block s fb csz ;;
      let next_header := fb + csz in
      s <- st_ s (next_header + o_size) 1 ;;
      s <- st_ s (next_header + o_prev_size) csz ;;
      Some (header + HDR, s)
    else
      let s := set_allocated s (uw (allocated s + csz)) in
      s <- st_ s (header + o_size) csz ;;
      let next_header := header + csz in
      s <- st_ s (next_header + o_size) 1 ;;
      s <- st_ s (next_header + o_prev_size) csz ;;
      Some (header + HDR, s)
  end.

(** sljit_malloc_exec, lines 147-245. *)
Definition malloc_exec (s : st) (size : Z) (os : option (Z * (Z -> Z))) : option (Z * st) :=
  let size := block_size size in
  r <- find_free (fuel_of s) s (free_blocks s) size ;;
  match r with
  | Some fb => take_free s fb size
  | None => take_new s size os
  end.

(** free_chunk (sljitExecAllocatorPosix.c:57-60, munmap): the region must be mapped
    exactly, otherwise the call is an error. *)
Definition free_chunk (s : st) (base size : Z) : option st :=
  if existsb (fun c => (fst c =? base) && (snd c =? size)) (chunks s)
  then Some (set_chunks s (mem s) (filter (fun c => negb ((fst c =? base) && (snd c =? size))) (chunks s)))
  else None.

(** sljit_free_exec, lines 247-295. *)
Definition free_exec (s : st) (ptr : Z) : option st :=
  let header := ptr - HDR in
  hsz <- ld s (header + o_size) ;;
  let s := set_allocated s (uw (allocated s - hsz)) in
  psz <- ld s (header + o_prev_size) ;;
  let fb := header - psz in
  fbsz <- ld s (fb + o_size) ;;
  r <- (if fbsz =? 0 then
          f <- ld s (fb + o_fsize) ;;
          s <- st_ s (fb + o_fsize) (uw (f + hsz)) ;;
          f <- ld s (fb + o_fsize) ;;
          s <- st_ s (fb + f + o_prev_size) f ;;
          Some (fb, s)
        else
          s <- insert_free_block s header hsz ;;
          Some (header, s)) ;;
  let '(fb, s) := r in
  f <- ld s (fb + o_fsize) ;;
  nsz <- ld s (fb + f + o_size) ;;
  s <- (if nsz =? 0 then
          nf <- ld s (fb + f + o_fsize) ;;
          s <- st_ s (fb + o_fsize) (uw (f + nf)) ;;
          s <- remove_free_block s (fb + f) ;;
          f <- ld s (fb + o_fsize) ;;
          st_ s (fb + f + o_prev_size) f
        else Some s) ;;
  f <- ld s (fb + o_fsize) ;;
  psz <- ld s (fb + o_prev_size) ;;
  nsz <- ld s (fb + f + o_size) ;;
  if (psz =? 0) && (nsz =? 1) then
    if uw (allocated s * 3) / 2 <? uw (total s - f) then
      let s := set_total s (uw (total s - f)) in
      s <- remove_free_block s fb ;;
      f <- ld s (fb + o_fsize) ;;
      free_chunk s fb (uw (f + CHUNK_EXTRA))
    else Some s
  else Some s.

(** Lines 305-315: the loop of sljit_free_unused_memory_exec. *)
Fixpoint free_unused_loop (fuel : nat) (s : st) (fb : Z) : option st :=
  match fuel with
  | O => None
  | S fuel =>
    if fb =? 0 then Some s
    else
      nx <- ld s (fb + o_next) ;;
      psz <- ld s (fb + o_prev_size) ;;
      f <- ld s (fb + o_fsize) ;;
      nsz <- ld s (fb + f + o_size) ;;
      s <- (if (psz =? 0) && (nsz =? 1) then
              let s := set_total s (uw (total s - f)) in
              s <- remove_free_block s fb ;;
              f <- ld s (fb + o_fsize) ;;
              free_chunk s fb (uw (f + CHUNK_EXTRA))
            else Some s) ;;
      free_unused_loop fuel s nx
  end.

(** sljit_free_unused_memory_exec, lines 297-320 (the SLJIT_ASSERT of line 317 included). *)
Definition free_unused (s : st) : option st :=
  s <- free_unused_loop (fuel_of s) s (free_blocks s) ;;
  if (total s =? 0) && negb (free_blocks s =? 0) then None else Some s.

(** What a client does with the allocator. *)
Inductive op :=
| Malloc (size : Z) (os : option (Z * (Z -> Z)))
| Free (ptr : Z)
| FreeUnused
| Write (addr v : Z).

(** One call; the result is the returned pointer (0 where nothing is returned). *)
Definition step (s : st) (o : op) : option (Z * st) :=
  match o with
  | Malloc size os => malloc_exec s size os
  | Free p => s <- free_exec s p ;; Some (0, s)
  | FreeUnused => s <- free_unused s ;; Some (0, s)
  | Write a v => s <- st_ s a v ;; Some (0, s)
  end.
