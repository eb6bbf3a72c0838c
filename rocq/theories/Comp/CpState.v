(** The compiler object at pointer level: memory fragments, chained records, allocation failures.
    Files: sljitLir.c (LIR), sljitNativeRISCV_common.c (RV).  struct sljit_compiler (sljitLir.h:516-660) is a Coq record, everything
    reached through its pointers is byte memory.  Struct offsets are those of a 64 bit target (sljitLir.h:467-497, LIR:157-161). *)
Require Import ZArith List Bool Lia.
From Verif Require Import Rv.RvLib Rv.RvEnc Rv.RvIsa Rv.RvImm Rv.RvAddr Rv.RvLink Rv.RvLinkOps Rv.RvLinkExec Rv.RvLinkApi Comp.CpMem.
Import ListNotations.
Open Scope Z_scope.

(** The heap: contents, the results of the coming SLJIT_MALLOC calls (0 is NULL; when the list ends all fail), and the
    blocks not yet freed (SLJIT_MALLOC / SLJIT_FREE, sljitConfigInternal.h; every request here is at most 4096 bytes long or
    for the label_list array (sljitSerialize.c:451) or the result block (sljitSerialize.c:196), whose contents are not modelled as memory). *)
Record heap := mkH { hm : memory; hsched : list Z; hlive : list Z }.
(** SLJIT_MALLOC *)
Definition malloc (h : heap) : Z * heap :=
  match hsched h with
  | [] => (0, h)
  | p :: r => (p, mkH (hm h) r (if p =? 0 then hlive h else p :: hlive h))
  end.
(** SLJIT_FREE *)
Definition free (h : heap) (p : Z) : heap := mkH (hm h) (hsched h) (remove Z.eq_dec p (hlive h)).
(** Assignment to a word. *)
Definition hst (h : heap) (a v : Z) : heap := mkH (stw (hm h) a v) (hsched h) (hlive h).

(** The numeric members set by the entry functions (sljitLir.h:517, 533-552). *)
Record fields := mkF { f_options : Z; f_scratches : Z; f_saveds : Z; f_fscratches : Z; f_fsaveds : Z; f_local : Z; f_vscratches : Z; f_vsaveds : Z }.

(** struct sljit_compiler (sljitLir.h:516-560): [cself] is its own block. *)
Record cst := mkC { ch : heap; cself : Z; cbufp : Z; cabufp : Z; clab : Z; clastl : Z; cjmp : Z; clastj : Z; ccon : Z; clastc : Z;
  ccount : Z; csz : Z; cerr : Z; cfld : fields }.
(** Assignments to its members. *)
Definition set_h (s : cst) (h : heap) : cst :=
  mkC h (cself s) (cbufp s) (cabufp s) (clab s) (clastl s) (cjmp s) (clastj s) (ccon s) (clastc s) (ccount s) (csz s) (cerr s) (cfld s).
Definition set_buf (s : cst) (p : Z) : cst :=
  mkC (ch s) (cself s) p (cabufp s) (clab s) (clastl s) (cjmp s) (clastj s) (ccon s) (clastc s) (ccount s) (csz s) (cerr s) (cfld s).
Definition set_abuf (s : cst) (p : Z) : cst :=
  mkC (ch s) (cself s) (cbufp s) p (clab s) (clastl s) (cjmp s) (clastj s) (ccon s) (clastc s) (ccount s) (csz s) (cerr s) (cfld s).
Definition set_labs (s : cst) (p q : Z) : cst :=
  mkC (ch s) (cself s) (cbufp s) (cabufp s) p q (cjmp s) (clastj s) (ccon s) (clastc s) (ccount s) (csz s) (cerr s) (cfld s).
Definition set_jmps (s : cst) (p q : Z) : cst :=
  mkC (ch s) (cself s) (cbufp s) (cabufp s) (clab s) (clastl s) p q (ccon s) (clastc s) (ccount s) (csz s) (cerr s) (cfld s).
Definition set_cons (s : cst) (p q : Z) : cst :=
  mkC (ch s) (cself s) (cbufp s) (cabufp s) (clab s) (clastl s) (cjmp s) (clastj s) p q (ccount s) (csz s) (cerr s) (cfld s).
Definition set_count (s : cst) (n : Z) : cst :=
  mkC (ch s) (cself s) (cbufp s) (cabufp s) (clab s) (clastl s) (cjmp s) (clastj s) (ccon s) (clastc s) n (csz s) (cerr s) (cfld s).
Definition set_size (s : cst) (n : Z) : cst :=
  mkC (ch s) (cself s) (cbufp s) (cabufp s) (clab s) (clastl s) (cjmp s) (clastj s) (ccon s) (clastc s) (ccount s) n (cerr s) (cfld s).
Definition set_err (s : cst) (e : Z) : cst :=
  mkC (ch s) (cself s) (cbufp s) (cabufp s) (clab s) (clastl s) (cjmp s) (clastj s) (ccon s) (clastc s) (ccount s) (csz s) e (cfld s).
Definition set_fld (s : cst) (f : fields) : cst :=
  mkC (ch s) (cself s) (cbufp s) (cabufp s) (clab s) (clastl s) (cjmp s) (clastj s) (ccon s) (clastc s) (ccount s) (csz s) (cerr s) f.
(** Reading and writing a word reached through a pointer. *)
Definition ld (s : cst) (a : Z) : Z := ldw (hm (ch s)) a.
Definition st (s : cst) (a v : Z) : cst := set_h s (hst (ch s) a v).

(** sljitLir.h:101-114 *)
Definition ERR_COMPILED : Z := 1.
Definition ERR_ALLOC_FAILED : Z := 2.
Definition ERR_EX_ALLOC_FAILED : Z := 3.
(** LIR:113-119 *)
Definition BUF_SIZE : Z := 4096.
Definition ABUF_SIZE : Z := 4096.
(** SLJIT_OFFSETOF(struct sljit_memory_fragment, memory) (sljitLir.h:467-472) *)
Definition MEMORY : Z := 16.
(** LIR:155 *)
Definition LABEL_ALIGNED : Z := 2 ^ 64 - 2.
(** LIR:166-168, 288-297 *)
Definition JUMP_ADDR : Z := 1.
Definition JUMP_MOV_ADDR : Z := 2.
Definition IS_COND : Z := 4.
Definition IS_CALL : Z := 8.
Definition IS_COND16 : Z := 16.
Definition REWRITABLE_JUMP : Z := 65536.

(** sljit_create_compiler (LIR:486-588); the members which are zero on RISC-V are the zeros here. *)
Definition create_compiler (h : heap) : option cst * heap :=
  let (self, h) := malloc h in
  if self =? 0 then (None, h) else
  let (b, h) := malloc h in
  let (a, h) := malloc h in
  if (b =? 0) || (a =? 0) then
    let h := if b =? 0 then h else free h b in
    let h := if a =? 0 then h else free h a in
    (None, free h self)
  else
    let h := hst (hst (hst (hst h b 0) (b + 8) 0) a 0) (a + 8) 0 in
    (Some (mkC h self b a 0 0 0 0 0 0 0 0 0 (mkF 0 (-1) (-1) (-1) (-1) (-1) (-1) (-1))), h).

(** One while loop of sljit_free_compiler (LIR:597-602): [fuel] bounds the number of fragments. *)
Fixpoint free_chain (fuel : nat) (h : heap) (p : Z) : heap :=
  match fuel with
  | O => h
  | S fuel => if p =? 0 then h else let nx := ldw (hm h) p in free_chain fuel (free h p) nx
  end.
(** sljit_free_compiler (LIR:590-616) *)
Definition free_compiler (s : cst) : heap :=
  let n := length (hlive (ch s)) in
  free (free_chain n (free_chain n (ch s) (cbufp s)) (cabufp s)) (cself s).

(** ensure_buf (LIR:677-694); the result 0 is NULL. *)
Definition ensure_buf (s : cst) (size : Z) : Z * cst :=
  let used := ld s (cbufp s + 8) in
  if wrap (used + size) <=? BUF_SIZE - MEMORY then (cbufp s + MEMORY + used, st s (cbufp s + 8) (wrap (used + size)))
  else
    let (p, h) := malloc (ch s) in
    let s := set_h s h in
    if p =? 0 then (0, set_err s ERR_ALLOC_FAILED)
    else let s := st s p (cbufp s) in
      let s := set_buf s p in
      let s := st s (p + 8) size in
      (p + MEMORY, s).
(** ensure_abuf (LIR:696-713) *)
Definition ensure_abuf (s : cst) (size : Z) : Z * cst :=
  let used := ld s (cabufp s + 8) in
  if wrap (used + size) <=? ABUF_SIZE - MEMORY then (cabufp s + MEMORY + used, st s (cabufp s + 8) (wrap (used + size)))
  else
    let (p, h) := malloc (ch s) in
    let s := set_h s h in
    if p =? 0 then (0, set_err s ERR_ALLOC_FAILED)
    else let s := st s p (cabufp s) in
      let s := set_abuf s p in
      let s := st s (p + 8) size in
      (p + MEMORY, s).
(** sljit_alloc_memory (LIR:715-729) *)
Definition alloc_memory (s : cst) (size : Z) : Z * cst :=
  if negb (cerr s =? 0) then (0, s)
  else if (size <=? 0) || (size >? 128) then (0, s)
  else ensure_abuf s (Z.land (size + 7) (Z.lnot 7)).

(** The do-while loop of reverse_buf (LIR:737-742). *)
Fixpoint reverse_loop (fuel : nat) (m : memory) (buf prev : Z) : memory * Z :=
  match fuel with
  | O => (m, prev)
  | S fuel => let tmp := ldw m buf in let m := stw m buf prev in
      if tmp =? 0 then (m, buf) else reverse_loop fuel m tmp buf
  end.
(** reverse_buf (LIR:731-745); the number of live blocks bounds the number of fragments. *)
Definition reverse_buf (s : cst) : cst :=
  let (m, p) := reverse_loop (length (hlive (ch s))) (hm (ch s)) (cbufp s) 0 in
  set_buf (set_h s (mkH m (hsched (ch s)) (hlive (ch s)))) p.

(** ** Emission *)

(** The bytes of half words; storing them (ptr[0], ptr[1] of push_inst RV:423-424, *ptr of push_inst16 RV:433). *)
Definition ubytes (l : list Z) : list Z := flat_map (enc 2) l.
Definition sth (s : cst) (a : Z) (l : list Z) : cst := set_h s (mkH (put (hm (ch s)) a (ubytes l)) (hsched (ch s)) (hlive (ch s))).
(** push_inst16 (RV:429-436) *)
Definition push_inst16 (s : cst) (ins : Z) : Z * cst :=
  let (p, s) := ensure_buf s 2 in
  if p =? 0 then (cerr s, s) else (0, set_size (sth s p [u16 ins]) (csz s + 1)).
(** push_inst (RV:419-427) *)
Definition push_inst (s : cst) (ins : Z) : Z * cst :=
  let (p, s) := ensure_buf s 4 in
  if p =? 0 then (cerr s, s) else (0, set_size (sth s p [u16 ins; u16 (Z.shiftr ins 16)]) (csz s + 2)).
(** Code which pushes instructions: FAIL_IF (LIR:57-61) returns compiler->error when a push fails; [;?] are the calls whose result is
    ignored (sljitNativeRISCV_64.c:104, RV:2843). *)
Fixpoint run_em (e : em) (s : cst) : Z * cst :=
  match e with
  | ENop => (0, s)
  | E16 w => push_inst16 s w
  | E32 w => push_inst s w
  | EThen a b => let (r, s) := run_em a s in if r =? 0 then run_em b s else (cerr s, s)
  | EIgn a b => let (_, s) := run_em a s in run_em b s
  end.
(** A list of checked pushes. *)
Fixpoint em_of (l : list piece) : em :=
  match l with [] => ENop | P16 w :: l => EThen (E16 w) (em_of l) | P32 w :: l => EThen (E32 w) (em_of l) end.

(** The list part of set_label, set_jump, set_mov_addr and set_const (LIR:865-870, 887-892, 901-905, 912-916): the new first element. *)
Definition link (s : cst) (first last q : Z) : cst * Z := if last =? 0 then (s, q) else (st s last q, first).
(** set_label (LIR:859-871) *)
Definition set_label (s : cst) (q : Z) : cst :=
  let s := st s q 0 in
  let s := set_count (st s (q + 8) (ccount s)) (ccount s + 1) in
  let s := st s (q + 16) (csz s) in
  let (s, f) := link s (clab s) (clastl s) q in
  set_labs s f q.
(** set_extended_label (LIR:873-879) *)
Definition set_extended_label (s : cst) (q type data : Z) : cst :=
  let s := set_label s q in
  let s := st s (q + 24) (ld s (q + 8)) in
  let s := st s (q + 8) type in
  st s (q + 32) data.
(** set_jump (LIR:881-893) *)
Definition set_jump (s : cst) (q flags : Z) : cst :=
  let s := st s q 0 in
  let s := st s (q + 16) flags in
  let s := st s (q + 24) 0 in
  let (s, f) := link s (cjmp s) (clastj s) q in
  set_jmps s f q.
(** set_mov_addr (LIR:895-906), offset 0 *)
Definition set_mov_addr (s : cst) (q : Z) : cst :=
  let s := st s q 0 in
  let s := st s (q + 8) (csz s) in
  let s := st s (q + 16) JUMP_MOV_ADDR in
  let s := st s (q + 24) 0 in
  let (s, f) := link s (cjmp s) (clastj s) q in
  set_jmps s f q.
(** set_const (LIR:908-917) *)
Definition set_const (s : cst) (q : Z) : cst :=
  let s := st s q 0 in
  let s := st s (q + 8) (csz s) in
  let (s, f) := link s (ccon s) (clastc s) q in
  set_cons s f q.

(** The guard CHECK_ERROR / CHECK_ERROR_PTR (LIR:43-53) at the start of every emit function. *)
Definition guard (s : cst) (f : cst -> Z * cst) (ptr : bool) : Z * cst :=
  if negb (cerr s =? 0) then ((if ptr then 0 else cerr s), s) else f s.

(** Functions which only push instructions (sljit_emit_op1, sljit_emit_op2, ...). *)
Definition api_ins (e : em) (s : cst) : Z * cst := guard s (run_em e) false.
(** sljit_emit_label (RV:3261-3275) *)
Definition api_label (s : cst) : Z * cst :=
  guard s (fun s =>
    if negb (clastl s =? 0) && (ld s (clastl s + 16) =? csz s) then (clastl s, s)
    else let (q, s) := ensure_abuf s 24 in if q =? 0 then (0, s) else (q, set_label s q)) true.
(** The loop over the buffers of sljit_emit_aligned_label (RV:3325-3347); the label is left in each buffer, which is memory of the caller. *)
Fixpoint buffer_loop (cf : cfg) (sizes : list Z) (ret : Z) (s : cst) : Z * cst :=
  match sizes with
  | [] => (ret, s)
  | x :: sizes =>
      let (r, s) := run_em (em_of (nop_area cf x)) s in
      if negb (r =? 0) then (0, s)
      else match sizes with
           | [] => (ret, s)
           | _ => let (q, s) := api_label s in if q =? 0 then (0, s) else buffer_loop cf sizes ret s
           end
  end.
(** The NOPs of sljit_emit_aligned_label (RV:3297-3314). *)
Definition align_mask (cf : cfg) (al : Z) : Z := if cC cf then 2 ^ al - 2 else 2 ^ al - 4.
Definition align_nops (cf : cfg) (al : Z) : list piece :=
  if cC cf then repeat (P16 C_NOP) (Z.to_nat (Z.shiftr (align_mask cf al) 1)) else repeat (P32 NOP) (Z.to_nat (Z.shiftr (align_mask cf al) 2)).
(** sljit_emit_aligned_label (RV:3277-3350) *)
Definition api_align (cf : cfg) (al : Z) (sizes : list Z) (s : cst) : Z * cst :=
  guard s (fun s =>
    let (q, s) :=
      if (if cC cf then al <=? 1 else al <=? 2) then api_label s
      else let (r, s) := run_em (em_of (align_nops cf al)) s in
        if negb (r =? 0) then (0, s)
        else let (q, s) := ensure_abuf s 40 in
          if q =? 0 then (0, s) else (q, set_extended_label s q LABEL_ALIGNED (align_mask cf al)) in
    if q =? 0 then (0, s) else buffer_loop cf sizes q s) true.
(** The flags and the branch of a jump: sljit_emit_jump (RV:3414-3425), sljit_emit_cmp (RV:3500-3566). *)
Definition cond_flags (k : jcnd) : Z := match k with NoCond => 0 | Cond16 _ => IS_COND .| IS_COND16 | Cond32 _ => IS_COND end.
Definition cond_em (k : jcnd) : em := match k with NoCond => ENop | Cond16 w => E16 w | Cond32 w => E32 w end.
(** sljit_emit_jump (RV:3402-3432), sljit_emit_call (RV:3434-3448), sljit_emit_cmp (RV:3450-3578): [pre] are the instructions before (the frame release,
    the loads of the operands); the order in which the flag bits are set is not modelled, they are stored with the branch. *)
Definition jump_tail (k : jcnd) (rewr call : bool) (s : cst) : Z * cst :=
  let (q, s) := ensure_abuf s 32 in
  if q =? 0 then (0, s) else
  let s := set_jump s q (if rewr then REWRITABLE_JUMP else 0) in
  let (r, s) := run_em (cond_em k) s in
  if negb (r =? 0) then (0, s) else
  let s := st s (q + 16) (ld s (q + 16) .| cond_flags k) in
  let s := st s (q + 8) (csz s) in
  let s := if call then st s (q + 16) (ld s (q + 16) .| IS_CALL) else s in
  let (r, s) := push_inst16 s 0 in
  if negb (r =? 0) then (0, s) else (q, set_size s (csz s + (JUMP_MAX_SIZE - 1))).
Definition api_jump (pre : em) (k : jcnd) (rewr call : bool) (s : cst) : Z * cst :=
  guard s (fun s => let (r, s) := run_em pre s in if negb (r =? 0) then (0, s) else jump_tail k rewr call s) true.
(** sljit_emit_ijump and sljit_emit_icall with an immediate target (RV:3600-3611) *)
Definition ijump_tail (call : bool) (a : Z) (s : cst) : Z * cst :=
  let (q, s) := ensure_abuf s 32 in
  if q =? 0 then (cerr s, s) else
  let s := set_jump s q (JUMP_ADDR .| (if call then IS_CALL else 0)) in
  let s := st s (q + 24) a in
  let s := st s (q + 8) (csz s) in
  let (r, s) := push_inst16 s 0 in
  if negb (r =? 0) then (cerr s, s) else (0, set_size s (csz s + (JUMP_MAX_SIZE - 1))).
Definition api_ijump (pre : em) (call : bool) (a : Z) (s : cst) : Z * cst :=
  guard s (fun s => let (r, s) := run_em pre s in if negb (r =? 0) then (r, s) else ijump_tail call a s) false.
(** sljit_emit_op_addr (RV:4540-4580): [pre] and [post] are the instructions before and after the address load. *)
Definition mov_tail (reg : Z) (s : cst) : Z * cst :=
  let (q, s) := ensure_abuf s 32 in
  if q =? 0 then (0, s) else
  let s := set_mov_addr s q in
  let (r, s) := push_inst16 s reg in
  if negb (r =? 0) then (0, s) else (q, set_size s (csz s + (JUMP_MAX_SIZE - 1))).
Definition api_mov (pre : em) (reg : Z) (post : em) (s : cst) : Z * cst :=
  guard s (fun s =>
    let (r, s) := run_em pre s in
    if negb (r =? 0) then (0, s) else
    let (q, s) := mov_tail reg s in
    if q =? 0 then (0, s) else
    let (r, s) := run_em post s in
    if negb (r =? 0) then (0, s) else (q, s)) true.
(** sljit_emit_const (RV:4487-4538): [e] are its instructions, the first of them [p]. *)
Definition api_const (p : piece) (e : em) (s : cst) : Z * cst :=
  guard s (fun s =>
    let (q, s) := ensure_abuf s 16 in
    if q =? 0 then (0, s) else
    let s := set_const s q in
    let (r, s) := run_em (EThen (match p with P16 w => E16 w | P32 w => E32 w end) e) s in
    if negb (r =? 0) then (0, s) else (q, s)) true.
(** sljit_set_label (LIR:631-637) and sljit_set_target (LIR:639-645); [j], [l] are the pointers. *)
Definition api_set_label (j l : Z) (s : cst) : cst :=
  if negb (j =? 0) && negb (l =? 0) then st (st s (j + 16) (ld s (j + 16) .& Z.lnot JUMP_ADDR)) (j + 24) l else s.
Definition api_set_target (j a : Z) (s : cst) : cst :=
  if negb (j =? 0) then st (st s (j + 16) (ld s (j + 16) .| JUMP_ADDR)) (j + 24) a else s.
(** sljit_set_compiler_memory_error (LIR:618-622) *)
Definition api_memory_error (s : cst) : cst := if cerr s =? 0 then set_err s ERR_ALLOC_FAILED else s.

(** A program using the compiler: the calls, with jumps and labels referred to by their number in creation order. *)
Inductive ccall :=
| CIns (e : em)
| CLabel
| CAlign (al : Z) (sizes : list Z)
| CJump (pre : em) (x : jc) (rewr call : bool)
| CIJump (pre : em) (call : bool) (a : Z)
| CMov (pre : em) (reg : Z) (post : em)
| CConst (p : piece) (e : em)
| CSetLabel (j l : nat)
| CSetTarget (j : nat) (a : Z)
| CAlloc (n : Z)
| CFields (f : fields)
| CMemError.

(** One call; [jp] and [lp] are the pointers of the jumps and labels created so far (the caller keeps what it was given;
    pointers of jumps not returned are in the list too but a caller does not use them).  [CFields] stands for the
    assignments of sljit_emit_enter and sljit_set_context (LIR:803-853). *)
Definition ccall_run (cf : cfg) (k : ccall) (jp lp : list Z) (s : cst) : Z * cst :=
  match k with
  | CIns e => api_ins e s
  | CLabel => api_label s
  | CAlign al sizes => api_align cf al sizes s
  | CJump pre x rewr call => api_jump pre (jc_word x) rewr call s
  | CIJump pre call a => api_ijump pre call a s
  | CMov pre reg post => api_mov pre reg post s
  | CConst p e => api_const p e s
  | CSetLabel j l => (0, api_set_label (nth j jp 0) (nth l lp 0) s)
  | CSetTarget j a => (0, api_set_target (nth j jp 0) a s)
  | CAlloc n => alloc_memory s n
  | CFields f => guard s (fun s => (0, set_fld s f)) false
  | CMemError => (0, api_memory_error s)
  end.
(** ** What code generation reads *)

(** The pointers of a chained list, following the next members. *)
Fixpoint chain_ptrs (fuel : nat) (m : memory) (p : Z) : list Z :=
  match fuel with O => [] | S fuel => if p =? 0 then [] else p :: chain_ptrs fuel m (ldw m p) end.
(** The labels (RV:928-936, 946-954): size, and the data of an aligned label. *)
Definition view_label (m : memory) (q : Z) : label :=
  mkLabel (ldw m (q + 16)) (if ldw m (q + 8) >=? LABEL_ALIGNED then Some (ldw m (q + 32)) else None) 0.
(** Position of a pointer. *)
Fixpoint index_of (p : Z) (l : list Z) : nat := match l with [] => O | q :: l => if q =? p then O else S (index_of p l) end.
(** The jumps (RV:938-964, 990-1001): the flag bits, and the target address or the number of the label u.label. *)
Definition view_jump (m : memory) (labels : list Z) (q : Z) : jump :=
  let f := ldw m (q + 16) in
  let u := ldw m (q + 24) in
  let a := Z.testbit f 0 in
  mkJump (ldw m (q + 8)) (Z.testbit f 16) a (Z.testbit f 3) (Z.testbit f 2) (Z.testbit f 4) (Z.testbit f 1) 0 PNone
    (if a then u else 0) (if a then 0%nat else if u =? 0 then 0%nat else index_of u labels).
(** The half words of one fragment (RV:915-918). *)
Fixpoint view_units (n : nat) (m : memory) (a : Z) : list Z :=
  match n with O => [] | S n => dec (get m a 2) :: view_units n m (a + 2) end.
Definition view_frag (m : memory) (b : Z) : list Z := view_units (Z.to_nat (Z.shiftr (ldw m (b + 8)) 1)) m (b + MEMORY).
(** The compiler as sljit_generate_code sees it after reverse_buf (RV:909-916).  The bounds on the lengths of the lists: each label
    is counted, each jump and constant takes at least one unit, each fragment is a live block. *)
Definition view (s : cst) : comp :=
  let s' := reverse_buf s in
  let m := hm (ch s') in
  let lp := chain_ptrs (Z.to_nat (ccount s')) m (clab s') in
  mkComp (flat_map (view_frag m) (chain_ptrs (length (hlive (ch s'))) m (cbufp s')))
    (map (view_label m) lp)
    (map (view_jump m lp) (chain_ptrs (Z.to_nat (csz s')) m (cjmp s')))
    (map (fun q => ldw m (q + 8)) (chain_ptrs (Z.to_nat (csz s')) m (ccon s')))
    (csz s').

(** The pointers of the labels and jumps which the caller has. *)
Definition label_ptrs (s : cst) : list Z := chain_ptrs (Z.to_nat (ccount s)) (hm (ch s)) (clab s).
Definition jump_ptrs (s : cst) : list Z := chain_ptrs (Z.to_nat (csz s)) (hm (ch s)) (cjmp s).
(** A history of calls on one compiler; the results are collected. *)
Fixpoint ccalls_run (cf : cfg) (ks : list ccall) (s : cst) : list Z * cst :=
  match ks with
  | [] => ([], s)
  | k :: ks => let (r, s) := ccall_run cf k (jump_ptrs s) (label_ptrs s) s in
      let (rs, s) := ccalls_run cf ks s in (r :: rs, s)
  end.

(** sljit_generate_code (RV:901-912, 1040-1050): [code] is the result of the executable allocator, [eo] the executable offset, [m0] the contents
    of the new block.  The code is the one of the linker model for what the function sees.  It also writes the final addresses into the label,
    jump and constant records; these writes are not modelled here (they are members of [gen]). *)
Definition api_generate (cf : cfg) (code eo : Z) (m0 : Z -> Z) (s : cst) : option gen * cst :=
  if negb (cerr s =? 0) then (None, s)
  else if code =? 0 then (None, set_err s ERR_EX_ALLOC_FAILED)
  else (Some (generate_code cf code eo m0 (view s)), set_err (reverse_buf s) ERR_COMPILED).

(** ** Requests to the buffers, without code *)

(** A request to ensure_buf or ensure_abuf, or a write of the user of an earlier piece (which stays inside the piece). *)
Inductive req := RBuf (n : Z) | RAbuf (n : Z) | RWrite (i : nat) (off : Z) (l : list Z).
(** A sequence of requests; [ps] are the pieces (address, size) handed out so far. *)
Fixpoint req_run (rs : list req) (ps : list (Z * Z)) (s : cst) : list (Z * Z) * cst :=
  match rs with
  | [] => (ps, s)
  | RBuf n :: rs => let (p, s) := ensure_buf s n in req_run rs (if p =? 0 then ps else ps ++ [(p, n)]) s
  | RAbuf n :: rs => let (p, s) := ensure_abuf s n in req_run rs (if p =? 0 then ps else ps ++ [(p, n)]) s
  | RWrite i off l :: rs =>
      let (p, n) := nth i ps (0, 0) in
      req_run rs ps (if (0 <=? off) && (off + Z.of_nat (length l) <=? n) then set_h s (mkH (put (hm (ch s)) (p + off) l) (hsched (ch s)) (hlive (ch s))) else s)
  end.
