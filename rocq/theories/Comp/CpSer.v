(** Serialization of the compiler (sljitSerialize.c, cited as SER) on RISC-V 64: the buffer as bytes, the compiler as in CpState. *)
Require Import ZArith List Bool Lia.
From Verif Require Import Rv.RvLib Rv.RvEnc Comp.CpMem Comp.CpState.
Import ListNotations.
Open Scope Z_scope.

(** SLJIT_SERIALIZE_ALIGN (SER:118) *)
Definition align8 (v : Z) : Z := Z.land (wrap (v + 7)) (Z.lnot 7).
(** SER:119-125 *)
Definition SIGNATURE : Z := 0x534c4a54.
Definition VERSION : Z := 1.
(** SLJIT_SERIALIZE_DEBUG (SER:49) *)
Definition DEBUG_BIT : Z := 1.
(** sizeof(struct sljit_serialized_compiler) (SER:51-92): u32, 2 u16, 5 words, 6 s32, 1 word. *)
Definition HEADER : Z := 80.
(** The members only present in debug builds, last_flags, last_return and logical_local_size (SER:94-98). *)
Record debug := mkD { d_flags : Z; d_return : Z; d_local : Z }.

(** ** sljit_serialize_compiler *)

(** The chains which the function follows (SER:167-192). *)
Definition frag_ptrs (s : cst) : list Z := chain_ptrs (length (hlive (ch s))) (hm (ch s)) (cbufp s).
Definition const_ptrs (s : cst) : list Z := chain_ptrs (Z.to_nat (csz s)) (hm (ch s)) (ccon s).
Definition is_aligned (m : memory) (q : Z) : bool := negb (ldw m (q + 8) <? LABEL_ALIGNED).
(** The size computation (SER:152-192); [d] is the debug information, if the build and the options include it. *)
Definition ser_size (d : option debug) (s : cst) : Z :=
  let m := hm (ch s) in
  let n := match d with Some _ => HEADER + 16 | None => HEADER end in
  let n := fold_left (fun n b => wrap (n + wrap (8 + align8 (ldw m (b + 8))))) (frag_ptrs s) n in
  let n := fold_left (fun n q => wrap (n + (if is_aligned m q then 24 else 8))) (label_ptrs s) n in
  let n := fold_left (fun n _ => wrap (n + 24)) (jump_ptrs s) n in
  fold_left (fun n _ => wrap (n + 8)) (const_ptrs s) n.
(** SLJIT_GET_LABEL_INDEX, sljit_get_label_index (SER:26-32) *)
Definition label_index (m : memory) (q : Z) : Z := if is_aligned m q then ldw m (q + 24) else ldw m (q + 8).
(** sljit_jump_has_label, sljit_jump_has_target, sljit_jump_is_mov_addr (SER:34-47) *)
Definition jump_has_label (m : memory) (q : Z) : bool := negb (Z.testbit (ldw m (q + 16)) 0) && negb (ldw m (q + 24) =? 0).
Definition jump_has_target (m : memory) (q : Z) : bool := Z.testbit (ldw m (q + 16)) 0.
Definition jump_is_mov_addr (m : memory) (q : Z) : bool := Z.testbit (ldw m (q + 16)) 1.
(** sljit_jump_get_label, sljit_jump_get_target (sljitLir.h:2551, 2553): the union of the record. *)
Definition jump_get (m : memory) (q : Z) : Z := ldw m (q + 24).
(** What is stored for each element, with the step of ptr: fragments (SER:239-248), labels (SER:252-266), jumps (SER:271-288),
    constants (SER:293-299), debug information (SER:304-313). *)
Definition frag_items (m : memory) (b : Z) : list (list Z * Z) :=
  let u := ldw m (b + 8) in [(enc 8 u, 8); (get m (b + MEMORY) (Z.to_nat u), align8 u)].
Definition label_items (m : memory) (q : Z) : list (list Z * Z) :=
  if is_aligned m q then [(enc 8 (ldw m (q + 8)), 8); (enc 8 (ldw m (q + 16)) ++ enc 8 (ldw m (q + 32)), 16)]
  else [(enc 8 (ldw m (q + 16)), 8)].
Definition jump_value (m : memory) (q : Z) : Z :=
  if Z.testbit (ldw m (q + 16)) 0 then ldw m (q + 24)
  else if ldw m (q + 24) =? 0 then 2 ^ 64 - 1 else label_index m (ldw m (q + 24)).
Definition jump_items (m : memory) (q : Z) : list (list Z * Z) :=
  [(enc 8 (ldw m (q + 8)) ++ enc 8 (ldw m (q + 16)) ++ enc 8 (jump_value m q), 24)].
Definition const_items (m : memory) (q : Z) : list (list Z * Z) := [(enc 8 (ldw m (q + 8)), 8)].
Definition debug_items (d : option debug) : list (list Z * Z) :=
  match d with Some d => [(enc 8 (d_flags d) ++ enc 4 (d_return d) ++ enc 4 (d_local d), 16)] | None => [] end.
(** The header (SER:203-213, 249, 267, 289, 300, 309): in C its members are stored one by one, some after the rest; the header is
    not read in between. *)
Definition header (d : option debug) (s : cst) : list Z :=
  let m := hm (ch s) in let f := cfld s in
  enc 4 SIGNATURE ++ enc 2 VERSION ++ enc 2 (match d with Some _ => DEBUG_BIT | None => 0 end) ++
  enc 8 (Z.of_nat (length (frag_ptrs s))) ++ enc 8 (ccount s) ++ enc 8 (Z.of_nat (length (filter (is_aligned m) (label_ptrs s)))) ++
  enc 8 (Z.of_nat (length (jump_ptrs s))) ++ enc 8 (Z.of_nat (length (const_ptrs s))) ++
  enc 4 (f_options f) ++ enc 4 (f_scratches f) ++ enc 4 (f_saveds f) ++ enc 4 (f_fscratches f) ++ enc 4 (f_fsaveds f) ++ enc 4 (f_local f) ++
  enc 8 (csz s).
(** The result block: [None] is a byte not written yet.  A store outside of it gives no result. *)
Definition wrb (buf : list (option Z)) (off : Z) (l : list Z) : option (list (option Z)) :=
  let o := Z.to_nat off in
  if (0 <=? off) && (off + Z.of_nat (length l) <=? Z.of_nat (length buf)) then Some (firstn o buf ++ map Some l ++ skipn (o + length l) buf) else None.
Fixpoint put_items (items : list (list Z * Z)) (buf : list (option Z)) (ptr : Z) : option (list (option Z)) :=
  match items with
  | [] => Some buf
  | (l, adv) :: items => match wrb buf ptr l with Some buf => put_items items buf (ptr + adv) | None => None end
  end.
Definition all_items (d : option debug) (s : cst) : list (list Z * Z) :=
  let m := hm (ch s) in
  (header d s, HEADER) :: flat_map (frag_items m) (frag_ptrs s) ++ flat_map (label_items m) (label_ptrs s) ++ flat_map (jump_items m) (jump_ptrs s) ++
  flat_map (const_items m) (const_ptrs s) ++ debug_items d.
(** The result: NULL, the block [p] with its size and contents, or a store outside of the block. *)
Inductive sres := SNull (s : cst) | SOk (p n : Z) (buf : list (option Z)) (s : cst) | SBad.
(** sljit_serialize_compiler (SER:127-319).  The result block is a new object: the stores to it are not stores to the memory of the compiler. *)
Definition serialize (d : option debug) (s : cst) : sres :=
  if negb (cerr s =? 0) then SNull s
  else
    let n := ser_size d s in
    let (p, h) := malloc (ch s) in
    let s' := set_h s h in
    if p =? 0 then SNull (set_err s' ERR_ALLOC_FAILED)
    else match put_items (all_items d s) (repeat None (Z.to_nat n)) 0 with Some buf => SOk p n buf s' | None => SBad end.
(** The bytes of the block when [g] is what the allocated memory contained before. *)
Fixpoint fill (buf : list (option Z)) (g : Z -> Z) (i : Z) : list Z :=
  match buf with [] => [] | o :: buf => match o with Some x => x | None => g i end :: fill buf g (i + 1) end.

(** ** sljit_deserialize_compiler *)

(** The steps: the value, goto error, or undefined behaviour (reading past the end of the buffer, copying past the end of a fragment,
    storing past the end of label_list). *)
Inductive dstep (A : Type) := DRet (a : A) | DErr (s : cst) | DBad.
Arguments DRet {A}. Arguments DErr {A}. Arguments DBad {A}.
Section Deser.
Variable b : list Z.
Definition bsize : Z := Z.of_nat (length b).
(** Part of the buffer; a word. *)
Definition sub (off n : Z) : list Z := firstn (Z.to_nat n) (skipn (Z.to_nat off) b).
Definition rdw (off : Z) : option Z := if (0 <=? off) && (off + 8 <=? bsize) then Some (dec (sub off 8)) else None.
(** end - ptr (SER:404, 411, ...) *)
Definition left (off : Z) : Z := wrap (bsize - off).
(** The fragments (SER:398-438): [i] more, [last] is last_buf.  Each round consumes at least 8 bytes, the length of the buffer bounds their number
    (exceeding it, which would be an endless loop, counts as undefined behaviour). *)
Fixpoint segs (fuel : nat) (i off last : Z) (s : cst) : dstep (Z * cst) :=
  if i =? 0 then DRet (off, s) else
  match fuel with
  | O => DBad
  | S fuel =>
      if left off <? 8 then DErr s else
      match rdw off with
      | None => DBad
      | Some u =>
          let al := align8 u in
          let off := off + 8 in
          if left off <? al then DErr s else
          let (p, s) := if last =? 0 then (cbufp s, s) else let (p, h) := malloc (ch s) in (p, set_h s h) in
          if p =? 0 then DErr s else
          let s := if last =? 0 then s else st s p 0 in
          let s := st s (p + 8) u in
          if (u >? BUF_SIZE - MEMORY) || (off + u >? bsize) then DBad else
          let s := set_h s (mkH (put (hm (ch s)) (p + MEMORY) (sub off u)) (hsched (ch s)) (hlive (ch s))) in
          let s := if last =? 0 then s else st s last p in
          segs fuel (i - 1) (off + al) p s
      end
  end.
(** The labels (SER:455-500): [n] is label_count, [al] aligned_label_count, [ll] what label_list contains so far. *)
Fixpoint labs (fuel : nat) (i n al off last : Z) (ll : list Z) (s : cst) : dstep (Z * Z * list Z * Z * cst) :=
  if negb (i <? n) then DRet (off, al, ll, last, s) else
  match fuel with
  | O => DBad
  | S fuel =>
      match rdw off with
      | None => DBad
      | Some type =>
          let (q, s) := ensure_abuf s (if type <? LABEL_ALIGNED then 24 else 40) in
          if q =? 0 then DErr s else
          let s := st s q 0 in
          let s := if last =? 0 then set_labs s q (clastl s) else st s last q in
          if 8 * (i + 1) >? wrap (8 * n) then DBad else
          let ll := ll ++ [q] in
          let off := off + 8 in
          if type <? LABEL_ALIGNED then
            let s := st s (q + 8) i in
            let s := st s (q + 16) type in
            labs fuel (i + 1) n al off q ll s
          else if al =? 0 then DErr s
          else match rdw off, rdw (off + 8) with
            | Some size, Some data =>
                let s := st s (q + 8) type in
                let s := st s (q + 16) size in
                let s := st s (q + 24) i in
                let s := st s (q + 32) data in
                labs fuel (i + 1) n (al - 1) (off + 16) q ll s
            | _, _ => DBad
            end
      end
  end.
(** The jumps (SER:510-541). *)
Fixpoint jmps (fuel : nat) (i n off last : Z) (ll : list Z) (s : cst) : dstep (Z * Z * cst) :=
  if i =? 0 then DRet (off, last, s) else
  match fuel with
  | O => DBad
  | S fuel =>
      let (q, s) := ensure_abuf s 32 in
      if q =? 0 then DErr s else
      match rdw off, rdw (off + 8), rdw (off + 16) with
      | Some addr, Some flags, Some value =>
          let s := st s q 0 in
          let s := st s (q + 8) addr in
          let s := st s (q + 16) flags in
          if negb (Z.testbit flags 0) && negb (value =? 2 ^ 64 - 1) && negb (value <? n) then DErr s else
          let s := st s (q + 24) (if Z.testbit flags 0 then value else if value =? 2 ^ 64 - 1 then 0 else nth (Z.to_nat value) ll 0) in
          let s := if last =? 0 then set_jmps s q (clastj s) else st s last q in
          jmps fuel (i - 1) n (off + 24) q ll s
      | _, _, _ => DBad
      end
  end.
(** The constants (SER:552-570). *)
Fixpoint cons (fuel : nat) (i off last : Z) (s : cst) : dstep (Z * Z * cst) :=
  if i =? 0 then DRet (off, last, s) else
  match fuel with
  | O => DBad
  | S fuel =>
      let (q, s) := ensure_abuf s 16 in
      if q =? 0 then DErr s else
      match rdw off with
      | Some addr =>
          let s := st s q 0 in
          let s := st s (q + 8) addr in
          let s := if last =? 0 then set_cons s q (clastc s) else st s last q in
          cons fuel (i - 1) (off + 8) q s
      | None => DBad
      end
  end.
(** The result: NULL, the compiler (and the debug members), or undefined behaviour. *)
Inductive dres := DNull (h : heap) | DOk (s : cst) (d : option debug) | DUB.
(** error: (SER:580-584) *)
Definition derror (s : cst) (ll : Z) : heap := let h := free_compiler s in if ll =? 0 then h else free h ll.
Definition sub32 (off : Z) : Z := sext 32 (dec (sub off 4)).
Definition subw (off : Z) : Z := dec (sub off 8).
(** sljit_deserialize_compiler (SER:321-585); [dbg]: built with argument checks or debugging. *)
Definition deserialize (dbg : bool) (h : heap) : dres :=
  if (bsize <? HEADER) || negb (bsize mod 8 =? 0) then DNull h
  else if negb (dec (sub 0 4) =? SIGNATURE) || negb (dec (sub 4 2) =? VERSION) then DNull h
  else match create_compiler h with
  | (None, h) => DNull h
  | (Some s, _) =>
    let n := subw 16 in
    let f := cfld s in
    let s := set_count s n in
    let s := set_fld s (mkF (sub32 48) (sub32 52) (sub32 56) (sub32 60) (sub32 64) (sub32 68) (f_vscratches f) (f_vsaveds f)) in
    let s := set_size s (subw 72) in
    if dbg && negb (Z.testbit (dec (sub 6 2)) 0) then DNull (derror s 0) else
    match segs (S (length b)) (subw 8) HEADER 0 s with
    | DErr s => DNull (derror s 0) | DBad => DUB
    | DRet (off, s) =>
      let al := subw 24 in
      if left off <? wrap (wrap (n * 8) + wrap (al * 16)) then DNull (derror s 0) else
      let (lp, h) := malloc (ch s) in
      let s := set_h s h in
      if lp =? 0 then DNull (derror s 0) else
      match labs (S (length b)) 0 n al off 0 [] s with
      | DErr s => DNull (derror s lp) | DBad => DUB
      | DRet (off, al, ll, last, s) =>
        let s := set_labs s (clab s) last in
        if negb (al =? 0) then DNull (derror s lp) else
        let i := subw 32 in
        if left off <? wrap (i * 24) then DNull (derror s lp) else
        match jmps (S (length b)) i n off 0 ll s with
        | DErr s => DNull (derror s lp) | DBad => DUB
        | DRet (off, last, s) =>
          let s := set_jmps s (cjmp s) last in
          let s := set_h s (free (ch s) lp) in
          let i := subw 40 in
          if left off <? wrap (i * 8) then DNull (derror s 0) else
          match cons (S (length b)) i off 0 s with
          | DErr s => DNull (derror s 0) | DBad => DUB
          | DRet (off, last, s) =>
            let s := set_cons s (ccon s) last in
            if dbg then
              if left off <? 16 then DNull (derror s 0)
              else if off + 16 >? bsize then DUB
              else DOk s (Some (mkD (sub32 off) (sub32 (off + 8)) (sub32 (off + 12))))
            else DOk s None
          end
        end
      end
    end
  end.
End Deser.
