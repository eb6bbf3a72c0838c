(** The code generator (RISC-V 64): emission of labels, jumps and constants into the compiler state,
    reduce_code_size, detect_jump_type, mov_addr_get_length, sljit_generate_code.
    Files: sljitNativeRISCV_common.c (abbreviated RV below), sljitLir.c (LIR).

    Representation.  Code positions are counted in 16 bit units from the start of the code (C: code_ptr - code), the address of
    a position x is code + 2 * x in the writable and code + 2 * x + executable_offset in the executable view.  The chained lists of
    labels, jumps and constants are Coq lists, a label pointer is an index into the list of labels, the chained
    buffer fragments are one list of units (see the buffer model for that step).  Positions and sizes never exceed
    the number of units, so their additions do not wrap; addresses do wrap ([wrap], [sw]).
    SLJIT_ASSERTs are not part of this model.  Cache flush and write protection calls are omitted. *)
Require Import ZArith List Bool Lia Zify ZifyBool.
From Verif Require Import Rv.RvLib Rv.RvBits Rv.RvIsa Rv.RvEnc Rv.RvImm Rv.RvAddr.
Import ListNotations.
Open Scope Z_scope.

(** struct sljit_label / sljit_extended_label (sljitLir.h:474-482, LIR:157-163): [lmask] is the data field of an
    SLJIT_LABEL_ALIGNED label, [laddr] is u.addr. *)
Record label := mkLabel { lsize : Z; lmask : option Z; laddr : Z }.

(** struct sljit_jump (sljitLir.h:484-492) with the flag bits of LIR:166-168, 288-303 as fields: SLJIT_REWRITABLE_JUMP, JUMP_ADDR,
    IS_CALL, IS_COND, IS_COND16, JUMP_MOV_ADDR, the size (flags >> JUMP_SIZE_SHIFT) and the PATCH flags. *)
Record jump := mkJump { jaddr : Z; jrewr : bool; jisaddr : bool; jcall : bool; jcond : bool; jcond16 : bool; jmov : bool;
  jsz : Z; jpatch : patch; jtarget : Z; jlabel : nat }.

(** The part of struct sljit_compiler (sljitLir.h:516-560) used here. *)
Record comp := mkComp { cbuf : list Z; clabels : list label; cjumps : list jump; cconsts : list Z; csize : Z }.

(** LIR:288-303 *)
Definition JUMP_MAX_SIZE : Z := 12.
(** LIR:770-771: SLJIT_MAX_ADDRESS is ~(sljit_uw)0 *)
Definition MAX_ADDRESS : Z := 2 ^ 64 - 1.

(** ** Emission *)

(** push_inst16 (RV:429-436) / push_inst (RV:419-427) for units already split. *)
Definition push_units (c : comp) (l : list Z) : comp :=
  mkComp (cbuf c ++ l) (clabels c) (cjumps c) (cconsts c) (csize c + Z.of_nat (length l)).

(** compiler->last_label (LIR:864-870) *)
Fixpoint last_label (l : list label) : option label :=
  match l with [] => None | [x] => Some x | _ :: l => last_label l end.

(** set_label (LIR:859-871); the label index of u.index is not modelled. *)
Definition set_label (c : comp) (m : option Z) : comp :=
  mkComp (cbuf c) (clabels c ++ [mkLabel (csize c) m 0]) (cjumps c) (cconsts c) (csize c).

(** sljit_emit_label (RV:3261-3275) *)
Definition emit_label (c : comp) : comp :=
  match last_label (clabels c) with
  | Some l => if lsize l =? csize c then c else set_label c None
  | None => set_label c None
  end.

(** sljit_emit_aligned_label without buffers (RV:3277-3321; set_extended_label LIR:873-879); [al] is log2 of the alignment.  The buffers
    (lines 3323-3350) are NOPs and labels emitted afterwards, i.e. [push_units] and [emit_label] calls. *)
Definition emit_aligned_label (cf : cfg) (c : comp) (al : Z) : comp :=
  if cC cf then
    (if al <=? 1 then emit_label c
     else let mask := 2 ^ al - 2 in set_label (push_units c (repeat C_NOP (Z.to_nat (Z.shiftr mask 1)))) (Some mask))
  else
    (if al <=? 2 then emit_label c
     else let mask := 2 ^ al - 4 in
       set_label (push_units c (flat_map (fun _ => [u16 NOP; u16 (Z.shiftr NOP 16)]) (repeat tt (Z.to_nat (Z.shiftr mask 2))))) (Some mask)).

(** What a jump needs to know at emission: its final target is set by sljit_set_label / sljit_set_target. *)
Inductive target := TLabel (n : nat) | TAddr (a : Z).
(** The condition: none, a compressed branch unit (IS_COND16), or a 32 bit branch (inverted, over the jump). *)
Inductive jcnd := NoCond | Cond16 (w : Z) | Cond32 (w : Z).

(** The jump record of sljit_emit_jump, sljit_emit_cmp, sljit_emit_ijump: set_jump (LIR:881-893) and the flags set
    afterwards (RV:3412-3425, 3502-3534, 3603), with its target assigned (sljit_set_label / sljit_set_target, LIR:631-645). *)
Definition new_jump (addr : Z) (rewr call : bool) (k : jcnd) (mov : bool) (t : target) : jump :=
  mkJump addr rewr (match t with TAddr _ => true | TLabel _ => false end) call
    (match k with NoCond => false | _ => true end) (match k with Cond16 _ => true | _ => false end) mov 0 PNone
    (match t with TAddr a => a | TLabel _ => 0 end) (match t with TLabel n => n | TAddr _ => 0%nat end).

(** sljit_emit_jump (RV:3402-3432), the end of sljit_emit_cmp (RV:3566-3577), sljit_emit_ijump to an immediate (RV:3600-3611):
    the branch, a placeholder unit, and the reserved space. *)
Definition emit_jump (c : comp) (k : jcnd) (rewr call : bool) (t : target) : comp :=
  let c := match k with
           | NoCond => c
           | Cond16 w => push_units c [w]
           | Cond32 w => push_units c [u16 w; u16 (Z.shiftr w 16)]
           end in
  let j := new_jump (csize c) rewr call k false t in
  mkComp (cbuf c ++ [0]) (clabels c) (cjumps c ++ [j]) (cconsts c) (csize c + JUMP_MAX_SIZE).

(** sljit_emit_op_addr, the address load (RV:4563-4568; set_mov_addr LIR:895-906). *)
Definition emit_mov_addr (c : comp) (reg : Z) (t : target) : comp :=
  let j := new_jump (csize c) false false NoCond true t in
  mkComp (cbuf c ++ [reg]) (clabels c) (cjumps c ++ [j]) (cconsts c) (csize c + JUMP_MAX_SIZE).

(** sljit_emit_const (RV:4499-4533; set_const LIR:908-917): [l] are the units of the constant load. *)
Definition emit_constant (c : comp) (l : list Z) : comp :=
  push_units (mkComp (cbuf c) (clabels c) (cjumps c) (cconsts c ++ [csize c]) (csize c)) l.

(** ** reduce_code_size *)

(** SLJIT_GET_NEXT_SIZE, SLJIT_GET_NEXT_ADDRESS (LIR:771-772) *)
Definition next_size (labels : list label) (i : nat) : Z := match nth_error labels i with Some l => lsize l | None => MAX_ADDRESS end.
(** SLJIT_GET_NEXT_ADDRESS (LIR:772) of the jump list. *)
Definition next_jaddr (jumps : list jump) : Z := match jumps with j :: _ => jaddr j | [] => MAX_ADDRESS end.
(** SLJIT_GET_NEXT_ADDRESS (LIR:772) of the constant list. *)
Definition next_caddr (consts : list Z) : Z := match consts with a :: _ => a | [] => MAX_ADDRESS end.

(** sljit_get_next_min (LIR:790-804) *)
Definition get_next_min (nl nj nc : Z) : Z :=
  let r := nj in
  let r := if nc <? r then nc else r in
  if nl <? r then nl else r.

(** Assignment to the i-th element of a list. *)
Fixpoint upd {A} (i : nat) (f : A -> A) (l : list A) : list A :=
  match l, i with
  | [], _ => []
  | x :: l, O => f x :: l
  | x :: l, S i => x :: upd i f l
  end.
(** Assignment to label->size (RV:793, 938). *)
Definition set_lsize (v : Z) (l : label) : label := mkLabel v (lmask l) (laddr l).
(** label->size of the label with this number (RV:825, 463). *)
Definition label_size (labels : list label) (n : nat) : Z := match nth_error labels n with Some l => lsize l | None => 0 end.
(** label->u.addr of the label with this number (RV:937, 981; sljitLir.h:2426). *)
Definition label_addr (labels : list label) (n : nat) : Z := match nth_error labels n with Some l => laddr l | None => 0 end.

(** The estimated size of a jump (RV:811-847).  [lsz] is u.label->size, [addr] is jump->addr, [sr] is size_reduce. C divides
    toward zero ([Z.quot]). *)
Definition jump_estimate (cf : cfg) (j : jump) (lsz addr sr : Z) : Z :=
  if jrewr j then JUMP_MAX_SIZE
  else if jisaddr j then
    (if jtarget j <=? S32_MAX then 4
     else if jtarget j <=? S44_MAX then 8
     else if jtarget j <=? S52_MAX then 10
     else JUMP_MAX_SIZE)
  else
    let diff := lsz - addr in
    let diff := if lsz >? addr then diff - sr else diff in
    let cond_size := if cC cf && jcond16 j then 1 else 0 in
    let cond_diff := diff + 2 - cond_size in
    if (cC cf && (cond_size =? 1)) && (diff >=? Z.quot BRANCH16_MIN 2) && (diff <=? Z.quot BRANCH16_MAX 2) then 0
    else if jcond j && (cond_diff <=? Z.quot BRANCH_MAX 2) && (cond_diff >=? Z.quot BRANCH_MIN 2) then cond_size
    else if cC cf && negb (jcall j) && (diff >=? Z.quot JUMP16_MIN 2) && (diff <=? Z.quot JUMP16_MAX 2) then 1
    else if (diff >=? Z.quot JUMP_MIN 2) && (diff <=? Z.quot JUMP_MAX 2) then 2
    else if (diff >=? Z.quot S32_MIN 2) && (diff <=? Z.quot S32_MAX 2) then 4
    else JUMP_MAX_SIZE.

(** The estimated size (minus one) of an address load (RV:853-870). *)
Definition mov_estimate (j : jump) (lsz addr sr : Z) : Z :=
  if negb (jisaddr j) then
    let diff := lsz - addr in
    let diff := if lsz >? addr then diff - sr else diff in
    if (diff >=? Z.quot S32_MIN 2) && (diff <=? Z.quot S32_MAX 2) then 3 else 11
  else if jtarget j <? S32_MAX then 3
  else if jtarget j <? S44_MAX then 7
  else if jtarget j <=? S52_MAX then 9
  else 11.

(** Assignment to jump->addr and the size bits of jump->flags (RV:809, 850, 873). *)
Definition set_jaddr_sz (j : jump) (a sz : Z) : jump :=
  mkJump a (jrewr j) (jisaddr j) (jcall j) (jcond j) (jcond16 j) (jmov j) sz (jpatch j) (jtarget j) (jlabel j).

(** The body for one jump (RV:809-878): the updated record and size_reduce. *)
Definition reduce_jump (cf : cfg) (labels : list label) (sr : Z) (j : jump) : jump * Z :=
  let addr := jaddr j - sr in
  let lsz := label_size labels (jlabel j) in
  if negb (jmov j) then
    let total_size := jump_estimate cf j lsz addr sr in
    (set_jaddr_sz j addr total_size, sr + (JUMP_MAX_SIZE - total_size))
  else
    let total_size := mov_estimate j lsz addr sr in
    (set_jaddr_sz j addr total_size, sr + (11 - total_size)).

(** reduce_code_size (RV:771-882), the loop: labels before index [il] are done, done jumps and constants are in reverse order.
    [fuel] bounds the rounds; the callers give one more than the number of records. *)
Fixpoint reduce_loop (fuel : nat) (cf : cfg) (labels : list label) (il : nat) (jd jr : list jump) (cd cr : list Z) (sr : Z)
  : list label * list jump * list Z * Z :=
  match fuel with
  | O => (labels, rev jd ++ jr, rev cd ++ cr, sr)
  | S n =>
    let nl := next_size labels il in
    let m := get_next_min nl (next_jaddr jr) (next_caddr cr) in
    if m =? MAX_ADDRESS then (labels, rev jd ++ jr, rev cd ++ cr, sr)
    else
      let '(labels, il) := if m =? nl then (upd il (fun l => set_lsize (lsize l - sr) l) labels, S il) else (labels, il) in
      if m =? next_caddr cr then
        match cr with
        | a :: cr => reduce_loop n cf labels il jd jr (a - sr :: cd) cr sr
        | [] => reduce_loop n cf labels il jd jr cd cr sr
        end
      else if negb (m =? next_jaddr jr) then reduce_loop n cf labels il jd jr cd cr sr
      else
        match jr with
        | j :: jr => let '(j, sr) := reduce_jump cf labels sr j in reduce_loop n cf labels il (j :: jd) jr cd cr sr
        | [] => reduce_loop n cf labels il jd jr cd cr sr
        end
  end.

(** reduce_code_size (RV:771-882) *)
Definition reduce_code_size (cf : cfg) (c : comp) : comp :=
  let fuel := S (length (clabels c) + length (cjumps c) + length (cconsts c)) in
  let '(labels, jumps, consts, sr) := reduce_loop fuel cf (clabels c) 0 [] (cjumps c) [] (cconsts c) 0 in
  mkComp (cbuf c) labels jumps consts (csize c - sr).

(** ** sljit_generate_code *)

(** The allocated memory: its units and whether every write so far was inside. *)
Record cmem := mkMem { munit : Z -> Z; mok : bool }.
(** A store of one unit through code_ptr; stores outside of the [size] units of the allocated memory clear [mok] (RV:920-1035). *)
Definition put (size : Z) (m : cmem) (i v : Z) : cmem :=
  mkMem (updf (munit m) i (u16 v)) (mok m && (0 <=? i) && (i <? size)).

Section Gen.
(** [code]: address of the allocated memory, [eo]: executable_offset, [size]: compiler->size after reduce_code_size. *)
Variables (cf : cfg) (code eo size : Z).

(** Assignment to jump->addr and the PATCH bits of jump->flags (RV:455-567, 608-630, 957). *)
Definition set_jpatch (j : jump) (a : Z) (p : patch) : jump :=
  mkJump a (jrewr j) (jisaddr j) (jcall j) (jcond j) (jcond16 j) (jmov j) (jsz j) p (jtarget j) (jlabel j).

(** Lines 519-520, 530-533, ...: the length of the inverted branch over the jump becomes [len16] units (16 bit form) or
    [len32] instructions. *)
Definition set_branch_len (j : jump) (m : cmem) (cp len16 len32 : Z) : cmem :=
  if jcond j then
    (if cC cf && jcond16 j
     then put size m (cp - 1) (Z.lxor (munit m (cp - 1)) (u16 (Z.lxor BRANCH16_LENGTH (C_BRN16 (len16 * 2)))))
     else put size m (cp - 2) (Z.lxor (munit m (cp - 2)) (u16 (Z.lxor BRANCH_LENGTH (Z.shiftl (len32 * 4) 7)))))
  else m.

(** Lines 567-581 *)
Definition detect_exit (j : jump) (m : cmem) (cp off : Z) : cmem * Z :=
  let ins := JALR .| RS1 TMP_REG1 .| IMM_I 0 in
  let ins := if jcall j then ins .| RD RETURN_ADDR_REG else ins in
  let cp := cp + off in
  (put size (put size m (cp - 1) ins) cp (Z.shiftr ins 16), cp).

(** detect_jump_type (RV:443-585): new record, memory, and the returned code_ptr. *)
Definition detect_jump_type (labels : list label) (j : jump) (m : cmem) (cp : Z) : jump * cmem * Z :=
  let orig_addr := jaddr j in
  let far := fun p off m => let '(m, cp') := detect_exit j m cp off in (set_jpatch j cp p, m, cp') in
  if jrewr j then far PNone (JUMP_MAX_SIZE - 1) m
  else
    let lsz := label_size labels (jlabel j) in
    let target_addr := if jisaddr j then jtarget j else wrap (code + 2 * lsz + eo) in
    let ja := if jisaddr j then cp else if lsz >? orig_addr then orig_addr else cp in
    let diff := sw (target_addr - (code + 2 * ja + eo)) in
    let c16 := cC cf && jcond16 j in
    let cond_diff := if c16 then diff + 2 else diff + 4 in
    if jcond j && c16 && (diff >=? BRANCH16_MIN) && (diff <=? BRANCH16_MAX) then
      (set_jpatch j (cp - 1) PB16, put size m (cp - 1) (Z.lxor (munit m (cp - 1) .& 0xe383) 0x2000), cp - 1)
    else if jcond j && (cond_diff >=? BRANCH_MIN) && (cond_diff <=? BRANCH_MAX) then
      (if c16 then
         let m := put size m cp (Z.shiftr (munit m (cp - 1) .& 0x300) 8 .| 0x4) in
         let m := put size m (cp - 1) (Z.lxor BNE (Z.shiftr (munit m (cp - 1) .& 0x2000) 1) .| Z.shiftl (munit m (cp - 1) .& 0x80) 8) in
         (set_jpatch j (cp - 1) PB, m, cp)
       else
         let m := put size m (cp - 2) (Z.lxor (munit m (cp - 2) .& 0xf07f) 0x1000) in
         let m := put size m (cp - 1) (munit m (cp - 1) .& 0x1ff) in
         (set_jpatch j (cp - 2) PB, m, cp - 1))
    else if cC cf && negb (jcall j) && (diff >=? JUMP16_MIN) && (diff <=? JUMP16_MAX) then
      (set_jpatch j cp PJ16, m, cp)
    else if (diff >=? JUMP_MIN) && (diff <=? JUMP_MAX) then
      (set_jpatch j cp PJ, set_branch_len j m cp 3 2, cp + 1)
    else if (diff >=? S32_MIN) && (diff <=? S32_MAX) then far PRel32 3 (set_branch_len j m cp 5 3)
    else if target_addr <=? S32_MAX then far PAbs32 3 (set_branch_len j m cp 5 3)
    else if target_addr <=? S44_MAX then far PAbs44 7 (set_branch_len j m cp 9 5)
    else if target_addr <=? S52_MAX then far PAbs52 9 (set_branch_len j m cp 11 6)
    else far PNone (JUMP_MAX_SIZE - 1) m.

(** mov_addr_get_length (RV:589-634): PATCH flag and length minus one. *)
Definition mov_addr_get_length (labels : list label) (j : jump) (cp : Z) : patch * Z :=
  let lsz := label_size labels (jlabel j) in
  let addr := if jisaddr j then jtarget j else wrap (code + 2 * lsz + eo) in
  let ja := if jisaddr j then cp else if lsz >? jaddr j then jaddr j else cp in
  let diff := sw (addr - (code + 2 * ja + eo)) in
  if (diff >=? S32_MIN) && (diff <=? S32_MAX) then (PRel32, 3)
  else if addr <=? S32_MAX then (PAbs32, 3)
  else if addr <=? S44_MAX then (PAbs44, 7)
  else if addr <=? S52_MAX then (PAbs52, 9)
  else (PNone, 11).

(** process_extended_label (RV:765-769), as a unit position. *)
Definition process_extended_label (cp mask : Z) : Z := ((code + 2 * cp) .& Z.lnot mask - code) / 2.

(** The variables of the main loop (RV:912-975). *)
Record gst := mkG { gm : cmem; gcp : Z; ghc : Z; glabels : list label; gil : nat; gjd : list jump; gjr : list jump;
  gcd : list Z; gcr : list Z; gmin : Z }.

(** next_min_addr (RV:918, 968): sljit_get_next_min (LIR:790-804). *)
Definition gmin_of (labels : list label) (il : nat) (jr : list jump) (cr : list Z) : Z :=
  get_next_min (next_size labels il) (next_jaddr jr) (next_caddr cr).

(** Lines 930-941: the label at the current unit; [w] is the unit just copied. *)
Definition gen_label (w : Z) (s : gst) : gst :=
  if gmin s =? next_size (glabels s) (gil s) then
    match nth_error (glabels s) (gil s) with
    | Some l =>
      let cp := match lmask l with Some m => process_extended_label (gcp s) m | None => gcp s end in
      let m := match lmask l with Some _ => put size (gm s) cp w | None => gm s end in
      mkG m cp (ghc s) (upd (gil s) (fun l => mkLabel cp (lmask l) (wrap (code + 2 * cp + eo))) (glabels s)) (S (gil s))
        (gjd s) (gjr s) (gcd s) (gcr s) (gmin s)
    | None => s
    end
  else s.

(** Lines 943-966: the jump or constant at the current unit. *)
Definition gen_jump (s : gst) : gst :=
  if gmin s =? next_jaddr (gjr s) then
    match gjr s with
    | j :: jr =>
      if negb (jmov j) then
        let '(j', m, cp) := detect_jump_type (glabels s) j (gm s) (gcp s) in
        mkG m cp (ghc s - 1 + jsz j) (glabels s) (gil s) (j' :: gjd s) jr (gcd s) (gcr s) (gmin s)
      else
        let '(p, len) := mov_addr_get_length (glabels s) j (gcp s) in
        mkG (gm s) (gcp s + len) (ghc s + jsz j) (glabels s) (gil s) (set_jpatch j (gcp s) p :: gjd s) jr (gcd s) (gcr s) (gmin s)
    | [] => s
    end
  else if gmin s =? next_caddr (gcr s) then
    match gcr s with
    | _ :: cr => mkG (gm s) (gcp s) (ghc s) (glabels s) (gil s) (gjd s) (gjr s) (gcp s :: gcd s) cr (gmin s)
    | [] => s
    end
  else s.

(** One round of the inner loop (RV:923-972). *)
Definition gen_unit (s : gst) (w : Z) : gst :=
  let s := mkG (put size (gm s) (gcp s) w) (gcp s) (ghc s) (glabels s) (gil s) (gjd s) (gjr s) (gcd s) (gcr s) (gmin s) in
  let s :=
    if gmin s =? ghc s then
      let s := gen_jump (gen_label w s) in
      mkG (gm s) (gcp s) (ghc s) (glabels s) (gil s) (gjd s) (gjr s) (gcd s) (gcr s) (gmin_of (glabels s) (gil s) (gjr s) (gcr s))
    else s in
  mkG (gm s) (gcp s + 1) (ghc s + 1) (glabels s) (gil s) (gjd s) (gjr s) (gcd s) (gcr s) (gmin s).

(** RV:909-918 *)
Definition gen_init (m : cmem) (c : comp) : gst :=
  mkG m 0 0 (clabels c) 0 [] (cjumps c) [] (cconsts c) (gmin_of (clabels c) 0 (cjumps c) (cconsts c)).

(** RV:977-984: a label behind the last unit. *)
Definition gen_final_label (s : gst) : gst :=
  match nth_error (glabels s) (gil s) with
  | Some l =>
    if lsize l =? ghc s then
      let cp := match lmask l with Some m => process_extended_label (gcp s) m | None => gcp s end in
      mkG (gm s) cp (ghc s) (upd (gil s) (fun l => mkLabel cp (lmask l) (wrap (code + 2 * cp))) (glabels s)) (S (gil s))
        (gjd s) (gjr s) (gcd s) (gcr s) (gmin s)
    else s
  | None => s
  end.

(** Stores a list of units from a position. *)
Fixpoint puts (m : cmem) (i : Z) (l : list Z) : cmem :=
  match l with [] => m | v :: l => puts (put size m i v) (i + 1) l end.

(** The patch loop for one jump (RV:993-1035). *)
Definition patch_jump (labels : list label) (m : cmem) (j : jump) : cmem :=
  let target := if jisaddr j then jtarget j else label_addr labels (jlabel j) in
  let here := code + 2 * jaddr j + eo in
  let far := fun _ : unit =>
    let reg := if jmov j then munit m (jaddr j) else TMP_REG1 in
    puts m (jaddr j) (units_of (map P32 (load_addr (jpatch j) (jmov j) (jcall j) reg (sw target) (sw here)))) in
  if jmov j then far tt
  else
    let addr := wrap (target - here) in
    match jpatch j with
    | PB16 => put size m (jaddr j) (munit m (jaddr j) .| C_BRN16 addr)
    | PB =>
      let m := put size m (jaddr j) (munit m (jaddr j) .| u16 (Z.shiftr (addr .& 0x800) 4 .| Z.shiftl (addr .& 0x1e) 7)) in
      put size m (jaddr j + 1) (munit m (jaddr j + 1) .| u16 (Z.shiftl (addr .& 0x7e0) 4 .| Z.shiftl (addr .& 0x1000) 3))
    | PJ16 => put size m (jaddr j) (C_J .| C_JMP16 addr)
    | PJ =>
      let a := (addr .& 0xff000) .| Z.shiftl (addr .& 0x800) 9 .| Z.shiftl (addr .& 0x7fe) 20 .| Z.shiftl (addr .& 0x100000) 11 in
      let ins := JAL .| RD (if jcall j then RETURN_ADDR_REG else TMP_ZERO) .| u32 a in
      put size (put size m (jaddr j) ins) (jaddr j + 1) (Z.shiftr ins 16)
    | _ => far tt
    end.
End Gen.

(** Results: the memory, the end of the code, labels, jumps and constants with their final positions, executable_size. *)
Record gen := mkGen { rmem : cmem; rend : Z; rlabels : list label; rjumps : list jump; rconsts : list Z; rsize : Z }.

(** sljit_generate_code (RV:884-1050) after a successful allocation of the executable memory with initial content [m0]. *)
Definition generate_code (cf : cfg) (code eo : Z) (m0 : Z -> Z) (c : comp) : gen :=
  let c := reduce_code_size cf c in
  let size := csize c in
  let s := fold_left (gen_unit cf code eo size) (cbuf c) (gen_init (mkMem m0 true) c) in
  let s := gen_final_label code s in
  let jumps := rev (gjd s) ++ gjr s in
  let m := fold_left (patch_jump code eo size (glabels s)) jumps (gm s) in
  mkGen m (gcp s) (glabels s) jumps (rev (gcd s) ++ gcr s) (gcp s * 4).
