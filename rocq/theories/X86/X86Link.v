(** Model of the code generator of the x86-64 backend: labels, jumps and addresses.

    Cited: sljit_src/sljitNativeX86_common.c ("X86C"), sljit_src/sljitNativeX86_64.c ("X64"), sljit_src/sljitLir.c ("LIR").
    Simplifications: pointers to labels are numbers in the list of labels; positions are unbounded integers (sljit_uw without wrap around; the property
    theorems assume that the code is smaller than 2 GB); the sizes recorded in the flags for SLJIT_DEBUG and the assertions which read them
    are not modelled; a jump has its final target from the start, although sljit_set_label and sljit_set_target (LIR:631-645) store it later;
    allocation failures are those of C07. *)
Require Import ZArith List Bool Lia.
From Verif Require Import Rv.RvLib X86.X86Emit X86.X86Cond.
Import ListNotations.
Open Scope Z_scope.

(** X86C:127-128 *)
Definition HMAX := 0x7fffffff.
Definition HMIN := -0x80000000.
(** LIR:176-177 JUMP_MAX_SIZE, CJUMP_MAX_SIZE *)
Definition JUMP_MAX := 13.
Definition CJUMP_MAX := 15.

(** The type of a jump (sljitLir.h:1774-1815): a condition (< SLJIT_JUMP), SLJIT_JUMP, or one of the calls (> SLJIT_JUMP). *)
Inductive jkind := JCond (t : Z) | JAlways | JCall.
(** The flag JUMP_ADDR and the union u of struct sljit_jump. *)
Inductive target := TLabel (n : nat) | TAddr (a : Z).
(** The flags PATCH_MB, PATCH_MW, PATCH_MD (LIR:171-174). *)
Inductive patch := PNo | PMB | PMW | PMD.
(** struct sljit_label (sljitLir.h:474-482) and struct sljit_extended_label (LIR:157-161): size, the mask of an aligned label, the final address. *)
Record xlabel := mkXL { lsize : Z; lmask : option Z; laddr : Z }.
(** struct sljit_jump (sljitLir.h:484-493): address, type, SLJIT_REWRITABLE_JUMP, JUMP_MOV_ADDR, MOV_ADDR_HI, target, patch flags. *)
Record xjump := mkXJ { jaddr : Z; jk : jkind; jrewr : bool; jmov : bool; jhi : bool; jt : target; jp : patch }.
(** The records of the instruction buffer: instruction bytes, SLJIT_INST_LABEL, _JUMP, _MOV_ADDR, _CONST (LIR:145-152). *)
Inductive item := IIns (bs : list Z) | ILabel | IJump | IMov | IConst.
(** The parts of struct sljit_compiler used here. *)
Record comp := mkComp { cbuf : list item; clabels : list xlabel; cjumps : list xjump; cconsts : list Z; csize : Z }.
(** sljit_create_compiler (LIR:506-575) *)
Definition comp0 : comp := mkComp [] [] [] [] 0.

Section Link.
(** The Windows calling convention is used. *)
Variable win : bool.

(** ** Emission *)
(** The calls.  [KIns]: any function which only emits instruction bytes (one ensure_buf record); [KJump]: sljit_emit_jump, the jump of sljit_emit_call, and
    the immediate targets of sljit_emit_ijump and sljit_emit_icall; [KMov]: the address load of sljit_emit_op_addr; [KConst]: the marker of sljit_emit_const. *)
Inductive call :=
| KIns (bs : list Z)
| KLabel
| KAlign (al : Z)
| KJump (k : jkind) (rewr : bool) (t : target)
| KMov (reg : Z) (t : target)
| KConst.
Definition zlen {A} (l : list A) : Z := Z.of_nat (length l).
Definition last_label (c : comp) : option xlabel := match rev (clabels c) with l :: _ => Some l | [] => None end.
(** X86C:3439-3459 sljit_emit_label *)
Definition emit_label (c : comp) : comp :=
  match last_label c with
  | Some l => if lsize l =? csize c then c else mkComp (cbuf c ++ [ILabel]) (clabels c ++ [mkXL (csize c) None 0]) (cjumps c) (cconsts c) (csize c)
  | None => mkComp (cbuf c ++ [ILabel]) (clabels c ++ [mkXL (csize c) None 0]) (cjumps c) (cconsts c) (csize c)
  end.
(** X86C:3461-3495 sljit_emit_aligned_label; its read-only buffers are [KIns] of NOPs and [KLabel] (X86C:3497-3533). *)
Definition emit_aligned (c : comp) (al : Z) : comp :=
  if al <=? 0 then emit_label c
  else
    let mask := 2 ^ al - 1 in
    mkComp (cbuf c ++ [ILabel]) (clabels c ++ [mkXL (csize c + mask) (Some mask) 0]) (cjumps c) (cconsts c) (csize c + mask).
(** X86C:3536-3557 sljit_emit_jump, X86C:3570-3583 sljit_emit_ijump *)
Definition jump_max (k : jkind) : Z := match k with JCond _ => CJUMP_MAX | _ => JUMP_MAX end.
Definition emit_jump (c : comp) (k : jkind) (rewr : bool) (t : target) : comp :=
  mkComp (cbuf c ++ [IJump]) (clabels c) (cjumps c ++ [mkXJ (csize c) k rewr false false t PNo]) (cconsts c) (csize c + jump_max k).
(** X86C:5226-5260 sljit_emit_op_addr, up to the marker; set_mov_addr LIR:895-906 *)
Definition emit_mov_addr (c : comp) (reg : Z) (t : target) : comp :=
  mkComp (cbuf c ++ [IIns (load_imm64 win reg 0); IMov]) (clabels c) (cjumps c ++ [mkXJ (csize c + 10) JAlways false true (8 <=? reg_map win reg) t PNo])
    (cconsts c) (csize c + 10).
Definition emit (c : comp) (k : call) : comp :=
  match k with
  | KIns bs => mkComp (cbuf c ++ [IIns bs]) (clabels c) (cjumps c) (cconsts c) (csize c + zlen bs)
  | KLabel => emit_label c
  | KAlign al => emit_aligned c al
  | KJump k rewr t => emit_jump c k rewr t
  | KMov reg t => emit_mov_addr c reg t
  | KConst => mkComp (cbuf c ++ [IConst]) (clabels c) (cjumps c) (cconsts c ++ [csize c]) (csize c)
  end.
Definition emits (calls : list call) : comp := fold_left emit calls comp0.

(** ** reduce_code_size *)
(** SLJIT_MAX_ADDRESS, SLJIT_GET_NEXT_SIZE, SLJIT_GET_NEXT_ADDRESS (LIR:769-772) *)
Definition MAXA := 2 ^ 64 - 1.
Definition next_size (l : list xlabel) : Z := match l with l :: _ => lsize l | [] => MAXA end.
Definition next_addr (l : list xjump) : Z := match l with j :: _ => jaddr j | [] => MAXA end.
(** label->size *)
Definition lsz (labs : list xlabel) (n : nat) : Z := lsize (nth n labs (mkXL 0 None 0)).
(** X86C:837-905: what is added to size_reduce for a jump; [labs]: all labels, [sr]: size_reduce, jump->addr is reduced already. *)
Definition reduce_jump (labs : list xlabel) (sr : Z) (j : xjump) : Z :=
  if jmov j then
    match jt j with
    | TLabel n => let diff := lsz labs n - (jaddr j - 3) in if (diff <=? HMAX) && (HMIN <=? diff) then 3 else 0
    | TAddr a => if a <=? 0xffffffff then (if jhi j then 4 else 5) else 0
    end
  else if jrewr j then 0
  else
    match jt j with
    | TAddr a => if a <=? 0xffffffff then 4 else 0
    | TLabel n =>
      let diff := lsz labs n - jaddr j - (if jaddr j <? lsz labs n then sr else 0) in
      match jk j with
      | JAlways => if (diff <=? 0x7f + 2) && (-0x80 + 2 <=? diff) then JUMP_MAX - 2 else if (diff <=? HMAX + 5) && (HMIN + 5 <=? diff) then JUMP_MAX - 5 else 0
      | JCond _ => if (diff <=? 0x7f + 2) && (-0x80 + 2 <=? diff) then CJUMP_MAX - 2 else if (diff <=? HMAX + 6) && (HMIN + 6 <=? diff) then CJUMP_MAX - 6 else 0
      | JCall => if (diff <=? HMAX + 5) && (HMIN + 5 <=? diff) then JUMP_MAX - 5 else 0
      end
    end.
Definition set_lsize (l : xlabel) (v : Z) : xlabel := mkXL v (lmask l) (laddr l).
Definition set_jaddr (j : xjump) (v : Z) : xjump := mkXJ v (jk j) (jrewr j) (jmov j) (jhi j) (jt j) (jp j).
(** X86C:812-912: the labels and jumps done (ld, jd) and to do (lt, jt), size_reduce.  Each turn of the loop takes at least one label or jump. *)
Fixpoint reduce (fuel : nat) (ld lt : list xlabel) (jd jts : list xjump) (sr : Z) : option (list xlabel * list xjump * Z) :=
  match fuel with
  | O => None
  | S fuel =>
    let mn := Z.min (next_size lt) (next_addr jts) in
    if mn =? MAXA then Some (ld ++ lt, jd ++ jts, sr)
    else
      let '(ld, lt) := if mn =? next_size lt then match lt with l :: lt => (ld ++ [set_lsize l (lsize l - sr)], lt) | [] => (ld, lt) end else (ld, lt) in
      if negb (mn =? next_addr jts) then reduce fuel ld lt jd jts sr
      else
        match jts with
        | [] => None
        | j :: jts =>
          let j := set_jaddr j (jaddr j - sr) in
          reduce fuel ld lt (jd ++ [j]) jts (sr + reduce_jump (ld ++ lt) sr j)
        end
  end.
(** The compiler after reduce_code_size (X86C:799-913). *)
Definition reduce_code_size (c : comp) : option comp :=
  match reduce (S (length (clabels c) + length (cjumps c))) [] (clabels c) [] (cjumps c) 0 with
  | Some (ls, js, sr) => Some (mkComp (cbuf c) ls js (cconsts c) (csize c - sr))
  | None => None
  end.

(** ** sljit_generate_code *)
(** The allocated memory, and the difference of its executable address. *)
Variables code eo : Z.
(** Subtraction of addresses, as a signed number. *)
Definition sdiff (a b : Z) : Z := sext 64 (a - b).

(** X64:360-396 detect_far_jump_type: the bytes written at [pos], and the changed jump. *)
Definition far_jump (j : xjump) (pos : Z) : list Z * xjump :=
  let short := negb (jrewr j) && match jt j with TAddr a => a <=? 0xffffffff | TLabel _ => false end in
  let inv := match jk j with JCond t => [u8 (jump_code (Z.lxor t 1) - 0x10); if short then 6 + 3 else 10 + 3] | _ => [] end in
  let mov := [if short then REX_B else Z.lor REX_W REX_B; Z.lor 0xb8 (reg_lmap win TMP_REG2)] in
  let imm := match jt j with TAddr a => if short then lebytes 4 a else lebytes 8 a | TLabel _ => lebytes 8 0 end in
  let jmp := [REX_B; 0xff; u8 (Z.lor (Z.lor 0xc0 (match jk j with JCall => 0x10 | _ => 0x20 end)) (reg_lmap win TMP_REG2))] in
  (inv ++ mov ++ imm ++ jmp,
   mkXJ (code + pos + zlen inv + 2) (jk j) (jrewr j) (jmov j) (jhi j) (jt j) (match jt j with TLabel _ => PMD | TAddr _ => jp j end)).
(** X86C:678-727 detect_near_jump_type; [labs]: the labels reached already have their final position. *)
Definition near_jump (labs : list xlabel) (j : xjump) (pos : Z) : list Z * xjump :=
  let '(label_addr, jump_addr) :=
    match jt j with
    | TLabel n => (code + lsz labs n, if jaddr j <? lsz labs n then code + jaddr j else code + pos)
    | TAddr a => (a - eo, code + pos)
    end in
  if (HMAX <? sdiff label_addr (jump_addr + 6)) || (sdiff label_addr (jump_addr + 5) <? HMIN) then far_jump j pos
  else
    let short := (-0x80 <=? sdiff label_addr (jump_addr + 2)) && (sdiff label_addr (jump_addr + 2) <=? 0x7f) in
    let short := match jk j with JCall => false | _ => short end in
    let ins :=
      match jk j with
      | JAlways => [if short then 0xeb else 0xe9]
      | JCall => [0xe8]
      | JCond t => if short then [u8 (jump_code t - 0x10)] else [0x0f; jump_code t]
      end in
    (ins ++ (if short then [0] else lebytes 4 0),
     mkXJ (code + pos + zlen ins) (jk j) (jrewr j) (jmov j) (jhi j) (jt j) (if short then PMB else PMW)).
Definition gen_jump (labs : list xlabel) (j : xjump) (pos : Z) : list Z * xjump := if jrewr j then far_jump j pos else near_jump labs j pos.

(** Memory of the code: byte lists. *)
Definition getb (l : list Z) (i : Z) : Z := nth (Z.to_nat i) l 0.
Definition putb (l : list Z) (i : Z) (bs : list Z) : list Z := firstn (Z.to_nat i) l ++ bs ++ skipn (Z.to_nat i + length bs) l.
(** X64:398-448 generate_mov_addr_code: the code [l], which ends with the instruction, after it, and PATCH_MW, PATCH_MD. *)
Definition mov_addr_code (labs : list xlabel) (j : xjump) (l : list Z) : list Z * patch :=
  let pos := zlen l in
  let addr := match jt j with TAddr a => a | TLabel n => code + eo + lsz labs n end in
  if 0xffffffff <? addr then
    let diff := sdiff addr (code + pos + eo) in
    if (diff <=? HMAX) && (HMIN <=? diff) then
      let p := pos - 3 in
      let b0 := getb l (p - 7) in
      let b1 := getb l (p - 6) in
      (firstn (Z.to_nat p) (putb l (p - 7) [u8 (Z.lor REX_W (Z.shiftl (Z.land b0 1) 2)); 0x8d; u8 (Z.lor (Z.shiftl (Z.land b1 7) 3) 5)]), PMW)
    else (l, PMD)
  else
    let p := pos - 10 in
    if negb (Z.land (getb l p) 7 =? 0) then (firstn (Z.to_nat (p + 6)) (putb l p [u8 (Z.land (getb l p) (Z.lnot 8))]), PNo)
    else (firstn (Z.to_nat (p + 5)) (putb l p [getb l (p + 1)]), PNo).

(** X86C:783-797 process_extended_label: NOPs up to an aligned address. *)
Definition align_pad (mask pos : Z) : list Z := repeat 0x90 (Z.to_nat (Z.land (code + pos + mask) (Z.lnot mask) - (code + pos))).
(** The loop over the buffer (X86C:953-1002): the code written, the furthest position written to, labels, jumps, constants. *)
Record gst := mkG { gb : list Z; gtop : Z; gld : list xlabel; glt : list xlabel; gjd : list xjump; gjt : list xjump; gc : list Z }.
Definition gen_item (g : gst) (i : item) : option gst :=
  let pos := zlen (gb g) in
  match i with
  | IIns bs => Some (mkG (gb g ++ bs) (Z.max (gtop g) (pos + zlen bs)) (gld g) (glt g) (gjd g) (gjt g) (gc g))
  | ILabel =>
    match glt g with
    | [] => None
    | l :: lt =>
      let b := gb g ++ match lmask l with Some m => align_pad m pos | None => [] end in
      Some (mkG b (Z.max (gtop g) (zlen b)) (gld g ++ [mkXL (zlen b) (lmask l) (code + zlen b + eo)]) lt (gjd g) (gjt g) (gc g))
    end
  | IJump =>
    match gjt g with
    | [] => None
    | j :: jts =>
      let '(bs, j) := gen_jump (gld g ++ glt g) j pos in
      Some (mkG (gb g ++ bs) (Z.max (gtop g) (pos + zlen bs)) (gld g) (glt g) (gjd g ++ [j]) jts (gc g))
    end
  | IMov =>
    match gjt g with
    | [] => None
    | j :: jts =>
      let '(b, p) := mov_addr_code (gld g ++ glt g) j (gb g) in
      Some (mkG b (gtop g) (gld g) (glt g) (gjd g ++ [mkXJ (code + zlen b) (jk j) (jrewr j) (jmov j) (jhi j) (jt j) p]) jts (gc g))
    end
  | IConst => Some (mkG (gb g) (gtop g) (gld g) (glt g) (gjd g) (gjt g) (gc g ++ [code + pos]))
  end.
Fixpoint gen_items (g : gst) (l : list item) : option gst :=
  match l with [] => Some g | i :: l => match gen_item g i with Some g => gen_items g l | None => None end end.

(** X86C:729-781 generate_jump_or_mov_addr *)
Definition patch_jump (labs : list xlabel) (b : list Z) (j : xjump) : list Z :=
  let addr := match jt j with TAddr a => a | TLabel n => laddr (nth n labs (mkXL 0 None 0)) end in
  let at_ := jaddr j - code in
  if jmov j then
    match jp j with
    | PMD => putb b (at_ - 8) (lebytes 8 addr)
    | PMW => putb b (at_ - 4) (lebytes 4 (addr - (jaddr j + eo)))
    | _ => putb b (at_ - 4) (lebytes 4 addr)
    end
  else
    match jp j with
    | PMD => putb b at_ (lebytes 8 addr)
    | PMB => putb b at_ (lebytes 1 (addr - (jaddr j + eo) - 1))
    | PMW => putb b at_ (lebytes 4 (addr - (jaddr j + eo) - 4))
    | PNo => b
    end.

(** The result of sljit_generate_code (X86C:915-1023): the code, its labels, jumps and constants, the size of the allocated memory and the furthest position
    written to. *)
Record gen := mkGen { rb : list Z; rlabels : list xlabel; rjumps : list xjump; rconsts : list Z; ralloc : Z; rtop : Z }.
(** X86C:5275-5286 sljit_set_jump_addr, with the address of the jump (sljit_get_jump_addr, sljitLir.h:2403) of number [fst x]. *)
Definition set_jump (g : gen) (b : list Z) (x : nat * Z) : list Z :=
  putb b (jaddr (nth (fst x) (rjumps g) (mkXJ 0 JAlways false false false (TAddr 0) PNo)) - code) (lebytes 8 (snd x)).
Definition generate (c : comp) : option gen :=
  match reduce_code_size c with
  | None => None
  | Some c =>
    match gen_items (mkG [] 0 [] (clabels c) [] (cjumps c) []) (cbuf c) with
    | Some g => Some (mkGen (fold_left (patch_jump (gld g ++ glt g)) (gjd g) (gb g)) (gld g) (gjd g) (gc g) (csize c) (gtop g))
    | None => None
    end
  end.
End Link.
