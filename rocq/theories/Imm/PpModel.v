(** Model of the immediates, constants, jumps and addresses of the PowerPC64 backend
    (sljit_src/sljitNativePPC_64.c, "P64" below, and sljit_src/sljitNativePPC_common.c, "PC"). Instruction
    words are integers; the value of a sljit_sw is in -2^63..2^63-1, of a sljit_uw in 0..2^64-1. [elf] says
    whether SLJIT_PASS_ENTRY_ADDR_TO_CALL is set (PC:40-47, the ELFv2 calling convention). *)
Require Import ZArith List Bool Lia.
From Verif Require Import Rv.RvLib.
Import ListNotations.
Open Scope Z_scope.

Notation "a .| b" := (Z.lor a b) (at level 50, left associativity).
Notation "a .& b" := (Z.land a b) (at level 40, left associativity).

(** PC:107-109 reg_map; the number of registers is 23, register 24 is the stack pointer. *)
Definition reg_map_list : list Z :=
  [0; 3; 4; 5; 6; 7; 8; 14; 15; 16; 17; 18; 19; 20; 21; 22; 23; 24; 25; 26; 27; 28; 29; 30; 1; 9; 10; 31; 12].
Definition reg_map (r : Z) : Z := nth (Z.to_nat r) reg_map_list 0.
(** PC:94-102 TMP_REG1, TMP_REG2, TMP_ZERO, TMP_CALL_REG. *)
Definition TMP_REG1 : Z := 25.
Definition TMP_REG2 : Z := 26.
Definition TMP_ZERO : Z := 27.
Definition TMP_CALL_REG (elf : bool) : Z := if elf then 28 else TMP_REG1.
(** The cast to sljit_ins. *)
Definition u32 (x : Z) : Z := x mod 2 ^ 32.
(** PC:118-138 D, S, A, B, IMM, HI, LO; [Dn], [An] and [Bn] take a processor register. *)
Definition Dn (r : Z) : Z := Z.shiftl r 21.
Definition An (r : Z) : Z := Z.shiftl r 16.
Definition Bn (r : Z) : Z := Z.shiftl r 11.
Definition D_ (r : Z) : Z := Dn (reg_map r).
Definition A_ (r : Z) : Z := An (reg_map r).
Definition IMM (x : Z) : Z := u32 x .& 0xffff.
Definition HI (x : Z) : Z := Z.shiftl x 26.
Definition LO (x : Z) : Z := Z.shiftl x 1.
(** PC:140-245: the words of the instructions. *)
Definition ADDE : Z := HI 31 .| LO 138.
Definition ADDI : Z := HI 14.
Definition ADDIS : Z := HI 15.
Definition Bx : Z := HI 18.
Definition BCx : Z := HI 16.
Definition BCCTR : Z := HI 19 .| LO 528 .| Z.shiftl 3 11.
Definition MTCTR : Z := HI 31 .| LO 467 .| 0x90000.
Definition OR : Z := HI 31 .| LO 444.
Definition ORI : Z := HI 24.
Definition ORIS : Z := HI 25.
Definition RLDICR : Z := HI 30 .| LO (Z.shiftl 1 1).
(** PC:254-256, 259 RLDI_SH, RLDI_MB, RLDI_ME, SLDI. *)
Definition RLDI_SH (x : Z) : Z := Z.shiftl (x .& 0x1f) 11 .| Z.shiftr (x .& 0x20) 4.
Definition RLDI_ME (x : Z) : Z := Z.shiftl (x .& 0x1f) 6 .| (x .& 0x20).
Definition SLDI (n : Z) : Z := RLDICR .| RLDI_SH n .| RLDI_ME (63 - n).

(** P64:30-31 ASM_SLJIT_CLZ, of a value which is not zero. *)
Definition clz (x : Z) : Z := 63 - Z.log2 x.
(** P64:38-40 PUSH_SLDI_NEG; the register is a processor register. *)
Definition SLDI_NEG (d shift : Z) : Z := RLDICR .| Dn d .| An d .| RLDI_SH (63 - shift) .| RLDI_ME shift.
(** P64:42-118 load_immediate; the destination is a processor register. *)
Definition load_immediate (d imm : Z) : list Z :=
  let addi v := ADDI .| Dn d .| An 0 .| v in
  let addis v := ADDIS .| Dn d .| An 0 .| v in
  let ori v := ORI .| Dn d .| An d .| v in
  let oris v := ORIS .| Dn d .| An d .| v in
  if (imm <=? 0x7fff) && (-0x8000 <=? imm) then [addi (IMM imm)]
  else if Z.shiftr (wrap imm) 16 =? 0 then [ORI .| D_ TMP_ZERO .| An d .| IMM imm]
  else if (imm <=? 0x7fffffff) && (-0x80000000 <=? imm) then
    [addis (IMM (Z.shiftr imm 16))] ++ (if imm .& 0xffff =? 0 then [] else [ori (IMM imm)])
  else if Z.shiftr (wrap imm) 32 =? 0 then
    [ORIS .| D_ TMP_ZERO .| An d .| IMM (Z.shiftr imm 16)] ++ (if imm .& 0xffff =? 0 then [] else [ori (IMM imm)])
  else
    let shift := clz (if 0 <=? imm then imm else - imm - 1) - 1 in
    let tmp := wrap (Z.shiftl (wrap imm) shift) in
    if tmp .& 0xffffffffffff =? 0 then [addi (u32 (Z.shiftr tmp 48)); SLDI_NEG d (shift + 15)]
    else if tmp .& 0xffffffff =? 0 then [addis (u32 (Z.shiftr tmp 48)); ori (IMM (Z.shiftr tmp 32)); SLDI_NEG d (shift + 31)]
    else
      let shift := shift + 15 in
      let tmp2 := wrap imm .& (Z.shiftl 1 (63 - shift) - 1) in
      if tmp2 <=? 0xffff then [addi (u32 (Z.shiftr tmp 48)); SLDI_NEG d shift; ori (u32 tmp2)]
      else if tmp2 <=? 0xffffffff then
        [addi (IMM (Z.shiftr tmp 48)); SLDI_NEG d shift; oris (u32 (Z.shiftr tmp2 16))] ++ (if imm .& 0xffff =? 0 then [] else [ori (IMM tmp2)])
      else
        let shift2 := clz tmp2 in
        let tmp2 := wrap (Z.shiftl tmp2 shift2) in
        if tmp2 .& 0xffffffffffff =? 0 then
          let shift2 := shift2 + 15 in
          [addi (u32 (Z.shiftr tmp 48)); SLDI_NEG d (shift + (63 - shift2)); ori (u32 (Z.shiftr tmp2 48)); SLDI_NEG d shift2]
        else
          [addis (u32 (Z.shiftr (wrap imm) 48)); ori (IMM (Z.shiftr imm 32)); SLDI_NEG d 31; oris (IMM (Z.shiftr imm 16)); ori (IMM imm)].

(** P64:562-569 emit_const. *)
Definition emit_const (dst v : Z) : list Z :=
  [ADDIS .| D_ dst .| An 0 .| IMM (Z.shiftr v 48); ORI .| D_ dst .| A_ dst .| IMM (Z.shiftr v 32); SLDI 32 .| D_ dst .| A_ dst;
   ORIS .| D_ dst .| A_ dst .| IMM (Z.shiftr v 16); ORI .| D_ dst .| A_ dst .| IMM v].

(** The operations of sljit_emit_const: SLJIT_MOV, SLJIT_MOV32 or SLJIT_MOV_S32, SLJIT_MOV_U8. *)
Inductive cop := CMov | CMov32 | CMovU8.
(** PC:3314-3317 and PC:3395-3398: the operand of SLJIT_MOV_U8. *)
Definition u8val (v : Z) : Z := if v .& 0x100 =? 0 then v .& 0xff else v .| 0xff00.
(** PC:3294-3341 sljit_emit_const, the words which compute the constant into the register [dst_r]
    (the destination, or TMP_REG2 when the destination is in the memory; the store is not modelled). *)
Definition sljit_emit_const (op : cop) (dst_r v : Z) : list Z :=
  match op with
  | CMovU8 => [ADDI .| D_ dst_r .| An 0 .| IMM (u8val v)]
  | CMov32 => [ADDIS .| D_ dst_r .| An 0 .| IMM (Z.shiftr v 16); ORI .| D_ dst_r .| A_ dst_r .| IMM v]
  | CMov => emit_const dst_r v
  end.

(** inst[k] = (inst[k] & 0xffff0000) | IMM(v). *)
Definition put (ws : list Z) (k : nat) (v : Z) : list Z :=
  firstn k ws ++ match skipn k ws with [] => [] | w :: tl => ((w .& 0xffff0000) .| IMM v) :: tl end.
(** P64:706-719 sljit_set_jump_addr on the words at the address. *)
Definition sljit_set_jump_addr (ws : list Z) (t : Z) : list Z :=
  put (put (put (put ws 0 (Z.shiftr t 48)) 1 (Z.shiftr t 32)) 3 (Z.shiftr t 16)) 4 t.
(** PC:3386-3426 sljit_set_const on the words at the address. *)
Definition sljit_set_const (op : cop) (ws : list Z) (v : Z) : list Z :=
  match op with
  | CMovU8 => put ws 0 (u8val v)
  | CMov32 => put (put ws 0 (Z.shiftr v 16)) 1 v
  | CMov => sljit_set_jump_addr ws v
  end.

(** ** Jumps *)
(** The conditions of sljit_emit_jump. Those which are the same for get_bo_bi_flags are one constructor: CEqual also SLJIT_ATOMIC_STORED,
    CLess also SLJIT_SIG_LESS, CFLess also SLJIT_ORDERED_LESS and SLJIT_UNORDERED_OR_LESS, and so on. *)
Inductive cond := CEqual | CNotEqual | CLess | CGreaterEqual | CGreater | CLessEqual | COverflow | CNotOverflow
| CFLess | CFGreaterEqual | CFGreater | CFLessEqual | CFEqual | CFNotEqual | CUnordered | COrdered | CCarry | CNotCarry.
Definition bobi (bo bi : Z) : Z := Z.shiftl bo 21 .| Z.shiftl bi 16.
(** PC:2525-2608 get_bo_bi_flags; [sub] is SLJIT_CURRENT_FLAGS_SUB, None an unconditional jump or a call. *)
Definition get_bo_bi_flags (sub : bool) (c : option cond) : Z :=
  match c with
  | Some CNotCarry => if sub then bobi 4 2 else bobi 12 2
  | Some CCarry => if sub then bobi 12 2 else bobi 4 2
  | Some CEqual => bobi 12 2
  | Some CNotEqual => bobi 4 2
  | Some CLess => bobi 12 0
  | Some CGreaterEqual => bobi 4 0
  | Some CGreater => bobi 12 1
  | Some CLessEqual => bobi 4 1
  | Some COverflow => bobi 12 3
  | Some CNotOverflow => bobi 4 3
  | Some CFLess => bobi 12 (4 + 0)
  | Some CFGreaterEqual => bobi 4 (4 + 0)
  | Some CFGreater => bobi 12 (4 + 1)
  | Some CFLessEqual => bobi 4 (4 + 1)
  | Some CFEqual => bobi 12 (4 + 2)
  | Some CFNotEqual => bobi 4 (4 + 2)
  | Some CUnordered => bobi 12 (4 + 3)
  | Some COrdered => bobi 4 (4 + 3)
  | None => Z.shiftl 20 21
  end.
Definition is_carry (c : option cond) : bool := match c with Some CCarry => true | Some CNotCarry => true | _ => false end.
Definition is_cond (c : option cond) : bool := match c with None => false | _ => true end.
(** PC:2626-2627, 2638-2639: the words of sljit_emit_jump: the addition before a jump on the carry, and the jump; [lk] says whether the type is
    at least SLJIT_FAST_CALL. PC:2688-2689: sljit_emit_ijump to a fixed address. *)
Definition carry_words (c : option cond) : list Z :=
  if is_carry c then [ADDE .| 1 .| D_ TMP_REG2 .| A_ TMP_ZERO .| Bn (reg_map TMP_ZERO)] else [].
Definition jump_inst (sub : bool) (c : option cond) (lk : bool) : Z := BCCTR .| get_bo_bi_flags sub c .| (if lk then 1 else 0).

(** The forms of a jump: one branch; a branch over a branch (both relative or absolute, PATCH_B and PATCH_ABS_B); PATCH_ABS32, PATCH_ABS48, the
    full form. *)
Inductive form := FB (ab : bool) | FBB (ab : bool) | FAbs32 | FAbs48 | FFull.
(** PC:383-396 (keep_address). *)
Definition far_form (t : Z) : form := if t <? 0x80000000 then FAbs32 else if t <? 0x800000000000 then FAbs48 else FFull.
(** PC:318-410 detect_jump_type: [rw] SLJIT_REWRITABLE_JUMP, [iscall] IS_CALL, [cnd] IS_COND, [diff] the distance in bytes, [t] the target (of a
    label: its estimated address). *)
Definition detect_jump_type (rw iscall cnd : bool) (diff t : Z) : form :=
  if rw then FFull
  else if iscall then far_form t
  else if cnd then
    if (diff <=? 0x7fff) && (-0x8000 <=? diff) then FB false
    else if t <=? 0xffff then FB true
    else
      let diff := diff - 4 in
      if (diff <=? 0x01ffffff) && (-0x02000000 <=? diff) then FBB false else if t <=? 0x01ffffff then FBB true else far_form t
  else if (diff <=? 0x01ffffff) && (-0x02000000 <=? diff) then FB false else if t <=? 0x01ffffff then FB true else far_form t.

(** PC:475-509: the words which load the address. *)
Definition load_addr (f : form) (reg t : Z) : list Z :=
  match f with
  | FAbs32 => [ADDIS .| D_ reg .| An 0 .| IMM (Z.shiftr t 16); ORI .| D_ reg .| A_ reg .| IMM t]
  | FAbs48 => [ADDIS .| D_ reg .| An 0 .| IMM (Z.shiftr t 32); ORI .| D_ reg .| A_ reg .| IMM (Z.shiftr t 16);
               SLDI 16 .| D_ reg .| A_ reg; ORI .| D_ reg .| A_ reg .| IMM t]
  | _ => [ADDIS .| D_ reg .| An 0 .| IMM (Z.shiftr t 48); ORI .| D_ reg .| A_ reg .| IMM (Z.shiftr t 32);
          SLDI 32 .| D_ reg .| A_ reg; ORIS .| D_ reg .| A_ reg .| IMM (Z.shiftr t 16); ORI .| D_ reg .| A_ reg .| IMM t]
  end.

(** The words of a jump after detect_jump_type (PC:371-409) and generate_jump_or_mov_addr (PC:445-509): [w] is the word of sljit_emit_jump,
    [cnd] IS_COND, [p] the (execution) address of the first word. *)
Definition jump_words (elf : bool) (f : form) (cnd : bool) (w p t : Z) : list Z :=
  let call_reg := TMP_CALL_REG elf in
  let b (ab : bool) p w := Bx .| (u32 (if ab then t else t - p) .& 0x03fffffc) .| (if ab then 2 else 0) .| (w .& 1) in
  match f with
  | FB ab =>
      if cnd then [BCx .| (u32 (if ab then t else t - p) .& 0xfffc) .| (if ab then 2 else 0) .| (w .& 0x03ff0001)] else [b ab p w]
  | FBB ab => [BCx .| Z.shiftl 2 2 .| (Z.lxor w (Z.shiftl 8 21) .& 0x03ff0001); b ab (p + 4) Bx]
  | _ => load_addr f call_reg t ++ [MTCTR .| D_ call_reg; w]
  end.

(** A jump to a fixed target: the form and the words; [p] is the execution address of the first word. The type is at least SLJIT_CALL
    when [call], at least SLJIT_FAST_CALL when [lk]; IS_CALL is only set with [elf] (PC:2633-2636, 2683-2686). *)
Definition link_form (elf rw call : bool) (c : option cond) (p t : Z) : form :=
  detect_jump_type rw (elf && call) (is_cond c) (sgn (wrap (t - p))) t.
Definition link_jump (elf rw sub call lk : bool) (c : option cond) (p t : Z) : list Z :=
  jump_words elf (link_form elf rw call c p t) (is_cond c) (jump_inst sub c lk) p t.
(** The words kept for a jump: PC:552-583 in reduce_code_size (each kept length is one more than total_size). The first is for a fixed target, the
    second for a label, at the distance [diff] in instructions. *)
Definition reserved (rw : bool) (t : Z) : Z :=
  if rw then 7 else if t <=? 0x01ffffff then 1 else if t <? 0x80000000 then 4 else if t <? 0x800000000000 then 6 else 7.
Definition reserved_label (rw cnd : bool) (diff : Z) : Z :=
  let near d := (d <=? 0x01ffffff / 4) && (-0x02000000 / 4 <=? d) in
  if rw then 7
  else if cnd then (if (diff <=? 0x7fff / 4) && (-0x8000 / 4 <=? diff) then 1 else if near (diff - 1) then 2 else 7)
  else if near diff then 1 else 7.

(** PC:414-440 mov_addr_get_length, PC:475-509: the words of sljit_emit_op_addr for a fixed address, and the words kept for them (PC:586-599). *)
Definition link_addr (reg t : Z) : list Z := load_addr (far_form t) reg t.
Definition reserved_addr (t : Z) : Z := if t <? 0x80000000 then 2 else if t <? 0x800000000000 then 4 else 5.

(** PC:2696-2712 sljit_emit_ijump to the address in a register. *)
Definition ijump_reg (elf call lk : bool) (src : Z) : list Z :=
  let move := elf && call && negb (src =? TMP_CALL_REG elf) in
  let r := if move then TMP_CALL_REG elf else src in
  (if move then [OR .| D_ src .| A_ (TMP_CALL_REG elf) .| Bn (reg_map src)] else []) ++
  [MTCTR .| D_ r; BCCTR .| Z.shiftl 20 21 .| (if lk then 1 else 0)].
