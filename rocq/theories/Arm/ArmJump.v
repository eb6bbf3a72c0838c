(** ARM64 backend: constants, jumps and addresses (sljitNativeARM_64.c, A64 below). *)
Require Import ZArith List Bool Lia.
From Verif Require Import Rv.RvLib Arm.ArmEnc.
Import ListNotations.
Open Scope Z_scope.

(** A64:74-92, 81 *)
Definition ADR := 0x10000000.
Definition ADRP := 0x90000000.
Definition B := 0x14000000.
Definition B_CC := 0x54000000.
Definition BL := 0x94000000.
Definition BLR := 0xd63f0000.
Definition BR := 0xd61f0000.
Definition CBZ := 0xb4000000.
Definition CCMPI := 0xfa400800.
Definition CSINC := 0x9a800400.

(** ** Constants *)
(** A64:201-207 emit_imm64_const; [imm] is a word. *)
Definition emit_imm64_const (dst imm : Z) : list Z :=
  [MOVZ .| RD dst .| Z.shiftl (imm .& 0xffff) 5;
   MOVK .| RD dst .| Z.shiftl (u32 (Z.shiftr imm 16) .& 0xffff) 5 .| Z.shiftl 1 21;
   MOVK .| RD dst .| Z.shiftl (u32 (Z.shiftr imm 32) .& 0xffff) 5 .| Z.shiftl 2 21;
   MOVK .| RD dst .| Z.shiftl (u32 (Z.shiftr imm 48)) 5 .| Z.shiftl 3 21].
(** The operations of sljit_emit_const. *)
Inductive cop := CMov | CMov32 | CMovS32 | CMovU8.
(** A64:3576-3577 SLJIT_EMIT_CONST_U8 *)
Definition const_u8 (c : Z) : Z :=
  if negb (c .& 0x100 =? 0) then MOVN .| Z.shiftl (Z.lnot c .& 0xff) 5 else MOVZ .| Z.shiftl (c .& 0xff) 5.
(** A64:3578-3579 SLJIT_EMIT_CONST_S32 *)
Definition const_s32 (c : Z) : Z :=
  if c <? 0 then MOVN .| Z.shiftl (Z.lnot c .& 0xffff) 5 else MOVZ .| Z.shiftl (c .& 0xffff) 5.
(** The conversion of the value (A64:3609-3613, 3703-3706). *)
Definition conv32 (op : cop) (v : Z) : Z := match op with CMov32 => u32 v | _ => s32 v end.
(** A64:3581-3625 sljit_emit_const to a register. *)
Definition sljit_emit_const (op : cop) (dst v : Z) : list Z :=
  match op with
  | CMovU8 => [const_u8 v .| RD dst]
  | CMov => emit_imm64_const dst (wrap v)
  | _ => let v := conv32 op v in
      [const_s32 v .| RD dst; MOVK .| Z.shiftl 1 21 .| (Z.shiftr v 11 .& 0x1fffe0) .| RD dst]
  end.
(** A64:3666-3684 sljit_set_jump_addr on the words at the address. *)
Definition sljit_set_jump_addr (ws : list Z) (t : Z) : list Z :=
  let dst := nth 0 ws 0 .& 0x1f in
  [MOVZ .| dst .| Z.shiftl (u32 t .& 0xffff) 5;
   MOVK .| dst .| Z.shiftl (u32 (Z.shiftr t 16) .& 0xffff) 5 .| Z.shiftl 1 21;
   MOVK .| dst .| Z.shiftl (u32 (Z.shiftr t 32) .& 0xffff) 5 .| Z.shiftl 2 21;
   MOVK .| dst .| Z.shiftl (u32 (Z.shiftr t 48)) 5 .| Z.shiftl 3 21] ++ skipn 4 ws.
(** A64:3686-3724 sljit_set_const on the words at the address. *)
Definition sljit_set_const (op : cop) (ws : list Z) (v : Z) : list Z :=
  match op with
  | CMovU8 => (const_u8 v .| (nth 0 ws 0 .& 0x1f)) :: skipn 1 ws
  | CMov => sljit_set_jump_addr ws (wrap v)
  | _ => let v := conv32 op v in
      [const_s32 v .| (nth 0 ws 0 .& 0x1f); MOVK .| Z.shiftl 1 21 .| (Z.shiftr v 11 .& 0x1fffe0) .| (nth 1 ws 0 .& 0x1f)] ++ skipn 2 ws
  end.

(** ** Jumps *)
(** The conditions of sljit_emit_jump (sljitLir.h:1719-1806). *)
Inductive ctype := TEqual | TNotEqual | TLess | TGreaterEqual | TGreater | TLessEqual | TSigLess | TSigGreaterEqual | TSigGreater | TSigLessEqual
| TOverflow | TNotOverflow | TCarry | TNotCarry | TAtomicStored | TAtomicNotStored
| TFEqual | TFNotEqual | TFLess | TFGreaterEqual | TFGreater | TFLessEqual | TUnordered | TOrdered
| TOrderedEqual | TUnorderedOrNotEqual | TOrderedLess | TUnorderedOrGreaterEqual | TOrderedGreater | TUnorderedOrLessEqual
| TUnorderedOrEqual | TOrderedNotEqual | TUnorderedOrLess | TOrderedGreaterEqual | TUnorderedOrGreater | TOrderedLessEqual.
(** What status_flags_state holds: the flags are those of an addition, a subtraction, or of another operation (A64:897, 904, 1090-1102). *)
Inductive fstate := SAdd | SSub | SOther.
(** A64:2292-2379 get_cc: the condition of the branch which skips the jump. *)
Definition get_cc (f : fstate) (ty : ctype) : Z :=
  match ty with
  | TEqual | TAtomicStored | TFEqual | TOrderedEqual | TUnorderedOrEqual => 0x1
  | TNotEqual | TAtomicNotStored | TFNotEqual | TUnorderedOrNotEqual | TOrderedNotEqual => 0x0
  | TCarry => match f with SAdd => 0x3 | _ => 0x2 end
  | TLess => 0x2
  | TNotCarry => match f with SAdd => 0x2 | _ => 0x3 end
  | TGreaterEqual => 0x3
  | TGreater | TUnorderedOrGreater => 0x9
  | TLessEqual | TFLessEqual | TOrderedLessEqual => 0x8
  | TSigLess | TUnorderedOrLess => 0xa
  | TSigGreaterEqual | TFGreaterEqual | TOrderedGreaterEqual => 0xb
  | TSigGreater | TFGreater | TOrderedGreater => 0xd
  | TSigLessEqual | TUnorderedOrLessEqual => 0xc
  | TOverflow => match f with SOther => 0x0 | _ => 0x7 end
  | TUnordered => 0x7
  | TNotOverflow => match f with SOther => 0x1 | _ => 0x6 end
  | TOrdered => 0x6
  | TFLess | TOrderedLess => 0x5
  | TUnorderedOrGreaterEqual => 0x4
  end.

(** A jump with a condition: on the flags (sljit_emit_jump), or on the comparison of a register with zero (emit_cmp_to0). *)
Inductive jcond := JFlag (f : fstate) (ty : ctype) | JZero (eq w32 : bool) (src : Z).
Definition is_cbz (c : jcond) : bool := match c with JFlag _ _ => false | _ => true end.
Definition is_cond (c : option jcond) : bool := match c with None => false | _ => true end.
(** A64:2462-2466, 2521-2524: the branch in front of the jump. *)
Definition skip_word (c : jcond) : Z :=
  match c with
  | JFlag f ty => B_CC .| Z.shiftl 6 5 .| get_cc f ty
  | JZero eq w32 src =>
      let inv := (if w32 then W_OP else 0) .| (if eq then Z.shiftl 1 24 else 0) in
      Z.lxor CBZ inv .| Z.shiftl 6 5 .| RD src
  end.
(** A64:2470, 2525, 2556 *)
Definition br_word (lk : bool) : Z := (if lk then BLR else BR) .| RN TMP_REG2.

(** The forms: PATCH_COND, PATCH_B, no flag, PATCH_B32, PATCH_ABS48, PATCH_ABS64 (sljitLir.c:229-240). *)
Inductive form := FCond | FB | FAbs32 | FB32 | FAbs48 | FAbs64.
(** A64:210-279 detect_jump_type. [p] is the execution address of the word after the branch in front, [t] the address of the target. *)
Definition detect_jump_type (rw cnd : bool) (p t : Z) : form :=
  let diff := sgn (wrap (t - p)) in
  if rw then FAbs64
  else if cnd && ((diff + 4 <=? 0xfffff) && (-0x100000 <=? diff + 4)) then FCond
  else if (diff <=? 0x7ffffff) && (-0x8000000 <=? diff) then FB
  else if t <? 0x100000000 then FAbs32
  else if (diff <=? 0xfffff000) && (-0x100000000 <=? diff) then FB32
  else if t <? 0x1000000000000 then FAbs48
  else FAbs64.
(** A64:376-386: the address in the register number [dst], by two, three or four words. *)
Definition abs_words (n : nat) (dst t : Z) : list Z :=
  firstn n [MOVZ .| Z.shiftl (u32 t .& 0xffff) 5 .| dst;
    MOVK .| Z.shiftl (u32 (Z.shiftr t 16) .& 0xffff) 5 .| Z.shiftl 1 21 .| dst;
    MOVK .| Z.shiftl (u32 (Z.shiftr t 32) .& 0xffff) 5 .| Z.shiftl 2 21 .| dst;
    MOVK .| Z.shiftl (u32 (Z.shiftr t 48)) 5 .| Z.shiftl 3 21 .| dst].
(** A64:350-356, 367-373: ADRP and ADD; [p] is the execution address of the first word. *)
Definition page_words (dst p t : Z) : list Z :=
  let addr := sgn (wrap (t - Z.ldiff p 0xfff)) in
  [ADRP .| Z.shiftl (u32 (Z.shiftr addr 12) .& 0x3) 29 .| Z.shiftl (u32 (Z.shiftr addr 14) .& 0x7ffff) 5 .| dst;
   ADDI .| dst .| Z.shiftl dst 5 .| Z.shiftl (addr .& 0xfff) 10].
(** A64:246, 253, 260, 268: the branch in front with a shorter distance. *)
Definition skip_words (c : option jcond) (k : Z) : list Z :=
  match c with None => [] | Some c => [skip_word c - Z.shiftl k 5] end.
(** A64:328-386 generate_jump_or_mov_addr and the changes of detect_jump_type: the words of a jump at the execution address [p] of its first word
    (the branch in front if there is a condition). *)
Definition jump_words (f : form) (c : option jcond) (lk : bool) (p t : Z) : list Z :=
  let q := if is_cond c then p + 4 else p in
  let br := br_word lk in
  let dst := Z.shiftr br 5 .& 0x1f in
  match f with
  | FCond =>
      match c with
      | None => []
      | Some c =>
          let addr := Z.shiftr (sgn (wrap (t - p))) 2 in
          [(Z.lxor (skip_word c) (if is_cbz c then Z.shiftl 1 24 else 1) .& 0xff00001f) .| Z.shiftl (addr .& 0x7ffff) 5]
      end
  | FB => let addr := Z.shiftr (sgn (wrap (t - q))) 2 in skip_words c 4 ++ [(if lk then BL else B) .| (addr .& 0x3ffffff)]
  | FAbs32 => skip_words c 2 ++ abs_words 2 dst t ++ [br]
  | FB32 => skip_words c 2 ++ page_words dst q t ++ [br]
  | FAbs48 => skip_words c 1 ++ abs_words 3 dst t ++ [br]
  | FAbs64 => skip_words c 0 ++ abs_words 4 dst t ++ [br]
  end.
(** A jump to a fixed target. *)
Definition link_form (rw : bool) (c : option jcond) (p t : Z) : form := detect_jump_type rw (is_cond c) (if is_cond c then p + 4 else p) t.
Definition link_jump (rw : bool) (c : option jcond) (lk : bool) (p t : Z) : list Z := jump_words (link_form rw c p t) c lk p t.
(** A64:433-459 reduce_code_size: the words kept for a jump (without the branch in front), for a fixed target and for a label at the distance
    [diff] in instructions. *)
Definition reserved (rw : bool) (t : Z) : Z := if rw then 5 else if t <? 0x100000000 then 3 else if t <? 0x1000000000000 then 4 else 5.
Definition reserved_label (rw cnd : bool) (diff : Z) : Z :=
  if rw then 5
  else if cnd && ((diff + 1 <=? 0xfffff / 4) && (-0x100000 / 4 <=? diff + 1)) then 0
  else if (diff <=? 0x7ffffff / 4) && (-0x8000000 / 4 <=? diff) then 1
  else if (diff <=? 0xfffff000 / 4) && (-0x100000000 / 4 <=? diff) then 3
  else 5.
(** A64:2531-2543 sljit_emit_ijump to the address in a register. *)
Definition ijump_reg (lk : bool) (src : Z) : list Z := [(if lk then BLR else BR) .| RN src].

(** ** Addresses *)
Inductive aform := AAdr | APage | AAbs (n : nat).
(** A64:281-325 mov_addr_get_length *)
Definition mov_addr_form (p t : Z) : aform :=
  let diff := sgn (wrap (t - p)) in
  if (diff <=? 0xfffff) && (-0x100000 <=? diff) then AAdr
  else if (diff <=? 0xfffff000) && (-0x100000000 <=? diff) then APage
  else if t <? 0x100000000 then AAbs 2
  else if t <? 0x1000000000000 then AAbs 3
  else AAbs 4.
(** A64:358-386; [dst] is the register number (A64:3648). *)
Definition mov_addr_words (f : aform) (dst p t : Z) : list Z :=
  match f with
  | AAdr => let addr := sgn (wrap (t - p)) in
      [ADR .| Z.shiftl (u32 addr .& 0x3) 29 .| Z.shiftl (u32 (Z.shiftr addr 2) .& 0x7ffff) 5 .| dst]
  | APage => page_words dst p t
  | AAbs n => abs_words n dst t
  end.
Definition link_addr (reg p t : Z) : list Z := mov_addr_words (mov_addr_form p t) (RD reg) p t.
(** A64:460-481: the words kept for an address. *)
Definition reserved_addr (t : Z) : Z := 1 + (if t <? 0x100000000 then 1 else if t <? 0x1000000000000 then 2 else 3).
Definition reserved_addr_label (diff : Z) : Z :=
  1 + (if (diff <=? 0xfffff / 4) && (-0x100000 / 4 <=? diff) then 0
       else if (diff <=? 0xfffff000 / 4) && (-0x100000000 / 4 <=? diff) then 1 else 3).

(** A64:2112-2116: the words after FCMP for SLJIT_UNORDERED_OR_EQUAL. *)
Definition unordered_or_equal_words : list Z :=
  [CSINC .| Z.shiftl 0 12 .| RD TMP_REG1 .| RN TMP_ZERO .| RM TMP_ZERO;
   CCMPI .| Z.shiftl 0 16 .| Z.shiftl 7 12 .| RN TMP_REG1 .| 4].
