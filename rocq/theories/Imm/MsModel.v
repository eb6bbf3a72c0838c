(** Model of the immediates, constants, jumps and addresses of the MIPS64 backend
    (sljit_src/sljitNativeMIPS_64.c, "M64" below, and sljit_src/sljitNativeMIPS_common.c, "MC"). Instruction
    words are integers; the value of a sljit_sw is in -2^63..2^63-1, of a sljit_uw in 0..2^64-1. [r6] says
    whether SLJIT_MIPS_REV is at least 6. *)
Require Import ZArith List Bool Lia.
From Verif Require Import Rv.RvLib.
Import ListNotations.
Open Scope Z_scope.

Notation "a .| b" := (Z.lor a b) (at level 50, left associativity).
Notation "a .& b" := (Z.land a b) (at level 40, left associativity).

(** MC:97-99 reg_map; the number of registers is 21 (sljitConfigInternal.h), register 22 is the stack pointer. *)
Definition reg_map_list : list Z :=
  [0; 2; 5; 6; 7; 8; 9; 10; 11; 12; 13; 14; 15; 24; 23; 22; 21; 20; 19; 18; 17; 16; 29; 25; 4; 31; 3; 1].
Definition reg_map (r : Z) : Z := nth (Z.to_nat r) reg_map_list 0.
(** MC:81-83, 86 TMP_REG1, TMP_REG2, TMP_REG3, PIC_ADDR_REG; MC:91 RETURN_ADDR_REG, MC:94-95 EQUAL_FLAG, OTHER_FLAG (processor registers). *)
Definition TMP_REG1 : Z := 23.
Definition TMP_REG2 : Z := 24.
Definition TMP_REG3 : Z := 25.
Definition PIC_ADDR_REG : Z := TMP_REG1.
Definition RETURN_ADDR_REG : Z := 31.
Definition EQUAL_FLAG : Z := 3.
Definition OTHER_FLAG : Z := 1.
(** The cast to sljit_ins (MC:78). *)
Definition u32 (x : Z) : Z := x mod 2 ^ 32.
(** MC:127-143 S, T, D, SA, TA, DA, IMM, SH_IMM, HI, LO. *)
Definition SA (r : Z) : Z := Z.shiftl r 21.
Definition TA (r : Z) : Z := Z.shiftl r 16.
Definition DA (r : Z) : Z := Z.shiftl r 11.
Definition S_ (r : Z) : Z := SA (reg_map r).
Definition T_ (r : Z) : Z := TA (reg_map r).
Definition D_ (r : Z) : Z := DA (reg_map r).
Definition DR (r : Z) : Z := reg_map r.
Definition IMM (x : Z) : Z := u32 x .& 0xffff.
Definition SH_IMM (x : Z) : Z := Z.shiftl x 6.
Definition HI (x : Z) : Z := Z.shiftl x 26.
Definition LO (x : Z) : Z := x.
(** MC:155-332: the words of the instructions. *)
Definition ADDIU : Z := HI 9.
Definition DADDU : Z := HI 0 .| LO 45.
Definition ORI : Z := HI 13.
Definition LUI : Z := HI 15.
Definition DSLL : Z := HI 0 .| LO 56.
Definition DSLL32 : Z := HI 0 .| LO 60.
Definition LD : Z := HI 55.
Definition NOP : Z := HI 0 .| LO 0.
Definition B : Z := HI 4.
Definition BAL : Z := HI 1 .| Z.shiftl 17 16.
Definition BEQ : Z := HI 4.
Definition BNE : Z := HI 5.
Definition BGEZ : Z := HI 1 .| Z.shiftl 1 16.
Definition BLTZ : Z := HI 1 .| Z.shiftl 0 16.
Definition BGTZ : Z := HI 7.
Definition BLEZ : Z := HI 6.
Definition BC1F : Z := HI 17 .| Z.shiftl 8 21.
Definition BC1T : Z := HI 17 .| Z.shiftl 8 21 .| Z.shiftl 1 16.
(** MC:162-163; TMP_FREG3 is floating point register 10 (MC:103, 120-122). *)
Definition BC1EQZ : Z := HI 17 .| Z.shiftl 9 21 .| Z.shiftl 10 16.
Definition BC1NEZ : Z := HI 17 .| Z.shiftl 13 21 .| Z.shiftl 10 16.
Definition J : Z := HI 2.
Definition JAL : Z := HI 3.
Definition JALR : Z := HI 0 .| LO 9.
Definition JR (r6 : bool) : Z := if r6 then HI 0 .| LO 9 else HI 0 .| LO 8.

(** M64:72-75, 112-115: a loop which shifts left by [n] bits while the bits of [mask] are clear. The fuel is enough
    (at most 8 or 16 shifts, the value is not zero). *)
Fixpoint shift_up (fuel : nat) (mask n u sh : Z) : Z * Z :=
  match fuel with
  | O => (u, sh)
  | S f => if u .& mask =? 0 then shift_up f mask n (wrap (Z.shiftl u n)) (sh - n) else (u, sh)
  end.
Definition shift_once (mask n u sh : Z) : Z * Z := if u .& mask =? 0 then (wrap (Z.shiftl u n), sh - n) else (u, sh).
(** The complement of a sljit_uw. *)
Definition wnot (u : Z) : Z := 2 ^ 64 - 1 - u.

(** M64:63-92: the first 31 or 32 significant bits at the top of [uimm], and the remaining [shift]. *)
Definition normal1 (imm : Z) : Z * Z :=
  let u := if imm <? 0 then wnot (wrap imm) else wrap imm in
  let '(u, sh) := shift_up 8 0xff00000000000000 8 u 32 in
  let '(u, sh) := shift_once 0xf000000000000000 4 u sh in
  let '(u, sh) := shift_once 0xc000000000000000 2 u sh in
  let '(u, sh) := if sgn u <? 0 then (Z.shiftr u 1, sh + 1) else (u, sh) in
  (if imm <? 0 then wnot u else u, sh).
(** M64:109-127: 16 further bits at the top of [uimm], starting with a one, and the remaining [shift2]. *)
Definition normal2 (u shift : Z) : Z * Z :=
  let '(u, sh) := shift_up 16 0xf000000000000000 4 (wrap (Z.shiftl u 32)) (shift - 16) in
  let '(u, sh) := shift_once 0xc000000000000000 2 u sh in
  shift_once 0x8000000000000000 1 u sh.

(** M64:46-136 load_immediate; the destination is a processor register. *)
Definition load_immediate (dst imm : Z) : list Z :=
  let ori v := ORI .| SA dst .| TA dst .| IMM v in
  if imm .& Z.lnot 0xffff =? 0 then [ORI .| SA 0 .| TA dst .| IMM imm]
  else if (imm <? 0) && (-0x8000 <=? imm) then [ADDIU .| SA 0 .| TA dst .| IMM imm]
  else if (imm <=? 0x7fffffff) && (-0x80000000 <=? imm) then
    [LUI .| TA dst .| IMM (Z.shiftr imm 16)] ++ (if imm .& 0xffff =? 0 then [] else [ori imm])
  else
    let '(u, shift) := normal1 imm in
    [LUI .| TA dst .| IMM (Z.shiftr u 48)] ++ (if u .& 0x0000ffff00000000 =? 0 then [] else [ori (Z.shiftr u 32)]) ++
    let imm := imm .& (Z.shiftl 1 shift - 1) in
    if imm .& Z.lnot 0xffff =? 0 then
      [(if shift =? 32 then DSLL32 else DSLL) .| (if shift <? 32 then SH_IMM shift else 0) .| TA dst .| DA dst] ++
      (if imm .& 0xffff =? 0 then [] else [ori imm])
    else
      let '(u, shift2) := normal2 u shift in
      [DSLL .| TA dst .| DA dst .| SH_IMM (shift - shift2); ori (Z.shiftr u 48); DSLL .| TA dst .| DA dst .| SH_IMM shift2] ++
      let imm := imm .& (Z.shiftl 1 shift2 - 1) in
      (if imm .& 0xffff =? 0 then [] else [ori imm]).

(** M64:138-146 emit_const. *)
Definition emit_const (dst v : Z) : list Z :=
  [LUI .| T_ dst .| IMM (Z.shiftr v 48); ORI .| S_ dst .| T_ dst .| IMM (Z.shiftr v 32); DSLL .| T_ dst .| D_ dst .| SH_IMM 16;
   ORI .| S_ dst .| T_ dst .| IMM (Z.shiftr v 16); DSLL .| T_ dst .| D_ dst .| SH_IMM 16; ORI .| S_ dst .| T_ dst .| IMM v].

(** The operations of sljit_emit_const: SLJIT_MOV, SLJIT_MOV32 or SLJIT_MOV_S32, SLJIT_MOV_U8. *)
Inductive cop := CMov | CMov32 | CMovU8.
(** MC:4411-4414 and MC:4495-4498: the operand of SLJIT_MOV_U8. *)
Definition u8val (v : Z) : Z := if v .& 0x100 =? 0 then v .& 0xff else v .| 0xff00.
(** MC:4394-4441 sljit_emit_const, the words which compute the constant into the register [dst_r]
    (the destination, or TMP_REG2 when the destination is in the memory; the store is not modelled). *)
Definition sljit_emit_const (op : cop) (dst_r v : Z) : list Z :=
  match op with
  | CMovU8 => [ADDIU .| SA 0 .| T_ dst_r .| IMM (u8val v)]
  | CMov32 => [LUI .| T_ dst_r .| IMM (Z.shiftr v 16); ORI .| S_ dst_r .| T_ dst_r .| IMM v]
  | CMov => emit_const dst_r v
  end.

(** inst[k] = (inst[k] & 0xffff0000) | IMM(v). *)
Definition put (ws : list Z) (k : nat) (v : Z) : list Z :=
  firstn k ws ++ match skipn k ws with [] => [] | w :: tl => ((w .& 0xffff0000) .| IMM v) :: tl end.
(** M64:199-212 sljit_set_jump_addr on the words at the address. *)
Definition sljit_set_jump_addr (ws : list Z) (t : Z) : list Z :=
  put (put (put (put ws 0 (Z.shiftr t 48)) 1 (Z.shiftr t 32)) 3 (Z.shiftr t 16)) 5 t.
(** MC:4486-4526 sljit_set_const on the words at the address. *)
Definition sljit_set_const (op : cop) (ws : list Z) (v : Z) : list Z :=
  match op with
  | CMovU8 => put ws 0 (u8val v)
  | CMov32 => put (put ws 0 (Z.shiftr v 16)) 1 v
  | CMov => sljit_set_jump_addr ws v
  end.

(** ** Jumps *)
(** The flags IS_BIT26_COND, IS_BIT16_COND, IS_BIT23_COND: which bit inverts a branch (MC:491-501 invert_branch). *)
Inductive bkind := K26 | K16 | K23.
Definition invert_branch (r6 : bool) (k : bkind) : Z :=
  match k with K26 => Z.shiftl 1 26 | K23 => if r6 then Z.shiftl 1 23 else Z.shiftl 1 16 | K16 => Z.shiftl 1 16 end.
(** MC:3353-3357 BRANCH_LENGTH. *)
Definition BRANCH_LENGTH : Z := 8.
(** MC:3359-3367 BR_Z, BR_NZ (a processor register). *)
Definition BR_Z (r : Z) : Z * bkind := (BEQ .| SA r .| TA 0 .| BRANCH_LENGTH, K26).
Definition BR_NZ (r : Z) : Z * bkind := (BNE .| SA r .| TA 0 .| BRANCH_LENGTH, K26).
(** MC:3369-3391 BR_T, BR_F. *)
Definition BR_T (r6 : bool) : Z * bkind := if r6 then (BC1NEZ, K23) else (BC1T .| BRANCH_LENGTH, K16).
Definition BR_F (r6 : bool) : Z * bkind := if r6 then (BC1EQZ, K23) else (BC1F .| BRANCH_LENGTH, K16).
(** MC:3408-3462 the conditions of sljit_emit_jump: SLJIT_EQUAL, SLJIT_NOT_EQUAL, the conditions kept in OTHER_FLAG (set or
    clear), and the floating point conditions (the second group is tested for the complement). *)
Inductive fcond := FEqual | FNotEqual | FSet | FNotSet | FFloat | FFloatNot.
Definition jump_branch (r6 : bool) (f : fcond) : Z * bkind :=
  match f with
  | FEqual => BR_NZ EQUAL_FLAG | FNotEqual => BR_Z EQUAL_FLAG
  | FSet => BR_Z OTHER_FLAG | FNotSet => BR_NZ OTHER_FLAG
  | FFloat => BR_F r6 | FFloatNot => BR_T r6
  end.
(** MC:3546-3552 sljit_emit_cmp of two registers (0 is the constant zero) for equality. *)
Definition cmp_eq (eq : bool) (x y : Z) : Z * bkind := ((if eq then BNE else BEQ) .| S_ x .| T_ y .| BRANCH_LENGTH, K26).
(** MC:3553-3598 sljit_emit_cmp: signed comparison of a register with zero. *)
Inductive zcmp := ZLess | ZGreaterEqual | ZGreater | ZLessEqual.
Definition cmp_zero (c : zcmp) (x : Z) : Z * bkind :=
  match c with
  | ZLess => (BGEZ .| S_ x .| BRANCH_LENGTH, K16)
  | ZGreaterEqual => (BLTZ .| S_ x .| BRANCH_LENGTH, K16)
  | ZGreater => (BLEZ .| S_ x .| BRANCH_LENGTH, K26)
  | ZLessEqual => (BGTZ .| S_ x .| BRANCH_LENGTH, K26)
  end.

(** The forms of a jump: PATCH_B or PATCH_J with the instruction before the jump moved to the delay slot or not, PATCH_ABS32,
    PATCH_ABS48, the full form. *)
Inductive form := FB (moved : bool) | FJ (moved : bool) | FAbs32 | FAbs48 | FFull.
Definition within16 (d : Z) : bool := (d <=? 0x7fff) && (-0x8000 <=? d).
(** Bits 28 and above. *)
Definition region (a : Z) : Z := wrap a .& Z.lnot 0xfffffff.

(** MC:503-634 detect_jump_type: [rw] SLJIT_REWRITABLE_JUMP, [iscall] IS_CALL, [cond] IS_COND, [mov] IS_MOVABLE, [ja] the
    address of the JR or JALR instruction, [eo] the executable offset, [t] the target (of a label: its estimated address). *)
Definition detect_jump_type (rw iscall cond mov : bool) (ja eo t : Z) : form :=
  let inst := if cond then ja - 4 else ja in
  let far := if t <=? 0x7fffffff then FAbs32 else if t <=? 0x7fffffffffff then FAbs48 else FFull in
  if rw then FFull
  else if iscall then far
  else if mov && within16 (Z.shiftr (sgn (wrap (t - inst - eo))) 2) then FB true
  else if negb mov && within16 (Z.shiftr (sgn (wrap (t - (inst + 4) - eo))) 2) then FB false
  else if cond then
    if mov && (region t =? region (ja + 8)) then FJ true
    else if region t =? region (ja + 12) then FJ false
    else far
  else
    if mov && (region t =? region ja) then FJ true
    else if region t =? region (ja + 4) then FJ false
    else far.

(** MC:665-706 load_addr_to_reg: the words which load the address. *)
Definition load_addr (f : form) (reg t : Z) : list Z :=
  match f with
  | FAbs32 => [LUI .| T_ reg .| IMM (Z.shiftr t 16); ORI .| S_ reg .| T_ reg .| IMM (t .& 0xffff)]
  | FAbs48 => [LUI .| T_ reg .| IMM (Z.shiftr t 32); ORI .| S_ reg .| T_ reg .| IMM (Z.shiftr t 16 .& 0xffff);
               DSLL .| T_ reg .| D_ reg .| SH_IMM 16; ORI .| S_ reg .| T_ reg .| IMM (t .& 0xffff)]
  | _ => [LUI .| T_ reg .| IMM (Z.shiftr t 48); ORI .| S_ reg .| T_ reg .| IMM (Z.shiftr t 32 .& 0xffff);
          DSLL .| T_ reg .| D_ reg .| SH_IMM 16; ORI .| S_ reg .| T_ reg .| IMM (Z.shiftr t 16 .& 0xffff);
          DSLL .| T_ reg .| D_ reg .| SH_IMM 16; ORI .| S_ reg .| T_ reg .| IMM (t .& 0xffff)]
  end.

(** The offset of PATCH_B (MC:827-830) for the branch at the address [a] (with the executable offset), and the target of PATCH_J (MC:833-836). *)
Definition boff (a t : Z) : Z := u32 (Z.shiftr (sgn (wrap (t - a - 4))) 2) .& 0xffff.
Definition jidx (t : Z) : Z := u32 (Z.shiftr t 2) .& 0x03ffffff.

(** The words of a jump after detect_jump_type (MC:536-634) and sljit_generate_code (MC:821-845), including the instruction
    [prev] before it when it may be moved: [br] the branch over the jump, [jal] IS_JAL, [p] the (execution) address of the first word. *)
Definition jump_words (r6 : bool) (f : form) (prev : option Z) (br : option (Z * bkind)) (jal : bool) (p t : Z) : list Z :=
  let pre := match prev with None => [] | Some w => [w] end in
  let pl := match prev with None => 0 | Some _ => 4 end in
  let slot := match prev with None => NOP | Some w => w end in
  let jr := if jal then JALR .| S_ PIC_ADDR_REG .| DA RETURN_ADDR_REG else JR r6 .| S_ PIC_ADDR_REG in
  let far d := pre ++ (match br with None => [] | Some (w, _) => [u32 (w - d)] end) ++ load_addr f PIC_ADDR_REG t ++ [jr; NOP] in
  match f with
  | FB moved =>
      let q := if moved then p else p + pl in
      let b := match br with None => if jal then BAL else B | Some (w, k) => Z.lxor w (invert_branch r6 k) end in
      let b := (b .& 0xffff0000) .| boff q t in
      if moved then [b; slot] else pre ++ [b; NOP]
  | FJ moved =>
      match br with
      | None => if moved then [(if jal then JAL else J) .| jidx t; slot] else pre ++ [(if jal then JAL else J) .| jidx t; NOP]
      | Some (w, _) =>
          let b := (w .& 0xffff0000) .| 3 in
          if moved then [b; slot; J .| jidx t; NOP] else pre ++ [b; NOP; J .| jidx t; NOP]
      end
  | FAbs32 => far 4
  | FAbs48 => far 2
  | FFull => far 0
  end.

(** A jump to a fixed target: the form and the words; [p] the execution address of the first word. *)
Definition link_form (rw iscall : bool) (prev : option Z) (br : option (Z * bkind)) (p eo t : Z) : form :=
  let ja := p - eo + (match prev with None => 0 | Some _ => 4 end) + (match br with None => 0 | Some _ => 4 end) in
  detect_jump_type rw iscall (match br with None => false | _ => true end) (match prev with None => false | _ => true end) ja eo t.
Definition link_jump (r6 rw iscall : bool) (prev : option Z) (br : option (Z * bkind)) (jal : bool) (p eo t : Z) : list Z :=
  jump_words r6 (link_form rw iscall prev br p eo t) prev br jal p t.

(** MC:644-663 mov_addr_get_length, MC:665-706 load_addr_to_reg: the words of sljit_emit_op_addr for a fixed address. *)
Definition mov_addr_form (t : Z) : form := if t <? 0x80000000 then FAbs32 else if t <? 0x800000000000 then FAbs48 else FFull.
Definition link_addr (reg t : Z) : list Z := load_addr (mov_addr_form t) reg t.

(** MC:1422-1510 getput_arg, the load of a word from a fixed address which does not fit in 16 bits ([argw] is the displacement,
    there is no base register and nothing is cached): MC:1392 TO_ARGW_HI, MC:1480-1500. *)
Definition TO_ARGW_HI (argw : Z) : Z := (argw .& Z.lnot 0xffff) + (if argw .& 0x8000 =? 0 then 0 else 0x10000).
Definition load_abs (reg argw : Z) : list Z * Z :=
  (load_immediate (DR TMP_REG3) (TO_ARGW_HI argw), LD .| S_ TMP_REG3 .| TA (DR reg) .| IMM (argw .& 0xffff)).
