(** Model of the immediates, constants, jumps and addresses of the LoongArch64 backend
    (sljit_src/sljitNativeLOONGARCH_64.c, "LA" below). Instruction words are integers; the value of a
    sljit_sw is in -2^63..2^63-1, of a sljit_uw in 0..2^64-1. *)
Require Import ZArith List Bool Lia.
From Verif Require Import Rv.RvLib.
Import ListNotations.
Open Scope Z_scope.

Notation "a .| b" := (Z.lor a b) (at level 50, left associativity).
Notation "a .& b" := (Z.land a b) (at level 40, left associativity).

(** LA:47-49 reg_map; the number of registers is 23 (sljitConfigInternal.h), register 24 is the stack pointer. *)
Definition reg_map_list : list Z :=
  [0; 4; 5; 6; 7; 8; 9; 10; 11; 16; 17; 18; 19; 20; 22; 31; 30; 29; 28; 27; 26; 25; 24; 23; 3; 13; 1; 14; 12; 15].
Definition reg_map (r : Z) : Z := nth (Z.to_nat r) reg_map_list 0.
(** LA:34-42 TMP_REG1 .. OTHER_FLAG. *)
Definition TMP_REG1 : Z := 25.
Definition TMP_REG2 : Z := 26.
Definition TMP_ZERO : Z := 0.
Definition EQUAL_FLAG : Z := 28.
Definition OTHER_FLAG : Z := 29.
(** LA:77-78 RD, RJ. *)
Definition RD (r : Z) : Z := reg_map r.
Definition RJ (r : Z) : Z := Z.shiftl (reg_map r) 5.
(** The cast to sljit_ins (LA:32). *)
Definition u32 (x : Z) : Z := x mod 2 ^ 32.
(** LA:90 IMM_I12, LA:92 IMM_I16, LA:93 IMM_I20, LA:95 IMM_I26. *)
Definition IMM_I12 (x : Z) : Z := Z.shiftl (u32 x .& 0xfff) 10.
Definition IMM_I16 (x : Z) : Z := Z.shiftl (u32 x .& 0xffff) 10.
Definition IMM_I20 (x : Z) : Z := Z.shiftl (Z.shiftr (u32 x .& 0xffffffff) 12) 5.
Definition IMM_I26 (x : Z) : Z := Z.shiftl (u32 x .& 0xffff) 10 .| (Z.shiftr (u32 x) 16 .& 0x3ff).
(** LA:97-106 OPC_I26, OPC_2RI16, OPC_2RI12, OPC_1RI20. *)
Definition OPC_2RI16 (x : Z) : Z := Z.shiftl x 26.
Definition OPC_2RI12 (x : Z) : Z := Z.shiftl x 22.
Definition OPC_1RI20 (x : Z) : Z := Z.shiftl x 25.
(** LA:114 ADDI_D, LA:116 ORI, LA:119-121 LU12I_W, LU32I_D, LU52I_D, LA:128 PCADDU12I, LA:200-208 JIRL .. BGEU. *)
Definition ADDI_D : Z := OPC_2RI12 0xb.
Definition ORI : Z := OPC_2RI12 0xe.
Definition LU12I_W : Z := OPC_1RI20 0xa.
Definition LU32I_D : Z := OPC_1RI20 0xb.
Definition LU52I_D : Z := OPC_2RI12 0xc.
Definition PCADDU12I : Z := OPC_1RI20 0xe.
Definition JIRL : Z := OPC_2RI16 0x13.
Definition B : Z := OPC_2RI16 0x14.
Definition BL : Z := OPC_2RI16 0x15.
Definition BEQ : Z := OPC_2RI16 0x16.
Definition BNE : Z := OPC_2RI16 0x17.
Definition BLT : Z := OPC_2RI16 0x18.
Definition BGE : Z := OPC_2RI16 0x19.
Definition BLTU : Z := OPC_2RI16 0x1a.
Definition BGEU : Z := OPC_2RI16 0x1b.

(** The immediate operands written out in the code: ((imm & 0xffffffff) >> 12) << 5 (LA:910, 553, 876, ..),
    ((imm >> 32) & 0xfffff) << 5 (LA:918, 568, 877, ..). *)
Definition HI20 (x : Z) : Z := Z.shiftl (Z.shiftr (x .& 0xffffffff) 12) 5.
Definition MID20 (x : Z) : Z := Z.shiftl (Z.shiftr x 32 .& 0xfffff) 5.

(** LA:904-925 load_immediate. *)
Definition load_immediate (dst imm : Z) : list Z :=
  let ori := if IMM_I12 imm =? 0 then [] else [ORI .| RD dst .| RJ dst .| IMM_I12 imm] in
  if (imm <=? 0x7ff) && (-0x800 <=? imm) then [ADDI_D .| RD dst .| RJ TMP_ZERO .| IMM_I12 imm]
  else if (imm <=? 0x7fffffff) && (-0x80000000 <=? imm) then [LU12I_W .| RD dst .| HI20 imm] ++ ori
  else if (imm <=? 0x7ffffffffffff) && (-0x8000000000000 <=? imm) then
    [LU12I_W .| RD dst .| HI20 imm] ++ ori ++ [LU32I_D .| RD dst .| MID20 imm]
  else [LU12I_W .| RD dst .| HI20 imm] ++ ori ++
       [LU32I_D .| RD dst .| MID20 imm; LU52I_D .| RD dst .| RJ dst .| IMM_I12 (Z.shiftr imm 52)].

(** LA:3872-3880 emit_const. *)
Definition emit_const (dst v : Z) : list Z :=
  [LU12I_W .| RD dst .| HI20 v; LU32I_D .| RD dst .| MID20 v;
   LU52I_D .| RD dst .| RJ dst .| IMM_I12 (Z.shiftr v 52); ORI .| RD dst .| RJ dst .| IMM_I12 v].

(** The operations of sljit_emit_const: SLJIT_MOV, SLJIT_MOV32 or SLJIT_MOV_S32, SLJIT_MOV_U8. *)
Inductive cop := CMov | CMov32 | CMovU8.

(** LA:3929-3932 and LA:4004-4008: the operand of SLJIT_MOV_U8. *)
Definition u8val (v : Z) : Z := if v .& 0x100 =? 0 then v .& 0xff else v .| 0xf00.

(** LA:3910-3958 sljit_emit_const, the words which compute the constant into the register [dst_r]
    (the destination, or TMP_REG2 when the destination is in the memory; the store is not modelled). *)
Definition sljit_emit_const (op : cop) (dst v : Z) : list Z :=
  match op with
  | CMovU8 => [ADDI_D .| RD dst .| RJ TMP_ZERO .| IMM_I12 (u8val v)]
  | CMov32 => [LU12I_W .| RD dst .| (Z.shiftr v 7 .& 0x1ffffe0); ORI .| RD dst .| RJ dst .| IMM_I12 v]
  | CMov => emit_const dst v
  end.

(** LA:3882-3908 sljit_set_jump_addr on the words at [addr]; the assertions about the words are not checked. *)
Definition sljit_set_jump_addr (ws : list Z) (t : Z) : list Z :=
  match ws with
  | [i0; i1; i2; i3] =>
      [ (i0 .& (OPC_1RI20 0x7f .| 0x1f)) .| HI20 t;
        (i1 .& (OPC_1RI20 0x7f .| 0x1f)) .| MID20 t;
        (i2 .& (OPC_2RI12 0x3ff .| 0x3ff)) .| IMM_I12 (Z.shiftr t 52);
        if i3 .& OPC_2RI12 0x3ff =? ORI then (i3 .& (OPC_2RI12 0x3ff .| 0x3ff)) .| IMM_I12 t
        else (i3 .& (OPC_2RI16 0x3f .| 0x3ff)) .| IMM_I12 (Z.shiftr (t .& 0xfff) 2) ]
  | _ => ws
  end.

(** LA:3997-4035 sljit_set_const on the words at [addr]; the cast of the constant to sljit_uw is LA:4032. *)
Definition sljit_set_const (op : cop) (ws : list Z) (v : Z) : list Z :=
  match op, ws with
  | CMovU8, [i0] => [(i0 .& 0xffc003ff) .| u32 (Z.shiftl (u8val v .& 0xfff) 10)]
  | CMov32, [i0; i1] => [(i0 .& (OPC_1RI20 0xa .| 0x1f)) .| (Z.shiftr v 7 .& 0x1ffffe0);
                         (i1 .& (OPC_2RI12 0xe .| 0x3ff)) .| u32 (Z.shiftl (v .& 0xfff) 10)]
  | CMov, _ => sljit_set_jump_addr ws (wrap v)
  | _, _ => ws
  end.

(** ** Jumps *)

(** The types of a comparison or a condition. *)
Inductive cmp := EQUAL | NOT_EQUAL | LESS | GREATER_EQUAL | GREATER | LESS_EQUAL
               | SIG_LESS | SIG_GREATER_EQUAL | SIG_GREATER | SIG_LESS_EQUAL.

(** LA:2916-2948 sljit_emit_cmp: the branch over the jump, register operands. *)
Definition cmp_inst (c : cmp) (src1 src2 : Z) : Z :=
  match c with
  | EQUAL => BNE .| RJ src1 .| RD src2
  | NOT_EQUAL => BEQ .| RJ src1 .| RD src2
  | LESS => BGEU .| RJ src1 .| RD src2
  | GREATER_EQUAL => BLTU .| RJ src1 .| RD src2
  | GREATER => BGEU .| RJ src2 .| RD src1
  | LESS_EQUAL => BLTU .| RJ src2 .| RD src1
  | SIG_LESS => BGE .| RJ src1 .| RD src2
  | SIG_GREATER_EQUAL => BLT .| RJ src1 .| RD src2
  | SIG_GREATER => BGE .| RJ src2 .| RD src1
  | SIG_LESS_EQUAL => BLT .| RJ src2 .| RD src1
  end.

(** LA:2753-2806 get_jump_instruction: by the flag register and the value it is compared with. *)
Inductive fcond := FEqual | FNotEqual | FSet | FNotSet.
Definition get_jump_instruction (f : fcond) : Z :=
  match f with
  | FEqual => BNE .| RJ EQUAL_FLAG .| RD TMP_ZERO
  | FNotEqual => BEQ .| RJ EQUAL_FLAG .| RD TMP_ZERO
  | FSet => BEQ .| RJ OTHER_FLAG .| RD TMP_ZERO
  | FNotSet => BNE .| RJ OTHER_FLAG .| RD TMP_ZERO
  end.

(** LA:2829-2835 (sljit_emit_jump), LA:2951, LA:2980: the jump itself. *)
Definition jump_inst (call : bool) : Z := JIRL .| RJ TMP_REG1 .| IMM_I16 0 .| (if call then RD TMP_REG2 else 0).

(** sljitLir.c:317-325: how a jump is patched. *)
Inductive mode := PATCH_B | PATCH_J | PATCH_REL32 | PATCH_ABS32 | PATCH_ABS52 | PATCH_FULL.

(** LA:360-371 BRANCH16_MAX .. S52_MAX. *)
Definition BRANCH16_MAX : Z := Z.shiftl 0x7fff 2.
Definition BRANCH16_MIN : Z := - Z.shiftl 0x8000 2.
Definition JUMP_MAX : Z := Z.shiftl 0x1ffffff 2.
Definition JUMP_MIN : Z := - Z.shiftl 0x2000000 2.
Definition S32_MAX : Z := 0x7fffffff.
Definition S32_MIN : Z := -0x80000000.
Definition S52_MAX : Z := 0x7ffffffffffff.
Definition within (d a b : Z) : bool := (a <=? d) && (d <=? b).

(** LA:415-494 detect_jump_type: the mode, from the (estimated) address [a] of the jump and the target [t],
    both addresses where the code is executed. The subtraction of LA:437 is taken modulo 2^64. *)
Definition detect_jump_type (rewritable cond : bool) (a t : Z) : mode :=
  let diff := sgn (wrap (t - a)) in
  if rewritable then PATCH_FULL
  else if cond && within (diff + 4) BRANCH16_MIN BRANCH16_MAX then PATCH_B
  else if within diff JUMP_MIN JUMP_MAX then PATCH_J
  else if within diff S32_MIN S32_MAX then PATCH_REL32
  else if t <=? S32_MAX then PATCH_ABS32
  else if t <=? S52_MAX then PATCH_ABS52
  else PATCH_FULL.

(** LA:537-585 load_addr_to_reg: [reg] is the register, [last] is [Some w] with the word of the jump, or [None] for
    JUMP_MOV_ADDR; [a] is the address of the first word. LA:559, 581: the jump gets the low bits. *)
Definition last_inst (opadd reg : Z) (last : option Z) (addr : Z) : Z :=
  match last with
  | Some w => (w .& (OPC_2RI16 0x3f .| 0x3ff)) .| IMM_I16 (Z.shiftr (addr .& 0xfff) 2)
  | None => opadd .| RD reg .| RJ reg .| IMM_I12 addr
  end.
Definition load_addr_to_reg (m : mode) (reg : Z) (last : option Z) (a t : Z) : list Z :=
  match m with
  | PATCH_REL32 =>
      let addr := wrap (t - a) in
      let addr := if addr .& 0x800 =? 0 then addr else wrap (addr + 0x1000) in
      [PCADDU12I .| RD reg .| IMM_I20 addr; last_inst ADDI_D reg last addr]
  | PATCH_ABS32 => [LU12I_W .| RD reg .| HI20 t; last_inst ORI reg last t]
  | PATCH_ABS52 => [LU12I_W .| RD reg .| HI20 t; LU32I_D .| RD reg .| MID20 t; last_inst ORI reg last t]
  | _ => [LU12I_W .| RD reg .| HI20 t; LU32I_D .| RD reg .| MID20 t;
          LU52I_D .| RD reg .| RJ reg .| IMM_I12 (Z.shiftr t 52); last_inst ORI reg last t]
  end.

(** LA:448 and LA:454, 464, 473, 482, 491: the branch of a conditional jump. *)
Definition branch_short (cw : Z) : Z := Z.lxor (cw .& 0xfc0003ff) 0x4000000.
Definition branch_over (cw n : Z) : Z := cw .| IMM_I16 n.
Definition over (cw : option Z) (n : Z) : list Z := match cw with Some w => [branch_over w n] | None => [] end.

(** The words of a patched jump: LA:439-493 with the words written by LA:788-812. [cw] is the branch of a
    conditional jump; [a] is the address of the first word after the branch (jump->addr). *)
Definition patch_jump (m : mode) (cw : option Z) (call : bool) (a t : Z) : list Z :=
  match m with
  | PATCH_B => match cw with
               | Some w => [branch_short w .| IMM_I16 (Z.shiftr (wrap (t - (a - 4))) 2)]
               | None => []
               end
  | PATCH_J => over cw 2 ++ [(if call then BL else B) .| IMM_I26 (Z.shiftr (wrap (t - a)) 2)]
  | PATCH_REL32 => over cw 3 ++ load_addr_to_reg m TMP_REG1 (Some (jump_inst call)) a t
  | PATCH_ABS32 => over cw 3 ++ load_addr_to_reg m TMP_REG1 (Some (jump_inst call)) a t
  | PATCH_ABS52 => over cw 4 ++ load_addr_to_reg m TMP_REG1 (Some (jump_inst call)) a t
  | PATCH_FULL => over cw 5 ++ load_addr_to_reg m TMP_REG1 (Some (jump_inst call)) a t
  end.

(** A jump to a fixed target, at its final address. *)
Definition link_jump (rewritable : bool) (cw : option Z) (call : bool) (a t : Z) : list Z :=
  patch_jump (detect_jump_type rewritable (match cw with Some _ => true | None => false end) a t) cw call a t.

(** LA:630-637, 656: the number of words kept for a jump to a fixed target (after the branch). *)
Definition reduce_jump_addr (rewritable : bool) (t : Z) : Z :=
  if rewritable then 4 else if t <=? S32_MAX then 2 else if t <=? S52_MAX then 3 else 4.

(** LA:496-535 mov_addr_get_length: the mode of an address. *)
Definition mov_addr_mode (a t : Z) : mode :=
  let diff := sgn (wrap (t - a)) in
  if within diff S32_MIN S32_MAX then PATCH_REL32
  else if t <=? S32_MAX then PATCH_ABS32
  else if t <=? S52_MAX then PATCH_ABS52
  else PATCH_FULL.

(** sljit_emit_op_addr (LA:3960-3995) after sljit_generate_code (LA:788-791). *)
Definition link_addr (reg a t : Z) : list Z := load_addr_to_reg (mov_addr_mode a t) reg None a t.
