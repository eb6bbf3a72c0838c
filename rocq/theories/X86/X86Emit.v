(** Model of the instruction encoder of the x86-64 backend: sljit_src/sljitNativeX86_64.c ("X64"), with the register maps and macros of
    sljit_src/sljitNativeX86_common.c ("X86C").

    Simplifications: the operands [sljit_s32 a, b] (register number, SLJIT_IMM, or SLJIT_MEM with base and offset registers,
    sljitLir.h:1045-1064) are the type [arg]; the flag word [size] is a record; ensure_buf never fails (its failure is covered
    by the properties of the compiler buffers); the byte at which the caller stores its opcode is a hole of the result.  The result is [None] when
    an assertion fails, a table is read out of its bounds, or the number of bytes written is not the number requested from the buffer. *)
Require Import ZArith List Bool Lia.
From Verif Require Import Rv.RvLib Rv.RvMem.
Import ListNotations.
Open Scope Z_scope.

(** sljitConfigInternal.h:619-633: 13 registers, SLJIT_PREF_SHIFT_REG is SLJIT_R3; sljitLir.h:126-178; X86C:64, 86. *)
Definition R0 := 1.
Definition R1 := 2.
Definition R3 := 4.
Definition SLJIT_SP := 14.
Definition TMP_REG1 := 15.
Definition TMP_REG2 := 16.
Definition PREF_SHIFT_REG := R3.

(** X86C:119-123 *)
Definition REX_W := 0x48.
Definition REX_R := 0x44.
Definition REX_X := 0x42.
Definition REX_B := 0x41.
Definition REX := 0x40.
(** X86C:125-134 *)
Definition not_halfword (x : Z) : bool := (0x7fffffff <? x) || (x <? -0x80000000).
Definition is_halfword (x : Z) : bool := (x <=? 0x7fffffff) && (-0x80000000 <=? x).
(** X86C:138: U8 *)
Definition u8 (v : Z) : Z := v mod 256.
(** sljit_unaligned_store_s16, _s32, _sw (sljitConfigInternal.h; sljitUtils): little endian bytes. *)
Fixpoint lebytes (k : nat) (v : Z) : list Z := match k with O => [] | S k => v mod 256 :: lebytes k (v / 256) end.

(** X86C:142-166, the flags used by emit_x86_instruction. *)
Record xf := mkXf {
  f_size : Z; f_bin : bool; f_shift : bool; f_byte : bool; f_half : bool; f_rex : bool; f_norexw : bool;
  f_66 : bool; f_f2 : bool; f_f3 : bool; f_sse1 : bool; f_sse2 : bool; f_vex : bool }.
(** [size] alone. *)
Definition fl (n : Z) : xf := mkXf n false false false false false false false false false false false false.
Definition with_bin (f : xf) := mkXf (f_size f) true (f_shift f) (f_byte f) (f_half f) (f_rex f) (f_norexw f) (f_66 f) (f_f2 f) (f_f3 f) (f_sse1 f) (f_sse2 f) (f_vex f).
Definition with_shift (f : xf) := mkXf (f_size f) (f_bin f) true (f_byte f) (f_half f) (f_rex f) (f_norexw f) (f_66 f) (f_f2 f) (f_f3 f) (f_sse1 f) (f_sse2 f) (f_vex f).
Definition with_byte (f : xf) := mkXf (f_size f) (f_bin f) (f_shift f) true (f_half f) (f_rex f) (f_norexw f) (f_66 f) (f_f2 f) (f_f3 f) (f_sse1 f) (f_sse2 f) (f_vex f).
Definition with_half (f : xf) := mkXf (f_size f) (f_bin f) (f_shift f) (f_byte f) true (f_rex f) (f_norexw f) (f_66 f) (f_f2 f) (f_f3 f) (f_sse1 f) (f_sse2 f) (f_vex f).
Definition with_rex (f : xf) := mkXf (f_size f) (f_bin f) (f_shift f) (f_byte f) (f_half f) true (f_norexw f) (f_66 f) (f_f2 f) (f_f3 f) (f_sse1 f) (f_sse2 f) (f_vex f).
Definition with_norexw (f : xf) := mkXf (f_size f) (f_bin f) (f_shift f) (f_byte f) (f_half f) (f_rex f) true (f_66 f) (f_f2 f) (f_f3 f) (f_sse1 f) (f_sse2 f) (f_vex f).
Definition with_66 (f : xf) := mkXf (f_size f) (f_bin f) (f_shift f) (f_byte f) (f_half f) (f_rex f) (f_norexw f) true (f_f2 f) (f_f3 f) (f_sse1 f) (f_sse2 f) (f_vex f).
Definition with_f3 (f : xf) := mkXf (f_size f) (f_bin f) (f_shift f) (f_byte f) (f_half f) (f_rex f) (f_norexw f) (f_66 f) (f_f2 f) true (f_sse1 f) (f_sse2 f) (f_vex f).
Definition pref (f : xf) : bool := f_66 f || f_f2 f || f_f3 f.

Section Win.
(** The Windows calling convention is used (_WIN64). *)
Variable win : bool.

(** X86C:91-117 *)
Definition reg_map_t : list Z :=
  if win then [0; 0; 2; 8; 1; 11; 12; 5; 13; 14; 15; 7; 6; 3; 4; 9; 10] else [0; 0; 6; 7; 1; 8; 11; 10; 12; 5; 13; 14; 15; 3; 4; 2; 9].
Definition reg_lmap_t : list Z :=
  if win then [0; 0; 2; 0; 1; 3; 4; 5; 5; 6; 7; 7; 6; 3; 4; 1; 2] else [0; 0; 6; 7; 1; 0; 3; 2; 4; 5; 5; 6; 7; 3; 4; 2; 1].
Definition freg_map_t : list Z := [0; 0; 1; 2; 3; 5; 6; 7; 8; 9; 10; 11; 12; 13; 14; 15; 4].
Definition freg_lmap_t : list Z := [0; 0; 1; 2; 3; 5; 6; 7; 0; 1; 2; 3; 4; 5; 6; 7; 4].
Definition reg_map (r : Z) : Z := nth (Z.to_nat r) reg_map_t 0.
Definition reg_lmap (r : Z) : Z := nth (Z.to_nat r) reg_lmap_t 0.
Definition freg_map (r : Z) : Z := nth (Z.to_nat r) freg_map_t 0.
Definition freg_lmap (r : Z) : Z := nth (Z.to_nat r) freg_lmap_t 0.
(** The index is inside of the tables. *)
Definition inmap (r : Z) : bool := (0 <=? r) && (r <=? 16).

(** X64:33-44, emit_load_imm64 *)
Definition load_imm64 (reg imm : Z) : list Z :=
  (if reg_map reg <=? 7 then REX_W else Z.lor REX_W REX_B) :: u8 (Z.lor 0xb8 (reg_lmap reg)) :: lebytes 8 imm.
(** X64:46-59, emit_do_imm32 *)
Definition do_imm32 (rex opcode imm : Z) : list Z := (if rex =? 0 then [] else [rex]) ++ opcode :: lebytes 4 imm.

(** What emit_x86_instruction has emitted: the instruction before (X64:102), prefixes, the hole for the opcode with its first byte if it was
    written (X64:201-220), and the rest. *)
Record xo := mkO { o_pre : list Z; o_head : list Z; o_hole : Z; o_first : option Z; o_tail : list Z }.

(** X64:61-284, emit_x86_instruction *)
Definition disp8 (v : Z) : bool := (v <=? 127) && (-128 <=? v).
Definition is_imm (a : arg) : bool := match a with AImm => true | _ => false end.
(** X64:74-87, the assertions at the start. *)
Definition asserts (m32 : bool) (f : xf) (a : arg) (imma : Z) : bool :=
  (negb (is_imm a) || m32 || is_halfword imma)
  && negb (f_bin f && f_shift f)
  && (negb (f_bin f || f_shift f) || negb (f_byte f || f_half f))
  && negb (f_byte f && f_half f)
  && (negb (is_imm a) || negb (f_sse1 f || f_sse2 f))
  && (Z.b2z (f_66 f) + Z.b2z (f_f2 f) + Z.b2z (f_f3 f) <=? 1)
  && negb (f_vex f && negb (f_rex f)).
(** X64:101-108: a displacement that is not 32 bit is loaded to TMP_REG2. *)
Definition big_disp (b : arg) (immb : Z) : list Z * arg * Z :=
  match b with
  | AMem base 0 =>
    if not_halfword immb then (load_imm64 TMP_REG2 immb, (if base =? 0 then AMem TMP_REG2 0 else AMem base TMP_REG2), 0) else ([], b, immb)
  | _ => ([], b, immb)
  end.
(** X64:99-145: the general operand with registers exchanged or added, the number of bytes it adds, and the bits of REX. *)
Definition size_b (f : xf) (rex : Z) (b : arg) (immb : Z) : option (arg * Z * Z) :=
  match b with
  | AImm => None
  | AReg r => if inmap r then Some (b, 0, if 8 <=? (if f_sse2 f then freg_map r else reg_map r) then Z.lor rex REX_B else rex) else None
  | AMem base offs =>
    if negb (inmap base && inmap offs) then None
    else if base =? 0 then Some (b, 5, rex)
    else
      let '(base, offs, isz) :=
        if negb (immb =? 0) && (offs =? 0) then (base, offs, if disp8 immb then 1 else 4)
        else if reg_lmap base =? 5 then
          if negb (offs =? 0) && (Z.land immb 3 =? 0) && negb (reg_lmap offs =? 5) then (offs, base, 0) else (base, offs, 1)
        else (base, offs, 0) in
      let rex := if 8 <=? reg_map base then Z.lor rex REX_B else rex in
      let offs := if (reg_lmap base =? 4) && (offs =? 0) then SLJIT_SP else offs in
      if offs =? 0 then Some (AMem base offs, isz, rex)
      else Some (AMem base offs, isz + 1, if 8 <=? reg_map offs then Z.lor rex REX_X else rex)
  end.
(** X64:147-180: the number of bytes of the immediate, the flag EX86_BYTE_ARG, and REX. *)
Definition size_a (m32 : bool) (f : xf) (rex : Z) (a : arg) (imma : Z) : option (Z * bool * Z) :=
  match a with
  | AImm =>
    if f_bin f then (if disp8 imma then Some (1, true, rex) else Some (4, f_byte f, rex))
    else if f_shift f then
      (if imma <=? (if m32 then 0x1f else 0x3f) then (if imma =? 1 then Some (0, f_byte f, rex) else Some (1, true, rex)) else None)
    else if f_byte f then Some (1, true, rex)
    else if f_half f then Some (2, false, rex)
    else Some (4, false, rex)
  | AReg r =>
    if (negb (f_shift f) || (r =? PREF_SHIFT_REG)) && inmap r then
      Some (0, f_byte f, if 8 <=? (if f_sse1 f then freg_map r else reg_map r) then Z.lor rex REX_R else rex)
    else None
  | AMem _ _ => None
  end.
(** X64:222-271: ModR/M (with the bits [m] already stored), SIB and displacement. *)
Definition put_b (f : xf) (m : Z) (b : arg) (immb : Z) : list Z :=
  match b with
  | AImm => []
  | AReg r => [u8 (Z.lor (Z.lor m 0xc0) (if f_sse2 f then freg_lmap r else reg_lmap r))]
  | AMem base offs =>
    if base =? 0 then Z.lor m 4 :: 0x25 :: lebytes 4 immb
    else
      let lb := reg_lmap base in
      if (offs =? 0) || (offs =? SLJIT_SP) then
        let disp := negb (immb =? 0) || (lb =? 5) in
        let m := if disp then Z.lor m (if disp8 immb then 0x40 else 0x80) else m in
        (if offs =? 0 then [Z.lor m lb] else [Z.lor m 4; u8 (Z.lor lb (Z.shiftl (reg_lmap offs) 3))])
        ++ (if disp then (if disp8 immb then [u8 immb] else lebytes 4 immb) else [])
      else
        [Z.lor (if lb =? 5 then Z.lor m 0x40 else m) 4; u8 (Z.lor (Z.lor lb (Z.shiftl (reg_lmap offs) 3)) (Z.shiftl immb 6))]
        ++ (if lb =? 5 then [0] else [])
  end.
Definition emit_x86 (m32 : bool) (f : xf) (a : arg) (imma : Z) (b : arg) (immb : Z) : option xo :=
  if negb (asserts m32 f a imma) then None
  else
    let rex := if negb m32 && negb (f_norexw f) then REX_W else if f_rex f then REX else 0 in
    let '(pre, b, immb) := big_disp b immb in
    match size_b f rex b immb with
    | None => None
    | Some (b, szb, rex) =>
      let vex := f_vex f && negb (Z.land rex 3 =? 0) in
      let size := if vex then f_size f + 1 else f_size f in
      if vex && negb (f_size f =? 2) then None
      else match size_a m32 f rex a imma with
      | None => None
      | Some (sza, byte, rex) =>
        let inst_size := size + 1 + (if pref f then 1 else 0) + szb + sza + (if rex =? 0 then 0 else 1) in
        let head := (if f_f2 f then [0xf2] else if f_f3 f then [0xf3] else if f_66 f then [0x66] else []) ++ (if rex =? 0 then [] else [rex]) in
        let first :=
          if f_shift f then Some (if is_imm a then (if imma =? 1 then 0xd1 else 0xc1) else 0xd3)
          else if f_bin f && is_imm a then Some (if byte then 0x83 else 0x81) else None in
        let m :=
          if f_shift f then 0
          else match a with AReg r => u8 (Z.shiftl (if f_sse1 f then freg_lmap r else reg_lmap r) 3) | _ => 0 end in
        let tail := put_b f m b immb ++
          (if is_imm a then (if byte then [u8 imma] else if f_half f then lebytes 2 imma else if f_shift f then [] else lebytes 4 imma) else []) in
        if Z.of_nat (length head) + size + Z.of_nat (length tail) =? inst_size then Some (mkO pre head size first tail) else None
      end
    end.

(** The uses of the result.  *inst = op; inst[1] = op2; *inst |= op; inst[1] |= op. *)
Definition put1 (op : Z) (o : xo) : list Z := o_pre o ++ o_head o ++ op :: o_tail o.
Definition put2 (op op2 : Z) (o : xo) : list Z := o_pre o ++ o_head o ++ op :: op2 :: o_tail o.
Definition or_hd (d : Z) (l : list Z) : list Z := match l with b :: l => Z.lor b d :: l | [] => [] end.
(** *(inst + 1) |= d after the first byte was set by emit_x86_instruction *)
Definition putf (d : Z) (o : xo) : list Z := o_pre o ++ o_head o ++ (match o_first o with Some b => b | None => 0 end) :: or_hd d (o_tail o).
(** *inst++ = op; *inst |= d *)
Definition put1d (op d : Z) (o : xo) : list Z := o_pre o ++ o_head o ++ op :: or_hd d (o_tail o).
End Win.
