(** Model of sljit_emit_const and sljit_set_const on x86-64, the SLJIT_CONFIG_X86_64 branches (sljit_src/sljitNativeX86_common.c, "X86C").
    Simplifications as in X86Op.v and X86Link.v. *)
Require Import ZArith List Bool Lia.
From Verif Require Import Rv.RvLib Rv.RvMem X86.X86Emit X86.X86OpSpec X86.X86Op X86.X86Link X86.X86LinkSpec.
Import ListNotations.
Open Scope Z_scope.

(** The operations (sljitLir.h:2393-2394): SLJIT_MOV, SLJIT_MOV32, SLJIT_MOV_S32, SLJIT_MOV_U8 and SLJIT_MOV32_U8. *)
Inductive cop := CMov | CMov32 | CMovS32 | CMovU8 (m : bool).
(** X86C:5150-5153, 5308-5311 *)
Definition norm_u8 (v : Z) : Z := if negb (Z.land v 0x100 =? 0) then Z.lor v (-0x100) else u8 v.
Section Win.
(** _WIN64 *)
Variable w : bool.
(** X86C:5125-5210 sljit_emit_const: the bytes before and after the marker SLJIT_INST_CONST *)
Definition emit_const (c : cop) (dst : arg) (dstw v : Z) : option (list Z * list Z) :=
  let reg := if is_reg dst then reg_of dst else TMP_REG1 in
  let both (a b : option (list Z)) := match a, b with Some a, Some b => Some (a, b) | _, _ => None end in
  match c with
  | CMovU8 m => both (emit_mov w m (AReg reg) 0 AImm (norm_u8 v)) (if is_mem dst then emit_mov_byte w false dst dstw (AReg TMP_REG1) 0 else Some [])
  | CMov => both (Some (load_imm64 w reg v)) (if is_mem dst then emit_mov w false dst dstw (AReg TMP_REG1) 0 else Some [])
  | _ => both (emit_mov w (match c with CMov32 => true | _ => false end) dst dstw AImm (sext 32 v)) (Some [])
  end.
End Win.

(** X86C:5288-5320 sljit_set_const: the bytes written before the address *)
Definition const_bytes (c : cop) (v : Z) : list Z := match c with CMov => lebytes 8 v | CMovU8 _ => lebytes 4 (norm_u8 v) | _ => lebytes 4 v end.
(** Writing [bs] before the address of the constant number [n] (sljit_get_const_addr, sljitLir.h:2438); [b]: the code at [code]. *)
Definition put_const (code : Z) (g : gen) (b : list Z) (n : nat) (bs : list Z) : list Z := putb b (nth n (rconsts g) 0 - code - zlen bs) bs.

(** ** Specification *)
(** The value of a constant and its size in registers and memory (sljitLir.h:2393-2400): SLJIT_MOV_U8 has a 9 bit signed value in registers. *)
Definition const_bits (c : cop) : Z := match c with CMov | CMovS32 => 64 | CMov32 => 32 | CMovU8 m => if m then 32 else 64 end.
Definition const_size (c : cop) : Z := match c with CMov | CMovS32 => 8 | CMov32 => 4 | CMovU8 _ => 1 end.
Definition const_val (c : cop) (v : Z) : Z := match c with CMovS32 => sext 32 v | CMovU8 _ => sext 9 v | _ => v end.
