(** What the x86-64 encoder and operators must do, stated without the encoder: the machine registers of the LIR registers, addresses
    of memory operands, what an instruction may leave behind. *)
Require Import ZArith List Bool Lia.
From Verif Require Import Rv.RvLib Rv.RvIsa Rv.RvMem X86.X86Isa X86.X86Emit.
Import ListNotations.
Open Scope Z_scope.

(** The registers that can be named in an instruction: 0 is "none" in addresses, 1..13 are the registers of the LIR, 14 is
    SLJIT_SP, 15 and 16 are the temporary registers of the backend. *)
Definition isreg (r : Z) : Prop := 0 <= r <= 16.
(** The address named by a memory operand (sljitLir.h:1010-1064: SLJIT_MEM0, SLJIT_MEM1, SLJIT_MEM2). *)
Definition xaddr (w : bool) (s : xst) (base offs imm : Z) : Z :=
  (if base =? 0 then 0 else xr s (reg_map w base)) + (if offs =? 0 then imm else xr s (reg_map w offs) * 2 ^ imm).
(** The general operand of an instruction: a register, or [base + displacement], [base + offs << shift], with 64 bit displacements.  SLJIT_SP is not an
    offset register (sljitLir.c:1004-1016), and a displacement that is not 32 bit goes through TMP_REG2. *)
Definition genop (b : arg) (immb : Z) : Prop :=
  match b with
  | AImm => False
  | AReg r => isreg r
  | AMem base offs =>
    isreg base /\ isreg offs /\ offs <> 14 /\ (base = 0 -> offs = 0)
    /\ (if offs =? 0 then - 2 ^ 63 <= immb < 2 ^ 63 /\ (not_halfword immb = true -> base <> 16) else 0 <= immb <= 3)
  end.
(** The combinations of flags for which emit_x86_instruction is meant: immediate operands of binary operations and shifts carry no
    size, at most one prefix, VEX extensions excluded. *)
Definition flags_ok (f : xf) : Prop :=
  0 <= f_size f /\ ~ (f_bin f = true /\ f_shift f = true)
  /\ (f_bin f = true \/ f_shift f = true -> f_byte f = false /\ f_half f = false)
  /\ ~ (f_byte f = true /\ f_half f = true)
  /\ ~ (f_66 f = true /\ f_f2 f = true) /\ ~ (f_66 f = true /\ f_f3 f = true) /\ ~ (f_f2 f = true /\ f_f3 f = true)
  /\ f_vex f = false.
(** The first operand: a register, or an immediate of 32 bits (any word in 32 bit mode); the number of a shift is smaller than the
    size of the operation, and a shift by a register is by CL. *)
Definition firstop (m32 : bool) (f : xf) (a : arg) (imma : Z) : Prop :=
  match a with
  | AMem _ _ => False
  | AReg r => isreg r /\ (f_shift f = true -> r = PREF_SHIFT_REG /\ f_sse1 f = false)
  | AImm =>
    f_sse1 f = false /\ f_sse2 f = false
    /\ (if f_shift f then 0 <= imma < (if m32 then 32 else 64) else m32 = false -> - 2 ^ 31 <= imma < 2 ^ 31)
  end.
(** The instruction that loads a 64 bit displacement changes TMP_REG2 and nothing else. *)
Definition far (b : arg) (immb : Z) : bool := match b with AMem _ 0 => not_halfword immb | _ => false end.
Definition after_pre (w : bool) (b : arg) (immb : Z) (s : xst) : xst := if far b immb then setr s (reg_map w TMP_REG2) (wrap immb) else s.
(** The immediate that the processor finds after the operands: its size in bytes and value. *)
Definition imm_size (f : xf) (a : arg) (imma : Z) : nat :=
  match a with
  | AImm =>
    if f_bin f then (if (-128 <=? imma) && (imma <=? 127) then 1%nat else 4%nat)
    else if f_shift f then (if imma =? 1 then 0%nat else 1%nat)
    else if f_byte f then 1%nat else if f_half f then 2%nat else 4%nat
  | _ => 0%nat
  end.
(** The prefix requested by the flags. *)
Definition want_pfx (f : xf) : pfx := if f_f2 f then PF2 else if f_f3 f then PF3 else if f_66 f then P66 else PNone.
(** A byte that can start an opcode: not a prefix. *)
Definition opbyte (op : Z) : Prop := 0 <= op < 256 /\ op <> 0x66 /\ op <> 0xf2 /\ op <> 0xf3 /\ op / 16 <> 4.
(** The general operand found by the processor is the requested one. *)
Definition same_operand (w : bool) (f : xf) (b : arg) (immb : Z) (o : opd) : Prop :=
  match b, o with
  | AReg r, OR r' => r' = (if f_sse2 f then freg_map r else reg_map w r)
  | AMem base offs, OM e => forall s, eaddr (after_pre w b immb s) e = wrap (xaddr w s base offs immb)
  | _, _ => False
  end.
