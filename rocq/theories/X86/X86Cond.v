(** Model of the conditions of the x86-64 backend: sljit_src/sljitNativeX86_common.c ("X86C"). *)
Require Import ZArith List Bool Lia.
From Verif Require Import Rv.RvLib Rv.RvMem Rv.RvOp Rv.RvCond X86.X86Emit.
Import ListNotations.
Open Scope Z_scope.

(** X86C:601-668 get_jump_code, the integer conditions (the codes 0x0f 0x8? of the near jumps) *)
Definition jump_code (t : Z) : Z :=
  if t =? SLJIT_EQUAL then 0x84
  else if t =? SLJIT_NOT_EQUAL then 0x85
  else if (t =? SLJIT_LESS) || (t =? SLJIT_CARRY) then 0x82
  else if (t =? SLJIT_GREATER_EQUAL) || (t =? SLJIT_NOT_CARRY) then 0x83
  else if t =? SLJIT_GREATER then 0x87
  else if t =? SLJIT_LESS_EQUAL then 0x86
  else if t =? SLJIT_SIG_LESS then 0x8c
  else if t =? SLJIT_SIG_GREATER_EQUAL then 0x8d
  else if t =? SLJIT_SIG_GREATER then 0x8f
  else if t =? SLJIT_SIG_LESS_EQUAL then 0x8e
  else if t =? SLJIT_OVERFLOW then 0x80
  else if t =? SLJIT_NOT_OVERFLOW then 0x81
  else 0.
