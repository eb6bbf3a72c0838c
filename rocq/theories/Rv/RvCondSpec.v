(** What conditions, comparisons, selections and the operations of sljit_emit_op0 mean, independently of any code generator:
    sljitLir.h:1108-1165 (flags), 1167-1235 (operations without operands), 1720-1755 (conditions), 1844-1855 (compare), 1920-1950 (flags, select). *)
Require Import ZArith List Bool Lia.
From Verif Require Import Rv.RvLib Rv.RvIsa Rv.RvEnc Rv.RvRun Rv.RvMem Rv.RvOp Rv.RvLir Rv.RvCond.
Import ListNotations.
Open Scope Z_scope.

(** A condition, given the zero flag and the variable flag: types below SLJIT_ATOMIC_STORED. *)
Definition ctype (t : Z) : Prop := 0 <= t < 14.
Definition holds (t : Z) (z v : bool) : bool :=
  if t =? SLJIT_EQUAL then z else if t =? SLJIT_NOT_EQUAL then negb z
  else if Z.even t then v else negb v.

(** The condition after an operation [k] on the [n] bit values of [x] and [y], from the values. *)
Definition cond (t : Z) (k : op2k) (n x y : Z) (carry : bool) : bool :=
  let a := x mod 2 ^ n in
  let b := y mod 2 ^ n in
  let ov := match k with
    | O_ADD => out_of_range n (sext n a + sext n b)
    | O_SUB => out_of_range n (sext n a - sext n b)
    | _ => out_of_range n (sext n a * sext n b) end in
  let cy := match k with
    | O_ADD => 2 ^ n <=? a + b
    | O_ADDC => 2 ^ n <=? a + b + b2z carry
    | O_SUB => a <? b
    | _ => a <? b + b2z carry end in
  if t =? SLJIT_EQUAL then res2 k n x y carry mod 2 ^ n =? 0
  else if t =? SLJIT_NOT_EQUAL then negb (res2 k n x y carry mod 2 ^ n =? 0)
  else if t =? SLJIT_LESS then a <? b
  else if t =? SLJIT_GREATER_EQUAL then b <=? a
  else if t =? SLJIT_GREATER then b <? a
  else if t =? SLJIT_LESS_EQUAL then a <=? b
  else if t =? SLJIT_SIG_LESS then sext n a <? sext n b
  else if t =? SLJIT_SIG_GREATER_EQUAL then sext n b <=? sext n a
  else if t =? SLJIT_SIG_GREATER then sext n b <? sext n a
  else if t =? SLJIT_SIG_LESS_EQUAL then sext n a <=? sext n b
  else if t =? SLJIT_OVERFLOW then ov
  else if t =? SLJIT_NOT_OVERFLOW then negb ov
  else if t =? SLJIT_CARRY then cy
  else negb cy.
(** The flag which a condition needs: check_sljit_emit_jump (sljitLir.c:2441-2474). *)
Definition needs (t : Z) : vflag :=
  if t <? 2 then VNone else if t <? 4 then VLess else if t <? 6 then VGreater else if t <? 8 then VSigLess else if t <? 10 then VSigGreater
  else if t <? 12 then VOverflow else VCarry.
Definition requested (o : op) (t : Z) : Prop := if t <? 2 then setz o = true else vf o = needs t.

(** The comparison of two [n] bit values: SLJIT_EQUAL .. SLJIT_SIG_LESS_EQUAL. *)
Definition compare (t n x y : Z) : bool :=
  let a := x mod 2 ^ n in
  let b := y mod 2 ^ n in
  if t =? SLJIT_EQUAL then a =? b
  else if t =? SLJIT_NOT_EQUAL then negb (a =? b)
  else if t =? SLJIT_LESS then a <? b
  else if t =? SLJIT_GREATER_EQUAL then b <=? a
  else if t =? SLJIT_GREATER then b <? a
  else if t =? SLJIT_LESS_EQUAL then a <=? b
  else if t =? SLJIT_SIG_LESS then sext n a <? sext n b
  else if t =? SLJIT_SIG_GREATER_EQUAL then sext n b <=? sext n a
  else if t =? SLJIT_SIG_GREATER then sext n b <? sext n a
  else sext n a <=? sext n b.

(** sljit_emit_op0: the new values of R0 and R1; None: undefined (division by zero or overflow). *)
Definition res0 (k : op0k) (n x y : Z) : option (Z * Z) :=
  let a := x mod 2 ^ n in
  let b := y mod 2 ^ n in
  let sa := sext n x in
  let sb := sext n y in
  let bad := (sb =? 0) || ((sb =? -1) && (sa =? - 2 ^ (n - 1))) in
  match k with
  | O_LMUL_UW => Some ((x * y) mod 2 ^ 64, x * y / 2 ^ 64)
  | O_LMUL_SW => Some ((sgn x * sgn y) mod 2 ^ 64, (sgn x * sgn y / 2 ^ 64) mod 2 ^ 64)
  | O_DIVMOD_UW => if b =? 0 then None else Some (canon n (a / b), canon n (a mod b))
  | O_DIVMOD_SW => if bad then None else Some (canon n (Z.quot sa sb), canon n (Z.rem sa sb))
  | O_DIV_UW => if b =? 0 then None else Some (canon n (a / b), y)
  | O_DIV_SW => if bad then None else Some (canon n (Z.quot sa sb), y)
  | O_NOP | O_MEMORY_BARRIER | O_ENDBR | O_SKIP_FRAMES => Some (x, y)
  end.
