(** Specification of function entry and return in terms of the RISC-V calling convention (registers are hardware registers
    unless said otherwise). *)
Require Import ZArith List Bool.
From Verif Require Import Rv.RvLib Rv.RvIsa Rv.RvEnc Rv.RvRun.
Import ListNotations.
Open Scope Z_scope.

(** The arguments of a function (sljitLir.h:322-345, 394-410): an integer (1 word, 2 32 bit, 3 pointer) kept in a saved register or
    in a scratch register, or a floating point number (4 double, 5 single). *)
Inductive atype := ASaved (t : Z) | AScratch (t : Z) | AFloat (t : Z).
(** A function, as described to sljit_emit_enter. *)
Record func := mkF {
  f_reg_arg : bool;      (* SLJIT_ENTER_REG_ARG *)
  f_kept : Z;            (* SLJIT_ENTER_KEEP *)
  f_scratches : Z; f_saveds : Z; f_fscratches : Z; f_fsaveds : Z; f_vscratches : Z;
  f_local : Z;
  f_ret : Z;             (* 0 none, 1-5 as for arguments *)
  f_args : list atype }.

(** The arguments passed to sljit_emit_enter (sljitLir.h:414, 910, 917, 928, 932). *)
Definition options_of (f : func) : Z := (if f_reg_arg f then 4 else 0) + f_kept f.
Definition scratches_of (f : func) : Z := f_scratches f + 256 * f_fscratches f + 65536 * f_vscratches f.
Definition saveds_of (f : func) : Z := f_saveds f + 256 * f_fsaveds f.
Definition acode (a : atype) : Z := match a with ASaved t => t | AScratch t => t + 8 | AFloat t => t end.
Fixpoint acodes (l : list atype) : Z := match l with [] => 0 | a :: l => acode a + 16 * acodes l end.
Definition arg_types_of (f : func) : Z := f_ret f + 16 * acodes (f_args f).

Definition atype_ok (a : atype) : Prop :=
  match a with ASaved t | AScratch t => 1 <= t <= 3 | AFloat t => 4 <= t <= 5 end.
Definition is_saved (a : atype) : bool := match a with ASaved _ => true | _ => false end.
Definition is_float (a : atype) : bool := match a with AFloat _ => true | _ => false end.
Definition count (p : atype -> bool) (l : list atype) : Z := Z.of_nat (length (filter p l)).
(** The number of scratch registers needed by the arguments kept in scratch registers. *)
Fixpoint scratch_end (l : list atype) (n : Z) : Z :=
  match l with
  | [] => 0
  | AFloat _ :: l => scratch_end l n
  | ASaved _ :: l => scratch_end l (n + 1)
  | AScratch _ :: l => Z.max (n + 1) (scratch_end l (n + 1))
  end.
(** Documented requirements (sljitLir.h:843-935, checked by sljitLir.c:1413-1447). *)
Definition func_ok (f : func) : Prop :=
  0 <= f_scratches f /\ 0 <= f_saveds f <= 12 /\ f_scratches f + f_saveds f <= 23 /\
  0 <= f_fscratches f /\ 0 <= f_fsaveds f <= 12 /\ f_fscratches f + f_fsaveds f <= 30 /\
  0 <= f_vscratches f <= 30 /\ 0 <= f_local f <= 1048576 /\
  0 <= f_kept f <= 3 /\ f_kept f <= f_saveds f /\ (f_reg_arg f = false -> f_kept f = 0) /\
  0 <= f_ret f <= 5 /\ Forall atype_ok (f_args f) /\ (length (f_args f) <= 4)%nat /\
  count is_saved (f_args f) <= (if f_reg_arg f then 0 else f_saveds f) /\
  scratch_end (f_args f) 0 <= f_scratches f /\ count is_float (f_args f) <= f_fscratches f.

(** Registers the function may use: sljit registers R0 .. are 1, 2, ..., and S0, S1, .. are 23, 22, ...; for floating point registers
    FR0 .. and FS0 .. are 1, .. and 30, ... *)
Definition declared (f : func) (i : Z) : Prop := 1 <= i <= f_scratches f \/ 23 - f_saveds f < i <= 23.
Definition fdeclared (f : func) (i : Z) : Prop := 1 <= i <= f_fscratches f \/ 30 - f_fsaveds f < i <= 30.
(** The number of registers that have to be saved, with the return address. *)
Definition nsaved (f : func) : Z :=
  1 + (f_saveds f - f_kept f) + Z.max 0 (f_scratches f - 11) + f_fsaveds f + Z.max 0 (f_fscratches f - 18).

(** Registers preserved across calls: s0-s11 are x8, x9, x18-x27; fs0-fs11 are f8, f9, f18-f27. x2 is the stack pointer,
    x1 the return address, x10-x17 the argument registers. *)
Definition callee_saved (x : Z) : Prop := 8 <= x <= 9 \/ 18 <= x <= 27.

(** Where the arguments are found in the function; [n] integer arguments and [k] saved registers are already used. *)
Fixpoint args_in (f : Z -> Z) (s1 : mst) (l : list atype) (n k : Z) : Prop :=
  match l with
  | [] => True
  | AFloat _ :: l => args_in f s1 l n k
  | ASaved _ :: l => rd s1 (23 - k) = f (10 + n) /\ args_in f s1 l (n + 1) (k + 1)
  | AScratch _ :: l => rd s1 (1 + n) = f (10 + n) /\ args_in f s1 l (n + 1) k
  end.

(** [s]: called; [s1]: the function body starts. [F] is the size of the frame. *)
Definition entered (f : func) (F : Z) (s s1 : mst) : Prop :=
  f_local f + 8 * nsaved f <= F < 2 ^ 21 /\ F mod 16 = 0 /\
  getr s1 2 = wrap (getr s 2 - F) /\
  (forall x, isw x -> F <= wrap (x - getr s1 2) -> mem s1 x = mem s x) /\
  (f_reg_arg f = false -> args_in (getr s) s1 (f_args f) 0 0) /\
  fregs s1 = fregs s /\
  getr s1 1 = getr s 1 /\ (forall x, 10 <= x <= 17 -> getr s1 x = getr s x) /\
  (forall i, 1 <= i <= 23 -> (f_reg_arg f = true \/ i <= 23 - count is_saved (f_args f)) -> rd s1 i = rd s i).

(** What the body may do between [s1] and [s2]: anything with the registers declared
    and those not preserved by calls, and with memory outside of the part of the
    frame above the local area. *)
Definition body (f : func) (F : Z) (s1 s2 : mst) : Prop :=
  getr s2 2 = getr s1 2 /\
  (forall x, isw x -> f_local f <= wrap (x - getr s1 2) < F -> mem s2 x = mem s1 x) /\
  (forall x, callee_saved x -> (forall i, declared f i -> reg_map i <> x) -> getr s2 x = getr s1 x) /\
  (forall x, callee_saved x -> (forall i, fdeclared f i -> freg_map i <> x) -> fregs s2 x = fregs s1 x).

(** [s3] is reached from [s2] by returning to the caller of [s]. The registers S0 .. named by SLJIT_ENTER_KEEP keep the value
    given by the body, and so do the registers not preserved by calls, which hold return values. *)
Definition left_frame (f : func) (s s2 s3 : mst) : Prop :=
  getr s3 2 = getr s 2 /\
  (forall x, callee_saved x -> (forall i, 23 - f_kept f < i <= 23 -> reg_map i <> x) -> getr s3 x = getr s x) /\
  (forall x, callee_saved x -> fregs s3 x = fregs s x) /\
  (forall i, 23 - f_kept f < i <= 23 -> rd s3 i = rd s2 i) /\
  (forall i, 1 <= i <= 11 -> rd s3 i = rd s2 i) /\
  (forall x, ~ callee_saved x -> fregs s3 x = fregs s2 x) /\
  mem s3 = mem s2.
