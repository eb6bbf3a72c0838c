(** Specification of function entry, return and calls in terms of the calling conventions (System V AMD64 psABI, chapter 3.2; Microsoft x64, [w]).
    Registers of [xr] are hardware registers: rax 0, rcx 1, rdx 2, rbx 3, rsp 4, rbp 5, rsi 6, rdi 7, r8 - r15. *)
Require Import ZArith List Bool.
From Verif Require Import Rv.RvLib Rv.RvIsa Rv.RvFrameSpec X86.X86Isa X86.X86Emit X86.X86Spec X86.X86OpSpec X86.X86Link X86.X86LinkSpec.
Import ListNotations.
Open Scope Z_scope.

(** Registers preserved by calls, apart from the stack pointer. *)
Definition xcallee_saved (w : bool) (x : Z) : Prop := In x (if w then [3; 5; 6; 7; 12; 13; 14; 15] else [3; 5; 12; 13; 14; 15]).
(** The register of an integer argument, [n] integer arguments and [p] arguments in all precede it. *)
Definition arg_reg (w : bool) (n p : nat) : Z := if w then nth p [1; 2; 8; 9] 0 else nth n [7; 6; 2; 1] 0.
(** Bytes above the local area which belong to the functions called (Windows), below the local area. *)
Definition home (w : bool) : Z := if w then 32 else 0.

(** The numbers of registers: R0 .. are 1, 2, ..., and S0, S1, .. are 13, 12, ... (sljitConfigInternal.h:617-633) *)
Definition xsaved_regs (w : bool) : Z := if w then 8 else 6.
Definition xscratch_regs (w : bool) : Z := 13 - xsaved_regs w.
(** Documented requirements (sljitLir.h:843-935, checked by sljitLir.c:1413-1447). *)
Definition xfunc_ok (w : bool) (f : func) : Prop :=
  0 <= f_scratches f /\ 0 <= f_saveds f <= xsaved_regs w /\ f_scratches f + f_saveds f <= 13 /\
  0 <= f_fscratches f /\ 0 <= f_fsaveds f <= (if w then 10 else 0) /\ f_fscratches f + f_fsaveds f <= 15 /\
  0 <= f_vscratches f <= 15 /\ 0 <= f_local f <= 1048576 /\
  0 <= f_kept f <= 3 /\ f_kept f <= f_saveds f /\ (f_reg_arg f = false -> f_kept f = 0) /\
  0 <= f_ret f <= 5 /\ Forall atype_ok (f_args f) /\ (length (f_args f) <= 4)%nat /\
  count is_saved (f_args f) <= (if f_reg_arg f then 0 else f_saveds f) /\
  scratch_end (f_args f) 0 <= f_scratches f /\ count is_float (f_args f) <= f_fscratches f.
(** Floating point arguments come first. *)
Fixpoint floats_first (l : list atype) : Prop := match l with AFloat _ :: l => floats_first l | l => count is_float l = 0 end.
(** On Windows: no floating point arguments after an integer argument, and at most 5 floating point or vector registers, none of them saved. *)
Definition no_floats (w : bool) (f : func) : Prop :=
  w = true -> floats_first (f_args f) /\ f_fsaveds f = 0 /\ f_fscratches f <= 5 /\ f_vscratches f <= 5.

Definition xdeclared (f : func) (i : Z) : Prop := 1 <= i <= f_scratches f \/ 13 - f_saveds f < i <= 13.
(** The number of registers that have to be saved. *)
Definition xnsaved (w : bool) (f : func) : Z := (f_saveds f - f_kept f) + Z.max 0 (f_scratches f - xscratch_regs w).

(** Where the arguments are found in the function; [n] integer arguments, [k] saved registers and [p] arguments are already used. *)
Fixpoint xargs_in (w : bool) (g : Z -> Z) (s1 : xst) (l : list atype) (n k p : nat) : Prop :=
  match l with
  | [] => True
  | AFloat _ :: l => xargs_in w g s1 l n k (S p)
  | ASaved _ :: l => xr s1 (reg_map w (13 - Z.of_nat k)) = g (arg_reg w n p) /\ xargs_in w g s1 l (S n) (S k) (S p)
  | AScratch _ :: l => xr s1 (reg_map w (1 + Z.of_nat n)) = g (arg_reg w n p) /\ xargs_in w g s1 l (S n) k (S p)
  end.
Definition words (l : list atype) : Z := count (fun a => negb (is_float a)) l.

(** [s]: called, the return address is on the top of the stack; [s1]: the function body starts. [F] is the size of the frame (without the return address). *)
Definition xentered (w : bool) (f : func) (F : Z) (s s1 : xst) : Prop :=
  f_local f + home w + 8 * xnsaved w f <= F < 2 ^ 21 /\ F mod 16 = 8 /\
  xr s1 4 = wrap (xr s 4 - F) /\
  (forall x, isw x -> F <= wrap (x - xr s1 4) -> xm s1 x = xm s x) /\
  (f_reg_arg f = false -> xargs_in w (xr s) s1 (f_args f) 0 0 0) /\
  (forall i, 1 <= i <= 13 -> f_reg_arg f = true \/ words (f_args f) < i <= 13 - count is_saved (f_args f) -> xr s1 (reg_map w i) = xr s (reg_map w i)).

(** What the body may do between [s1] and [s2]: anything with the registers declared and those not preserved by calls, and with memory outside of the part of the
    frame above the local area and the return address. *)
Definition xbody (w : bool) (f : func) (F : Z) (s1 s2 : xst) : Prop :=
  xr s2 4 = xr s1 4 /\
  (forall x, isw x -> home w + f_local f <= wrap (x - xr s1 4) < F + 8 -> xm s2 x = xm s1 x) /\
  (forall x, xcallee_saved w x -> (forall i, xdeclared f i -> reg_map w i <> x) -> xr s2 x = xr s1 x).

(** [s3] is reached from [s2] by leaving the function called in [s]. The registers S0 .. named by SLJIT_ENTER_KEEP keep the value given by the body. *)
Definition xrestored (w : bool) (f : func) (s s2 s3 : xst) : Prop :=
  (forall x, xcallee_saved w x -> (forall i, 13 - f_kept f < i <= 13 -> reg_map w i <> x) -> xr s3 x = xr s x) /\
  (forall i, 13 - f_kept f < i <= 13 -> xr s3 (reg_map w i) = xr s2 (reg_map w i)) /\
  xm s3 = xm s2.
(** ... and so do the registers not preserved by calls, which hold return values. *)
Definition xleft (w : bool) (f : func) (s s2 s3 : xst) : Prop :=
  xrestored w f s s2 s3 /\ (forall i, 1 <= i <= xscratch_regs w -> xr s3 (reg_map w i) = xr s2 (reg_map w i)).
(** The return address of the function called in [s]. *)
Definition return_address (s : xst) : Z := load (xm s) (xr s 4) 8.

(** Where the arguments of a call, R0, R1, ... in [s], are put. *)
Fixpoint xargs_out (w : bool) (s s' : xst) (l : list atype) (n p : nat) : Prop :=
  match l with
  | [] => True
  | AFloat _ :: l => xargs_out w s s' l n (S p)
  | _ :: l => xr s' (arg_reg w n p) = xr s (reg_map w (1 + Z.of_nat n)) /\ xargs_out w s s' l (S n) (S p)
  end.

(** Code at address [a]: executed from [s] it leads to an instruction pointer and a state with property [P]; [P] gets the address after the code, too. *)
Definition ends (u : Z) (code : option (list Z)) (s : xst) (P : Z -> Z -> xst -> Prop) : Prop :=
  exists l, code = Some l /\ forall codef a, 0 <= a -> a + zlen l + 15 < 2 ^ 64 -> fetches a 0 l codef ->
  exists pc s', csteps codef u a s pc s' /\ P (a + zlen l) pc s' /\ xwf s'.
(** Code which is left at its end. *)
Definition cdoes (u : Z) (code : option (list Z)) (s : xst) (P : xst -> Prop) : Prop :=
  exists l, code = Some l /\ exists s', P s' /\ xwf s' /\ forall codef a, 0 <= a -> a + zlen l + 15 < 2 ^ 64 -> fetches a 0 l codef -> csteps codef u a s (a + zlen l) s'.
(** The code of sljit_emit_enter is at [a], that of [exit] at [b]. The function is called in [s]; when the body leads to [s2] then [exit] leads to an instruction
    pointer and a state with [R], which gets the address after the code of [exit], too. *)
Definition xfunction_at (u : Z) (w : bool) (f : func) (enter exit : option (list Z)) (s : xst) (R : xst -> Z -> Z -> xst -> Prop) : Prop :=
  exists l1 l2, enter = Some l1 /\ exit = Some l2 /\ forall codef a b,
    0 <= a -> a + zlen l1 + 15 < 2 ^ 64 -> 0 <= b -> b + zlen l2 + 15 < 2 ^ 64 -> fetches a 0 l1 codef -> fetches b 0 l2 codef ->
    exists F s1, csteps codef u a s (a + zlen l1) s1 /\ xwf s1 /\ xentered w f F s s1 /\
    forall s2, xwf s2 -> xbody w f F s1 s2 -> exists pc s3, csteps codef u b s2 pc s3 /\ xwf s3 /\ R s2 (b + zlen l2) pc s3.
(** The arguments of a call: with SLJIT_CALL_REG_ARG they stay in R0, R1, .... *)
Definition xcall_args (w reg_arg : bool) (s s' : xst) (l : list atype) : Prop :=
  if reg_arg then forall i, 1 <= i <= xscratch_regs w -> xr s' (reg_map w i) = xr s (reg_map w i) else xargs_out w s s' l 0 0.
(** The argument types of a call as passed to sljit_emit_call: [t] is the type returned. *)
Definition call_types (t : Z) (l : list atype) : Z := t + 16 * acodes l.
Definition call_ok (w : bool) (t : Z) (l : list atype) : Prop := 0 <= t <= 5 /\ Forall atype_ok l /\ (length l <= 4)%nat /\ (w = true -> floats_first l).
