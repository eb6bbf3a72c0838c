(** ARM64: what function entry and return should do, by the calling convention (AAPCS64: x0-x7 arguments, x19-x28 and the low halves of v8-v15
    preserved by calls, x29 frame pointer, x30 return address) and the API (sljitLir.h:843-935). *)
Require Import ZArith List Bool Lia.
From Verif Require Import Rv.RvLib Arm.ArmIsa Arm.ArmEnc Arm.ArmPair Arm.ArmFrame.
Import ListNotations.
Open Scope Z_scope.

Definition sp (s : fstate) : Z := xr (gs s) 31.
Definition gr (s : fstate) (k : Z) : Z := xr (gs s) k.
Definition mem (s : fstate) : Z -> Z := mm (gs s).
(** The values of the registers have 64 bits, the memory has bytes. *)
Definition wf (s : fstate) : Prop := (forall k, 0 <= gr s k < 2 ^ 64) /\ (forall k, 0 <= vd s k < 2 ^ 64) /\ (forall a, 0 <= mem s a < 256).

(** Arguments (sljitLir.h:322-345, 394-410): 1 to 3 are integers kept in a saved register, 9 to 11 integers in a scratch register, 4 and 5
    floating point numbers. *)
Definition arg_ok (t : Z) : Prop := 1 <= t <= 5 \/ 9 <= t <= 11.
Definition is_saved (t : Z) : bool := t <=? 3.
Definition saved_args (l : list Z) : Z := Z.of_nat (length (filter is_saved l)).
(** What sljit_emit_enter may be given (sljitLir.c:1413-1447). *)
Definition ctx_ok (c : ctx) : Prop :=
  0 <= c_scratches c /\ 0 <= c_saveds c <= 10 /\ c_scratches c + c_saveds c <= 26 /\ 0 <= c_fscratches c /\ 0 <= c_fsaveds c <= 8 /\ c_fscratches c + c_fsaveds c <= 30 /\
  0 <= c_local c <= 1048576 /\ 0 <= c_kept c <= 3 /\ c_kept c <= c_saveds c /\ (c_reg_arg c = false -> c_kept c = 0) /\
  Forall arg_ok (c_args c) /\ (length (c_args c) <= 4)%nat /\ (c_reg_arg c = false -> saved_args (c_args c) <= c_saveds c).

(** The registers the function may use: R0 .. are 1, 2, ..., S0, S1, ... are 26, 25, ...; FR0 .. are 1, ..., FS0, ... are 30, ... *)
Definition declared (c : ctx) (i : Z) : Prop := 1 <= i <= c_scratches c \/ 26 - c_saveds c < i <= 26.
Definition fdeclared (c : ctx) (i : Z) : Prop := 1 <= i <= c_fscratches c \/ 30 - c_fsaveds c < i <= 30.

(** Where the arguments are found; [n] integer arguments and [k] saved registers are already used. *)
Fixpoint args_in (s s1 : fstate) (l : list Z) (n k : Z) : Prop :=
  match l with
  | [] => True
  | t :: l =>
      if (t =? 4) || (t =? 5) then args_in s s1 l n k
      else if is_saved t then gr s1 (reg_map (26 - k)) = gr s n /\ args_in s s1 l (n + 1) (k + 1)
      else gr s1 (reg_map (1 + n)) = gr s n /\ args_in s s1 l (n + 1) k
  end.

(** [s]: called; [s1]: the body of the function starts. [F] is the size of the frame; the local area starts 16 bytes above the stack pointer. *)
Definition entered (c : ctx) (F : Z) (s s1 : fstate) : Prop :=
  c_local c + 16 <= F < 2 ^ 21 /\ F mod 16 = 0 /\ sp s1 = (sp s - F) mod 2 ^ 64 /\ gr s1 29 = sp s1 /\
  (forall x, 0 <= x < 2 ^ 64 -> F <= (x - sp s1) mod 2 ^ 64 -> mem s1 x = mem s x) /\
  (c_reg_arg c = false -> args_in s s1 (c_args c) 0 0) /\ vd s1 = vd s /\
  (forall i, 1 <= i <= 26 -> (c_reg_arg c = true \/ i <= 26 - saved_args (c_args c)) -> gr s1 (reg_map i) = gr s (reg_map i)) /\ wf s1.

(** What the body may do: anything with the registers declared and those not preserved by calls, and with memory outside of the parts of the
    frame below and above the local area. *)
Definition callee_saved (x : Z) : Prop := 19 <= x <= 28.
Definition vcallee_saved (x : Z) : Prop := 8 <= x <= 15.
Definition body (c : ctx) (F : Z) (s1 s2 : fstate) : Prop :=
  sp s2 = sp s1 /\ (forall x, 0 <= x < 2 ^ 64 -> (x - sp s1) mod 2 ^ 64 < 16 \/ 16 + c_local c <= (x - sp s1) mod 2 ^ 64 < F -> mem s2 x = mem s1 x) /\
  (forall x, callee_saved x -> (forall i, declared c i -> reg_map i <> x) -> gr s2 x = gr s1 x) /\
  (forall x, vcallee_saved x -> (forall i, fdeclared c i -> freg_map i <> x) -> vd s2 x = vd s1 x) /\ wf s2.

(** [s3]: back in the caller (or, with return_to, at another place). The registers S0 .. named by SLJIT_ENTER_KEEP and those not preserved by calls keep the value given by the body. *)
Definition left_frame (c : ctx) (s s2 s3 : fstate) : Prop :=
  sp s3 = sp s /\ gr s3 29 = gr s 29 /\
  (forall x, callee_saved x -> (forall i, 26 - c_kept c < i <= 26 -> reg_map i <> x) -> gr s3 x = gr s x) /\
  (forall x, vcallee_saved x -> vd s3 x = vd s x) /\
  (forall i, 26 - c_kept c < i <= 26 -> gr s3 (reg_map i) = gr s2 (reg_map i)) /\
  (forall x, 0 <= x <= 17 -> gr s3 x = gr s2 x) /\
  (forall x, ~ vcallee_saved x -> vd s3 x = vd s2 x) /\ mem s3 = mem s2.
