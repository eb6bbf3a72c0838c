(** What the operators of the x86-64 backend must do to the state of the processor: operands, results, what stays unchanged.  The results
    themselves are those of the generic specification (Rv/RvLir.v, Rv/RvCondSpec.v). *)
Require Import ZArith List Bool Lia.
From Verif Require Import Rv.RvLib Rv.RvIsa Rv.RvMem X86.X86Isa X86.X86Emit X86.X86Spec.
Import ListNotations.
Open Scope Z_scope.

(** Registers hold 64 bit words. *)
Definition xwf (s : xst) : Prop := forall r, isw (xr s r).
(** The registers of the user: SLJIT_R0 .. SLJIT_R12 (sljitConfigInternal.h:619-633); memory operands (sljitLir.c:960-1000). *)
Definition xureg (r : Z) : Prop := 1 <= r <= 13.
Definition xmem_legal (base offs imm : Z) : Prop :=
  (base = 0 /\ offs = 0 \/ (xureg base \/ base = 14) /\ (offs = 0 \/ xureg offs /\ 0 <= imm <= 3)) /\ - 2 ^ 63 <= imm < 2 ^ 63.
Definition xsrc_legal (a : arg) (imm : Z) : Prop :=
  match a with AReg r => xureg r /\ imm = 0 | AImm => - 2 ^ 63 <= imm < 2 ^ 63 | AMem b o => xmem_legal b o imm end.
Definition xdst_legal (a : arg) (imm : Z) : Prop :=
  match a with AReg r => xureg r /\ imm = 0 | AImm => False | AMem b o => xmem_legal b o imm end.
(** The [n] bit value of an operand. *)
Definition xval (w : bool) (n : Z) (s : xst) (a : arg) (imm : Z) : Z :=
  match a with
  | AReg r => xr s (reg_map w r) mod 2 ^ n
  | AImm => imm mod 2 ^ n
  | AMem b o => load (xm s) (xaddr w s b o imm) (Z.to_nat (n / 8))
  end.
(** Registers (of the LIR, SLJIT_SP, and the temporary ones) not in [L] are unchanged. *)
Definition regs_same (w : bool) (L : list Z) (s s' : xst) : Prop := forall r, 1 <= r <= 16 -> ~ In r L -> xr s' (reg_map w r) = xr s (reg_map w r).
Definition flags_same (s s' : xst) : Prop := xcf s' = xcf s /\ xzf s' = xzf s /\ xsf s' = xsf s /\ xof s' = xof s.
(** The operand [a] was set to the [n] bit value [v]; in addition only registers in [L] and flags may have changed. *)
Definition wrote (w : bool) (n : Z) (L : list Z) (s : xst) (a : arg) (imm v : Z) (s' : xst) : Prop :=
  match a with
  | AReg r => xr s' (reg_map w r) = v mod 2 ^ n /\ xm s' = xm s /\ regs_same w (r :: L) s s'
  | AImm => False
  | AMem b o => xm s' = store (xm s) (xaddr w s b o imm) (v mod 2 ^ n) (Z.to_nat (n / 8)) /\ regs_same w L s s'
  end.
(** The temporary registers, which the user does not see. *)
Definition TMPS : list Z := [15; 16].
(** Running the emitted code [c] (emission succeeds) from [s] leads to a state with property [P]. *)
Definition does (u : Z) (c : option (list Z)) (s : xst) (P : xst -> Prop) : Prop :=
  exists l, c = Some l /\ exists s', runs u l s s' /\ P s' /\ xwf s'.
