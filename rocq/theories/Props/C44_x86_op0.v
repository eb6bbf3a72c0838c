(** C44: sljit_emit_op0 on x86-64: multiplications and divisions of SLJIT_R0 (1) and SLJIT_R1 (2). *)
Require Import ZArith List Bool Lia.
From Verif Require Import Rv.RvLib Rv.RvIsa Rv.RvMem Rv.RvOp Rv.RvLir Rv.RvCond X86.X86Isa X86.X86Emit X86.X86Spec X86.X86OpSpec X86.X86Op X86.X86C34 X86.X86Misc X86.X86Op0P X86.X86C43.
Import ListNotations.
Open Scope Z_scope.

(** The processor does not fault, and the results are those of the API (sljitLir.h:1177-1212) when they are defined.  [keeps]: DIV, which must not change SLJIT_R1.
    Full statement: the theorem without [w && m = false]; it is false, see C44_keeps_refuted (the low half of SLJIT_R1 is kept always). *)
Theorem C44_op0_partial : forall u w m k s q r, op0_legal k m -> xwf s -> let n := nbits m in
  val0 k n (xr s (reg_map w 1)) (xr s (reg_map w 2)) = Some (q, r) ->
  does u (emit_op0 w k m) s (fun s' => xr s' (reg_map w 1) = q mod 2 ^ n /\ xr s' (reg_map w 2) mod 2 ^ n = r mod 2 ^ n
    /\ (keeps k = false -> xr s' (reg_map w 2) < 2 ^ n) /\ (keeps k = true -> w && m = false -> xr s' (reg_map w 2) = xr s (reg_map w 2))
    /\ xm s' = xm s /\ regs_same w (1 :: 2 :: TMPS) s s').
Proof. exact op0_user. Qed.
Print Assumptions C44_op0_partial.

(** DIV_U32 with the calling convention of Windows: 100 / (2^40 + 7); the upper half of SLJIT_R1 is lost. *)
Theorem C44_keeps_refuted : op0_legal O_DIV_UW true /\ xwf demod /\ val0 O_DIV_UW 32 (xr demod (reg_map true 1)) (xr demod (reg_map true 2)) = Some (14, 2 ^ 40 + 7) /\
  ~ does 0 (emit_op0 true O_DIV_UW true) demod (fun s' => xr s' (reg_map true 2) = xr demod (reg_map true 2)).
Proof. exact op0_keeps_wrong. Qed.
Print Assumptions C44_keeps_refuted.

(** Cases, on both conventions: (2^64 - 1)^2; -7 / 2 with remainder; the division keeps SLJIT_R1. *)
Definition st (w : bool) (x y : Z) : xst := setr (setr demo (reg_map w 1) x) (reg_map w 2) y.
Definition res (w : bool) (k : op0k) (m : bool) (x y : Z) : option (Z * Z) :=
  match emit_op0 w k m with Some l => match run 0 9 l (st w x y) with Some s' => Some (xr s' (reg_map w 1), xr s' (reg_map w 2)) | None => None end | None => None end.
Example C44_cases : (forall w, xwf (st w (2 ^ 64 - 7) 2)) /\ val0 O_DIVMOD_SW 64 (2 ^ 64 - 7) 2 = Some (-3, -1) /\ op0_legal O_LMUL_SW false /\
  (forall w, res w O_LMUL_UW false (2 ^ 64 - 1) (2 ^ 64 - 1) = Some (1, 2 ^ 64 - 2)) /\
  (forall w, res w O_LMUL_SW false (2 ^ 64 - 1) (2 ^ 64 - 1) = Some (1, 0)) /\
  (forall w, res w O_DIVMOD_SW false (2 ^ 64 - 7) 2 = Some (2 ^ 64 - 3, 2 ^ 64 - 1)) /\
  (forall w, res w O_DIV_SW true (2 ^ 32 - 7) 2 = Some (2 ^ 32 - 3, 2)) /\
  (forall w, res w O_DIV_UW false (2 ^ 64 - 7) 2 = Some (2 ^ 63 - 4, 2)).
Proof.
  split; [|repeat split; intros []; vm_compute; reflexivity].
  intros w r. unfold st, setr. cbn [xr]. destruct (r =? reg_map w 2); [unfold isw; lia|]. destruct (r =? reg_map w 1); [unfold isw; lia|apply demo_wf].
Qed.
