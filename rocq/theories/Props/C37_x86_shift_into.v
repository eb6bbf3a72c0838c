(** C37: sljit_emit_shift_into on x86-64. *)
Require Import ZArith List Bool Lia.
From Verif Require Import Rv.RvLib Rv.RvIsa Rv.RvMem Rv.RvOp Rv.RvLir Rv.RvShiftInto X86.X86Isa X86.X86Emit X86.X86Spec X86.X86OpSpec X86.X86Op X86.X86Into X86.X86C34 X86.X86C37.
Import ListNotations.
Open Scope Z_scope.

(** Full statement: the theorem without the hypothesis [into_bad ... = false].  It is false of the code, see C37_into_refuted.  Excluded are:
    an immediate amount of zero unless the destination is the first source; rotations that emit_shift gets wrong (C34: an amount in memory at a
    displacement beyond 32 bits whose address uses the destination); and, for destinations that are neither SLJIT_R3 nor the first source, an amount
    in memory whose address uses the destination, and an amount in the destination when the first source is SLJIT_R3. *)
Theorem C37_into_partial : forall u w is32 left dst src1 src2 src3 src3w s, into_legal dst src1 src2 src3 src3w -> into_bad is32 dst src1 src2 src3 src3w = false -> xwf s ->
  let n := nbits is32 in
  does u (emit_shift_into w is32 left dst src1 src2 src3 src3w) s (fun s' =>
    xr s' (reg_map w dst) mod 2 ^ n = res_into left n (xr s (reg_map w src1)) (xr s (reg_map w src2)) (xval w n s src3 src3w mod n) mod 2 ^ n
    /\ xm s' = xm s /\ regs_same w (dst :: TMPS) s s').
Proof. exact into_user. Qed.
Print Assumptions C37_into_partial.

(** SLJIT_UPPER_BITS_ZERO_EXTENDED; nothing is emitted for a shift by an immediate zero. *)
Theorem C37_upper_partial : forall u w left dst src1 src2 src3 src3w s,
  into_legal dst src1 src2 src3 src3w -> into_bad true dst src1 src2 src3 src3w = false -> into_zero true src3 src3w = false -> xwf s ->
  does u (emit_shift_into w true left dst src1 src2 src3 src3w) s (fun s' => 0 <= xr s' (reg_map w dst) < 2 ^ 32).
Proof. exact into_upper. Qed.
Print Assumptions C37_upper_partial.

(** R0 = R1 << 0 with R2 shifted in; R0 = R1 << [R0]; R0 = R3 << R0; R0 = R1 rotated by [R0 + 2^40], which destroys R3. *)
Theorem C37_into_refuted :
  (into_legal 1 2 3 AImm 64 /\ into_legal 1 2 3 (AMem 1 0) 0 /\ into_legal 1 4 3 (AReg 1) 0 /\ into_legal 1 2 2 (AMem 1 0) (2 ^ 40) /\ xwf demo)
  /\ ~ does 0 (emit_shift_into false false true 1 2 3 AImm 64) demo (fun s' =>
       xr s' (reg_map false 1) mod 2 ^ 64 = res_into true 64 (xr demo (reg_map false 2)) (xr demo (reg_map false 3)) (xval false 64 demo AImm 64 mod 64) mod 2 ^ 64)
  /\ ~ does 0 (emit_shift_into false false true 1 2 3 (AMem 1 0) 0) demo5 (fun s' =>
       xr s' (reg_map false 1) mod 2 ^ 64 = res_into true 64 (xr demo5 (reg_map false 2)) (xr demo5 (reg_map false 3)) (xval false 64 demo5 (AMem 1 0) 0 mod 64) mod 2 ^ 64)
  /\ ~ does 0 (emit_shift_into false false true 1 4 3 (AReg 1) 0) demo (fun s' =>
       xr s' (reg_map false 1) mod 2 ^ 64 = res_into true 64 (xr demo (reg_map false 4)) (xr demo (reg_map false 3)) (xval false 64 demo (AReg 1) 0 mod 64) mod 2 ^ 64)
  /\ ~ does 0 (emit_shift_into false false true 1 2 2 (AMem 1 0) (2 ^ 40)) demo (fun s' => xr s' (reg_map false 4) = xr demo (reg_map false 4)).
Proof. exact into_wrong. Qed.
Print Assumptions C37_into_refuted.

(** Cases: R3 = R1 >> [R0] with R2 = 9 shifted in, by 3; R0 = R1 << R2 with R3 shifted in, by 9 (R3 is saved and restored); 32 bit
    rotation. *)
Example C37_cases :
  (into_legal 4 2 3 (AMem 1 0) 0 /\ into_bad false 4 2 3 (AMem 1 0) 0 = false) /\ (into_legal 1 2 4 (AReg 3) 0 /\ into_bad false 1 2 4 (AReg 3) 0 = false)
  /\ (into_legal 1 2 2 AImm 33 /\ into_bad true 1 2 2 AImm 33 = false)
  /\ (match emit_shift_into false false false 4 2 3 (AMem 1 0) 0 with
      | Some l => match run 0 20 l (setr demo 7 9) with Some s' => Some (xr s' 1) | None => None end | None => None end) = Some (9 * 2 ^ 61 mod 2 ^ 64)
  /\ (match emit_shift_into false false true 1 2 4 (AReg 3) 0 with
      | Some l => match run 0 20 l (setr (setr demo 7 9) 1 (2 ^ 63)) with Some s' => Some (xr s' 0, xr s' 1) | None => None end | None => None end) = Some (7 * 2 ^ 9 + 2 ^ 8, 2 ^ 63)
  /\ (match emit_shift_into false true true 1 2 2 AImm 33 with
      | Some l => match run 0 20 l (setr demo 6 0x80000001) with Some s' => Some (xr s' 0) | None => None end | None => None end) = Some 3.
Proof.
  split; [split; [legal3|reflexivity]|]. split; [split; [legal3|reflexivity]|]. split; [split; [legal3|reflexivity]|]. repeat split; vm_compute; reflexivity.
Qed.
