(** C27: logical_imm (ARM64) against the DecodeBitMasks function of the instruction set. *)
Require Import ZArith List Bool Lia.
From Verif Require Import Rv.RvLib Arm.ArmIsa Arm.ArmEnc Arm.ArmImm Arm.ArmLogImm.
Import ListNotations.
Open Scope Z_scope.

(** [li_len n check] is the second argument: 32 for operations of 64 bits, 16 for operations of 32
    bits, with LOGICAL_IMM_CHECK or without. With the check no assertion fails; without it none fails when the
    low n bits of the constant are neither all zeros nor all ones. *)
Theorem C27_total : forall imm n check, n = 64 \/ n = 32 -> - 2 ^ 63 <= imm < 2 ^ 63 ->
  check = true \/ imm mod 2 ^ n <> 0 /\ imm mod 2 ^ n <> 2 ^ n - 1 ->
  exists r, logical_imm imm (li_len n check) = Some r.
Proof. exact logical_imm_total. Qed.
Print Assumptions C27_total.

(** An accepted constant is encoded exactly: the field has no bits outside of N, immr and imms, and
    DecodeBitMasks gives the low n bits of the constant. *)
Theorem C27_sound : forall imm n check r, n = 64 \/ n = 32 -> - 2 ^ 63 <= imm < 2 ^ 63 ->
  logical_imm imm (li_len n check) = Some r -> r <> 0 ->
  exists N imms immr t, 0 <= N < 2 /\ 0 <= imms < 64 /\ 0 <= immr < 64 /\
    r = N * 2 ^ 22 + immr * 2 ^ 16 + imms * 2 ^ 10 /\
    decode_bit_masks N imms immr true n = Some (imm mod 2 ^ n, t).
Proof. exact logical_imm_sound. Qed.
Print Assumptions C27_sound.

(** The full statement "a refused constant has no encoding" is false for one constant of each
    size, see below; it holds for all the others. *)
Theorem C27_complete_partial : forall imm n check, n = 64 \/ n = 32 -> - 2 ^ 63 <= imm < 2 ^ 63 ->
  logical_imm imm (li_len n check) = Some 0 ->
  (exists N imms immr t, 0 <= N < 2 /\ 0 <= imms < 64 /\ 0 <= immr < 64 /\
     decode_bit_masks N imms immr true n = Some (imm mod 2 ^ n, t)) ->
  imm mod 2 ^ n = if n =? 64 then 0x100000001 else 1.
Proof. exact logical_imm_only_zero. Qed.
Print Assumptions C27_complete_partial.

(** The encoding of 0x0000000100000001 (64 bit) and of 1 (32 bit) is the field zero, which
    the callers take for a refusal. *)
Theorem C27_complete_refuted : exists imm n, n = 64 /\ - 2 ^ 63 <= imm < 2 ^ 63 /\ logical_imm imm (li_len n true) = Some 0 /\
  exists t, decode_bit_masks 0 0 0 true n = Some (imm mod 2 ^ n, t).
Proof. exact logical_imm_zero_refuted. Qed.
Print Assumptions C27_complete_refuted.
Theorem C27_complete32_refuted : exists imm n, n = 32 /\ - 2 ^ 63 <= imm < 2 ^ 63 /\ logical_imm imm (li_len n true) = Some 0 /\
  exists t, decode_bit_masks 0 0 0 true n = Some (imm mod 2 ^ n, t).
Proof. exact logical_imm_zero32_refuted. Qed.
Print Assumptions C27_complete32_refuted.

(** Cases: accepted and refused constants. *)
Example C27_cases :
  map (fun imm => logical_imm imm (li_len 64 true)) [0x5555555555555555; 0x00ff00ff00ff00ff; -2; 0x8000000000000001 - 2 ^ 64; 0x1234; 0; -1] =
    [Some 0xf000; Some 0x9c00; Some 0x7ff800; Some 0x410400; Some 0; Some 0; Some 0] /\
  map (fun imm => logical_imm imm (li_len 32 true)) [0x55555555; 0xfff; -0x1000; 5] = [Some 0xf000; Some 0x2c00; Some 0x144c00; Some 0].
Proof. vm_compute. split; reflexivity. Qed.
