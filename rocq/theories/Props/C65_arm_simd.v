(** C65: ARM64, an integer is copied to all lanes of a vector register. *)
Require Import ZArith List Bool Lia.
From Verif Require Import Rv.RvLib Arm.ArmIsa Arm.ArmOp Arm.ArmOpSpec Arm.ArmMemSpec Arm.ArmFrame Arm.ArmVec Arm.ArmSimd Arm.ArmSimdSpec Arm.ArmSimdRep.
Import ListNotations.
Open Scope Z_scope.

(** The code exists and its execution writes the value to each lane and nothing else. *)
Theorem C65_replicate q es vreg src s : legal_simd q es vreg src ->
  exists ws s', emit_simd_replicate q es vreg src = Some ws /\ run_v ws s = Some s' /\ did_replicate q es vreg src s s'.
Proof. exact (replicate_ok q es vreg src s). Qed.
Print Assumptions C65_replicate.

(** One instruction (mvni v0.4s, #0x12, lsl #8) for an inverted byte; other values are loaded first. *)
Example inverted_case : legal_simd true 2 1 (AImm (-0x1201)) /\ emit_simd_replicate true 2 1 (AImm (-0x1201)) = Some [0x6f002640].
Proof. split; [unfold legal_simd; lia|vm_compute; reflexivity]. Qed.
Example halves_case : emit_simd_replicate true 3 1 (AImm 0x2b002b002b002b) = Some [0x4f018560].
Proof. vm_compute. reflexivity. Qed.
Example loaded_case : legal_simd false 1 1 (AImm 0x1234) /\ emit_simd_replicate false 1 1 (AImm 0x1234) = Some [0xd282468a; 0x0e020d40].
Proof. split; [unfold legal_simd; lia|vm_compute; reflexivity]. Qed.
Example register_case : legal_simd true 3 2 (AReg 1) /\ emit_simd_replicate true 3 2 (AReg 1) = Some [0x4e080c01].
Proof. split; [unfold legal_simd; lia|vm_compute; reflexivity]. Qed.
