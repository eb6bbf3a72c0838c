(** C58: ARM64: operands in memory. *)
Require Import ZArith List Bool Lia.
From Verif Require Import Rv.RvLib Arm.ArmIsa Arm.ArmEnc Arm.ArmJump Arm.ArmJumpSpec Arm.ArmOp Arm.ArmOpSpec Arm.ArmMem Arm.ArmMemSpec Arm.ArmMemProofs Arm.ArmMemOps Arm.ArmMemOp2 Arm.ArmMemOp1.
Import ListNotations.
Open Scope Z_scope.

(** A load or store of 1, 2, 4 or 8 bytes at any address form: exactly the bytes at the address are loaded (extended by the sign or by zeros) or
    stored, no other byte and no register but the destination and the temporary one changes, the flags do not. *)
Theorem C58_mem_exact : forall sh sg store reg tmp, 0 <= sh <= 3 -> (sg = true -> sh <= 2) -> legal_reg reg -> legal_tmp tmp -> (store = true -> reg <> tmp) -> forall m s, legal_mem m ->
  exists ws s', emit_op_mem sh sg store reg m tmp = Some ws /\ run ws s = Some s' /\ did_mem sh sg store reg m tmp s s'.
Proof. exact emit_op_mem_ok. Qed.
Print Assumptions C58_mem_exact.

(** Operations with two operands: each of the operands and the destination may be in memory. *)
Theorem C58_op2_mem : forall op w32 setf d a1 a2 s, legal_dest op d -> legal_src a1 -> legal_src a2 -> (setf = true -> has_flags op = true) -> byte_mem (mm s) ->
  exists ws s', emit_op2 op w32 setf d a1 a2 = Some ws /\ run ws s = Some s' /\ did_op2m op w32 setf (negb (dst_reg d =? TMP_REG2)) d (vald (len w32) s a1) (vald (len w32) s a2) s s'.
Proof. exact emit_op2_ok. Qed.
Print Assumptions C58_op2_mem.

(** Operations with one operand. *)
Theorem C58_op1_mem : forall op w32 d a s, legal_dest1 d -> legal_src1 op a -> byte_mem (mm s) ->
  exists ws s', emit_op1 op w32 d a = Some ws /\ run ws s = Some s' /\ did_op1m op w32 d a s s'.
Proof. exact emit_op1_ok. Qed.
Print Assumptions C58_op1_mem.

(** Cases: R1 (register x1) is 0x10000, R2 is 5, the byte at an address is its low 8 bits. *)
Definition st0 : st := mkSt (fun k => if k =? 1 then 0x10000 else if k =? 2 then 5 else if k =? 31 then 0x8000 else 0) false false false false (fun a => a mod 256).
Definition run0 (l : option (list Z)) : option st := match l with None => None | Some ws => run ws st0 end.
Definition reg0 (l : option (list Z)) : option Z := match run0 l with None => None | Some s => Some (xr s 0) end.
Definition mem0 (l : option (list Z)) (a : Z) : option Z := match run0 l with None => None | Some s => Some (value (mm s) a 8) end.
Example C58_words : emit_op_mem 3 false false 1 (MBase 2 0x123458) TMP_REG1 = Some [0x91448c29; 0xf9422d20] /\ emit_op_mem 2 true false 1 (MBase 2 (-3)) TMP_REG1 = Some [0xb89fd020] /\
  emit_op_mem 1 false true 1 (MIndex 2 3 1) TMP_REG1 = Some [0x78227820] /\ emit_op_mem 3 false true 1 (MIndex 2 3 2) TMP_REG1 = Some [0x8b020829; 0xf9000120] /\
  emit_op_mem 0 false false 1 (MBase 2 (-0x1001)) TMP_REG1 = Some [0xd1400829; 0x397ffd20].
Proof. vm_compute. repeat split. Qed.
Example C58_cases : reg0 (emit_op2 OAdd false false (DReg 1) (DMem (MBase 2 0x12)) (DMem (MIndex 2 3 0))) = Some (0x1918171615141312 + 0x0c0b0a0908070605) /\
  reg0 (emit_op1 OMovS8 false (DReg 1) (DMem (MAbs (-1)))) = Some (2 ^ 64 - 1) /\ reg0 (emit_op1 OMovU16 false (DReg 1) (DMem (MBase SLJIT_SP 1))) = Some 0x1211 /\
  mem0 (emit_op2 OSub true false (DMem (MBase 2 (-0x7fff1))) (DReg 3) (DImm 8)) (0x10000 - 0x7fff1) = Some 0x16151413fffffffd /\
  mem0 (emit_op1 OMov false (DMem (MAbs 0x123456789)) (DImm (-2))) 0x123456789 = Some (2 ^ 64 - 2).
Proof. vm_compute. repeat split. Qed.
Example C58_hyps : legal_mem (MBase 2 (-0x123457)) /\ legal_mem (MIndex 2 3 2) /\ legal_mem (MAbs (-1)) /\ legal_reg 1 /\ legal_tmp TMP_REG2 /\ byte_mem (mm st0) /\ legal_dest OAdd (DMem (MBase SLJIT_SP 0)) /\ legal_src (DMem (MAbs 8)).
Proof.
  unfold legal_reg, legal_tmp, byte_mem. cbn [legal_mem legal_dest legal_src legal_place mm st0]. repeat split; try lia; try discriminate; auto; try (left; lia); try (apply Z.mod_pos_bound; lia).
Qed.
