(** C61: ARM64: conditions as values and the choice between two values. *)
Require Import ZArith List Bool Lia.
From Verif Require Import Rv.RvLib Arm.ArmIsa Arm.ArmEnc Arm.ArmJump Arm.ArmJumpSpec Arm.ArmOp Arm.ArmOpSpec Arm.ArmMem Arm.ArmMemSpec Arm.ArmCsel Arm.ArmCselSpec Arm.ArmCselProofs.
Import ListNotations.
Open Scope Z_scope.

(** sljit_emit_op_flags with a move: the destination is 1 if the condition holds, 0 if not; flags, other registers and other memory are kept. *)
Theorem C61_mov_flags : forall f ty w32 d s, legal_fdest d ->
  exists ws s', emit_mov_flags f ty w32 d = Some ws /\ run ws s = Some s' /\ did_mov_flags (len w32) d (flag_holds f ty s) s s'.
Proof. exact mov_flags_ok. Qed.
Print Assumptions C61_mov_flags.

(** With AND, OR or XOR: the destination is combined with that value, as by the operation with two operands. *)
Theorem C61_op_flags : forall f ty op w32 setf d s, flag_op op -> legal_fdest d -> byte_mem (mm s) ->
  exists ws s', emit_op_flags f ty op w32 setf d = Some ws /\ run ws s = Some s' /\ did_op2m op w32 setf true d (vald (len w32) s d) (Z.b2z (flag_holds f ty s)) s s'.
Proof. exact op_flags_ok. Qed.
Print Assumptions C61_op_flags.

(** sljit_emit_select: the first operand if the condition holds, the second if not. *)
Theorem C61_select : forall f ty w32 dst src1 src2 s, 1 <= dst <= 26 -> legal_src src1 -> 1 <= src2 <= 26 -> byte_mem (mm s) ->
  exists ws s', emit_select f ty w32 dst src1 src2 = Some ws /\ run ws s = Some s' /\
    did_select (len w32) dst (vald (len w32) s src1) (vald (len w32) s (DReg src2)) (flag_holds f ty s) s s'.
Proof. exact select_ok. Qed.
Print Assumptions C61_select.

(** Cases: R1 (register x1) is 0x10000, R2 is 5, the byte at an address is its low 8 bits; the flags are those of a comparison of equal values if [z]. *)
Definition st0 (z : bool) : st := mkSt (fun k => if k =? 1 then 0x10000 else if k =? 2 then 5 else if k =? 31 then 0x8000 else 0) false z true false (fun a => a mod 256).
Definition reg0 (z : bool) (l : option (list Z)) : option Z := match l with None => None | Some ws => match run ws (st0 z) with None => None | Some s => Some (xr s 0) end end.
Definition mem0 (z : bool) (a : Z) (l : option (list Z)) : option Z := match l with None => None | Some ws => match run ws (st0 z) with None => None | Some s => Some (value (mm s) a 8) end end.
Example C61_mov : map (fun z => reg0 z (emit_mov_flags SSub TEqual false (DReg 1))) [true; false] = [Some 1; Some 0] /\
  map (fun z => mem0 z 0x10021 (emit_mov_flags SSub TNotEqual true (DMem (MBase 2 0x21)))) [true; false] = [Some 0x2827262500000000; Some 0x2827262500000001].
Proof. vm_compute. split; reflexivity. Qed.
Example C61_op : map (fun z => reg0 z (emit_op_flags SSub TEqual OOr false true (DReg 1))) [true; false] = [Some 1; Some 0] /\
  map (fun z => mem0 z 0x10021 (emit_op_flags SSub TEqual OXor false false (DMem (MBase 2 0x21)))) [true; false] = [Some 0x2827262524232220; Some 0x2827262524232221].
Proof. vm_compute. split; reflexivity. Qed.
Example C61_sel : map (fun z => reg0 z (emit_select SSub TEqual false 1 (DImm (-7)) 3)) [true; false] = [Some (2 ^ 64 - 7); Some 5] /\
  map (fun z => reg0 z (emit_select SSub TEqual true 1 (DMem (MBase SLJIT_SP 8)) 2)) [true; false] = [Some 0x1b1a1918; Some 0x10000].
Proof. vm_compute. split; reflexivity. Qed.
(** The 32 bit form with an operand in memory loads a 64 bit register, that is eight bytes (the operand has four). *)
Example C61_select32_load : emit_select SSub TEqual true 1 (DMem (MBase 2 8)) 2 = Some [0xf940042a; 0x1a8a1020].
Proof. vm_compute. reflexivity. Qed.
Example C61_hyps : legal_fdest (DMem (MBase SLJIT_SP 8)) /\ legal_fdest (DReg 26) /\ flag_op OXor /\ legal_src (DImm (-7)) /\ legal_src (DMem (MBase 2 8)) /\ byte_mem (mm (st0 true)).
Proof. unfold byte_mem, flag_op. cbn [legal_fdest legal_src legal_place legal_mem mm st0]. repeat split; try lia; try discriminate; auto; apply Z.mod_pos_bound; lia. Qed.
