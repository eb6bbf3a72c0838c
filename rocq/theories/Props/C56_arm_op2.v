(** C56: ARM64: operations with two operands. *)
Require Import ZArith List Bool Lia.
From Verif Require Import Rv.RvLib Imm.ImmLib Arm.ArmIsa Arm.ArmBr Arm.ArmEnc Arm.ArmJump Arm.ArmJumpSpec Arm.ArmCondProofs Arm.ArmOp Arm.ArmOpSpec Arm.ArmOpImm.
Import ListNotations.
Open Scope Z_scope.

(** For every operation, 32 or 64 bits, registers and immediates: words are generated, their result is the result of the operation, other
    registers (but the temporary ones and the link register) and the memory do not change; without SLJIT_SET_* the flags do not change, with it
    every condition which has a meaning for the operation holds if and only if it should. *)
Theorem C56_op2_exact : forall op w32 setf dst a1 a2 s, legal_dst op dst -> legal_arg TMP_REG1 a1 -> legal_arg TMP_REG2 a2 -> (setf = true -> has_flags op = true) ->
  exists ws s', sljit_emit_op2 op w32 setf dst a1 a2 = Some ws /\ run ws s = Some s' /\ did_op2 op w32 setf (dst =? TMP_REG2) dst (val (len w32) s a1) (val (len w32) s a2) s s'.
Proof. exact op2_ok. Qed.
Print Assumptions C56_op2_exact.

(** An operation which sets the flags and a conditional jump: the jump is taken if and only if the condition holds for the operands. *)
Theorem C56_op2_jump : forall op w32 dst a1 a2 s f ty v rw code a ws t, legal_dst op dst -> legal_arg TMP_REG1 a1 -> legal_arg TMP_REG2 a2 -> has_flags op = true ->
  meaning op (len w32) (val (len w32) s a1) (val (len w32) s a2) (cf s) ty = Some v -> sljit_emit_op2 op w32 true dst a1 a2 = Some ws ->
  isw t -> t mod 4 = 0 -> a mod 4 = 0 -> let p := a + 4 * Z.of_nat (length ws) in code_at 4 ws a code -> code_at 4 (link_jump rw (Some (JFlag (state_after op f) ty)) false p t) p code ->
  exists s', goes code a s p s' /\ did_op2 op w32 true (dst =? TMP_REG2) dst (val (len w32) s a1) (val (len w32) s a2) s s' /\ jumps_if v rw (state_after op f) ty code p t s'.
Proof. exact op2_jump_ok. Qed.
Print Assumptions C56_op2_jump.

(** Cases: the words and the result (in R0, R1 is 100, R2 is 7) and the zero flag. *)
Definition st0 : st := mkSt (fun k => if k =? 1 then 100 else if k =? 2 then 7 else 0) false false false false (fun _ => 0).
Definition words (op : op2) (w32 setf : bool) (a1 a2 : arg) : option (list Z) := sljit_emit_op2 op w32 setf 1 a1 a2.
Definition res (op : op2) (w32 setf : bool) (a1 a2 : arg) : option (Z * bool) :=
  match words op w32 setf a1 a2 with None => None | Some ws => match run ws st0 with None => None | Some s => Some (xr s 0, zf s) end end.
Example C56_words : words OAdd false false (AReg 2) (AImm 0x123456) = Some [0x91448c20; 0x91115800] /\ words OSub true true (AReg 2) (AImm (-5)) = Some [0x31001420] /\
  words OAnd false true (AReg 2) (AImm 0xff0) = Some [0xf27c1c20] /\ words OShl true false (AReg 2) (AImm 3) = Some [0x531d7020] /\ words ORotl false false (AReg 2) (AReg 3) = Some [0xcb0203ea; 0x9aca2c20].
Proof. vm_compute. auto. Qed.
Example C56_cases : res OSub false true (AReg 2) (AImm 100) = Some (0, true) /\ res OSub true true (AImm 100) (AReg 2) = Some (0, true) /\ res OMul true false (AReg 2) (AImm 0x7fffffff) = Some (2 ^ 32 - 100, false) /\
  res OXor true true (AReg 2) (AImm (-1)) = Some (2 ^ 32 - 101, false) /\ res OAshr true false (AImm (-16)) (AImm 2) = Some (2 ^ 32 - 4, false) /\ res ORotl true false (AImm 1) (AImm (-1)) = Some (2 ^ 31, false) /\
  res OLshr false true (AReg 3) (AImm 67) = Some (0, true).
Proof. vm_compute. repeat split. Qed.
Example C56_hyps : legal_dst OSub 1 /\ legal_dst OAnd TMP_REG2 /\ legal_arg TMP_REG1 (AReg 2) /\ legal_arg TMP_REG2 (AImm (- 2 ^ 63)) /\
  meaning OSub 32 5 7 false TSigLess = Some true /\ meaning OMul 32 (2 ^ 31) 2 false TOverflow = Some true /\ meaning OShl 64 1 63 true TEqual = Some false.
Proof. repeat split; try (vm_compute; reflexivity); try (vm_compute; discriminate); [left; lia|right; right; reflexivity|left; lia]. Qed.
