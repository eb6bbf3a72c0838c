(** C57: ARM64: operations with one operand and with none. *)
Require Import ZArith List Bool Lia.
From Verif Require Import Rv.RvLib Arm.ArmIsa Arm.ArmEnc Arm.ArmJump Arm.ArmJumpSpec Arm.ArmOp Arm.ArmOpSpec Arm.ArmOp1.
Import ListNotations.
Open Scope Z_scope.

(** Moves, conversions, counting of zeros, byte order: the result, nothing else changes. *)
Theorem C57_op1_exact : forall op w32 dst a s, 1 <= dst <= 26 -> match a with AReg r => 1 <= r <= 26 | AImm i => - 2 ^ 63 <= i < 2 ^ 63 /\ is_mov op = true end ->
  exists ws s', sljit_emit_op1 op w32 dst a = Some ws /\ run ws s = Some s' /\ did_op1 op w32 dst a s s'.
Proof. exact op1_ok. Qed.
Print Assumptions C57_op1_exact.

(** Multiplications with a result of two words and divisions. *)
Theorem C57_op0_exact : forall op w32 s, let n := match op with OLmulU | OLmulS => 64 | _ => len w32 end in isw (xr s 0) -> isw (xr s 1) -> div_ok op n (xr s 0 mod 2 ^ n) (xr s 1 mod 2 ^ n) ->
  exists s', run (sljit_emit_op0 op w32) s = Some s' /\ did_op0 op w32 s s'.
Proof. exact op0_ok. Qed.
Print Assumptions C57_op0_exact.

(** Cases: the result in R0 for an operand in R1, and R0, R1 of operations without operands. *)
Definition st1 (x : Z) : st := mkSt (fun k => if k =? 1 then x else 0) false false false false (fun _ => 0).
Definition res1 (op : op1) (w32 : bool) (x : Z) : option Z :=
  match sljit_emit_op1 op w32 1 (AReg 2) with None => None | Some ws => match run ws (st1 x) with None => None | Some s => Some (xr s 0) end end.
Example C57_cases : res1 OMovS8 false 0x1280 = Some (2 ^ 64 - 128) /\ res1 OMovS8 true 0x1280 = Some (2 ^ 32 - 128) /\ res1 OMovU16 false 0x12345 = Some 0x2345 /\ res1 OMovS32 false 0x80000000 = Some 0xffffffff80000000 /\
  res1 OClz true 0x100 = Some 23 /\ res1 OCtz false 0x100 = Some 8 /\ res1 OCtz true 0 = Some 32 /\ res1 ORev false 0x0102030405060708 = Some 0x0807060504030201 /\ res1 ORevS16 false 0x12ff80 = Some 0xffffffffffff80ff /\
  res1 ORevU32 false 0x01020304 = Some 0x04030201.
Proof. vm_compute. repeat split. Qed.
Definition res0 (op : op0) (w32 : bool) (a b : Z) : option (Z * Z) :=
  match run (sljit_emit_op0 op w32) (mkSt (fun k => if k =? 0 then a else if k =? 1 then b else 0) false false false false (fun _ => 0)) with None => None | Some s => Some (xr s 0, xr s 1) end.
Example C57_cases0 : res0 OLmulU false (2 ^ 63) 6 = Some (0, 3) /\ res0 OLmulS false (2 ^ 64 - 1) 5 = Some (2 ^ 64 - 5, 2 ^ 64 - 1) /\ res0 ODivmodU false 100 7 = Some (14, 2) /\
  res0 ODivmodS true (2 ^ 32 - 100) 7 = Some (2 ^ 32 - 14, 2 ^ 32 - 2) /\ res0 ODivS false (2 ^ 64 - 100) (2 ^ 64 - 7) = Some (14, 2 ^ 64 - 7).
Proof. vm_compute. repeat split. Qed.
