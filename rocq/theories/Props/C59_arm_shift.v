(** C59: ARM64: double shifts. *)
Require Import ZArith List Bool Lia.
From Verif Require Import Rv.RvLib Arm.ArmIsa Arm.ArmEnc Arm.ArmJump Arm.ArmJumpSpec Arm.ArmOp Arm.ArmOpSpec Arm.ArmMem Arm.ArmMemSpec Arm.ArmShift.
Import ListNotations.
Open Scope Z_scope.

(** What the API says: bits of the second source are shifted into the first one; the count is taken modulo the width. *)
Definition C59_full : Prop := forall left w32 nz dst src1 src2 src3 s, 1 <= dst <= 26 -> 1 <= src1 <= 26 -> 1 <= src2 <= 26 -> dst <> src2 -> legal_src src3 -> byte_mem (mm s) ->
  (nz = true -> vald (len w32) s src3 mod len w32 <> 0) ->
  exists ws s', emit_shift_into left w32 nz dst src1 src2 src3 = Some ws /\ run ws s = Some s' /\ did_shift_into left w32 dst src1 src2 src3 s s'.

(** Missing: an immediate count of zero (modulo the width) with a destination which is not the first source. *)
Theorem C59_shift_into_partial : forall left w32 nz dst src1 src2 src3 s, 1 <= dst <= 26 -> 1 <= src1 <= 26 -> 1 <= src2 <= 26 -> dst <> src2 -> legal_src src3 -> byte_mem (mm s) ->
  match src3 with DImm k => k mod len w32 = 0 -> dst = src1 \/ src1 = src2 | _ => True end -> (nz = true -> vald (len w32) s src3 mod len w32 <> 0) ->
  exists ws s', emit_shift_into left w32 nz dst src1 src2 src3 = Some ws /\ run ws s = Some s' /\ did_shift_into left w32 dst src1 src2 src3 s s'.
Proof. exact emit_shift_into_ok. Qed.
Print Assumptions C59_shift_into_partial.

(** With that the statement is false: no instruction is generated and the destination keeps its value. *)
Definition st0 : st := mkSt (fun k => if k =? 1 then 0xf123456789abcdef else if k =? 2 then 0xfedcba9876543210 else if k =? 3 then 20 else 0) false false false false (fun a => a mod 32).
Theorem C59_zero_refuted : ~ C59_full.
Proof.
  intros F. destruct (F true false false 1 2 3 (DImm 0) st0) as (ws & s' & E & R & X & _); try lia; try discriminate.
  - cbn. lia.
  - intros a. cbn [mm st0]. pose proof (Z.mod_pos_bound a 32). lia.
  - vm_compute in E. injection E as <-. injection R as <-. vm_compute in X. discriminate X.
Qed.
Print Assumptions C59_zero_refuted.

(** Cases: the result in R0 for R1, R2 (and the count in R3 or in memory). *)
Definition res (l : option (list Z)) : option Z := match l with None => None | Some ws => match run ws st0 with None => None | Some s => Some (xr s 0) end end.
Example C59_words : emit_shift_into true false false 1 2 3 (DImm 8) = Some [0x93c2e020] /\ emit_shift_into false true true 1 2 3 (DReg 4) = Some [0x1ac32420; 0x4b0303ea; 0x1aca2049; 0x2a090000] /\
  emit_shift_into true false false 1 2 3 (DReg 1) = Some [0xaa0003ea; 0x9aca2020; 0xd341fc49; 0xd240154a; 0x9aca2529; 0xaa090000].
Proof. vm_compute. repeat split. Qed.
Example C59_cases : res (emit_shift_into true false false 1 2 3 (DImm 8)) = Some 0x23456789abcdeffe /\ res (emit_shift_into false false false 1 2 3 (DReg 4)) = Some 0x43210f123456789a /\
  res (emit_shift_into true true true 1 2 3 (DReg 4)) = Some 0xdef76543 /\ res (emit_shift_into true false false 1 2 2 (DImm 4)) = Some 0x123456789abcdeff /\
  res (emit_shift_into false true false 1 2 3 (DMem (MAbs 32))) = Some 0x89abcdef.
Proof. vm_compute. repeat split. Qed.
