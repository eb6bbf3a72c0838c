(** C64: ARM64: comparisons followed by a jump. *)
Require Import ZArith List Bool Lia.
From Verif Require Import Rv.RvLib Imm.ImmLib Imm.MsRefuted Arm.ArmIsa Arm.ArmBr Arm.ArmEnc Arm.ArmJump Arm.ArmJumpSpec Arm.ArmOp Arm.ArmOpSpec Arm.ArmMem Arm.ArmMemSpec Arm.ArmCmp Arm.ArmCmpSpec Arm.ArmCmpProofs.
Import ListNotations.
Open Scope Z_scope.

(** sljit_emit_cmp: the code reaches the target if and only if the relation holds between the values of the operands, else it goes on after its words;
    registers of the API and memory are kept. *)
Theorem C64_cmp_exact : forall rw ty w32 a b v code p t s, legal_src a -> legal_src b -> byte_mem (mm s) -> compares ty (len w32) (vald (len w32) s a) (vald (len w32) s b) = Some v -> isw t -> t mod 4 = 0 -> p mod 4 = 0 ->
  exists ws, fst (emit_cmp ty w32 a b) = Some ws /\
    let q := p + 4 * Z.of_nat (length ws) in let js := link_jump rw (Some (snd (emit_cmp ty w32 a b))) false q t in
    (code_at 4 (ws ++ js) p code -> exists s', goes code p s (if v then t else q + 4 * Z.of_nat (length js)) s' /\ same_data s s').
Proof. exact cmp_ok. Qed.
Print Assumptions C64_cmp_exact.

(** sljit_emit_op2cmpz: the operation has its effect (result and flags), and the target is reached if and only if the result is zero (or, without
    SLJIT_JUMP_IF_ZERO, is not). *)
Theorem C64_op2cmpz_exact : forall rw f op w32 iz d a b code p t s, zero_op op = true -> legal_result d -> legal_src a -> legal_src b -> byte_mem (mm s) -> isw t -> t mod 4 = 0 -> p mod 4 = 0 ->
  let n := len w32 in let x := vald n s a in let y := vald n s b in
  exists ws, fst (emit_op2cmpz f op w32 iz d a b) = Some ws /\
    let q := p + 4 * Z.of_nat (length ws) in let js := link_jump rw (Some (snd (emit_op2cmpz f op w32 iz d a b))) false q t in
    (code_at 4 (ws ++ js) p code -> exists s', goes code p s (if Bool.eqb iz (result op n x y (cf s) 0 =? 0) then t else q + 4 * Z.of_nat (length js)) s' /\ did_op2m op w32 true true d x y s s').
Proof. exact op2cmpz_ok. Qed.
Print Assumptions C64_op2cmpz_exact.

(** Cases: R1 (register x1) is 0x10000, R2 is 2^32 + 5, the byte at an address is its low 8 bits; code at 0x40000. Words, and the address after them. *)
Definition st0 : st := mkSt (fun k => if k =? 1 then 0x10000 else if k =? 2 then 2 ^ 32 + 5 else if k =? 31 then 0x8000 else 0) false false false false (fun a => a mod 256).
Fixpoint until (n : nat) (code : Z -> Z) (lo hi : Z) (c : Z * st) : option (Z * st) :=
  if (lo <=? fst c) && (fst c <? hi) then
    match n with O => None | S n' => match step code c with Some d => until n' code lo hi d | None => None end end
  else Some c.
Definition go (l : option (list Z) * jcond) (t : Z) : option (nat * Z * Z) :=
  let p := 0x40000 in
  match fst l with
  | None => None
  | Some ws =>
      let ws := ws ++ link_jump false (Some (snd l)) false (p + 4 * Z.of_nat (length ws)) t in
      match until 12 (only_code p ws) p (p + 4 * Z.of_nat (length ws)) (p, st0) with Some (pc, s) => Some (length ws, pc, xr s 0) | None => None end
  end.
Example C64_cases : map (fun l => go l 0x50000)
   [emit_cmp TEqual false (DReg 3) (DImm 0); emit_cmp TEqual true (DImm 0) (DReg 1); emit_cmp TNotEqual false (DMem (MBase 2 8)) (DImm 0); emit_cmp TEqual false (DImm 5) (DReg 3); emit_cmp TEqual true (DImm 5) (DReg 3);
    emit_cmp TLess false (DImm (-1)) (DReg 3); emit_cmp TSigLess false (DImm (-1)) (DReg 3); emit_cmp TGreaterEqual false (DImm (-1)) (DReg 3); emit_cmp TSigGreater false (DReg 2) (DMem (MAbs 0x10000)); emit_cmp TLessEqual true (DMem (MBase SLJIT_SP 0)) (DMem (MBase 2 0))] =
   [Some (1%nat, 0x40004, 0); Some (1%nat, 0x50000, 0); Some (2%nat, 0x50000, 0); Some (2%nat, 0x40008, 0); Some (2%nat, 0x50000, 0);
    Some (2%nat, 0x40008, 0); Some (2%nat, 0x50000, 0); Some (2%nat, 0x50000, 0); Some (4%nat, 0x40010, 0); Some (4%nat, 0x40010, 0)].
Proof. vm_compute. reflexivity. Qed.
Example C64_op2cmpz_cases : map (fun l => go l 0x123450000)
   [emit_op2cmpz SAdd OSub false true (DReg 1) (DReg 3) (DImm 5); emit_op2cmpz SAdd OSub true true (DReg 1) (DReg 3) (DImm 5); emit_op2cmpz SAdd OAnd false false (DReg 1) (DReg 2) (DReg 3); emit_op2cmpz SAdd OShl false false (DReg 1) (DReg 3) (DImm 1)] =
   [Some (6%nat, 0x40018, 2 ^ 32); Some (6%nat, 0x123450000, 0); Some (6%nat, 0x40018, 0); Some (7%nat, 0x123450000, 2 ^ 33 + 10)].
Proof. vm_compute. reflexivity. Qed.
Example C64_hyps : legal_src (DMem (MBase SLJIT_SP 0)) /\ legal_src (DImm (-1)) /\ legal_result (DReg 1) /\ byte_mem (mm st0) /\ compares TSigLess 64 (vald 64 st0 (DImm (-1))) (vald 64 st0 (DReg 3)) = Some true /\
  code_at 4 [0x14000001; 0x14000002] 0x40000 (only_code 0x40000 [0x14000001; 0x14000002]).
Proof. unfold byte_mem. cbn [legal_src legal_result legal_place legal_mem mm st0]. split; [split; [split; [right; reflexivity|lia]|lia]|]. split; [lia|]. split; [lia|]. split; [intros a; apply Z.mod_pos_bound; lia|]. split; [vm_compute; reflexivity|vm_compute; auto]. Qed.
