(** C47: LoongArch64: immediates and constants. *)
Require Import ZArith List Bool Lia.
From Verif Require Import Rv.RvLib Imm.ImmLib Imm.LaIsa Imm.LaModel Imm.LaSpec Imm.LaProofs Imm.LaJump.
Import ListNotations.
Open Scope Z_scope.

(** Every 64 bit value and every register: the words of load_immediate, anywhere in the memory, leave the value in the
    register, and the other registers unchanged. *)
Theorem C47_immediate_exact : forall code a s dst imm, 1 <= dst <= 29 -> - 2 ^ 63 <= imm < 2 ^ 63 ->
  code_at 4 (load_immediate dst imm) a code ->
  exists s', goes code a s (a + 4 * Z.of_nat (length (load_immediate dst imm))) s' /\ only s s' (reg_map dst) (imm mod 2 ^ 64).
Proof. exact load_immediate_ok. Qed.
Print Assumptions C47_immediate_exact.

(** The same for the words of sljit_emit_const: a word, a sign extended 32 bit value, a 9 bit signed value. *)
Theorem C47_constant_exact : forall code a s op dst v, 1 <= dst <= 29 -> code_at 4 (sljit_emit_const op dst v) a code ->
  exists s', goes code a s (a + 4 * Z.of_nat (length (sljit_emit_const op dst v))) s' /\ only s s' (reg_map dst) (const_value op v).
Proof. exact sljit_emit_const_ok. Qed.
Print Assumptions C47_constant_exact.

(** sljit_set_const leaves the words which sljit_emit_const emits for the new value. *)
Theorem C47_set_const_exact : forall op dst v v', 1 <= dst <= 29 ->
  sljit_set_const op (sljit_emit_const op dst v) v' = sljit_emit_const op dst v'.
Proof. exact set_const_ok. Qed.
Print Assumptions C47_set_const_exact.

(** Cases: the words in a memory of their own, executed from address 0x1000. *)
Definition mem_of (ws : list Z) : Z -> Z := fun x => nth (Z.to_nat ((x - 0x1000) / 4)) ws 0.
Fixpoint exec_n (n : nat) (code : Z -> Z) (c : Z * regs) : option (Z * regs) :=
  match n with O => Some c | S n' => match step code c with Some d => exec_n n' code d | None => None end end.
Definition result (ws : list Z) : option (nat * Z * Z) :=
  match exec_n (length ws) (mem_of ws) (0x1000, fun _ => 77) with Some (pc, s) => Some (length ws, pc, s 5) | None => None end.
Example C47_cases : map (fun v => result (load_immediate 2 v)) [5; -5; 0x12345000; 0x12345678; -0x12345678; 0x7123456789abc; -0x7123456789000; 0x123456789abcdef0; - 2 ^ 63] =
  [Some (1%nat, 0x1004, 5); Some (1%nat, 0x1004, 2 ^ 64 - 5); Some (1%nat, 0x1004, 0x12345000); Some (2%nat, 0x1008, 0x12345678);
   Some (2%nat, 0x1008, 2 ^ 64 - 0x12345678); Some (3%nat, 0x100c, 0x7123456789abc); Some (2%nat, 0x1008, 2 ^ 64 - 0x7123456789000);
   Some (4%nat, 0x1010, 0x123456789abcdef0); Some (3%nat, 0x100c, 2 ^ 63)].
Proof. vm_compute. reflexivity. Qed.
Example C47_const_cases : map result [sljit_emit_const CMov 2 (-2); sljit_emit_const CMov32 2 0x80000001; sljit_emit_const CMovU8 2 (-200);
    sljit_set_const CMov (sljit_emit_const CMov 2 (-2)) 0x123456789abcdef0; sljit_set_const CMovU8 (sljit_emit_const CMovU8 2 (-200)) 255;
    sljit_set_const CMov32 (sljit_emit_const CMov32 2 (-200)) 0x12345678] =
  [Some (4%nat, 0x1010, 2 ^ 64 - 2); Some (2%nat, 0x1008, 2 ^ 64 - 2 ^ 31 + 1); Some (1%nat, 0x1004, 2 ^ 64 - 200);
   Some (4%nat, 0x1010, 0x123456789abcdef0); Some (1%nat, 0x1004, 255); Some (2%nat, 0x1008, 0x12345678)].
Proof. vm_compute. reflexivity. Qed.
