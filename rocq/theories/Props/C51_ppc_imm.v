(** C51: PowerPC64: immediates and constants. *)
Require Import ZArith List Bool Lia.
From Verif Require Import Rv.RvLib Imm.ImmLib Imm.PpIsa Imm.PpModel Imm.PpSpec Imm.PpProofs.
Import ListNotations.
Open Scope Z_scope.

(** load_immediate: every immediate gets into every register, nothing else is changed; register 31 holds zero in the code of a function. *)
Theorem C51_immediate_exact : forall so code a s d imm, 0 <= d < 32 -> - 2 ^ 63 <= imm < 2 ^ 63 -> s 31 = 0 -> code_at 4 (load_immediate d imm) a code ->
  exists s', goes so code a s (a + 4 * Z.of_nat (length (load_immediate d imm))) s' /\ only s s' d (wrap imm).
Proof. exact load_immediate_ok. Qed.
Print Assumptions C51_immediate_exact.

(** sljit_emit_const. *)
Theorem C51_constant_exact : forall so code a s op dst v, 1 <= dst <= 28 -> code_at 4 (sljit_emit_const op dst v) a code ->
  exists s', goes so code a s (a + 4 * Z.of_nat (length (sljit_emit_const op dst v))) s' /\ only s s' (reg_map dst) (const_value op v).
Proof. exact sljit_emit_const_ok. Qed.
Print Assumptions C51_constant_exact.

(** sljit_set_const leaves the words which sljit_emit_const emits for the new value. *)
Theorem C51_set_const_exact : forall op dst v v', 1 <= dst <= 28 ->
  sljit_set_const op (sljit_emit_const op dst v) v' = sljit_emit_const op dst v'.
Proof. exact set_const_ok. Qed.
Print Assumptions C51_set_const_exact.

(** Cases: the words in a memory of their own, executed from address 0x1000. *)
Definition mem_of (ws : list Z) : Z -> Z := fun x => nth (Z.to_nat ((x - 0x1000) / 4)) ws 0.
Fixpoint exec_n (n : nat) (code : Z -> Z) (c : state) : option state :=
  match n with O => Some c | S n' => match step 0 code c with Some d => exec_n n' code d | None => None end end.
Definition result (ws : list Z) : option (nat * Z * Z) :=
  match exec_n (length ws) (mem_of ws) (0x1000, fun r => if r =? 31 then 0 else 77) with Some (pc, s) => Some (length ws, pc, s 5) | None => None end.
Example C51_cases : map (fun v => result (load_immediate 5 v)) [5; 0xffff; -5; 0x12340000; 0x12345678; -0x12345678; 0x100000000; 0x123456789; 0x123456789abcdef0; 0xffff00000001; - 2 ^ 63] =
  [Some (1%nat, 0x1004, 5); Some (1%nat, 0x1004, 0xffff); Some (1%nat, 0x1004, 2 ^ 64 - 5); Some (1%nat, 0x1004, 0x12340000); Some (2%nat, 0x1008, 0x12345678);
   Some (2%nat, 0x1008, 2 ^ 64 - 0x12345678); Some (2%nat, 0x1008, 0x100000000); Some (4%nat, 0x1010, 0x123456789); Some (5%nat, 0x1014, 0x123456789abcdef0);
   Some (5%nat, 0x1014, 0xffff00000001); Some (2%nat, 0x1008, 2 ^ 63)].
Proof. vm_compute. reflexivity. Qed.
Example C51_const_cases : map result [sljit_emit_const CMov 3 (-2); sljit_emit_const CMov32 3 0x80000001; sljit_emit_const CMovU8 3 (-200);
    sljit_set_const CMov (sljit_emit_const CMov 3 (-2)) 0x123456789abcdef0; sljit_set_const CMovU8 (sljit_emit_const CMovU8 3 (-200)) 255;
    sljit_set_const CMov32 (sljit_emit_const CMov32 3 (-200)) 0x12345678] =
  [Some (5%nat, 0x1014, 2 ^ 64 - 2); Some (2%nat, 0x1008, 2 ^ 64 - 2 ^ 31 + 1); Some (1%nat, 0x1004, 2 ^ 64 - 200);
   Some (5%nat, 0x1014, 0x123456789abcdef0); Some (1%nat, 0x1004, 255); Some (2%nat, 0x1008, 0x12345678)].
Proof. vm_compute. reflexivity. Qed.
