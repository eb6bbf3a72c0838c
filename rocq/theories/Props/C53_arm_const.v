(** C53: ARM64: constants and addresses. *)
Require Import ZArith List Bool Lia.
From Verif Require Import Rv.RvLib Imm.ImmLib Arm.ArmIsa Arm.ArmBr Arm.ArmEnc Arm.ArmJump Arm.ArmJumpSpec Arm.ArmJumpProofs.
Import ListNotations.
Open Scope Z_scope.

(** sljit_emit_const: the register gets the value, nothing else is changed. *)
Theorem C53_constant_exact : forall code a s op dst v, 1 <= dst <= 26 \/ 28 <= dst <= 31 -> code_at 4 (sljit_emit_const op dst v) a code ->
  exists s', goes code a s (a + 4 * Z.of_nat (length (sljit_emit_const op dst v))) s' /\ gets s s' (reg_map dst) (const_value op v).
Proof. exact sljit_emit_const_ok. Qed.
Print Assumptions C53_constant_exact.

(** sljit_set_const leaves the words which sljit_emit_const emits for the new value. *)
Theorem C53_set_const_exact : forall op dst v v', 1 <= dst <= 26 \/ 28 <= dst <= 31 ->
  sljit_set_const op (sljit_emit_const op dst v) v' = sljit_emit_const op dst v'.
Proof. exact set_const_ok. Qed.
Print Assumptions C53_set_const_exact.

(** An address gets into the register, in the form which the code chooses. *)
Theorem C53_address_exact : forall reg p t code s, 1 <= reg <= 26 \/ 28 <= reg <= 31 -> isw t -> code_at 4 (link_addr reg p t) p code ->
  exists s', goes code p s (p + 4 * Z.of_nat (length (link_addr reg p t))) s' /\ gets s s' (reg_map reg) t.
Proof. exact link_addr_ok. Qed.
Print Assumptions C53_address_exact.

(** Its words fit in the words kept for it, for fixed addresses and for labels at the distance [k] when the words are emitted and [k0] when the
    space was kept. *)
Theorem C53_address_space : forall reg p t, Z.of_nat (length (link_addr reg p t)) <= reserved_addr t.
Proof. exact link_addr_len. Qed.
Print Assumptions C53_address_space.
Theorem C53_label_address_space : forall reg p k k0, 0 <= p -> isw (p + 4 * k) -> - 2 ^ 60 <= k0 < 2 ^ 60 -> nearer k k0 ->
  Z.of_nat (length (link_addr reg p (p + 4 * k))) <= reserved_addr_label k0.
Proof. exact link_addr_label_len. Qed.
Print Assumptions C53_label_address_space.

(** Cases: the words at 0x10000ff8 executed; words, address after them, register 1 (SLJIT_R1). *)
Definition p0 := 0x10000ff8.
Definition mem_of (ws : list Z) : Z -> Z := fun x => nth (Z.to_nat ((x - p0) / 4)) ws 0.
Fixpoint exec_n (n : nat) (code : Z -> Z) (c : Z * st) : option (Z * st) :=
  match n with O => Some c | S n' => match step code c with Some d => exec_n n' code d | None => None end end.
Definition s0 : st := mkSt (fun _ => 77) false true false true (fun _ => 0).
Definition result (ws : list Z) : option (nat * Z * Z) :=
  match exec_n (length ws) (mem_of ws) (p0, s0) with Some (pc, s) => Some (length ws, pc - p0, xr s 1) | None => None end.
Example C53_cases : map result [sljit_emit_const CMov 2 (-2); sljit_emit_const CMov32 2 0x80000001; sljit_emit_const CMovS32 2 0x80000001; sljit_emit_const CMovU8 2 (-200);
    sljit_emit_const CMov32 2 (-5); sljit_set_const CMov (sljit_emit_const CMov 2 (-2)) 0x123456789abcdef0; sljit_set_const CMovU8 (sljit_emit_const CMovU8 2 (-200)) 255;
    sljit_set_const CMovS32 (sljit_emit_const CMovS32 2 5) (-3)] =
  [Some (4%nat, 16, 2 ^ 64 - 2); Some (2%nat, 8, 0x80000001); Some (2%nat, 8, 2 ^ 64 - 2 ^ 31 + 1); Some (1%nat, 4, 2 ^ 64 - 200); Some (2%nat, 8, 2 ^ 32 - 5);
   Some (4%nat, 16, 0x123456789abcdef0); Some (1%nat, 4, 255); Some (2%nat, 8, 2 ^ 64 - 3)].
Proof. vm_compute. reflexivity. Qed.
Example C53_address_cases : map (fun t => result (link_addr 2 p0 t)) [0x10000123; 0x0ff1abcd; 0x12345679; 0x1000; 0x10ffffabc; 0x123456789abc; 0xffff000012345678] =
  [Some (1%nat, 4, 0x10000123); Some (1%nat, 4, 0x0ff1abcd); Some (2%nat, 8, 0x12345679); Some (2%nat, 8, 0x1000); Some (2%nat, 8, 0x10ffffabc);
   Some (3%nat, 12, 0x123456789abc); Some (4%nat, 16, 0xffff000012345678)].
Proof. vm_compute. reflexivity. Qed.
