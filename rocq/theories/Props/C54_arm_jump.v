(** C54: ARM64: jumps. *)
Require Import ZArith List Bool Lia.
From Verif Require Import Rv.RvLib Imm.ImmLib Imm.MsRefuted Arm.ArmIsa Arm.ArmBr Arm.ArmEnc Arm.ArmJump Arm.ArmJumpSpec Arm.ArmJumpProofs.
Import ListNotations.
Open Scope Z_scope.

(** A jump to a fixed target, in the form which the code chooses: if its condition holds it reaches the target, and a call leaves the address after
    its words in the link register; otherwise it goes on after its words and changes nothing. *)
Theorem C54_jump_exact : forall rw c lk p t code s, legal c lk -> isw t -> t mod 4 = 0 -> p mod 4 = 0 -> code_at 4 (link_jump rw c lk p t) p code ->
  let e := p + 4 * Z.of_nat (length (link_jump rw c lk p t)) in
  if jcond_holds c s then exists s', goes code p s t s' /\ jumped lk e s s' else goes code p s e s.
Proof. exact link_jump_ok. Qed.
Print Assumptions C54_jump_exact.

(** A jump in any form which can hold the distance or the address. *)
Theorem C54_form_exact : forall f c lk p t code s, legal c lk -> isw t -> t mod 4 = 0 -> p mod 4 = 0 -> form_ok f c p t -> code_at 4 (jump_words f c lk p t) p code ->
  let e := p + 4 * Z.of_nat (length (jump_words f c lk p t)) in
  if jcond_holds c s then exists s', goes code p s t s' /\ jumped lk e s s' else goes code p s e s.
Proof. exact jump_ok. Qed.
Print Assumptions C54_form_exact.

(** A jump or call to the address in a register. *)
Theorem C54_ijump_exact : forall code a s lk src, 1 <= src <= 26 \/ 28 <= src <= 31 -> isw (xr s (reg_map src)) -> code_at 4 (ijump_reg lk src) a code ->
  exists s', goes code a s (xr s (reg_map src)) s' /\ jumped lk (a + 4) s s'.
Proof. exact ijump_ok. Qed.
Print Assumptions C54_ijump_exact.

(** The words fit in the words kept for them by reduce_code_size and the branch in front, for fixed targets and for labels (at the distance [k] when
    the words are emitted, [k0] when the space was kept). *)
Theorem C54_jump_space : forall rw c lk p t, Z.of_nat (length (link_jump rw c lk p t)) <= Z.b2z (is_cond c) + reserved rw t.
Proof. exact link_jump_len. Qed.
Print Assumptions C54_jump_space.
Theorem C54_label_space : forall rw c lk p k k0, 0 <= p -> isw (p + 4 * k) -> - 2 ^ 60 <= k0 < 2 ^ 60 -> nearer k k0 -> let p0 := if is_cond c then p - 4 else p in
  Z.of_nat (length (link_jump rw c lk p0 (p + 4 * k))) <= Z.b2z (is_cond c) + reserved_label rw (is_cond c) k0.
Proof. exact link_label_len. Qed.
Print Assumptions C54_label_space.

(** sljit_set_jump_addr on a rewritable jump (its address is after the branch in front) leaves the words of a rewritable jump to the new target. *)
Theorem C54_set_jump_addr_exact : forall c lk p t t', isw t -> isw t' ->
  let n := if is_cond c then 1%nat else 0%nat in
  firstn n (link_jump true c lk p t) ++ sljit_set_jump_addr (skipn n (link_jump true c lk p t)) t' = link_jump true c lk p t'.
Proof. exact set_rewritable_ok. Qed.
Print Assumptions C54_set_jump_addr_exact.

(** Cases: jumps at 0x10000ff8, executed until the words are left: words, address, link register. *)
Fixpoint until (n : nat) (code : Z -> Z) (lo hi : Z) (c : Z * st) : option (Z * st) :=
  if (lo <=? fst c) && (fst c <? hi) then
    match n with O => None | S n' => match step code c with Some d => until n' code lo hi d | None => None end end
  else Some c.
Definition go (rw : bool) (c : option jcond) (lk : bool) (t : Z) : option (nat * Z * Z) :=
  let p := 0x10000ff8 in
  let ws := link_jump rw c lk p t in
  match until 12 (only_code p ws) p (p + 4 * Z.of_nat (length ws)) (p, mkSt (fun r => if r =? 0 then 2 ^ 32 else 0) false true false true (fun _ => 0)) with
  | Some (pc, s) => Some (length ws, pc, xr s 30) | None => None end.
Example C54_cases : [go false None false 0x10000100; go false None true 0x10000100; go true None true 0x10000100; go false None true 0x7ffff700; go false None false 0x10ffffab0;
    go false None false 0x123456789ab0; go false None true 0xffff000012345678;
    go false (Some (JFlag SSub TEqual)) false 0x10000100; go false (Some (JFlag SSub TNotEqual)) false 0x10000100; go false (Some (JFlag SSub TLess)) false 0x11000000;
    go false (Some (JFlag SAdd TCarry)) false 0x11000000; go false (Some (JFlag SSub TSigLess)) false 0x70000000; go false (Some (JFlag SOther TOverflow)) false 0x70000000;
    go false (Some (JFlag SSub TOverflow)) false 0x10ffffab0; go true (Some (JFlag SSub TNotOverflow)) false 0x10ffffab0; go false (Some (JFlag SSub TEqual)) false 0x123456789ab0;
    go false (Some (JZero true true 1)) false 0x10000100; go false (Some (JZero true false 1)) false 0x10000100; go false (Some (JZero false false 1)) false 0x11000000;
    go false (Some (JZero false true 1)) false 0x11000000] =
  [Some (1%nat, 0x10000100, 0); Some (1%nat, 0x10000100, 0x10000ffc); Some (5%nat, 0x10000100, 0x1000100c); Some (3%nat, 0x7ffff700, 0x10001004); Some (3%nat, 0x10ffffab0, 0);
   Some (4%nat, 0x123456789ab0, 0); Some (5%nat, 0xffff000012345678, 0x1000100c);
   Some (1%nat, 0x10000100, 0); Some (1%nat, 0x10000ffc, 0); Some (2%nat, 0x11000000, 0); Some (2%nat, 0x10001000, 0); Some (4%nat, 0x70000000, 0); Some (4%nat, 0x10001008, 0);
   Some (4%nat, 0x10ffffab0, 0); Some (6%nat, 0x10001010, 0); Some (5%nat, 0x123456789ab0, 0);
   Some (1%nat, 0x10000100, 0); Some (1%nat, 0x10000ffc, 0); Some (2%nat, 0x11000000, 0); Some (2%nat, 0x10001000, 0)].
Proof. vm_compute. reflexivity. Qed.
Example C54_space_cases : [reserved false 0x10000100; reserved true 0x1000; reserved false 0x123456789ab0; reserved_label false true 100; reserved_label false true 1000000;
    reserved_label false false 100; reserved_label false false 100000000] = [3; 5; 4; 0; 1; 1; 3].
Proof. vm_compute. reflexivity. Qed.
