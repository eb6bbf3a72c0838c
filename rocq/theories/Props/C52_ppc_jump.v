(** C52: PowerPC64: jumps and addresses. *)
Require Import ZArith List Bool Lia.
From Verif Require Import Rv.RvLib Imm.ImmLib Imm.MsRefuted Imm.PpIsa Imm.PpModel Imm.PpSpec Imm.PpProofs Imm.PpJump Imm.PpRefuted.
Import ListNotations.
Open Scope Z_scope.

(** The full statement (a jump to a fixed target reaches it) is false of the code: a conditional jump to 0x9000 which is far from it. *)
Theorem C52_jump_refuted : ~ jump_reaches.
Proof. exact low_target_false. Qed.
Print Assumptions C52_jump_refuted.
Theorem C52_jump_wrong : code_at 4 wb pb (only_code pb wb) /\ goes 0 (only_code pb wb) pb sb 0xffffffffffff9000 sb.
Proof. exact low_target_goes. Qed.
Print Assumptions C52_jump_wrong.

(** A jump to a fixed target, in the form which the code chooses: if its condition holds it reaches the target, and a call leaves the address of
    the next instruction in the link register, with the ELFv2 convention the target in register 12; otherwise it goes on after its words. What is missing:
    conditional jumps in the absolute form to 0x8000 and above (false, above). *)
Theorem C52_jump_partial : forall so code p s elf rw sub call lk c t,
  legal call lk c -> isw t -> t mod 4 = 0 -> p mod 4 = 0 -> s 31 = 0 ->
  ~ (link_form elf rw call c (p + 4 * Z.of_nat (length (carry_words c))) t = FB true /\ is_cond c = true /\ 0x8000 <= t) ->
  code_at 4 (words elf rw sub call lk c p t) p code ->
  let e := p + 4 * Z.of_nat (length (words elf rw sub call lk c p t)) in
  if cond_holds sub s c
  then exists s', goes so code p s t s' /\ jumped elf call lk c t e s s'
  else exists s', goes so code p s e s' /\ jumped elf false false c t e s s'.
Proof. exact link_jump_ok. Qed.
Print Assumptions C52_jump_partial.

(** A jump in any form whose field holds the distance or the address, for jumps to labels: [tested] is the condition after the carry has been
    moved to the condition register. *)
Theorem C52_label_jump_exact : forall so code p s elf f sub lk c t,
  (is_cond c = true -> lk = false) -> isw t -> t mod 4 = 0 -> p mod 4 = 0 -> form_ok f (is_cond c) p t ->
  let ws := jump_words elf f (is_cond c) (jump_inst sub c lk) p t in
  let e := p + 4 * Z.of_nat (length ws) in
  code_at 4 ws p code ->
  if tested sub s c
  then exists s', goes so code p s t s' /\ core elf lk e s s' /\ (is_far f = true -> s' (call_r elf) = t)
  else exists s', goes so code p s e s' /\ core elf false e s s'.
Proof. exact jump_ok. Qed.
Print Assumptions C52_label_jump_exact.

(** A jump or call to the address in a register. *)
Theorem C52_ijump_exact : forall so code p s elf call lk src t, (call = true -> lk = true) -> 1 <= src <= 28 -> s (reg_map src) = t -> isw t -> t mod 4 = 0 ->
  code_at 4 (ijump_reg elf call lk src) p code ->
  exists s', goes so code p s t s' /\ jumped elf call lk None t (p + 4 * Z.of_nat (length (ijump_reg elf call lk src))) s s'.
Proof. exact ijump_reg_ok. Qed.
Print Assumptions C52_ijump_exact.

(** An address gets into the register, in the words kept for it. *)
Theorem C52_address_exact : forall so code a s reg t, 1 <= reg <= 28 -> isw t -> code_at 4 (link_addr reg t) a code ->
  exists s', goes so code a s (a + 4 * Z.of_nat (length (link_addr reg t))) s' /\ only s s' (reg_map reg) t.
Proof. exact link_addr_ok. Qed.
Print Assumptions C52_address_exact.
Theorem C52_address_space : forall reg t, Z.of_nat (length (link_addr reg t)) = reserved_addr t.
Proof. exact link_addr_len. Qed.
Print Assumptions C52_address_space.

(** sljit_set_jump_addr on a rewritable jump leaves the words of a rewritable jump to the new target. *)
Theorem C52_set_jump_addr_exact : forall elf sub call lk c p t t',
  sljit_set_jump_addr (link_jump elf true sub call lk c p t) t' = link_jump elf true sub call lk c p t'.
Proof. exact set_rewritable_ok. Qed.
Print Assumptions C52_set_jump_addr_exact.

(** The full statements about the space (the words of a jump fit in the words kept by reduce_code_size) are false of the code. *)
Theorem C52_jump_space_refuted : ~ jump_space.
Proof. exact jump_space_false. Qed.
Print Assumptions C52_jump_space_refuted.
Theorem C52_cond_space_wrong : let c := Some CEqual in
  legal false false c /\ length (link_jump false false false false false c 0x10000000 0x1000000) = 2%nat /\ reserved false 0x1000000 = 1.
Proof. exact cond_space_false. Qed.
Print Assumptions C52_cond_space_wrong.
Theorem C52_label_space_refuted : ~ label_space.
Proof. exact label_space_false. Qed.
Print Assumptions C52_label_space_refuted.

(** They hold except for calls with the ELFv2 convention and conditional jumps to fixed targets from 0x10000 to 0x1ffffff. *)
Theorem C52_jump_space_partial : forall elf rw sub call lk c p t, isw t -> elf && call = false -> (is_cond c = true -> t <= 0xffff \/ 0x01ffffff < t) ->
  Z.of_nat (length (link_jump elf rw sub call lk c p t)) <= reserved rw t.
Proof. exact jump_space_ok. Qed.
Print Assumptions C52_jump_space_partial.
Theorem C52_label_space_partial : forall elf rw sub call lk c p k k0, isw p -> isw (p + 4 * k) -> elf && call = false -> nearer k k0 ->
  Z.of_nat (length (link_jump elf rw sub call lk c p (p + 4 * k))) <= reserved_label rw (is_cond c) k0.
Proof. exact label_space_ok. Qed.
Print Assumptions C52_label_space_partial.

(** Cases: jumps at 0x10000000, executed until the words are left: words, address, link register, registers 9, 12 and CTR. *)
Fixpoint until (n : nat) (code : Z -> Z) (lo hi : Z) (c : state) : option state :=
  if (lo <=? fst c) && (fst c <? hi) then
    match n with O => None | S n' => match step 0 code c with Some d => until n' code lo hi d | None => None end end
  else Some c.
Definition go (elf rw call lk : bool) (c : option cond) (t : Z) : option (nat * Z * Z * Z) :=
  let p := 0x10000000 in
  let ws := words elf rw false call lk c p t in
  match until 12 (only_code p ws) p (p + 4 * Z.of_nat (length ws)) (p, fun r => if r =? 31 then 0 else if (r =? CR 2) || (r =? CA) then 1 else 0) with
  | Some (pc, s) => Some (length ws, pc, s LR, s 12) | None => None end.
Example C52_cases : [go false false false false None 0x10000100; go false false true true None 0x10000100; go true false true true None 0x10000100;
    go false false false true None 0x7ffff700; go false true false false None 0x7fff700; go true false true true None 0x123456789abcde00;
    go false false false false (Some CEqual) 0x10000100; go false false false false (Some CNotEqual) 0x10000100;
    go false false false false (Some CEqual) 0x11000000; go false false false false (Some CNotEqual) 0x11000000;
    go false false false false (Some CEqual) 0x7ffff0000000; go false false false false (Some CLess) 0x7ffff0000000;
    go false false false false (Some CCarry) 0x10000100; go false false false false (Some CNotCarry) 0x11000000; go false false false false (Some CEqual) 0x7000] =
  [Some (1%nat, 0x10000100, 0, 0); Some (1%nat, 0x10000100, 0x10000004, 0); Some (4%nat, 0x10000100, 0x10000010, 0x10000100);
   Some (4%nat, 0x7ffff700, 0x10000010, 0); Some (7%nat, 0x7fff700, 0, 0); Some (7%nat, 0x123456789abcde00, 0x1000001c, 0x123456789abcde00);
   Some (1%nat, 0x10000100, 0, 0); Some (1%nat, 0x10000004, 0, 0); Some (2%nat, 0x11000000, 0, 0); Some (2%nat, 0x10000008, 0, 0);
   Some (6%nat, 0x7ffff0000000, 0, 0); Some (6%nat, 0x10000018, 0, 0); Some (2%nat, 0x10000100, 0, 0); Some (3%nat, 0x1000000c, 0, 0); Some (1%nat, 0x7000, 0, 0)].
Proof. vm_compute. reflexivity. Qed.
Example C52_space_cases : [reserved false 0x10000100; reserved false 0x1000; reserved_label false true 100; reserved_label false true 10000; reserved_label false false 10000000; reserved_addr 0x123456789] = [4; 1; 1; 2; 7; 4].
Proof. vm_compute. reflexivity. Qed.
