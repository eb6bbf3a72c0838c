(** C48: LoongArch64: jumps and addresses. *)
Require Import ZArith List Bool Lia.
From Verif Require Import Rv.RvLib Imm.ImmLib Imm.LaIsa Imm.LaModel Imm.LaSpec Imm.LaProofs Imm.LaJump Imm.LaRefuted.
Import ListNotations.
Open Scope Z_scope.

(** The full statement (jump_reaches: a jump reaches its target) is false of the code. *)
Theorem C48_jump_refuted : ~ jump_reaches.
Proof. exact jump_reaches_false. Qed.
Print Assumptions C48_jump_refuted.

(** A jump to a fixed target: if its condition holds it reaches the target, and a call leaves the address of the next
    instruction in the link register; otherwise it does nothing. What is missing: the relative form of two instructions
    when bit 11 of the difference is set (C48_jump_wrong). *)
Theorem C48_jump_partial : forall code p s rw c call t, jcond_legal c call -> isw t -> t mod 4 = 0 -> p mod 4 = 0 ->
  let a := p + 4 * jcond_size c in
  let ws := link_jump rw (jcond_word c) call a t in
  (detect_jump_type rw (match jcond_word c with Some _ => true | None => false end) a t = PATCH_REL32 -> bit11 (wrap (t - a)) = false) ->
  code_at 4 ws p code ->
  if jcond_holds s c
  then exists s', goes code p s t s' /\ jumped call (p + 4 * Z.of_nat (length ws)) s s'
  else goes code p s (p + 4 * Z.of_nat (length ws)) s.
Proof. exact link_jump_ok. Qed.
Print Assumptions C48_jump_partial.

(** The same for a jump to a label, in any form for which the assertions of the code generation hold. *)
Theorem C48_label_jump_partial : forall code p s m c call t, jcond_legal c call -> isw t -> t mod 4 = 0 -> p mod 4 = 0 ->
  let a := p + 4 * jcond_size c in
  let ws := patch_jump m (jcond_word c) call a t in
  mode_ok m a t -> (m = PATCH_B -> c <> JAlways) -> (m = PATCH_REL32 -> bit11 (wrap (t - a)) = false) ->
  code_at 4 ws p code ->
  if jcond_holds s c
  then exists s', goes code p s t s' /\ jumped call (p + 4 * Z.of_nat (length ws)) s s'
  else goes code p s (p + 4 * Z.of_nat (length ws)) s.
Proof. exact patch_jump_ok. Qed.
Print Assumptions C48_label_jump_partial.

(** The missing case: every such jump goes 4096 bytes after its target. *)
Theorem C48_jump_wrong : forall code a s call t, isw t -> (t - a) mod 4 = 0 ->
  -0x80000000 <= sgn (wrap (t - a)) <= 0x7fffefff -> bit11 (wrap (t - a)) = true ->
  code_at 4 (patch_jump PATCH_REL32 None call a t) a code ->
  exists s', goes code a s (t + 0x1000) s'.
Proof. exact body_wrong. Qed.
Print Assumptions C48_jump_wrong.

(** The space kept for a jump to a fixed target is enough. *)
Theorem C48_jump_fits : forall rw cw call a t, isw t ->
  Z.of_nat (length (link_jump rw cw call a t)) <= (match cw with Some _ => 1 | None => 0 end) + reduce_jump_addr rw t.
Proof. exact link_size. Qed.
Print Assumptions C48_jump_fits.

(** sljit_set_jump_addr on a rewritable jump leaves the words of a rewritable jump to the new target. *)
Theorem C48_set_jump_addr_exact : forall call a t t',
  sljit_set_jump_addr (link_jump true None call a t) t' = link_jump true None call a t'.
Proof. exact set_jump_ok. Qed.
Print Assumptions C48_set_jump_addr_exact.

(** The address of a label or a fixed address: the full statement (address_exact) is false of the code. *)
Theorem C48_address_refuted : ~ address_exact.
Proof. exact address_exact_false. Qed.
Print Assumptions C48_address_refuted.
(** What is missing: addresses 2^31 - 2048 .. 2^31 - 1 bytes after the instruction. *)
Theorem C48_address_partial : forall code a s reg t, 1 <= reg <= 29 -> isw t -> ~ 0x7ffff800 <= sgn (wrap (t - a)) <= 0x7fffffff ->
  code_at 4 (link_addr reg a t) a code ->
  exists s', goes code a s (a + 4 * Z.of_nat (length (link_addr reg a t))) s' /\ only s s' (reg_map reg) t.
Proof. exact link_addr_ok. Qed.
Print Assumptions C48_address_partial.

(** Cases: the words at 0x10000000, executed until the target (or the end of the words) is reached. *)
Definition mem_of (p : Z) (ws : list Z) : Z -> Z := fun x => if x <? p then 0 else nth (Z.to_nat ((x - p) / 4)) ws 0.
Fixpoint until (n : nat) (code : Z -> Z) (lo hi : Z) (c : Z * regs) : option (Z * regs) :=
  if (lo <=? fst c) && (fst c <? hi) then
    match n with O => None | S n' => match step code c with Some d => until n' code lo hi d | None => None end end
  else Some c.
Definition go (rw : bool) (c : jcond) (call : bool) (t : Z) : option (nat * Z * Z) :=
  let p := 0x10000000 in
  let ws := link_jump rw (jcond_word c) call (p + 4 * jcond_size c) t in
  match until 10 (mem_of p ws) p (p + 4 * Z.of_nat (length ws)) (p, fun r => r) with
  | Some (pc, s) => Some (length ws, pc, s 1) | None => None end.
Example C48_cases : [go false JAlways false 0x10000100; go false JAlways true 0x10000100; go false JAlways true 0x20000100; go false JAlways false 0x7ffff700;
    go false JAlways false 0x4123456789ac0; go true JAlways true 0x123456789abcdef0; go false (JCmp LESS 1 2) false 0x10000100;
    go false (JCmp GREATER 1 2) false 0x10000100; go false (JCmp SIG_LESS 1 2) false 0x20000100; go false (JFlag FEqual) false 0x20000100; go false JAlways false 0x20000800] =
  [Some (1%nat, 0x10000100, 1); Some (1%nat, 0x10000100, 0x10000004); Some (2%nat, 0x20000100, 0x10000008); Some (2%nat, 0x7ffff700, 1);
   Some (3%nat, 0x4123456789ac0, 1); Some (4%nat, 0x123456789abcdef0, 0x10000010); Some (1%nat, 0x10000100, 1);
   Some (1%nat, 0x10000004, 1); Some (3%nat, 0x20000100, 1); Some (3%nat, 0x1000000c, 1); Some (2%nat, 0x20001800, 1)].
Proof. vm_compute. reflexivity. Qed.
