(** C50: MIPS64: jumps and addresses. *)
Require Import ZArith List Bool Lia.
From Verif Require Import Rv.RvLib Imm.ImmLib Imm.MsIsa Imm.MsModel Imm.MsSpec Imm.MsProofs Imm.MsJump Imm.MsRefuted.
Import ListNotations.
Open Scope Z_scope.

(** The full statement (jump_reaches: a jump reaches its target, with or without release 6) is false of the code. *)
Theorem C50_jump_refuted : forall r6, ~ jump_reaches r6.
Proof. exact call_false. Qed.
Print Assumptions C50_jump_refuted.

(** A jump to a fixed target, in the form which the code chooses: if its condition holds it reaches the target, and a call leaves
    the address of the next instruction in the link register; otherwise it goes on after its words. The instruction before it is
    executed once, in its place or in the delay slot. What is missing: an executable offset; a 256 MB boundary inside of a
    conditional jump; a call directly after an instruction which uses register 31; with release 6, floating point conditions in
    the forms which load the address (all four are false, see below). *)
Theorem C50_jump_partial : forall r6 mem code p s s1 rw iscall prev c jal t,
  jcond_legal c jal -> isw t -> t mod 4 = 0 -> p mod 4 = 0 -> before r6 mem prev c s s1 -> inside c p -> (jal = true -> no_link r6 prev) ->
  (r6 && is_float c && far_form (link_form rw iscall prev (jcond_branch r6 c) p 0 t) = false) ->
  let ws := link_jump r6 rw iscall prev (jcond_branch r6 c) jal p 0 t in
  code_at 4 ws p code ->
  if jcond_holds r6 s1 c
  then exists s', goes r6 mem code p s t s' /\ jumped jal (p + 4 * Z.of_nat (length ws)) s1 s'
  else exists s', goes r6 mem code p s (p + 4 * Z.of_nat (length ws)) s' /\ jumped false 0 s1 s'.
Proof. exact link_jump_ok. Qed.
Print Assumptions C50_jump_partial.

(** The same for a jump to a label, in any form for which the assertions of the code generation hold; [p] is the execution address. *)
Theorem C50_label_jump_partial : forall r6 mem code p s s1 f prev c jal t,
  jcond_legal c jal -> isw t -> t mod 4 = 0 -> p mod 4 = 0 -> before r6 mem prev c s s1 ->
  form_ok f (jump_at f prev c p) t -> (jal = true -> no_link r6 prev) -> (r6 && is_float c && far_form f = false) ->
  let ws := jump_words r6 f prev (jcond_branch r6 c) jal p t in
  code_at 4 ws p code ->
  if jcond_holds r6 s1 c
  then exists s', goes r6 mem code p s t s' /\ jumped jal (p + 4 * Z.of_nat (length ws)) s1 s'
  else exists s', goes r6 mem code p s (p + 4 * Z.of_nat (length ws)) s' /\ jumped false 0 s1 s'.
Proof. exact jump_ok. Qed.
Print Assumptions C50_label_jump_partial.

(** With release 6, a jump with a floating point condition in the full form is always taken. *)
Theorem C50_float_wrong : forall mem code p s c t rw eo, is_float c = true -> isw t -> link_form rw false None (jcond_branch true c) p eo t = FFull ->
  code_at 4 (link_jump true rw false None (jcond_branch true c) false p eo t) p code -> exists s', goes true mem code p s t s'.
Proof. exact float_always. Qed.
Print Assumptions C50_float_wrong.

(** Execution address 0x10000000, executable offset 0x10000000, target 0x100000: not reached. *)
Theorem C50_offset_refuted : code_at 4 (link_jump false false false None None false 0x10000000 0x10000000 0x100000) 0x10000000 code2 /\
  ~ exists s', goes false (fun _ => 0) code2 0x10000000 (fun _ => 0) 0x100000 s'.
Proof. exact offset_wrong. Qed.
Print Assumptions C50_offset_refuted.

(** A conditional jump at 0xffffff0 with the target 0x18000000, without executable offset: not reached though the condition holds. *)
Theorem C50_region_refuted : code_at 4 ws3 0xffffff0 code3 /\ jcond_holds false (fun _ => 0) (JFlag FEqual) = true /\
  ~ exists s', goes false (fun _ => 0) code3 0xffffff0 (fun _ => 0) 0x18000000 s'.
Proof. exact region_wrong. Qed.
Print Assumptions C50_region_refuted.

(** The address of a label or a fixed address gets into the register. *)
Theorem C50_address_exact : forall r6 mem code a s reg t, 1 <= reg <= 27 -> isw t -> code_at 4 (link_addr reg t) a code ->
  exists s', goes r6 mem code a s (a + 4 * Z.of_nat (length (link_addr reg t))) s' /\ only s s' (reg_map reg) t.
Proof. exact link_addr_ok. Qed.
Print Assumptions C50_address_exact.

(** sljit_set_jump_addr on a rewritable jump (after the instruction before it and its branch) leaves the words of a rewritable
    jump to the new target. *)
Theorem C50_set_jump_addr_exact : forall r6 iscall prev c jal p eo t t',
  let k := (length (pre_words prev) + match c with JAlways => 0 | _ => 1 end)%nat in
  let ws := link_jump r6 true iscall prev (jcond_branch r6 c) jal p eo t in
  firstn k ws ++ sljit_set_jump_addr (skipn k ws) t' = link_jump r6 true iscall prev (jcond_branch r6 c) jal p eo t'.
Proof. exact set_rewritable_ok. Qed.
Print Assumptions C50_set_jump_addr_exact.

(** Cases: an ORI of register 5 before the jump, at 0x10000000; executed until the words are left. *)
Definition prev0 : option Z := Some (ORI .| SA 0 .| TA 5 .| IMM 7).
Fixpoint until (n : nat) (code : Z -> Z) (lo hi : Z) (c : state) : option state :=
  if (lo <=? fst (fst c)) && (fst (fst c) <? hi) then
    match n with O => None | S n' => match step false (fun _ => 0) code c with Some d => until n' code lo hi d | None => None end end
  else Some c.
Definition go (rw : bool) (c : jcond) (jal : bool) (t : Z) : option (nat * Z * Z * Z) :=
  let p := 0x10000000 in
  let ws := link_jump false rw false prev0 (jcond_branch false c) jal p 0 t in
  match until 12 (only_code p ws) p (p + 4 * Z.of_nat (length ws)) (p, None, fun r => r) with
  | Some (pc, _, s) => Some (length ws, pc, s 31, s 5) | None => None end.
Example C50_cases : [go false JAlways false 0x10000100; go false JAlways true 0x10000100; go false JAlways true 0x18000100; go false JAlways false 0x7ffff700;
    go false JAlways true 0x7fffffff1000; go true JAlways true 0x10000100; go false (JFlag FEqual) false 0x10000100; go false (JFlag FNotEqual) false 0x10000100;
    go false (JEq true 3 3) false 0x18000100; go false (JEq false 3 3) false 0x18000100; go false (JZero ZLess 3) false 0x123456789000; go false (JZero ZGreater 3) false 0x123456789000] =
  [Some (2%nat, 0x10000100, 31, 7); Some (2%nat, 0x10000100, 0x10000008, 7); Some (2%nat, 0x18000100, 0x10000008, 7); Some (5%nat, 0x7ffff700, 31, 7);
   Some (7%nat, 0x7fffffff1000, 0x1000001c, 7); Some (9%nat, 0x10000100, 0x10000024, 7); Some (2%nat, 0x10000008, 31, 7); Some (2%nat, 0x10000100, 31, 7);
   Some (4%nat, 0x18000100, 31, 7); Some (4%nat, 0x10000010, 31, 7); Some (8%nat, 0x10000020, 31, 7); Some (8%nat, 0x123456789000, 31, 7)].
Proof. vm_compute. reflexivity. Qed.
(** The hypotheses about the instruction before the jump and the place of the jump. *)
Example C50_before_case : let s := fun r : Z => r in let s1 := upd s 5 7 in
  before false (fun _ => 0) prev0 (JFlag FEqual) s s1 /\ no_link false prev0 /\ inside (JFlag FEqual) 0x10000000.
Proof.
  assert (D : decode false (ORI .| SA 0 .| TA 5 .| IMM 7) = Some (Alu (Ori_ 5 0 7))) by (vm_compute; reflexivity).
  cbv zeta. split; [|split].
  - exists (Ori_ 5 0 7). split; [exact D|]. split; [reflexivity|]. intros r [<- | []]. cbn. lia.
  - intros i E. rewrite D in E. injection E as <-. cbn. lia.
  - right. intros k H. change 0x10000000 with (1 * 2 ^ 28). rewrite Z.add_comm, Z_mod_plus_full, Z.mod_small by lia. lia.
Qed.
