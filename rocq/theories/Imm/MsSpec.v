(** MIPS64: what immediates, constants, jumps and addresses should do. *)
Require Import ZArith List Bool Lia.
From Verif Require Import Rv.RvLib Imm.ImmLib Imm.MsIsa Imm.MsModel.
Import ListNotations.
Open Scope Z_scope.

(** The processor goes from address [a] and registers [s] to address [b] and registers [s'], both outside of delay slots. *)
Definition goes (r6 : bool) (mem code : Z -> Z) (a : Z) (s : regs) (b : Z) (s' : regs) : Prop :=
  runs (step r6 mem code) (wrap a, None, s) (wrap b, None, s').

(** The value of a constant, by the operation: a word, the sign extension of 32 bits, of 9 bits (sljitLir.h:2390-2397). *)
Definition const_value (op : cop) (v : Z) : Z :=
  match op with CMov => wrap v | CMov32 => wrap (sext 32 v) | CMovU8 => wrap (sext 9 v) end.

(** The condition of a jump: none, a flag, equality of two registers (0 is the constant zero), a signed comparison with zero. The
    equal flag is set when register 3 is zero, the other flag when register 1 is not zero; the floating point condition is the
    condition code, or from release 6 the lowest bit of floating point register 10. *)
Inductive jcond := JAlways | JFlag (f : fcond) | JEq (eq : bool) (x y : Z) | JZero (c : zcmp) (x : Z).
Definition value (s : regs) (r : Z) : Z := rG s (reg_map r).
Definition fp_flag (r6 : bool) (s : regs) : bool := Z.testbit (s (if r6 then FPR 10 else FCC)) 0.
Definition jcond_holds (r6 : bool) (s : regs) (c : jcond) : bool :=
  match c with
  | JAlways => true
  | JFlag FEqual => s 3 =? 0
  | JFlag FNotEqual => negb (s 3 =? 0)
  | JFlag FSet => negb (s 1 =? 0)
  | JFlag FNotSet => s 1 =? 0
  | JFlag FFloat => fp_flag r6 s
  | JFlag FFloatNot => negb (fp_flag r6 s)
  | JEq true x y => value s x =? value s y
  | JEq false x y => negb (value s x =? value s y)
  | JZero ZLess x => sgn (value s x) <? 0
  | JZero ZGreaterEqual x => 0 <=? sgn (value s x)
  | JZero ZGreater x => 0 <? sgn (value s x)
  | JZero ZLessEqual x => sgn (value s x) <=? 0
  end.
Definition jcond_legal (c : jcond) (jal : bool) : Prop :=
  match c with
  | JAlways => True
  | JFlag _ => jal = false
  | JEq _ x y => 0 <= x <= 27 /\ 0 <= y <= 27 /\ jal = false
  | JZero _ x => 0 <= x <= 27 /\ jal = false
  end.
(** The branch emitted for it (sljit_emit_jump, sljit_emit_cmp). *)
Definition jcond_branch (r6 : bool) (c : jcond) : option (Z * bkind) :=
  match c with JAlways => None | JFlag f => Some (jump_branch r6 f) | JEq e x y => Some (cmp_eq e x y) | JZero c x => Some (cmp_zero c x) end.
Definition is_float (c : jcond) : bool := match c with JFlag FFloat => true | JFlag FFloatNot => true | _ => false end.
(** The processor registers of the condition. *)
Definition jcond_regs (c : jcond) : list Z :=
  match c with
  | JAlways => [] | JFlag FEqual => [3] | JFlag FNotEqual => [3] | JFlag FSet => [1] | JFlag FNotSet => [1]
  | JFlag _ => [] | JEq _ x y => [reg_map x; reg_map y] | JZero _ x => [reg_map x]
  end.

(** The instruction before the jump, when it may be moved to the delay slot: not a branch; it does not write a register of the
    condition. [reads] and [writes] are the registers of an instruction. *)
Definition writes (i : alu) : list Z :=
  match i with Nop_ => [] | Lui_ rt _ => [rt] | Ori_ rt _ _ => [rt] | Addiu_ rt _ _ => [rt] | Dsll_ rd _ _ => [rd] | Daddu_ rd _ _ => [rd] | Ld_ rt _ _ => [rt] end.
Definition reads (i : alu) : list Z :=
  match i with Nop_ => [] | Lui_ _ _ => [] | Ori_ _ rs _ => [rs] | Addiu_ _ rs _ => [rs] | Dsll_ _ rt _ => [rt] | Daddu_ _ rs rt => [rs; rt] | Ld_ _ b _ => [b] end.
Definition before (r6 : bool) (mem : Z -> Z) (prev : option Z) (c : jcond) (s s1 : regs) : Prop :=
  match prev with
  | None => s1 = s
  | Some w => exists i, decode r6 w = Some (Alu i) /\ exec_alu mem i s = Some s1 /\ (forall r, In r (writes i) -> ~ In r (jcond_regs c) /\ 0 <= r < 32)
  end.
(** The instruction does not use register 31. *)
Definition no_link (r6 : bool) (prev : option Z) : Prop :=
  match prev with None => True | Some w => forall i, decode r6 w = Some (Alu i) -> ~ In 31 (reads i) /\ ~ In 31 (writes i) end.

(** What a jump leaves, compared with the registers [s1] after the instruction before it: register 25 may be used, register 31 is
    written by a call. *)
Definition jumped (jal : bool) (ret : Z) (s1 s' : regs) : Prop :=
  (forall r, r <> 25 -> (jal = true -> r <> 31) -> s' r = s1 r) /\ (jal = true -> s' 31 = wrap ret).

(** The full statement about jumps: if the condition holds, the target is reached; otherwise the end of the words. *)
Definition jump_reaches (r6 : bool) : Prop := forall mem code p s s1 rw iscall prev c jal eo t,
  jcond_legal c jal -> isw t -> t mod 4 = 0 -> p mod 4 = 0 -> eo mod 4 = 0 -> before r6 mem prev c s s1 ->
  let ws := link_jump r6 rw iscall prev (jcond_branch r6 c) jal p eo t in
  code_at 4 ws p code ->
  if jcond_holds r6 s1 c
  then exists s', goes r6 mem code p s t s' /\ jumped jal (p + 4 * Z.of_nat (length ws)) s1 s'
  else exists s', goes r6 mem code p s (p + 4 * Z.of_nat (length ws)) s' /\ jumped false 0 s1 s'.

(** What each form needs: the assertions of sljit_generate_code and load_addr_to_reg (MC:829, 834, 690, 694); [a] is the address of
    the B or J instruction. *)
Definition form_ok (f : form) (a t : Z) : Prop :=
  match f with
  | FB _ => within16 (Z.shiftr (sgn (wrap (t - a - 4))) 2) = true
  | FJ _ => region t = region (a + 4)
  | FAbs32 => t < 0x80000000
  | FAbs48 => t < 0x800000000000
  | FFull => True
  end.
(** The address of the B or J instruction. *)
Definition jump_at (f : form) (prev : option Z) (c : jcond) (p : Z) : Z :=
  p + (match f, prev with FB false, Some _ => 4 | FJ false, Some _ => 4 | _, _ => 0 end)
    + (match f, c with FJ _, JAlways => 0 | FJ _, _ => 8 | _, _ => 0 end).

(** A constant directly followed by a jump to a fixed target: the last word of the constant is the instruction before the jump. *)
Definition const_jump (op : cop) (dst v p t : Z) : list Z :=
  let cw := sljit_emit_const op dst v in
  removelast cw ++ link_jump false false false (Some (last cw 0)) None false (p + 4 * (Z.of_nat (length cw) - 1)) 0 t.
(** The full statement: after sljit_set_const the jump is still reached, and the constant has the new value. *)
Definition set_const_before_jump : Prop := forall mem code p s op dst v v' t, 1 <= dst <= 21 -> isw t -> t mod 4 = 0 -> p mod 4 = 0 ->
  code_at 4 (sljit_set_const op (const_jump op dst v p t) v') p code ->
  exists s', goes false mem code p s t s' /\ s' (reg_map dst) = const_value op v'.

(** No boundary of 256 MB in the words of a conditional jump or directly after them. *)
Definition inside (c : jcond) (p : Z) : Prop := c = JAlways \/ forall k, 0 < k <= 20 -> (p + k) mod 2 ^ 28 <> 0.
(** The target is loaded into a register. *)
Definition far_form (f : form) : bool := match f with FB _ | FJ _ => false | _ => true end.
