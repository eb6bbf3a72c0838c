(** LoongArch64: what constants, jumps and addresses should do. *)
Require Import ZArith List Bool Lia.
From Verif Require Import Rv.RvLib Imm.ImmLib Imm.LaIsa Imm.LaModel.
Import ListNotations.
Open Scope Z_scope.

(** The processor goes from address [a] and registers [s] to address [b] and registers [s']. *)
Definition goes (code : Z -> Z) (a : Z) (s : regs) (b : Z) (s' : regs) : Prop := runs (step code) (wrap a, s) (wrap b, s').

(** The value of a constant, by the operation: a word, the sign extension of 32 bits, of 9 bits (sljitLir.h:2390-2397). *)
Definition const_value (op : cop) (v : Z) : Z :=
  match op with CMov => wrap v | CMov32 => wrap (sext 32 v) | CMovU8 => wrap (sext 9 v) end.

(** What a jump leaves: the first temporary register (13) may be used, the link register (1) is written by a call. *)
Definition jumped (call : bool) (ret : Z) (s s' : regs) : Prop :=
  (forall r, r <> 13 -> (call = true -> r <> 1) -> s' r = s r) /\ (call = true -> s' 1 = wrap ret).

(** The condition of a jump: none, a comparison of two registers (0 is the constant zero), or a flag: the equal flag is
    set when register 12 is zero, the other flag when register 15 is not zero. *)
Inductive jcond := JAlways | JCmp (c : cmp) (src1 src2 : Z) | JFlag (f : fcond).
Definition cmp_holds (c : cmp) (x y : Z) : bool :=
  match c with
  | EQUAL => x =? y | NOT_EQUAL => negb (x =? y)
  | LESS => x <? y | GREATER_EQUAL => y <=? x | GREATER => y <? x | LESS_EQUAL => x <=? y
  | SIG_LESS => sgn x <? sgn y | SIG_GREATER_EQUAL => sgn y <=? sgn x
  | SIG_GREATER => sgn y <? sgn x | SIG_LESS_EQUAL => sgn x <=? sgn y
  end.
Definition value (s : regs) (r : Z) : Z := if r =? 0 then 0 else s (reg_map r).
Definition jcond_holds (s : regs) (c : jcond) : bool :=
  match c with
  | JAlways => true
  | JCmp c x y => cmp_holds c (value s x) (value s y)
  | JFlag FEqual => s 12 =? 0
  | JFlag FNotEqual => negb (s 12 =? 0)
  | JFlag FSet => negb (s 15 =? 0)
  | JFlag FNotSet => s 15 =? 0
  end.
Definition jcond_legal (c : jcond) (call : bool) : Prop :=
  match c with JCmp _ x y => 0 <= x <= 29 /\ 0 <= y <= 29 /\ call = false | JFlag _ => call = false | JAlways => True end.

(** The word emitted before the jump (sljit_emit_cmp, sljit_emit_jump), and the number of words before it. *)
Definition jcond_word (c : jcond) : option Z :=
  match c with JAlways => None | JCmp c x y => Some (cmp_inst c x y) | JFlag f => Some (get_jump_instruction f) end.
Definition jcond_size (c : jcond) : Z := match c with JAlways => 0 | _ => 1 end.

(** Bit 11 of the difference of the target and the jump. *)
Definition bit11 (x : Z) : bool := negb (x .& 0x800 =? 0).
(** What each mode of patching needs: the assertions of sljit_generate_code and load_addr_to_reg (LA:796, 801, 548, 564, 523). *)
Definition mode_ok (m : mode) (a t : Z) : Prop :=
  match m with
  | PATCH_B => within (sgn (wrap (t - a)) + 4) BRANCH16_MIN BRANCH16_MAX = true
  | PATCH_J => within (sgn (wrap (t - a))) JUMP_MIN JUMP_MAX = true
  | PATCH_REL32 => within (sgn (wrap (t - a))) S32_MIN S32_MAX = true
  | PATCH_ABS32 => t <= S32_MAX
  | PATCH_ABS52 => t <= S52_MAX
  | PATCH_FULL => True
  end.

(** The full statement about jumps: if the condition holds, the target is reached. *)
Definition jump_reaches : Prop := forall code p s rw c call t, jcond_legal c call -> isw t -> t mod 4 = 0 -> p mod 4 = 0 ->
  let a := p + 4 * jcond_size c in
  let ws := link_jump rw (jcond_word c) call a t in
  code_at 4 ws p code -> jcond_holds s c = true ->
  exists s', goes code p s t s' /\ jumped call (p + 4 * Z.of_nat (length ws)) s s'.

(** The full statement about addresses: the register holds the address. *)
Definition address_exact : Prop := forall code a s reg t, 1 <= reg <= 29 -> isw t -> code_at 4 (link_addr reg a t) a code ->
  exists s', goes code a s (a + 4 * Z.of_nat (length (link_addr reg a t))) s' /\ only s s' (reg_map reg) t.
