(** PowerPC64: what immediates, constants, jumps and addresses should do. *)
Require Import ZArith List Bool Lia.
From Verif Require Import Rv.RvLib Imm.ImmLib Imm.PpIsa Imm.PpModel.
Import ListNotations.
Open Scope Z_scope.

(** The processor goes from address [a] and registers [s] to address [b] and registers [s']. *)
Definition goes (so : Z) (code : Z -> Z) (a : Z) (s : regs) (b : Z) (s' : regs) : Prop :=
  runs (step so code) (wrap a, s) (wrap b, s').

(** The value of a constant, by the operation: a word, the sign extension of 32 bits, of 9 bits (sljitLir.h:2390-2397). *)
Definition const_value (op : cop) (v : Z) : Z :=
  match op with CMov => wrap v | CMov32 => wrap (sext 32 v) | CMovU8 => wrap (sext 9 v) end.

(** The condition of a jump by the bits of the condition register: the integer flags are in the bits 0 to 3 (less, greater, equal, overflow), the
    floating point flags in the bits 4 to 7 (less, greater, equal, unordered); the carry is the carry bit after an addition, its complement after a
    subtraction. *)
Definition cond_holds (sub : bool) (s : regs) (c : option cond) : bool :=
  match c with
  | None => true
  | Some CLess => bit s (CR 0) | Some CGreaterEqual => negb (bit s (CR 0))
  | Some CGreater => bit s (CR 1) | Some CLessEqual => negb (bit s (CR 1))
  | Some CEqual => bit s (CR 2) | Some CNotEqual => negb (bit s (CR 2))
  | Some COverflow => bit s (CR 3) | Some CNotOverflow => negb (bit s (CR 3))
  | Some CFLess => bit s (CR 4) | Some CFGreaterEqual => negb (bit s (CR 4))
  | Some CFGreater => bit s (CR 5) | Some CFLessEqual => negb (bit s (CR 5))
  | Some CFEqual => bit s (CR 6) | Some CFNotEqual => negb (bit s (CR 6))
  | Some CUnordered => bit s (CR 7) | Some COrdered => negb (bit s (CR 7))
  | Some CCarry => if sub then negb (bit s CA) else bit s CA
  | Some CNotCarry => if sub then bit s CA else negb (bit s CA)
  end.

(** What a jump may change: the call register and the count register; the link register of a call; before a jump on the carry register 10, the
    carry and the integer flags. With the ELFv2 convention, register 12 holds the target of a call. *)
Definition clobbered (elf lk : bool) (c : option cond) (r : Z) : Prop :=
  r = CTR \/ r = (if elf then 12 else 9) \/ (lk = true /\ r = LR) \/
  (is_carry c = true /\ (r = 10 \/ r = CA \/ r = CR 0 \/ r = CR 1 \/ r = CR 2 \/ r = CR 3)).
Definition jumped (elf call lk : bool) (c : option cond) (t ret : Z) (s s' : regs) : Prop :=
  (forall r, ~ clobbered elf lk c r -> s' r = s r) /\ (lk = true -> s' LR = wrap ret) /\ (elf = true -> call = true -> s' 12 = t).

(** A legal jump: conditional jumps are not calls, calls link. *)
Definition legal (call lk : bool) (c : option cond) : Prop := (is_cond c = true -> lk = false) /\ (call = true -> lk = true).
(** The words of the jump at the address [p]. *)
Definition words (elf rw sub call lk : bool) (c : option cond) (p t : Z) : list Z :=
  carry_words c ++ link_jump elf rw sub call lk c (p + 4 * Z.of_nat (length (carry_words c))) t.
(** The full statement about jumps: if the condition holds, the target is reached; otherwise the end of the words. *)
Definition jump_reaches : Prop := forall so code p s elf rw sub call lk c t,
  legal call lk c -> isw t -> t mod 4 = 0 -> p mod 4 = 0 -> s 31 = 0 ->
  code_at 4 (words elf rw sub call lk c p t) p code ->
  let e := p + 4 * Z.of_nat (length (words elf rw sub call lk c p t)) in
  if cond_holds sub s c
  then exists s', goes so code p s t s' /\ jumped elf call lk c t e s s'
  else exists s', goes so code p s e s' /\ jumped elf false false c t e s s'.

(** What each form needs: the distance or the address fits in the signed field of the branch. *)
Definition form_ok (f : form) (cnd : bool) (p t : Z) : Prop :=
  let fits n x := - 2 ^ (n - 1) <= x < 2 ^ (n - 1) in
  match f with
  | FB ab => fits (if cnd then 16 else 26) (if ab then t else sgn (wrap (t - p)))
  | FBB ab => cnd = true /\ fits 26 (if ab then t else sgn (wrap (t - (p + 4))))
  | FAbs32 => t < 0x80000000
  | FAbs48 => t < 0x800000000000
  | FFull => True
  end.
(** The full statements about the space: the words of a jump fit in the words kept for them by reduce_code_size. *)
Definition jump_space : Prop := forall elf rw sub call lk c p t, legal call lk c -> isw t -> t mod 4 = 0 -> p mod 4 = 0 ->
  Z.of_nat (length (link_jump elf rw sub call lk c p t)) <= reserved rw t.
(** A label at the distance [k] in instructions when the jump is emitted, [k0] when the space was kept: nothing is inserted in between. *)
Definition nearer (k k0 : Z) : Prop := 0 <= k <= k0 \/ k0 <= k <= 0.
Definition label_space : Prop := forall elf rw sub call lk c p k k0, legal call lk c -> isw p -> isw (p + 4 * k) -> p mod 4 = 0 -> nearer k k0 ->
  Z.of_nat (length (link_jump elf rw sub call lk c p (p + 4 * k))) <= reserved_label rw (is_cond c) k0.

(** ** A jump without the words which move the carry, for jumps to labels *)
(** The condition in the form in which the branch tests it: the carry has been moved to bit 2. *)
Definition tested (sub : bool) (s : regs) (c : option cond) : bool :=
  match c with
  | Some CCarry => if sub then bit s (CR 2) else negb (bit s (CR 2))
  | Some CNotCarry => if sub then negb (bit s (CR 2)) else bit s (CR 2)
  | _ => cond_holds sub s c
  end.
Definition call_r (elf : bool) : Z := if elf then 12 else 9.
(** What the jump itself changes. *)
Definition core (elf lk : bool) (ret : Z) (s s' : regs) : Prop :=
  (forall r, r <> CTR -> r <> call_r elf -> (lk = true -> r <> LR) -> s' r = s r) /\ (lk = true -> s' LR = wrap ret).
Definition is_far (f : form) : bool := match f with FB _ | FBB _ => false | _ => true end.
