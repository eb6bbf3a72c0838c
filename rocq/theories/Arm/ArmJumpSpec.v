(** ARM64: what constants, jumps, addresses and conditions should do. *)
Require Import ZArith List Bool Lia.
From Verif Require Import Rv.RvLib Imm.ImmLib Arm.ArmIsa Arm.ArmBr Arm.ArmEnc Arm.ArmJump.
Import ListNotations.
Open Scope Z_scope.

Definition goes (code : Z -> Z) (a : Z) (s : st) (b : Z) (s' : st) : Prop := runs (step code) (wrap a, s) (wrap b, s').

(** Registers other than those in [f] are the same, the flags and the memory are. *)
Definition same_but (f : Z -> Prop) (s s' : st) : Prop :=
  (forall k, ~ f k -> xr s' k = xr s k) /\ nf s' = nf s /\ zf s' = zf s /\ cf s' = cf s /\ vf s' = vf s /\ mm s' = mm s.
Definition gets (s s' : st) (r v : Z) : Prop := xr s' r = v /\ same_but (fun k => k = r) s s'.

(** The value of a constant, by the operation: a word, 32 bits zero extended, 32 bits sign extended, 9 bits sign extended (sljitLir.h:2390-2397). *)
Definition const_value (op : cop) (v : Z) : Z :=
  match op with CMov => wrap v | CMov32 => v mod 2 ^ 32 | CMovS32 => wrap (sext 32 v) | CMovU8 => wrap (sext 9 v) end.

(** The conditions by the flags (Arm manual, C1.2.4): which flags decide. *)
Definition flag_holds (f : fstate) (ty : ctype) (s : st) : bool :=
  let lt := negb (Bool.eqb (nf s) (vf s)) in
  match ty with
  | TEqual | TAtomicStored | TFEqual | TOrderedEqual | TUnorderedOrEqual => zf s
  | TNotEqual | TAtomicNotStored | TFNotEqual | TUnorderedOrNotEqual | TOrderedNotEqual => negb (zf s)
  | TLess => negb (cf s) | TGreaterEqual => cf s
  | TCarry => match f with SAdd => cf s | _ => negb (cf s) end
  | TNotCarry => match f with SAdd => negb (cf s) | _ => cf s end
  | TGreater | TUnorderedOrGreater => cf s && negb (zf s)
  | TLessEqual | TFLessEqual | TOrderedLessEqual => negb (cf s) || zf s
  | TSigLess | TUnorderedOrLess => lt
  | TSigGreaterEqual | TFGreaterEqual | TOrderedGreaterEqual => negb lt
  | TSigGreater | TFGreater | TOrderedGreater => negb (lt || zf s)
  | TSigLessEqual | TUnorderedOrLessEqual => lt || zf s
  | TOverflow => match f with SOther => negb (zf s) | _ => vf s end
  | TNotOverflow => match f with SOther => zf s | _ => negb (vf s) end
  | TUnordered => vf s | TOrdered => negb (vf s)
  | TFLess | TOrderedLess => nf s
  | TUnorderedOrGreaterEqual => negb (nf s)
  end.
Definition jcond_holds (c : option jcond) (s : st) : bool :=
  match c with
  | None => true
  | Some (JFlag f ty) => flag_holds f ty s
  | Some (JZero eq w32 src) => Bool.eqb eq (xr s (reg_map src) mod 2 ^ (if w32 then 32 else 64) =? 0)
  end.
(** A legal jump: conditional jumps are not calls; a register compared with zero is a register of the API or the first temporary register. *)
Definition legal (c : option jcond) (lk : bool) : Prop :=
  (is_cond c = true -> lk = false) /\ match c with Some (JZero _ _ src) => 1 <= src <= 26 \/ src = TMP_REG1 | _ => True end.
(** After a jump: the second temporary register (10) may be changed, the link register (30) by calls. *)
Definition jumped (lk : bool) (ret : Z) (s s' : st) : Prop :=
  same_but (fun k => k = 10 \/ (lk = true /\ k = 30)) s s' /\ (lk = true -> xr s' 30 = wrap ret).

(** A label at the distance [k] in instructions when the jump is emitted, [k0] when the space was kept: nothing is inserted in between. *)
Definition nearer (k k0 : Z) : Prop := 0 <= k <= k0 \/ k0 <= k <= 0.

(** What each form of a jump needs ([p]: address of the first word). *)
Definition form_ok (f : form) (c : option jcond) (p t : Z) : Prop :=
  let q := if is_cond c then p + 4 else p in
  let near n x := - 2 ^ n <= sgn (wrap (t - x)) < 2 ^ n in
  match f with
  | FCond => is_cond c = true /\ near 20 p
  | FB => near 27 q
  | FAbs32 => t < 2 ^ 32
  | FB32 => - 2 ^ 32 <= sgn (wrap (t - q / 4096 * 4096)) < 2 ^ 32
  | FAbs48 => t < 2 ^ 48
  | FAbs64 => True
  end.

(** ** Conditions by what was compared *)
(** The flags of an [n] bit subtraction and addition (with carry) of [a] and [b], and of FCMP. *)
Definition flags_are (s : st) (f : bool * bool * bool * bool) : Prop := let '(n, z, c, v) := f in nf s = n /\ zf s = z /\ cf s = c /\ vf s = v.
Inductive fres := RLess | REqual | RGreater | RUnordered.
Definition fcmp_flags (r : fres) : bool * bool * bool * bool :=
  match r with RLess => (true, false, false, false) | REqual => (false, true, true, false) | RGreater => (false, false, true, false) | RUnordered => (false, false, true, true) end.
(** The meaning of the conditions (sljitLir.h:1719-1806); the basic floating point types are unspecified if the comparison is unordered. *)
Definition sub_meaning (n a b : Z) (ty : ctype) : option bool :=
  match ty with
  | TEqual => Some (a =? b) | TNotEqual => Some (negb (a =? b))
  | TLess | TCarry => Some (a <? b) | TGreaterEqual | TNotCarry => Some (b <=? a) | TGreater => Some (b <? a) | TLessEqual => Some (a <=? b)
  | TSigLess => Some (sext n a <? sext n b) | TSigGreaterEqual => Some (sext n b <=? sext n a)
  | TSigGreater => Some (sext n b <? sext n a) | TSigLessEqual => Some (sext n a <=? sext n b)
  | TOverflow => Some (negb (sext n (a - b) =? sext n a - sext n b)) | TNotOverflow => Some (sext n (a - b) =? sext n a - sext n b)
  | _ => None
  end.
Definition add_meaning (n a b c : Z) (ty : ctype) : option bool :=
  match ty with
  | TEqual => Some ((a + b + c) mod 2 ^ n =? 0) | TNotEqual => Some (negb ((a + b + c) mod 2 ^ n =? 0))
  | TCarry => Some (2 ^ n <=? a + b + c) | TNotCarry => Some (a + b + c <? 2 ^ n)
  | TOverflow => Some (negb (sext n (a + b + c) =? sext n a + sext n b + c)) | TNotOverflow => Some (sext n (a + b + c) =? sext n a + sext n b + c)
  | _ => None
  end.
Definition fcmp_meaning (r : fres) (ty : ctype) : option bool :=
  let is l := Some (existsb (fun x => match x, r with RLess, RLess | REqual, REqual | RGreater, RGreater | RUnordered, RUnordered => true | _, _ => false end) l) in
  let basic l := match r with RUnordered => None | _ => is l end in
  match ty with
  | TFEqual => basic [REqual] | TFNotEqual => basic [RLess; RGreater] | TFLess => basic [RLess] | TFGreaterEqual => basic [RGreater; REqual]
  | TFGreater => basic [RGreater] | TFLessEqual => basic [RLess; REqual]
  | TOrderedEqual => is [REqual] | TUnorderedOrNotEqual => is [RUnordered; RLess; RGreater]
  | TOrderedLess => is [RLess] | TUnorderedOrGreaterEqual => is [RUnordered; RGreater; REqual]
  | TOrderedGreater => is [RGreater] | TUnorderedOrLessEqual => is [RUnordered; RLess; REqual]
  | TUnorderedOrEqual => is [RUnordered; REqual] | TOrderedNotEqual => is [RLess; RGreater]
  | TUnorderedOrLess => is [RUnordered; RLess] | TOrderedGreaterEqual => is [RGreater; REqual]
  | TUnorderedOrGreater => is [RUnordered; RGreater] | TOrderedLessEqual => is [RLess; REqual]
  | TUnordered => is [RUnordered] | TOrdered => is [RLess; REqual; RGreater]
  | _ => None
  end.
(** Which comparisons need the two further words. *)
Definition needs_equal_words (ty : ctype) : bool := match ty with TUnorderedOrEqual | TOrderedNotEqual => true | _ => false end.
