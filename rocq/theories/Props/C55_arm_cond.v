(** C55: ARM64: conditions. *)
Require Import ZArith List Bool Lia.
From Verif Require Import Rv.RvLib Imm.ImmLib Imm.MsRefuted Arm.ArmIsa Arm.ArmBr Arm.ArmEnc Arm.ArmJump Arm.ArmJumpSpec Arm.ArmJumpProofs Arm.ArmCondProofs.
Import ListNotations.
Open Scope Z_scope.

(** A conditional jump after a subtraction of [n] bits jumps if and only if the condition holds for the operands. *)
Theorem C55_sub_exact : forall rw ty code p t s n a b v, 1 <= n -> 0 <= a < 2 ^ n -> 0 <= b < 2 ^ n -> isw t -> t mod 4 = 0 -> p mod 4 = 0 ->
  flags_are s (snd (awc n a (lo n (Z.lnot b)) true)) -> sub_meaning n a b ty = Some v ->
  code_at 4 (link_jump rw (Some (JFlag SSub ty)) false p t) p code -> jumps_if v rw SSub ty code p t s.
Proof. exact sub_jump_ok. Qed.
Print Assumptions C55_sub_exact.

(** After an addition with or without carry. *)
Theorem C55_add_exact : forall rw ty code p t s n a b c v, 1 <= n -> 0 <= a < 2 ^ n -> 0 <= b < 2 ^ n -> isw t -> t mod 4 = 0 -> p mod 4 = 0 ->
  flags_are s (snd (awc n a b c)) -> add_meaning n a b (Z.b2z c) ty = Some v ->
  code_at 4 (link_jump rw (Some (JFlag SAdd ty)) false p t) p code -> jumps_if v rw SAdd ty code p t s.
Proof. exact add_jump_ok. Qed.
Print Assumptions C55_add_exact.

(** After a comparison of floating point numbers. *)
Theorem C55_fcmp_exact : forall rw f ty code p t s r v, needs_equal_words ty = false -> isw t -> t mod 4 = 0 -> p mod 4 = 0 ->
  flags_are s (fcmp_flags r) -> fcmp_meaning r ty = Some v -> code_at 4 (link_jump rw (Some (JFlag f ty)) false p t) p code -> jumps_if v rw f ty code p t s.
Proof. exact fcmp_jump_ok. Qed.
Print Assumptions C55_fcmp_exact.
(** "Unordered or equal" needs two more words after the comparison. *)
Theorem C55_fcmp_equal_exact : forall rw f ty code a p t s r v, needs_equal_words ty = true -> isw t -> t mod 4 = 0 -> p mod 4 = 0 ->
  flags_are s (fcmp_flags r) -> fcmp_meaning r ty = Some v -> code_at 4 unordered_or_equal_words a code -> code_at 4 (link_jump rw (Some (JFlag f ty)) false p t) p code ->
  exists s1, goes code a s (a + 8) s1 /\ (forall k, k <> 9 -> xr s1 k = xr s k) /\ mm s1 = mm s /\ jumps_if v rw f ty code p t s1.
Proof. exact fcmp_equal_jump_ok. Qed.
Print Assumptions C55_fcmp_equal_exact.

(** Cases: the flags of 5 - 7 and of 2^31 - 1 (32 bit) and where a jump at 0x1000 to 0x2000 goes. *)
Definition with_flags (f : bool * bool * bool * bool) : st := let '(n, z, c, v) := f in mkSt (fun _ => 0) n z c v (fun _ => 0).
Definition goes_to (f : fstate) (ty : ctype) (s : st) : option Z :=
  match step (only_code 0x1000 (link_jump false (Some (JFlag f ty)) false 0x1000 0x2000)) (0x1000, s) with Some (a, _) => Some a | None => None end.
Example C55_cases : map (fun ty => goes_to SSub ty (with_flags (snd (awc 32 5 (lo 32 (Z.lnot 7)) true)))) [TEqual; TLess; TGreaterEqual; TSigLess; TSigGreater; TCarry; TOverflow] =
  [Some 0x1004; Some 0x2000; Some 0x1004; Some 0x2000; Some 0x1004; Some 0x2000; Some 0x1004] /\
  map (fun ty => goes_to SSub ty (with_flags (snd (awc 32 (2 ^ 31) (lo 32 (Z.lnot 1)) true)))) [TGreater; TSigLess; TSigGreaterEqual; TOverflow; TNotOverflow] =
  [Some 0x2000; Some 0x2000; Some 0x1004; Some 0x2000; Some 0x1004] /\
  map (fun ty => goes_to SAdd ty (with_flags (snd (awc 64 (2 ^ 64 - 1) 1 false)))) [TCarry; TNotCarry; TEqual; TOverflow] = [Some 0x2000; Some 0x1004; Some 0x2000; Some 0x1004].
Proof. vm_compute. auto. Qed.
Example C55_fcmp_cases : map (fun ty => goes_to SOther ty (with_flags (fcmp_flags RUnordered))) [TUnordered; TOrderedLess; TUnorderedOrGreaterEqual; TOrderedEqual; TUnorderedOrLess; TOrderedGreaterEqual] =
  [Some 0x2000; Some 0x1004; Some 0x2000; Some 0x1004; Some 0x2000; Some 0x1004].
Proof. vm_compute. reflexivity. Qed.
Definition after_equal_words (s : st) : option bool :=
  let c := only_code 0x1000 unordered_or_equal_words in
  match step c (0x1000, s) with Some d => match step c d with Some (_, s) => Some (zf s) | None => None end | None => None end.
Example C55_equal_cases : map (fun r => after_equal_words (with_flags (fcmp_flags r))) [RLess; REqual; RGreater; RUnordered] = [Some false; Some true; Some false; Some true].
Proof. vm_compute. reflexivity. Qed.
