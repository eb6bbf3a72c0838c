(** What generated code has to do: specification used by the properties C13, C14 and C15. *)
Require Import ZArith List Bool Lia.
From Verif Require Import Rv.RvLib Rv.RvIsa Rv.RvEnc Rv.RvImm Rv.RvRun Rv.RvImmProofs Rv.RvAddr Rv.RvAddrProofs Rv.RvLink Rv.RvLinkExec Rv.RvLinkApi.
Import ListNotations.
Open Scope Z_scope.

(** A generated program: [calls] were made, the result of sljit_generate_code is [g], the memory was allocated at [code] with the executable
    offset [eo], [codef] is the memory content seen by the instruction fetch. *)
Section Spec.
Variables (cf : cfg) (calls : list call) (code eo : Z) (g : gen) (codef : Z -> Z).

(** The executable address of a position (in 16 bit units). *)
Definition xaddr (r : Z) : Z := code + 2 * r + eo.
(** The processor executes what was written. *)
Definition fetches : Prop := forall p, 0 <= p < rend g -> codef (wrap (xaddr p)) = munit (rmem g) p.

(** The address a jump has to reach: the address reported by sljit_get_label_addr (sljitLir.h:2426), or the absolute target. *)
Definition taddr (t : option target) : Z :=
  match t with Some (TLabel l) => label_addr (rlabels g) l | Some (TAddr a) => a | None => 0 end.

Definition is_addr (t : option target) : Prop := match t with Some (TAddr _) => True | _ => False end.

(** The [i]-th created jump, with its condition, from position [r]; the following code starts at [r1]. *)
Definition jump_at (i : nat) (x : jc) (rewr call : bool) (r r1 : Z) : Prop :=
  let T := taddr (nth i (targets calls) None) in
  (* taken and not taken *)
  (T mod 2 = 0 -> ~ bad_abs52 T -> (is_addr (nth i (targets calls) None) -> ~ bad_b16 x T (xaddr r)) -> forall s, pc s = xaddr r ->
   exists s', steps codef s s' /\ pc s' = (if jc_holds x s then T else xaddr r1) /\
     (call = true -> rd s' RETURN_ADDR_REG = xaddr r1) /\
     same_but s s' (TMP_REG1 :: TMP_REG3 :: if call then [RETURN_ADDR_REG] else [])) /\
  (* sljit_get_jump_addr of a rewritable jump *)
  (rewr = true -> exists jj, nth_error (rjumps g) i = Some jj /\ r <= jaddr jj /\ r1 = jaddr jj + 12 /\
     code_at codef (xaddr (jaddr jj)) (rewritable_units false call TMP_REG1 (sw T))).

(** One call, made after the calls [pre]: its code takes the positions from [r] to [r1]. *)
Definition call_at (pre : list call) (k : call) (r r1 : Z) : Prop :=
  match k with
  | KIns l => code_at codef (xaddr r) (units_of l) /\ r1 = r + Z.of_nat (length (units_of l))
  | KConst p l => code_at codef (xaddr r) (units_of (p :: l)) /\ r1 = r + Z.of_nat (length (units_of (p :: l))) /\
      nth_error (rconsts g) (next_const (emits cf pre)) = Some r
  | KLabel => label_addr (rlabels g) (ret_label (emits cf (pre ++ [k]))) = xaddr r1 /\ r1 = r
  | KAlign al => label_addr (rlabels g) (ret_label (emits cf (pre ++ [k]))) = xaddr r1 /\ r <= r1 /\ (xaddr r1 - eo) mod 2 ^ al = 0 /\
      forall s, pc s = xaddr r -> steps codef s (setpc s (xaddr r1))
  | KJump x rewr call => jump_at (next_jump (emits cf pre)) x rewr call r r1
  | KIJump call _ => jump_at (next_jump (emits cf pre)) JAlways false call r r1
  | KMov reg => let T := taddr (nth (next_jump (emits cf pre)) (targets calls) None) in
      ~ bad_abs52 T -> forall s, pc s = xaddr r ->
      exists s', steps codef s s' /\ pc s' = xaddr r1 /\ rd s' reg = T /\ same_but s s' [reg; TMP_REG3]
  | KSetLabel _ _ | KSetTarget _ _ => r1 = r
  end.

(** The whole program, [pos i] is where the code of call [i] starts. *)
Definition program_at (pos : nat -> Z) : Prop :=
  pos 0%nat = 0 /\ pos (length calls) = rend g /\
  forall i k, nth_error calls i = Some k ->
    pos i <= pos (S i) /\ (cC cf = false -> pos i mod 2 = 0) /\ call_at (firstn i calls) k (pos i) (pos (S i)).
End Spec.

(** The memory given to sljit_generate_code: aligned, in the lower half of the address space and large enough for the size
    requested before the reduction.  The label address after the last instruction is wrong when there is an executable
    offset (see C14_last_label_refuted), so this case is excluded. *)
Definition loadable (cf : cfg) (calls : list call) (code eo : Z) : Prop :=
  code mod (if cC cf then 2 else 4) = 0 /\ eo mod 2 = 0 /\ 0 <= code + eo /\ code + eo + 2 * csize (emits cf calls) < 2 ^ 63.
(** Whether the last emitted thing is a label. *)
Fixpoint ends_with_label (b : bool) (calls : list call) : bool :=
  match calls with
  | [] => b
  | k :: calls => ends_with_label (match k with
      | KLabel | KAlign _ => true
      | KIns [] | KSetLabel _ _ | KSetTarget _ _ => b
      | _ => false end) calls
  end.
(** Whether the last emitted instruction is a conditional jump. *)
Fixpoint ends_with_jump (b : bool) (calls : list call) : bool :=
  match calls with
  | [] => b
  | k :: calls => ends_with_jump (match k with
      | KJump x _ _ => match x with JAlways => false | _ => true end
      | KLabel | KIns [] | KSetLabel _ _ | KSetTarget _ _ => b
      | KAlign _ => b
      | _ => false end) calls
  end.
