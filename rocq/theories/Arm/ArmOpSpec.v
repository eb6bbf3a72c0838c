(** ARM64: what the operators should do, from the API (sljitLir.h:1166-1422). *)
Require Import ZArith List Bool Lia.
From Verif Require Import Rv.RvLib Arm.ArmIsa Arm.ArmEnc Arm.ArmJump Arm.ArmJumpSpec Arm.ArmOp.
Import ListNotations.
Open Scope Z_scope.

(** The length of an operation, the value of an operand. *)
Definition len (w32 : bool) : Z := if w32 then 32 else 64.
Definition val (n : Z) (s : st) (a : arg) : Z := match a with AReg r => xr s (reg_map r) mod 2 ^ n | AImm i => i mod 2 ^ n end.

(** The result of an operation of [n] bits on [a] and [b]; [c] is the carry flag of the processor, which is set after a subtraction without
    borrow, [d] the previous value of the destination. *)
Definition result (op : op2) (n a b : Z) (c : bool) (d : Z) : Z :=
  let k := b mod n in
  match op with
  | OAdd => (a + b) mod 2 ^ n
  | OAddc => (a + b + Z.b2z c) mod 2 ^ n
  | OSub => (a - b) mod 2 ^ n
  | OSubc => (a - b - Z.b2z (negb c)) mod 2 ^ n
  | OMul => (a * b) mod 2 ^ n
  | OAnd => Z.land a b | OOr => Z.lor a b | OXor => Z.lxor a b
  | OShl | OMshl => (a * 2 ^ k) mod 2 ^ n
  | OLshr | OMlshr => a / 2 ^ k
  | OAshr | OMashr => (sext n a / 2 ^ k) mod 2 ^ n
  | ORotl => (a * 2 ^ k + a / 2 ^ (n - k)) mod 2 ^ n
  | ORotr => (a * 2 ^ (n - k) + a / 2 ^ k) mod 2 ^ n
  | OMuladd => (d + a * b) mod 2 ^ n
  end.

(** The conditions which have a meaning after an operation, and the meaning. *)
Definition zero_meaning (r : Z) (ty : ctype) : option bool :=
  match ty with TEqual => Some (r =? 0) | TNotEqual => Some (negb (r =? 0)) | _ => None end.
Definition meaning (op : op2) (n a b : Z) (c : bool) (ty : ctype) : option bool :=
  match op with
  | OAdd => add_meaning n a b 0 ty
  | OAddc => match ty with TCarry => Some (2 ^ n <=? a + b + Z.b2z c) | TNotCarry => Some (a + b + Z.b2z c <? 2 ^ n) | _ => None end
  | OSub => sub_meaning n a b ty
  | OSubc => match ty with TCarry => Some (a <? b + Z.b2z (negb c)) | TNotCarry => Some (b + Z.b2z (negb c) <=? a) | _ => None end
  | OMul =>
      let fits := sext n (a * b) =? sext n a * sext n b in
      match ty with TOverflow => Some (negb fits) | TNotOverflow => Some fits | _ => None end
  | OAnd | OOr | OXor | OShl | OMshl | OLshr | OMlshr | OAshr | OMashr => zero_meaning (result op n a b c 0) ty
  | ORotl | ORotr | OMuladd => None
  end.
(** Operations with flags. *)
Definition has_flags (op : op2) : bool := match op with ORotl | ORotr | OMuladd => false | _ => true end.

(** The legal destinations and operands: registers of the API; the temporary registers hold operands from memory and results for memory.
    The destination of op2u is the second temporary register. *)
Definition legal_dst (op : op2) (dst : Z) : Prop :=
  1 <= dst <= 26 \/ match op with OMuladd => False | _ => dst = TMP_REG1 \/ dst = TMP_REG2 end.
Definition legal_arg (tmp : Z) (a : arg) : Prop := match a with AReg r => 1 <= r <= 26 \/ r = tmp | AImm i => - 2 ^ 63 <= i < 2 ^ 63 end.

Definition same_flags (s s' : st) : Prop := nf s' = nf s /\ zf s' = zf s /\ cf s' = cf s /\ vf s' = vf s.
(** The effect of an operation: [res] whether the result is wanted. *)
Definition did_op2 (op : op2) (w32 setf unused : bool) (dst a b : Z) (s s' : st) : Prop :=
  let n := len w32 in
  (setf && unused = false -> xr s' (reg_map dst) mod 2 ^ n = result op n a b (cf s) (xr s (reg_map dst) mod 2 ^ n)) /\
  (forall k, k <> reg_map dst -> k <> 9 -> k <> 10 -> k <> 30 -> xr s' k = xr s k) /\ mm s' = mm s /\
  (setf = false -> same_flags s s') /\
  (setf = true -> forall f ty v, meaning op n a b (cf s) ty = Some v -> flag_holds (state_after op f) ty s' = v).

(** ** One operand *)
Definition byte (x k : Z) : Z := (x / 2 ^ (8 * k)) mod 2 ^ 8.
(** The low [m] bytes of [x] in the other order. *)
Fixpoint swapped (m : nat) (x : Z) : Z := match m with O => 0 | S m' => byte x 0 * 2 ^ (8 * Z.of_nat m') + swapped m' (x / 2 ^ 8) end.
(** The number of zero bits of [x] (of [n] bits) before the highest, after the lowest bit which is set. *)
Definition leading (n x z : Z) : Prop := 0 <= z <= n /\ x / 2 ^ (n - z) = 0 /\ (z < n -> Z.testbit x (n - 1 - z) = true).
Definition trailing (n x z : Z) : Prop := 0 <= z <= n /\ x mod 2 ^ z = 0 /\ (z < n -> Z.testbit x z = true).
(** [y] of [m] bits is the result for the operand [x]. *)
Definition result1 (op : op1) (w32 : bool) (x y : Z) : Prop :=
  let n := len w32 in
  let is m v := y mod 2 ^ m = v mod 2 ^ m in
  match op with
  | OMov | OMovP => is 64 x
  | OMov32 => is 32 x
  | OMovU8 => is n (x mod 2 ^ 8) | OMovS8 => is n (sext 8 x) | OMovU16 => is n (x mod 2 ^ 16) | OMovS16 => is n (sext 16 x)
  | OMovU32 => is 64 (x mod 2 ^ 32) | OMovS32 => is 64 (sext 32 x)
  | OClz => leading n (x mod 2 ^ n) (y mod 2 ^ n)
  | OCtz => trailing n (x mod 2 ^ n) (y mod 2 ^ n)
  | ORev => is n (swapped (if w32 then 4 else 8) x)
  | ORevU16 => is n (swapped 2 x) | ORevS16 => is n (sext 16 (swapped 2 x))
  | ORevU32 => is 64 (swapped 4 x) | ORevS32 => is 64 (sext 32 (swapped 4 x))
  end.
Definition val1 (s : st) (a : arg) : Z := match a with AReg r => xr s (reg_map r) | AImm i => i end.
(** Only the destination changes. *)
Definition did_op1 (op : op1) (w32 : bool) (dst : Z) (a : arg) (s s' : st) : Prop :=
  result1 op w32 (val1 s a) (xr s' (reg_map dst)) /\ same_but (fun k => k = reg_map dst) s s'.

(** ** No operand *)
Definition div_ok (op : op0) (n a b : Z) : Prop :=
  match op with
  | OLmulU | OLmulS => True
  | ODivmodU | ODivU => b <> 0
  | ODivmodS | ODivS => b <> 0 /\ ~ (b = 2 ^ n - 1 /\ a = 2 ^ (n - 1))
  end.
(** [a] and [b]: R0 and R1 before ([n] bits, LMUL: 64 bits), [x] and [y]: after. *)
Definition result0 (op : op0) (n a b x y : Z) : Prop :=
  match op with
  | OLmulU => y * 2 ^ 64 + x = a * b
  | OLmulS => sext 64 y * 2 ^ 64 + x = sext 64 a * sext 64 b
  | ODivmodU => a = x * b + y /\ 0 <= y < b
  | ODivmodS => sext n a = sext n x * sext n b + sext n y /\ Z.abs (sext n y) < Z.abs (sext n b) /\ (sext n y = 0 \/ Z.sgn (sext n y) = Z.sgn (sext n a))
  | ODivU => x = a / b /\ y = b
  | ODivS => sext n x = Z.quot (sext n a) (sext n b) /\ y = b
  end.
(** Only R0 and R1 (the registers 0 and 1 of the processor) and the first temporary register change. *)
Definition did_op0 (op : op0) (w32 : bool) (s s' : st) : Prop :=
  let n := match op with OLmulU | OLmulS => 64 | _ => len w32 end in
  result0 op n (xr s 0 mod 2 ^ n) (xr s 1 mod 2 ^ n) (xr s' 0 mod 2 ^ n) (xr s' 1 mod 2 ^ n) /\ same_but (fun k => k = 0 \/ k = 1 \/ k = 9) s s'.
