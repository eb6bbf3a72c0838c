(** ARM64: what accesses to memory and the operators with operands in memory should do, from the API (sljitLir.h:1086-1132, 1240-1422, 1520-1583). *)
Require Import ZArith List Bool Lia.
From Verif Require Import Rv.RvLib Arm.ArmIsa Arm.ArmEnc Arm.ArmJump Arm.ArmJumpSpec Arm.ArmOp Arm.ArmOpSpec Arm.ArmMem.
Import ListNotations.
Open Scope Z_scope.

(** The address of an operand (modulo 2^64). *)
Definition addr (s : st) (m : maddr) : Z :=
  match m with
  | MBase r w => xr s (reg_map r) + w
  | MIndex r o k => xr s (reg_map r) + xr s (reg_map o) * 2 ^ k
  | MAbs w => w
  end.
(** The registers an address may use; the stack pointer has no index. *)
Definition legal_mem (m : maddr) : Prop :=
  match m with
  | MBase r w => (1 <= r <= 26 \/ r = SLJIT_SP) /\ - 2 ^ 63 <= w < 2 ^ 63
  | MIndex r o k => 1 <= r <= 26 /\ 1 <= o <= 26 /\ 0 <= k <= 3
  | MAbs w => - 2 ^ 63 <= w < 2 ^ 63
  end.
Definition byte_mem (m : Z -> Z) : Prop := forall a, 0 <= m a < 256.
(** The number in the [n] bytes at [a], the lowest byte first; addresses wrap around. *)
Fixpoint value (m : Z -> Z) (a : Z) (n : nat) : Z :=
  match n with O => 0 | S n' => value m a n' + m ((a + Z.of_nat n') mod 2 ^ 64) * 2 ^ (8 * Z.of_nat n') end.
(** [m'] is [m] with the low [n] bytes of [v] at [a]. *)
Definition stored (m m' : Z -> Z) (a n v : Z) : Prop :=
  (forall i, 0 <= i < n -> m' ((a + i) mod 2 ^ 64) = byte v i) /\ (forall x, (forall i, 0 <= i < n -> x <> (a + i) mod 2 ^ 64) -> m' x = m x).

(** The effect of a load or store of [2^sh] bytes. *)
Definition did_mem (sh : Z) (sg store : bool) (reg : Z) (m : maddr) (tmp : Z) (s s' : st) : Prop :=
  let n := 2 ^ sh in
  same_flags s s' /\
  (forall k, k <> reg_map tmp -> (store = false -> k <> reg_map reg) -> xr s' k = xr s k) /\
  if store then stored (mm s) (mm s') (addr s m) n (xr s (reg_map reg))
  else mm s' = mm s /\
    xr s' (reg_map reg) = let v := value (mm s) (addr s m) (Z.to_nat n) in if sg then sext (8 * n) v mod 2 ^ 64 else v.

(** ** Operators *)
(** The local area starts two words above the stack pointer (saved frame pointer and return address). *)
Definition place (s : st) (m : maddr) : Z := match m with MBase r w => if r =? SLJIT_SP then xr s 31 + 16 + w else addr s m | _ => addr s m end.
Definition legal_place (m : maddr) : Prop := match m with MBase r w => legal_mem m /\ (r = SLJIT_SP -> 0 <= w < 2 ^ 31) | _ => legal_mem m end.
(** The value of an operand of [n] bits. *)
Definition vald (n : Z) (s : st) (a : opd) : Z :=
  match a with DReg r => xr s (reg_map r) mod 2 ^ n | DImm i => i mod 2 ^ n | DMem m => value (mm s) (place s m) (Z.to_nat (n / 8)) end.
Definition legal_src (a : opd) : Prop := match a with DReg r => 1 <= r <= 26 | DImm i => - 2 ^ 63 <= i < 2 ^ 63 | DMem m => legal_place m end.
(** MULADD has a register as destination; the destination of op2u is the second temporary register. *)
Definition legal_dest (op : op2) (d : opd) : Prop :=
  match d with
  | DReg r => 1 <= r <= 26 \/ match op with OMuladd => False | _ => r = TMP_REG2 end
  | DImm _ => False
  | DMem m => legal_place m /\ op <> OMuladd
  end.
(** The effect of an operation with two operands; [want]: the result is wanted (not op2u). *)
Definition did_op2m (op : op2) (w32 setf want : bool) (d : opd) (a b : Z) (s s' : st) : Prop :=
  let n := len w32 in
  (match d with
   | DReg r => (want = true -> xr s' (reg_map r) mod 2 ^ n = result op n a b (cf s) (xr s (reg_map r) mod 2 ^ n)) /\ mm s' = mm s
   | DMem m => stored (mm s) (mm s') (place s m) (n / 8) (result op n a b (cf s) 0)
   | DImm _ => False
   end) /\
  (forall k, d <> DReg k -> 1 <= k <= 27 -> xr s' (reg_map k) = xr s (reg_map k)) /\
  (setf = false -> same_flags s s') /\
  (setf = true -> forall f ty v, meaning op n a b (cf s) ty = Some v -> flag_holds (state_after op f) ty s' = v).

(** One operand: the number of bytes in memory. *)
Definition bytes1 (op : op1) (w32 : bool) : Z :=
  match op with
  | OMov | OMovP => 8 | OMov32 | OMovU32 | OMovS32 | ORevU32 | ORevS32 => 4 | OMovU16 | OMovS16 | ORevU16 | ORevS16 => 2 | OMovU8 | OMovS8 => 1
  | OClz | OCtz | ORev => len w32 / 8
  end.
Definition val1m (op : op1) (w32 : bool) (s : st) (a : opd) : Z :=
  match a with DReg r => xr s (reg_map r) | DImm i => i | DMem m => value (mm s) (place s m) (Z.to_nat (bytes1 op w32)) end.
Definition did_op1m (op : op1) (w32 : bool) (d a : opd) (s s' : st) : Prop :=
  (match d with
   | DReg r => result1 op w32 (val1m op w32 s a) (xr s' (reg_map r)) /\ mm s' = mm s
   | DMem m => exists y, result1 op w32 (val1m op w32 s a) y /\ stored (mm s) (mm s') (place s m) (bytes1 op w32) y
   | DImm _ => False
   end) /\
  (forall k, d <> DReg k -> 1 <= k <= 27 -> xr s' (reg_map k) = xr s (reg_map k)) /\ same_flags s s'.

(** Double shifts: [k] bits of [b] are shifted into [a]. *)
Definition shift_into (left : bool) (n a b k : Z) : Z :=
  if left then (a * 2 ^ k + b / 2 ^ (n - k)) mod 2 ^ n else a / 2 ^ k + (b * 2 ^ (n - k)) mod 2 ^ n.
(** The effect of a double shift; [c] is the count. *)
Definition did_shift_into (left w32 : bool) (dst src1 src2 : Z) (src3 : opd) (s s' : st) : Prop :=
  let n := len w32 in
  xr s' (reg_map dst) mod 2 ^ n = shift_into left n (xr s (reg_map src1) mod 2 ^ n) (xr s (reg_map src2) mod 2 ^ n) (vald n s src3 mod n) /\
  (forall k, k <> dst -> 1 <= k <= 27 -> xr s' (reg_map k) = xr s (reg_map k)) /\ mm s' = mm s /\ same_flags s s'.
