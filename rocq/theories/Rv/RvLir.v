(** What the integer operations of the API mean, independently of any code generator: sljitLir.h:1063-1460.
    Words are numbers; [n] is the length of the operation, 32 or 64. *)
Require Import ZArith List Bool Lia.
From Verif Require Import Rv.RvLib Rv.RvIsa Rv.RvEnc Rv.RvRun Rv.RvWf Rv.RvMem Rv.RvOp.
Import ListNotations.
Open Scope Z_scope.

(** The length of an operation, sljitLir.h:1073-1106. *)
Definition nbits (is32 : bool) : Z := if is32 then 32 else 64.
(** The register format of an [n] bit value on this CPU: sign extended to 64 bit
    (sljitConfigInternal.h SLJIT_UPPER_BITS_SIGN_EXTENDED). *)
Definition canon (n x : Z) : Z := wrap (sext n x).

(** ** Results (values modulo 2^n) *)

(** Count of leading and trailing zero bits: the largest number of zero bits at the end. *)
Definition is_clz (n a r : Z) : Prop := 0 <= r <= n /\ a mod 2 ^ n < 2 ^ (n - r) /\ (r < n -> 2 ^ (n - r - 1) <= a mod 2 ^ n).
Definition is_ctz (n a r : Z) : Prop := 0 <= r <= n /\ (a mod 2 ^ n) mod 2 ^ r = 0 /\ (r < n -> (a mod 2 ^ n) mod 2 ^ (r + 1) <> 0).
(** Byte [i] of [a], and [a] with the first [m] bytes in reverse order. *)
Definition byte (a i : Z) : Z := (a / 2 ^ (8 * i)) mod 256.
Fixpoint rev_bytes (m : nat) (a : Z) : Z :=
  match m with O => 0 | S m => byte a 0 * 2 ^ (8 * Z.of_nat m) + rev_bytes m (a / 256) end.

(** The result of a unary operation; the value is the 64 bit register content. *)
Definition res1 (k : op1k) (n a r : Z) : Prop :=
  match k with
  | O_MOV | O_MOV_P => r = wrap a
  | O_MOV_U8 => r = a mod 2 ^ 8
  | O_MOV_S8 => r = wrap (sext 8 a)
  | O_MOV_U16 => r = a mod 2 ^ 16
  | O_MOV_S16 => r = wrap (sext 16 a)
  | O_MOV_U32 => r = a mod 2 ^ 32
  | O_MOV_S32 | O_MOV32 => r = wrap (sext 32 a)
  | O_CLZ => is_clz n a r
  | O_CTZ => is_ctz n a r
  | O_REV => r = canon n (rev_bytes (if n =? 64 then 8 else 4) a)
  | O_REV_U16 => r = rev_bytes 2 a
  | O_REV_S16 => r = wrap (sext 16 (rev_bytes 2 a))
  | O_REV_U32 => r = rev_bytes 4 a
  | O_REV_S32 => r = wrap (sext 32 (rev_bytes 4 a))
  end.

(** Rotation to the left by [k] bits, 0 <= k < n, of an [n] bit value. *)
Definition rot_left (n a k : Z) : Z := (a * 2 ^ k) mod 2 ^ n + a / 2 ^ (n - k).
(** The result of a binary operation modulo 2^n. *)
Definition res2 (k : op2k) (n x y : Z) (carry : bool) : Z :=
  let a := x mod 2 ^ n in
  let b := y mod 2 ^ n in
  match k with
  | O_ADD => a + b
  | O_ADDC => a + b + b2z carry
  | O_SUB => a - b
  | O_SUBC => a - b - b2z carry
  | O_MUL => a * b
  | O_AND => Z.land a b
  | O_OR => Z.lor a b
  | O_XOR => Z.lxor a b
  | O_SHL | O_MSHL => a * 2 ^ (b mod n)
  | O_LSHR | O_MLSHR => a / 2 ^ (b mod n)
  | O_ASHR | O_MASHR => sext n a / 2 ^ (b mod n)
  | O_ROTL => rot_left n a (b mod n)
  | O_ROTR => rot_left n a ((n - b mod n) mod n)
  end.
(** Shifts whose amount is a register or memory operand outside of the range: undefined (sljitLir.h:1350-1354). *)
Definition shift_defined (k : op2k) (n y : Z) : Prop :=
  match k with O_SHL | O_LSHR | O_ASHR => y mod 2 ^ n < n | _ => True end.

(** ** Flags *)
(** The variable flag of an operation, sljitLir.h:1108-1160, 1316-1350, 1720-1750. *)
Definition out_of_range (n v : Z) : bool := negb ((- 2 ^ (n - 1) <=? v) && (v <? 2 ^ (n - 1))).
Definition flag2 (k : op2k) (v : vflag) (n x y : Z) (carry : bool) : bool :=
  let a := x mod 2 ^ n in
  let b := y mod 2 ^ n in
  match v with
  | VNone => false
  | VLess => a <? b
  | VGreater => b <? a
  | VSigLess => sext n a <? sext n b
  | VSigGreater => sext n b <? sext n a
  | VOverflow =>
    match k with
    | O_ADD => out_of_range n (sext n a + sext n b)
    | O_SUB => out_of_range n (sext n a - sext n b)
    | O_MUL => out_of_range n (sext n a * sext n b)
    | _ => false
    end
  | VCarry =>
    match k with
    | O_ADD => 2 ^ n <=? a + b
    | O_ADDC => 2 ^ n <=? a + b + b2z carry
    | O_SUB => a <? b
    | O_SUBC => a <? b + b2z carry
    | _ => false
    end
  end.
(** The flags that may be requested, check_sljit_emit_op2 (sljitLir.c:1837-1905). *)
Definition flags_legal (k : op2k) (z : bool) (v : vflag) : Prop :=
  match k with
  | O_ADD => v = VNone \/ v = VCarry \/ v = VOverflow
  | O_SUB => True
  | O_ADDC | O_SUBC => z = false /\ (v = VNone \/ v = VCarry)
  | O_MUL => z = false /\ (v = VNone \/ v = VOverflow)
  | O_AND | O_OR | O_XOR | O_SHL | O_MSHL | O_LSHR | O_MLSHR | O_ASHR | O_MASHR => v = VNone
  | O_ROTL | O_ROTR => z = false /\ v = VNone
  end.

(** ** Operands *)
(** User registers (1..23), and what may be used in an address, function_check_src_mem (sljitLir.c:960-1000). *)
Definition ureg (r : Z) : Prop := 1 <= r <= NREGS.
Definition mem_legal (base offs w : Z) : Prop :=
  (base = 0 /\ offs = 0 \/ ureg base /\ (offs = 0 \/ ureg offs /\ 0 <= w <= 3) \/ base = SLJIT_SP /\ (offs = 0 \/ ureg offs /\ 0 <= w <= 3))
  /\ - 2 ^ 63 <= w < 2 ^ 63.
Definition src_legal (a : arg) (w : Z) : Prop :=
  match a with AReg r => ureg r | AImm => - 2 ^ 63 <= w < 2 ^ 63 | AMem b o => mem_legal b o w end.
Definition dst_legal (a : arg) (w : Z) : Prop :=
  match a with AReg r => ureg r | AImm => False | AMem b o => mem_legal b o w end.
(** The address of a memory operand, sljitLir.h:1022-1052. *)
Definition addr (s : mst) (base offs w : Z) : Z :=
  if offs =? 0 then rd s base + w else rd s base + rd s offs * 2 ^ w.
(** The value of an operand that is [m] bytes long in memory. *)
Definition argval (s : mst) (m : nat) (a : arg) (w : Z) : Z :=
  match a with
  | AReg r => rd s r
  | AImm => w
  | AMem b o => load (mem s) (addr s b o w) m
  end.

(** The effect on the destination: register [r] gets [v]; [m] bytes of memory get the low bytes of [v].
    Nothing else that the user can see changes: other registers 1..23, SP, x3, x4, floating point registers, memory. *)
Definition visible (r : Z) : Prop := ureg r \/ r = SLJIT_SP \/ r = 30 \/ r = 31.
Definition dest (s s' : mst) (m : nat) (d : arg) (w v : Z) : Prop :=
  fregs s' = fregs s /\
  match d with
  | AReg r => (r <> 0 -> rd s' r = v) /\ mem s' = mem s /\ forall q, visible q -> q <> r -> rd s' q = rd s q
  | AImm => False
  | AMem b o => mem s' = store (mem s) (addr s b o w) v m /\ forall q, visible q -> rd s' q = rd s q
  end.
(** 32 bit operations need their register sources in the 32 bit format, sljitLir.h:1077-1083. *)
Definition in_format (s : mst) (n : Z) (a : arg) : Prop := match a with AReg r => rd s r = canon n (rd s r) | _ => True end.
