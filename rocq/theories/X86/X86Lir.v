(** Programs of the intermediate language of sljit and their meaning: specification used by the property C42.  The meaning does not refer to any processor: registers hold
    64 bit words, memory bytes, and conditions (sljitLir.h:1600-1680) are known only after operations which were asked to set them. *)
Require Import ZArith List Bool Lia.
From Verif Require Import Rv.RvLib Rv.RvIsa Rv.RvMem Rv.RvOp Rv.RvLir Rv.RvCond Rv.RvCondSpec Rv.RvShiftInto X86.X86Isa X86.X86Emit X86.X86Spec X86.X86OpSpec X86.X86Op X86.X86Cond
  X86.X86Op2 X86.X86Op2Top X86.X86Op1 X86.X86Into X86.X86C34 X86.X86C37 X86.X86Misc X86.X86C43 X86.X86Link X86.X86LinkSpec X86.X86Const.
Import ListNotations.
Open Scope Z_scope.

(** The calls; jump targets are given as the number of the call that made the label (an index into the program). *)
Inductive lir :=
| LOp1 (is32 : bool) (k : op1k) (D : arg) (Dw : Z) (S0 : arg) (Sw : Z)
| LOp2 (o : op) (k : op2k) (D : arg) (Dw : Z) (S1 : arg) (S1w : Z) (S2 : arg) (S2w : Z)
| LOp2u (o : op) (k : op2k) (S1 : arg) (S1w : Z) (S2 : arg) (S2w : Z)
| LMulAdd (is32 : bool) (d : Z) (S1 : arg) (S1w : Z) (S2 : arg) (S2w : Z)
| LInto (is32 lft : bool) (dst src1 src2 : Z) (src3 : arg) (src3w : Z)
| LFlags (o : op) (k : option op2k) (D : arg) (Dw : Z) (t : Z)
| LSelect (is32 : bool) (t d : Z) (S1 : arg) (S1w : Z) (r2 : Z)
| LOp0 (k : op0k) (is32 : bool)
| LConst (c : cop) (D : arg) (Dw v : Z)
| LLabel
| LAlign (al : Z)
| LJump (t : option Z) (rewr : bool) (to : nat)
| LAddr (d : Z) (to : nat)
| LGoto (r : Z).
Definition is_label (x : lir) : bool := match x with LLabel | LAlign _ => true | _ => false end.

(** ** Meaning *)
(** Registers SLJIT_R0 = 1 .. 13, SLJIT_SP = 14; memory; the known conditions. *)
Record lst := mkL { lr : Z -> Z; lm : Z -> Z; lc : Z -> option bool }.
Definition la (a : lst) (base offs imm : Z) : Z := (if base =? 0 then 0 else lr a base) + (if offs =? 0 then imm else lr a offs * 2 ^ imm).
Definition lval (n : Z) (a : lst) (x : arg) (imm : Z) : Z :=
  match x with AReg r => lr a r mod 2 ^ n | AImm => imm mod 2 ^ n | AMem b o => load (lm a) (la a b o imm) (Z.to_nat (n / 8)) end.
(** The destination gets the [n] bit value [v] ([B] bytes in memory); the other bits of a register are not specified; nothing else changes. *)
Definition lwrote (n B : Z) (a : lst) (D : arg) (Dw v : Z) (a' : lst) : Prop :=
  match D with
  | AReg d => lr a' d mod 2 ^ n = v mod 2 ^ n /\ isw (lr a' d) /\ (forall q, 1 <= q <= 14 -> q <> d -> lr a' q = lr a q) /\ lm a' = lm a
  | AImm => False
  | AMem b o => lm a' = store (lm a) (la a b o Dw) (v mod 2 ^ (8 * B)) (Z.to_nat B) /\ (forall q, 1 <= q <= 14 -> lr a' q = lr a q)
  end.
Definition lsame (a a' : lst) : Prop := (forall q, 1 <= q <= 14 -> lr a' q = lr a q) /\ lm a' = lm a.
Definition no_flags (a' : lst) : Prop := forall t, ctype t -> lc a' t = None.
Definition keep_flags (a a' : lst) : Prop := forall t, ctype t -> lc a' t = lc a t.
(** The conditions asked for are known, from the values of the operands, the others are not. *)
Definition new_flags (o : op) (k : op2k) (n x y : Z) (c : bool) (a' : lst) : Prop :=
  forall t, ctype t -> (requested o t -> lc a' t = Some (cond t k n x y c)) /\ (~ requested o t -> lc a' t = None).
(** Only the conditions on zero are known, if asked for. *)
Definition zero_flags (z : bool) (v : Z) (a' : lst) : Prop :=
  forall t, ctype t -> lc a' t = if z && (t <? 2) then Some (xorb (t =? SLJIT_NOT_EQUAL) (v =? 0)) else None.
(** The carry used by SLJIT_ADDC and SLJIT_SUBC. *)
Definition carry_in (k : op2k) (a : lst) (c : bool) : Prop := match k with O_ADDC | O_SUBC => lc a SLJIT_CARRY = Some c | _ => True end.

Section Meaning.
(** The program; the addresses of labels (only seen by programs that load them). *)
Variables (p : list lir) (adr : nat -> Z).
Definition lstep (i : nat) (a : lst) (i' : nat) (a' : lst) : Prop :=
  match nth_error p i with
  | Some (LOp1 is32 k D Dw A Aw) => i' = Datatypes.S i /\ (exists r, res1 k (n1 k is32) (lval (8 * sz1 k is32) a A Aw) r /\ lwrote (n1 k is32) (sz1 k is32) a D Dw r a')
      /\ (if is_mov k then keep_flags a a' else no_flags a')
  | Some (LOp2 o k D Dw S1 S1w S2 S2w) =>
      let n := nbits (f32 o) in
      i' = Datatypes.S i /\ exists c, carry_in k a c /\ lwrote n (n / 8) a D Dw (res2 k n (lval n a S1 S1w) (lval n a S2 S2w) c) a' /\ new_flags o k n (lval n a S1 S1w) (lval n a S2 S2w) c a'
  | Some (LOp2u o k S1 S1w S2 S2w) =>
      let n := nbits (f32 o) in i' = Datatypes.S i /\ exists c, carry_in k a c /\ lsame a a' /\ new_flags o k n (lval n a S1 S1w) (lval n a S2 S2w) c a'
  | Some (LMulAdd is32 d S1 S1w S2 S2w) =>
      let n := nbits is32 in i' = Datatypes.S i /\ lwrote n (n / 8) a (AReg d) 0 (lval n a (AReg d) 0 + lval n a S1 S1w * lval n a S2 S2w) a' /\ no_flags a'
  | Some (LInto is32 lft dst src1 src2 src3 src3w) =>
      let n := nbits is32 in i' = Datatypes.S i /\ lwrote n (n / 8) a (AReg dst) 0 (res_into lft n (lr a src1) (lr a src2) (lval n a src3 src3w mod n)) a' /\ no_flags a'
  | Some (LFlags o k D Dw t) =>
      let n := nbits (f32 o) in i' = Datatypes.S i /\ exists c, lc a t = Some c /\ let v := flags_val k n (lval n a D Dw) c in
        lwrote n (n / 8) a D Dw v a' /\ match k with None => keep_flags a a' | Some _ => zero_flags (setz o) (v mod 2 ^ n) a' end
  | Some (LSelect is32 t d S1 S1w r2) =>
      let n := nbits is32 in i' = Datatypes.S i /\ exists c, lc a t = Some c /\ lwrote n (n / 8) a (AReg d) 0 (if c : bool then lval n a S1 S1w else lval n a (AReg r2) 0) a' /\ keep_flags a a'
  | Some (LOp0 k is32) =>
      let n := nbits is32 in i' = Datatypes.S i /\ exists q r, val0 k n (lr a 1) (lr a 2) = Some (q, r) /\ lr a' 1 mod 2 ^ n = q mod 2 ^ n /\ lr a' 2 mod 2 ^ n = r mod 2 ^ n
        /\ isw (lr a' 1) /\ isw (lr a' 2) /\ (forall x, 3 <= x <= 14 -> lr a' x = lr a x) /\ lm a' = lm a /\ no_flags a'
  | Some (LConst c D Dw v) => i' = Datatypes.S i /\ lwrote (const_bits c) (const_size c) a D Dw (const_val c v) a' /\ keep_flags a a'
  | Some LLabel | Some (LAlign _) => i' = Datatypes.S i /\ a' = a
  | Some (LJump None _ to) => i' = Datatypes.S to /\ a' = a
  | Some (LJump (Some t) _ to) => exists c, lc a t = Some c /\ i' = (if c : bool then Datatypes.S to else Datatypes.S i) /\ a' = a
  | Some (LAddr d to) => i' = Datatypes.S i /\ lwrote 64 8 a (AReg d) 0 (adr to) a' /\ keep_flags a a'
  | Some (LGoto r) => exists j x, nth_error p j = Some x /\ is_label x = true /\ lr a r = adr j /\ i' = Datatypes.S j /\ a' = a
  | None => False
  end.
(** The next step is defined: the conditions used are known, divisions are defined, computed jumps go to labels. *)
Definition ldef (i : nat) (a : lst) : Prop :=
  match nth_error p i with
  | Some (LOp2 _ k _ _ _ _ _ _) | Some (LOp2u _ k _ _ _ _) => exists c, carry_in k a c
  | Some (LJump (Some t) _ _) | Some (LFlags _ _ _ _ t) | Some (LSelect _ t _ _ _ _) => lc a t <> None
  | Some (LOp0 k is32) => val0 k (nbits is32) (lr a 1) (lr a 2) <> None
  | Some (LGoto r) => exists j x, nth_error p j = Some x /\ is_label x = true /\ lr a r = adr j
  | Some _ => True
  | None => False
  end.
(** [n] steps, or less if the end of the program is reached. *)
Fixpoint goes (n : nat) (i : nat) (a : lst) (i' : nat) (a' : lst) : Prop :=
  match n with
  | O => i' = i /\ a' = a
  | Datatypes.S n => (i = length p /\ i' = i /\ a' = a) \/ exists i1 a1, lstep i a i1 a1 /\ goes n i1 a1 i' a'
  end.
(** None of the first [n] steps is undefined, whatever unspecified bits are. *)
Fixpoint safe (n : nat) (i : nat) (a : lst) : Prop :=
  match n with
  | O => True
  | Datatypes.S n => i = length p \/ (ldef i a /\ forall i1 a1, lstep i a i1 a1 -> safe n i1 a1)
  end.
(** What the API demands of each call, and the operands for which the code is known to be wrong (C34, C37). *)
Definition lir_ok (x : lir) : Prop :=
  let label (to : nat) := exists y, nth_error p to = Some y /\ is_label y = true in
  match x with
  | LOp1 is32 k D Dw A Aw => xdst_legal D Dw /\ src1_legal k A Aw
  | LOp2 o k D Dw S1 S1w S2 S2w => legal2 D Dw S1 S1w S2 S2w /\ flags_legal k (setz o) (vf o) /\ op2_bad o k D S1 S1w S2 S2w = false
  | LOp2u o k S1 S1w S2 S2w => xsrc_legal S1 S1w /\ xsrc_legal S2 S2w /\ flags_legal k (setz o) (vf o) /\ op2u_bad k S2 S2w = false
  | LMulAdd is32 d S1 S1w S2 S2w => xureg d /\ xsrc_legal S1 S1w /\ xsrc_legal S2 S2w
  | LInto is32 lft dst src1 src2 src3 src3w => into_legal dst src1 src2 src3 src3w /\ into_bad is32 dst src1 src2 src3 src3w = false
  | LFlags o k D Dw t => flags_op o k /\ xdst_legal D Dw /\ ctype t
  | LSelect is32 t d S1 S1w r2 => ctype t /\ xureg d /\ xsrc_legal S1 S1w /\ xureg r2
  | LOp0 k is32 => op0_legal k is32
  | LConst c D Dw v => xdst_legal D Dw /\ - 2 ^ 63 <= v < 2 ^ 63
  | LLabel => True
  | LAlign al => al <= 4
  | LJump t _ to => match t with Some t => ctype t | None => True end /\ label to
  | LAddr d to => xureg d /\ label to
  | LGoto r => xureg r
  end.
End Meaning.

(** ** Compilation *)
Section Compile.
(** Calling convention, processor features. *)
Variables (w lz tz cmov : bool).
(** X86C:3585-3591 sljit_emit_ijump, for a register. *)
Definition goto_bytes (r : Z) : list Z := (if 8 <=? reg_map w r then [REX_B] else []) ++ [0xff; 0xc0 + 0x20 + reg_lmap w r].
(** The instructions of a call may be stored in the buffer in any number of pieces. *)
Definition pieces (e : option (list Z)) (calls : list call) : Prop :=
  exists parts, calls = map KIns parts /\ Forall (fun b => b <> []) parts /\ e = Some (concat parts).
(** The value of a constant is at the end of the last piece before the marker. *)
Definition const_pieces (c : cop) (D : arg) (Dw v : Z) (calls : list call) : Prop :=
  exists parts x post, calls = map KIns (parts ++ [x ++ const_bytes c v]) ++ KConst :: map KIns post /\ Forall (fun b => b <> []) (parts ++ post)
    /\ emit_const w c D Dw v = Some (concat parts ++ x ++ const_bytes c v, concat post).
(** The number of the label record returned by the call [j]; [G]: the calls of the code generator made by each call of the program. *)
Definition lno (G : list (list call)) (j : nat) : nat := ret_label (emits w (concat (firstn (S j) G))).
Definition compiled1 (G : list (list call)) (x : lir) (calls : list call) : Prop :=
  match x with
  | LOp1 is32 k D Dw A Aw => pieces (emit_op1 w lz tz cmov is32 k D Dw A Aw) calls
  | LOp2 o k D Dw S1 S1w S2 S2w => pieces (emit_op2 w o k D Dw S1 S1w S2 S2w) calls
  | LOp2u o k S1 S1w S2 S2w => pieces (emit_op2u w o k S1 S1w S2 S2w) calls
  | LMulAdd is32 d S1 S1w S2 S2w => pieces (emit_muladd w is32 d S1 S1w S2 S2w) calls
  | LInto is32 lft dst src1 src2 src3 src3w => pieces (emit_shift_into w is32 lft dst src1 src2 src3 src3w) calls
  | LFlags o k D Dw t => pieces (emit_op_flags w o k D Dw t) calls
  | LSelect is32 t d S1 S1w r2 => pieces (emit_select w cmov is32 t d S1 S1w r2) calls
  | LOp0 k is32 => pieces (emit_op0 w k is32) calls
  | LConst c D Dw v => const_pieces c D Dw v calls
  | LLabel => calls = [KLabel]
  | LAlign al => calls = [KAlign al]
  | LJump t rewr to => calls = [KJump (match t with Some t => JCond t | None => JAlways end) rewr (TLabel (lno G to))]
  | LAddr d to => calls = [KMov d (TLabel (lno G to))]
  | LGoto r => pieces (Some (goto_bytes r)) calls
  end.
Definition compiled (p : list lir) (G : list (list call)) : Prop := Forall2 (compiled1 G) p G.
(** The processor is in the state [a] of the program. *)
Definition agrees (a : lst) (s : xst) : Prop :=
  (forall r, 1 <= r <= 14 -> xr s (reg_map w r) = lr a r) /\ xm s = lm a /\ (forall t b, ctype t -> lc a t = Some b -> cond_val s (jump_code t - 0x80) = Some b) /\ xwf s.
End Compile.

(** ** Programs changed after their code was generated *)
(** The rewritable jump made by the call [i] goes to the label made by the call [to] (sljit_set_jump_addr with the address of the label); the constant made by the
    call [i] has the value [v] (sljit_set_const). *)
Inductive lch := HJump (i to : nat) | HConst (i : nat) (v : Z).
Definition change1 (e : lch) (x : lir) : lir :=
  match e, x with HJump _ to, LJump t rewr _ => LJump t rewr to | HConst _ v, LConst c D Dw _ => LConst c D Dw v | _, _ => x end.
Fixpoint set_at (i : nat) (f : lir -> lir) (p : list lir) : list lir :=
  match p, i with [], _ => [] | x :: p, O => f x :: p | x :: p, S i => x :: set_at i f p end.
Definition ch_at (e : lch) : nat := match e with HJump i _ | HConst i _ => i end.
Definition change (p : list lir) (e : lch) : list lir := set_at (ch_at e) (change1 e) p.
Definition ch_ok (p : list lir) (e : lch) : Prop :=
  match e with
  | HJump i to => (exists t old, nth_error p i = Some (LJump t true old)) /\ exists y, nth_error p to = Some y /\ is_label y = true
  | HConst i v => (exists c D Dw old, nth_error p i = Some (LConst c D Dw old)) /\ - 2 ^ 63 <= v < 2 ^ 63
  end.
Section Changes.
Variables (w : bool) (code : Z) (p : list lir) (G : list (list call)) (g : gen).
(** The numbers of the jump and of the constant made by the call [i]. *)
Definition jno (i : nat) : nat := length (cjumps (emits w (concat (firstn i G)))).
Definition cno (i : nat) : nat := length (cconsts (emits w (concat (firstn i G)))).
(** The change of the code: X86Link.v, X86Const.v; constants are set with the operation they were made with. *)
Definition set_ch (b : list Z) (e : lch) : list Z :=
  match e with
  | HJump i to => set_jump code g b (jno i, laddr (nth (lno w G to) (rlabels g) (mkXL 0 None 0)))
  | HConst i v => match nth_error p i with Some (LConst c _ _ _) => put_const code g b (cno i) (const_bytes c v) | _ => b end
  end.
End Changes.
