(** The part of the x86-64 instruction set used by the model of the x86-64 backend.

    This file is the specification of the processor: it is written from the Intel 64 Architectures Software Developer's Manual, volume 2
    (chapter 2 "Instruction format": prefixes, REX, ModR/M, SIB, displacements; the pages of the instructions), and cites no line
    of /repo.  64 bit mode only.  The code is a list of bytes; instructions outside of this subset have no decoding. *)
Require Import ZArith List Bool Lia.
From Verif Require Import Rv.RvLib Rv.RvIsa.
Import ListNotations.
Open Scope Z_scope.

(** ** State *)
(** Registers 0..15 (RAX, RCX, RDX, RBX, RSP, RBP, RSI, RDI, R8, ..., R15), the flags CF, ZF, SF, OF ([None]: undefined), memory in bytes. *)
Record xst := mkX { xr : Z -> Z; xcf : option bool; xzf : option bool; xsf : option bool; xof : option bool; xm : Z -> Z }.
Definition setr (s : xst) (r v : Z) : xst := mkX (fun x => if x =? r then v else xr s x) (xcf s) (xzf s) (xsf s) (xof s) (xm s).
Definition setfl (s : xst) (c z g o : option bool) : xst := mkX (xr s) c z g o (xm s).
Definition setmem (s : xst) (m : Z -> Z) : xst := mkX (xr s) (xcf s) (xzf s) (xsf s) (xof s) m.

(** Effective addresses: base, index with scale, displacement. *)
Record ea := mkEA { eb : option Z; ei : option Z; esc : Z; ed : Z }.
Definition rego (s : xst) (o : option Z) : Z := match o with Some r => xr s r | None => 0 end.
Definition eaddr (s : xst) (e : ea) : Z := wrap (rego s (eb e) + rego s (ei e) * 2 ^ esc e + ed e).
(** Operands. *)
Inductive opd := OR (r : Z) | OM (e : ea) | OI (v : Z).
(** Reading [n] bits.  An operand of 32 bits written to a register clears the upper half; of 8 or 16 bits leaves the rest. *)
Definition rdo (n : Z) (s : xst) (o : opd) : Z :=
  match o with
  | OR r => xr s r mod 2 ^ n
  | OM e => load (xm s) (eaddr s e) (Z.to_nat (n / 8))
  | OI v => v mod 2 ^ n
  end.
Definition wro (n : Z) (s : xst) (o : opd) (v : Z) : option xst :=
  match o with
  | OR r => Some (setr s r (if n <? 32 then xr s r / 2 ^ n * 2 ^ n + v mod 2 ^ n else v mod 2 ^ n))
  | OM e => Some (setmem s (store (xm s) (eaddr s e) (v mod 2 ^ n) (Z.to_nat (n / 8))))
  | OI _ => None
  end.

(** ** Instructions *)
Inductive alu := Add | Or | Adc | Sbb | And | Sub | Xor | Cmp.
Inductive shk := Rol | Ror | Shl | Shr | Sar.
Inductive instr :=
| XAlu (k : alu) (n : Z) (d s : opd)
| XTest (n : Z) (d s : opd)
| XMov (n : Z) (d s : opd)
| XMovx (sg : bool) (from to r : Z) (s : opd)
| XLea (n r : Z) (e : ea)
| XNot (n : Z) (d : opd)
| XNeg (n : Z) (d : opd)
| XMul1 (sg : bool) (n : Z) (s : opd)
| XDiv1 (sg : bool) (n : Z) (s : opd)
| XImul (n r : Z) (a b : opd)
| XShift (k : shk) (n : Z) (d cnt : opd)
| XShiftd (lf : bool) (n : Z) (d : opd) (r : Z) (cnt : opd)
| XBsf (n r : Z) (s : opd)
| XBsr (n r : Z) (s : opd)
| XTzcnt (n r : Z) (s : opd)
| XLzcnt (n r : Z) (s : opd)
| XBswap (n r : Z)
| XCmov (cc n r : Z) (s : opd)
| XSetcc (cc : Z) (d : opd)
| XCdq (n : Z)
| XJcc (cc disp : Z)
| XNop.

(** ** Decoding *)
(** [k] bytes, little endian. *)
Fixpoint le (k : nat) (l : list Z) : option (Z * list Z) :=
  match k with
  | O => Some (0, l)
  | S k => match l with [] => None | b :: l => match le k l with Some (v, l) => Some (b + 256 * v, l) | None => None end end
  end.
(** A sign extended immediate or displacement of [k] bytes. *)
Definition sle (k : nat) (l : list Z) : option (Z * list Z) :=
  match le k l with Some (v, l) => Some (sext (8 * Z.of_nat k) v, l) | None => None end.

(** The REX prefix: present, W, R, X, B. *)
Record rex := mkRex { rP : bool; rW : bool; rR : bool; rX : bool; rB : bool }.
Definition get_rex (l : list Z) : rex * list Z :=
  match l with
  | b :: l' => if b / 16 =? 4 then (mkRex true (Z.testbit b 3) (Z.testbit b 2) (Z.testbit b 1) (Z.testbit b 0), l') else (mkRex false false false false false, l)
  | [] => (mkRex false false false false false, l)
  end.
(** The mandatory or operand size prefix: 66, F2, F3 (at most one). *)
Inductive pfx := PNone | P66 | PF2 | PF3.
Definition get_pfx (l : list Z) : pfx * list Z :=
  match l with
  | b :: l' => if b =? 0x66 then (P66, l') else if b =? 0xf2 then (PF2, l') else if b =? 0xf3 then (PF3, l') else (PNone, l)
  | [] => (PNone, l)
  end.
Definition ext (b : bool) (r : Z) : Z := if b then r + 8 else r.
(** ModR/M with SIB and displacement: the reg field and the general operand.  Addresses relative to the instruction pointer are not in the
    subset. *)
Definition modrm (x : rex) (l : list Z) : option (Z * opd * list Z) :=
  match l with
  | [] => None
  | b :: l =>
    let md := b / 64 in
    let reg := ext (rR x) ((b / 8) mod 8) in
    let m := b mod 8 in
    if md =? 3 then Some (reg, OR (ext (rB x) m), l)
    else
      let disp (base index : option Z) (sc : Z) (l : list Z) :=
        if md =? 0 then
          match base with
          | None => match sle 4 l with Some (d, l) => Some (reg, OM (mkEA None index sc d), l) | None => None end
          | _ => Some (reg, OM (mkEA base index sc 0), l)
          end
        else match sle (if md =? 1 then 1 else 4) l with Some (d, l) => Some (reg, OM (mkEA base index sc d), l) | None => None end in
      if m =? 4 then
        match l with
        | [] => None
        | sb :: l =>
          let ix := ext (rX x) ((sb / 8) mod 8) in
          let bs := sb mod 8 in
          disp (if (bs =? 5) && (md =? 0) then None else Some (ext (rB x) bs)) (if ix =? 4 then None else Some ix) (sb / 64) l
        end
      else if (m =? 5) && (md =? 0) then None
      else disp (Some (ext (rB x) m)) None 0 l
  end.

Definition alu_of (k : Z) : alu :=
  if k =? 0 then Add else if k =? 1 then Or else if k =? 2 then Adc else if k =? 3 then Sbb else if k =? 4 then And
  else if k =? 5 then Sub else if k =? 6 then Xor else Cmp.
Definition sh_of (k : Z) : option shk :=
  if k =? 0 then Some Rol else if k =? 1 then Some Ror else if k =? 4 then Some Shl else if k =? 5 then Some Shr else if k =? 7 then Some Sar else None.
(** The operand size. *)
Definition osize (p : pfx) (x : rex) : Z := if rW x then 64 else match p with P66 => 16 | _ => 32 end.
(** Without REX the byte registers 4..7 are AH, CH, DH, BH, which are not in the subset. *)
Definition byte_ok (x : rex) (o : opd) : bool := match o with OR r => rP x || (r <? 4) | _ => true end.
(** An immediate of the operand size, at most 32 bits. *)
Definition imm_of (n : Z) (l : list Z) : option (Z * list Z) := sle (if n =? 16 then 2 else 4) l.

(** One byte opcodes. *)
Definition decode1 (p : pfx) (x : rex) (op : Z) (l : list Z) : option (instr * list Z) :=
  let n := osize p x in
  let rm (f : Z -> opd -> list Z -> option (instr * list Z)) := match modrm x l with Some (r, o, l) => f r o l | None => None end in
  let imm (k : list Z -> option (Z * list Z)) (l : list Z) (f : Z -> instr) := match k l with Some (v, l) => Some (f v, l) | None => None end in
  match p with
  | PF2 | PF3 => None
  | _ =>
    if op <? 0x40 then
      let k := alu_of (op / 8) in
      let f := op mod 8 in
      if f =? 0 then rm (fun r o l => if byte_ok x o && byte_ok x (OR r) then Some (XAlu k 8 o (OR r), l) else None)
      else if f =? 1 then rm (fun r o l => Some (XAlu k n o (OR r), l))
      else if f =? 3 then rm (fun r o l => Some (XAlu k n (OR r) o, l))
      else if f =? 5 then imm (imm_of n) l (fun v => XAlu k n (OR 0) (OI v))
      else None
    else if op =? 0x63 then rm (fun r o l => Some (XMovx true 32 n r o, l))
    else if op =? 0x69 then rm (fun r o l => imm (imm_of n) l (fun v => XImul n r o (OI v)))
    else if op =? 0x6b then rm (fun r o l => imm (sle 1) l (fun v => XImul n r o (OI v)))
    else if op / 16 =? 7 then imm (sle 1) l (fun v => XJcc (op mod 16) v)
    else if op =? 0x81 then rm (fun r o l => imm (imm_of n) l (fun v => XAlu (alu_of (r mod 8)) n o (OI v)))
    else if op =? 0x83 then rm (fun r o l => imm (sle 1) l (fun v => XAlu (alu_of (r mod 8)) n o (OI v)))
    else if op =? 0x85 then rm (fun r o l => Some (XTest n o (OR r), l))
    else if op =? 0x88 then rm (fun r o l => if byte_ok x o && byte_ok x (OR r) then Some (XMov 8 o (OR r), l) else None)
    else if op =? 0x89 then rm (fun r o l => Some (XMov n o (OR r), l))
    else if op =? 0x8b then rm (fun r o l => Some (XMov n (OR r) o, l))
    else if op =? 0x8d then rm (fun r o l => match o with OM e => Some (XLea n r e, l) | _ => None end)
    else if op =? 0x90 then (if rB x then None else Some (XNop, l))
    else if op =? 0x99 then (if n =? 16 then None else Some (XCdq n, l))
    else if op =? 0xa9 then imm (imm_of n) l (fun v => XTest n (OR 0) (OI v))
    else if op / 8 =? 23 then
      let r := ext (rB x) (op mod 8) in
      if n =? 64 then imm (sle 8) l (fun v => XMov n (OR r) (OI v)) else imm (imm_of n) l (fun v => XMov n (OR r) (OI v))
    else if op =? 0xc1 then rm (fun r o l => match sh_of (r mod 8) with Some k => imm (le 1) l (fun v => XShift k n o (OI v)) | None => None end)
    else if op =? 0xd1 then rm (fun r o l => match sh_of (r mod 8) with Some k => Some (XShift k n o (OI 1), l) | None => None end)
    else if op =? 0xd3 then rm (fun r o l => match sh_of (r mod 8) with Some k => Some (XShift k n o (OR 1), l) | None => None end)
    else if op =? 0xc6 then rm (fun r o l => if (r mod 8 =? 0) && byte_ok x o then imm (sle 1) l (fun v => XMov 8 o (OI v)) else None)
    else if op =? 0xc7 then rm (fun r o l => if r mod 8 =? 0 then imm (imm_of n) l (fun v => XMov n o (OI v)) else None)
    else if op =? 0xf7 then rm (fun r o l =>
      let k := r mod 8 in
      if k =? 0 then imm (imm_of n) l (fun v => XTest n o (OI v))
      else if k =? 1 then None
      else if k =? 2 then Some (XNot n o, l)
      else if k =? 3 then Some (XNeg n o, l)
      else if k =? 4 then Some (XMul1 false n o, l)
      else if k =? 5 then Some (XMul1 true n o, l)
      else if k =? 6 then Some (XDiv1 false n o, l)
      else Some (XDiv1 true n o, l))
    else None
  end.
(** Opcodes after 0F. *)
Definition decode2 (p : pfx) (x : rex) (op : Z) (l : list Z) : option (instr * list Z) :=
  let n := osize p x in
  let rm (f : Z -> opd -> list Z -> option (instr * list Z)) := match modrm x l with Some (r, o, l) => f r o l | None => None end in
  match p with
  | PF2 => None
  | PF3 =>
    if op =? 0xbc then rm (fun r o l => Some (XTzcnt n r o, l))
    else if op =? 0xbd then rm (fun r o l => Some (XLzcnt n r o, l))
    else None
  | _ =>
    if op / 16 =? 4 then rm (fun r o l => Some (XCmov (op mod 16) n r o, l))
    else if op / 16 =? 9 then rm (fun r o l => if byte_ok x o then Some (XSetcc (op mod 16) o, l) else None)
    else if (op =? 0xa4) || (op =? 0xac) then rm (fun r o l => match le 1 l with Some (v, l) => Some (XShiftd (op =? 0xa4) n o r (OI v), l) | None => None end)
    else if (op =? 0xa5) || (op =? 0xad) then rm (fun r o l => Some (XShiftd (op =? 0xa5) n o r (OR 1), l))
    else if op =? 0xaf then rm (fun r o l => Some (XImul n r (OR r) o, l))
    else if op =? 0xb6 then rm (fun r o l => if byte_ok x o then Some (XMovx false 8 n r o, l) else None)
    else if op =? 0xb7 then rm (fun r o l => Some (XMovx false 16 n r o, l))
    else if op =? 0xbe then rm (fun r o l => if byte_ok x o then Some (XMovx true 8 n r o, l) else None)
    else if op =? 0xbf then rm (fun r o l => Some (XMovx true 16 n r o, l))
    else if op =? 0xbc then rm (fun r o l => Some (XBsf n r o, l))
    else if op =? 0xbd then rm (fun r o l => Some (XBsr n r o, l))
    else if op / 8 =? 25 then (if n =? 16 then None else Some (XBswap n (ext (rB x) (op mod 8)), l))
    else None
  end.
Definition decode (l : list Z) : option (instr * list Z) :=
  let (p, l) := get_pfx l in
  let (x, l) := get_rex l in
  match l with
  | [] => None
  | op :: l => if op =? 0x0f then match l with op :: l => decode2 p x op l | [] => None end else decode1 p x op l
  end.

(** ** Execution *)
Definition oor (n v : Z) : bool := negb ((- 2 ^ (n - 1) <=? v) && (v <? 2 ^ (n - 1))).
Definition zfl (n v : Z) : option bool := Some (v mod 2 ^ n =? 0).
Definition sfl (n v : Z) : option bool := Some (Z.testbit v (n - 1)).
(** The result (not reduced), CF and OF of a binary operation; [c] is the old CF. *)
Definition alu_res (k : alu) (n a b : Z) (c : bool) : Z * bool * bool :=
  let sa := sext n a in
  let sb := sext n b in
  match k with
  | Add => (a + b, 2 ^ n <=? a + b, oor n (sa + sb))
  | Adc => (a + b + Z.b2z c, 2 ^ n <=? a + b + Z.b2z c, oor n (sa + sb + Z.b2z c))
  | Sub | Cmp => (a - b, a <? b, oor n (sa - sb))
  | Sbb => (a - b - Z.b2z c, a <? b + Z.b2z c, oor n (sa - sb - Z.b2z c))
  | And => (Z.land a b, false, false)
  | Or => (Z.lor a b, false, false)
  | Xor => (Z.lxor a b, false, false)
  end.
Definition needs_cf (k : alu) : bool := match k with Adc | Sbb => true | _ => false end.
(** Shifts and rotates by 0 <= c < n. *)
Definition sh_res (k : shk) (n a c : Z) : Z :=
  match k with
  | Shl => a * 2 ^ c
  | Shr => a / 2 ^ c
  | Sar => sext n a / 2 ^ c
  | Rol => Z.lor (a * 2 ^ c) (a / 2 ^ (n - c))
  | Ror => Z.lor (a / 2 ^ c) (a * 2 ^ (n - c))
  end.
(** Number of trailing and leading zero bits of a non zero value, reversed bytes. *)
Fixpoint tz (k : nat) (x : Z) : Z := match k with O => 0 | S k => if Z.odd x then 0 else 1 + tz k (x / 2) end.
Fixpoint revb (k : nat) (x : Z) : Z := match k with O => 0 | S k => x mod 256 * 2 ^ (8 * Z.of_nat k) + revb k (x / 256) end.
(** Conditions 0..15: O, NO, B, NB, Z, NZ, BE, NBE, S, NS, P, NP, L, NL, LE, NLE; the parity flag is not in the subset. *)
Definition cond_base (s : xst) (k : Z) : option bool :=
  if k =? 0 then xof s
  else if k =? 1 then xcf s
  else if k =? 2 then xzf s
  else if k =? 3 then match xcf s, xzf s with Some c, Some z => Some (c || z) | _, _ => None end
  else if k =? 4 then xsf s
  else if k =? 6 then match xsf s, xof s with Some g, Some o => Some (xorb g o) | _, _ => None end
  else if k =? 7 then match xsf s, xof s, xzf s with Some g, Some o, Some z => Some (xorb g o || z) | _, _, _ => None end
  else None.
Definition cond_val (s : xst) (cc : Z) : option bool :=
  match cond_base s (cc / 2) with Some b => Some (if Z.odd cc then negb b else b) | None => None end.

Section Exec.
(** What the processor leaves where the manual says "undefined". *)
Variable u : Z.
Definition exec (s : xst) (i : instr) : option xst :=
  match i with
  | XAlu k n d o =>
    match (if needs_cf k then xcf s else Some false) with
    | None => None
    | Some c =>
      let '(r, cf, of) := alu_res k n (rdo n s d) (rdo n s o) c in
      match (match k with Cmp => Some s | _ => wro n s d r end) with
      | Some s' => Some (setfl s' (Some cf) (zfl n r) (sfl n r) (Some of))
      | None => None
      end
    end
  | XTest n d o => let r := Z.land (rdo n s d) (rdo n s o) in Some (setfl s (Some false) (zfl n r) (sfl n r) (Some false))
  | XMov n d o => wro n s d (rdo n s o)
  | XMovx sg from to r o => wro to s (OR r) (if sg then sext from (rdo from s o) else rdo from s o)
  | XLea n r e => wro n s (OR r) (eaddr s e)
  | XNot n d => wro n s d (2 ^ n - 1 - rdo n s d)
  | XNeg n d =>
    let a := rdo n s d in
    match wro n s d (- a) with
    | Some s' => Some (setfl s' (Some (negb (a =? 0))) (zfl n (- a)) (sfl n (- a)) (Some (oor n (- sext n a))))
    | None => None
    end
  | XMul1 sg n o =>
    let a := rdo n s (OR 0) in
    let b := rdo n s o in
    let v := if sg then sext n a * sext n b else a * b in
    match wro n s (OR 0) (v mod 2 ^ n) with
    | Some s' => match wro n s' (OR 2) ((v / 2 ^ n) mod 2 ^ n) with Some s' => Some (setfl s' None None None None) | None => None end
    | None => None
    end
  | XDiv1 sg n o =>
    let hi := rdo n s (OR 2) in
    let lo := rdo n s (OR 0) in
    let b := rdo n s o in
    let a := hi * 2 ^ n + lo in
    if b =? 0 then None
    else
      let '(q, r, bad) :=
        if sg then
          let sa := sext (2 * n) a in
          let sb := sext n b in
          (Z.quot sa sb, Z.rem sa sb, oor n (Z.quot sa sb))
        else (a / b, a mod b, 2 ^ n <=? a / b) in
      if bad then None
      else match wro n s (OR 0) q with
        | Some s' => match wro n s' (OR 2) r with Some s' => Some (setfl s' None None None None) | None => None end
        | None => None
        end
  | XImul n r a b =>
    let v := sext n (rdo n s a) * sext n (rdo n s b) in
    match wro n s (OR r) v with
    | Some s' => Some (setfl s' (Some (oor n v)) None None (Some (oor n v)))
    | None => None
    end
  | XShift k n d cnt =>
    let c := rdo 8 s cnt mod (if n =? 64 then 64 else 32) in
    let a := rdo n s d in
    if n <=? c then None
    else if c =? 0 then wro n s d a
    else
      let r := sh_res k n a c in
      match wro n s d r with
      | Some s' => Some (match k with Rol | Ror => setfl s' None (xzf s) (xsf s) None | _ => setfl s' None (zfl n r) (sfl n r) None end)
      | None => None
      end
  | XShiftd lf n d r cnt =>
    let c := rdo 8 s cnt mod (if n =? 64 then 64 else 32) in
    let a := rdo n s d in
    let b := rdo n s (OR r) in
    if n <=? c then None
    else if c =? 0 then wro n s d a
    else
      let v := if lf then Z.lor (a * 2 ^ c) (b / 2 ^ (n - c)) else Z.lor (a / 2 ^ c) (b * 2 ^ (n - c)) in
      match wro n s d v with
      | Some s' => Some (setfl s' None (zfl n v) (sfl n v) None)
      | None => None
      end
  | XBsf n r o =>
    let a := rdo n s o in
    if a =? 0 then Some (setfl (setr s r (wrap u)) None (Some true) None None)
    else match wro n s (OR r) (tz (Z.to_nat n) a) with Some s' => Some (setfl s' None (Some false) None None) | None => None end
  | XBsr n r o =>
    let a := rdo n s o in
    if a =? 0 then Some (setfl (setr s r (wrap u)) None (Some true) None None)
    else match wro n s (OR r) (Z.log2 a) with Some s' => Some (setfl s' None (Some false) None None) | None => None end
  | XTzcnt n r o =>
    let a := rdo n s o in
    let v := if a =? 0 then n else tz (Z.to_nat n) a in
    match wro n s (OR r) v with Some s' => Some (setfl s' (Some (a =? 0)) (Some (v =? 0)) None None) | None => None end
  | XLzcnt n r o =>
    let a := rdo n s o in
    let v := if a =? 0 then n else n - 1 - Z.log2 a in
    match wro n s (OR r) v with Some s' => Some (setfl s' (Some (a =? 0)) (Some (v =? 0)) None None) | None => None end
  | XBswap n r => wro n s (OR r) (revb (Z.to_nat (n / 8)) (rdo n s (OR r)))
  | XCmov cc n r o =>
    match cond_val s cc with Some b => wro n s (OR r) (if b then rdo n s o else rdo n s (OR r)) | None => None end
  | XSetcc cc d => match cond_val s cc with Some b => wro 8 s d (Z.b2z b) | None => None end
  | XCdq n => wro n s (OR 2) (if Z.testbit (rdo n s (OR 0)) (n - 1) then 2 ^ n - 1 else 0)
  | XJcc _ _ => None
  | XNop => Some s
  end.
(** One instruction at the start of the code that lies ahead; a taken branch skips bytes (forward branches only). *)
Definition step (l : list Z) (s : xst) : option (list Z * xst) :=
  match decode l with
  | None => None
  | Some (XJcc cc d, l) =>
    match cond_val s cc with
    | Some true => if (0 <=? d) && (d <=? Z.of_nat (length l)) then Some (skipn (Z.to_nat d) l, s) else None
    | Some false => Some (l, s)
    | None => None
    end
  | Some (i, l) => match exec s i with Some s => Some (l, s) | None => None end
  end.
Inductive steps : list Z -> xst -> list Z -> xst -> Prop :=
| steps_refl : forall l s, steps l s l s
| steps_one : forall l s l1 s1 l2 s2, step l s = Some (l1, s1) -> steps l1 s1 l2 s2 -> steps l s l2 s2.
(** [runs l s s']: the code [l] followed by anything takes the processor from [s] to [s'], at the end of [l]. *)
Definition runs (l : list Z) (s s' : xst) : Prop := forall rest, steps (l ++ rest) s rest s'.
(** Execution as a function: at most [k] instructions. *)
Fixpoint run (k : nat) (l : list Z) (s : xst) : option xst :=
  match l with
  | [] => Some s
  | _ => match k with O => None | S k => match step l s with Some (l, s) => run k l s | None => None end end
  end.
End Exec.
