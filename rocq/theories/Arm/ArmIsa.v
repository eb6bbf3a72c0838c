(** The part of the A64 instruction set used by the model of the ARM64 backend.

    This file is the specification of the processor: it is written from the Arm Architecture
    Reference Manual (the encoding index "Data processing - immediate", "Data processing -
    register", "Loads and stores", and the shared pseudo-code functions AddWithCarry,
    DecodeBitMasks, ShiftReg, ConditionHolds), and cites no line of /repo. *)
Require Import ZArith List Bool Lia.
From Verif Require Import Rv.RvLib.
Import ListNotations.
Open Scope Z_scope.

(** Registers: [xr 0] .. [xr 30] are the general registers, [xr 31] is the stack pointer.
    [nf], [zf], [cf], [vf] are the condition flags, [mm] is the memory in bytes. *)
Record st := mkSt { xr : Z -> Z; nf : bool; zf : bool; cf : bool; vf : bool; mm : Z -> Z }.

Definition upd (f : Z -> Z) (a v : Z) : Z -> Z := fun x => if x =? a then v else f x.

(** Register number 31 is the zero register, or the stack pointer where the instruction says so. *)
Definition rX (s : st) (r : Z) : Z := if r =? 31 then 0 else xr s r.
Definition rSP (s : st) (r : Z) : Z := xr s r.
Definition wX (s : st) (r v : Z) : st :=
  if r =? 31 then s else mkSt (upd (xr s) r v) (nf s) (zf s) (cf s) (vf s) (mm s).
Definition wSP (s : st) (r v : Z) : st := mkSt (upd (xr s) r v) (nf s) (zf s) (cf s) (vf s) (mm s).
Definition wFl (s : st) (n z c v : bool) : st := mkSt (xr s) n z c v (mm s).
Definition wMem (s : st) (m : Z -> Z) : st := mkSt (xr s) (nf s) (zf s) (cf s) (vf s) m.

(** The data size of an instruction with the sf bit. *)
Definition dsz (sf : bool) : Z := if sf then 64 else 32.
Definition lo (n x : Z) : Z := x mod 2 ^ n.

(** AddWithCarry: the result and N, Z, C, V. *)
Definition awc (n x y : Z) (c : bool) : Z * (bool * bool * bool * bool) :=
  let us := x + y + Z.b2z c in
  let ss := sext n x + sext n y + Z.b2z c in
  let r := us mod 2 ^ n in
  (r, (Z.testbit r (n - 1), r =? 0, negb (r =? us), negb (sext n r =? ss))).

(** ROR, ASR and ShiftReg (0 LSL, 1 LSR, 2 ASR, 3 ROR). *)
Definition ror (n x r : Z) : Z := Z.lor (Z.shiftr x (r mod n)) (lo n (Z.shiftl x (n - r mod n))).
Definition shreg (n ty x a : Z) : Z :=
  if ty =? 0 then lo n (Z.shiftl x a)
  else if ty =? 1 then Z.shiftr x a
  else if ty =? 2 then lo n (Z.shiftr (sext n x) a)
  else ror n x a.

(** Replicate: [k] copies of an element of [e] bits. *)
Fixpoint rep (k : nat) (e x : Z) : Z :=
  match k with O => 0 | S k' => Z.lor (Z.shiftl (rep k' e x) e) x end.

(** DecodeBitMasks: the pair of wmask and tmask, [None] when the encoding is undefined. *)
Definition decode_bit_masks (immN imms immr : Z) (immediate : bool) (M : Z) : option (Z * Z) :=
  let v := immN * 64 + (63 - imms) in
  let len := if v =? 0 then -1 else Z.log2 v in
  if len <? 1 then None
  else if M <? 2 ^ len then None
  else
    let levels := Z.ones len in
    if immediate && (Z.land imms levels =? levels) then None
    else
      let S := Z.land imms levels in
      let R := Z.land immr levels in
      let d := (S - R) mod 2 ^ len in
      let esize := 2 ^ len in
      let k := Z.to_nat (M / esize) in
      Some (rep k esize (ror esize (Z.ones (S + 1)) R), rep k esize (Z.ones (d + 1))).

Fixpoint le_bytes (n : nat) (m : Z -> Z) (a : Z) : Z :=
  match n with O => 0 | S n' => m (wrap a) + 256 * le_bytes n' m (a + 1) end.
Fixpoint st_bytes (n : nat) (m : Z -> Z) (a v : Z) : Z -> Z :=
  match n with O => m | S n' => st_bytes n' (upd m (wrap a) (v mod 256)) (a + 1) (v / 256) end.

(** Number of leading zero bits, bit reversal, byte reversal inside of groups of [g] bytes. *)
Definition clz (n x : Z) : Z := if x =? 0 then n else n - 1 - Z.log2 x.
Fixpoint rbits (n : nat) (x : Z) : Z :=
  match n with O => 0 | S n' => Z.lor (Z.shiftl (Z.b2z (Z.odd x)) (Z.of_nat n')) (rbits n' (Z.shiftr x 1)) end.
Fixpoint rbytes (n : nat) (x : Z) : Z :=
  match n with O => 0 | S n' => Z.lor (Z.shiftl (Z.land x 255) (8 * Z.of_nat n')) (rbytes n' (Z.shiftr x 8)) end.
Fixpoint rgroups (k : nat) (g x : Z) : Z :=
  match k with
  | O => 0
  | S k' => Z.lor (rbytes (Z.to_nat g) (Z.land x (Z.ones (8 * g)))) (Z.shiftl (rgroups k' g (Z.shiftr x (8 * g))) (8 * g))
  end.

Inductive instr :=
| IMovW (sf : bool) (opc hw imm rd : Z)
| ILogI (sf : bool) (opc n immr imms rn rd : Z)
| IAddI (sf sub s : bool) (sh imm rn rd : Z)
| IBfm (sf : bool) (opc n immr imms rn rd : Z)
| IExtr (sf : bool) (n rm imms rn rd : Z)
| ILogR (sf : bool) (opc sh : Z) (inv : bool) (rm imm rn rd : Z)
| IAddR (sf sub s : bool) (sh rm imm rn rd : Z)
| IAdc (sf sub s : bool) (rm rn rd : Z)
| ICsel (sf : bool) (op op2 rm cond rn rd : Z)
| IDp2 (sf : bool) (opc rm rn rd : Z)
| IDp1 (sf : bool) (opc rn rd : Z)
| IDp3 (sf : bool) (op31 o0 rm ra rn rd : Z)
| ILdI (size opc imm rn rt : Z)
| ILdU (size opc imm rn rt : Z)
| ILdR (size opc rm opt s rn rt : Z).

Definition bit (w k : Z) : bool := Z.testbit w k.

Definition decode (w : Z) : option instr :=
  let sf := bit w 31 in
  let rd := fld w 0 5 in
  let rn := fld w 5 5 in
  let rm := fld w 16 5 in
  if fld w 26 3 =? 4 then
    (* Data processing - immediate. *)
    let k := fld w 23 3 in
    if k =? 2 then Some (IAddI sf (bit w 30) (bit w 29) (fld w 22 1) (fld w 10 12) rn rd)
    else if k =? 4 then Some (ILogI sf (fld w 29 2) (fld w 22 1) (fld w 16 6) (fld w 10 6) rn rd)
    else if k =? 5 then Some (IMovW sf (fld w 29 2) (fld w 21 2) (fld w 5 16) rd)
    else if k =? 6 then Some (IBfm sf (fld w 29 2) (fld w 22 1) (fld w 16 6) (fld w 10 6) rn rd)
    else if k =? 7 then if (fld w 29 2 =? 0) && (fld w 21 1 =? 0) then Some (IExtr sf (fld w 22 1) rm (fld w 10 6) rn rd) else None
    else None
  else if fld w 24 5 =? 10 then
    Some (ILogR sf (fld w 29 2) (fld w 22 2) (bit w 21) rm (fld w 10 6) rn rd)
  else if fld w 24 5 =? 11 then
    if bit w 21 then None else Some (IAddR sf (bit w 30) (bit w 29) (fld w 22 2) rm (fld w 10 6) rn rd)
  else if fld w 21 8 =? 208 then
    if fld w 10 6 =? 0 then Some (IAdc sf (bit w 30) (bit w 29) rm rn rd) else None
  else if fld w 21 8 =? 212 then
    if (fld w 29 1 =? 0) && (fld w 11 1 =? 0) then Some (ICsel sf (fld w 30 1) (fld w 10 1) rm (fld w 12 4) rn rd) else None
  else if fld w 21 8 =? 214 then
    if fld w 29 2 =? 0 then Some (IDp2 sf (fld w 10 6) rm rn rd)
    else if fld w 29 2 =? 2 then if rm =? 0 then Some (IDp1 sf (fld w 10 6) rn rd) else None
    else None
  else if fld w 24 5 =? 27 then
    if fld w 29 2 =? 0 then Some (IDp3 sf (fld w 21 3) (fld w 15 1) rm (fld w 10 5) rn rd) else None
  else if fld w 24 6 =? 57 then Some (ILdI (fld w 30 2) (fld w 22 2) (fld w 10 12) rn rd)
  else if fld w 24 6 =? 56 then
    if bit w 21 then
      if fld w 10 2 =? 2 then Some (ILdR (fld w 30 2) (fld w 22 2) rm (fld w 13 3) (fld w 12 1) rn rd) else None
    else if fld w 10 2 =? 0 then Some (ILdU (fld w 30 2) (fld w 22 2) (fld w 12 9) rn rd)
    else None
  else None.

(** ConditionHolds. *)
Definition cond_holds (s : st) (c : Z) : bool :=
  let k := Z.shiftr c 1 in
  let r := if k =? 0 then zf s
           else if k =? 1 then cf s
           else if k =? 2 then nf s
           else if k =? 3 then vf s
           else if k =? 4 then cf s && negb (zf s)
           else if k =? 5 then Bool.eqb (nf s) (vf s)
           else if k =? 6 then Bool.eqb (nf s) (vf s) && negb (zf s)
           else true in
  if Z.odd c && negb (c =? 15) then negb r else r.

(** A load or store of [2^size] bytes; opc: 0 store, 1 load, 2 load sign extended to 64 bits,
    3 load sign extended to 32 bits. *)
Definition ldst (s : st) (size opc a rt : Z) : option st :=
  let n := Z.to_nat (2 ^ size) in
  let v := le_bytes n (mm s) a in
  let b := 8 * 2 ^ size in
  if opc =? 0 then Some (wMem s (st_bytes n (mm s) a (rX s rt)))
  else if opc =? 1 then Some (wX s rt v)
  else if opc =? 2 then if size <=? 2 then Some (wX s rt (wrap (sext b v))) else None
  else if size <=? 1 then Some (wX s rt (lo 32 (sext b v))) else None.

(** The effect of an instruction; the program counter is not part of the state here. *)
Definition exec (i : instr) (s : st) : option st :=
  match i with
  | IMovW sf opc hw imm rd =>
      let n := dsz sf in
      if negb sf && (2 <=? hw) then None
      else
        let pos := 16 * hw in
        if opc =? 0 then Some (wX s rd (lo n (Z.lnot (Z.shiftl imm pos))))
        else if opc =? 2 then Some (wX s rd (Z.shiftl imm pos))
        else if opc =? 3 then
          Some (wX s rd (Z.lor (Z.ldiff (lo n (rX s rd)) (Z.shiftl (Z.ones 16) pos)) (Z.shiftl imm pos)))
        else None
  | ILogI sf opc n immr imms rn rd =>
      if negb sf && (n =? 1) then None
      else
        match decode_bit_masks n imms immr true (dsz sf) with
        | None => None
        | Some (imm, _) =>
            let x := lo (dsz sf) (rX s rn) in
            if opc =? 0 then Some (wSP s rd (Z.land x imm))
            else if opc =? 1 then Some (wSP s rd (Z.lor x imm))
            else if opc =? 2 then Some (wSP s rd (Z.lxor x imm))
            else
              let r := Z.land x imm in
              Some (wFl (wX s rd r) (Z.testbit r (dsz sf - 1)) (r =? 0) false false)
        end
  | IAddI sf sub fl sh imm rn rd =>
      let n := dsz sf in
      let op2 := if sh =? 1 then imm * 4096 else imm in
      let x := lo n (rSP s rn) in
      let '(r, (fn, fz, fc, fv)) := if sub then awc n x (lo n (Z.lnot op2)) true else awc n x op2 false in
      if fl then Some (wFl (wX s rd r) fn fz fc fv) else Some (wSP s rd r)
  | IBfm sf opc n immr imms rn rd =>
      if (if sf then negb (n =? 1) else (negb (n =? 0) || (32 <=? immr) || (32 <=? imms))) then None
      else
        match decode_bit_masks n imms immr false (dsz sf) with
        | None => None
        | Some (wmask, tmask) =>
            let N := dsz sf in
            let src := lo N (rX s rn) in
            let dst := if opc =? 1 then lo N (rX s rd) else 0 in
            let bot := Z.lor (Z.ldiff dst wmask) (Z.land (ror N src immr) wmask) in
            let top := if opc =? 0 then (if Z.testbit src imms then Z.ones N else 0) else dst in
            if opc =? 3 then None
            else Some (wX s rd (Z.lor (Z.ldiff top tmask) (Z.land bot tmask)))
        end
  | IExtr sf n rm imms rn rd =>
      let N := dsz sf in
      if negb (n =? (if sf then 1 else 0)) || (N <=? imms) then None
      else Some (wX s rd (lo N (Z.shiftr (lo N (rX s rn) * 2 ^ N + lo N (rX s rm)) imms)))
  | ILogR sf opc sh inv rm imm rn rd =>
      let N := dsz sf in
      if N <=? imm then None
      else
        let y := shreg N sh (lo N (rX s rm)) imm in
        let y := if inv then lo N (Z.lnot y) else y in
        let x := lo N (rX s rn) in
        let r := if opc =? 1 then Z.lor x y else if opc =? 2 then Z.lxor x y else Z.land x y in
        if opc =? 3 then Some (wFl (wX s rd r) (Z.testbit r (N - 1)) (r =? 0) false false)
        else Some (wX s rd r)
  | IAddR sf sub fl sh rm imm rn rd =>
      let N := dsz sf in
      if (sh =? 3) || (N <=? imm) then None
      else
        let y := shreg N sh (lo N (rX s rm)) imm in
        let x := lo N (rX s rn) in
        let '(r, (fn, fz, fc, fv)) := if sub then awc N x (lo N (Z.lnot y)) true else awc N x y false in
        if fl then Some (wFl (wX s rd r) fn fz fc fv) else Some (wX s rd r)
  | IAdc sf sub fl rm rn rd =>
      let N := dsz sf in
      let y := lo N (rX s rm) in
      let x := lo N (rX s rn) in
      let '(r, (fn, fz, fc, fv)) := awc N x (if sub then lo N (Z.lnot y) else y) (cf s) in
      if fl then Some (wFl (wX s rd r) fn fz fc fv) else Some (wX s rd r)
  | ICsel sf op op2 rm cond rn rd =>
      let N := dsz sf in
      if cond_holds s cond then Some (wX s rd (lo N (rX s rn)))
      else
        let y := lo N (rX s rm) in
        let y := if op =? 1 then lo N (Z.lnot y) else y in
        Some (wX s rd (lo N (y + op2)))
  | IDp2 sf opc rm rn rd =>
      let N := dsz sf in
      let x := lo N (rX s rn) in
      let y := lo N (rX s rm) in
      if opc =? 2 then Some (wX s rd (if y =? 0 then 0 else x / y))
      else if opc =? 3 then Some (wX s rd (if y =? 0 then 0 else lo N (Z.quot (sext N x) (sext N y))))
      else if (8 <=? opc) && (opc <=? 11) then Some (wX s rd (shreg N (opc - 8) x (y mod N)))
      else None
  | IDp1 sf opc rn rd =>
      let N := dsz sf in
      let x := lo N (rX s rn) in
      if opc =? 0 then Some (wX s rd (rbits (Z.to_nat N) x))
      else if opc =? 1 then Some (wX s rd (rgroups (Z.to_nat (N / 16)) 2 x))
      else if opc =? 2 then Some (wX s rd (rgroups (Z.to_nat (N / 32)) 4 x))
      else if opc =? 3 then if sf then Some (wX s rd (rgroups 1 8 x)) else None
      else if opc =? 4 then Some (wX s rd (clz N x))
      else None
  | IDp3 sf op31 o0 rm ra rn rd =>
      let N := dsz sf in
      let x := rX s rn in
      let y := rX s rm in
      if op31 =? 0 then
        if o0 =? 0 then Some (wX s rd (lo N (lo N (rX s ra) + lo N x * lo N y)))
        else Some (wX s rd (lo N (lo N (rX s ra) - lo N x * lo N y)))
      else if negb sf then None
      else if (op31 =? 1) && (o0 =? 0) then Some (wX s rd (wrap (sgn (rX s ra) + sext 32 x * sext 32 y)))
      else if (op31 =? 2) && (o0 =? 0) then Some (wX s rd (wrap (Z.shiftr (sgn x * sgn y) 64)))
      else if (op31 =? 6) && (o0 =? 0) then Some (wX s rd (wrap (Z.shiftr (x * y) 64)))
      else None
  | ILdI size opc imm rn rt => ldst s size opc (rSP s rn + imm * 2 ^ size) rt
  | ILdU size opc imm rn rt => ldst s size opc (rSP s rn + sext 9 imm) rt
  | ILdR size opc rm opt sb rn rt =>
      (* option: 2 UXTW, 3 LSL (UXTX), 6 SXTW, 7 SXTX *)
      let x := rX s rm in
      let sh := if sb =? 1 then size else 0 in
      if Z.land opt 2 =? 0 then None
      else
        let y := if opt =? 2 then lo 32 x else if opt =? 6 then sext 32 x else x in
        ldst s size opc (rSP s rn + y * 2 ^ sh) rt
  end.

(** The instructions of a straight line sequence one after the other. *)
Fixpoint run (ws : list Z) (s : st) : option st :=
  match ws with
  | [] => Some s
  | w :: ws' =>
      match decode w with
      | None => None
      | Some i => match exec i s with None => None | Some s' => run ws' s' end
      end
  end.

Lemma run_app a b s : run (a ++ b) s = match run a s with None => None | Some s' => run b s' end.
Proof.
  revert s. induction a as [|w a IH]; intros s; [reflexivity|]. cbn [run app].
  destruct (decode w) as [i|]; [|reflexivity]. destruct (exec i s); [apply IH|reflexivity].
Qed.
