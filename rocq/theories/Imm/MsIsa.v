(** The part of the MIPS64 instruction set used by the model of the MIPS64 backend.

    This file is the specification of the processor: it is written from the MIPS64 Architecture For
    Programmers, volume II (descriptions and encodings of the instructions; release 6 differs in JR and
    in the branches on floating point conditions), and cites no line of /repo. Branches have a delay
    slot: the instruction after the branch is executed before the instruction at the target; a branch
    in a delay slot is unpredictable. *)
Require Import ZArith List Bool Lia.
From Verif Require Import Rv.RvLib Imm.ImmLib.
Import ListNotations.
Open Scope Z_scope.

(** Instructions which are not branches. *)
Inductive alu :=
| Nop_ | Lui_ (rt im : Z) | Ori_ (rt rs im : Z) | Addiu_ (rt rs im : Z)
| Dsll_ (rd rt sh : Z) | Daddu_ (rd rs rt : Z) | Ld_ (rt base im : Z).
Inductive bcond := Beq_ (rs rt : Z) | Bne_ (rs rt : Z) | Blez_ (rs : Z) | Bgtz_ (rs : Z) | Bltz_ (rs : Z) | Bgez_ (rs : Z)
| Bfcc_ (v : bool) | Bfpr_ (v : bool) (ft : Z).
Inductive instr :=
| Alu (i : alu) | Branch (c : bcond) (off : Z) | Bal_ (off : Z) | J_ (idx : Z) | Jal_ (idx : Z) | Jr_ (rs : Z) | Jalr_ (rd rs : Z).

Definition decode (r6 : bool) (w : Z) : option instr :=
  let rs := fld w 21 5 in
  let rt := fld w 16 5 in
  let rd := fld w 11 5 in
  let im := fld w 0 16 in
  let op := fld w 26 6 in
  if op =? 0 then
    let fn := fld w 0 6 in
    if fn =? 0 then (if fld w 6 20 =? 0 then Some (Alu Nop_) else None)
    else if fn =? 8 then (if negb r6 && (fld w 6 15 =? 0) then Some (Jr_ rs) else None)
    else if fn =? 9 then
      if (rt =? 0) && (fld w 6 5 =? 0) then
        (if rd =? 0 then (if r6 then Some (Jr_ rs) else None) else Some (Jalr_ rd rs))
      else None
    else if fn =? 45 then (if fld w 6 5 =? 0 then Some (Alu (Daddu_ rd rs rt)) else None)
    else if fn =? 56 then (if rs =? 0 then Some (Alu (Dsll_ rd rt (fld w 6 5))) else None)
    else if fn =? 60 then (if rs =? 0 then Some (Alu (Dsll_ rd rt (fld w 6 5 + 32))) else None)
    else None
  else if op =? 1 then
    if rt =? 0 then Some (Branch (Bltz_ rs) im)
    else if rt =? 1 then Some (Branch (Bgez_ rs) im)
    else if rt =? 17 then (if rs =? 0 then Some (Bal_ im) else None)
    else None
  else if op =? 2 then Some (J_ (fld w 0 26))
  else if op =? 3 then Some (Jal_ (fld w 0 26))
  else if op =? 4 then Some (Branch (Beq_ rs rt) im)
  else if op =? 5 then Some (Branch (Bne_ rs rt) im)
  else if op =? 6 then (if rt =? 0 then Some (Branch (Blez_ rs) im) else None)
  else if op =? 7 then (if rt =? 0 then Some (Branch (Bgtz_ rs) im) else None)
  else if op =? 9 then Some (Alu (Addiu_ rt rs im))
  else if op =? 13 then Some (Alu (Ori_ rt rs im))
  else if op =? 15 then (if rs =? 0 then Some (Alu (Lui_ rt im)) else None)
  else if op =? 17 then
    if r6 then
      (if rs =? 9 then Some (Branch (Bfpr_ false rt) im) else if rs =? 13 then Some (Branch (Bfpr_ true rt) im) else None)
    else
      (if rs =? 8 then (if rt =? 0 then Some (Branch (Bfcc_ false) im) else if rt =? 1 then Some (Branch (Bfcc_ true) im) else None) else None)
  else if op =? 55 then Some (Alu (Ld_ rt rs im))
  else None.

(** Register 0 reads as zero, and cannot be written. The condition code 0 of the floating point unit is
    kept under number 100, the low word of floating point register n under number 200 + n. *)
Definition rG (s : regs) (r : Z) : Z := if r =? 0 then 0 else s r.
Definition wG (s : regs) (r v : Z) : regs := if r =? 0 then s else upd s r v.
Definition FCC : Z := 100.
Definition FPR (n : Z) : Z := 200 + n.

(** Instructions which are not branches; [mem a] is the doubleword of the data memory at address [a]. ADDIU of a register
    which is not a sign extended word is unpredictable. *)
Definition exec_alu (mem : Z -> Z) (i : alu) (s : regs) : option regs :=
  match i with
  | Nop_ => Some s
  | Lui_ rt im => Some (wG s rt (wrap (sext 32 (Z.shiftl im 16))))
  | Ori_ rt rs im => Some (wG s rt (Z.lor (rG s rs) im))
  | Addiu_ rt rs im => if rG s rs =? wrap (sext 32 (rG s rs)) then Some (wG s rt (wrap (sext 32 (rG s rs + sext 16 im)))) else None
  | Dsll_ rd rt sh => Some (wG s rd (wrap (Z.shiftl (rG s rt) sh)))
  | Daddu_ rd rs rt => Some (wG s rd (wrap (rG s rs + rG s rt)))
  | Ld_ rt base im => Some (wG s rt (wrap (mem (wrap (rG s base + sext 16 im)))))
  end.

Definition bcond_holds (s : regs) (c : bcond) : bool :=
  match c with
  | Beq_ rs rt => rG s rs =? rG s rt
  | Bne_ rs rt => negb (rG s rs =? rG s rt)
  | Blez_ rs => sgn (rG s rs) <=? 0
  | Bgtz_ rs => 0 <? sgn (rG s rs)
  | Bltz_ rs => sgn (rG s rs) <? 0
  | Bgez_ rs => 0 <=? sgn (rG s rs)
  | Bfcc_ v => Bool.eqb (Z.testbit (s FCC) 0) v
  | Bfpr_ v ft => Bool.eqb (Z.testbit (s (FPR ft)) 0) v
  end.

(** The state: program counter, in a delay slot the address which follows it, registers. *)
Definition state : Type := (Z * option Z * regs)%type.
Definition pc4 (pc : Z) : Z := wrap (pc + 4).
Definition pc8 (pc : Z) : Z := wrap (pc + 8).
Definition btarget (pc off : Z) : Z := wrap (pc + 4 + sext 18 (Z.shiftl off 2)).
(** J: the low 28 bits of the address of the delay slot are replaced. *)
Definition jtarget (pc idx : Z) : Z := Z.shiftl (Z.shiftr (pc4 pc) 28) 28 + Z.shiftl idx 2.

Definition step (r6 : bool) (mem code : Z -> Z) (c : state) : option state :=
  let '(pc, slot, s) := c in
  match decode r6 (code pc) with
  | None => None
  | Some (Alu i) =>
      match exec_alu mem i s with
      | None => None
      | Some s' => Some (match slot with None => pc4 pc | Some t => t end, None, s')
      end
  | Some b =>
      match slot with
      | Some _ => None
      | None =>
          match b with
          | Alu _ => None
          | Branch c off => Some (pc4 pc, Some (if bcond_holds s c then btarget pc off else pc8 pc), s)
          | Bal_ off => Some (pc4 pc, Some (btarget pc off), wG s 31 (pc8 pc))
          | J_ idx => Some (pc4 pc, Some (jtarget pc idx), s)
          | Jal_ idx => Some (pc4 pc, Some (jtarget pc idx), wG s 31 (pc8 pc))
          | Jr_ rs => Some (pc4 pc, Some (rG s rs), s)
          | Jalr_ rd rs => Some (pc4 pc, Some (rG s rs), wG s rd (pc8 pc))
          end
      end
  end.
