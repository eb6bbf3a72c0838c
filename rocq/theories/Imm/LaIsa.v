(** The part of the LoongArch instruction set used by the model of the LoongArch64 backend.

    This file is the specification of the processor: it is written from the LoongArch Reference
    Manual, volume 1 (2.2.1 arithmetic instructions, 2.2.5 branch instructions, and the table of the
    encodings in appendix B), and cites no line of /repo. *)
Require Import ZArith List Bool Lia.
From Verif Require Import Rv.RvLib Imm.ImmLib.
Import ListNotations.
Open Scope Z_scope.

Inductive instr :=
| AddiD (rd rj si12 : Z) | Ori (rd rj ui12 : Z) | Lu52iD (rd rj si12 : Z)
| Lu12iW (rd si20 : Z) | Lu32iD (rd si20 : Z) | Pcaddu12i (rd si20 : Z)
| Jirl (rd rj off16 : Z) | B_ (off26 : Z) | Bl_ (off26 : Z)
| Bcc (k rj rd off16 : Z).

Definition decode (w : Z) : option instr :=
  let rd := fld w 0 5 in
  let rj := fld w 5 5 in
  if fld w 26 6 =? 0x13 then Some (Jirl rd rj (fld w 10 16))
  else if fld w 26 6 =? 0x14 then Some (B_ (Z.lor (Z.shiftl (fld w 0 10) 16) (fld w 10 16)))
  else if fld w 26 6 =? 0x15 then Some (Bl_ (Z.lor (Z.shiftl (fld w 0 10) 16) (fld w 10 16)))
  else if (fld w 26 6 =? 0x16) || (fld w 26 6 =? 0x17) || (fld w 26 6 =? 0x18) || (fld w 26 6 =? 0x19)
       || (fld w 26 6 =? 0x1a) || (fld w 26 6 =? 0x1b) then Some (Bcc (fld w 26 6 - 0x16) rj rd (fld w 10 16))
  else if fld w 25 7 =? 0xa then Some (Lu12iW rd (fld w 5 20))
  else if fld w 25 7 =? 0xb then Some (Lu32iD rd (fld w 5 20))
  else if fld w 25 7 =? 0xe then Some (Pcaddu12i rd (fld w 5 20))
  else if fld w 22 10 =? 0xb then Some (AddiD rd rj (fld w 10 12))
  else if fld w 22 10 =? 0xc then Some (Lu52iD rd rj (fld w 10 12))
  else if fld w 22 10 =? 0xe then Some (Ori rd rj (fld w 10 12))
  else None.

(** Register 0 reads as zero, and cannot be written. *)
Definition rG (s : regs) (r : Z) : Z := if r =? 0 then 0 else s r.
Definition wG (s : regs) (r v : Z) : regs := if r =? 0 then s else upd s r v.

(** beq, bne, blt, bge, bltu, bgeu. *)
Definition taken (k a b : Z) : bool :=
  if k =? 0 then a =? b
  else if k =? 1 then negb (a =? b)
  else if k =? 2 then sgn a <? sgn b
  else if k =? 3 then negb (sgn a <? sgn b)
  else if k =? 4 then a <? b
  else negb (a <? b).

(** The next program counter and registers. *)
Definition exec (i : instr) (pc : Z) (s : regs) : Z * regs :=
  match i with
  | AddiD rd rj im => (wrap (pc + 4), wG s rd (wrap (rG s rj + sext 12 im)))
  | Ori rd rj im => (wrap (pc + 4), wG s rd (Z.lor (rG s rj) im))
  | Lu52iD rd rj im => (wrap (pc + 4), wG s rd (Z.shiftl im 52 + rG s rj mod 2 ^ 52))
  | Lu12iW rd im => (wrap (pc + 4), wG s rd (wrap (sext 32 (Z.shiftl im 12))))
  | Lu32iD rd im => (wrap (pc + 4), wG s rd (wrap (Z.shiftl (sext 20 im) 32 + rG s rd mod 2 ^ 32)))
  | Pcaddu12i rd im => (wrap (pc + 4), wG s rd (wrap (pc + sext 32 (Z.shiftl im 12))))
  | Jirl rd rj off => (wrap (rG s rj + sext 18 (Z.shiftl off 2)), wG s rd (wrap (pc + 4)))
  | B_ off => (wrap (pc + sext 28 (Z.shiftl off 2)), s)
  | Bl_ off => (wrap (pc + sext 28 (Z.shiftl off 2)), wG s 1 (wrap (pc + 4)))
  | Bcc k rj rd off => (if taken k (rG s rj) (rG s rd) then wrap (pc + sext 18 (Z.shiftl off 2)) else wrap (pc + 4), s)
  end.

(** One instruction of the code; the code maps addresses to words. *)
Definition step (code : Z -> Z) (c : Z * regs) : option (Z * regs) :=
  match decode (code (fst c)) with Some i => Some (exec i (fst c) (snd c)) | None => None end.
