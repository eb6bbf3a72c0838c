(** The part of the 64-bit Power instruction set used by the model of the PowerPC64 backend.

    This file is the specification of the processor: it is written from the Power ISA, book I (chapters 2 and 3),
    and cites no line of /repo. *)
Require Import ZArith List Bool Lia.
From Verif Require Import Rv.RvLib Imm.ImmLib.
Import ListNotations.
Open Scope Z_scope.

Inductive instr :=
| Addi_ (rt ra si : Z) | Addis_ (rt ra si : Z) | Ori_ (ra rs ui : Z) | Oris_ (ra rs ui : Z) | Or_ (ra rs rb : Z)
| Rldicr_ (ra rs sh me : Z) | Adde1_ (rt ra rb : Z) | Mtctr_ (rs : Z)
| B_ (li : Z) (aa lk : bool) | Bc_ (bo bi bd : Z) (aa lk : bool) | Bcctr_ (bo bi : Z) (lk : bool).

Definition decode (w : Z) : option instr :=
  let op := fld w 26 6 in
  let rt := fld w 21 5 in
  let ra := fld w 16 5 in
  let rb := fld w 11 5 in
  let im := fld w 0 16 in
  let aa := fld w 1 1 =? 1 in
  let lk := fld w 0 1 =? 1 in
  if op =? 14 then Some (Addi_ rt ra im)
  else if op =? 15 then Some (Addis_ rt ra im)
  else if op =? 16 then Some (Bc_ rt ra (fld w 2 14) aa lk)
  else if op =? 18 then Some (B_ (fld w 2 24) aa lk)
  else if op =? 19 then (if (fld w 1 10 =? 528) && (fld w 13 3 =? 0) then Some (Bcctr_ rt ra lk) else None)
  else if op =? 24 then Some (Ori_ ra rt im)
  else if op =? 25 then Some (Oris_ ra rt im)
  else if op =? 30 then
    (if (fld w 2 3 =? 1) && (fld w 0 1 =? 0)
     then Some (Rldicr_ ra rt (fld w 11 5 + 32 * fld w 1 1) (fld w 6 5 + 32 * fld w 5 1)) else None)
  else if op =? 31 then
    if fld w 0 11 =? 444 * 2 then Some (Or_ ra rt rb)
    else if fld w 0 11 =? 138 * 2 + 1 then Some (Adde1_ rt ra rb)
    else if (fld w 0 11 =? 467 * 2) && (fld w 11 10 =? 9 * 2 ^ 5) then Some (Mtctr_ rt)
    else None
  else None.

(** The general registers have the numbers 0 to 31, bit n of the condition register 100 + n (0 or 1), the count register, the
    link register and the carry bit the numbers 200, 201 and 202. *)
Definition CR (n : Z) : Z := 100 + n.
Definition CTR : Z := 200.
Definition LR : Z := 201.
Definition CA : Z := 202.
Definition bit (s : regs) (n : Z) : bool := Z.testbit (s n) 0.
(** As a base, register number 0 means the value zero. *)
Definition rA (s : regs) (r : Z) : Z := if r =? 0 then 0 else s r.
(** The left rotation, and the mask of the bits 0 to [me], counted from the left. *)
Definition rotl (x n : Z) : Z := Z.lor (wrap (Z.shiftl x n)) (Z.shiftr x (64 - n)).
Definition mask (me : Z) : Z := 2 ^ 64 - 2 ^ (63 - me).
(** The record form: bits 0 to 3 of the condition register compare the result with zero; bit 3 is a copy of the summary overflow, not
    modelled here (any value [so]). *)
Definition record (s : regs) (v so : Z) : regs :=
  upd (upd (upd (upd s (CR 0) (Z.b2z (sgn v <? 0))) (CR 1) (Z.b2z (0 <? sgn v))) (CR 2) (Z.b2z (sgn v =? 0))) (CR 3) so.
(** Branch options 20, 12 and 4: always, if the bit is set, if the bit is clear. The others use the count register and are not described. *)
Definition taken (s : regs) (bo bi : Z) : option bool :=
  if bo =? 20 then Some true else if bo =? 12 then Some (bit s (CR bi)) else if bo =? 4 then Some (negb (bit s (CR bi))) else None.
Definition link (s : regs) (lk : bool) (pc : Z) : regs := if lk then upd s LR (wrap (pc + 4)) else s.

Definition state : Type := (Z * regs)%type.
Definition step (so : Z) (code : Z -> Z) (c : state) : option state :=
  let '(pc, s) := c in
  let next s := Some (wrap (pc + 4), s) in
  match decode (code pc) with
  | None => None
  | Some i =>
      match i with
      | Addi_ rt ra si => next (upd s rt (wrap (rA s ra + sext 16 si)))
      | Addis_ rt ra si => next (upd s rt (wrap (rA s ra + sext 16 si * 2 ^ 16)))
      | Ori_ ra rs ui => next (upd s ra (Z.lor (s rs) ui))
      | Oris_ ra rs ui => next (upd s ra (Z.lor (s rs) (ui * 2 ^ 16)))
      | Or_ ra rs rb => next (upd s ra (Z.lor (s rs) (s rb)))
      | Rldicr_ ra rs sh me => next (upd s ra (Z.land (rotl (s rs) sh) (mask me)))
      | Adde1_ rt ra rb =>
          let v := s ra + s rb + Z.b2z (bit s CA) in
          next (record (upd (upd s rt (wrap v)) CA (v / 2 ^ 64)) (wrap v) so)
      | Mtctr_ rs => next (upd s CTR (s rs))
      | B_ li aa lk => Some (wrap ((if aa then 0 else pc) + sext 26 (li * 4)), link s lk pc)
      | Bc_ bo bi bd aa lk =>
          match taken s bo bi with
          | None => None
          | Some t => Some (if t then wrap ((if aa then 0 else pc) + sext 16 (bd * 4)) else wrap (pc + 4), link s lk pc)
          end
      | Bcctr_ bo bi lk =>
          match taken s bo bi with
          | None => None
          | Some t => Some (if t then s CTR / 4 * 4 else wrap (pc + 4), link s lk pc)
          end
      end
  end.
