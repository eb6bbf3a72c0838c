(** ARM64 backend: logical_imm and load_immediate (sljitNativeARM_64.c:653-837). *)
Require Import ZArith List Bool Lia.
From Verif Require Import Rv.RvLib Arm.ArmEnc.
Import ListNotations.
Open Scope Z_scope.

(** One "if" of COUNT_TRAILING_ZERO (sljitNativeARM_64.c:653-678); [value] is shifted as a
    non negative number when it is unsigned, and arithmetically when it is signed. *)
Definition ctz_step (m k : Z) (p : Z * Z) : Z * Z :=
  let '(value, result) := p in
  if value .& m =? 0 then (Z.shiftr value k, result + k) else (value, result).
(** COUNT_TRAILING_ZERO (sljitNativeARM_64.c:653-678): the new value and the result. *)
Definition count_trailing_zero (value : Z) : Z * Z :=
  ctz_step 0x1 1 (ctz_step 0x3 2 (ctz_step 0xf 4 (ctz_step 0xff 8 (ctz_step 0xffff 16 (ctz_step 0xffffffff 32 (value, 0)))))).

(** sljitNativeARM_64.c:680 *)
Definition LOGICAL_IMM_CHECK := 0x100.

(** The loop of logical_imm (sljitNativeARM_64.c:702-712); [None] is SLJIT_UNREACHABLE. *)
Fixpoint li_loop (fuel : nat) (uimm len : Z) : option Z :=
  match fuel with
  | O => None
  | S f =>
      if len <=? 0 then None
      else
        let mask := Z.shiftl 1 len - 1 in
        if uimm .& mask =? Z.shiftr uimm len .& mask then li_loop f uimm (Z.shiftr len 1) else Some len
  end.

(** The part of logical_imm after the loop (sljitNativeARM_64.c:714-745), [len] after the
    doubling. *)
Definition li_tail (uimm len : Z) : option Z :=
  let negated := negb (uimm .& 0x1 =? 0) in
  let uimm := if negated then wrap (Z.lnot uimm) else uimm in
  let uimm := if len <? 64 then uimm .& (Z.shiftl 1 len - 1) else uimm in
  let '(uimm, rgt) := count_trailing_zero uimm in
  let imm := sw (Z.lnot uimm) in
  if negb (imm <? 0) then None
  else
    let '(imm, ones) := count_trailing_zero imm in
    if negb (Z.lnot imm =? 0) then Some 0
    else
      let ins := if len =? 64 then Z.shiftl 1 22 else u32 (Z.shiftl (u32 (0x3f - (Z.shiftl len 1 - 1))) 10) in
      if negated then Some (ins .| u32 (Z.shiftl (u32 (len - ones - 1)) 10) .| u32 (Z.shiftl (u32 (len - ones - rgt)) 16))
      else Some (ins .| u32 (Z.shiftl (u32 (ones - 1)) 10) .| u32 (Z.shiftl (u32 (len - rgt)) 16)).

(** logical_imm (sljitNativeARM_64.c:683-746); [imm] is a signed word, [None] stands for a
    failed SLJIT_ASSERT or a reached SLJIT_UNREACHABLE. *)
Definition logical_imm (imm len : Z) : option Z :=
  let check := negb (len .& LOGICAL_IMM_CHECK =? 0) in
  let len := if check then Z.ldiff len LOGICAL_IMM_CHECK else len in
  if check && (len =? 32) && ((imm =? 0) || (imm =? -1)) then Some 0
  else if check && (len =? 16) && ((s32 imm =? 0) || (s32 imm =? -1)) then Some 0
  else if negb ((len =? 32) && negb (imm =? 0) && negb (imm =? -1)
             || (len =? 16) && negb (s32 imm =? 0) && negb (s32 imm =? -1)) then None
  else
    match li_loop 8 (wrap imm) len with
    | None => None
    | Some len => li_tail (wrap imm) (Z.shiftl len 1)
    end.

(** The counting loop of load_immediate (sljitNativeARM_64.c:793-801): the number of half words
    equal to [v] among the low [n] ones, with the signed shift of the loop. *)
Fixpoint count_half (n : nat) (simm v : Z) : Z :=
  match n with
  | O => 0
  | S n' => (if simm .& 0xffff =? v then 1 else 0) + count_half n' (Z.shiftr simm 16) v
  end.

(** The two final loops of load_immediate (sljitNativeARM_64.c:805-822 with [neg], 824-836
    without); [n] iterations are left, [i] is the loop counter. *)
Fixpoint li_chunks (n : nat) (neg first : bool) (i simm dst : Z) : list Z :=
  match n with
  | O => []
  | S n' =>
      if simm .& 0xffff =? 0 then li_chunks n' neg first (i + 1) (Z.shiftr simm 16) dst
      else
        (if first
         then (if neg then MOVN else MOVZ) .| RD dst .| Z.shiftl (u32 simm .& 0xffff) 5 .| Z.shiftl i 21
         else MOVK .| RD dst .| Z.shiftl (u32 (if neg then Z.lnot simm else simm) .& 0xffff) 5 .| Z.shiftl i 21)
        :: li_chunks n' neg false (i + 1) (Z.shiftr simm 16) dst
  end.

(** load_immediate (sljitNativeARM_64.c:750-837): the instruction words pushed; [None] is a
    failed assertion in logical_imm. The error returns of push_inst are not modelled here. *)
Definition load_immediate (dst simm : Z) : option (list Z) :=
  let imm := wrap simm in
  if imm <=? 0xffff then Some [MOVZ .| RD dst .| u32 (Z.shiftl (u32 imm) 5)]
  else if (simm <? 0) && (-0x10000 <=? simm) then
    Some [MOVN .| RD dst .| Z.shiftl (u32 (Z.lnot imm) .& 0xffff) 5]
  else if imm <=? 0xffffffff then
    if imm .& 0xffff =? 0 then Some [MOVZ .| RD dst .| u32 (Z.shiftl (u32 (Z.shiftr imm 16)) 5) .| Z.shiftl 1 21]
    else if imm .& 0xffff0000 =? 0xffff0000 then
      Some [Z.lxor MOVN W_OP .| RD dst .| Z.shiftl (u32 (Z.lnot imm) .& 0xffff) 5]
    else if imm .& 0xffff =? 0xffff then
      Some [Z.lxor MOVN W_OP .| RD dst .| Z.shiftr (u32 (Z.lnot imm) .& 0xffff0000) (16 - 5) .| Z.shiftl 1 21]
    else
      match logical_imm simm 16 with
      | None => None
      | Some bitmask =>
          if negb (bitmask =? 0) then Some [Z.lxor ORRI W_OP .| RD dst .| RN TMP_ZERO .| bitmask]
          else Some [MOVZ .| RD dst .| Z.shiftl (u32 imm .& 0xffff) 5;
                     MOVK .| RD dst .| Z.shiftr (u32 imm .& 0xffff0000) (16 - 5) .| Z.shiftl 1 21]
      end
  else
    match logical_imm simm 32 with
    | None => None
    | Some bitmask =>
        if negb (bitmask =? 0) then Some [ORRI .| RD dst .| RN TMP_ZERO .| bitmask]
        else if (simm <? 0) && (-0x100000000 <=? simm) then
          if imm .& 0xffff =? 0xffff then
            Some [MOVN .| RD dst .| Z.shiftr (u32 (Z.lnot imm) .& 0xffff0000) (16 - 5) .| Z.shiftl 1 21]
          else Some [MOVN .| RD dst .| Z.shiftl (u32 (Z.lnot imm) .& 0xffff) 5;
                     MOVK .| RD dst .| Z.shiftr (u32 imm .& 0xffff0000) (16 - 5) .| Z.shiftl 1 21]
        else
          let zeros := count_half 4 simm 0 in
          let ones := count_half 4 simm 0xffff in
          if zeros <? ones then Some (li_chunks 4 true true 0 (Z.lnot simm) dst)
          else Some (li_chunks 4 false true 0 simm dst)
    end.
