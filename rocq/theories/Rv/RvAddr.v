(** Address loads and far jumps: load_addr_to_reg (sljitNativeRISCV_common.c:638-760). *)
Require Import ZArith List Bool Lia Zify ZifyBool.
From Verif Require Import Rv.RvLib Rv.RvBits Rv.RvIsa Rv.RvEnc Rv.RvImm.
Import ListNotations.
Open Scope Z_scope.

(** The PATCH_* flags of a jump (sljitLir.h internal flags 8-15; sljitNativeRISCV_common.c uses the
    combinations below): PNone is "no PATCH flag", PB16 is PATCH_B | PATCH_16, PJ16 is PATCH_J | PATCH_16. *)
Inductive patch := PNone | PB | PB16 | PJ | PJ16 | PRel32 | PAbs32 | PAbs44 | PAbs52.

(** The last instruction (lines 663-670, 746-757). [mov]: JUMP_MOV_ADDR, [call]: IS_CALL. *)
Definition last_ins (mov call : bool) (reg addr : Z) : Z :=
  if mov then ADDI .| RD reg .| RS1 reg .| IMM_I addr
  else JALR .| RS1 reg .| IMM_I addr .| (if call then RD RETURN_ADDR_REG else 0).

(** load_addr_to_reg, sljitNativeRISCV_common.c:638-760: the instructions stored from [buf].  [addr] is the target
    and [buf] the executable address of the first instruction, both as sljit_sw (the C code has the same bits in
    sljit_uw where no sign matters).  [reg] is the value of the [reg] variable of line 644. *)
Definition load_addr (p : patch) (mov call : bool) (reg addr buf : Z) : list Z :=
  match p with
  | PRel32 =>
    let addr := sw (addr - buf) in
    let addr := if negb (addr .& 0x800 =? 0) then sw (addr + 0x1000) else addr in
    [AUIPC .| RD reg .| u32 (addr .& Z.lnot 0xfff); last_ins mov call reg addr]
  | _ =>
    let addr := if negb (addr .& 0x800 =? 0) then sw (addr + 0x1000) else addr in
    match p with
    | PAbs32 => [LUI .| RD reg .| u32 (addr .& Z.lnot 0xfff); last_ins mov call reg addr]
    | PAbs44 =>
      let high := Z.shiftr addr 12 in
      (if high >? S32_MAX then
         [LUI .| RD reg .| 0x80000000; XORI .| RD reg .| RS1 reg .| IMM_I high]
       else
         let high := if negb (high .& 0x800 =? 0) then high + 0x1000 else high in
         [LUI .| RD reg .| u32 (high .& Z.lnot 0xfff); ADDI .| RD reg .| RS1 reg .| IMM_I high])
      ++ [SLLI .| RD reg .| RS1 reg .| IMM_I 12; last_ins mov call reg addr]
    | _ =>
      let high := Z.shiftr addr 32 in
      let high := if negb (addr .& 0x80000000 =? 0) then Z.lnot high else high in
      (match p with
       | PAbs52 => [LUI .| RD TMP_REG3 .| u32 (Z.shiftl high 12)]
       | _ =>
         let high := if negb (high .& 0x800 =? 0) then high + 0x1000 else high in
         [LUI .| RD TMP_REG3 .| u32 (high .& Z.lnot 0xfff); ADDI .| RD TMP_REG3 .| RS1 TMP_REG3 .| IMM_I high]
       end)
      ++ [LUI .| RD reg .| u32 (addr .& Z.lnot 0xfff);
          SLLI .| RD TMP_REG3 .| RS1 TMP_REG3 .| IMM_I (match p with PAbs52 => 20 | _ => 32 end);
          XOR .| RD reg .| RS1 reg .| RS2 TMP_REG3; last_ins mov call reg addr]
    end
  end.

(** The SLJIT_ASSERTs of load_addr_to_reg (lines 654, 686, 692, 695, 725). *)
Definition load_addr_asserts (p : patch) (addr buf : Z) : bool :=
  match p with
  | PRel32 => let addr := sw (addr - buf) in (S32_MIN <=? addr) && (addr <=? S32_MAX)
  | _ =>
    let addr := if negb (addr .& 0x800 =? 0) then sw (addr + 0x1000) else addr in
    match p with
    | PAbs32 => wrap addr <=? S32_MAX
    | PAbs44 =>
      let high := Z.shiftr addr 12 in
      (wrap high <=? 0x7fffffff) && (if high >? S32_MAX then negb (high .& 0x800 =? 0) else true)
    | PAbs52 => wrap addr <=? S52_MAX
    | _ => true
    end
  end.
