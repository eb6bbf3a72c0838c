(** ARM64 backend: registers, instruction words (sljitNativeARM_64.c). *)
Require Import ZArith List Bool Lia.
From Verif Require Import Rv.RvLib.
Import ListNotations.
Open Scope Z_scope.

Notation "a .| b" := (Z.lor a b) (at level 50, left associativity).
Notation "a .& b" := (Z.land a b) (at level 40, left associativity).

(** Conversion to sljit_ins, sljit_u32 (sljitNativeARM_64.c:33). *)
Definition u32 (x : Z) : Z := x mod 2 ^ 32.
(** Conversion to sljit_s32. *)
Definition s32 (x : Z) : Z := sext 32 x.
(** Conversion to sljit_sw. *)
Definition sw (x : Z) : Z := sext 64 x.

(** sljitConfigInternal.h:654, sljitNativeARM_64.c:35-43, sljitLir.h (SLJIT_SP). *)
Definition NREGS := 26.
Definition TMP_ZERO := 0.
Definition SLJIT_SP := 27.
Definition TMP_REG1 := 28.
Definition TMP_REG2 := 29.
Definition TMP_LR := 30.
Definition TMP_FP := 31.

(** sljitNativeARM_64.c:46-48 *)
Definition reg_map_list : list Z :=
  [31; 0; 1; 2; 3; 4; 5; 6; 7; 11; 12; 13; 14; 15; 16; 17; 8; 28; 27; 26; 25; 24; 23; 22; 21; 20; 19; 31; 9; 10; 30; 29].
Definition reg_map (r : Z) : Z := nth (Z.to_nat r) reg_map_list 0.

(** sljitNativeARM_64.c:54-59 *)
Definition W_OP := 0x80000000.
Definition RD (r : Z) := reg_map r.
Definition RN (r : Z) := Z.shiftl (reg_map r) 5.
Definition RT2 (r : Z) := Z.shiftl (reg_map r) 10.
Definition RM (r : Z) := Z.shiftl (reg_map r) 16.

(** sljitNativeARM_64.c:70-185 *)
Definition ADC := 0x9a000000.
Definition ADD := 0x8b000000.
Definition ADDI := 0x91000000.
Definition AND := 0x8a000000.
Definition ANDI := 0x92000000.
Definition ASRV := 0x9ac02800.
Definition CLZ := 0xdac01000.
Definition EOR := 0xca000000.
Definition EORI := 0xd2000000.
Definition EXTR := 0x93c00000.
Definition LSLV := 0x9ac02000.
Definition LSRV := 0x9ac02400.
Definition MADD := 0x9b000000.
Definition MOVK := 0xf2800000.
Definition MOVN := 0x92800000.
Definition MOVZ := 0xd2800000.
Definition ORN := 0xaa200000.
Definition ORR := 0xaa000000.
Definition ORRI := 0xb2000000.
Definition RBIT := 0xdac00000.
Definition REV := 0xdac00c00.
Definition REV16 := 0xdac00400.
Definition RORV := 0x9ac02c00.
Definition SBC := 0xda000000.
Definition SBFM := 0x93400000.
Definition SDIV := 0x9ac00c00.
Definition SMADDL := 0x9b200000.
Definition SMULH := 0x9b403c00.
Definition STRB := 0x38206800.
Definition STRBI := 0x39000000.
Definition STURBI := 0x38000000.
Definition SUB := 0xcb000000.
Definition SUBI := 0xd1000000.
Definition SUBS := 0xeb000000.
Definition UBFM := 0xd3400000.
Definition UDIV := 0x9ac00800.
Definition UMULH := 0x9bc03c00.
(** #define MOV (ORR | RN(TMP_ZERO)) (sljitNativeARM_64.c:190) *)
Definition MOV := ORR .| RN TMP_ZERO.
