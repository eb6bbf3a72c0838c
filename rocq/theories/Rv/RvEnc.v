(** Instruction encoding macros of the RISC-V backend and the emission monad. *)
Require Import ZArith List Bool Lia.
From Verif Require Import Rv.RvLib.
Import ListNotations.
Open Scope Z_scope.

Notation "a .| b" := (Z.lor a b) (at level 50, left associativity).
Notation "a .& b" := (Z.land a b) (at level 40, left associativity).

(** C casts. sljit_ins is sljit_u32 (sljitNativeRISCV_common.c); sljit_sw is 64 bit on RISC-V 64.
    Signed overflow is modelled as two's complement wrap-around (the C code relies on it, see DESIGN.md). *)
Definition u16 (x : Z) : Z := x mod 2 ^ 16.
Definition u32 (x : Z) : Z := x mod 2 ^ 32.
Definition sw (x : Z) : Z := sext 64 x.
Definition s32 (x : Z) : Z := sext 32 x.

(** sljitLir.h SLJIT_NUMBER_OF_REGISTERS on RISC-V (sljitConfigInternal.h): 23 registers; SLJIT_SP is
    SLJIT_NUMBER_OF_REGISTERS + 1; sljitNativeRISCV_common.c:151-159 temporaries. *)
Definition NREGS := 23.
Definition SLJIT_SP := 24.
Definition TMP_REG1 := 25.
Definition TMP_REG2 := 26.
Definition TMP_REG3 := 27.
Definition EQUAL_FLAG := 28.
Definition OTHER_FLAG := 29.
Definition TMP_ZERO := 0.
Definition RETURN_ADDR_REG := TMP_REG2.

(** sljitNativeRISCV_common.c:167-169.  The table of the code ends with 28; the last two entries name x3 and x4,
    which the code never uses, so that statements about "all other registers" cover all 32 registers. *)
Definition reg_map_list : list Z :=
  [0; 10; 11; 12; 13; 14; 15; 16; 17; 29; 30; 31; 27; 26; 25; 24; 23; 22; 21; 20; 19; 18; 9; 8; 2; 6; 1; 7; 5; 28;
   3; 4].
Definition reg_map (r : Z) : Z := nth (Z.to_nat r) reg_map_list 0.
(** sljitNativeRISCV_common.c:171-173 *)
Definition freg_map_list : list Z :=
  [0; 10; 11; 12; 13; 14; 15; 16; 17; 2; 3; 4; 5; 6; 7; 28; 29; 30; 31; 27; 26; 25; 24; 23; 22; 21; 20; 19; 18; 9; 8; 0; 1].
Definition freg_map (r : Z) : Z := nth (Z.to_nat r) freg_map_list 0.

(** sljitNativeRISCV_common.c:183-193 *)
Definition RD (r : Z) := Z.shiftl (reg_map r) 7.
Definition RS1 (r : Z) := Z.shiftl (reg_map r) 15.
Definition RS2 (r : Z) := Z.shiftl (reg_map r) 20.
Definition FRD (r : Z) := Z.shiftl (freg_map r) 7.
Definition FRS1 (r : Z) := Z.shiftl (freg_map r) 15.
Definition FRS2 (r : Z) := Z.shiftl (freg_map r) 20.
Definition IMM_I (imm : Z) := u32 (Z.shiftl imm 20).
Definition IMM_S (imm : Z) := u32 (Z.shiftl (imm .& 0xfe0) 20) .| Z.shiftl (imm .& 0x1f) 7.
(** sljitNativeRISCV_common.c:194-211 *)
Definition C_RD (r : Z) := Z.shiftl (reg_map r) 7.
Definition C_RS2 (r : Z) := Z.shiftl (reg_map r) 2.
Definition C_FRD (r : Z) := Z.shiftl (freg_map r) 7.
Definition C_FRS2 (r : Z) := Z.shiftl (freg_map r) 2.
Definition C_RS1_R3 (r : Z) := Z.shiftl (reg_map r .& 0x7) 7.
Definition C_RS2_R3 (r : Z) := Z.shiftl (reg_map r .& 0x7) 2.
Definition C_FRS2_R3 (r : Z) := Z.shiftl (freg_map r .& 0x7) 2.
Definition C_IS_R3 (r : Z) : bool := reg_map r .& 0x18 =? 0x08.
Definition C_IS_FR3 (r : Z) : bool := freg_map r .& 0x18 =? 0x08.
Definition C_IMM_I (imm : Z) := u16 (Z.shiftl (imm .& 0x1f) 2 .| Z.shiftl (imm .& 0x20) 7).
Definition C_LD32_SP (imm : Z) := u16 (Z.shiftl (imm .& 0x1c) 2 .| Z.shiftl (imm .& 0x20) 7 .| Z.shiftr (imm .& 0xc0) 4).
Definition C_ST32_SP (imm : Z) := u16 (Z.shiftl (imm .& 0x3c) 7 .| Z.shiftl (imm .& 0xc0) 1).
Definition C_LD64_SP (imm : Z) := u16 (Z.shiftl (imm .& 0x18) 2 .| Z.shiftl (imm .& 0x20) 7 .| Z.shiftr (imm .& 0x1c0) 4).
Definition C_ST64_SP (imm : Z) := u16 (Z.shiftl (imm .& 0x38) 7 .| Z.shiftl (imm .& 0x1c0) 1).
Definition C_MEM32 (imm : Z) := u16 (Z.shiftl (imm .& 0x4) 4 .| Z.shiftl (imm .& 0x38) 7 .| Z.shiftr (imm .& 0x40) 1).
Definition C_MEM64 (imm : Z) := u16 (Z.shiftl (imm .& 0x38) 7 .| Z.shiftr (imm .& 0xc0) 1).
Definition C_BRN16 (imm : Z) :=
  u16 (Z.shiftl (imm .& 0x6) 2 .| Z.shiftl (imm .& 0x18) 7 .| Z.shiftr (imm .& 0x20) 3
       .| Z.shiftr (imm .& 0xc0) 1 .| Z.shiftl (imm .& 0x100) 4).
Definition C_JMP16 (imm : Z) :=
  u16 (Z.shiftl (imm .& 0xb40) 1 .| Z.shiftl (imm .& 0xe) 2 .| Z.shiftl (imm .& 0x10) 7
       .| Z.shiftr (imm .& 0x20) 3 .| Z.shiftr (imm .& 0x80) 1 .| Z.shiftr (imm .& 0x400) 2).

(** sljitNativeRISCV_common.c:214-218 *)
Definition C_OPC (o1 o2 : Z) := u16 (o1 .| Z.shiftl o2 13).
Definition F3 (f : Z) := Z.shiftl f 12.
Definition F12 (f : Z) := Z.shiftl f 20.
Definition F7 (f : Z) := Z.shiftl f 25.

(** sljitNativeRISCV_common.c:229-386 (the constants are evaluated by hand-written arithmetic below:
    each is the literal macro body). *)
Definition ADD := Eval vm_compute in F7 0x0 .| F3 0x0 .| 0x33.
Definition ADDI := Eval vm_compute in F3 0x0 .| 0x13.
Definition AND := Eval vm_compute in F7 0x0 .| F3 0x7 .| 0x33.
Definition ANDI := Eval vm_compute in F3 0x7 .| 0x13.
Definition AUIPC := 0x17.
Definition BEQ := Eval vm_compute in F3 0x0 .| 0x63.
Definition BNE := Eval vm_compute in F3 0x1 .| 0x63.
Definition BLT := Eval vm_compute in F3 0x4 .| 0x63.
Definition BGE := Eval vm_compute in F3 0x5 .| 0x63.
Definition BLTU := Eval vm_compute in F3 0x6 .| 0x63.
Definition BGEU := Eval vm_compute in F3 0x7 .| 0x63.
Definition C_ADD := Eval vm_compute in C_OPC 0x2 0x4 .| u16 (Z.shiftl 1 12).
Definition C_ADDI := Eval vm_compute in C_OPC 0x1 0x0.
Definition C_ADDIW := Eval vm_compute in C_OPC 0x1 0x1.
Definition C_ADDW := Eval vm_compute in C_OPC 0x1 0x4 .| u16 (Z.shiftl 7 10) .| u16 (Z.shiftl 1 5).
Definition C_ADDI16SP := Eval vm_compute in C_OPC 0x1 0x3 .| u16 (Z.shiftl 2 7).
Definition C_AND := Eval vm_compute in C_OPC 0x1 0x4 .| u16 (Z.shiftl 3 10) .| u16 (Z.shiftl 3 5).
Definition C_ANDI := Eval vm_compute in C_OPC 0x1 0x4 .| u16 (Z.shiftl 2 10).
Definition C_BEQZ := Eval vm_compute in C_OPC 0x1 0x6.
Definition C_BNEZ := Eval vm_compute in C_OPC 0x1 0x7.
Definition C_EBREAK := Eval vm_compute in C_OPC 0x2 0x4 .| u16 (Z.shiftl 1 12).
Definition C_FLDSP := Eval vm_compute in C_OPC 0x2 0x1.
Definition C_FSD := Eval vm_compute in C_OPC 0x0 0x5.
Definition C_FSDSP := Eval vm_compute in C_OPC 0x2 0x5.
Definition C_J := Eval vm_compute in C_OPC 0x1 0x5.
Definition C_JR := Eval vm_compute in C_OPC 0x2 0x4.
Definition C_JALR := Eval vm_compute in C_OPC 0x2 0x4 .| u16 (Z.shiftl 1 12).
Definition C_LI := Eval vm_compute in C_OPC 0x1 0x2.
Definition C_LUI := Eval vm_compute in C_OPC 0x1 0x3.
Definition C_LDSP := Eval vm_compute in C_OPC 0x2 0x3.
Definition C_LWSP := Eval vm_compute in C_OPC 0x2 0x2.
Definition C_MV := Eval vm_compute in C_OPC 0x2 0x4.
Definition C_NOP := Eval vm_compute in C_OPC 0x1 0x0.
Definition C_SD := Eval vm_compute in C_OPC 0x0 0x7.
Definition C_SDSP := Eval vm_compute in C_OPC 0x2 0x7.
Definition C_SLLI := Eval vm_compute in C_OPC 0x2 0x0.
Definition C_OR := Eval vm_compute in C_OPC 0x1 0x4 .| u16 (Z.shiftl 3 10) .| u16 (Z.shiftl 2 5).
Definition C_SRAI := Eval vm_compute in C_OPC 0x1 0x4 .| u16 (Z.shiftl 1 10).
Definition C_SRLI := Eval vm_compute in C_OPC 0x1 0x4 .| u16 (Z.shiftl 0 10).
Definition C_SUB := Eval vm_compute in C_OPC 0x1 0x4 .| u16 (Z.shiftl 3 10) .| u16 (Z.shiftl 0 5).
Definition C_SW := Eval vm_compute in C_OPC 0x0 0x6.
Definition C_SWSP := Eval vm_compute in C_OPC 0x2 0x6.
Definition C_XOR := Eval vm_compute in C_OPC 0x1 0x4 .| u16 (Z.shiftl 3 10) .| u16 (Z.shiftl 1 5).
Definition CLZ := Eval vm_compute in F7 0x30 .| F3 0x1 .| 0x13.
Definition CTZ := Eval vm_compute in F7 0x30 .| F12 0x1 .| F3 0x1 .| 0x13.
Definition DIV := Eval vm_compute in F7 0x1 .| F3 0x4 .| 0x33.
Definition DIVU := Eval vm_compute in F7 0x1 .| F3 0x5 .| 0x33.
Definition EBREAK := Eval vm_compute in F12 0x1 .| F3 0x0 .| 0x73.
Definition FENCE := Eval vm_compute in F3 0x0 .| 0xf.
Definition FLD := Eval vm_compute in F3 0x3 .| 0x7.
Definition FSD := Eval vm_compute in F3 0x3 .| 0x27.
Definition JAL := 0x6f.
Definition JALR := Eval vm_compute in F3 0x0 .| 0x67.
Definition LD := Eval vm_compute in F3 0x3 .| 0x3.
Definition LUI := 0x37.
Definition LW := Eval vm_compute in F3 0x2 .| 0x3.
Definition MUL := Eval vm_compute in F7 0x1 .| F3 0x0 .| 0x33.
Definition MULH := Eval vm_compute in F7 0x1 .| F3 0x1 .| 0x33.
Definition MULHU := Eval vm_compute in F7 0x1 .| F3 0x3 .| 0x33.
Definition NOP := ADDI.
Definition OR := Eval vm_compute in F7 0x0 .| F3 0x6 .| 0x33.
Definition ORI := Eval vm_compute in F3 0x6 .| 0x13.
Definition REM := Eval vm_compute in F7 0x1 .| F3 0x6 .| 0x33.
Definition REMU := Eval vm_compute in F7 0x1 .| F3 0x7 .| 0x33.
Definition REV8 := Eval vm_compute in F12 0x6b8 .| F3 0x5 .| 0x13.
Definition ROL := Eval vm_compute in F7 0x30 .| F3 0x1 .| 0x33.
Definition ROR := Eval vm_compute in F7 0x30 .| F3 0x5 .| 0x33.
Definition RORI := Eval vm_compute in F7 0x30 .| F3 0x5 .| 0x13.
Definition SD := Eval vm_compute in F3 0x3 .| 0x23.
Definition SEXTB := Eval vm_compute in F7 0x30 .| F12 0x4 .| F3 0x1 .| 0x13.
Definition SEXTH := Eval vm_compute in F7 0x30 .| F12 0x5 .| F3 0x1 .| 0x13.
Definition SH1ADD := Eval vm_compute in F7 0x10 .| F3 0x2 .| 0x33.
Definition SH2ADD := Eval vm_compute in F7 0x10 .| F3 0x4 .| 0x33.
Definition SH3ADD := Eval vm_compute in F7 0x10 .| F3 0x6 .| 0x33.
Definition SLL := Eval vm_compute in F7 0x0 .| F3 0x1 .| 0x33.
Definition SLLI := Eval vm_compute in F3 0x1 .| 0x13.
Definition SLT := Eval vm_compute in F7 0x0 .| F3 0x2 .| 0x33.
Definition SLTI := Eval vm_compute in F3 0x2 .| 0x13.
Definition SLTU := Eval vm_compute in F7 0x0 .| F3 0x3 .| 0x33.
Definition SLTUI := Eval vm_compute in F3 0x3 .| 0x13.
Definition SRL := Eval vm_compute in F7 0x0 .| F3 0x5 .| 0x33.
Definition SRLI := Eval vm_compute in F3 0x5 .| 0x13.
Definition SRA := Eval vm_compute in F7 0x20 .| F3 0x5 .| 0x33.
Definition SRAI := Eval vm_compute in F7 0x20 .| F3 0x5 .| 0x13.
Definition SUB := Eval vm_compute in F7 0x20 .| F3 0x0 .| 0x33.
Definition SW := Eval vm_compute in F3 0x2 .| 0x23.
Definition XOR := Eval vm_compute in F7 0x0 .| F3 0x4 .| 0x33.
Definition XORI := Eval vm_compute in F3 0x4 .| 0x13.
Definition ZEXTH := Eval vm_compute in F7 0x4 .| F3 0x4 .| 0x3B.

(** sljitNativeRISCV_common.c:388-406 *)
Definition SIMM_MAX := 0x7ff.
Definition SIMM_MIN := -0x800.
Definition SIMM16_MAX := 0x1f.
Definition SIMM16_MIN := -0x20.
Definition BRANCH_MAX := 0xfff.
Definition BRANCH_MIN := -0x1000.
Definition BRANCH16_MAX := 0xff.
Definition BRANCH16_MIN := -0x100.
Definition JUMP_MAX := 0xfffff.
Definition JUMP_MIN := -0x100000.
Definition JUMP16_MAX := SIMM_MAX.
Definition JUMP16_MIN := SIMM_MIN.
Definition S32_MAX := 0x7ffff7ff.
Definition S32_MIN := -0x80000000.
Definition S44_MAX := 0x7fffffff7ff.
Definition S52_MAX := 0x7ffffffffffff.

(** sljitNativeRISCV_common.c:408-409 *)
Definition C_ADDI_W (word : Z) := C_ADDI .| u16 (Z.shiftl word 10).
Definition C_SUB_W (word : Z) := C_SUB .| u16 (Z.shiftl word 9).
(** sljitNativeRISCV_common.c:415-416 (RISC-V 64) *)
Definition BRANCH_LENGTH := Eval vm_compute in Z.shiftl (7 * 4) 7.
Definition BRANCH16_LENGTH := Eval vm_compute in C_BRN16 (13 * 2).

(** ** Build configuration (compile time or run time CPU features): RISCV_HAS_COMPRESSED(200),
    RISCV_HAS_BITMANIP_A(100), RISCV_HAS_BITMANIP_B(100), sljitNativeRISCV_common.c:30-148. *)
Record cfg := mkCfg { cC : bool; cA : bool; cB : bool }.

(** ** Emission.  An emitter is described by what it pushes and by how it treats the return codes:
    [FAIL_IF (x); y] is [x ;; y] (stop at the first failure), a call whose result is ignored is [x ;? y]. *)
Inductive em :=
| ENop
| E16 (w : Z)     (* push_inst16, sljitNativeRISCV_common.c:429-436 *)
| E32 (w : Z)     (* push_inst, sljitNativeRISCV_common.c:419-427 *)
| EThen (a b : em)
| EIgn (a b : em).
Notation "a ;; b" := (EThen a b) (at level 90, right associativity).
Notation "a ;? b" := (EIgn a b) (at level 90, right associativity).

(** What is pushed when no allocation fails: 16 bit and 32 bit instructions. *)
Inductive piece := P16 (w : Z) | P32 (w : Z).
Fixpoint flat (e : em) : list piece :=
  match e with
  | ENop => []
  | E16 w => [P16 w]
  | E32 w => [P32 w]
  | EThen a b | EIgn a b => flat a ++ flat b
  end.
(** The 16 bit units in the buffer (push_inst stores the low half first). *)
Definition units (p : piece) : list Z :=
  match p with
  | P16 w => [u16 w]
  | P32 w => [u16 w; u16 (Z.shiftr w 16)]
  end.
Definition units_of (l : list piece) : list Z := flat_map units l.
