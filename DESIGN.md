# Formal model of sljit in Rocq (Coq 8.16.1)

The source is `/repo` (zherczeg/sljit, pinned commit). Nothing in `/repo` is built or run; the
model is written by reading it. Every definition of the model carries a comment with the file and lines it models
(`RV:` is `sljitNativeRISCV_common.c`, `LIR:` is `sljitLir.c`).

## Layout

* `theories/Lib/` – bit vector helpers on `Z` (wrap-around, sign extension, fields), list helpers.
* `theories/<Area>/…` – model (`*Model.v`), independent specification (`*Spec.v`), proofs (`*Proofs.v`).
* `theories/Props/Cxx_*.v` – only property theorems (each `exact lemma`), examples that meet the
  hypotheses, `Print Assumptions`.

## Trusted base

* Coq's kernel (incl. `vm_compute`).
* No axioms are added. `Print Assumptions` under each theorem must print
  "Closed under the global context" (the list is re-checked at every milestone).
* The hand translation of C into Gallina (cited line by line) and the hand-written ISA semantics
  (RISC-V, ARM64, x86-64 subsets) transcribed from the architecture manuals.
* C integers: `sljit_sw/uw` are 64 bit two's complement; wrap-around is explicit in the model.
  C undefined behaviour is a distinct error outcome where it matters, or excluded by a stated hypothesis.

## Plan per property

| id | modelled | proof |
|----|----------|-------|
| C01–C04 | `sljitExecAllocatorCore.c`: word-addressed heap with real block headers and doubly linked free list | invariant by induction over operation histories, OS as arbitrary oracle |
| C05 | `sljitUtils.c` POSIX stack | invariant over resize sequences |
| C06 | `ensure_buf/ensure_abuf/reverse_buf/sljit_alloc_memory`, label/jump/constant records, on byte memory | separation invariant over histories, refinement to the compiler state of the linker model |
| C07, C33 | error field + allocation oracle for the modelled emit functions, `sljit_create_compiler`, `sljit_free_compiler` | invariant, for every allocation failure schedule |
| C08, C09, C29 | `sljitSerialize.c` on byte strings | round-trip theorem, safety on all inputs; failing parts as `_refuted` |
| C10–C12 | `sljitNativeRISCV_64.c` emitters + RV64GC instruction decoder/executor | for all 64 bit values |
| C13–C15, C30 | `reduce_code_size`, `detect_jump_type`, `load_addr_to_reg`, `sljit_generate_code` (RISC-V) | layout invariant by induction over the buffer, then execution |
| C16–C19, C21–C24 | RISC-V operator emission, memory operands and address cache | symbolic execution of emitted words against RV64 semantics vs. LIR specification |
| C20, C32 | `sljit_emit_enter`, `sljit_set_context`, `emit_stack_frame_release`, returns, indirect jumps and calls, fast calls | for all register counts, options, arguments and sizes; the body between entry and return is any state change that respects the declaration |
| C25 | label/jump lists | invariant |
| C26, C27 | `sljitNativeARM_64.c` `load_immediate`, `logical_imm` | for all 64 bit values vs. ARM pseudo-code `DecodeBitMasks` |
| C28 | `emit_x86_instruction` | decoder round trip for all operands |
| C34, C35 | x86-64 `sljit_emit_op2`, `sljit_emit_op2u`, `sljit_emit_op2r`, `get_jump_code` | execution of the emitted bytes against the LIR specification shared with RISC-V |
| C36 | x86-64 `sljit_emit_op1` | the same; processor features are parameters |
| C37 | x86-64 `sljit_emit_shift_into` | the same |
| C38-C41 | x86-64 labels, jumps, `sljit_emit_op_addr`, `reduce_code_size`, `sljit_generate_code`, `sljit_set_jump_addr` | for all programs: sizes estimated and reduced bound the sizes generated, by induction over the calls; execution of the final bytes on a processor with an instruction pointer |
| C43 | x86-64 `sljit_emit_op_flags`, `emit_cmov_generic`, `sljit_emit_select` | execution of the emitted bytes; composed with C34/C35 for comparisons |
| C44 | x86-64 `sljit_emit_op0` (multiplications and divisions) | the same; MUL/DIV of the processor fault when the quotient does not fit |
| C42 | all of the x86-64 model above, `sljit_emit_ijump` to a register | simulation: LIR programs with their own semantics (`X86Lir.v`) against the generated bytes in memory, for any number of steps |
| C45 | x86-64 `sljit_emit_const`, `sljit_set_const`, `sljit_set_jump_addr` on whole programs | code with other constants is the code of the changed emit calls (`X86LinkHist`); histories by induction; simulation as in C42 of the changed program |
| C46 | x86-64 `sljit_emit_enter`, `sljit_set_context`, `emit_stack_frame_release`, `sljit_emit_return*`, `call_with_args`, `sljit_emit_call`, `sljit_emit_icall`, `sljit_emit_ijump`, fast calls, return address (`sljitNativeX86_64.c:456-1020`, `sljitNativeX86_common.c:3020-3068, 3559-3594`) | specification from the calling conventions; pushes, pops and moves by induction on the lists of registers, the probing loop by induction on the number of pages, argument moves by enumeration of the argument types |
| C47 | LoongArch64 `load_immediate`, `emit_const`, `sljit_emit_const`, `sljit_set_const` | execution of the emitted words on a processor model; bit field arithmetic |
| C48 | LoongArch64 `detect_jump_type`, `load_addr_to_reg`, the patching in `sljit_generate_code`, `reduce_code_size` (fixed targets), `get_jump_instruction`, `sljit_emit_cmp` (branch words), `sljit_set_jump_addr`, `mov_addr_get_length` | the same; case analysis of the forms with the assertions of the code as hypotheses for label targets, none for fixed targets |
| C49 | MIPS64 `load_immediate` with its normalising loops, `emit_const`, `sljit_emit_const`, `sljit_set_const` | execution on a processor model; the loops by an invariant (the value times a power of two), no case split on the position of bits |
| C50 | MIPS64 `detect_jump_type`, `invert_branch`, `load_addr_to_reg`, the patching in `sljit_generate_code`, branch words of `sljit_emit_jump` and `sljit_emit_cmp`, `sljit_set_jump_addr`, `mov_addr_get_length` | a processor model with delay slots; commutation of the moved instruction with the branch; case analysis of the forms |
| C51 | PowerPC64 `load_immediate`, `emit_const`, `sljit_emit_const`, `sljit_set_const` | execution on a processor model; leading zeros by a lemma about `clz`, no case split on positions |
| C52 | PowerPC64 `detect_jump_type`, `generate_jump_or_mov_addr`, `reduce_code_size` (jumps), `get_bo_bi_flags`, `sljit_emit_jump`, `sljit_emit_ijump` (register), `sljit_set_jump_addr`, `mov_addr_get_length` | processor model with condition, count and link register; case analysis of the forms; arithmetic for the space |
| C53 | ARM64 `sljit_emit_const`, `sljit_set_const`, `sljit_set_jump_addr`, `mov_addr_get_length`, `generate_jump_or_mov_addr`, `reduce_code_size` (addresses) | execution on a processor model; page arithmetic modulo 2^64 |
| C54 | ARM64 `detect_jump_type`, `generate_jump_or_mov_addr`, `reduce_code_size` (jumps), `sljit_emit_jump`, `emit_cmp_to0`, `sljit_emit_ijump` (register) | case analysis of the forms; each form = branch in front + load of the address + branch |
| C55 | ARM64 `get_cc`, `sljit_emit_fop1_cmp` (words after FCMP) | arithmetic of the flags of AddWithCarry for any width |
| C56 | ARM64 `emit_op_imm` (all two-operand operations), `sljit_emit_op2`, `sljit_emit_op2u`, `sljit_emit_op2r` (registers and immediates) | words decoded for all registers and fields; results by arithmetic and bitwise reasoning; composed with C54/C55 for jumps |
| C57 | ARM64 `emit_op_imm` (one operand), `sljit_emit_op1`, `sljit_emit_op0` | as C56; induction for bit and byte reversal |
| C58 | ARM64 `emit_op_mem`, memory operands of `sljit_emit_op1`, `sljit_emit_op2`, `sljit_emit_op2u`, `sljit_emit_op2r` | words decoded for all fields; address arithmetic for each encoding; composed with C56/C57 |
| C59 | ARM64 `sljit_emit_shift_into` | as C56; values by arithmetic on both parts; refutation by a computed run |
| C60 | ARM64 `sljit_emit_enter`, `emit_stack_frame_release`, `sljit_emit_return_void` | words decoded for all fields; induction over the register loops gives disjoint slots; stores then loads of the slots; frame arithmetic for each size class |
| C61 | ARM64 `sljit_emit_op_flags`, `sljit_emit_select` | words decoded for all fields; the condition table of C55; composed with C53, C56 and C58 |
| C62 | ARM64 `sljit_emit_return_to` (not immediate), `SLJIT_GET_RETURN_ADDRESS`, `SLJIT_FAST_ENTER`, `SLJIT_FAST_RETURN` | the two decoders accept different words, so runs of C58 are runs of C60; the source is in a register the release of the frame keeps; composed with C58 and C60 |
| C63 | ARM64 `sljit_emit_icall` (not immediate), with and without `SLJIT_CALL_RETURN`; the code of `sljit_emit_call` with `SLJIT_CALL_RETURN` before its jump | composed with C58, C60 and the source of C62; the release of the frame gives x30 its value at the entry |
| C64 | `sljit_emit_cmp` and `sljit_emit_op2cmpz` on ARM64, `emit_cmp_to0` | straight code contains no branch (the decoders accept different words), so runs of C58 are executions of code in memory; composed with C58 (operation and flags) and C54 (jump) |
| C65 | `simd_get_imm` and `sljit_emit_simd_replicate` (integer, register or immediate) on ARM64 | repeating a value is multiplication by a constant, which the halving steps and the ten immediate forms keep; the words are decoded for all immediates and registers by computation |

Floating point, SIMD and atomic emitters, the verbose printer, and the OS specific allocators other than
the common core are not modelled (floating point arithmetic itself is done by the CPU; sljit only selects
the opcode).

## RISC-V 64 model (`theories/Rv`)

* `RvIsa.v` – RV64IMC + Zba/Zbb subset: decoder of 16 and 32 bit encodings and instruction semantics, transcribed from the ISA manual.
  Instruction memory is a function from addresses to halfwords, separate from the data memory: stores of the generated code into
  itself are outside the model; rewriting code (`sljit_set_const`, `sljit_set_jump_addr`) is a function on the list of units.
* `RvEnc.v` – the opcode constants and field macros of `sljitNativeRISCV_common.c`, `push_inst`/`push_inst16`, and `em`, the emission language:
  which units are pushed and how return codes are treated. CPU features (compressed, Zba, Zbb) are a parameter `cfg`.
* `RvImm.v` – `load_immediate` family, `emit_const`, `sljit_set_jump_addr`, `sljit_emit_const`, `sljit_set_const`.
* `RvAddr.v` – `load_addr_to_reg` with its assertions.
* `RvRun.v` – straight-line execution and one execution rule per instruction form; `run_steps` links it to the machine.
* `RvLink.v` – labels, jumps, constants and buffers of the compiler, `reduce_code_size`, `detect_jump_type`, `mov_addr_get_length`,
  `load_addr_to_reg`, `sljit_generate_code`; `RvLinkApi.v` – the emit calls as a list of `call`s. `RvLinkSpec.v` is the specification.
  `RvLinkReduce/Est/Pick/Fit` bound the size estimates, `RvLinkGen/Lay/Loop/Map/Patch` follow the copy loop, `RvLinkExec` executes
  each patched jump, `RvLinkThm/Top` give the property lemmas, `RvLinkBad` the counterexample programs.
* `RvMem.v` – memory operands: `push_mem_inst`, `getput_arg_fast`, `can_cache`, `getput_arg`, `emit_op_mem` with the address cache.
  `RvOp.v` – `emit_single_op`, `emit_op`, `sljit_emit_op1/op2/op2u/op2r/shift_into`. `RvCond.v` – `get_jump_instruction`, the condition part of
  `sljit_emit_jump`, `sljit_emit_cmp`, `sljit_emit_op_flags`, `sljit_emit_select`, `sljit_emit_op0`.
* `RvFrame.v` – function entry and return, indirect jumps and calls, fast calls; `RvFrameSpec.v` states the calling convention in hardware
  registers (`entered`, `body`, `left_frame`), `RvFrameProofs/Top/Ret` are the proofs. Floating point registers are 64 bit values that are only
  saved, restored and passed; argument lists with more than 8 integer or floating point arguments do not exist (at most 4 arguments).
* `RvLir.v`, `RvCondSpec.v` – the specification: results, flags, addresses, conditions from the operand values, transcribed from `sljitLir.h`.
* `ok e s P` (`RvRunMem.v`): the code emitted by `e`, started in `s`, runs to its end in a state satisfying `P`. `RvOpLib.v` has one rule per
  instruction form, `RvReach.v` extends it to code with forward branches, `RvSo*.v` prove each operation, `RvEmitOp*.v` the operand loading,
  caching and storing around it, `RvCondProofs/RvCmp/RvSelect/RvOp0` conditions, comparisons, selections and `sljit_emit_op0`, `RvOpTop/RvCondTop`
  place them into generated programs, `RvOpBad/RvCondBad` hold the counterexamples.
* Registers are numbered as in sljit (`reg_map` of the source, extended by x3 and x4, which sljit never uses, so that statements about
  "all other registers" cover the whole register file).
* Not modelled: floating point and vector instructions, cache flushing, write protection switching.

## Compiler state model (`theories/Comp`)

* `CpMem` is byte memory with words (little endian, 8 bytes) and a predicate "the memory contains these pieces, which do not overlap".
  `CpState` models the compiler structure: its scalar members are a record (`cst`), everything behind pointers (fragments, label, jump and
  constant records with their next pointers) is in memory. `malloc` takes its results from an arbitrary schedule (0 is NULL); the new blocks
  (4096 bytes, the size the compiler asks for; `sljit_create_compiler`'s own block is only an address) do not overlap each other.
* The emitters appear as trees of `push_inst`/`push_inst16` with the way the C code treats their results (`;;` returns on failure, `;?`
  ignores the result), the same trees as in the RISC-V model, so an allocation failure can be anywhere inside an emitter.
* `CpCore/CpRep/CpCalls/CpHist` prove that the memory represents the state `emits` of the linker model after any history, `CpView` that
  reading it back after `reverse_buf` gives that state, and that freeing follows the chains correctly. `CpErr` follows the error member.
  `CpPieces` is about the pieces handed out when their users write anything into them.
* `CpSer` models `sljitSerialize.c`: the serialized block is a new object (bytes, written or not; a store outside of it is an error outcome),
  the buffer given to `sljit_deserialize_compiler` is any byte string, reading past its end, copying past the end of a fragment and storing past the
  end of `label_list` are undefined behaviour. `CpSerImg` is the file format (an image and its bytes) with a parser without memory,
  `CpSerParse` the round trip of the format including every truncation, `CpSerW` that serializing writes the image of the compiler, `CpSerR` that
  deserializing any bytes does what the parser says, `CpSerT` and `CpSerA` the theorems. `SLJIT_MALLOC(0)` for `label_list` (no labels) counts as any
  other allocation. The options argument only selects whether debug information is written (`option debug`).
* Final addresses which `sljit_generate_code` stores in the label, jump and constant records are values of the linker model, not memory writes.

## ARM64 model (`theories/Arm`)

- `ArmIsa.v` is the processor, written from the Arm Architecture Reference Manual: state (31 registers, SP, NZCV, byte memory), `decode` from 32 bit words to
  instructions (move wide, logical/add immediate, bit field moves, EXTR, logical/add/carry register, conditional select, two/one/three source data processing,
  loads and stores), `exec`, `run`, and `decode_bit_masks` (the pseudo-code DecodeBitMasks, both results).
- `ArmEnc.v`: register map and opcode constants of `sljitNativeARM_64.c`; `ArmImm.v`: `logical_imm` and `load_immediate`, statement by statement. A failed
  `SLJIT_ASSERT` is the result `None`. A list of words stands for the calls of `push_inst`; its failures are the subject of C06/C07.
- `ArmImmProofs.v`, `ArmLogImm.v`, `ArmLoadImm.v`: the loops that find the period and the run of ones are followed with invariants over bit positions; completeness
  enumerates the (N, imms, immr) triples, 2 * 64 * 64, and evaluates `logical_imm` on the decoded constant.

## x86-64 model (`theories/X86`)

- `X86Isa.v` is the processor, written from the Intel manual: 16 registers, CF/ZF/SF/OF (each may be undefined), byte memory; `decode` from bytes (prefixes 66/F2/F3, REX,
  one byte and 0F opcodes, ModR/M, SIB, displacements, immediates), `exec`, `runs` (the bytes followed by anything take one state to another, with forward
  branches). Assumptions: 64 bit mode; RIP-relative addresses and AH..BH are outside of the subset (decoding fails); every 32 bit register result,
  also of a shift by zero and of a not taken CMOV, clears the upper half; where the manual leaves a register undefined (BSF/BSR of zero) the value is a parameter `u`.
- `X86Emit.v` is `emit_x86_instruction`, `emit_load_imm64`, `emit_do_imm32` with the register maps of both calling conventions (`w`: `_WIN64`); a failed assertion, a table read
  out of bounds or a wrong length gives `None`. VEX encodings are excluded by `flags_ok`.
- `X86Op.v` models the integer operators of `sljitNativeX86_common.c` byte by byte. CPU features (LZCNT, TZCNT, CMOV) are parameters.
- `X86Spec.v`/`X86OpSpec.v` are the specifications (operands, addresses, what may change); `X86Enc`..`X86EncTop` prove the encoder by finite enumeration of registers, flags and
  REX bits combined with symbolic displacements and immediates; `X86Ins`, `X86Ins2` give one lemma per instruction, `X86Mov`, `X86Bin`, ... compose them.
- `X86Misc.v` models `sljit_emit_op_flags`, `sljit_emit_select` with and without CMOV, and the multiplications and divisions of `sljit_emit_op0` (not the
  breakpoint, NOP, ENDBR and frame skipping operations); `X86MiscP`, `X86Op0P` are the proofs, `X86C43.v` has the specifications.
- `X86Link.v` models the records and the generator: buffer items, labels, jumps, constants, `reduce_code_size`, the near and far forms of jumps, `sljit_emit_op_addr` code and
  its shortening, alignment, patching, `sljit_set_jump_addr`; `rtop` is the end of the largest range written. Instructions are arbitrary byte strings. The code address,
  the executable offset and the calling convention are parameters. Not modelled: allocation failures (C07), and sizes of 2 GB and more. Signed
  differences are taken modulo 2^64 (`sdiff`; the code has signed overflow there, see finding 30).
- `X86LinkSpec.v` is the specification: instruction pointer, control transfer instructions, what calls must lead to (`call_laid`); `X86LinkOps` brings call sequences to a normal form,
  `X86LinkRed` proves the reduction, `X86LinkGen`/`X86LinkFit` the generator and that it fits the reduced sizes, `X86LinkRun` executes the
  forms, `X86LinkTop`/`X86LinkAll` compose.
- `X86Lir.v` gives a meaning to programs of LIR calls without reference to a processor (registers, memory, known conditions; the unspecified upper bits of 32 bit results and
  conditions that were not asked for are left open) and says what compiling such a program means; `X86Fetch.v` relates running a list of bytes to running it from memory
  (decoding looks at no more than 14 bytes); `X86Prog.v` proves the simulation; `X86C42.v` is an instance, a loop. Data stores do not change the code.
- `X86Const.v` models constants; `X86ConstP` proves the emission, `X86LinkHist` that writing a constant or a rewritable jump into linked code gives the linked code of changed calls,
  `X86Hist` lifts this to programs (the changes are defined on programs in `X86Lir.v`); `X86C45.v` is an instance. `sljit_set_jump_addr` to addresses which are not labels is in C41.
- `X86Frame.v` models function entry, return and calls, with the code for Windows (page probing, home area, argument registers). `X86FrameSpec.v` is the specification: registers preserved
  by calls, argument registers, what the body of a function may change (`xbody`), what holds after leaving it (`xrestored`); the processor gets PUSH, POP and the stack
  forms of CALL and RET (`X86LinkSpec.v`). `X86FrameBase` .. `X86FrameTop` prove the parts, `X86C46.v` the function level statements and an instance. Not modelled: moves and
  saves of floating point registers (only Windows has them; the model gives `None`), `SLJIT_ENTER_USE_VEX`, and the simulation of a program across its own calls (C42 does not contain calls).
- `theories/Imm` holds the back ends of which only loading of immediates, constants, jumps and addresses are modelled. `ImmLib.v`: registers, execution, bit fields. LoongArch64:
  `LaIsa.v` (processor, from the LoongArch reference manual), `LaModel.v` (the code), `LaSpec.v` (what is expected), `LaProofs.v`, `LaJump.v`, `LaRefuted.v`. The walk over the
  records in `sljit_generate_code` is not modelled: jumps are taken one at a time, with the address of the jump and of the target given.
  MIPS64: `MsIsa.v` (processor with delay slots, from the MIPS64 manual, before release 6 and release 6), `MsModel.v`, `MsSpec.v`, `MsProofs.v`, `MsJump.v`, `MsRefuted.v`. The instruction
  before a jump is a parameter (any instruction of the processor model which is not a branch and does not write a register of the condition, which is what `delay_slot` records).
  PowerPC64: `PpIsa.v` (processor, from the Power ISA: bits of the condition register, CTR, LR and CA are further registers), `PpModel.v`, `PpSpec.v`, `PpProofs.v`, `PpJump.v`, `PpRefuted.v`.
  A jump after `SLJIT_CARRY` may change register 10, the carry and the integer flags (as the code does). ELFv1 function descriptors (`SLJIT_INDIRECT_CALL`) are not modelled.
  ARM64 jumps: `Arm/ArmBr.v` (branches, ADR, ADRP, CCMP of the processor), `Arm/ArmJump.v` (model), `Arm/ArmJumpSpec.v`, `Arm/ArmJumpProofs.v`, `Arm/ArmCondProofs.v`. FCMP itself is its result flags
  (`fcmp_flags`, from the manual); there are no floating point registers in this model.
  ARM64 operations: `Arm/ArmOp.v` (model), `Arm/ArmOpSpec.v` (specification from sljitLir.h), `Arm/ArmOpDec.v` (decoding), `Arm/ArmOpProofs.v`, `Arm/ArmOpImm.v`, `Arm/ArmOp1.v`.
  ARM64 memory operands and double shifts: `Arm/ArmMem.v` (model), `Arm/ArmMemSpec.v` (specification), `Arm/ArmMemProofs.v`, `Arm/ArmMemOps.v`, `Arm/ArmMemOp1.v`, `Arm/ArmMemOp2.v`, `Arm/ArmShift.v`. Not modelled: `sljit_emit_mem`, `sljit_emit_mem_update`, floating point accesses.
  ARM64 frames: `Arm/ArmPair.v` (instructions for pairs, floating point registers and RET, as specification of the processor), `Arm/ArmFrame.v` (model), `Arm/ArmFrameSpec.v` (specification), `Arm/ArmFrameDec.v`, `Arm/ArmFrameRun.v`, `Arm/ArmFrameMem.v`, `Arm/ArmFrameSeg.v`, `Arm/ArmFrameProofs.v`. Not modelled: stack probing on _WIN32, the source operand of `sljit_emit_return_to` (see C62); the counts of floating point registers are those after `update_float_register_count`.
  ARM64 conditions as values: `Arm/ArmCsel.v` (model), `Arm/ArmCselSpec.v` (specification), `Arm/ArmCselProofs.v`. Not modelled: `sljit_emit_fselect`; the result of `emit_op_imm`, which sljit_emit_op_flags ignores, is passed on (it differs only when memory runs out).
  ARM64 other ways out of a function: `Arm/ArmRet.v` (model), `Arm/ArmRetSpec.v` (specification), `Arm/ArmRetProofs.v`. Not modelled: immediate sources of `sljit_emit_return_to`, the prefetch operations.
  ARM64 calls: `Arm/ArmTail.v` (model), `Arm/ArmTailSpec.v` (specification), `Arm/ArmTailProofs.v`. Not modelled: immediate sources of `sljit_emit_icall`; the argument types are not used by the backend.
  ARM64 comparisons with a jump: `Arm/ArmCmp.v` (model), `Arm/ArmCmpSpec.v` (specification), `Arm/ArmCmpProofs.v`. Not modelled: `sljit_emit_fcmp` (the conditions after FCMP are C55).
  ARM64 vector registers: `Arm/ArmVec.v` (MOVI, MVNI and DUP from a general register), `Arm/ArmSimd.v` (model), `Arm/ArmSimdSpec.v` (specification), `Arm/ArmSimdProofs.v`, `Arm/ArmSimdRep.v`. Not modelled: floating point elements, a source in memory, the other vector operations.

## Findings (differences between the documented behaviour and the code)

Each is a `..._refuted` theorem on the faithful model as soon as the part is modelled.

1. `sljit_malloc_exec` with sizes near 2^64 wraps around (`C01_huge_size_refuted`).
2. RISC-V 64, compressed: a conditional branch to an absolute target exactly 256 bytes from its end gets a wrong offset
   (`C13_absolute_branch_refuted`); proved impossible for label targets.
3. RISC-V: a label after the last instruction gets an address without the executable offset (`C14_last_label_refuted`).
4. RISC-V: a conditional branch shrunk to no own code as last instruction writes one unit past the memory (`C14_last_branch_refuted`).
5. RISC-V: addresses 0x7fffffffff800..0x7ffffffffffff are loaded wrongly (PATCH_ABS52 range, `C15_address_refuted`).
6. RISC-V: `executable_size` is twice the real size (`C30_size_refuted`).
7. RISC-V, compressed: ADD/SUB with the overflow flag of two immediates, one of them zero: the overflow flag (and with it a following
   condition) is wrong, because `c.mv` with the zero register is another instruction (`C16_overflow_refuted`).
8. RISC-V: ADD with the carry flag and a zero immediate does not compute the flag when dst = src1 (`C17_carry_refuted`).
9. RISC-V with Zbb: MOV_S8/U16/S16 from a register to memory change the source register, which may even be the base of the
   destination (`C19_mov_refuted`, `C19_mov_address_refuted`).
10. RISC-V 64: 32 bit comparison (`sljit_emit_cmp`) with a memory operand zero extends it, with an immediate does not truncate it
    (`C21_cmp32_refuted`, `C21_cmp32_imm_refuted`).
11. RISC-V 64: 32 bit `sljit_emit_select` from memory zero extends (`C22_select32_refuted`).
12. RISC-V: `sljit_emit_select` with dst = src2 being the base register of a memory operand with a large offset or an index
    overwrites the base before using it (`C22_base_refuted`).
13. RISC-V 64 without Zbb: SLJIT_REV | SLJIT_32 into a register zero extends; a following 32 bit comparison is wrong
    (`C23_rev_refuted`, `C23_rev_compose_refuted`).
14. RISC-V: `sljit_emit_shift_into` with a zero immediate emits nothing although dst differs from src1 (`C24_zero_refuted`).
15. RISC-V 64: `load_immediate` ignores the result of its nested call (sljitNativeRISCV_64.c:104): if exactly that allocation fails, the
    emit function returns success (the error is recorded, later calls fail; `C07_reported_refuted`).
16. `sljit_serialize_compiler` does not store the numbers of vector registers (vscratches, vsaveds; `C08_vector_refuted`): argument checks of the
    new compiler reject valid vector registers.
17. `sljit_serialize_compiler` leaves the padding after fragments uninitialised: heap contents leak into the buffer, and two serializations of the same
    compiler differ (`C09_bytes_refuted`).
18. `sljit_deserialize_compiler` compares neither CPU nor word size (`C29_cpu_refuted`).
19. `sljit_deserialize_compiler` copies a fragment longer than 4080 bytes past the end of the new fragment, and wraps around in the size checks of
    fragments, labels, jumps and constants (`C29_bounds_refuted`).
20. Without argument checks `sljit_deserialize_compiler` accepts a buffer truncated inside of its debug information (`C29_truncated_debug_refuted`).
21. ARM64: `logical_imm` returns the field 0 for the representable constants 0x0000000100000001 (64 bit) and 1 (32 bit), which its callers take for "not
    representable" (`C27_complete_refuted`); only a missed optimisation, the callers load the constant otherwise.
22. x86-64: ADD, SUB, AND, ... with a register destination and a second source whose address uses this register (and a different first source):
    the first source is moved to the destination before the address is computed (`C34_op2_refuted`, `C35_refuted`; `emit_cum_binary`, `emit_non_cum_binary`,
    sljitNativeX86_common.c:2111-2121, 2185-2195).
23. x86-64: MUL with the same operands leaves the product in a temporary register, the destination is unchanged (`C34_op2_refuted`; `emit_mul`, 2305-2316).
24. x86-64: a shift by an amount in memory at a displacement that does not fit in 32 bits, when the destination is not SLJIT_R3 but a memory operand or the amount depends
    on it, or without a destination: loading the displacement overwrites TMP_REG2, where rcx was saved, so SLJIT_R3 is destroyed (`C34_op2_refuted`; `emit_shift`).
25. x86-64: MOV32_S8, MOV32_S16 and REV32_S16 (unless source and destination are the same register) sign extend to 64 bits although x86-64 defines
    SLJIT_UPPER_BITS_ZERO_EXTENDED, `32 bit operations clears the upper bits of destination registers` (`C36_upper_refuted`; `emit_mov_byte`, `emit_mov_half`).
26. x86-64: `sljit_emit_shift_into` with a zero immediate emits nothing although dst differs from src1 (as finding 14); with an amount in memory addressed through
    dst, src1 is moved to dst before the address is used; with the amount in dst and src1 = SLJIT_R3, rcx is overwritten by the amount before src1 is moved;
    rotations inherit finding 24 (`C37_into_refuted`; sljitNativeX86_common.c:2861-2862, 2926-2991).
27. x86-64: a label directly after `sljit_emit_op_addr`: `reduce_code_size` handles the label before the address record in front of it, so the label is taken to be
    closer than it is, jumps are estimated too short and the code exceeds the allocated memory (`C38_memory_refuted`; sljitNativeX86_common.c:812-912).
28. x86-64: `sljit_generate_code` copies the ten byte instruction of `sljit_emit_op_addr` before it is shortened to 5..7 bytes; at the end of the code up to 5 bytes
    after the allocated memory are overwritten (`C38_memory_refuted`; sljitNativeX86_common.c:729-760).
29. x86-64: `detect_near_jump_type` compares with HALFWORD_MAX + 6 and HALFWORD_MIN + 5 whatever the length of the jump: an unconditional jump to an absolute address
    exactly 2^31 after its end and a conditional jump to one exactly 2^31 + 1 before its end get a wrong displacement (`C39_jump_refuted`; 695).
30. x86-64: `generate_mov_addr_code` tests the distance from the end of the ten byte instruction, but uses it from the end of the 7 byte LEA: for absolute addresses
    above 4 GB at three distances the displacement overflows (`C40_addr_refuted`; sljitNativeX86_64.c:414-428). The difference is computed with signed
    overflow for addresses more than 2^63 apart; the debug assertion at sljitNativeX86_common.c:750 fails for 32 bit addresses above 2^31.
31. x86-64: 32 bit `sljit_emit_op_flags` with OR and no flag requested on a register with a byte form ORs the byte only, and the upper half of the register is not cleared
    (`SLJIT_UPPER_BITS_ZERO_EXTENDED`); the same for `sljit_emit_select` with SLJIT_32 without CMOV when the destination already holds the selected source
    (`C43_upper_refuted`; sljitNativeX86_common.c:3639-3654, 1388-1407).
32. x86-64, Windows: SLJIT_DIV_U32/S32 save and restore SLJIT_R1 with 32 bit moves, so its upper half is lost; the API says that SLJIT_R1 keeps its value
    (`C44_keeps_refuted`; sljitNativeX86_common.c:1435-1540).
33. LoongArch64: the relative form of far jumps (`PCADDU12I` + `JIRL`, targets more than 128 MB and less than 2 GB away) lands 4096 bytes after the target whenever bit 11 of the
    difference is set: `load_addr_to_reg` adds 0x1000 to the difference as for a sign extended 12 bit offset, but the offset of JIRL has 16 bits and is not sign extended from bit 11
    (`C48_jump_refuted`, `C48_jump_wrong`; sljitNativeLOONGARCH_64.c:545-562).
34. LoongArch64: `S32_MAX` is 0x7fffffff (0x7ffff7ff on RISC-V): for an address 2^31 - 2048 .. 2^31 - 1 bytes ahead the rounding overflows and the address loaded by
    `sljit_emit_op_addr` is 2^32 too small (`C48_address_refuted`; 496-585).
35. LoongArch64 and MIPS: a label after the last instruction gets an address without the executable offset, as finding 3 (sljitNativeLOONGARCH_64.c:777, sljitNativeMIPS_common.c:813; not modelled).
36. MIPS: `sljit_emit_const` into a register directly followed by a near jump: the last word of the constant is movable, so it goes to the delay slot of the jump, and `sljit_set_const`
    overwrites the offset of the branch instead (`C49_set_const_refuted`; sljitNativeMIPS_common.c:4394-4441, 3464-3466, 536-566, 4486-4526).
37. MIPS: `TMP_REG3` is register 31. A load or store at an absolute address (base register 31, movable) directly before a near SLJIT_FAST_CALL is moved to the delay slot of BAL or JAL,
    where register 31 is the return address already (`C50_jump_refuted`; sljitNativeMIPS_common.c:1488-1500, 536-603).
38. MIPS: the 256 MB region checks of `detect_jump_type` use the address of the code without the executable offset (`C50_offset_refuted`), and for conditional jumps an address 4 bytes after the
    delay slot of the J instruction (`C50_region_refuted`); sljitNativeMIPS_common.c:569-603.
39. MIPS release 6: BC1EQZ and BC1NEZ are emitted without BRANCH_LENGTH (sljitNativeMIPS_common.c:3371-3378): conditional floating point jumps in the full form are always taken
    (`C50_float_wrong`), in the shorter forms `inst[-1] -= 4` makes another instruction of the branch.
40. PowerPC 64 (ELFv2): `reduce_code_size` ignores IS_CALL, a call to a near label or a low fixed address keeps one word but `detect_jump_type` emits 4 to 7
    (`C52_label_space_refuted`, `C52_jump_space_refuted`; sljitNativePPC_common.c:345-398, 555-583); conditional jumps to fixed targets from 0x10000 to 0x01ffffff keep one word but may
    need two (`C52_cond_space_wrong`; 371-378). The generated code is then larger than the memory allocated for it.
41. PowerPC: the absolute form of a conditional jump is chosen for targets up to 0xffff (sljitNativePPC_common.c:360-363), but the 16 bit field of BC is sign extended: a conditional jump to a
    fixed address from 0x8000 to 0xffff goes to 0xffffffffffff8000 and above (`C52_jump_refuted`, `C52_jump_wrong`).
42. ARM64: nothing false was found in the constants, addresses, jumps and conditions. The debug assertion `addr <= 0xfffff000` at sljitNativeARM_64.c:352 is on the distance from the page of
    the jump, which may be up to 0xfff larger than the distance checked by `detect_jump_type`; it can fail in debug builds although the code is right (`C54_jump_exact` covers these distances).
43. ARM64 `sljit_emit_shift_into` with an immediate count which is zero modulo the width returns without generating code (sljitNativeARM_64.c:1831-1832), so a destination other than the first source keeps its old value instead of getting the first source (`C59_zero_refuted`; the same as findings 14 on RISC-V and 26 on x86-64).
44. ARM64 `emit_op_mem` computes `argw + 0x100` on a signed word (sljitNativeARM_64.c:1221); for an offset near the largest one this overflows, which is undefined in C. The model uses the mathematical sum, with which the code is right.
45. ARM64 `sljit_emit_select` with SLJIT_32 and a source in memory loads eight bytes (WORD_SIZE at sljitNativeARM_64.c:2653), four more than the operand has; the result is right
    (`C61_select`), but an operand at the end of a mapped area makes the generated code fault (`C61_select32_load` shows the words).
