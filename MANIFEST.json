{
 "claims": [
  {
   "property": "C01",
   "status": "proved",
   "theorems": [
    "C01_no_undefined_behaviour",
    "C01_live_blocks_mapped_aligned",
    "C01_live_blocks_disjoint",
    "C01_huge_size_refuted"
   ],
   "note": "For every history of calls with sizes below 2^62; C01_huge_size_refuted shows the bound is needed (sizes near 2^64 wrap)."
  },
  {
   "property": "C02",
   "status": "proved",
   "theorems": [
    "C02_free_space_is_reusable"
   ],
   "note": "An allocation may keep up to 64 bytes more than its footprint (the code never leaves a free rest of at most 64 bytes), which the gap hypothesis accounts for."
  },
  {
   "property": "C03",
   "status": "proved",
   "theorems": [
    "C03_counters",
    "C03_free_unused_releases",
    "C03_free_policy"
   ],
   "note": ""
  },
  {
   "property": "C04",
   "status": "proved",
   "theorems": [
    "C04_content_preserved"
   ],
   "note": ""
  },
  {
   "property": "C05",
   "status": "proved",
   "theorems": [
    "C05_fields",
    "C05_usable_area_accessible",
    "C05_resize_atomic",
    "C05_resize_keeps_content",
    "C05_resize_local",
    "C05_free_exact",
    "C05_allocate"
   ],
   "note": "All four build variants (simple malloc, POSIX with and without madvise, Windows); the OS is an oracle."
  },
  {
   "property": "C10",
   "status": "proved",
   "theorems": [
    "C10_immediate_exact"
   ],
   "note": "Destination any register but the zero register and SLJIT_SP (never passed by the code); executed on the RV64 machine model."
  },
  {
   "property": "C11",
   "status": "proved",
   "theorems": [
    "C11_constant_rewrite",
    "C11_values"
   ],
   "note": "Code of sljit_emit_const up to the optional final store to memory."
  },
  {
   "property": "C12",
   "status": "proved",
   "theorems": [
    "C12_jump_rewrite"
   ],
   "note": "Even 64 bit targets."
  },
  {
   "property": "C13",
   "status": "proved",
   "theorems": [
    "C13_program",
    "C13_label_jumps",
    "C13_absolute_branch_refuted"
   ],
   "note": "For every call sequence. Excluded and refuted: compressed branch to an absolute target exactly 256 bytes away, targets in the range of C15_address_refuted, executable offset with a label as last thing (C14_last_label_refuted)."
  },
  {
   "property": "C14",
   "status": "proved",
   "theorems": [
    "C14_memory",
    "C14_labels",
    "C14_buffers",
    "C14_last_branch_refuted",
    "C14_last_label_refuted"
   ],
   "note": "Excluded and refuted: conditional branch as very last instruction (one unit written past the end), label as last thing with an executable offset."
  },
  {
   "property": "C15",
   "status": "proved",
   "theorems": [
    "C15_address",
    "C15_address_refuted"
   ],
   "note": "Addresses 0x7fffffffff800..0x7ffffffffffff are excluded and refuted."
  },
  {
   "property": "C25",
   "status": "proved",
   "theorems": [
    "C25_shared",
    "C25_distinct",
    "C25_ordered",
    "C25_targets"
   ],
   "note": ""
  },
  {
   "property": "C30",
   "status": "partial",
   "theorems": [
    "C30_size_partial",
    "C30_size_refuted"
   ],
   "note": "False of the code: the reported size is twice the real one; proved: exactly twice, hence never too small."
  },
  {
   "property": "C16",
   "status": "proved",
   "theorems": [
    "C16_op2",
    "C16_mov",
    "C16_op1",
    "C16_muladd",
    "C16_overflow_refuted"
   ],
   "note": "All operand kinds, aliasings, lengths and extensions. Excluded and refuted: ADD/SUB with overflow flag on two immediates, one zero, with compressed instructions (C16_overflow_refuted); carry flag with a zero immediate (C17_carry_refuted); MOV_S8/U16/S16 register to memory with Zbb (C19_mov_refuted); REV|32 into a register without Zbb (C23_rev_refuted). sljit_emit_op0: C31."
  },
  {
   "property": "C18",
   "status": "proved",
   "theorems": [
    "C18_load",
    "C18_store",
    "C18_op2"
   ],
   "note": "The Zbb case of C19_mov_address_refuted is excluded."
  },
  {
   "property": "C19",
   "status": "proved",
   "theorems": [
    "C19_op2",
    "C19_op1",
    "C19_muladd",
    "C19_shift_into",
    "C19_mov_refuted",
    "C19_mov_address_refuted"
   ],
   "note": "Excluded and refuted: MOV_S8/U16/S16 register to memory with Zbb change the source register."
  },
  {
   "property": "C23",
   "status": "partial",
   "theorems": [
    "C23_op2",
    "C23_op1_partial",
    "C23_muladd",
    "C23_shift_into",
    "C23_rev_refuted",
    "C23_rev_compose_refuted"
   ],
   "note": "False of the code for REV|SLJIT_32 without Zbb (zero extended, a following 32 bit comparison is wrong); proved for all other operations."
  },
  {
   "property": "C24",
   "status": "partial",
   "theorems": [
    "C24_shift_into_partial",
    "C24_formula",
    "C24_zero_refuted"
   ],
   "note": "False of the code for an immediate amount of zero with dst != src1 (nothing is emitted); proved for everything else."
  },
  {
   "property": "C17",
   "status": "proved",
   "theorems": [
    "C17_jump",
    "C17_flags_mov",
    "C17_flags_op",
    "C17_select",
    "C17_carry_refuted"
   ],
   "note": "All operations that set flags, all conditions, consumed by conditional jumps, sljit_emit_op_flags and sljit_emit_select. Excluded and refuted: carry flag of an addition with a zero immediate (C17_carry_refuted) and the exclusions of C16 and C22."
  },
  {
   "property": "C21",
   "status": "partial",
   "theorems": [
    "C21_cmp_partial",
    "C21_cmp_memory",
    "C21_program_partial",
    "C21_cmp32_refuted",
    "C21_cmp32_imm_refuted"
   ],
   "note": "False of the code for 32 bit comparisons of negative memory operands or of immediates outside of the signed 32 bit range; proved for everything else."
  },
  {
   "property": "C22",
   "status": "partial",
   "theorems": [
    "C22_select_partial",
    "C22_select32_refuted",
    "C22_base_refuted"
   ],
   "note": "False of the code for a 32 bit select of a negative memory operand (result not in 32 bit format) and when dst = src2 is the base of a memory operand with a large offset; proved for everything else."
  },
  {
   "property": "C20",
   "status": "proved",
   "theorems": [
    "C20_return_void",
    "C20_return",
    "C20_return_to",
    "C20_tail_call",
    "C20_release"
   ],
   "note": "Integer return values; sljit_emit_return with a floating point value moves it with a floating point instruction that is not modelled."
  },
  {
   "property": "C32",
   "status": "proved",
   "theorems": [
    "C32_ijump",
    "C32_icall",
    "C32_fast_enter",
    "C32_fast_return",
    "C32_fast_call",
    "C32_get_return_address"
   ],
   "note": "Immediate targets are jump records: C13."
  },
  {
   "property": "C31",
   "status": "proved",
   "theorems": [
    "C31_op0",
    "C31_lmul",
    "C31_divmod"
   ],
   "note": ""
  },
  {
   "property": "C06",
   "status": "proved",
   "theorems": [
    "C06_pieces",
    "C06_units",
    "C06_program",
    "C06_generate",
    "C06_results"
   ],
   "note": "Byte-level memory model of the fragments and records, RISC-V 64 emit calls."
  },
  {
   "property": "C07",
   "status": "proved",
   "theorems": [
    "C07_sticky",
    "C07_sticky_any",
    "C07_generate",
    "C07_generated",
    "C07_recorded",
    "C07_reported",
    "C07_reported_refuted"
   ],
   "note": "The property (errors are sticky) holds. Additionally the failing call itself reports the failure, except load_immediate (C07_reported_refuted)."
  },
  {
   "property": "C33",
   "status": "proved",
   "theorems": [
    "C33_free",
    "C33_generate_free",
    "C33_create"
   ],
   "note": ""
  },
  {
   "property": "C08",
   "status": "partial",
   "theorems": [
    "C08_accepted",
    "C08_roundtrip_partial",
    "C08_continue",
    "C08_generate",
    "C08_again",
    "C08_vector_refuted"
   ],
   "note": "False of the code only for the numbers of vector registers, which are not serialized (C08_vector_refuted; they are used by argument checks only); everything else is proved for all histories, heaps and allocation failures."
  },
  {
   "property": "C09",
   "status": "partial",
   "theorems": [
    "C09_unchanged",
    "C09_continue",
    "C09_twice_partial",
    "C09_bytes_refuted"
   ],
   "note": "The compiler is unchanged: proved. Same bytes twice: false of the code for the uninitialised padding after fragments (C09_bytes_refuted), proved for all other bytes."
  },
  {
   "property": "C29",
   "status": "partial",
   "theorems": [
    "C29_signature_partial",
    "C29_cpu_refuted",
    "C29_leak",
    "C29_truncated",
    "C29_truncated_debug_refuted",
    "C29_bounds_partial",
    "C29_bounds_refuted"
   ],
   "note": "Proved for all byte strings: signature, version and size are checked and nothing leaks; truncated buffers are rejected; reading is in bounds except for overlong fragments and wrapping counts. False of the code: CPU and word size are not compared (C29_cpu_refuted), corrupt lengths overflow the heap or read past the end (C29_bounds_refuted)."
  },
  {
   "property": "C26",
   "status": "proved",
   "theorems": [
    "C26_immediate_exact"
   ],
   "note": "ARM64 load_immediate against an instruction set model with the pseudo-code of the Arm manual; allocation failures are those of C07."
  },
  {
   "property": "C27",
   "status": "partial",
   "theorems": [
    "C27_total",
    "C27_sound",
    "C27_complete_partial",
    "C27_complete_refuted",
    "C27_complete32_refuted"
   ],
   "note": "Accepted constants are encoded exactly (all constants, both sizes). Refused only when not representable: false of the code for one constant of each size, whose field is zero; proved for all others."
  },
  {
   "property": "C28",
   "status": "proved",
   "theorems": [
    "C28_encoding",
    "C28_load_imm64",
    "C28_store",
    "C28_load"
   ],
   "note": "emit_x86_instruction for all operands, flags (without VEX) and both calling conventions, against a decoder written from the Intel manual."
  },
  {
   "property": "C34",
   "status": "partial",
   "theorems": [
    "C34_op2_partial",
    "C34_op2u_partial",
    "C34_muladd",
    "C34_op2_refuted"
   ],
   "note": "False of the code for some operands whose second source is a memory operand (C34_op2_refuted): the address uses the register destination, or a shift amount at a displacement of more than 32 bits; proved for everything else."
  },
  {
   "property": "C35",
   "status": "partial",
   "theorems": [
    "C35_op2_partial",
    "C35_op2u_partial",
    "C35_refuted"
   ],
   "note": "All conditions after all operations, with the exclusions of C34, where the flags are those of a wrong result (C35_refuted)."
  },
  {
   "property": "C36",
   "status": "partial",
   "theorems": [
    "C36_op1",
    "C36_mov_flags",
    "C36_upper_partial",
    "C36_upper_refuted"
   ],
   "note": "Results, memory accesses and flags are proved without exclusions; that 32 bit operations clear the upper half is false of MOV32_S8, MOV32_S16 and REV32_S16 (C36_upper_refuted)."
  },
  {
   "property": "C37",
   "status": "partial",
   "theorems": [
    "C37_into_partial",
    "C37_upper_partial",
    "C37_into_refuted"
   ],
   "note": "False of the code for some operand combinations (C37_into_refuted): immediate zero with a destination other than the first source, amounts in memory addressed through the destination, amount in the destination when the first source is SLJIT_R3; proved for everything else."
  },
  {
   "property": "C38",
   "status": "partial",
   "theorems": [
    "C38_memory_partial",
    "C38_memory_refuted"
   ],
   "note": "False of the code (C38_memory_refuted): a label directly after sljit_emit_op_addr makes the code longer than the allocated memory; the ten byte instruction of sljit_emit_op_addr is copied before it is shortened, so up to 5 bytes after the memory are overwritten. Proved: the final code fits in all other programs, at most 5 bytes after the memory are written, none if 5 bytes of instructions follow each sljit_emit_op_addr."
  },
  {
   "property": "C39",
   "status": "partial",
   "theorems": [
    "C39_laid_partial",
    "C39_jump_refuted"
   ],
   "note": "All programs of less than 2 GB of arbitrary instructions, labels, aligned labels, jumps, calls, addresses and constants; false of the code for one absolute distance per jump kind (C39_jump_refuted), and excluding programs with a label directly after sljit_emit_op_addr (C38_memory_refuted)."
  },
  {
   "property": "C40",
   "status": "partial",
   "theorems": [
    "C40_addr_partial",
    "C40_addr_refuted"
   ],
   "note": "False of the code for absolute addresses at three distances near 2^31 (C40_addr_refuted); proved for everything else with the program class of C39."
  },
  {
   "property": "C41",
   "status": "partial",
   "theorems": [
    "C41_set_jump_addr_partial"
   ],
   "note": "Histories of any length, all rewritable jumps; partial only because of the program class and exceptions of C39 and C40."
  },
  {
   "property": "C42",
   "status": "partial",
   "theorems": [
    "C42_programs_partial"
   ],
   "note": "Simulation theorem for all programs and any number of steps, from the emit calls to the bytes in memory. Excluded: operands for which single operations are wrong (C34_op2_refuted, C37_into_refuted) and a label directly after sljit_emit_op_addr (C38_memory_refuted). The code is not modified by the stores of the program (instruction fetch reads the generated code). Function entry, calls and floating point are not in this program class."
  },
  {
   "property": "C43",
   "status": "partial",
   "theorems": [
    "C43_op_flags",
    "C43_compare",
    "C43_select",
    "C43_upper_refuted"
   ],
   "note": "Results, memory accesses and flags are proved without exclusions. Clearing the upper half is false of OR32 and of select32 without CMOV when the register keeps its value (C43_upper_refuted); proved for all other forms."
  },
  {
   "property": "C44",
   "status": "partial",
   "theorems": [
    "C44_op0_partial",
    "C44_keeps_refuted"
   ],
   "note": "Everything except: with the calling convention of Windows DIV_U32 and DIV_S32 clear the upper half of SLJIT_R1, which should be preserved (C44_keeps_refuted)."
  },
  {
   "property": "C45",
   "status": "partial",
   "theorems": [
    "C45_const",
    "C45_set",
    "C45_changes_partial"
   ],
   "note": "The single constant (C45_const, C45_set) has no exclusions. The theorem on changed programs has those of C42 (operands for which single operations are wrong, a label directly after sljit_emit_op_addr)."
  },
  {
   "property": "C46",
   "status": "partial",
   "theorems": [
    "C46_return_void_partial",
    "C46_return_partial",
    "C46_return_to_partial",
    "C46_release_partial",
    "C46_return_address_partial",
    "C46_call_partial",
    "C46_icall_partial",
    "C46_tail_call_partial",
    "C46_tail_icall_partial",
    "C46_ijump",
    "C46_fast_enter",
    "C46_fast_return"
   ],
   "note": "With the System V convention nothing is excluded for integer values; with the Windows convention functions which save floating point registers or pass floating point arguments after integer ones are excluded. Floating point return values are not modelled. Jump records of direct calls are those of C39."
  },
  {
   "property": "C47",
   "status": "proved",
   "theorems": [
    "C47_immediate_exact",
    "C47_constant_exact",
    "C47_set_const_exact"
   ],
   "note": "Execution of the words by an instruction set model with the semantics of the LoongArch manual. The store of a constant to a memory destination is not modelled."
  },
  {
   "property": "C48",
   "status": "partial",
   "theorems": [
    "C48_jump_partial",
    "C48_label_jump_partial",
    "C48_jump_fits",
    "C48_set_jump_addr_exact",
    "C48_address_partial",
    "C48_jump_refuted",
    "C48_jump_wrong",
    "C48_address_refuted"
   ],
   "note": "False of the code (C48_jump_refuted): a relative jump of two instructions goes 4096 bytes too far whenever bit 11 of the difference is set (C48_jump_wrong says so for all such jumps); addresses 2^31 - 2048 .. 2^31 - 1 bytes ahead are wrong (C48_address_refuted). Proved for everything else. The walk of sljit_generate_code over the records is not modelled for this backend (it is for RISC-V and x86-64)."
  },
  {
   "property": "C49",
   "status": "partial",
   "theorems": [
    "C49_immediate_exact",
    "C49_constant_exact",
    "C49_set_const_partial",
    "C49_set_const_refuted"
   ],
   "note": "Proved for all values, except that the clause `whatever instruction follows` is false of the code (C49_set_const_refuted): the last word of a constant moves to the delay slot of a jump which directly follows, and sljit_set_const then changes the jump. The store of a constant to a memory destination is not modelled."
  },
  {
   "property": "C50",
   "status": "partial",
   "theorems": [
    "C50_jump_partial",
    "C50_label_jump_partial",
    "C50_address_exact",
    "C50_set_jump_addr_exact",
    "C50_jump_refuted",
    "C50_float_wrong",
    "C50_offset_refuted",
    "C50_region_refuted"
   ],
   "note": "False of the code in four cases: a call directly after an instruction which uses register 31 (C50_jump_refuted), an executable offset and PATCH_J (C50_offset_refuted), a conditional PATCH_J at a 256 MB boundary (C50_region_refuted), release 6 and floating point conditions in the forms which load the address (C50_float_wrong). Proved for everything else. The instructions which may be moved are those of the processor model (MsIsa). The walk of sljit_generate_code over the records is not modelled for this backend."
  },
  {
   "property": "C51",
   "status": "proved",
   "theorems": [
    "C51_immediate_exact",
    "C51_constant_exact",
    "C51_set_const_exact"
   ],
   "note": "For all values and registers. Register 31 (TMP_ZERO) is zero, which the function entry establishes. The store of a constant to a memory destination is not modelled."
  },
  {
   "property": "C52",
   "status": "partial",
   "theorems": [
    "C52_jump_partial",
    "C52_label_jump_exact",
    "C52_ijump_exact",
    "C52_address_exact",
    "C52_address_space",
    "C52_set_jump_addr_exact",
    "C52_jump_refuted",
    "C52_jump_wrong",
    "C52_jump_space_refuted",
    "C52_cond_space_wrong",
    "C52_label_space_refuted",
    "C52_jump_space_partial",
    "C52_label_space_partial"
   ],
   "note": "False of the code in three cases: a conditional jump to a fixed address in 0x8000..0xffff far from it goes to the sign extended address (C52_jump_refuted, C52_jump_wrong); the words of ELFv2 calls to fixed low addresses or near labels (C52_jump_space_refuted, C52_label_space_refuted) and of conditional jumps to fixed addresses in 0x10000..0x1ffffff (C52_cond_space_wrong) do not fit in the space kept for them. Proved for everything else. The walk of sljit_generate_code over the records is not modelled for this backend."
  },
  {
   "property": "C53",
   "status": "proved",
   "theorems": [
    "C53_constant_exact",
    "C53_set_const_exact",
    "C53_address_exact",
    "C53_address_space",
    "C53_label_address_space"
   ],
   "note": "For all values, registers, addresses and positions. The store of a constant to a memory destination and the SLJIT_ADD_ABS form of sljit_emit_op_addr are not modelled."
  },
  {
   "property": "C54",
   "status": "proved",
   "theorems": [
    "C54_jump_exact",
    "C54_form_exact",
    "C54_ijump_exact",
    "C54_jump_space",
    "C54_label_space",
    "C54_set_jump_addr_exact"
   ],
   "note": "For all targets, positions, conditions and forms. The walk of sljit_generate_code over the records is not modelled for this backend: that nothing is inserted between a jump and its label after the space was kept is the hypothesis nearer of C54_label_space."
  },
  {
   "property": "C55",
   "status": "proved",
   "theorems": [
    "C55_sub_exact",
    "C55_add_exact",
    "C55_fcmp_exact",
    "C55_fcmp_equal_exact"
   ],
   "note": "The flags of SUBS, ADDS and FCMP are those of the processor (AddWithCarry; NZCV of FCMP). The basic floating point types are unspecified for unordered operands, as the documentation says."
  },
  {
   "property": "C56",
   "status": "proved",
   "theorems": [
    "C56_op2_exact",
    "C56_op2_jump"
   ],
   "note": "For all operations, operands, immediates and states. Operands and destinations in memory are in the temporary registers here (their loads and stores are not part of this property). FCSEL, SELECT and op_flags are not covered."
  },
  {
   "property": "C57",
   "status": "proved",
   "theorems": [
    "C57_op1_exact",
    "C57_op0_exact"
   ],
   "note": "For all operations, operands and states. Register destinations and register or immediate sources; memory operands are not part of this property."
  },
  {
   "property": "C58",
   "status": "proved",
   "theorems": [
    "C58_mem_exact",
    "C58_op2_mem",
    "C58_op1_mem"
   ],
   "note": "For all address forms, offsets, operations and states. Unaligned, paired, pre/post-indexed (sljit_emit_mem, sljit_emit_mem_update) and floating point accesses are not covered. The signed overflow of argw + 0x100 for offsets near 2^63 is computed with wrap-free integers (undefined in C, finding 44)."
  },
  {
   "property": "C59",
   "status": "partial",
   "theorems": [
    "C59_shift_into_partial",
    "C59_zero_refuted"
   ],
   "note": "For all operands but an immediate count of zero (modulo the width) with a destination which is neither the first source nor with equal sources, for which the statement is false (finding 43)."
  },
  {
   "property": "C60",
   "status": "proved",
   "theorems": [
    "C60_enter_return"
   ],
   "note": "For all functions, states and bodies. The stack probing of _WIN32, and vector registers (their counts are part of the floating point counts given to the model) are not modelled; upper halves of v8-v15 are not saved by the code, as the calling convention allows."
  },
  {
   "property": "C61",
   "status": "proved",
   "theorems": [
    "C61_mov_flags",
    "C61_op_flags",
    "C61_select"
   ],
   "note": "For all conditions, operands and states. Memory accesses always succeed in the model; the 32 bit select reads four bytes more than its operand (finding 45)."
  },
  {
   "property": "C62",
   "status": "proved",
   "theorems": [
    "C62_return_to",
    "C62_return_address",
    "C62_fast_call"
   ],
   "note": "For all functions, bodies, operands and states. An immediate source of sljit_emit_return_to is a jump record (its code is that of C54) and not part of the statement; BR and RET are the last instruction of straight code."
  },
  {
   "property": "C63",
   "status": "proved",
   "theorems": [
    "C63_icall_return",
    "C63_call_return",
    "C63_icall"
   ],
   "note": "For all functions, bodies, operands and states. An immediate source is a jump record (its code is that of C54); the jump of sljit_emit_call is that of C54; BR and BLR are the last instruction of straight code."
  },
  {
   "property": "C64",
   "status": "proved",
   "theorems": [
    "C64_cmp_exact",
    "C64_op2cmpz_exact"
   ],
   "note": "For all relations, operands, values and addresses. The words are those after linking to a fixed target (C54); ADDC, SUBC and the operations without a documented zero flag are not operations of C64_op2cmpz_exact."
  },
  {
   "property": "C65",
   "status": "proved",
   "theorems": [
    "C65_replicate"
   ],
   "note": "For integer elements with a register or immediate source. The floating point and memory forms are not modelled."
  }
 ]
}