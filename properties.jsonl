{"id": "C01", "title": "Executable memory blocks never overlap", "statement": "After any sequence of sljit_malloc_exec / sljit_free_code / sljit_free_unused_memory_exec calls, every block that was handed out and not yet freed lies inside memory obtained from the OS and not given back, is aligned to 8 bytes, is at least as large as requested, and no two live blocks (nor a live block and allocator bookkeeping) share a byte. Sizes are below 2^62 (close to 2^64 the computation wraps around, C01_huge_size_refuted).", "quantifier": "all finite histories of allocations and frees (any sizes, any order), and all behaviours of the OS page allocator (any addresses, failures at any point)", "why_tests_cant": "The layout depends on the whole history: splitting and merging of free areas can be wrong for one particular interleaving only; tests exercise a handful of histories.", "anchors": ["sljit_src/allocator_src/sljitExecAllocatorCore.c: SLJIT_MALLOC_EXEC, SLJIT_FREE_EXEC, SLJIT_FREE_UNUSED_MEMORY_EXEC, sljit_insert_free_block, sljit_remove_free_block"]}
{"id": "C02", "title": "Freed executable memory is always merged and reusable", "statement": "After any history there are never two adjacent free areas inside a chunk, every free area is reachable for later allocations, and an allocation succeeds without asking the OS whenever some free area is large enough.", "quantifier": "all histories of allocator calls", "why_tests_cant": "A missed merge only loses memory silently; no assertion or output reveals it, and it needs particular orders of frees.", "anchors": ["sljit_src/allocator_src/sljitExecAllocatorCore.c: SLJIT_MALLOC_EXEC, SLJIT_FREE_EXEC"]}
{"id": "C03", "title": "Executable allocator accounting and chunk release", "statement": "The allocator's counters always equal the real sum of live block sizes and of chunk sizes (no drift, no underflow); once every block is freed and sljit_free_unused_memory_exec is called, every chunk has been returned to the OS exactly once with its original address and size.", "quantifier": "all histories of allocator calls ending with all blocks freed", "why_tests_cant": "Drift accumulates over arbitrarily long histories; leaks and double unmaps show only for some interleavings.", "anchors": ["sljit_src/allocator_src/sljitExecAllocatorCore.c: SLJIT_MALLOC_EXEC, SLJIT_FREE_EXEC, SLJIT_FREE_UNUSED_MEMORY_EXEC, alloc_chunk, free_chunk"]}
{"id": "C04", "title": "Allocator calls never modify the content of live code blocks", "statement": "Allocating, freeing or trimming executable memory never changes any byte of any other live block.", "quantifier": "all histories of allocator calls and all contents of the live blocks", "why_tests_cant": "Corruption of generated code by header or free list writes is visible only if that exact byte is later executed.", "anchors": ["sljit_src/allocator_src/sljitExecAllocatorCore.c: SLJIT_MALLOC_EXEC, SLJIT_FREE_EXEC"]}
{"id": "C05", "title": "Stack resize keeps the live part and is failure atomic", "statement": "For a stack made by sljit_allocate_stack, after any sequence of sljit_stack_resize calls min_start <= start <= end holds, a failing call changes nothing, a successful call moves only start, and no resize discards a byte inside the area [start, end) that stays live.", "quantifier": "all start/max sizes, all sequences of resize requests (valid or not)", "why_tests_cant": "The page rounding of the discarded range is wrong only for particular alignments of old and new start.", "anchors": ["sljit_src/sljitUtils.c: sljit_allocate_stack, sljit_stack_resize, sljit_free_stack"]}
{"id": "C06", "title": "Instruction and auxiliary buffers keep every byte, in order", "statement": "For any sequence of emitted pieces, the pieces handed out by the compiler's internal buffers are pairwise disjoint and inside their fragment, and code generation sees exactly the emitted pieces in emission order.", "quantifier": "all sequences of piece sizes up to the documented maximum, all numbers of fragments", "why_tests_cant": "Fragment boundaries are hit only by particular cumulative sizes.", "anchors": ["sljit_src/sljitLir.c: ensure_buf, ensure_abuf, reverse_buf, sljit_alloc_memory"]}
{"id": "C07", "title": "Errors are sticky", "statement": "Once a compiler has recorded an error, every further emit call returns that error (or NULL) and changes neither the generated code nor the label, jump and constant lists, and sljit_generate_code returns NULL.", "quantifier": "all points at which an allocation can fail and all sequences of later calls", "why_tests_cant": "The failure point can be any allocation of any history; tests use a few injected failures at most.", "anchors": ["sljit_src/sljitLir.c: CHECK_ERROR, FAIL_IF, set_memory_error, sljit_set_compiler_memory_error, ensure_buf, ensure_abuf"]}
{"id": "C08", "title": "Serialization round trip", "statement": "Deserializing the buffer produced by sljit_serialize_compiler gives a compiler with the same code bytes in the same order, the same labels (sizes, alignment data), the same jumps (with their label or absolute target, flags), the same constants, and the same register/stack/option state, so continuing with it is indistinguishable from continuing with the original.", "quantifier": "all compiler states reachable by emit calls", "why_tests_cant": "The format is pointer-linked data turned into indices; a wrong index or dropped field matters only for some combinations of labels, jumps and constants.", "anchors": ["sljit_src/sljitSerialize.c: sljit_serialize_compiler, sljit_deserialize_compiler"]}
{"id": "C09", "title": "Serialization does not disturb the compiler", "statement": "sljit_serialize_compiler leaves the compiler unchanged when it succeeds (only the error is recorded when it fails), writes only inside of the block it returns, and serializing twice gives the same bytes.", "quantifier": "all compiler states", "why_tests_cant": "A missed restoration shows up only when the compiler is used again after serialization.", "anchors": ["sljit_src/sljitSerialize.c: sljit_serialize_compiler"]}
{"id": "C10", "title": "Any 64 bit immediate is materialised exactly (RISC-V 64)", "statement": "For every 64 bit value and every destination register, the instruction sequence chosen for loading the immediate leaves exactly that value in the register, changes no other register visible to the user, no memory, and uses only the permitted temporary.", "quantifier": "all 2^64 immediates, all registers, with and without the compressed extension", "why_tests_cant": "The encodings are selected by many value ranges with sign-carry corrections; 2^64 values cannot be enumerated.", "anchors": ["sljit_src/sljitNativeRISCV_64.c: load_immediate, load_immediate32"]}
{"id": "C11", "title": "Rewritable constants take every value (RISC-V 64)", "statement": "After sljit_set_const with any new value (and any history of earlier values), the code emitted by sljit_emit_const loads exactly the new value (for MOV; truncated/extended as documented for U8, S32 and 32 bit forms).", "quantifier": "all initial values, all sequences of new values, all const operations", "why_tests_cant": "Instruction patching must work for all 2^64 values and independently of the previous content.", "anchors": ["sljit_src/sljitNativeRISCV_common.c: sljit_emit_const, sljit_set_const", "sljit_src/sljitNativeRISCV_64.c: emit_const, sljit_set_jump_addr"]}
{"id": "C12", "title": "Rewritable jumps and calls reach every new address (RISC-V 64)", "statement": "After sljit_set_jump_addr with any even target address, executing the patched jump sequence transfers control to exactly that address and (for calls) leaves the right return address.", "quantifier": "all current and new targets in the 64 bit address space", "why_tests_cant": "The split of an address into upper and lower parts with sign corrections is wrong only in corner ranges.", "anchors": ["sljit_src/sljitNativeRISCV_64.c: sljit_set_jump_addr, emit_const", "sljit_src/sljitNativeRISCV_common.c: load_addr_to_reg"]}
{"id": "C13", "title": "Every jump lands on its label or target after code generation (RISC-V 64)", "statement": "In the code produced by sljit_generate_code, every (conditional or unconditional) jump and call, when taken, continues at the address of its label or its absolute target, and when not taken continues with the next emitted instruction, whatever encoding was selected. Excluded, because the code is wrong there (C13_absolute_branch_refuted, C15_address_refuted): a compressed conditional branch to an absolute address exactly 256 bytes away, and targets from 0x7fffffffff800 to 0x7ffffffffffff.", "quantifier": "all sequences of emitted instructions, labels, aligned labels, jumps (forward/backward, any distance), all code addresses", "why_tests_cant": "Encoding selection uses size estimates which change while code shrinks; errors appear at exact boundary distances.", "anchors": ["sljit_src/sljitNativeRISCV_common.c: detect_jump_type, reduce_code_size, load_addr_to_reg, sljit_generate_code, sljit_emit_jump, sljit_emit_cmp, sljit_emit_ijump"]}
{"id": "C14", "title": "Generated code fits its memory and label addresses are the real ones (RISC-V 64)", "statement": "sljit_generate_code never writes past the executable memory it allocated; the address reported for each label is the address where the code following the label starts, aligned labels have the requested alignment and the reserved read-only areas have at least the requested size. Excluded, because the code is wrong there (C14_last_branch_refuted, C14_last_label_refuted): a conditional branch as the very last instruction, and a label behind the last instruction when the executable offset is not zero.", "quantifier": "all compiler states, all executable offsets", "why_tests_cant": "A too small size estimate corrupts memory only when every worst case coincides.", "anchors": ["sljit_src/sljitNativeRISCV_common.c: reduce_code_size, process_extended_label, sljit_generate_code"]}
{"id": "C15", "title": "Address materialisation gives the final label address (RISC-V 64)", "statement": "The register loaded by sljit_emit_op_addr contains exactly the final address of the label (or the absolute address) after code generation, except for addresses from 0x7fffffffff800 to 0x7ffffffffffff, where the code is wrong (C15_address_refuted).", "quantifier": "all code layouts, load addresses and label positions", "why_tests_cant": "Depends on the distance and absolute address range; 64 bit addresses with particular bit patterns are needed.", "anchors": ["sljit_src/sljitNativeRISCV_common.c: mov_addr_get_length, load_addr_to_reg, sljit_emit_op_addr"]}
{"id": "C16", "title": "Integer arithmetic operations compute the documented result (RISC-V 64)", "statement": "sljit_emit_op1/op2/op2r/shift_into code computes the documented result for every operand value in every operand position (register, immediate, memory), in 64 and 32 bit mode. Excluded, because the code is wrong there: ADD/SUB with the overflow flag of two immediates, one of them zero, with compressed instructions (C16_overflow_refuted) and the cases of C19, C23 and C24.", "quantifier": "all operations, all operand kinds and register choices (including aliasing), all operand values", "why_tests_cant": "Operand values, immediates and aliasing patterns are far too many; special-cased immediates and aliases hide errors.", "anchors": ["sljit_src/sljitNativeRISCV_common.c: emit_single_op, emit_op, sljit_emit_op1, sljit_emit_op2, sljit_emit_op2r, sljit_emit_shift_into, emit_clz_ctz, emit_rev, emit_rev16"]}
{"id": "C17", "title": "Status flags have the documented meaning (RISC-V 64)", "statement": "After an operation that sets the zero flag and/or a variable flag (carry, overflow, less, greater, ...), conditional jumps, sljit_emit_op_flags and sljit_emit_select observe exactly the documented condition. Excluded, because the code is wrong there: the carry flag of an addition with a zero immediate (C17_carry_refuted), the overflow case of C16, the select cases of C22.", "quantifier": "all flag setting operations, all operand values, all conditions", "why_tests_cant": "Carry and overflow emulation is wrong only for particular sign/aliasing combinations.", "anchors": ["sljit_src/sljitNativeRISCV_common.c: emit_single_op, get_jump_instruction, sljit_emit_op_flags, sljit_emit_select"]}
{"id": "C18", "title": "Memory operands access exactly the documented bytes (RISC-V 64)", "statement": "For every addressing form ([imm], [reg+imm], [reg+reg<<shift]) an operation reads or writes exactly the documented bytes with the documented extension, for any displacement, including the address caching inside one operation. Excluded: the moves of C19.", "quantifier": "all addressing forms, all 64 bit displacements and register values, all transfer sizes", "why_tests_cant": "Displacements have 2^64 values with carry corrections around bit 11, and cached partial addresses are reused between operands.", "anchors": ["sljit_src/sljitNativeRISCV_common.c: push_mem_inst, getput_arg_fast, getput_arg, can_cache, emit_op_mem, emit_op_mem2"]}
{"id": "C19", "title": "Operations change only their destination (RISC-V 64)", "statement": "An emitted operation changes no user-visible register other than its destination, and no memory other than its destination operand. Excluded, because the code is wrong there (C19_mov_refuted): MOV_S8/U16/S16 from a register to memory on CPUs with Zbb.", "quantifier": "all operations, operands and machine states", "why_tests_cant": "Temporaries and in-place conversions may clobber a register only for one operand kind.", "anchors": ["sljit_src/sljitNativeRISCV_common.c: emit_op, emit_single_op"]}
{"id": "C20", "title": "Function entry and return preserve the caller's state (RISC-V 64)", "statement": "For code compiled with sljit_emit_enter ... sljit_emit_return, the stack pointer and all callee saved registers have their original values at return, arguments arrive in the documented registers, the local area has the requested size, and nothing outside the frame is overwritten.", "quantifier": "all numbers of scratch/saved registers, options, argument lists and local sizes up to SLJIT_MAX_LOCAL_SIZE", "why_tests_cant": "Register save slots and large frame sizes give thousands of layouts.", "anchors": ["sljit_src/sljitNativeRISCV_common.c: sljit_emit_enter, sljit_set_context, emit_stack_frame_release, sljit_emit_return_void, sljit_emit_return_to"]}
{"id": "C21", "title": "Compare and branch takes the branch iff the condition holds (RISC-V 64)", "statement": "The jump emitted by sljit_emit_cmp is taken exactly when the comparison of the two operands holds, for all operand kinds, in 64 and 32 bit mode.", "quantifier": "all condition types, operand kinds and operand values", "why_tests_cant": "32 bit operands in 64 bit registers need consistent extension; only negative values in particular operand kinds reveal errors.", "anchors": ["sljit_src/sljitNativeRISCV_common.c: sljit_emit_cmp"]}
{"id": "C22", "title": "Conditional select (RISC-V 64)", "statement": "sljit_emit_select stores src1 if the condition holds and src2_reg otherwise, for all operand kinds and aliasing.", "quantifier": "all conditions, operands, aliasing and values", "why_tests_cant": "Aliasing of destination with address registers of src1 gives cases that are easy to miss.", "anchors": ["sljit_src/sljitNativeRISCV_common.c: sljit_emit_select"]}
{"id": "C23", "title": "32 bit operations compose (RISC-V 64)", "statement": "Every register result of a 32 bit operation can be used as register source of any other 32 bit operation: it is in the 32 bit compatible (sign extended) form required by the CPU.", "quantifier": "all 32 bit operations and operand values", "why_tests_cant": "Needs each producer paired with each consumer for negative values.", "anchors": ["sljit_src/sljitNativeRISCV_common.c: emit_single_op, emit_rev, sljit_emit_cmp, sljit_emit_select", "sljit_src/sljitLir.h: SLJIT_32"]}
{"id": "C24", "title": "Double width shift (sljit_emit_shift_into)", "statement": "sljit_emit_shift_into stores the documented combination of src1 and src2 into the destination for every shift amount, including zero, and every register choice.", "quantifier": "all shift amounts, register choices and values", "why_tests_cant": "A zero immediate with a distinct destination register is one case among thousands.", "anchors": ["sljit_src/sljitNativeRISCV_common.c: sljit_emit_shift_into", "sljit_src/sljitNativeX86_common.c: sljit_emit_shift_into"]}
{"id": "C25", "title": "Labels are ordered, shared and stable", "statement": "Labels get non-decreasing positions in emission order, emitting a label twice without code between returns the same label, and every jump refers to an existing label or an absolute target.", "quantifier": "all sequences of emit calls", "why_tests_cant": "Depends on the full emission history.", "anchors": ["sljit_src/sljitNativeRISCV_common.c: sljit_emit_label", "sljit_src/sljitLir.c: set_label, set_jump, sljit_set_label, sljit_set_target"]}
{"id": "C26", "title": "Any 64 bit immediate is materialised exactly (ARM64)", "statement": "For every 64 bit value the ARM64 backend's immediate loading sequence (MOVZ/MOVN/MOVK/logical immediate) produces exactly the value.", "quantifier": "all 2^64 immediates and all registers", "why_tests_cant": "Selection among move-wide and bitmask immediate forms depends on bit patterns of the value.", "anchors": ["sljit_src/sljitNativeARM_64.c: load_immediate, logical_imm"]}
{"id": "C27", "title": "ARM64 logical immediates encode exactly the requested constant", "statement": "Whenever the encoder of bitmask immediates accepts a constant, the instruction set's decoding of the produced field is that constant, and it is refused otherwise only when not representable.", "quantifier": "all 64 bit (and 32 bit) constants", "why_tests_cant": "Bitmask immediates are a sparse set (5334 of 2^64 values); random tests never hit them.", "anchors": ["sljit_src/sljitNativeARM_64.c: logical_imm"]}
{"id": "C28", "title": "x86-64 instruction encoding addresses the right operand", "statement": "For every register/memory operand combination, the ModRM/SIB/REX/displacement bytes produced by the x86-64 emitter decode (per the Intel manual) to exactly the requested registers, base, index, scale and displacement.", "quantifier": "all registers, bases, indices, scales, 64 bit displacements and immediates", "why_tests_cant": "RSP/RBP/R12/R13 special cases and displacement size boundaries.", "anchors": ["sljit_src/sljitNativeX86_64.c: emit_x86_instruction, emit_load_imm64"]}
{"id": "C29", "title": "Deserialization rejects foreign data", "statement": "sljit_deserialize_compiler only accepts buffers whose signature, version, CPU and word size match and returns NULL without leaking for all others; truncated valid buffers are rejected without reading past the end.", "quantifier": "all byte strings as input", "why_tests_cant": "All byte strings cannot be enumerated; memory safety depends on every length field.", "anchors": ["sljit_src/sljitSerialize.c: sljit_deserialize_compiler"]}
{"id": "C30", "title": "Executable size reporting", "statement": "sljit_get_generated_code_size returns the number of bytes of generated code.", "quantifier": "all programs", "why_tests_cant": "Tests do not compare the reported size with the real one.", "anchors": ["sljit_src/sljitNativeRISCV_common.c: sljit_generate_code", "sljit_src/sljitLir.c: sljit_get_generated_code_size"]}
{"id": "C31", "title": "Operations without operands: long multiplication, division (sljit_emit_op0)", "statement": "After sljit_emit_op0 with SLJIT_LMUL_UW/SW, R1:R0 is the full product of R0 and R1; after SLJIT_DIVMOD_*/SLJIT_DIV_* R0 is the truncated quotient (and R1 the remainder for DIVMOD) in the operation length; no other register, memory or flag changes.", "quantifier": "all operand values (zero divisors and the signed overflow case, documented as undefined, excluded), 32 and 64 bit forms", "why_tests_cant": "Both result registers are also operand registers: ordering errors show up only for particular values.", "anchors": ["sljit_src/sljitNativeRISCV_common.c: sljit_emit_op0", "sljit_src/sljitLir.h: SLJIT_LMUL_UW ... SLJIT_DIV_SW"]}
{"id": "C32", "title": "Indirect jumps, indirect calls and fast calls reach their targets (RISC-V 64)", "statement": "sljit_emit_ijump and sljit_emit_icall with a register or memory operand continue at the address held by the operand, calls put the address of the following code in the return address register; SLJIT_FAST_ENTER stores it in any operand, SLJIT_FAST_RETURN continues at the address in any operand, SLJIT_GET_RETURN_ADDRESS gives the return address of the enclosing function; nothing but temporary registers and the destination changes.", "quantifier": "all operands, addressing forms, displacements, register and memory contents, code addresses", "why_tests_cant": "Addresses, displacements and frame sizes need different instruction sequences.", "anchors": ["sljit_src/sljitNativeRISCV_common.c: sljit_emit_ijump, sljit_emit_icall, sljit_emit_op_src, sljit_emit_op_dst", "sljit_src/sljitLir.h: SLJIT_FAST_RETURN, SLJIT_FAST_ENTER, SLJIT_GET_RETURN_ADDRESS"]}
{"id": "C33", "title": "The compiler's memory is released", "statement": "sljit_free_compiler releases exactly the memory blocks which the compiler allocated, after any history of calls, including calls whose allocations failed and code generation; when sljit_create_compiler fails, it leaves no block allocated.", "quantifier": "all histories of calls, all schedules of successful and failed allocations", "why_tests_cant": "Leaks after failures need an allocation failure at a particular point.", "anchors": ["sljit_src/sljitLir.c: sljit_create_compiler, sljit_free_compiler, ensure_buf, ensure_abuf, reverse_buf"]}
{"id": "C34", "title": "x86-64: binary operations compute the documented result and change nothing else", "statement": "The code emitted by sljit_emit_op2 sets the destination to the documented result of the operation on the operand values before it (32 bit results clear the upper half of the register), sljit_emit_op2u only sets flags, sljit_emit_op2r(SLJIT_MULADD) adds the product; no other user register, memory or the stack pointer changes.", "quantifier": "all 64 and 32 bit binary operations, requested flags, legal destinations and sources (registers, immediates, memory operands of any form, overlapping in any way), register, flag and memory contents, both calling conventions", "why_tests_cant": "The encoder has many special cases (accumulator forms, LEA, three operand IMUL, shifts by CL, immediate widths), selected by operand combinations which tests do not cover.", "anchors": ["sljit_src/sljitNativeX86_common.c: sljit_emit_op2, sljit_emit_op2u, sljit_emit_op2r, emit_cum_binary, emit_non_cum_binary, emit_mul, emit_lea_binary, emit_shift, emit_shift_with_flags", "sljit_src/sljitLir.h: sljit_emit_op2"]}
{"id": "C35", "title": "x86-64: conditions after binary operations", "statement": "After the code emitted by sljit_emit_op2 or sljit_emit_op2u with a requested flag, the processor condition chosen for each condition type of this flag (get_jump_code) holds exactly when the documented condition on the operand values holds.", "quantifier": "all operations, legal flag requests, condition types, operands, register, flag and memory contents", "why_tests_cant": "Flags of negations, comparisons with swapped or special operands, 32 bit operations and shifts by zero differ.", "anchors": ["sljit_src/sljitNativeX86_common.c: sljit_emit_op2, sljit_emit_op2u, emit_cmp_binary, emit_test_binary, emit_shift_with_flags, get_jump_code", "sljit_src/sljitLir.h: SLJIT_SET_Z ... SLJIT_SET_CARRY"]}
{"id": "C36", "title": "x86-64: moves, bit counts and byte reversals", "statement": "The code emitted by sljit_emit_op1 sets the destination to the documented result for the operand before it (sign or zero extended moves, number of leading or trailing zero bits also for zero, reversed bytes), accesses memory with the documented width only, changes nothing else; moves keep the flags; 32 bit operations clear the upper half of the destination register (SLJIT_UPPER_BITS_ZERO_EXTENDED).", "quantifier": "all operations, legal destinations and sources (registers, memory operands of any form, immediates for moves), processor features (LZCNT, TZCNT, CMOV), register, flag and memory contents, both calling conventions", "why_tests_cant": "The instructions depend on features of the processor found at run time, on the operand combination and on immediate widths; zero has its own path.", "anchors": ["sljit_src/sljitNativeX86_common.c: sljit_emit_op1, emit_mov_byte, emit_mov_half, emit_clz_ctz, emit_bswap, emit_cmov_generic", "sljit_src/sljitNativeX86_64.c: emit_mov_int", "sljit_src/sljitLir.h: sljit_emit_op1"]}
{"id": "C37", "title": "x86-64: shift into", "statement": "The code emitted by sljit_emit_shift_into sets the destination to the first source shifted by the amount, with the bits of the second source shifted in (a rotation if both are the same register); memory and all other user registers keep their values, in particular SLJIT_R3, which is used for the shift amount; 32 bit operations clear the upper half of the destination.", "quantifier": "both directions and widths, all register choices (destination different from the second source), register, memory and immediate amounts, register and memory contents, both calling conventions", "why_tests_cant": "SLJIT_R3 must hold the amount: each way its use coincides with the operands needs its own order of moves.", "anchors": ["sljit_src/sljitNativeX86_common.c: sljit_emit_shift_into, emit_shift", "sljit_src/sljitLir.h: sljit_emit_shift_into", "sljit_src/sljitLir.c: check_sljit_emit_shift_into"]}
{"id": "C38", "title": "x86-64: generated code stays inside of its memory", "statement": "sljit_generate_code on x86-64 writes nothing outside of the executable memory it has allocated, the size of which comes from the reduction of the size estimates; the allocated size is never larger than the estimate made while emitting.", "quantifier": "all sequences of emit calls (instructions of any bytes, labels, aligned labels, jumps and calls with label or absolute targets, rewritable or not, sljit_emit_op_addr, constants) of less than 2 GB, all code addresses and executable offsets, both calling conventions", "why_tests_cant": "The final sizes depend on the distance of every jump, on alignment and on the allocation address; an overrun needs particular adjacent records and particular distances.", "anchors": ["sljit_src/sljitNativeX86_common.c: reduce_code_size, sljit_generate_code, generate_jump_or_mov_addr", "sljit_src/sljitNativeX86_64.c: generate_mov_addr_code, detect_far_jump_type"]}
{"id": "C39", "title": "x86-64: labels, jumps and instructions of the generated code", "statement": "In the code generated on x86-64 the instructions of the emit calls appear in order; each label reported by sljit_get_label_addr is the executable address of the position where it was emitted, aligned labels are aligned and the padding is NOPs; executing a jump or call goes to its label or absolute target if its condition holds and to the following code otherwise, calls push the return address, and only the second temporary register is changed.", "quantifier": "all programs as in C38, all conditions and condition outcomes, all processor states", "why_tests_cant": "Short, near and far forms are chosen from estimated distances; the boundaries of each form depend on code size and address.", "anchors": ["sljit_src/sljitNativeX86_common.c: detect_near_jump_type, generate_jump_or_mov_addr, process_extended_label, reduce_code_size, sljit_generate_code, sljit_emit_label, sljit_emit_aligned_label, sljit_emit_jump", "sljit_src/sljitNativeX86_64.c: detect_far_jump_type"]}
{"id": "C40", "title": "x86-64: addresses loaded by sljit_emit_op_addr", "statement": "The code generated for sljit_emit_op_addr on x86-64 sets the destination register to the final address of the label (or the absolute address) and changes nothing else, whichever of the three forms (relative, 32 bit, 64 bit) is chosen; execution goes on with the code of the next call.", "quantifier": "all programs as in C38, all destination registers, all targets, all processor states", "why_tests_cant": "The form is chosen from the distance at generation time; 4 GB of distance boundaries cannot be tested in a small program.", "anchors": ["sljit_src/sljitNativeX86_common.c: sljit_emit_op_addr, generate_jump_or_mov_addr", "sljit_src/sljitNativeX86_64.c: generate_mov_addr_code"]}
{"id": "C41", "title": "x86-64: rewritable jumps", "statement": "After any sequence of sljit_set_jump_addr calls on rewritable jumps of generated x86-64 code, each rewritable jump or call goes to the target set last for it, or to its original target if none was set; all other instructions, jumps, addresses and labels work as before.", "quantifier": "all programs as in C38, all sequences of set calls, all 64 bit targets, all processor states", "why_tests_cant": "The histories are unbounded; a patch that touches a neighbouring instruction shows only with particular layouts.", "anchors": ["sljit_src/sljitNativeX86_common.c: sljit_set_jump_addr, sljit_generate_code", "sljit_src/sljitNativeX86_64.c: detect_far_jump_type"]}
{"id": "C42", "title": "x86-64: generated code behaves as the program", "statement": "For every program made of integer operations, shifts, moves, double-word multiplications and divisions, stored conditions, selections, constants, labels, aligned labels, conditional and unconditional jumps, label addresses and computed jumps whose operands are legal, the x86-64 machine code produced by the whole pipeline (emit calls, code size reduction, sljit_generate_code) executes like the program: started in a processor state that corresponds to a program state, it reaches, for any number of program steps, the code position of the instruction the program reaches, in a corresponding state (registers, memory, requested conditions).", "quantifier": "all programs (any length, any control flow, including loops and computed jumps), all load addresses, both calling conventions, all processor features, all initial states, any number of steps", "why_tests_cant": "Whole program behaviour is an unbounded combination of operations, layouts, jump lengths and data; tests execute a few programs at a few addresses.", "anchors": ["sljit_src/sljitNativeX86_common.c: sljit_emit_op1, sljit_emit_op2, sljit_emit_op2u, sljit_emit_op2r, sljit_emit_shift_into, sljit_emit_op_flags, sljit_emit_op0, sljit_emit_label, sljit_emit_jump, sljit_emit_ijump, sljit_generate_code", "sljit_src/sljitNativeX86_64.c"]}
{"id": "C43", "title": "x86-64: storing and using conditions", "statement": "sljit_emit_op_flags on x86-64 uses the current condition as an operand of value 0 or 1: MOV stores it without changing the flags, AND/OR/XOR combine it with the destination and set the zero flag when asked; sljit_emit_select sets the destination to the first source if the condition holds and to the second otherwise, without changing the flags, with and without the CMOV instruction; nothing else changes, and 32 bit forms clear the upper half of the register. After a comparison the condition is the one of the API on the compared values.", "quantifier": "all destinations (registers, memory with all addressing forms), all sources, all conditions, both calling conventions, all states", "why_tests_cant": "Byte registers need a REX prefix or a temporary for particular registers, and overlaps between the destination, the sources and the flags matter; the combinations with operand values are not enumerable.", "anchors": ["sljit_src/sljitNativeX86_common.c: sljit_emit_op_flags, emit_cmov_generic", "sljit_src/sljitNativeX86_64.c: sljit_emit_select", "sljit_src/sljitLir.h: sljit_emit_op_flags, sljit_emit_select"]}
{"id": "C44", "title": "x86-64: multiplication and division of SLJIT_R0 and SLJIT_R1", "statement": "sljit_emit_op0 on x86-64: LMUL gives the two words of the full product, DIVMOD the quotient and the remainder, DIV the quotient and keeps SLJIT_R1, signed and unsigned, 32 and 64 bits; whenever the API defines the result (divisor not zero, no overflow) the processor does not fault; other registers, the stack pointer and memory keep their values.", "quantifier": "all operands, both calling conventions, all states", "why_tests_cant": "The operand pairs are 2^128; the moves around MUL and DIV depend on the register assignment of the calling convention.", "anchors": ["sljit_src/sljitNativeX86_common.c: sljit_emit_op0", "sljit_src/sljitLir.h: sljit_emit_op0"]}
{"id": "C45", "title": "x86-64: constants and changes of generated code", "statement": "sljit_emit_const on x86-64 gives the destination the initial value (sign extended from 32 or 9 bits for SLJIT_MOV_S32 and SLJIT_MOV_U8) without changing the flags. After any sequence of sljit_set_const and sljit_set_jump_addr calls (to labels) on generated code, the code executes like the program in which the constants have the values, and the rewritable jumps the targets, set last; labels keep their addresses.", "quantifier": "all programs as in C42, all change histories, all constant values and operations, all destinations, all initial states, any number of steps", "why_tests_cant": "Histories and programs are unbounded; writing one byte too many or a wrong position damages a neighbouring instruction and shows only with particular layouts and values.", "anchors": ["sljit_src/sljitNativeX86_common.c: sljit_emit_const, sljit_set_const, sljit_set_jump_addr, sljit_generate_code", "sljit_src/sljitLir.h: sljit_emit_const, sljit_set_const"]}
{"id": "C46", "title": "x86-64: functions and calls", "statement": "On x86-64, code between sljit_emit_enter and a return (void, with a value, to an address, or by a tail call) forms a function of the platform's calling convention: the arguments arrive in the declared registers; the stack pointer leaves room for the locals and is aligned to 16 bytes; whatever a conforming body does, on leaving the callee saved registers have the values of the caller (except kept ones), the stack pointer is right, the processor continues at the return address (or the given target, read before the frame is released) and the value is returned in full; calls put the arguments where the convention expects them and do not lose the target; the return address can be read; fast calls return after the call.", "quantifier": "all function descriptions (registers, locals, arguments, kept registers), both calling conventions, all bodies, all source and destination operands, all states", "why_tests_cant": "Frame sizes, register counts, argument lists and the aliasing of sources with restored or argument registers combine to far more cases than tests cover, and bodies are arbitrary.", "anchors": ["sljit_src/sljitNativeX86_64.c: sljit_emit_enter, sljit_set_context, emit_stack_frame_release, sljit_emit_return_void, sljit_emit_return_to, call_with_args, sljit_emit_call, sljit_emit_icall, emit_fast_enter, emit_fast_return, sljit_emit_get_return_address", "sljit_src/sljitNativeX86_common.c: sljit_emit_ijump", "sljit_src/sljitLir.c: sljit_emit_return"]}
{"id": "C47", "title": "LoongArch64: immediates and constants", "statement": "On LoongArch64, loading an immediate leaves exactly the 64 bit value in the destination register and changes no other register; a constant emitted by sljit_emit_const leaves its value (a word, or the sign extension of 32 or 9 bits); after sljit_set_const the code is the code of the new value.", "quantifier": "all 64 bit values, all destination registers, all old and new values, all addresses and register contents", "why_tests_cant": "There are 2^64 values and the instruction sequences have data dependent branches on bit ranges; tests use a handful of values.", "anchors": ["sljit_src/sljitNativeLOONGARCH_64.c: load_immediate, emit_const, sljit_emit_const, sljit_set_const"]}
{"id": "C48", "title": "LoongArch64: jumps and addresses reach their targets", "statement": "On LoongArch64, a jump or call to a fixed address or a label, with or without a condition, in every form the code generator chooses, reaches its target if and only if its condition holds, calls leave the return address in the link register, and nothing else but the temporary register changes; the code fits in the space kept for it; sljit_set_jump_addr redirects rewritable jumps; sljit_emit_op_addr loads the exact address.", "quantifier": "all targets, all positions of the code, all conditions and registers, all jump forms, all old and new targets", "why_tests_cant": "The form depends on the distance; the longer forms only occur for targets hundreds of megabytes away, which no test uses.", "anchors": ["sljit_src/sljitNativeLOONGARCH_64.c: detect_jump_type, load_addr_to_reg, mov_addr_get_length, reduce_code_size, sljit_generate_code, get_jump_instruction, sljit_emit_jump, sljit_emit_cmp, sljit_set_jump_addr"]}
{"id": "C49", "title": "MIPS64: immediates and constants", "statement": "On MIPS64, loading an immediate leaves exactly the 64 bit value in the destination register and changes no other register; a constant emitted by sljit_emit_const leaves its value (a word, or the sign extension of 32 or 9 bits); after sljit_set_const the code is the code of the new value, whatever instruction follows.", "quantifier": "all 64 bit values, all destination registers, all old and new values, all addresses and register contents, all releases of the architecture", "why_tests_cant": "load_immediate normalises the value with loops and chooses between sequences of one to seven instructions by bit patterns; tests use a handful of values, and never change a constant which is directly followed by a jump.", "anchors": ["sljit_src/sljitNativeMIPS_64.c: load_immediate, emit_const, sljit_set_jump_addr", "sljit_src/sljitNativeMIPS_common.c: sljit_emit_const, sljit_set_const"]}
{"id": "C50", "title": "MIPS64: jumps and addresses reach their targets", "statement": "On MIPS64, a jump or call to a fixed address or a label, with or without a condition, in every form the code generator chooses, reaches its target if and only if its condition holds; calls leave the return address in the link register; the instruction before the jump takes effect exactly once, before the target is reached, also when it is moved to the delay slot; sljit_set_jump_addr redirects rewritable jumps; sljit_emit_op_addr loads the exact address.", "quantifier": "all targets, all positions of the code, all conditions and registers, all jump forms, all instructions before the jump, all executable offsets, all old and new targets", "why_tests_cant": "The form depends on the distance and on the 256 MB region of code and target, and on the previous instruction; tests run in one place with close targets.", "anchors": ["sljit_src/sljitNativeMIPS_common.c: invert_branch, detect_jump_type, load_addr_to_reg, mov_addr_get_length, sljit_generate_code, sljit_emit_jump, sljit_emit_cmp", "sljit_src/sljitNativeMIPS_64.c: sljit_set_jump_addr"]}
{"id": "C51", "title": "PowerPC64: immediates and constants", "statement": "On PowerPC64, loading an immediate leaves exactly the 64 bit value in the destination register and changes no other register; a constant emitted by sljit_emit_const leaves its value (a word, or the sign extension of 32 or 9 bits); after sljit_set_const the code is the code of the new value.", "quantifier": "all 64 bit values, all destination registers, all old and new values, all addresses and register contents in which the zero register is zero", "why_tests_cant": "load_immediate chooses between sequences of one to five instructions with shifts computed from leading zeros; tests use a handful of values.", "anchors": ["sljit_src/sljitNativePPC_64.c: load_immediate, emit_const, sljit_set_jump_addr", "sljit_src/sljitNativePPC_common.c: sljit_emit_const, sljit_set_const"]}
{"id": "C52", "title": "PowerPC64: jumps and addresses reach their targets", "statement": "On PowerPC64, a jump or call to a fixed address, a label or a register, with or without a condition, in every form the code generator chooses, reaches its target if and only if its condition holds; calls leave the return address in the link register and, with the ELFv2 convention, the target in register 12; the words of a jump fit in the space kept for them; sljit_set_jump_addr redirects rewritable jumps; sljit_emit_op_addr loads the exact address.", "quantifier": "all targets, all positions of the code, all conditions, both calling conventions, all jump forms, all register contents, all old and new targets", "why_tests_cant": "The form depends on the distance and on the address of the target, and the space is computed by other conditions than the form; tests run in one place with close targets.", "anchors": ["sljit_src/sljitNativePPC_common.c: detect_jump_type, mov_addr_get_length, generate_jump_or_mov_addr, reduce_code_size, get_bo_bi_flags, sljit_emit_jump, sljit_emit_ijump", "sljit_src/sljitNativePPC_64.c: sljit_set_jump_addr"]}
{"id": "C53", "title": "ARM64: constants and addresses", "statement": "On ARM64, a constant emitted by sljit_emit_const leaves its value (a word, 32 bits zero or sign extended, 9 bits sign extended) in the register and changes nothing else; after sljit_set_const the code is the code of the new value; sljit_emit_op_addr leaves exactly the address in the register, and its words fit in the space kept for them.", "quantifier": "all values, all destination registers, all old and new values, all addresses and positions of the code, all states", "why_tests_cant": "The address is built by ADR, ADRP and ADD, or two to four moves, chosen by the distance; the page of the code and the target matter, and tests run in one place.", "anchors": ["sljit_src/sljitNativeARM_64.c: emit_imm64_const, sljit_emit_const, sljit_set_const, sljit_set_jump_addr, mov_addr_get_length, generate_jump_or_mov_addr, reduce_code_size"]}
{"id": "C54", "title": "ARM64: jumps reach their targets", "statement": "On ARM64, a jump or call to a fixed address, a label or a register, without a condition, with a condition on the flags or on a register being zero, in every form the code generator chooses, reaches its target if and only if its condition holds, changing no register but the second temporary one and, for calls, the link register which gets the return address; the words of a jump fit in the space kept for them; sljit_set_jump_addr redirects rewritable jumps.", "quantifier": "all targets, all positions of the code, all conditions, all jump forms, all states, all old and new targets", "why_tests_cant": "Six forms with four distances of the inverted branch in front; the distance, the alignment to pages and the size of the address decide; tests use close targets.", "anchors": ["sljit_src/sljitNativeARM_64.c: detect_jump_type, generate_jump_or_mov_addr, reduce_code_size, sljit_emit_jump, emit_cmp_to0, sljit_emit_ijump, sljit_set_jump_addr"]}
{"id": "C55", "title": "ARM64: conditions", "statement": "On ARM64, a conditional jump after a subtraction or an addition which sets the flags jumps if and only if its condition holds for the operands (signed, unsigned, equality, overflow and carry conditions); after a floating point comparison if and only if the relation of the operands is one of those the condition names, with the two further instructions for unordered-or-equal.", "quantifier": "all operands of any width, all condition types, all jump forms, all relations of floating point operands", "why_tests_cant": "36 condition types share 16 condition codes and depend on the operation which has set the flags; tests cover a few operands for each.", "anchors": ["sljit_src/sljitNativeARM_64.c: get_cc, sljit_emit_jump, sljit_emit_fop1_cmp", "sljit_src/sljitLir.h: SLJIT_EQUAL ... SLJIT_ORDERED_LESS_EQUAL"]}
{"id": "C56", "title": "ARM64: operations with two operands", "statement": "On ARM64, sljit_emit_op2, sljit_emit_op2u and sljit_emit_op2r (additions and subtractions with and without carry, multiplication, logical operations, shifts, rotations, multiply-add; 32 and 64 bits; registers and immediates in both places) generate code which computes exactly the result of the operation into the destination, changes no other register of the API and no memory, leaves the flags alone when no flag was asked for, and otherwise makes every condition type which is defined for the operation hold if and only if it should, so that a conditional jump after it is taken if and only if the condition holds for the operands.", "quantifier": "all operations, both widths, all registers, all immediates of 64 bits in either or both places, all register values and flags, all condition types, all jump targets", "why_tests_cant": "Each immediate is encoded in one of ten ways (12 bits, shifted, negated, two instructions, bit patterns, moved to a temporary register), chosen by its value; flags of a negated immediate or of a multiplication are computed indirectly. Tests use a few constants.", "anchors": ["sljit_src/sljitNativeARM_64.c: emit_op_imm, sljit_emit_op2, sljit_emit_op2u, sljit_emit_op2r", "sljit_src/sljitLir.h: SLJIT_ADD ... SLJIT_MULADD"]}
{"id": "C57", "title": "ARM64: operations with one operand and with none", "statement": "On ARM64, sljit_emit_op1 (moves with all conversions, leading and trailing zero counts, byte reversals; registers, and immediates for moves) leaves exactly the result in the destination and changes nothing else; sljit_emit_op0 leaves the two words of the product, or quotient and remainder (rounded to zero, with the sign of the dividend), in R0 and R1 for every dividend and divisor for which the result is defined.", "quantifier": "all operations, both widths, all registers, all immediates, all register values", "why_tests_cant": "Results depend on all bits of the operands; signs and widths are combined by tests for a few values only.", "anchors": ["sljit_src/sljitNativeARM_64.c: emit_op_imm, sljit_emit_op1, sljit_emit_op0", "sljit_src/sljitLir.h: SLJIT_MOV ... SLJIT_REV_S32, SLJIT_LMUL_UW ... SLJIT_DIV_SW"]}
{"id": "C58", "title": "ARM64: operands in memory", "statement": "On ARM64, every load and store which sljit generates for a memory operand (base and offset, base and shifted index, absolute address, local area; 1, 2, 4 or 8 bytes, with and without sign) accesses exactly the bytes at the address of the operand, extends them as asked, and changes no other byte, no flag and no register but the destination and one temporary register; and sljit_emit_op1, sljit_emit_op2, sljit_emit_op2u and sljit_emit_op2r with any of the operands or the destination in memory compute the same results as with registers.", "quantifier": "all address forms, all offsets of 64 bits, all index shifts, all sizes, all operations and widths, all register values and memory contents, addresses which wrap around and overlap", "why_tests_cant": "An offset is encoded in one of eight ways depending on its value, alignment and sign; the boundaries (0xfff scaled, 0xffffff, -0xfff000, -0xfff100, 0xfff0ff, carries of the low twelve bits) are hit by few tests.", "anchors": ["sljit_src/sljitNativeARM_64.c: emit_op_mem, sljit_emit_op1, sljit_emit_op2", "sljit_src/sljitLir.h: SLJIT_MEM0, SLJIT_MEM1, SLJIT_MEM2"]}
{"id": "C59", "title": "ARM64: double shifts", "statement": "On ARM64, sljit_emit_shift_into shifts the first source by the count modulo the width and fills the vacated bits from the second source, for counts in registers (also the destination), immediates and memory, for both directions and widths, changing only the destination; the count may be zero unless SLJIT_SHIFT_INTO_NON_ZERO is given. (False for an immediate count of zero and a destination other than the first source.)", "quantifier": "all registers (the destination differs from the second source), all counts, all register values and memory contents", "why_tests_cant": "The result depends on the count, three operands and their aliases; count zero is a special case of every sequence.", "anchors": ["sljit_src/sljitNativeARM_64.c: sljit_emit_shift_into", "sljit_src/sljitLir.h: sljit_emit_shift_into"]}
{"id": "C60", "title": "ARM64: function entry and return", "statement": "On ARM64, the code generated by sljit_emit_enter gives the function a frame of at least the requested local size with the stack pointer aligned to 16 bytes, the frame pointer set, every integer argument in the saved or scratch register named by the API, floating point arguments in place and no byte of memory above the frame changed; and whatever the body does to the registers it declared, to registers not preserved by calls and to memory outside of the saved area, the code of sljit_emit_return_void continues at the return address of the caller with the stack pointer, the frame pointer, x19-x28 (except the registers of SLJIT_ENTER_KEEP) and the low halves of v8-v15 of the caller, and with the registers of the return values as the body left them. The release of the frame in sljit_emit_return_to does the same.", "quantifier": "all counts of scratch, saved and floating point registers, all local sizes up to SLJIT_MAX_LOCAL_SIZE, all argument lists, SLJIT_ENTER_REG_ARG and SLJIT_ENTER_KEEP, all states of the caller, all bodies which keep to the rules", "why_tests_cant": "The frame is built in three ways and released in five depending on its size, and registers are paired across two loops with a shared last slot for an odd number of integer and floating point registers; a wrong slot is visible only for particular counts and when the caller depends on the register.", "anchors": ["sljit_src/sljitNativeARM_64.c: sljit_emit_enter, emit_stack_frame_release, sljit_emit_return_void", "sljit_src/sljitLir.c: GET_SAVED_REGISTERS_SIZE, set_emit_enter", "sljit_src/sljitLir.h: sljit_emit_enter, SLJIT_ENTER_KEEP"]}
{"id": "C61", "title": "ARM64: conditions as values and the choice between two values", "statement": "On ARM64, sljit_emit_op_flags with SLJIT_MOV or SLJIT_MOV32 sets a register to 0 or 1, or exactly the bytes of a memory operand to that number, as the condition holds in the flags; with SLJIT_AND, SLJIT_OR and SLJIT_XOR (32 bit or not, setting flags or not) it combines the destination with that number as the operation with two operands does; sljit_emit_select sets the destination to the first source (register, immediate or memory) if the condition holds and to the second source if not. Flags not to be set, other registers and other memory are kept.", "quantifier": "all conditions, after additions, subtractions and other operations, all registers, immediates and address forms, all states", "why_tests_cant": "The condition is tested inverted and the operand must be fetched without changing the flags; a wrong inversion for one of the 36 conditions, or an address needing extra instructions which disturb flags or operands, shows only for particular combinations.", "anchors": ["sljit_src/sljitNativeARM_64.c: sljit_emit_op_flags, sljit_emit_select, get_cc", "sljit_src/sljitLir.h: sljit_emit_op_flags, sljit_emit_select"]}
{"id": "C62", "title": "ARM64: leaving a function for another place, the return address, fast calls", "statement": "On ARM64, sljit_emit_return_to continues at the address which its source operand (register or memory) has in the body, with the registers, the stack pointer and the frame pointer of the caller restored, although the source may be a saved register which is restored or a place in the frame which is freed; SLJIT_GET_RETURN_ADDRESS gives, at any time of the body, the address at which sljit_emit_return_void continues; SLJIT_FAST_ENTER moves the return address of a fast call to a register or exactly the bytes of a memory operand, and SLJIT_FAST_RETURN continues at the value of its operand; registers of the API, flags and memory are otherwise kept.", "quantifier": "all functions (as for C60), all bodies which keep to the rules, all register and memory operands of all address forms, all states", "why_tests_cant": "The order of fetching the source and restoring the registers matters only for sources which are restored, that depends on the number of saved and kept registers; the place of the return address must agree with the frame for every size.", "anchors": ["sljit_src/sljitNativeARM_64.c: sljit_emit_return_to, sljit_emit_ijump, sljit_emit_op_src, sljit_emit_op_dst, emit_stack_frame_release", "sljit_src/sljitLir.h: sljit_emit_return_to, SLJIT_FAST_ENTER, SLJIT_FAST_RETURN, SLJIT_GET_RETURN_ADDRESS"]}
{"id": "C63", "title": "ARM64: calls which return to the caller of the function, calls to computed addresses", "statement": "On ARM64, sljit_emit_icall with SLJIT_CALL_RETURN continues at the address which its source operand (register or memory) has in the body, with the registers, stack pointer, frame pointer and return address the function was entered with, so that the called function returns to the caller of the function; sljit_emit_call with SLJIT_CALL_RETURN restores the same before its jump, and the registers which are not restored (the arguments of the call) keep their values. Without SLJIT_CALL_RETURN, sljit_emit_icall continues at the value of its source with the address after its code as return address, and changes no register of the API, no flag and no memory.", "quantifier": "all functions (as for C60), all bodies which keep to the rules (including those which made calls), all register and memory operands of all address forms, all states and code addresses", "why_tests_cant": "A tail call which loses the return address works until the callee returns; whether the source is overwritten by the restored registers depends on the number of saved and kept registers.", "anchors": ["sljit_src/sljitNativeARM_64.c: sljit_emit_call, sljit_emit_icall, sljit_emit_ijump, emit_stack_frame_release", "sljit_src/sljitLir.h: SLJIT_CALL_RETURN, sljit_emit_call, sljit_emit_icall"]}
{"id": "C64", "title": "ARM64: comparisons followed by a jump", "statement": "On ARM64, the code of sljit_emit_cmp (with its linked jump) reaches the target if and only if the relation (equality, signed or unsigned order, 32 or 64 bit) holds between the values of its operands, each a register, an immediate or in memory, and otherwise goes on after its words; no register of the API and no memory changes. The code of sljit_emit_op2cmpz stores the result of the operation in its destination, sets the flags as sljit_emit_op2 does, and reaches the target if and only if the result is zero (or is not zero, without SLJIT_JUMP_IF_ZERO).", "quantifier": "all ten relations, both lengths, all operand forms (also two immediates), all values and states, all code and target addresses and all forms of the jump, rewritable or not; all operations of sljit_emit_op2cmpz with a documented zero flag", "why_tests_cant": "An immediate first operand exchanges the operands and the relation, comparisons with zero use another instruction which the linker may invert, and the distance of the target selects the form of the jump; the combinations of these and the values are too many to execute.", "anchors": ["sljit_src/sljitLir.c: sljit_emit_cmp, sljit_emit_op2cmpz", "sljit_src/sljitNativeARM_64.c: emit_cmp_to0, sljit_emit_jump, sljit_emit_op2, sljit_emit_op2u, detect_jump_type, generate_jump_or_mov_addr", "sljit_src/sljitLir.h: sljit_emit_cmp, sljit_emit_op2cmpz"]}
{"id": "C65", "title": "ARM64: replicating an integer to the lanes of a vector register", "statement": "On ARM64, sljit_emit_simd_replicate with an integer element type and a register or immediate source always produces code whose execution leaves in every lane of the vector register the low bits of the source, and zero above a 64 bit register; no other vector register, no register of the API, no flag and no memory changes.", "quantifier": "all element sizes, both register sizes, all 2^64 immediates, all source and vector registers, all states", "why_tests_cant": "simd_get_imm chooses among ten forms of an instruction with an eight bit immediate (shifted, filled with ones, inverted, repeated); a wrong choice is wrong only for a few of the 2^64 immediates.", "anchors": ["sljit_src/sljitNativeARM_64.c: simd_get_imm, sljit_emit_simd_replicate", "sljit_src/sljitLir.h: sljit_emit_simd_replicate"]}
