(** C38: the memory written by sljit_generate_code on x86-64. *)
Require Import ZArith List Bool Lia.
From Verif Require Import Rv.RvLib Rv.RvIsa X86.X86Isa X86.X86Emit X86.X86Spec X86.X86OpSpec X86.X86Cond X86.X86Link X86.X86LinkSpec X86.X86C38.
Import ListNotations.
Open Scope Z_scope.

(** Full statement: for every program, everything written stays inside of the allocated memory (rtop <= ralloc).  It is false of the code, see C38_memory_refuted.
    Missing: programs with a label directly after sljit_emit_op_addr (the size reduction is wrong for them), and programs where less than 5 bytes of
    instructions follow a sljit_emit_op_addr (the ten byte instruction is copied before it is shortened; then up to 5 bytes after the memory are written,
    although the final code fits). *)
Theorem C38_memory_partial : forall win code eo calls, prog_ok win code eo calls -> mov_label false calls = false ->
  exists g, generate win code eo (emits win calls) = Some g /\ zlen (rb g) <= ralloc g <= csize (emits win calls) /\ rtop g <= ralloc g + 5 /\ (mov_tail calls -> rtop g <= ralloc g).
Proof. exact link_memory. Qed.
Print Assumptions C38_memory_partial.

(** op_addr; label; 128 bytes; jump to the label: the code does not fit.  op_addr; ret: bytes after the memory are written. *)
Theorem C38_memory_refuted : exists calls1 calls2 code,
  (prog_ok false code 0 calls1 /\ match generate false code 0 (emits false calls1) with Some g => ralloc g < zlen (rb g) | None => False end)
  /\ (prog_ok false code 0 calls2 /\ mov_label false calls2 = false /\ match generate false code 0 (emits false calls2) with Some g => zlen (rb g) <= ralloc g < rtop g | None => False end).
Proof. exact memory_wrong. Qed.
Print Assumptions C38_memory_refuted.

(** A loop with a forward and a backward jump, an aligned label and an address: 170 bytes are estimated, 146 allocated, 140 used. *)
Definition prog : list call :=
  [KJump JAlways false (TLabel 1); KLabel; KIns (repeat 0x90 120); KLabel; KJump (JCond 0) false (TLabel 0); KAlign 3; KMov 1 (TLabel 0); KIns [0x90; 0x90; 0x90; 0x90; 0xc3]].
Example C38_case : prog_ok false (2 ^ 40) 0 prog /\ mov_label false prog = false /\ mov_tail prog
  /\ csize (emits false prog) = 170 /\ match generate false (2 ^ 40) 0 (emits false prog) with Some g => ralloc g = 146 /\ zlen (rb g) = 140 | None => False end.
Proof. split; [pok|]. vm_compute. repeat split; congruence. Qed.
