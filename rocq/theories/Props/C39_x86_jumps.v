(** C39: labels, jumps and instructions in the code generated on x86-64. *)
Require Import ZArith List Bool Lia.
From Verif Require Import Rv.RvLib Rv.RvIsa X86.X86Isa X86.X86Emit X86.X86Spec X86.X86OpSpec X86.X86Cond X86.X86Link X86.X86LinkSpec X86.X86C38.
Import ListNotations.
Open Scope Z_scope.

(** Full statement: the theorem without the hypothesis on [mov_label] and without the exception [bad_jump] inside of [call_laid].  It is false of the code, see
    C39_jump_refuted and C38_memory_refuted. *)
Theorem C39_laid_partial : forall win code eo calls, prog_ok win code eo calls -> mov_label false calls = false ->
  exists g, generate win code eo (emits win calls) = Some g /\ laid win code eo g (rb g) (fun _ => None) comp0 calls 0.
Proof. exact link_laid. Qed.
Print Assumptions C39_laid_partial.

(** An unconditional jump to an absolute address 2^31 after its end, a conditional jump to an absolute address 2^31 + 1 before its end: the distances do not fit
    into the 32 bit displacements which are used. *)
Theorem C39_jump_refuted :
  (let T := P40 + 6 + HMAX in prog_ok false P40 0 [KJump JAlways false (TAddr T)] /\
    match generate false P40 0 (emits false [KJump JAlways false (TAddr T)]) with Some g => ~ jump_runs false P40 0 (rb g) JAlways T 0 (zlen (rb g)) | None => False end)
  /\ (let T := P40 + 5 + HMIN in prog_ok false P40 0 [KJump (JCond 0) false (TAddr T)] /\
    match generate false P40 0 (emits false [KJump (JCond 0) false (TAddr T)]) with Some g => ~ jump_runs false P40 0 (rb g) (JCond 0) T 0 (zlen (rb g)) | None => False end).
Proof. exact jump_wrong. Qed.
Print Assumptions C39_jump_refuted.

(** xor eax, eax; L0: inc eax; je L1; jmp L0; call 5 (32 bit absolute); call 2^63 (64 bit absolute); L1 (aligned to 8): ret. *)
Definition prog : list call :=
  [KIns [0x31; 0xc0]; KLabel; KIns [0xff; 0xc0]; KJump (JCond 0) false (TLabel 1); KJump JAlways false (TLabel 0); KJump JCall false (TAddr 5); KJump JCall false (TAddr (2 ^ 63)); KAlign 3; KIns [0xc3]].
Example C39_case : prog_ok false (2 ^ 40) 16 prog /\ mov_label false prog = false
  /\ match generate false (2 ^ 40) 16 (emits false prog) with
     | Some g => rb g = [0x31; 0xc0; 0xff; 0xc0; 0x74; 0x1a; 0xeb; 0xfa] ++ [0x41; 0xb9; 5; 0; 0; 0; 0x41; 0xff; 0xd1] ++ [0x49; 0xb9; 0; 0; 0; 0; 0; 0; 0; 0x80; 0x41; 0xff; 0xd1] ++ [0x90; 0x90] ++ [0xc3]
                /\ map laddr (rlabels g) = [2 ^ 40 + 16 + 2; 2 ^ 40 + 16 + 32]
     | None => False end.
Proof. split; [pok|]. split; [reflexivity|]. vm_compute. split; reflexivity. Qed.
