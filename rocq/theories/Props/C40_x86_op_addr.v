(** C40: sljit_emit_op_addr on x86-64. *)
Require Import ZArith List Bool Lia.
From Verif Require Import Rv.RvLib Rv.RvIsa X86.X86Isa X86.X86Emit X86.X86Spec X86.X86OpSpec X86.X86Cond X86.X86Link X86.X86LinkSpec X86.X86C38.
Import ListNotations.
Open Scope Z_scope.

(** Full statement: the theorem without the hypotheses on [mov_label] and [bad_mov].  It is false of the code, see C40_addr_refuted and C38_memory_refuted.
    [laid]: the calls made after it are at the position where execution goes on. *)
Theorem C40_addr_partial : forall win code eo calls1 reg t calls2, let calls := calls1 ++ KMov reg t :: calls2 in prog_ok win code eo calls -> mov_label false calls = false ->
  exists g pos pos', generate win code eo (emits win calls) = Some g /\ 0 <= pos /\ (~ bad_mov code eo t pos -> mov_runs win code eo (rb g) reg (taddr g t) pos pos')
    /\ laid win code eo g (rb g) (fun _ => None) (emits win (calls1 ++ [KMov reg t])) calls2 pos'.
Proof. exact link_mov. Qed.
Print Assumptions C40_addr_partial.

(** The address of code 2^31 + 8 bytes away: a LEA relative to the instruction pointer is used, but the distance does not fit into its displacement. *)
Theorem C40_addr_refuted :
  let T := P40 + 10 + HMAX - 1 in prog_ok false P40 0 [KMov 1 (TAddr T)] /\ mov_label false [KMov 1 (TAddr T)] = false /\
    match generate false P40 0 (emits false [KMov 1 (TAddr T)]) with Some g => ~ mov_runs false P40 0 (rb g) 1 T 0 (zlen (rb g)) | None => False end.
Proof. exact mov_wrong. Qed.
Print Assumptions C40_addr_refuted.

(** The address of a later label into SLJIT_S0, two absolute addresses. *)
Definition prog : list call := [KMov 13 (TLabel 0); KMov 1 (TAddr (2 ^ 62)); KMov 2 (TAddr 0xfffffff0); KIns (repeat 0x90 5); KLabel].
Example C40_case : prog_ok false (2 ^ 40) 16 prog /\ mov_label false prog = false
  /\ match generate false (2 ^ 40) 16 (emits false prog) with
     | Some g => rb g = [0x48; 0x8d; 0x1d; 20; 0; 0; 0] ++ [0x48; 0xb8; 0; 0; 0; 0; 0; 0; 0; 0x40] ++ [0xbe; 0xf0; 0xff; 0xff; 0xff] ++ repeat 0x90 5
                /\ map laddr (rlabels g) = [2 ^ 40 + 16 + 27]
     | None => False end.
Proof. split; [pok|]. split; [reflexivity|]. vm_compute. split; reflexivity. Qed.
