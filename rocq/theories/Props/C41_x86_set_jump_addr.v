(** C41: rewritable jumps, sljit_set_jump_addr on x86-64. *)
Require Import ZArith List Bool Lia.
From Verif Require Import Rv.RvLib Rv.RvIsa X86.X86Isa X86.X86Emit X86.X86Spec X86.X86OpSpec X86.X86Cond X86.X86Link X86.X86LinkSpec X86.X86C38.
Import ListNotations.
Open Scope Z_scope.

(** After any sequence of sljit_set_jump_addr calls on rewritable jumps, each rewritable jump goes to the last target set for it (or to its original target), and
    everything else is laid out as before.  Full statement: the theorem without the hypothesis on [mov_label] and without the exceptions [bad_jump], [bad_mov] of
    the other jumps and addresses, see C39_jump_refuted, C40_addr_refuted and C38_memory_refuted; rewritable jumps have no exceptions. *)
Theorem C41_set_jump_addr_partial : forall win code eo calls, prog_ok win code eo calls -> mov_label false calls = false ->
  exists g, generate win code eo (emits win calls) = Some g /\ forall h, hist_ok g h -> laid win code eo g (fold_left (set_jump code g) h (rb g)) (last_set h) comp0 calls 0.
Proof. exact link_set. Qed.
Print Assumptions C41_set_jump_addr_partial.

(** A rewritable conditional jump and a rewritable call; both are set, the first one twice. *)
Definition prog : list call := [KLabel; KJump (JCond 1) true (TLabel 0); KJump JAlways false (TLabel 0); KJump JCall true (TAddr 5); KIns [0xc3]].
Example C41_case : prog_ok false (2 ^ 40) 0 prog /\ mov_label false prog = false
  /\ match generate false (2 ^ 40) 0 (emits false prog) with
     | Some g => hist_ok g [(0%nat, 7); (2%nat, 2 ^ 63); (0%nat, 0x1122334455667788)] /\
       fold_left (set_jump (2 ^ 40) g) [(0%nat, 7); (2%nat, 2 ^ 63); (0%nat, 0x1122334455667788)] (rb g) =
         [0x74; 13; 0x49; 0xb9; 0x88; 0x77; 0x66; 0x55; 0x44; 0x33; 0x22; 0x11; 0x41; 0xff; 0xe1] ++ [0xeb; 0xef] ++ [0x49; 0xb9; 0; 0; 0; 0; 0; 0; 0; 0x80; 0x41; 0xff; 0xd1] ++ [0xc3]
     | None => False end.
Proof. split; [pok|]. split; [reflexivity|]. 
  match goal with |- match ?x with _ => _ end => let r := eval vm_compute in x in replace x with r by (vm_compute; reflexivity) end. split; [|vm_compute; reflexivity].
  repeat (apply Forall_cons; [split; [cbn; lia|split; [reflexivity|unfold isw; cbn [snd]; lia]]|]). apply Forall_nil.
Qed.
