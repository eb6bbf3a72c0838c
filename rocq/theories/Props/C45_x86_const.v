(** C45: constants on x86-64, and programs changed after their code was generated. *)
Require Import ZArith List Bool Lia.
From Verif Require Import Rv.RvLib Rv.RvIsa Rv.RvMem Rv.RvOp Rv.RvLir Rv.RvCond X86.X86Isa X86.X86Emit X86.X86Spec X86.X86OpSpec X86.X86Op X86.X86Op2Top X86.X86Op1 X86.X86C34 X86.X86Link X86.X86LinkSpec
  X86.X86C38 X86.X86Const X86.X86ConstP X86.X86Lir X86.X86Prog X86.X86Hist X86.X86C45.
Import ListNotations.
Open Scope Z_scope.

(** The code of sljit_emit_const gives the destination the value and keeps the flags and all other registers but the temporaries. *)
Theorem C45_const : forall u w c D Dw v s, xdst_legal D Dw -> - 2 ^ 63 <= v < 2 ^ 63 -> xwf s ->
  does u (const_code w c D Dw v) s (fun s' => wrote1 w (const_bits c) (const_size c) True TMPS s D Dw (const_val c v) s' /\ flags_same s s').
Proof. exact const_ok. Qed.
Print Assumptions C45_const.

(** sljit_set_const turns the code of a constant into the code of the same constant with another value, of the same length. *)
Theorem C45_set : forall w c D Dw v pre post, emit_const w c D Dw v = Some (pre, post) ->
  exists h, pre = h ++ const_bytes c v /\ forall v', emit_const w c D Dw v' = Some (h ++ const_bytes c v', post).
Proof. exact const_shape. Qed.
Print Assumptions C45_set.

(** After any history of sljit_set_const and sljit_set_jump_addr (to labels) calls, the code behaves as the program with the changed constants and jumps; the labels
    keep their addresses.
    Full statement: without the exclusions in [lir_ok] and without the hypothesis on [mov_label], as in C42. *)
Theorem C45_changes_partial : forall w lz tz cmov p G code eo, compiled w lz tz cmov p G -> Forall (lir_ok p) p -> mov_label false (concat G) = false ->
  csize (emits w (concat G)) <= 2 ^ 31 - 32 -> 0 <= code -> 0 <= code + eo -> code + eo + csize (emits w (concat G)) + 15 < 2 ^ 64 -> code + csize (emits w (concat G)) <= 2 ^ 64 ->
  exists g, generate w code eo (emits w (concat G)) = Some g /\ forall h, Forall (ch_ok p) h ->
    let p' := fold_left change h p in let b := fold_left (set_ch w code p G g) h (rb g) in
    exists P, P 0%nat = 0 /\ P (length p) = zlen b /\
    (forall j x, nth_error p j = Some x -> is_label x = true -> laddr (nth (lno w G j) (rlabels g) (mkXL 0 None 0)) = xpos code eo (P (S j))) /\
    forall codef u n i a s, fetches code eo b codef -> agrees w a s -> safe p' (fun j => xpos code eo (P (S j))) n i a ->
      exists i' a' s', goes p' (fun j => xpos code eo (P (S j))) n i a i' a' /\ csteps codef u (xpos code eo (P i)) s (xpos code eo (P i')) s' /\ agrees w a' s'.
Proof. exact program_changes. Qed.
Print Assumptions C45_changes_partial.

(** A byte constant stored to memory: 0x1fe is -2 as a 9 bit value, and the byte 0xfe (mov rdx, -2; mov [rax + 8], dl; the constant is before the address in the middle). *)
Example C45_byte : emit_const false (CMovU8 false) (AMem 1 0) 8 0x1fe = Some ([72; 199; 194; 254; 255; 255; 255], [64; 136; 80; 8]) /\ const_val (CMovU8 false) 0x1fe = -2
  /\ xdst_legal (AMem 1 0) 8.
Proof. split; [vm_compute; reflexivity|]. split; [reflexivity|]. legal. Qed.
(** The program of X86C45.v: SLJIT_R0 = 5; a rewritable jump to the next instruction; SLJIT_R0 += 1.  With the constant changed to any [v] and the jump to the end,
    the code leaves [v] in SLJIT_R0 (rax = 0). *)
Example C45_hypotheses : compiled false true true true var_prog var_calls /\ Forall (lir_ok var_prog) var_prog /\ mov_label false (concat var_calls) = false
  /\ csize (emits false (concat var_calls)) = 27 /\ forall v, - 2 ^ 63 <= v < 2 ^ 63 -> Forall (ch_ok var_prog) (changes v) /\ forall adr a, safe (fold_left change (changes v) var_prog) adr 2 0 a.
Proof. split; [exact var_compiled|]. split; [exact var_ok|]. split; [reflexivity|]. split; [exact var_size|]. intros v V. split; [exact (changes_ok v V)|]. intros. apply var_safe. Qed.
Example C45_runs : rb var_gen = [72; 184; 5; 0; 0; 0; 0; 0; 0; 0; 73; 185; 23; 0; 0; 0; 0; 1; 0; 0; 65; 255; 225; 72; 131; 192; 1]
  /\ var_code (-2) = [72; 184; 254; 255; 255; 255; 255; 255; 255; 255; 73; 185; 27; 0; 0; 0; 0; 1; 0; 0; 65; 255; 225; 72; 131; 192; 1]
  /\ forall v codef u s, - 2 ^ 63 <= v < 2 ^ 63 -> fetches (2 ^ 40) 0 (var_code v) codef -> xwf s ->
     exists s', csteps codef u (2 ^ 40) s (2 ^ 40 + zlen (var_code v)) s' /\ xr s' 0 = v mod 2 ^ 64 /\ xm s' = xm s.
Proof. split; [reflexivity|]. split; [vm_compute; reflexivity|]. exact var_runs. Qed.
