(** C10: load_immediate (RISC-V 64) loads every 64 bit value. *)
Require Import ZArith List Bool Lia.
From Verif Require Import Rv.RvLib Rv.RvIsa Rv.RvEnc Rv.RvImm Rv.RvRun Rv.RvImmProofs Rv.RvTop1.
Import ListNotations.
Open Scope Z_scope.

(** Whatever the value, the destination and the temporary register are (and with or without compressed
    instructions): executing the emitted code from any machine state leads to the address after the code with the value in
    the destination; memory, the float registers and all registers but the destination and the temporary are unchanged. *)
Theorem C10_immediate_exact : forall c d t imm code s,
  vreg d -> vreg t -> d <> 0 -> d <> SLJIT_SP -> t <> 0 -> t <> d -> -2 ^ 63 <= imm < 2 ^ 63 -> isw (pc s) ->
  code_at code (pc s) (halfwords (load_immediate c d imm t)) ->
  exists s', steps code s s' /\ pc s' = behind s (halfwords (load_immediate c d imm t)) /\
    rd s' d = wrap imm /\ same_but s s' [d; t].
Proof. exact load_immediate_machine. Qed.
Print Assumptions C10_immediate_exact.

(** A case with the longest sequence: 0x123456789abcdef0 into SLJIT_R0 at address 0x10000, 32 bit instructions only. *)
Example C10_case : let l := halfwords (load_immediate (mkCfg false true true) 1 0x123456789abcdef0 TMP_REG3) in
  code_at (place 0x10000 l) (pc (st0 0x10000)) l /\ length l = 12%nat /\
  exists s', steps (place 0x10000 l) (st0 0x10000) s' /\ pc s' = 0x10018 /\ rd s' 1 = 0x123456789abcdef0 /\ rd s' 2 = 7.
Proof.
  intros l. assert (C : code_at (place 0x10000 l) (pc (st0 0x10000)) l) by (apply place_at; vm_compute; congruence).
  split; [exact C|]. split; [reflexivity|].
  destruct (C10_immediate_exact (mkCfg false true true) 1 TMP_REG3 0x123456789abcdef0 (place 0x10000 l) (st0 0x10000)) as (s' & S & P & V & (_ & _ & K));
    try exact C; try (unfold vreg, isw, TMP_REG3, SLJIT_SP; cbn; lia).
  exists s'. split; [exact S|]. split; [exact P|]. split; [exact V|].
  unfold rd. rewrite K; [reflexivity|vm_compute; intuition congruence|vm_compute; intuition congruence].
Qed.
