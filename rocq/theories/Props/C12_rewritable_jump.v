(** C12: rewritable jumps and calls (RISC-V 64). *)
Require Import ZArith List Bool Lia.
From Verif Require Import Rv.RvLib Rv.RvIsa Rv.RvEnc Rv.RvImm Rv.RvRun Rv.RvImmProofs Rv.RvAddr Rv.RvAddrProofs Rv.RvTop1.
Import ListNotations.
Open Scope Z_scope.

(** For every first target and every history [ts] of sljit_set_jump_addr calls: no assertion fails, and executing the jump leads to
    the last target; a call leaves the address after the sequence in the return address register; nothing else than
    the temporaries changes. *)
Theorem C12_jump_rewrite : forall call init ts code s,
  -2 ^ 63 <= last ts init < 2 ^ 63 -> last ts init mod 2 = 0 -> isw (pc s) ->
  exists inst, set_jump_addrs (rewritable_units false call TMP_REG1 init) ts = Some inst /\ length inst = 12%nat /\
  (code_at code (pc s) inst ->
   exists s', steps code s s' /\ pc s' = wrap (last ts init) /\
    (call = true -> rd s' RETURN_ADDR_REG = wrap (pc s + 24)) /\
    same_but s s' (TMP_REG1 :: TMP_REG3 :: if call then [RETURN_ADDR_REG] else [])).
Proof. exact rewritable_jump_ok. Qed.
Print Assumptions C12_jump_rewrite.

(** A call first aimed at 0x1000, then at 0x7fffff800, then at 0xfffffffffffff800. *)
Example C12_case : exists inst,
  set_jump_addrs (rewritable_units false true TMP_REG1 0x1000) [0x7fffff800; -0x800] = Some inst /\
  code_at (place 0x10000 inst) (pc (st0 0x10000)) inst /\
  exists s', steps (place 0x10000 inst) (st0 0x10000) s' /\ pc s' = 0xfffffffffffff800 /\ rd s' RETURN_ADDR_REG = 0x10018.
Proof.
  set (inst := match set_jump_addrs (rewritable_units false true TMP_REG1 0x1000) [0x7fffff800; -0x800] with Some l => l | None => [] end).
  exists inst. split; [reflexivity|].
  assert (C : code_at (place 0x10000 inst) (pc (st0 0x10000)) inst) by (apply place_at; vm_compute; congruence).
  split; [exact C|].
  destruct (C12_jump_rewrite true 0x1000 [0x7fffff800; -0x800] (place 0x10000 inst) (st0 0x10000)) as (i2 & E & L & G);
    try reflexivity; try (unfold isw; cbn; lia).
  assert (i2 = inst) as -> by (unfold inst; rewrite E; reflexivity).
  destruct (G C) as (s' & S & P & V & K). exists s'. split; [exact S|]. split; [exact P|]. apply V. reflexivity.
Qed.
