(** C11: rewritable constants (RISC-V 64). *)
Require Import ZArith List Bool Lia.
From Verif Require Import Rv.RvLib Rv.RvIsa Rv.RvEnc Rv.RvImm Rv.RvRun Rv.RvImmProofs Rv.RvConst Rv.RvTop1.
Import ListNotations.
Open Scope Z_scope.

(** For every initial value and every history [vs] of sljit_set_const calls: no assertion fails, the length of the code does not change,
    and the rewritten code loads the last value: all 64 bits for SLJIT_MOV, the sign extended low 32 bits for SLJIT_MOV32 and
    SLJIT_MOV_S32, the documented 9 bit signed value for SLJIT_MOV_U8; nothing else than the destination and the temporary register changes. *)
Theorem C11_constant_rewrite : forall op d init vs code s, vreg d -> d <> 0 -> d <> TMP_REG3 -> isw (pc s) ->
  exists inst, set_consts op (halfwords (emit_const_op op d init)) vs = Some inst /\
    length inst = length (halfwords (emit_const_op op d init)) /\
   (code_at code (pc s) inst ->
    exists s', steps code s s' /\ pc s' = behind s inst /\ rd s' d = const_value op (last vs init) /\ same_but s s' [d; TMP_REG3]).
Proof. exact const_machine. Qed.
Print Assumptions C11_constant_rewrite.

(** The meaning of [const_value] for values in the documented ranges. *)
Theorem C11_values : forall v,
  (0 <= v < 2 ^ 64 -> const_value CMov v = v) /\
  (-2 ^ 31 <= v < 2 ^ 31 -> const_value CMov32 v = wrap v /\ const_value CMovS32 v = wrap v) /\
  (-256 <= v <= 255 -> const_value CMovU8 v = wrap v).
Proof.
  intros v. split; [|split]; intros H.
  - apply wrap_small. exact H.
  - unfold const_value. rewrite sext_small by lia. auto.
  - unfold const_value. rewrite sext_small by lia. auto.
Qed.
Print Assumptions C11_values.

(** A constant starting at -1, rewritten to 0x7ffff800 and then to 0x800000007ffff800. *)
Example C11_case : exists inst,
  set_consts CMov (halfwords (emit_const_op CMov 1 (-1))) [0x7ffff800; -0x7fffffff80000800] = Some inst /\
  code_at (place 0x10000 inst) (pc (st0 0x10000)) inst /\
  exists s', steps (place 0x10000 inst) (st0 0x10000) s' /\ pc s' = 0x10018 /\ rd s' 1 = 0x800000007ffff800.
Proof.
  set (inst := match set_consts CMov (halfwords (emit_const_op CMov 1 (-1))) [0x7ffff800; -0x7fffffff80000800] with Some l => l | None => [] end).
  exists inst. split; [reflexivity|].
  assert (C : code_at (place 0x10000 inst) (pc (st0 0x10000)) inst) by (apply place_at; vm_compute; congruence).
  split; [exact C|].
  destruct (C11_constant_rewrite CMov 1 (-1) [0x7ffff800; -0x7fffffff80000800] (place 0x10000 inst) (st0 0x10000)) as (i2 & E & L & G);
    try (unfold vreg, isw, TMP_REG3; cbn; lia).
  assert (i2 = inst) as -> by (unfold inst; rewrite E; reflexivity).
  destruct (G C) as (s' & S & P & V & K). exists s'. split; [exact S|]. split; [exact P|exact V].
Qed.
