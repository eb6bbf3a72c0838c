(** Machine-level forms of the theorems about immediates and constants. *)
Require Import ZArith List Bool Lia Zify ZifyBool.
From Verif Require Import Rv.RvLib Rv.RvBits Rv.RvIsa Rv.RvEnc Rv.RvImm Rv.RvRun Rv.RvImmProofs Rv.RvConst Rv.RvAddr Rv.RvCtl Rv.RvAddrProofs.
Import ListNotations.
Open Scope Z_scope.

(** The halfwords an emission puts into the code. *)
Definition halfwords (e : em) : list Z := units_of (flat e).
(** After executing the instructions at the pc, the pc is behind them. *)
Definition behind (s : mst) (l : list Z) : Z := wrap (pc s + 2 * Z.of_nat (length l)).

Lemma load_immediate_machine c d t imm code s :
  vreg d -> vreg t -> d <> 0 -> d <> SLJIT_SP -> t <> 0 -> t <> d -> -2 ^ 63 <= imm < 2 ^ 63 -> isw (pc s) ->
  code_at code (pc s) (halfwords (load_immediate c d imm t)) ->
  exists s', steps code s s' /\ pc s' = behind s (halfwords (load_immediate c d imm t)) /\
    rd s' d = wrap imm /\ same_but s s' [d; t].
Proof.
  intros Hd Ht D0 DS T0 TD R W C. destruct (load_immediate_ok c d t imm s) as (s1 & R1 & V & K); auto.
  destruct (run_machine code _ s s1 _ R1 K W C) as (s2 & S & P & SB & E). exists s2. rewrite E. auto.
Qed.

Lemma const_machine op d init vs code s : vreg d -> d <> 0 -> d <> TMP_REG3 -> isw (pc s) ->
  exists inst, set_consts op (halfwords (emit_const_op op d init)) vs = Some inst /\
    length inst = length (halfwords (emit_const_op op d init)) /\
   (code_at code (pc s) inst ->
    exists s', steps code s s' /\ pc s' = behind s inst /\ rd s' d = const_value op (last vs init) /\ same_but s s' [d; TMP_REG3]).
Proof.
  intros Hd D0 D3 W. unfold halfwords. rewrite set_consts_emit by auto. eexists. split; [reflexivity|]. split; [destruct op; reflexivity|].
  intros C. destruct (emit_const_op_ok op d (last vs init) s) as (s1 & R1 & V & K); auto.
  destruct (run_machine code _ s s1 _ R1 K W C) as (s2 & S & P & SB & E). exists s2. rewrite E. auto.
Qed.

(** For the examples: a state with the given pc. *)
Definition st0 (a : Z) : mst := mkM (fun _ => 7) (fun _ => 0) (fun _ => 0) a.
