(** C15: address materialisation gives the final label address (RISC-V 64). *)
Require Import ZArith List Bool Lia.
From Verif Require Import Rv.RvLib Rv.RvIsa Rv.RvEnc Rv.RvImm Rv.RvRun Rv.RvImmProofs Rv.RvAddr Rv.RvAddrProofs Rv.RvLink Rv.RvLinkExec Rv.RvLinkApi Rv.RvLinkSpec Rv.RvLinkThm Rv.RvLinkTop Rv.RvLinkBad.
Import ListNotations.
Open Scope Z_scope.

(** The address load of sljit_emit_op_addr, executed at its place, leaves the address of the label (or the absolute address) in the register
    and changes nothing but one temporary. *)
Theorem C15_address : forall cf calls code eo m0,
  prog_ok cf calls -> loadable cf calls code eo -> eo = 0 \/ ends_with_label false calls = false ->
  let g := generate_code cf code eo m0 (emits cf calls) in
  exists pos : nat -> Z, pos 0%nat = 0 /\ pos (length calls) = rend g /\
  forall codef, (forall p, 0 <= p < rend g -> codef (wrap (code + 2 * p + eo)) = munit (rmem g) p) ->
  forall i reg t, nth_error calls i = Some (KMov reg) -> nth (next_jump (emits cf (firstn i calls))) (targets calls) None = Some t ->
    let T := match t with TLabel l => label_addr (rlabels g) l | TAddr a => a end in
    ~ (0x7fffffffff800 <= T <= 0x7ffffffffffff) ->
    forall s, pc s = code + 2 * pos i + eo ->
    exists s', steps codef s s' /\ pc s' = code + 2 * pos (S i) + eo /\ rd s' reg = T /\ same_but s s' [reg; TMP_REG3].
Proof. exact mov_addr_ok. Qed.
Print Assumptions C15_address.

(** The excluded range is loaded wrongly. *)
Theorem C15_address_refuted : exists cf calls code eo m0 codef T s,
  prog_ok cf calls /\ loadable cf calls code eo /\ eo = 0 /\
  let g := generate_code cf code eo m0 (emits cf calls) in
  fetches code eo g codef /\ nth_error calls 0 = Some (KMov 1) /\ targets calls = [Some (TAddr T)] /\
  pc s = code + eo /\ ~ exists s', steps codef s s' /\ pc s' = code + 2 * rend g + eo /\ rd s' 1 = T.
Proof. exact abs52_refuted. Qed.
Print Assumptions C15_address_refuted.

(** In the program of C13_case the fourth call loads the address of label 0 into register 3. *)
Example C15_case : nth_error ex_calls 3 = Some (KMov 3) /\
  nth (next_jump (emits cf_c (firstn 3 ex_calls))) (targets ex_calls) None = Some (TLabel 0) /\
  prog_ok cf_c ex_calls /\ loadable cf_c ex_calls 0x10000 0x1000 /\ label_addr (rlabels (gen_of cf_c 0x10000 0x1000 ex_calls)) 0 = 0x11000.
Proof. split; [reflexivity|]. split; [reflexivity|]. destruct (ex_ok cf_c (or_introl eq_refl)) as (A & B & _). split; [exact A|]. split; [exact B|]. vm_compute. reflexivity. Qed.
