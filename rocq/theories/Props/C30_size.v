(** C30: executable size reporting (RISC-V 64). *)
Require Import ZArith List Bool Lia.
From Verif Require Import Rv.RvLib Rv.RvIsa Rv.RvEnc Rv.RvImm Rv.RvRun Rv.RvAddr Rv.RvLink Rv.RvLinkExec Rv.RvLinkApi Rv.RvLinkSpec Rv.RvLinkThm Rv.RvLinkTop Rv.RvLinkBad.
Import ListNotations.
Open Scope Z_scope.

(** Full statement: [rsize g = 2 * rend g] (the code consists of [rend g] units of two bytes).  It is false: executable_size is computed
    with sizeof(sljit_ins), which is four. *)
Theorem C30_size_refuted : exists cf calls code eo m0, prog_ok cf calls /\ loadable cf calls code eo /\ eo = 0 /\
  let g := generate_code cf code eo m0 (emits cf calls) in rsize g <> 2 * rend g.
Proof. exact size_refuted. Qed.
Print Assumptions C30_size_refuted.

(** What holds: the reported size is never smaller than the code, it is exactly twice as large.  (The missing part: it should not be larger.) *)
Theorem C30_size_partial : forall cf calls code eo m0,
  prog_ok cf calls -> loadable cf calls code eo -> eo = 0 \/ ends_with_label false calls = false ->
  let g := generate_code cf code eo m0 (emits cf calls) in
  2 * rend g <= rsize g /\ rsize g = 2 * (2 * rend g) /\
  exists pos, forall codef, fetches code eo g codef -> program_at cf calls code eo g codef pos.
Proof. exact size_partial. Qed.
Print Assumptions C30_size_partial.

Example C30_case : prog_ok cf_n [KIns [P32 NOP]] /\ loadable cf_n [KIns [P32 NOP]] 0x10000 0 /\ rsize (gen_of cf_n 0x10000 0 [KIns [P32 NOP]]) = 8.
Proof. split; [prog|]. split; [load|]. vm_compute. reflexivity. Qed.
