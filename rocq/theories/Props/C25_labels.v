(** C25: labels are ordered, shared and stable. *)
Require Import ZArith List Bool Lia.
From Verif Require Import Rv.RvLib Rv.RvIsa Rv.RvEnc Rv.RvImm Rv.RvRun Rv.RvAddr Rv.RvLink Rv.RvLinkExec Rv.RvLinkApi Rv.RvLinkSpec Rv.RvLinkThm Rv.RvLinkTop Rv.RvLinkBad.
Import ListNotations.
Open Scope Z_scope.

(** A second sljit_emit_label with no code emitted in between returns the first label and creates none. *)
Theorem C25_shared : forall cf pre mid, forallb no_code mid = true ->
  clabels (emits cf (pre ++ KLabel :: mid ++ [KLabel])) = clabels (emits cf (pre ++ [KLabel])) /\
  ret_label (emits cf (pre ++ KLabel :: mid ++ [KLabel])) = ret_label (emits cf (pre ++ [KLabel])).
Proof. intros. split; [apply labels_shared; auto|]. unfold ret_label. rewrite labels_shared by auto. reflexivity. Qed.
Print Assumptions C25_shared.

(** With code in between it is a new, later label. *)
Theorem C25_distinct : forall cf pre mid, existsb has_code mid = true ->
  (ret_label (emits cf (pre ++ [KLabel])) < ret_label (emits cf (pre ++ KLabel :: mid ++ [KLabel])))%nat.
Proof. exact labels_distinct. Qed.
Print Assumptions C25_distinct.

(** Addresses follow the order of creation, inside the generated code. *)
Theorem C25_ordered : forall cf calls code eo m0,
  prog_ok cf calls -> loadable cf calls code eo -> eo = 0 \/ ends_with_label false calls = false ->
  let g := generate_code cf code eo m0 (emits cf calls) in
  forall l, (l < length (clabels (emits cf calls)))%nat ->
   code + eo <= label_addr (rlabels g) l <= code + eo + 2 * rend g /\
   forall l', (l <= l')%nat -> (l' < length (clabels (emits cf calls)))%nat -> label_addr (rlabels g) l <= label_addr (rlabels g) l'.
Proof. exact labels_ok. Qed.
Print Assumptions C25_ordered.

(** Every jump refers to the label or absolute target which was assigned last, and the label exists. *)
Theorem C25_targets : forall cf calls, prog_ok cf calls ->
  length (cjumps (emits cf calls)) = length (targets calls) /\
  forall i j, nth_error (cjumps (emits cf calls)) i = Some j ->
   exists t, nth_error (targets calls) i = Some (Some t) /\
     match t with
     | TLabel l => jisaddr j = false /\ jlabel j = l /\ (l < length (clabels (emits cf calls)))%nat
     | TAddr a => jisaddr j = true /\ jtarget j = a /\ isw a
     end.
Proof. exact jumps_refer. Qed.
Print Assumptions C25_targets.

(** Label 0, shared over an assignment; label 1 after an instruction; the jump is assigned twice. *)
Definition lab_calls : list call := [KJump JAlways false false; KLabel; KSetLabel 0 0; KLabel; KIns [P32 NOP]; KLabel; KIns [P32 NOP]; KSetLabel 0 1].
Example C25_case : prog_ok cf_n lab_calls /\ loadable cf_n lab_calls 0x10000 0 /\
  map (fun n => ret_label (emits cf_n (firstn n lab_calls))) [2; 4; 6]%nat = [0; 0; 1]%nat /\
  targets lab_calls = [Some (TLabel 1)] /\ map laddr (rlabels (gen_of cf_n 0x10000 0 lab_calls)) = [0x10004; 0x10008].
Proof. split; [prog|]. split; [load|]. split; [reflexivity|]. split; [reflexivity|]. vm_compute. reflexivity. Qed.
