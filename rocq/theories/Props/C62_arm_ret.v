(** C62: ARM64: leaving a function for another place, the return address, fast calls. *)
Require Import ZArith List Bool Lia.
From Verif Require Import Rv.RvLib Arm.ArmIsa Arm.ArmEnc Arm.ArmOp Arm.ArmMem Arm.ArmMemSpec Arm.ArmCselSpec Arm.ArmPair Arm.ArmFrame Arm.ArmFrameSpec Arm.ArmRet Arm.ArmRetSpec Arm.ArmRetProofs.
Import ListNotations.
Open Scope Z_scope.

(** sljit_emit_return_to continues at the value its source has in the body, with the registers and the stack of the caller, also if the source is a
    register or a place which the release of the frame changes or frees. *)
Theorem C62_return_to : forall c s, ctx_ok c -> wf s -> exists F s1, run_f (emit_enter c) s = Some s1 /\ entered c F s s1 /\
  forall s2 src, body c F s1 s2 -> legal_fdest src -> exists ws s3, emit_return_to c src = Some ws /\ br_f ws s2 = Some (vald 64 (gs s2) src, s3) /\ left_to c s s2 s3.
Proof. intros c s O W. exists (frame_size c). exact (return_to_ok c s O W). Qed.
Print Assumptions C62_return_to.

(** SLJIT_GET_RETURN_ADDRESS gives the address at which sljit_emit_return_void continues (C60), at any time of the body. *)
Theorem C62_return_address : forall c s, ctx_ok c -> wf s -> exists F s1, run_f (emit_enter c) s = Some s1 /\ entered c F s s1 /\
  forall s2 d, body c F s1 s2 -> legal_fdest d -> exists ws s3, emit_get_return d = Some ws /\ run_f ws s2 = Some s3 /\ did_move d (gr s 30) s2 s3.
Proof. intros c s O W. exists (frame_size c). exact (get_return_ok c s O W). Qed.
Print Assumptions C62_return_address.

(** SLJIT_FAST_ENTER moves the address of the fast call (in x30) to its destination; SLJIT_FAST_RETURN continues at the value of its source and
    changes no register of the API, no flag and no memory. *)
Theorem C62_fast_call : forall d s, legal_fdest d -> wf s ->
  (exists ws s', emit_fast_enter d = Some ws /\ run_f ws s = Some s' /\ did_move d (gr s 30) s s' /\ vald 64 (gs s') d = gr s 30) /\
  (exists ws s', emit_fast_return d = Some ws /\ ret_f ws s = Some (vald 64 (gs s) d, s') /\ same_api s s').
Proof. intros d s L W. split; [exact (fast_enter_ok d s L W)|exact (fast_return_ok d s L W)]. Qed.
Print Assumptions C62_fast_call.

(** Cases. Every register has its own value; the byte at an address is its low 8 bits. *)
Definition s0 : fstate := mkF (mkSt (fun k => if k =? 31 then 0x10000 else if (0 <=? k) && (k <? 31) then 0xa000 + k else 0) false false false false (fun a => a mod 256)) (fun k => if (0 <=? k) && (k <? 32) then 0xf000 + k else 0).
(** 3 saved registers; one of them is kept in the second. *)
Definition c1 : ctx := mkC 0 false 5 3 0 0 600 [].
Definition c2 : ctx := mkC 1 true 5 3 0 0 100 [].
Lemma c1_ok : ctx_ok c1 /\ ctx_ok c2.
Proof. unfold ctx_ok, c1, c2. cbn. repeat split; try lia; try discriminate; apply Forall_nil. Qed.
Lemma s0_wf : wf s0.
Proof. split; [|split]; intros k; unfold gr, mem, s0; cbn [gs xr vd mm]; [destruct (Z.eqb_spec k 31); [lia|destruct (Z.leb_spec 0 k), (Z.ltb_spec k 31); cbn [andb]; lia]|destruct (Z.leb_spec 0 k), (Z.ltb_spec k 32); cbn [andb]; lia|apply Z.mod_pos_bound; lia]. Qed.
Example C62_met : exists F s1, run_f (emit_enter c1) s0 = Some s1 /\ entered c1 F s0 s1.
Proof. destruct (C62_return_to c1 s0 (proj1 c1_ok) s0_wf) as (F & s1 & R & E & _). exists F, s1. split; assumption. Qed.
(** A body which sets S0, S1, S2 and R4 to numbers, then return_to: the address, and S0, S1, S2, the stack pointer after it. *)
Definition sets (s : fstate) : fstate := mkF (mkSt (fun k => if k =? 19 then 0x1900 else if k =? 20 then 0x2000 else if k =? 21 then 0x2100 else if k =? 4 then 0x400 else xr (gs s) k) false false false false (mm (gs s))) (vd s).
Definition leave (c : ctx) (src : opd) : option (Z * list Z) :=
  match run_f (emit_enter c) s0 with
  | None => None
  | Some s1 => match emit_return_to c src with None => None | Some ws => match br_f ws (sets s1) with None => None | Some (pc, s3) => Some (pc, map (gr s3) [19; 20; 21; 31]) end end
  end.
Example C62_leave : leave c1 (DReg 25) = Some (0x2000, [0xa013; 0xa014; 0xa015; 0x10000]) /\ leave c1 (DReg 5) = Some (0x400, [0xa013; 0xa014; 0xa015; 0x10000]) /\
  leave c2 (DReg 26) = Some (0x1900, [0x1900; 0xa014; 0xa015; 0x10000]) /\ leave c2 (DReg 24) = Some (0x2100, [0x1900; 0xa014; 0xa015; 0x10000]) /\
  leave c1 (DMem (MBase 24 0x10)) = Some (0x1716151413121110, [0xa013; 0xa014; 0xa015; 0x10000]).
Proof. vm_compute. repeat split. Qed.
Definition ra (d : opd) : option Z :=
  match run_f (emit_enter c1) s0 with None => None | Some s1 => match emit_get_return d with None => None | Some ws => match run_f ws (sets s1) with None => None | Some s3 => Some (vald 64 (gs s3) d) end end end.
Example C62_ra : ra (DReg 26) = Some 0xa01e /\ ra (DMem (MBase SLJIT_SP 8)) = Some 0xa01e /\ ra (DMem (MIndex 25 26 3)) = Some 0xa01e.
Proof. vm_compute. repeat split. Qed.
Definition fast (d : opd) : option Z :=
  match emit_fast_enter d, emit_fast_return d with
  | Some w1, Some w2 => match run_f w1 s0 with None => None | Some s1 => match ret_f w2 (wG s1 30 0) with None => None | Some (pc, _) => Some pc end end
  | _, _ => None
  end.
Example C62_fast : fast (DReg 3) = Some 0xa01e /\ fast (DMem (MBase SLJIT_SP 8)) = Some 0xa01e /\ fast (DMem (MAbs 0x123456789ab)) = Some 0xa01e.
Proof. vm_compute. repeat split. Qed.
Example C62_hyps : legal_fdest (DReg 25) /\ legal_fdest (DMem (MBase SLJIT_SP 8)) /\ legal_fdest (DMem (MIndex 25 26 3)) /\ wf s0.
Proof. cbn [legal_fdest legal_place legal_mem]. repeat split; try lia; auto; apply s0_wf. Qed.
