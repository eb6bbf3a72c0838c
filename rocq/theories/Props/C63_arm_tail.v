(** C63: ARM64: calls which return to the caller of the function, calls to an address in a register or in memory. *)
Require Import ZArith List Bool Lia.
From Verif Require Import Rv.RvLib Arm.ArmIsa Arm.ArmEnc Arm.ArmOp Arm.ArmMem Arm.ArmMemSpec Arm.ArmCselSpec Arm.ArmPair Arm.ArmFrame Arm.ArmFrameSpec Arm.ArmRet Arm.ArmRetSpec Arm.ArmTail Arm.ArmTailSpec Arm.ArmTailProofs.
Import ListNotations.
Open Scope Z_scope.

(** sljit_emit_icall with SLJIT_CALL_RETURN continues at the value its source has in the body, with the registers and the stack of the caller; x30 is again
    the return address of the function itself, so the called function returns to the caller. *)
Theorem C63_icall_return : forall c s, ctx_ok c -> wf s -> exists F s1, run_f (emit_enter c) s = Some s1 /\ entered c F s s1 /\
  forall s2 src, body c F s1 s2 -> legal_fdest src -> exists ws s3, emit_icall_return c src = Some ws /\ br_f ws s2 = Some (vald 64 (gs s2) src, s3) /\ gr s3 30 = gr s 30 /\ left_to c s s2 s3.
Proof. intros c s O W. destruct (tail_ok c s O W) as (s1 & R & E & H). exists (frame_size c), s1. split; [exact R|]. split; [exact E|]. intros s2 src B. exact (proj2 (H s2 B) src). Qed.
Print Assumptions C63_icall_return.

(** sljit_emit_call with SLJIT_CALL_RETURN: the same before its jump (C54); every register which is not restored has its value of the body, among these the arguments. *)
Theorem C63_call_return : forall c s, ctx_ok c -> wf s -> exists F s1, run_f (emit_enter c) s = Some s1 /\ entered c F s s1 /\
  forall s2, body c F s1 s2 -> exists s3, run_f (emit_call_return c) s2 = Some s3 /\ gr s3 30 = gr s 30 /\ left_frame c s s2 s3.
Proof. intros c s O W. destruct (tail_ok c s O W) as (s1 & R & E & H). exists (frame_size c), s1. split; [exact R|]. split; [exact E|]. intros s2 B. exact (proj1 (H s2 B)). Qed.
Print Assumptions C63_call_return.

(** sljit_emit_icall continues at the value of its source with the address after its code in x30; registers of the API, flags and memory are kept. *)
Theorem C63_icall : forall src s pc, legal_fdest src -> wf s -> exists ws s', emit_icall src = Some ws /\ blr_f ws pc s = Some (vald 64 (gs s) src, s') /\
  gr s' 30 = wrap (pc + 4 * Z.of_nat (length ws)) /\ same_api s s'.
Proof. exact icall_ok. Qed.
Print Assumptions C63_icall.

(** Cases. Every register has its own value; the byte at an address is its low 8 bits. *)
Definition s0 : fstate := mkF (mkSt (fun k => if k =? 31 then 0x10000 else if (0 <=? k) && (k <? 31) then 0xa000 + k else 0) false false false false (fun a => a mod 256)) (fun k => if (0 <=? k) && (k <? 32) then 0xf000 + k else 0).
(** 3 saved registers; one of them is kept in the second. *)
Definition c1 : ctx := mkC 0 false 5 3 0 0 600 [].
Definition c2 : ctx := mkC 1 true 5 3 0 0 100 [].
Lemma c_ok : ctx_ok c1 /\ ctx_ok c2.
Proof. unfold ctx_ok, c1, c2. cbn. repeat split; try lia; try discriminate; apply Forall_nil. Qed.
Lemma s0_wf : wf s0.
Proof. split; [|split]; intros k; unfold gr, mem, s0; cbn [gs xr vd mm]; [destruct (Z.eqb_spec k 31); [lia|destruct (Z.leb_spec 0 k), (Z.ltb_spec k 31); cbn [andb]; lia]|destruct (Z.leb_spec 0 k), (Z.ltb_spec k 32); cbn [andb]; lia|apply Z.mod_pos_bound; lia]. Qed.
Example C63_met : exists F s1, run_f (emit_enter c2) s0 = Some s1 /\ entered c2 F s0 s1.
Proof. destruct (C63_icall_return c2 s0 (proj2 c_ok) s0_wf) as (F & s1 & R & E & _). exists F, s1. split; assumption. Qed.
(** A body which sets S0, S1, S2, R4 and x30 (as a call does) to numbers, then the call: its address, and S0, S1, S2, the stack pointer, x30, R4 after it. *)
Definition sets (s : fstate) : fstate := mkF (mkSt (fun k => if k =? 19 then 0x1900 else if k =? 20 then 0x2000 else if k =? 21 then 0x2100 else if k =? 4 then 0x400 else if k =? 30 then 0x3000 else xr (gs s) k) false false false false (mm (gs s))) (vd s).
Definition tail (c : ctx) (src : opd) : option (Z * list Z) :=
  match run_f (emit_enter c) s0 with
  | None => None
  | Some s1 => match emit_icall_return c src with None => None | Some ws => match br_f ws (sets s1) with None => None | Some (pc, s3) => Some (pc, map (gr s3) [19; 20; 21; 31; 30; 4]) end end
  end.
Example C63_tail : tail c1 (DReg 25) = Some (0x2000, [0xa013; 0xa014; 0xa015; 0x10000; 0xa01e; 0x400]) /\ tail c1 (DReg 5) = Some (0x400, [0xa013; 0xa014; 0xa015; 0x10000; 0xa01e; 0x400]) /\
  tail c2 (DReg 26) = Some (0x1900, [0x1900; 0xa014; 0xa015; 0x10000; 0xa01e; 0x400]) /\ tail c1 (DMem (MBase 24 0x10)) = Some (0x1716151413121110, [0xa013; 0xa014; 0xa015; 0x10000; 0xa01e; 0x400]).
Proof. vm_compute. repeat split. Qed.
Definition call (src : opd) : option (Z * Z * nat) :=
  match emit_icall src with None => None | Some ws => match blr_f ws 0x4000 s0 with None => None | Some (pc, s') => Some (pc, gr s' 30, length ws) end end.
Example C63_call : call (DReg 3) = Some (0xa002, 0x4004, 1%nat) /\ call (DMem (MBase 3 0x10)) = Some (0x1918171615141312, 0x4008, 2%nat) /\ call (DMem (MAbs 0x123456789a8)) = Some (0xafaeadacabaaa9a8, 0x4014, 5%nat).
Proof. vm_compute. repeat split. Qed.
Example C63_hyps : legal_fdest (DReg 25) /\ legal_fdest (DMem (MBase SLJIT_SP 8)) /\ legal_fdest (DMem (MIndex 25 26 3)) /\ wf s0.
Proof. cbn [legal_fdest legal_place legal_mem]. repeat split; try lia; auto; apply s0_wf. Qed.
