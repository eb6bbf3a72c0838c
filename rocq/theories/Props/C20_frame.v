(** C20: entering and leaving a function preserve what the caller relies on (RISC-V 64). *)
Require Import ZArith List Bool Lia.
From Verif Require Import Rv.RvLib Rv.RvIsa Rv.RvEnc Rv.RvImm Rv.RvRun Rv.RvImmProofs Rv.RvWf Rv.RvMem Rv.RvRunMem Rv.RvOp Rv.RvLir Rv.RvEmitOp1 Rv.RvOpBad Rv.RvCond Rv.RvFrame Rv.RvFrameSpec Rv.RvFrameRet.
Import ListNotations.
Open Scope Z_scope.

(** In every theorem: [f] is any function description accepted by sljit_emit_enter, the code of sljit_emit_enter is anywhere in memory
    and so is the code which leaves the function; the caller's state [s] is arbitrary. [function_at] (RvFrameRet.v) says: running the entry
    code leads to a state where the stack frame is allocated and the arguments are in their registers ([entered]); if the body
    then leads to any state [s2] that respects the declared registers and the frame ([body]), the leaving code run from [s2] reaches [s3] with
    the stated result. [left_frame f s s2 s3]: the stack pointer and all callee saved registers are those of the caller's state [s] (except
    the registers kept by SLJIT_ENTER_KEEP), other registers and the memory are those of [s2]. *)
Theorem C20_return_void : forall c f s, func_ok f -> wf s -> (forall x, isw (fregs s x)) -> getr s 1 mod 2 = 0 ->
  function_at c f s (emit_return_void c (ctx_of f)) (fun s2 s3 => pc s3 = getr s 1 /\ left_frame f s s2 s3).
Proof. exact void_at. Qed.
Print Assumptions C20_return_void.

(** sljit_emit_return: the value, converted by the operation, is in the return register a0 of the ABI. *)
Theorem C20_return : forall c f s k src srcw, func_ok f -> wf s -> (forall x, isw (fregs s x)) -> getr s 1 mod 2 = 0 -> is_move k = true -> src_legal src srcw ->
  function_at c f s (emit_return c (ctx_of f) k src srcw) (fun s2 s3 =>
    let v := mval k (argval s2 (size1 k false) src srcw) in
    pc s3 = getr s 1 /\ getr s3 10 = v /\ left_frame f s (wr s2 SLJIT_R0 v) s3).
Proof. exact return_at. Qed.
Print Assumptions C20_return.

(** sljit_emit_return_to: the target, also when it is in a register or in the local area given up by the return, is the one before the return. *)
Theorem C20_return_to : forall c f s src srcw, func_ok f -> wf s -> (forall x, isw (fregs s x)) -> src_legal src srcw -> is_imm src = false ->
  function_at c f s (emit_return_to c (ctx_of f) src srcw) (fun s2 s3 =>
    let t := argval s2 8 src srcw in t mod 2 = 0 -> pc s3 = t /\ left_frame f s s2 s3).
Proof. exact return_to_at. Qed.
Print Assumptions C20_return_to.

(** sljit_emit_icall with SLJIT_CALL_RETURN: the called function finds the return address and the registers of the caller. *)
Theorem C20_tail_call : forall c f s src srcw, func_ok f -> wf s -> (forall x, isw (fregs s x)) -> src_legal src srcw -> is_imm src = false ->
  function_at c f s (emit_icall c (ctx_of f) true src srcw) (fun s2 s3 =>
    let t := argval s2 8 src srcw in t mod 2 = 0 -> pc s3 = t /\ getr s3 1 = getr s 1 /\ left_frame f s s2 s3).
Proof. exact tail_call_at. Qed.
Print Assumptions C20_tail_call.

(** The release of the frame before a direct jump (the jump itself: C13). *)
Theorem C20_release : forall c f s rt codef a b, func_ok f -> wf s -> (forall x, isw (fregs s x)) -> isw a -> isw b ->
  code_at codef a (units_of (flat (enter_code c f))) -> code_at codef b (units_of (flat (emit_stack_frame_release c (ctx_of f) rt))) ->
  exists F s1, steps codef (setpc s a) (setpc s1 (wrap (a + 2 * Z.of_nat (length (units_of (flat (enter_code c f))))))) /\ wf s1 /\ entered f F s s1 /\
    forall s2, wf s2 -> body f F s1 s2 -> exists s3,
      steps codef (setpc s2 b) (setpc s3 (wrap (b + 2 * Z.of_nat (length (units_of (flat (emit_stack_frame_release c (ctx_of f) rt))))))) /\
      left_frame f s s2 s3 /\ (rt = false -> getr s3 1 = getr s 1).
Proof. exact release_at. Qed.
Print Assumptions C20_release.

(** A function with 14 scratch and 5 saved registers (three of the scratch registers are callee saved), 20 and 4 floating point registers,
    5000 bytes of locals, and the arguments (W, F64, 32_R, P). *)
Definition C20_f : func := mkF false 0 14 5 20 4 0 5000 1 [ASaved 1; AFloat 4; AScratch 2; ASaved 3].
(** The same with SLJIT_ENTER_REG_ARG and two kept registers, and a small frame. *)
Definition C20_g : func := mkF true 2 14 5 20 4 0 100 0 [].
Definition C20_s : mst := st [(1, 0x111); (2, 0x222); (3, 0x333); (4, 0x444); (SLJIT_SP, 0x200000); (RETURN_ADDR_REG, 0x4000);
  (12, 0xc12); (13, 0xc13); (14, 0xc14); (19, 0xc19); (20, 0xc20); (21, 0xc21); (22, 0xc22); (23, 0xc23)].
(** A body which overwrites all registers it may. *)
Definition C20_body (s1 : mst) : mst := fold_left (fun s r => wr s r (wrap (r * 0x1001001001))) [1; 2; 3; 12; 13; 14; 19; 20; 21; 22; 23] s1.
Definition C20_run (c : cfg) (f : func) : option (mst * mst) :=
  match run (flat (enter_code c f)) C20_s with
  | None => None
  | Some s1 => match run (flat (emit_stack_frame_release c (ctx_of f) false)) (C20_body s1) with Some s3 => Some (s1, s3) | None => None end
  end.
Example C20_case : func_ok C20_f /\ wf C20_s /\ (forall x, isw (fregs C20_s x)) /\ getr C20_s 1 mod 2 = 0 /\ src_legal (AMem SLJIT_SP 0) 8 /\
  (forall c, In c [c_n; c_c] -> match C20_run c C20_f with
   | Some (s1, s3) => (rd s1 23, rd s1 2, rd s1 22) = (0x111, 0x222, 0x333) /\ rd s1 SLJIT_SP = 0x200000 - 5120 /\
       forallb (fun r => rd s3 r =? rd C20_s r) [12; 13; 14; 19; 20; 21; 22; 23; SLJIT_SP; RETURN_ADDR_REG] = true /\ rd s3 1 = 0x1001001001
   | None => False end).
Proof.
  split. { unfold func_ok. repeat split; try (vm_compute; congruence); repeat constructor; vm_compute; congruence. }
  split; [apply st_wf|]. split. { intros x. change (isw 0). unfold isw. lia. } split; [reflexivity|]. split. { unfold src_legal, mem_legal, ureg, NREGS, SLJIT_SP. lia. }
  intros c [<-|[<-|[]]]; vm_compute; repeat split; reflexivity.
Qed.
Example C20_case_kept : func_ok C20_g /\
  match C20_run c_c C20_g with
   | Some (s1, s3) => rd s1 SLJIT_SP = 0x200000 - 208 /\
       forallb (fun r => rd s3 r =? rd C20_s r) [12; 13; 14; 19; 20; 21; SLJIT_SP; RETURN_ADDR_REG] = true /\ (rd s3 22, rd s3 23) = (22 * 0x1001001001, 23 * 0x1001001001)
   | None => False end.
Proof.
  split. { unfold func_ok. repeat split; try (vm_compute; congruence); repeat constructor; vm_compute; congruence. }
  vm_compute. repeat split; reflexivity.
Qed.
