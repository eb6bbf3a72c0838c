(** C32: indirect jumps and calls, fast calls (RISC-V 64). *)
Require Import ZArith List Bool Lia.
From Verif Require Import Rv.RvLib Rv.RvIsa Rv.RvEnc Rv.RvImm Rv.RvRun Rv.RvImmProofs Rv.RvWf Rv.RvMem Rv.RvRunMem Rv.RvOp Rv.RvLir Rv.RvOpBad Rv.RvFrame Rv.RvFrameSpec Rv.RvFrameTop Rv.RvFrameRet.
Import ListNotations.
Open Scope Z_scope.

(** [ends e s P]: wherever the code [e] is placed, running it from [s] reaches a state [s'] with [P n s'], [n] is the address after the code.
    sljit_emit_ijump with a register or memory operand reaches the address in the operand; nothing but temporary registers changes. *)
Theorem C32_ijump : forall c (link : bool) src srcw s, wf s -> src_legal src srcw -> is_imm src = false -> argval s 8 src srcw mod 2 = 0 ->
  ends (emit_ijump c link src srcw) s (fun n s' => pc s' = argval s 8 src srcw /\ (link = true -> rd s' RETURN_ADDR_REG = n) /\
    same_but s s' (TMP_REG1 :: TMP_REG3 :: if link then [RETURN_ADDR_REG] else [])).
Proof. exact ijump_ok. Qed.
Print Assumptions C32_ijump.

(** sljit_emit_icall: the return address is the code after the call. *)
Theorem C32_icall : forall c x src srcw s, wf s -> src_legal src srcw -> is_imm src = false -> argval s 8 src srcw mod 2 = 0 ->
  ends (emit_icall c x false src srcw) s (fun n s' => pc s' = argval s 8 src srcw /\ rd s' RETURN_ADDR_REG = n /\ same_but s s' [TMP_REG1; TMP_REG3; RETURN_ADDR_REG]).
Proof. exact icall_ok. Qed.
Print Assumptions C32_icall.

(** SLJIT_FAST_ENTER stores the return address in its operand, flags are kept. *)
Theorem C32_fast_enter : forall c dst dstw s, wf s -> dst_legal dst dstw ->
  ok (emit_fast_enter c dst dstw) s (fun s' => dest s s' 8 dst dstw (rd s RETURN_ADDR_REG) /\ rd s' 28 = rd s 28 /\ rd s' 29 = rd s 29).
Proof. exact fast_enter_ok. Qed.
Print Assumptions C32_fast_enter.

(** SLJIT_FAST_RETURN continues at the address in its operand. *)
Theorem C32_fast_return : forall c src srcw s, wf s -> src_legal src srcw -> is_imm src = false -> argval s 8 src srcw mod 2 = 0 ->
  ends (emit_fast_return c src srcw) s (fun _ s' => pc s' = argval s 8 src srcw /\ same_but s s' [TMP_REG3; RETURN_ADDR_REG]).
Proof. exact fast_return_ok. Qed.
Print Assumptions C32_fast_return.

(** A whole fast call: an indirect fast call to [SLJIT_FAST_ENTER dst] and, with any code in between that keeps the value of the
    operand, [SLJIT_FAST_RETURN dst]: execution continues after the call. *)
Theorem C32_fast_call : forall c src srcw dst dstw s codef p q r, wf s -> src_legal src srcw -> is_imm src = false -> dst_legal dst dstw ->
  isw p -> isw r -> q = argval s 8 src srcw -> q mod 2 = 0 -> p mod 2 = 0 ->
  code_at codef p (units_of (flat (emit_ijump c true src srcw))) ->
  code_at codef q (units_of (flat (emit_fast_enter c dst dstw))) ->
  code_at codef r (units_of (flat (emit_fast_return c dst dstw))) ->
  exists s1, steps codef (setpc s p) s1 /\ pc s1 = wrap (q + 2 * Z.of_nat (length (units_of (flat (emit_fast_enter c dst dstw))))) /\
    forall s2, wf s2 -> argval s2 8 dst dstw = argval s1 8 dst dstw -> exists s3, steps codef (setpc s2 r) s3 /\
      pc s3 = wrap (p + 2 * Z.of_nat (length (units_of (flat (emit_ijump c true src srcw))))).
Proof. exact fast_call_ok. Qed.
Print Assumptions C32_fast_call.

(** SLJIT_GET_RETURN_ADDRESS gives the return address of the function wherever it is in its body. *)
Theorem C32_get_return_address : forall c f s dst dstw codef a b, func_ok f -> wf s -> (forall x, isw (fregs s x)) -> dst_legal dst dstw -> isw a -> isw b ->
  let e := emit_get_return_address c (ctx_of f) dst dstw in
  code_at codef a (units_of (flat (enter_code c f))) -> code_at codef b (units_of (flat e)) ->
  exists F s1, steps codef (setpc s a) (setpc s1 (wrap (a + 2 * Z.of_nat (length (units_of (flat (enter_code c f))))))) /\ wf s1 /\ entered f F s s1 /\
    forall s2, wf s2 -> body f F s1 s2 -> exists s3,
      steps codef (setpc s2 b) (setpc s3 (wrap (b + 2 * Z.of_nat (length (units_of (flat e)))))) /\
      dest s2 s3 8 dst dstw (getr s 1) /\ rd s3 28 = rd s2 28 /\ rd s3 29 = rd s2 29.
Proof. exact get_ra_at. Qed.
Print Assumptions C32_get_return_address.

(** A fast call through R1 = 0x2000 at 0x1000, of a function which keeps the return address in [R2 + 0x12345]. *)
Definition C32_s : mst := st [(1, 0x2000); (2, 0x50000); (SLJIT_SP, 0x200000)].
Example C32_case : wf C32_s /\ src_legal (AReg 1) 0 /\ dst_legal (AMem 2 0) 0x12345 /\ isw 0x1000 /\ 0x2000 = argval C32_s 8 (AReg 1) 0 /\
  match run (flat (emit_fast_enter c_c (AMem 2 0) 0x12345)) (wr C32_s RETURN_ADDR_REG 0x1002) with
  | Some s1 => argval s1 8 (AMem 2 0) 0x12345 = 0x1002 /\ mem s1 0x62345 = 2 /\ mem s1 0x62346 = 0x10 /\ mem s1 0x6234d = 0x4d
  | None => False end.
Proof. split; [apply st_wf|]. unfold src_legal, dst_legal, mem_legal, ureg, NREGS, isw. repeat split; try lia; vm_compute; reflexivity. Qed.
