(** C46: function entry, return and calls on x86-64 (System V, and Microsoft x64 with [w]). *)
Require Import ZArith List Bool Lia.
From Verif Require Import Rv.RvLib Rv.RvIsa Rv.RvMem Rv.RvOp Rv.RvLir Rv.RvFrameSpec X86.X86Isa X86.X86Emit X86.X86Spec X86.X86OpSpec X86.X86Op X86.X86Mov X86.X86Op1 X86.X86LinkSpec X86.X86Frame X86.X86FrameSpec X86.X86FrameRun X86.X86C46.
Import ListNotations.
Open Scope Z_scope.

(** Full statements: without [no_floats] and without [floats_first] in [call_ok], that is, with Windows functions which save floating point registers or pass
    them after an integer argument. On other systems nothing is missing. *)
Theorem C46_return_void_partial : forall u w cet f s, xfunc_ok w f -> no_floats w f -> xwf s ->
  xfunction_at u w f (enter_code w cet f) (xreturn_void w (ctx_of w f)) s (fun s2 _ pc s3 => pc = return_address s /\ xr s3 4 = wrap (xr s 4 + 8) /\ xleft w f s s2 s3).
Proof. exact void_at. Qed.
Print Assumptions C46_return_void_partial.

Theorem C46_return_partial : forall u w cet lz tz cmov is32 f k src srcw s, xfunc_ok w f -> no_floats w f -> xwf s -> is_mov k = true -> xsrc_legal src srcw ->
  xfunction_at u w f (enter_code w cet f) (xreturn w lz tz cmov is32 (ctx_of w f) k src srcw) s (fun s2 _ pc s3 =>
    (exists r, res1 k (n1 k is32) (xval w (8 * sz1 k is32) s2 src srcw) r /\ xr s3 0 mod 2 ^ n1 k is32 = r mod 2 ^ n1 k is32) /\
    pc = return_address s /\ xr s3 4 = wrap (xr s 4 + 8) /\ xrestored w f s s2 s3 /\ (forall i, 1 < i <= xscratch_regs w -> xr s3 (reg_map w i) = xr s2 (reg_map w i))).
Proof. exact return_at. Qed.
Print Assumptions C46_return_partial.

(** sljit_emit_return_to: the source is read before the frame is released. *)
Theorem C46_return_to_partial : forall u w cet f src srcw s, xfunc_ok w f -> no_floats w f -> xwf s -> xsrc_legal src srcw -> is_imm src = false ->
  xfunction_at u w f (enter_code w cet f) (xreturn_to w (ctx_of w f) src srcw) s (fun s2 _ pc s3 => pc = xval w 64 s2 src srcw /\ xr s3 4 = wrap (xr s 4 + 8) /\ xleft w f s s2 s3).
Proof. exact return_to_at. Qed.
Print Assumptions C46_return_to_partial.

(** The code before the jump of sljit_emit_return_to with an immediate source ([rt]: the return address is dropped). *)
Theorem C46_release_partial : forall u w cet f rt s, xfunc_ok w f -> no_floats w f -> xwf s ->
  xfunction_at u w f (enter_code w cet f) (xrelease w (ctx_of w f) rt) s (fun s2 n pc s3 => pc = n /\ xr s3 4 = wrap (xr s 4 + (if rt then 8 else 0)) /\ load (xm s3) (xr s 4) 8 = return_address s /\ xleft w f s s2 s3).
Proof. exact release_at. Qed.
Print Assumptions C46_release_partial.

(** SLJIT_GET_RETURN_ADDRESS *)
Theorem C46_return_address_partial : forall u w cet f dst dstw s, xfunc_ok w f -> no_floats w f -> xwf s -> xdst_legal dst dstw ->
  xfunction_at u w f (enter_code w cet f) (xget_return_address w (ctx_of w f) dst dstw) s (fun s2 n pc s3 => pc = n /\ wrote w 64 TMPS s2 dst dstw (return_address s) s3).
Proof. exact get_return_address_at. Qed.
Print Assumptions C46_return_address_partial.

(** sljit_emit_call: the code before the jump, which is that of C39. *)
Theorem C46_call_partial : forall u w x reg_arg t l s, call_ok w t l -> xwf s ->
  cdoes u (xcall_pre w x false reg_arg (call_types t l)) s (fun s' => xcall_args w reg_arg s s' l /\ xr s' 4 = xr s 4 /\ xm s' = xm s /\ (forall i, 5 <= i <= 13 -> xr s' (reg_map w i) = xr s (reg_map w i))).
Proof. exact call_pre_ok. Qed.
Print Assumptions C46_call_partial.

(** sljit_emit_icall: [n] is the address after the code, the return address of the function called. *)
Theorem C46_icall_partial : forall u w x reg_arg t l src srcw s, call_ok w t l -> xsrc_legal src srcw -> is_imm src = false -> xwf s ->
  ends u (xicall w x false reg_arg (call_types t l) src srcw) s (fun n pc s' => pc = xval w 64 s src srcw /\ xcall_args w reg_arg s s' l /\
    xr s' 4 = wrap (xr s 4 - 8) /\ xm s' = store (xm s) (wrap (xr s 4 - 8)) n 8 /\ (forall i, 5 <= i <= 13 -> xr s' (reg_map w i) = xr s (reg_map w i))).
Proof. exact icall_ok. Qed.
Print Assumptions C46_icall_partial.

(** Tail calls (SLJIT_CALL_RETURN): the function called finds the arguments, and returns to the caller of the function left. *)
Theorem C46_tail_call_partial : forall u w cet f reg_arg t l s, xfunc_ok w f -> no_floats w f -> xwf s -> call_ok w t l ->
  xfunction_at u w f (enter_code w cet f) (xcall_pre w (ctx_of w f) true reg_arg (call_types t l)) s (fun s2 n pc s3 =>
    pc = n /\ xr s3 4 = xr s 4 /\ load (xm s3) (xr s 4) 8 = return_address s /\ xcall_args w reg_arg s2 s3 l /\ xrestored w f s s2 s3).
Proof. exact tail_pre_at. Qed.
Print Assumptions C46_tail_call_partial.

Theorem C46_tail_icall_partial : forall u w cet f reg_arg t l src srcw s, xfunc_ok w f -> no_floats w f -> xwf s -> call_ok w t l -> xsrc_legal src srcw -> is_imm src = false ->
  xfunction_at u w f (enter_code w cet f) (xicall w (ctx_of w f) true reg_arg (call_types t l) src srcw) s (fun s2 _ pc s3 =>
    pc = xval w 64 s2 src srcw /\ xr s3 4 = xr s 4 /\ load (xm s3) (xr s 4) 8 = return_address s /\ xcall_args w reg_arg s2 s3 l /\ xrestored w f s s2 s3).
Proof. exact tail_icall_at. Qed.
Print Assumptions C46_tail_icall_partial.

(** sljit_emit_ijump *)
Theorem C46_ijump : forall u w (call : bool) src srcw s, sok src srcw -> is_imm src = false -> xwf s ->
  ends u (xijump w call src srcw) s (fun n pc s' => isw n /\ pc = xval w 64 s src srcw /\ same_but [reg_map w TMP_REG2] (if call then push s n else s) s').
Proof. exact ijump_ok. Qed.
Print Assumptions C46_ijump.

(** Fast calls: SLJIT_FAST_ENTER stores the return address, which is removed from the stack; SLJIT_FAST_RETURN goes to an address. *)
Theorem C46_fast_enter : forall u w dst dstw s, xdst_legal dst dstw -> xwf s ->
  cdoes u (xfast_enter w dst dstw) s (fun s' => wrote w 64 [TMP_REG2] (setr s 4 (wrap (xr s 4 + 8))) dst dstw (load (xm s) (xr s 4) 8) s' /\ flags_same s s').
Proof. exact fast_enter_ok. Qed.
Print Assumptions C46_fast_enter.

Theorem C46_fast_return : forall u w src srcw s, sok src srcw -> is_imm src = false -> xwf s ->
  ends u (xfast_return w src srcw) s (fun n pc s' => pc = xval w 64 s src srcw /\ (forall r, r <> reg_map w TMP_REG2 -> xr s' r = xr s r)
     /\ xm s' = store (xm s) (wrap (xr s 4 - 8)) (xval w 64 s src srcw) 8).
Proof. exact fast_return_ok. Qed.
Print Assumptions C46_fast_return.

(** Seven scratch registers and three saved ones, 40 bytes of locals, the arguments (W, F64, 32_R, P); the same function is allowed on Windows with the floating
    point argument first. On Windows two of the scratch registers are preserved by calls; 20000 bytes of locals need the loop which touches the pages. *)
Definition C46_f : func := mkF false 0 7 3 2 0 0 40 1 [ASaved 1; AFloat 4; AScratch 2; ASaved 3].
Definition C46_g : func := mkF false 0 7 3 2 0 0 20000 1 [AFloat 4; ASaved 1; AScratch 2; ASaved 3].
(** SLJIT_ENTER_REG_ARG with a kept register *)
Definition C46_h : func := mkF true 1 4 3 0 0 0 100 0 [].
Example C46_hypotheses : xfunc_ok false C46_f /\ no_floats false C46_f /\ xfunc_ok true C46_g /\ no_floats true C46_g /\ xfunc_ok true C46_h /\ no_floats true C46_h
  /\ call_ok true 1 [AFloat 4; ASaved 1; ASaved 3] /\ call_ok false 1 [ASaved 1; AFloat 4; ASaved 3; ASaved 2] /\ xsrc_legal (AMem 14 0) 8 /\ xdst_legal (AMem 1 2) 3.
Proof. do 6 (split; [fok|]). unfold call_ok, xsrc_legal, xdst_legal, xmem_legal, xureg. repeat split; try discriminate; try lia; repeat constructor; try (vm_compute; congruence); lia. Qed.
(** push rbx, r15, r14; mov rbx, rdi; mov r15, rdx; sub rsp, 48, after endbr64; and the reverse *)
Example C46_case_unix : enter_code false true C46_f = Some [243; 15; 30; 250; 83; 65; 87; 65; 86; 72; 137; 251; 73; 137; 215; 72; 131; 236; 48]
  /\ xreturn_void false (ctx_of false C46_f) = Some [72; 131; 196; 48; 65; 94; 65; 95; 91; 195]
  /\ xicall false (ctx_of false C46_f) false false (call_types 1 [ASaved 1; ASaved 1; ASaved 3]) (AReg 3) 0 = Some [72; 137; 250; 72; 137; 199; 255; 210].
Proof. repeat split; vm_compute; reflexivity. Qed.
Example C46_case_win : enter_code true true C46_g = Some [243; 15; 30; 250; 83; 86; 87; 85; 65; 84; 72; 137; 211; 76; 137; 194; 76; 137; 206; 73; 199; 193; 4; 0; 0; 0;
       76; 139; 148; 36; 0; 240; 255; 255; 72; 129; 236; 0; 16; 0; 0; 73; 131; 233; 1; 117; 235; 76; 139; 140; 36; 192; 241; 255; 255; 72; 129; 236; 64; 14; 0; 0]
  /\ xreturn_to true (ctx_of true C46_g) (AReg 12) 0 = Some [73; 137; 242; 72; 129; 196; 64; 78; 0; 0; 65; 92; 93; 95; 94; 91; 72; 131; 196; 8; 65; 255; 226]
  /\ xicall true (ctx_of true C46_h) true false (call_types 1 [AFloat 4; ASaved 1; ASaved 3]) (AReg 12) 0 =
     Some [73; 137; 242; 72; 129; 196; 136; 0; 0; 0; 95; 94; 73; 137; 208; 72; 137; 194; 65; 255; 226].
Proof. repeat split; vm_compute; reflexivity. Qed.
(** The function which returns its argument: push rbx; mov rbx, rdi; mov rax, rbx; pop rbx; ret. *)
Example C46_identity_code : enter_code false false id_func = Some [83; 72; 137; 251] /\ xreturn false true true true false (ctx_of false id_func) O_MOV (AReg 13) 0 = Some [72; 137; 216; 91; 195].
Proof. split; reflexivity. Qed.
Example C46_identity : forall u codef a s, xwf s -> 0 <= a < 2 ^ 48 -> fetches a 0 [83; 72; 137; 251] codef -> fetches (a + 4) 0 [72; 137; 216; 91; 195] codef ->
  exists s', csteps codef u a s (return_address s) s' /\ xr s' 0 = xr s 7 /\ xr s' 4 = wrap (xr s 4 + 8) /\ forall x, In x [3; 5; 12; 13; 14; 15] -> xr s' x = xr s x.
Proof. exact identity_runs. Qed.
