(** C28: the bytes produced by emit_x86_instruction and emit_load_imm64 (x86-64), read by the decoder of X86/X86Isa.v. *)
Require Import ZArith List Bool Lia.
From Verif Require Import Rv.RvLib Rv.RvIsa Rv.RvMem X86.X86Isa X86.X86Emit X86.X86Spec X86.X86Enc X86.X86EncTop X86.X86OpSpec X86.X86Op X86.X86C28.
Import ListNotations.
Open Scope Z_scope.

(** For all flags, first operands (register or immediate) and general operands (register or memory, with any 64 bit displacement)
    emission succeeds; the instruction emitted before (if the displacement needs one) only loads TMP_REG2; after any opcode byte the processor finds the
    requested prefix, operand size, register field (or opcode digit [d] put there by the caller), general operand and immediate, and then the bytes that follow. *)
Theorem C28_encoding : forall w m32 f a imma b immb, flags_ok f -> firstop m32 f a imma -> genop b immb ->
  exists o x opn, emit_x86 w m32 f a imma b immb = Some o
    /\ (forall u s, runs u (o_pre o) s (after_pre w b immb s))
    /\ o_first o = want_first f a imma
    /\ (forall op l, opbyte op -> op <> 0x0f -> decode (o_head o ++ op :: l) = decode1 (want_pfx f) x op l)
    /\ (forall op l, decode (o_head o ++ 0x0f :: op :: l) = decode2 (want_pfx f) x op l)
    /\ rW x = (negb m32 && negb (f_norexw f)) /\ (f_rex f = true -> rP x = true)
    /\ same_operand w f b immb opn
    /\ (forall d l, digit_ok f a d ->
         modrm x (or_hd (8 * d) (o_tail o) ++ l) = Some (want_reg w f a + d, opn, lebytes (imm_size f a imma) imma ++ l)).
Proof. exact encoding_ok. Qed.
Print Assumptions C28_encoding.

(** emit_load_imm64 sets the register to the value, for all values and registers, and changes nothing else. *)
Theorem C28_load_imm64 : forall u w r imm s, isreg r -> runs u (load_imm64 w r imm) s (setr s (reg_map w r) (wrap imm)).
Proof. exact load_imm64_ok. Qed.
Print Assumptions C28_load_imm64.

(** Executed: a store writes the low 4 or 8 bytes of the register at the address named by the operand and keeps the registers of the LIR. *)
Theorem C28_store : forall u w m r b o imm s, 1 <= r <= 15 -> xmem_legal b o imm -> xwf s ->
  does u (ins w m (fl 1) 0x89 (AReg r) 0 (AMem b o) imm) s (fun s' =>
    xm s' = store (xm s) (xaddr w s b o imm) (xr s (reg_map w r) mod 2 ^ X86Ins.size_of m) (if m then 4 else 8)%nat
    /\ forall q, 1 <= q <= 15 -> xr s' (reg_map w q) = xr s (reg_map w q)).
Proof. exact store_instr_ok. Qed.
Print Assumptions C28_store.
(** A load sets the register to the bytes at the address. *)
Theorem C28_load : forall u w m r b o imm s, 1 <= r <= 15 -> xmem_legal b o imm -> xwf s ->
  does u (ins w m (fl 1) 0x8b (AReg r) 0 (AMem b o) imm) s (fun s' =>
    xr s' (reg_map w r) = load (xm s) (xaddr w s b o imm) (if m then 4 else 8)%nat
    /\ xm s' = xm s /\ forall q, 1 <= q <= 15 -> q <> r -> xr s' (reg_map w q) = xr s (reg_map w q)).
Proof. exact load_instr_ok. Qed.
Print Assumptions C28_load.

(** Cases: the bytes of mov R0, [...] with the bases RBP (R8), R13 (R9), R12 (R7), RSP (SLJIT_SP), an index RBP or R12 with the
    scale 8, no base, a displacement of 128, one of 2^31 (through TMP_REG2), and 2^40 alone. *)
Example C28_cases :
  map (fun p => ins false false (fl 1) 0x8b (AReg R0) 0 (fst p) (snd p))
    [(AMem 9 0, 0); (AMem 10 0, 0); (AMem 8 0, 127); (AMem 14 0, 8); (AMem 2 9, 3); (AMem 14 8, 3); (AMem 9 10, 0); (AMem 0 0, 64);
     (AMem 2 0, 128); (AMem 2 0, 2 ^ 31); (AMem 0 0, 2 ^ 40)] =
  map Some
    [[0x48; 0x8b; 0x45; 0]; [0x49; 0x8b; 0x45; 0]; [0x49; 0x8b; 0x44; 0x24; 0x7f]; [0x48; 0x8b; 0x44; 0x24; 8]; [0x48; 0x8b; 0x04; 0xee];
     [0x4a; 0x8b; 0x04; 0xe4]; [0x4a; 0x8b; 0x44; 0x2d; 0]; [0x48; 0x8b; 0x04; 0x25; 0x40; 0; 0; 0];
     [0x48; 0x8b; 0x86; 0x80; 0; 0; 0];
     [0x49; 0xb9; 0; 0; 0; 0x80; 0; 0; 0; 0; 0x4a; 0x8b; 0x04; 0x0e];
     [0x49; 0xb9; 0; 0; 0; 0; 0; 1; 0; 0; 0x49; 0x8b; 0x01]].
Proof. vm_compute. reflexivity. Qed.
(** The hypotheses are met, e.g. by an immediate operand with a far address, and by a shift of a register by CL. *)
Example C28_hypotheses :
  (flags_ok (with_bin (fl 1)) /\ firstop true (with_bin (fl 1)) AImm (2 ^ 40 + 3) /\ genop (AMem 14 0) (2 ^ 40))
  /\ (flags_ok (with_shift (fl 1)) /\ firstop false (with_shift (fl 1)) (AReg PREF_SHIFT_REG) 0 /\ genop (AReg 8) 0).
Proof.
  unfold flags_ok, firstop, genop, isreg, PREF_SHIFT_REG, R3. cbn.
  repeat split; auto; try lia; try congruence; try (intros (A & B); discriminate); try (intros [A|A]; discriminate).
Qed.
