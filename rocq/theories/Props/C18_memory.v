(** C18: memory operands access exactly the documented bytes (RISC-V 64). *)
Require Import ZArith List Bool Lia.
From Verif Require Import Rv.RvLib Rv.RvIsa Rv.RvEnc Rv.RvImm Rv.RvRun Rv.RvWf Rv.RvMem Rv.RvRunMem Rv.RvOp Rv.RvLir Rv.RvCanon Rv.RvEmitOp2 Rv.RvEmitOp1 Rv.RvOpTop Rv.RvOpBad.
Import ListNotations.
Open Scope Z_scope.

(** Loads: each of the four sizes, zero and sign extension, every addressing form ([addr] is base + displacement or
    base + index * 2^shift; register 0 is no register), every displacement.  The value is made of the [m] bytes at the address, the lowest first. *)
Theorem C18_load : forall c k d b o w s, is_move k = true -> wf s -> ureg d -> mem_legal b o w ->
  let m := size1 k false in
  ok (emit_op1 c k false (AReg d) 0 (AMem b o) w) s (fun s' =>
    mem s' = mem s /\
    res1 k 64 (fold_right (fun i v => mem s (wrap (addr s b o w + Z.of_nat i)) mod 256 * 256 ^ Z.of_nat i + v) 0 (seq 0 m)) (rd s' d)).
Proof.
  intros c k d b o w s M W D L m. eapply ok_mono; [apply emit_mov_ok; auto; cbn; discriminate|]. cbv beta. intros s' ((_ & V & E & _) & _).
  split; [exact E|]. rewrite <- load_sum. rewrite V by (unfold ureg in D; lia). apply mval_res; auto.
Qed.
Print Assumptions C18_load.

(** Stores: the bytes at the address get the bytes of the source, every other byte of the memory is unchanged. *)
Theorem C18_store : forall c k src ws b o w s, is_move k = true -> wf s -> src_legal src ws -> is_mem src = false -> mem_legal b o w -> ~ changes c k s src ->
  let m := size1 k false in
  ok (emit_op1 c k false (AMem b o) w src ws) s (fun s' =>
    forall x, isw x -> let i := wrap (x - addr s b o w) in
    mem s' x = if i <? Z.of_nat m then (match src with AReg r => rd s r | _ => ws end / 256 ^ i) mod 256 else mem s x).
Proof.
  intros c k src ws b o w s M W L N L2 C m. eapply ok_mono; [apply emit_mov_ok; auto|]. cbv beta. intros s' ((_ & E & _) & _) x X i.
  rewrite E, (store_mod _ _ _ _ (match src with AReg r => rd s r | _ => ws end)).
  - rewrite store_at by (auto; unfold m; pose proof (size1_le k false); lia). reflexivity.
  - destruct src; try discriminate; cbn [argval]; apply mval_low; auto.
Qed.
Print Assumptions C18_store.

(** An operation with any combination of memory operands, whose addresses share computations (the cache of address parts): the
    operands are what is in memory at their addresses before the operation, the result is written at the address of the destination. *)
Theorem C18_op2 : forall c k (is32 : bool) s cin b o w src1 w1 src2 w2,
  let n := if is32 then 32 else 64 in let m := if is32 then 4%nat else 8%nat in
  wf s -> mem_legal b o w -> src_legal src1 w1 -> src_legal src2 w2 -> in_format s n src1 -> in_format s n src2 ->
  (k = O_ADDC \/ k = O_SUBC -> rd s OTHER_FLAG = b2z cin) ->
  ok (emit_op2 c (mkOp (K2 k) is32 false VNone) (AMem b o) w src1 w1 src2 w2) s (fun s' =>
    forall x, isw x -> let i := wrap (x - addr s b o w) in
    mem s' x = if i <? Z.of_nat m then (canon n (res2 k n (argval s m src1 w1) (argval s m src2 w2) cin) / 256 ^ i) mod 256 else mem s x).
Proof.
  intros c k is32 s cin b o w src1 w1 src2 w2 n m W D L1 L2 F1 F2 Ci. eapply ok_mono.
  - apply (emit_op2_ok c (mkOp (K2 k) is32 false VNone) k s cin (AMem b o) w src1 w1 src2 w2); auto; try discriminate.
    + destruct k; cbn; auto.
    + intros Hk. apply Ci. destruct k; cbn in Hk; try discriminate; auto.
  - intros s' ((_ & E & _) & _) x X i. rewrite E, store_at by (auto; destruct is32; cbn; lia). reflexivity.
Qed.
Print Assumptions C18_op2.

(** [R1 + 0x12345] := [R1 + 0x12340] + [R1 + 0x22345678]; the first two addresses share their upper part. *)
Example C18_case : let s := st [(1, 0x1000)] in wf s /\ mem_legal 1 0 0x12345 /\ src_legal (AMem 1 0) 0x12340 /\ src_legal (AMem 1 0) 0x22345678 /\
  match run (flat (emit_op2 c_n (mkOp (K2 O_ADD) false false VNone) (AMem 1 0) 0x12345 (AMem 1 0) 0x12340 (AMem 1 0) 0x22345678)) s with
  | Some s' => mem s' 0x13345 = 0x40 + 0x78 /\ mem s' 0x13346 = 0x41 + 0x79 /\ mem s' 0x13344 = 0x44 | None => False end.
Proof. split; [apply st_wf|]. unfold src_legal, mem_legal, ureg, NREGS. repeat split; try lia; vm_compute; reflexivity. Qed.
(** R2 := (s16) [R1 + R3 << 2]. *)
Example C18_case_load : let s := st [(1, 0x1000); (3, 0x3f)] in wf s /\ ureg 2 /\ mem_legal 1 3 2 /\
  match run (flat (emit_op1 c_n O_MOV_S16 false (AReg 2) 0 (AMem 1 3) 2)) s with Some s' => rd s' 2 = wrap (sext 16 0xfdfc) | None => False end.
Proof. split; [apply st_wf|]. unfold mem_legal, ureg, NREGS. repeat split; try lia; vm_compute; reflexivity. Qed.
Example C18_case_store : let s := st [(1, 0x1000); (3, 0x123456)] in wf s /\ src_legal (AReg 3) 0 /\ mem_legal 1 0 (-0x12345678) /\ ~ changes c_n O_MOV_S16 s (AReg 3).
Proof. split; [apply st_wf|]. unfold src_legal, mem_legal, ureg, NREGS. repeat split; try lia. intros (A & _). discriminate. Qed.
