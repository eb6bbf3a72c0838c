(** sljit_emit_cmp. *)
Require Import ZArith List Bool Lia Zify ZifyBool.
From Verif Require Import Rv.RvLib Rv.RvBits Rv.RvIsa Rv.RvEnc Rv.RvImm Rv.RvRun Rv.RvImmProofs Rv.RvCtl Rv.RvWf Rv.RvMem Rv.RvRunMem Rv.RvOp Rv.RvLir Rv.RvCanon Rv.RvOpLib Rv.RvSx Rv.RvMemProofs Rv.RvEmitOp Rv.RvEmitOp2 Rv.RvEmitOp1 Rv.RvLink Rv.RvLinkExec Rv.RvCond Rv.RvCondSpec Rv.RvCondProofs.
Import ListNotations.
Open Scope Z_scope.
Ltac Zify.zify_post_hook ::= idtac.

Definition rcode (c : cfg) (a : arg) (w tmp : Z) : Z := match a with AReg r => r | AImm => if w =? 0 then 0 else tmp | AMem _ _ => tmp end.
Lemma src_arg_ok a w : src_legal a w -> arg_ok a w.
Proof. destruct a; cbn; unfold ureg, NREGS; auto. lia. Qed.

Lemma cmp_imm_ok c ld tm a w s0 (P : mst -> Prop) : wf s0 -> tm = 25 \/ tm = 26 -> is_mem a = false -> src_legal a w ->
  (forall s1, wf s1 -> keeps s0 s1 (if is_imm a && negb (w =? 0) then [tm; 27] else []) -> rd s1 (rcode c a w tm) = lval s0 ld a w -> P s1) -> ok (fst (cmp_imm c tm a w)) s0 P.
Proof.
  intros W0 T M L H. destruct a as [r| |]; cbn [cmp_imm fst rcode is_imm andb lval] in *; try discriminate.
  - apply ok_nop. apply H; auto. apply keeps_refl.
  - destruct (w =? 0) eqn:E; cbn [negb fst] in *.
    + apply ok_nop. apply H; auto. { apply keeps_refl. } rewrite rd_0. replace w with 0 by lia. reflexivity.
    + apply ok_wfP; auto. apply x_imm; unfold TMP_REG3, SLJIT_SP; try vl. { exact L. } intros. apply H; auto.
Qed.

Section C.
Variables (c : cfg) (t : Z) (is32 : bool) (src1 : arg) (w1 : Z) (src2 : arg) (w2 : Z) (s : mst).
Hypothesis (W : wf s) (L1 : src_legal src1 w1) (L2 : src_legal src2 w2).
Let ld := (if is32 then INT_DATA else WORD_DATA) .| LOAD_DATA.
Let tmp := if is_reg src1 then 25 else 26.
Let r1 := rcode c src1 w1 25.
Let r2 := rcode c src2 w2 tmp.

Lemma cmp_operands : exists e, fst (emit_cmp c t is32 src1 w1 src2 w2) = e /\ snd (emit_cmp c t is32 src1 w1 src2 w2) = cmp_jc c t r1 r2 /\
  ok e s (fun s' => keeps s s' [25; 26; 27] /\ rd s' r1 = lval s ld src1 w1 /\ rd s' r2 = lval s ld src2 w2).
Proof.
  eexists. split; [reflexivity|]. unfold emit_cmp. fold ld.
  destruct (op_mem2 c false ld TMP_REG1 src1 w1 (next_of src2 w2) no_cache) as [e1 k] eqn:E1.
  replace (if is_reg src1 then TMP_REG1 else TMP_REG2) with tmp by (unfold tmp; destruct (is_reg src1); reflexivity).
  set (s1' := if is_mem src1 then AReg TMP_REG1 else src1).
  set (u2 := match s1' with AReg r => r =? TMP_REG1 | _ => false end).
  destruct (op_mem2 c u2 ld tmp src2 w2 None k) as [e2 k2] eqn:E2.
  set (s2' := if is_mem src2 then AReg tmp else src2).
  destruct (cmp_imm c TMP_REG1 s1' w1) as [e3 q1] eqn:E3. destruct (cmp_imm c tmp s2' w2) as [e4 q2] eqn:E4. cbn [fst snd].
  assert (Q1 : q1 = r1). { unfold r1, s1', TMP_REG1 in *. destruct src1 as [r| |]; cbn [is_mem cmp_imm] in E3; try (inversion E3; reflexivity).
    cbn [rcode]. destruct (w1 =? 0); inversion E3; reflexivity. }
  assert (Q2 : q2 = r2). { unfold r2, s2' in *. destruct src2 as [r| |]; cbn [is_mem cmp_imm] in E4; try (inversion E4; reflexivity).
    cbn [rcode]. destruct (w2 =? 0); inversion E4; reflexivity. }
  split; [congruence|].
  assert (Hl : 0 <= ld < 16 /\ ld .& LOAD_DATA <> 0) by (unfold ld; destruct is32; vm_compute; repeat split; congruence). destruct Hl as (Hl1 & Hl2).
  assert (Tm : tmp = 25 /\ is_reg src1 = true \/ tmp = 26 /\ is_reg src1 = false) by (unfold tmp; destruct (is_reg src1); auto).
  assert (A2 := src_arg_ok _ _ L2).
  apply ok_then.
  (* source 1 in memory *)
  assert (S1 : ok e1 s (fun s1 => wf s1 /\ keeps s s1 (if is_mem src1 then [25; 27] else []) /\ cache_ok k s1 /\ (is_mem src1 = true -> rd s1 25 = lval s ld src1 w1))).
  { destruct src1 as [r| |b o]; cbn [op_mem2 is_mem] in E1 |- *.
    - inversion E1; subst. apply ok_nop. split; auto. split; [apply keeps_refl|]. split; [exact I|discriminate].
    - inversion E1; subst. apply ok_nop. split; auto. split; [apply keeps_refl|]. split; [exact I|discriminate].
    - replace e1 with (fst (op_mem2 c false ld TMP_REG1 (AMem b o) w1 (next_of src2 w2) no_cache)) by (cbn [op_mem2]; rewrite E1; reflexivity).
      apply mem2_ok; auto; try exact I; try (unfold TMP_REG1; vl). intros s1 W1 K1 V1 C1. split; auto. unfold TMP_REG1 in *. split; [eapply keeps_incl; [|exact K1]; incls|].
      split; auto. cbn [op_mem2] in C1. rewrite E1 in C1. apply C1. lia. }
  eapply ok_mono; [exact S1|]. clear S1. intros s1 (W1 & K1 & C1 & V1). apply ok_then.
  (* source 2 in memory *)
  assert (K1' : keeps s s1 [25; 27]). { eapply keeps_incl; [|exact K1]. destruct (is_mem src1); incls. }
  assert (L12 : lval s1 ld src2 w2 = lval s ld src2 w2) by (apply (lval_keeps s s1 ld src2 w2 _ A2 K1'); cbn; lia).
  assert (S2 : ok e2 s1 (fun s2 => wf s2 /\ keeps s1 s2 (if is_mem src2 then [if u2 then 26 else 25; 27; tmp] else []) /\ (is_mem src2 = true -> rd s2 tmp = lval s ld src2 w2))).
  { destruct src2 as [r| |b o]; cbn [op_mem2 is_mem] in E2 |- *.
    - inversion E2; subst. apply ok_nop. split; auto. split; [apply keeps_refl|]. discriminate.
    - inversion E2; subst. apply ok_nop. split; auto. split; [apply keeps_refl|]. discriminate.
    - replace e2 with (fst (op_mem2 c u2 ld tmp (AMem b o) w2 None k)) by (cbn [op_mem2]; rewrite E2; reflexivity).
      apply mem2_ok; auto; try (destruct Tm as [(-> & _)|(-> & _)]; vl). intros s2 W2 K2 V2 _. split; auto. split; auto. intros _. congruence. }
  eapply ok_mono; [exact S2|]. clear S2. intros s2 (W2 & K2 & V2). apply ok_then.
  assert (U2 : u2 = is_mem src1). { unfold u2, s1', TMP_REG1. destruct src1 as [r| |]; cbn [is_mem src_legal] in *; auto. unfold ureg, NREGS in L1. lia. }
  assert (V1' : is_mem src1 = true -> rd s2 25 = lval s ld src1 w1).
  { intros M. rewrite <- V1 by auto. apply (keeps_rd _ _ _ _ K2); [vl|]. rewrite U2, M. destruct src1; try discriminate. destruct Tm as [(_ & T)|(-> & _)]; [discriminate|]. destruct (is_mem src2); cbn; lia. }
  assert (K2' : keeps s s2 [25; 26; 27]). { eapply keeps_tr; [exact K1'|exact K2|incls|]. destruct Tm as [(-> & _)|(-> & _)], u2, (is_mem src2); incls. }
  (* immediates *)
  assert (I1 : src_legal s1' w1 \/ s1' = AReg 25). { unfold s1'. destruct src1; auto. }
  assert (S3 : ok e3 s2 (fun s3 => wf s3 /\ keeps s2 s3 (if is_imm src1 && negb (w1 =? 0) then [25; 27] else []) /\ rd s3 r1 = lval s ld src1 w1)).
  { replace e3 with (fst (cmp_imm c TMP_REG1 s1' w1)) by (rewrite E3; reflexivity). unfold s1', TMP_REG1, r1. destruct src1 as [r| |b o]; cbn [is_mem].
    - apply (cmp_imm_ok c ld); auto. intros s3 W3 K3 V3. split; auto. split; auto. rewrite V3. cbn [lval src_legal] in *. unfold ureg, NREGS in L1. apply (keeps_rd _ _ _ _ K2'); [vl|cbn; lia].
    - apply (cmp_imm_ok c ld); auto.
    - cbn [cmp_imm fst rcode is_imm andb]. apply ok_nop. split; auto. split; [apply keeps_refl|]. apply V1'. reflexivity. }
  eapply ok_mono; [exact S3|]. clear S3. intros s3 (W3 & K3 & V3).
  assert (K3' : keeps s s3 [25; 26; 27]). { eapply keeps_tr; [exact K2'|exact K3|incls|]. destruct (is_imm src1 && negb (w1 =? 0)); incls. }
  assert (V2' : is_mem src2 = true -> rd s3 tmp = lval s ld src2 w2).
  { intros M. rewrite <- V2 by auto. apply (keeps_rd _ _ _ _ K3); [destruct Tm as [(-> & _)|(-> & _)]; vl|]. destruct src1; cbn [is_imm andb]; auto. destruct Tm as [(_ & T)|(-> & _)]; [discriminate|]. destruct (w1 =? 0); cbn; lia. }
  replace e4 with (fst (cmp_imm c tmp s2' w2)) by (rewrite E4; reflexivity). unfold s2', r2.
  assert (R1 : forall sx, keeps s3 sx (if is_imm src2 && negb (w2 =? 0) then [tmp; 27] else []) -> rd sx r1 = lval s ld src1 w1).
  { intros sx Kx. rewrite <- V3. unfold r1. apply (keeps_rd _ _ _ _ Kx).
    - destruct src1; cbn [rcode src_legal] in *; unfold ureg, NREGS in *; try vl. destruct (w1 =? 0); vl.
    - destruct (is_imm src2 && negb (w2 =? 0)); cbn [In]; auto. destruct src1; cbn [rcode src_legal is_reg] in *; unfold ureg, NREGS in *; destruct Tm as [(-> & T)|(-> & T)]; try discriminate T; try lia. destruct (w1 =? 0); lia. }
  destruct src2 as [r| |b o]; cbn [is_mem].
  - apply (cmp_imm_ok c ld); auto; try lia. intros s4 W4 K4 V4. split; [eapply keeps_tr; [exact K3'|exact K4|incls|incls]|]. split; [apply R1; exact K4|].
    rewrite V4. cbn [lval src_legal] in *. unfold ureg, NREGS in L2. apply (keeps_rd _ _ _ _ K3'); [vl|cbn; lia].
  - apply (cmp_imm_ok c ld); auto; try lia. intros s4 W4 K4 V4. split; [|split; [apply R1; exact K4|exact V4]].
    eapply keeps_tr; [exact K3'|exact K4|incls|]. destruct Tm as [(-> & _)|(-> & _)], (is_imm AImm && negb (w2 =? 0)); incls.
  - cbn [cmp_imm fst rcode is_imm andb] in *. apply ok_nop. split; auto.
Qed.

End C.

(** A 32 bit operand that the registers hold in their 32 bit format after it is loaded: see [C21_cmp32_refuted]. *)
Definition sign_clear (s : mst) (a : arg) (w : Z) : Prop :=
  match a with AReg r => rd s r = canon 32 (rd s r) | AImm => - 2 ^ 31 <= w < 2 ^ 31 | AMem b o => load (mem s) (addr s b o w) 4 < 2 ^ 31 end.

Lemma lval_cmp s is32 a w : wf s -> src_legal a w -> (is32 = true -> sign_clear s a w) ->
  lval s ((if is32 then INT_DATA else WORD_DATA) .| LOAD_DATA) a w = canon (nbits is32) (argval s (if is32 then 4 else 8)%nat a w).
Proof.
  intros W L F. destruct is32; cbn [nbits].
  - specialize (F eq_refl). destruct a as [r| |b o]; cbn [lval argval sign_clear] in *; auto.
    + symmetry. apply (canon_small true). lia.
    + change (fsize (INT_DATA .| LOAD_DATA)) with B4. change (fsigned (INT_DATA .| LOAD_DATA)) with false. unfold ldval. cbn [bytes].
      pose proof (load_bound (mem s) 4 (addr s b o w)). rewrite (canon_small true) by lia. symmetry. apply wrap_small. unfold isw. change (2 ^ (8 * Z.of_nat 4)) with (2 ^ 32) in *. lia.
  - rewrite canon64. destruct a as [r| |b o]; cbn [lval argval]; auto.
    + symmetry. apply wrap_small. apply W.
    + change (fsize (WORD_DATA .| LOAD_DATA)) with B8. change (fsigned (WORD_DATA .| LOAD_DATA)) with true. unfold ldval. cbn [bytes bits]. fold (canon 64 (load (mem s) (addr s b o w) 8)). apply canon64.
Qed.

Lemma zeq_holds (eq : bool) f x y s r : rd s r = canon (nbits f) x -> canon (nbits f) y = 0 -> jc_holds (JZ eq r) s = if eq then x mod 2 ^ nbits f =? y mod 2 ^ nbits f else negb (x mod 2 ^ nbits f =? y mod 2 ^ nbits f).
Proof. intros R Y. cbn [jc_holds]. rewrite R, <- canon_eqb, Y. destruct eq, (canon (nbits f) x =? 0); reflexivity. Qed.
Lemma cmp_jc_holds c t f x y r1 r2 s : 0 <= t < 10 -> rd s r1 = canon (nbits f) x -> rd s r2 = canon (nbits f) y -> jc_holds (cmp_jc c t r1 r2) s = compare t (nbits f) x y.
Proof.
  intros T R1 R2.
  assert (SM : forall z, sext (nbits f) (z mod 2 ^ nbits f) = sgn (canon (nbits f) z)).
  { intros z. rewrite sgn_canon. rewrite <- (sext_canon f (z mod 2 ^ nbits f)), canon_of_mod. apply sext_canon. }
  assert (LE : forall a b, (a mod 2 ^ nbits f <=? b mod 2 ^ nbits f) = (canon (nbits f) a <=? canon (nbits f) b)).
  { intros a b. rewrite !Z.leb_antisym, canon_ltu. reflexivity. }
  assert (EQ : t = 0 \/ t = 1 -> jc_holds (cmp_jc c t r1 r2) s = if t =? 0 then x mod 2 ^ nbits f =? y mod 2 ^ nbits f else negb (x mod 2 ^ nbits f =? y mod 2 ^ nbits f)).
  { intros E. unfold cmp_jc, SLJIT_EQUAL, SLJIT_NOT_EQUAL, TMP_ZERO. replace ((t =? 0) || (t =? 1)) with true by lia.
    destruct (cC c && (r1 =? 0) && C_IS_R3 r2) eqn:E1.
    { rewrite (zeq_holds _ f y x); auto. { rewrite (Z.eqb_sym (y mod _)). reflexivity. } rewrite <- R1. replace r1 with 0 by lia. apply rd_0. }
    destruct (cC c && (r2 =? 0) && C_IS_R3 r1) eqn:E2.
    { rewrite (zeq_holds _ f x y); auto. rewrite <- R2. replace r2 with 0 by lia. apply rd_0. }
    rewrite <- canon_eqb, <- R1, <- R2. destruct E as [-> | ->]; reflexivity. }
  unfold compare. cbv zeta.
  assert (E : t = 0 \/ t = 1 \/ t = 2 \/ t = 3 \/ t = 4 \/ t = 5 \/ t = 6 \/ t = 7 \/ t = 8 \/ t = 9) by lia.
  rewrite !SM, !LE, <- !canon_ltu, <- !R1, <- !R2.
  destruct E as [-> | [-> | E]]; [rewrite EQ by auto; reflexivity | rewrite EQ by auto; reflexivity|]. clear EQ.
  repeat (destruct E as [-> | E]; [reflexivity|]). subst. reflexivity.
Qed.
Lemma cmp_jc_ok c t r1 r2 : vreg r1 -> vreg r2 -> jc_ok (cmp_jc c t r1 r2) /\ match cmp_jc c t r1 r2 with JZ _ _ => cC c = true | JAlways => False | _ => True end.
Proof.
  intros V1 V2. unfold cmp_jc. repeat (match goal with |- context [if ?b then _ else _] => destruct b eqn:? end); cbn [jc_ok]; repeat (match goal with H : _ && _ = true |- _ => apply andb_prop in H; destruct H end); unfold vreg in *; repeat split; auto; lia.
Qed.
Lemma rcode_v c a w t : src_legal a w -> t = 25 \/ t = 26 -> vreg (rcode c a w t).
Proof. intros L T. destruct a; cbn [rcode src_legal] in *; unfold ureg, NREGS in *; [vl| |destruct T; subst; vl]. destruct (w =? 0); [vl|destruct T; subst; vl]. Qed.

(** The comparison, with its jump condition; the temporary registers change only. *)
Lemma cmp_ok c t is32 src1 w1 src2 w2 s : 0 <= t < 10 -> wf s -> src_legal src1 w1 -> src_legal src2 w2 ->
  (is32 = true -> sign_clear s src1 w1 /\ sign_clear s src2 w2) ->
  let n := nbits is32 in let m := (if is32 then 4 else 8)%nat in
  let '(e, j) := emit_cmp c t is32 src1 w1 src2 w2 in
  jc_ok j /\ match j with JZ _ _ => cC c = true | JAlways => False | _ => True end /\
  ok e s (fun s' => keeps s s' [25; 26; 27] /\ jc_holds j s' = compare t n (argval s m src1 w1) (argval s m src2 w2)).
Proof.
  intros T W L1 L2 F n m. destruct (cmp_operands c t is32 src1 w1 src2 w2 s W L1 L2) as (e & E1 & E2 & O).
  destruct (emit_cmp c t is32 src1 w1 src2 w2) as (e', j). cbn [fst snd] in *. subst e' j.
  assert (Tm : (if is_reg src1 then 25 else 26) = 25 \/ (if is_reg src1 then 25 else 26) = 26) by (destruct (is_reg src1); auto).
  pose proof (cmp_jc_ok c t _ _ (rcode_v c src1 w1 25 L1 (or_introl eq_refl)) (rcode_v c src2 w2 _ L2 Tm)) as (J1 & J2). split; auto. split; auto.
  eapply ok_mono; [exact O|]. cbv beta. intros s' (K & R1 & R2). split; auto.
  apply (cmp_jc_holds c t is32); auto.
  - rewrite R1. apply lval_cmp; auto. intros; apply F; auto.
  - rewrite R2. apply lval_cmp; auto. intros; apply F; auto.
Qed.
(** Two 32 bit memory operands compared for equality or as unsigned numbers: no restriction. *)
Lemma cmp_mem_ok c t b1 o1 w1 b2 o2 w2 s : 0 <= t < 6 -> wf s -> mem_legal b1 o1 w1 -> mem_legal b2 o2 w2 ->
  let '(e, j) := emit_cmp c t true (AMem b1 o1) w1 (AMem b2 o2) w2 in
  jc_ok j /\ match j with JZ _ _ => cC c = true | JAlways => False | _ => True end /\
  ok e s (fun s' => keeps s s' [25; 26; 27] /\ jc_holds j s' = compare t 32 (argval s 4 (AMem b1 o1) w1) (argval s 4 (AMem b2 o2) w2)).
Proof.
  intros T W L1 L2. destruct (cmp_operands c t true (AMem b1 o1) w1 (AMem b2 o2) w2 s W L1 L2) as (e & E1 & E2 & O).
  destruct (emit_cmp c t true (AMem b1 o1) w1 (AMem b2 o2) w2) as (e', j). cbn [fst snd is_reg rcode] in *. subst e' j.
  pose proof (cmp_jc_ok c t 25 26 ltac:(vl) ltac:(vl)) as (J1 & J2). split; auto. split; auto.
  eapply ok_mono; [exact O|]. cbv beta. intros s' (K & R1 & R2). split; auto.
  pose proof (load_bound (mem s) 4 (addr s b1 o1 w1)) as B1. pose proof (load_bound (mem s) 4 (addr s b2 o2 w2)) as B2.
  cbn [lval argval] in *. change (fsize (INT_DATA .| LOAD_DATA)) with B4 in *. change (fsigned (INT_DATA .| LOAD_DATA)) with false in *. unfold ldval in *. cbn [bytes] in *.
  set (x := load (mem s) (addr s b1 o1 w1) 4) in *. set (y := load (mem s) (addr s b2 o2 w2) 4) in *. clearbody x y. change (2 ^ (8 * Z.of_nat 4)) with 4294967296 in *.
  rewrite (cmp_jc_holds c t false x y 25 26); auto.
  2: lia.
  2,3: cbn [nbits]; rewrite canon64, wrap_small by (unfold isw; lia); auto.
  assert (E : t = 0 \/ t = 1 \/ t = 2 \/ t = 3 \/ t = 4 \/ t = 5) by lia. unfold compare. cbv zeta. rewrite !(Z.mod_small x), !(Z.mod_small y) by (cbn [nbits]; lia).
  repeat (destruct E as [-> | E]; [reflexivity|]). subst. reflexivity.
Qed.
