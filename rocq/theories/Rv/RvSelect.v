(** sljit_emit_select. *)
Require Import ZArith List Bool Lia Zify ZifyBool.
From Verif Require Import Rv.RvLib Rv.RvBits Rv.RvIsa Rv.RvEnc Rv.RvImm Rv.RvRun Rv.RvImmProofs Rv.RvCtl Rv.RvWf Rv.RvMem Rv.RvRunMem Rv.RvReach Rv.RvOp Rv.RvLir Rv.RvCanon Rv.RvOpLib Rv.RvSx Rv.RvMemProofs Rv.RvEmitOp Rv.RvEmitOp2 Rv.RvEmitOp1 Rv.RvLink Rv.RvLinkExec Rv.RvCond Rv.RvCondSpec Rv.RvCondProofs.
Import ListNotations.
Open Scope Z_scope.
Ltac Zify.zify_post_hook ::= idtac.

(** ** Lengths *)
Fixpoint esz (e : em) : Z := match e with ENop => 0 | E16 _ => 1 | E32 _ => 2 | EThen a b | EIgn a b => esz a + esz b end.
Lemma esz_units e : Z.of_nat (length (units_of (flat e))) = esz e.
Proof. induction e; cbn [flat esz]; try reflexivity; rewrite units_of_app, app_length; lia. Qed.
Lemma esz_if (b : bool) x y n : esz x <= n -> esz y <= n -> esz (if b then x else y) <= n.
Proof. destruct b; auto. Qed.
Lemma esz_then x y n m : esz x <= n -> esz y <= m -> esz (x ;; y) <= n + m. Proof. cbn. lia. Qed.
Ltac szs := repeat first [apply esz_if | cbn [esz]; lia].
Ltac szi := repeat match goal with |- context [esz (if ?b then ?x else ?y)] => 
  let H := fresh in assert (H : esz (if b then x else y) <= 2) by szs; revert H; generalize (esz (if b then x else y)); intros end.
Lemma load32_sz c d i : esz (load_immediate32 c d i) <= 4.
Proof. unfold load_immediate32. repeat apply esz_if; cbn [esz]; try lia. szi. lia. Qed.
Lemma small_sz c d i o n : 4 <= n -> esz o <= n -> esz (load_immediate_small c d i o) <= n.
Proof. intros N O. unfold load_immediate_small. pose proof (load32_sz c d i). apply esz_if; [cbn [esz]; lia|]. apply esz_if; [cbn [esz]; lia|]. apply esz_if; lia. Qed.
Lemma load64_sz c d i t : esz (load_immediate64 c d i t) <= 12.
Proof.
  unfold load_immediate64. set (hh := if negb (s32 i .& 2147483648 =? 0) then _ else _). 
  match goal with |- context [let '(e1, high) := ?x in _] => assert (X : esz (fst x) <= 2) by (destruct ((hh <=? 524287) && (hh >=? -524288)); cbn [fst esz]; lia); destruct x as [e1 high] end.
  match goal with |- context [let '(e2, imm) := ?x in _] => assert (Y : esz (fst x) <= 2) by (destruct ((s32 i <=? SIMM_MAX) && (s32 i >=? SIMM_MIN)); [|destruct (s32 i >? S32_MAX)]; cbn [fst]; szs); destruct x as [e2 imm] end.
  cbn [fst esz] in *. szi. lia.
Qed.
Lemma load_sz c d i t : esz (load_immediate c d i t) <= 12.
Proof.
  unfold load_immediate. apply small_sz; [lia|]. destruct (trailing i) as [h sh]. pose proof (load64_sz c d i t). pose proof (small_sz c d h ENop 4 ltac:(lia) ltac:(cbn; lia)).
  apply esz_if; [|apply esz_if]; auto; cbn [esz].
  - assert (esz (if cC c then E16 (C_SLLI .| C_RD d .| C_IMM_I sh) else E32 (SLLI .| RD d .| RS1 d .| IMM_I sh)) <= 2) by szs. lia.
  - match goal with |- context [load_immediate32 c d ?x] => pose proof (load32_sz c d x) end. destruct (cC c); cbn [esz]; lia.
Qed.
Lemma push_sz c f r b o : esz (push_mem_inst c f r b o) <= 2.
Proof. unfold push_mem_inst. cbv zeta. repeat apply esz_if; cbn [esz]; lia. Qed.
Lemma op_mem_sz c f r b o w : esz (emit_op_mem c f r b o w) <= 16.
Proof.
  unfold emit_op_mem. pose proof (push_sz c f r b w). cbv zeta. apply esz_if; [lia|]. apply esz_if.
  - cbn [esz]. match goal with |- context [push_mem_inst c ?f ?r ?b ?o] => pose proof (push_sz c f r b o) end. destruct (negb (w .& 3 =? 0)); cbn [esz]; lia.
  - cbn [esz]. match goal with |- context [push_mem_inst c ?f ?r ?b ?o] => pose proof (push_sz c f r b o) end. match goal with |- context [load_immediate c ?r ?b ?o] => pose proof (load_sz c r b o) end.
    destruct (negb (b =? 0)); cbn [esz]; lia.
Qed.
Lemma select_sz c is32 d a w : esz (select_load c is32 d a w) <= 16.
Proof. destruct a as [r| |b o]; cbn [select_load]. - cbn [esz]. lia. - pose proof (load_sz c d (if is32 then s32 w else w) TMP_REG1). lia. - apply op_mem_sz. Qed.
Lemma esz_pos e : 0 <= esz e. Proof. induction e; cbn; lia. Qed.

(** ** The branch *)
Definition sb_word (t size : Z) : Z := get_jump_instruction t .| u32 (Z.shiftl (size .& 0xf) 8) .| u32 (Z.shiftl (Z.shiftr size 4) 25).
Lemma branch_dec t size : ctype t -> 0 <= size < 60 ->
  decode_piece (P32 (sb_word t size)) = Some (IBranch (if fst (jcase t) then Bne else Beq) (reg_map (snd (jcase t))) (reg_map 0) (2 * size)).
Proof.
  intros T S.
  assert (B : forallb (fun t => forallb (fun size => match decode_piece (P32 (sb_word t size)) with
    | Some (IBranch cc a b o) => match cc, fst (jcase t) with Bne, true => true | Beq, false => true | _, _ => false end && (a =? reg_map (snd (jcase t))) && (b =? reg_map 0) && (o =? 2 * size)
    | _ => false end) (upto 60)) (upto 14) = true) by (vm_compute; reflexivity).
  rewrite forallb_forall in B. specialize (B t (upto_in 14 t T)). rewrite forallb_forall in B. specialize (B size (upto_in 60 size S)).
  destruct (decode_piece (P32 (sb_word t size))) as [i|]; [|discriminate]. destruct i; try discriminate.
  apply andb_prop in B as (B & B4). apply andb_prop in B as (B & B3). apply andb_prop in B as (B1 & B2).
  apply Z.eqb_eq in B2, B3, B4. match goal with |- Some (IBranch ?cc ?a ?b ?o) = _ => replace a with (reg_map (snd (jcase t))); replace b with (reg_map 0); replace o with (2 * size); destruct (fst (jcase t)), cc; try discriminate; reflexivity end.
Qed.
(** The instructions after the first one. *)
Lemma ok_tail x e s (P : mst -> Prop) : ok e s P -> okr (x :: flat e) 1 s P.
Proof.
  intros (s' & (A & B) & H). exists s'. split; auto. split; auto. intros code p Hp C.
  change (units_of (x :: flat e)) with (units x ++ units_of (flat e)) in C. apply code_at_app in C as (_ & C).
  specialize (B code (wrap (p + 2 * Z.of_nat (length (units x)))) (wrap_isw _)). rewrite code_at_wrap in B. specialize (B C). rewrite wrap_add_l in B.
  assert (O1 : off (x :: flat e) 1 = 2 * Z.of_nat (length (units x))). { unfold off. cbn [firstn units_of flat_map]. rewrite app_nil_r. reflexivity. }
  assert (O2 : off (x :: flat e) (length (x :: flat e)) = 2 * Z.of_nat (length (units x)) + 2 * Z.of_nat (length (units_of (flat e)))).
  { unfold off. rewrite firstn_all. change (units_of (x :: flat e)) with (units x ++ units_of (flat e)). rewrite app_length. lia. }
  rewrite O1, O2, Z.add_assoc. exact B.
Qed.
Lemma skip_ok t mul body s z v (P : mst -> Prop) : ctype t -> flags_for t mul s z v -> esz body <= 50 ->
  (if holds t z v then ok body s P else P s) -> ok (E32 (select_branch t body) ;; body) s P.
Proof.
  intros T F L H. apply ok_okr. cbn [flat app].
  unfold select_branch. cbv zeta. rewrite esz_units. fold (sb_word t (2 + esz body)). set (l := P32 (sb_word t (2 + esz body)) :: flat body).
  pose proof (esz_pos body) as Pb.
  eapply (okr_br l 0 _ s _ _ _ _ (length l)). { reflexivity. } { apply branch_dec; auto. lia. }
  { unfold off. rewrite firstn_all. cbn [firstn]. unfold l. cbn [units_of flat_map length]. rewrite app_length. fold (units_of (flat body)). rewrite Nat2Z.inj_add, esz_units. change (Z.of_nat (length (units (P32 (sb_word t (2 + esz body)))))) with 2. lia. }
  - intros C. assert (Hh : holds t z v = false).
    { rewrite <- (jump_holds t mul s z v T F). destruct (jump_cases t T) as (-> & _). cbn [jc_holds]. unfold TMP_ZERO. destruct (fst (jcase t)); cbn [condb] in *; [destruct (_ =? _)|destruct (_ =? _)]; cbn [negb] in *; congruence. }
    rewrite Hh in H. apply okr_end; auto.
  - intros C. assert (Hh : holds t z v = true).
    { rewrite <- (jump_holds t mul s z v T F). destruct (jump_cases t T) as (-> & _). cbn [jc_holds]. unfold TMP_ZERO. destruct (fst (jcase t)); cbn [condb] in *; [destruct (_ =? _)|destruct (_ =? _)]; cbn [negb] in *; congruence. }
    rewrite Hh in H. unfold l. apply ok_tail. exact H.
Qed.

(** ** Loading the first operand *)
Definition mem_gen (base offs w : Z) : Prop :=
  0 <= base <= 25 /\ (offs = 0 /\ - 2 ^ 63 <= w < 2 ^ 63 \/ (1 <= offs <= 23 \/ offs = 25) /\ 0 <= w <= 3).
Lemma opload_ok c ld reg base offs w s (P : mst -> Prop) : 0 <= ld < 16 -> ld .& LOAD_DATA <> 0 -> 1 <= reg <= 23 -> mem_gen base offs w ->
  (reg = base -> fast_ok offs w = true \/ offs <> 0 /\ w = 0) ->
  (forall s', keeps s s' [reg; 27] -> rd s' reg = ldval (fsize ld) (fsigned ld) (mem s) (addr s base offs w) -> P s') ->
  ok (emit_op_mem c ld reg base offs w) s P.
Proof.
  intros Hl Ld R (Hb & Ho) Nb H.
  assert (A : forall s1 x, keeps s s1 [reg; 27] -> wrap x = wrap (addr s base offs w) -> P (access ld reg x s1)).
  { intros s1 x K1 E. rewrite (access_cong ld reg x (addr s base offs w) s1 E), access_load by auto. apply H.
    - apply keeps_wr; [vl|cbn; tauto|exact K1].
    - rdw. destruct K1 as (M & _). rewrite M. reflexivity. }
  unfold emit_op_mem. destruct (fast_ok offs w) eqn:F.
  { unfold fast_ok, SIMM_MAX, SIMM_MIN in F. apply x_mem; auto; try vl. rewrite sext12_small by lia. apply A; [apply keeps_refl|]. unfold addr. replace (offs =? 0) with true by lia. reflexivity. }
  replace (negb (ld .& LOAD_DATA =? 0)) with true by lia. cbv zeta. unfold TMP_REG3. assert (S0 : sext 12 0 = 0) by reflexivity.
  destruct (offs =? 0) eqn:E; cbn [negb].
  - assert (offs = 0) by lia. subst offs. assert (Nb' : reg <> base). { intros X. destruct (Nb X) as [Y|(Y & _)]; [discriminate Y|lia]. }
    change (addr s base 0 w) with (rd s base + w) in *. apply ok_then. apply x_imm; try vl; try (unfold SLJIT_SP; lia); try apply sw_range.
    intros s1 V1 K1. apply ok_then. assert (Eb : rd s1 base = rd s base). { apply (keeps_rd _ _ _ _ K1); [vl|cbn; lia]. }
    pose proof (fff_range w) as O. destruct (base =? 0) eqn:B; cbn [negb].
    + apply ok_nop. apply x_mem; auto; try lia; try vl. apply A; auto. rewrite V1, wrap_add_l, argw_parts.
      assert (base = 0) by lia. subst base. rewrite rd_0. reflexivity.
    + apply (x_R _ _ ADD Add); try vl; auto. cbn [alu]. apply x_mem; auto; try lia; try vl. apply A.
      * apply keeps_wr; [vl|cbn; tauto|exact K1].
      * rdw. rewrite V1, wrap_add_l, <- Z.add_assoc, wrap_add_l.
        replace (TO_ARGW_HI w + (rd s1 base + sext 12 (w .& 4095))) with (rd s1 base + (TO_ARGW_HI w + sext 12 (w .& 4095))) by lia.
        apply wrap_cong_add; [rewrite Eb; auto|apply argw_parts].
  - assert (Hw : 0 <= w <= 3) by lia. assert (w .& 3 = w) as ->. { rewrite (land_low w 2 3) by (reflexivity || lia). apply Z.mod_small. lia. }
    assert (Ad : addr s base offs w = rd s base + rd s offs * 2 ^ w). { unfold addr. rewrite E. reflexivity. }
    apply ok_then. destruct (w =? 0) eqn:W0; cbn [negb].
    + apply (x_R _ _ ADD Add); try vl; auto. cbn [alu]. apply x_mem; auto; try lia; try vl. apply A.
      * apply keeps_wr; [vl|cbn; tauto|apply keeps_refl].
      * rdw. rewrite S0, Z.add_0_r, wrap_wrap, Ad. replace w with 0 by lia. f_equal. lia.
    + assert (Nb' : reg <> base). { intros X. destruct (Nb X) as [Y|(_ & Y)]; [discriminate Y|lia]. }
      apply ok_then. apply (x_Sh _ _ SLLI Slli); try vl; auto. cbn [alush]. apply (x_R _ _ ADD Add); try vl; auto. cbn [alu]. apply x_mem; auto; try lia; try vl. apply A.
      * apply keeps_wr; [vl|cbn; tauto|]. apply keeps_wr; [vl|cbn; tauto|apply keeps_refl].
      * rdw. rewrite S0, Z.add_0_r, wrap_wrap, Ad, wrap_add_l. f_equal. lia.
Qed.

Definition sval (is32 : bool) (s : mst) (a : arg) (w : Z) : Z :=
  match a with AReg r => canon (nbits is32) (rd s r) | AImm => canon (nbits is32) w
  | AMem b o => ldval (if is32 then B4 else B8) (negb is32) (mem s) (addr s b o w) end.
Definition gen_src (a : arg) (w : Z) : Prop := match a with AReg r => 1 <= r <= 23 | AImm => - 2 ^ 63 <= w < 2 ^ 63 | AMem b o => mem_gen b o w end.
(** The address does not need the destination after the destination is overwritten: see [C22_base_refuted]. *)
Definition base_safe (dst : Z) (a : arg) (w : Z) : Prop := match a with AMem b o => dst = b -> fast_ok o w = true \/ o <> 0 /\ w = 0 | _ => True end.

Lemma x_mvi is32 d r s (P : mst -> Prop) : vreg d -> vreg r -> P (wr s d (canon (nbits is32) (rd s r))) -> ok (E32 (ADDI .| (if is32 : bool then 8 else 0) .| RD d .| RS1 r .| IMM_I 0)) s P.
Proof. intros. change (if is32 then 8 else 0) with (wd is32). apply x_ADDI; auto. change (sext 12 0) with 0. rewrite Z.add_0_r. auto. Qed.

Lemma sload_ok c is32 dst a w s (P : mst -> Prop) : 1 <= dst <= 23 -> gen_src a w -> base_safe dst a w ->
  (forall s', keeps s s' [dst; 25; 27] -> rd s' dst = sval is32 s a w -> P s') -> ok (select_load c is32 dst a w) s P.
Proof.
  intros D G B H. destruct a as [r| |b o]; cbn [select_load gen_src base_safe sval] in *.
  - apply x_mvi; try vl. apply H. { apply keeps_wr; [vl|cbn; tauto|apply keeps_refl]. } rdw. reflexivity.
  - unfold TMP_REG1. apply x_imm; try vl; try (unfold SLJIT_SP; lia). { destruct is32; auto. pose proof (sext_range 32 w ltac:(lia)). unfold s32. change (2 ^ (32 - 1)) with 2147483648 in *. lia. }
    intros s1 V1 K1. apply H. { eapply keeps_incl; [|exact K1]. incls. } rewrite V1. destruct is32; cbn [nbits]. { reflexivity. } rewrite canon64. reflexivity.
  - apply opload_ok; auto. { destruct is32; vm_compute; split; congruence. } { destruct is32; vm_compute; congruence. }
    intros s' K V. apply H. { eapply keeps_incl; [|exact K]. incls. } rewrite V. destruct is32; reflexivity.
Qed.

Section S.
Variables (c : cfg) (t : Z) (is32 mul : bool) (dst : Z) (src1 : arg) (w1 src2 : Z) (s : mst) (z v : bool).
Hypothesis (T : ctype t) (F : flags_for t mul s z v) (W : wf s) (D : 1 <= dst <= 23) (L1 : src_legal src1 w1) (S2 : 1 <= src2 <= 23).
Hypothesis (N : is32 = true -> rd s src2 = canon 32 (rd s src2) /\ match src1 with AReg r => rd s r = canon 32 (rd s r) | AImm => True | AMem b o => load (mem s) (addr s b o w1) 4 < 2 ^ 31 end).
Hypothesis (B : dst = src2 -> base_safe dst src1 w1).
Let n := nbits is32.
Let m := (if is32 then 4 else 8)%nat.

Lemma sval_arg : sval is32 s src1 w1 = canon n (argval s m src1 w1).
Proof.
  destruct src1 as [r| |b o]; cbn [sval argval]; auto. unfold n, m. destruct is32; cbn [nbits negb].
  - destruct (N eq_refl) as (_ & M). unfold ldval. cbn [bytes]. pose proof (load_bound (mem s) 4 (addr s b o w1)). rewrite (canon_small true) by lia. symmetry. apply wrap_small. unfold isw. change (2 ^ (8 * Z.of_nat 4)) with (2 ^ 32) in *. lia.
  - rewrite canon64. unfold ldval. cbn [bytes bits]. fold (canon 64 (load (mem s) (addr s b o w1) 8)). apply canon64.
Qed.
Lemma reg_canon r : (is32 = true -> rd s r = canon 32 (rd s r)) -> canon n (rd s r) = rd s r.
Proof. intros H. unfold n. destruct is32; cbn [nbits]. - symmetry. auto. - rewrite canon64. apply wrap_small. apply W. Qed.
Lemma flags_keep t' s' l : flags_for t' mul s z v -> keeps s s' l -> ~ In 28 l -> ~ In 29 l -> flags_for t' mul s' z v.
Proof.
  unfold flags_for, zrep, vrep, EQUAL_FLAG, OTHER_FLAG. intros H K A1 A2. rewrite (keeps_rd _ _ _ 28 K), (keeps_rd _ _ _ 29 K) by (vl || auto). exact H.
Qed.

Lemma select_ok : ok (emit_select c t is32 dst src1 w1 src2) s (fun s' =>
  keeps s s' [dst; 25; 27] /\ rd s' dst = canon n (if holds t z v then argval s m src1 w1 else rd s src2)).
Proof.
  assert (RC := reg_canon). assert (SA := sval_arg). assert (FK := flags_keep).
  unfold emit_select. cbv zeta.
  assert (G1 : gen_src src1 w1). { destruct src1 as [r| |b o]; cbn [gen_src src_legal] in *; auto. destruct L1 as (A1 & A2). unfold mem_gen, ureg, NREGS, SLJIT_SP in *. lia. }
  destruct (dst =? src2) eqn:E; cbn [negb].
  - (* one register *)
    assert (dst = src2) by lia. eapply (skip_ok t mul _ s z v); auto. { pose proof (select_sz c is32 dst src1 w1). lia. }
    destruct (holds t z v).
    + apply sload_ok; auto. intros s' K V. split; auto. rewrite V. apply SA.
    + split; [apply keeps_refl|]. rewrite RC by (intros X; apply (N X)). congruence.
  - assert (Ne : dst <> src2) by lia.
    destruct (match src1 with AReg r => dst =? r | _ => false end) eqn:E1.
    + (* the destination is the first source *)
      destruct src1 as [r| |]; try discriminate. assert (r = dst) by lia. subst r.
      assert (X : Z.lxor t 1 = if Z.even t then t + 1 else t - 1).
      { unfold ctype in T. assert (Q : forallb (fun t => Z.lxor t 1 =? if Z.even t then t + 1 else t - 1) (upto 14) = true) by (vm_compute; reflexivity).
        rewrite forallb_forall in Q. apply Z.eqb_eq. apply Q. apply upto_in. lia. }
      assert (X2 : ctype (Z.lxor t 1) /\ flags_for (Z.lxor t 1) mul s z v /\ holds (Z.lxor t 1) z v = negb (holds t z v)).
      { rewrite X. unfold ctype, flags_for, holds, SLJIT_EQUAL, SLJIT_NOT_EQUAL in *. destruct (Z.even t) eqn:Ev.
        - assert (Z.even (t + 1) = false) as Ev1. { rewrite Z.even_add, Ev. reflexivity. } rewrite Ev1.
          apply Z.even_spec in Ev as (q & Eq). split; [lia|].
          replace (t + 1 <? 2) with (t <? 2) by lia. split; auto.
          replace (t + 1 =? 0) with false by lia. replace (t + 1 =? 1) with (t =? 0) by lia. destruct (t =? 0) eqn:T0; [destruct z; auto|]. replace (t =? 1) with false by lia. auto.
        - assert (Z.even (t - 1) = true) as Ev1. { rewrite Z.even_sub, Ev. reflexivity. } rewrite Ev1.
          assert (Od : Z.odd t = true) by (rewrite <- Z.negb_even, Ev; auto). apply Z.odd_spec in Od as (q & Eq). split; [lia|].
          replace (t - 1 <? 2) with (t <? 2) by lia. split; auto.
          replace (t - 1 =? 0) with (t =? 1) by lia. replace (t =? 0) with false by lia. destruct (t =? 1) eqn:T0; [destruct z; auto|]. replace (t - 1 =? 1) with false by lia. destruct v; auto. }
      destruct X2 as (T' & F' & Hh). eapply (skip_ok _ mul _ s z v); auto. { pose proof (select_sz c is32 dst (AReg src2) 0). lia. }
      rewrite Hh. destruct (holds t z v); cbn [negb].
      * split; [apply keeps_refl|]. cbn [argval]. rewrite RC; auto. intros X0; apply (N X0).
      * apply sload_ok; auto. { exact I. }
    + (* the general case *)
      set (dep := depends src1 dst). apply ok_then.
      assert (St : ok (if dep then E32 (ADDI .| RD TMP_REG1 .| RS1 dst .| IMM_I 0) else ENop) s (fun s1 => keeps s s1 [25] /\ (dep = true -> rd s1 25 = rd s dst))).
      { destruct dep.
        - unfold TMP_REG1. apply (x_I _ _ ADDI Addi); try vl; auto. cbn [alui]. change (sext 12 0) with 0. rewrite Z.add_0_r. split. { apply keeps_wr; [vl|cbn; tauto|apply keeps_refl]. }
          intros _. unfold TMP_REG1. rdw. apply wrap_small. apply W.
        - apply ok_nop. split; [apply keeps_refl|discriminate]. }
      eapply ok_mono; [exact St|]. clear St. intros s1 (K1 & V25). apply ok_then. apply x_mvi; try vl.
      assert (R2 : rd s1 src2 = rd s src2) by (apply (keeps_rd _ _ _ _ K1); [vl|cbn; lia]). rewrite R2.
      set (s2 := wr s1 dst (canon (nbits is32) (rd s src2))).
      assert (K2 : keeps s s2 [dst; 25]). { apply keeps_wr; [vl|cbn; tauto|]. eapply keeps_incl; [|exact K1]. incls. }
      assert (Vd : rd s2 dst = canon n (rd s src2)). { unfold s2. rdw. reflexivity. }
      set (a' := if dep then subst_reg src1 dst else src1).
      assert (G' : gen_src a' w1 /\ base_safe dst a' w1 /\ sval is32 s2 a' w1 = sval is32 s src1 w1).
      { unfold a', dep. destruct src1 as [r| |b o].
        - cbn [depends]. split; auto. split; [exact I|]. cbn [sval gen_src] in *. rewrite (keeps_rd _ _ _ r K2); [auto|vl|cbn; lia].
        - cbn [depends]. split; auto. split; [exact I|]. reflexivity.
        - cbn [depends sval gen_src base_safe src_legal] in *. destruct L1 as (A1 & A2). unfold ureg, NREGS, SLJIT_SP in *.
          assert (Sb : rd s2 (if b =? dst then TMP_REG1 else b) = rd s b).
          { unfold TMP_REG1. destruct (b =? dst) eqn:Eb.
            - unfold s2. rewrite rd_wr_other by vl. replace b with dst by lia. apply V25. reflexivity.
            - apply (keeps_rd _ _ _ _ K2); [vl|cbn; lia]. }
          assert (So : o <> 0 -> rd s2 (if o =? dst then TMP_REG1 else o) = rd s o).
          { intros No. unfold TMP_REG1. destruct (o =? dst) eqn:Eb.
            - unfold s2. rewrite rd_wr_other by vl. replace o with dst by lia. apply V25. apply orb_true_r.
            - apply (keeps_rd _ _ _ _ K2); [vl|cbn; lia]. }
          assert (X : (if (b =? dst) || (o =? dst) then subst_reg (AMem b o) dst else AMem b o) = AMem (if b =? dst then TMP_REG1 else b) (if o =? dst then TMP_REG1 else o)).
          { cbn [subst_reg]. destruct (b =? dst), (o =? dst); reflexivity. }
          rewrite X. cbn [gen_src base_safe sval]. split; [|split].
          + unfold mem_gen, TMP_REG1. destruct (b =? dst) eqn:?, (o =? dst) eqn:?; lia.
          + intros Q. exfalso. unfold TMP_REG1 in Q. destruct (b =? dst) eqn:?; lia.
          + assert (Me : mem s2 = mem s) by (apply (keeps_mem _ _ _ K2)). rewrite Me. f_equal. unfold addr. rewrite Sb.
            destruct (o =? 0) eqn:O0.
            * replace (o =? dst) with false by lia. rewrite O0. reflexivity.
            * rewrite So by lia. unfold TMP_REG1. destruct (o =? dst) eqn:?; [reflexivity|]. rewrite O0. reflexivity. }
      destruct G' as (G' & Bs & Sv).
      eapply (skip_ok t mul _ s2 z v); auto. { apply (FK t s2 _ F K2); cbn; lia. } { pose proof (select_sz c is32 dst a' w1). lia. }
      destruct (holds t z v).
      * apply sload_ok; auto. intros s3 K3 V3. split; [|rewrite V3, Sv; apply SA]. eapply keeps_tr; [exact K2|exact K3|incls|incls].
      * split; [eapply keeps_incl; [|exact K2]; incls|exact Vd].
Qed.
End S.
