(** sljit_emit_op2r (SLJIT_MULADD) and sljit_emit_shift_into. *)
Require Import ZArith List Bool Lia Zify ZifyBool.
From Verif Require Import Rv.RvLib Rv.RvBits Rv.RvIsa Rv.RvEnc Rv.RvImm Rv.RvRun Rv.RvImmProofs Rv.RvCtl Rv.RvWf Rv.RvMem Rv.RvRunMem Rv.RvOp Rv.RvLir Rv.RvCanon Rv.RvOpLib Rv.RvSx Rv.RvSoShift Rv.RvMemProofs Rv.RvEmitOp Rv.RvEmitOp2 Rv.RvEmitOp1.
Import ListNotations.
Open Scope Z_scope.
Ltac Zify.zify_post_hook ::= idtac.

(** ** Specification, sljitLir.h:1424-1456 *)
Definition res_into (left : bool) (n x y t : Z) : Z :=
  let a := x mod 2 ^ n in
  let b := y mod 2 ^ n in
  let k := Z.lxor t (n - 1) in
  if left then Z.lor ((a * 2 ^ t) mod 2 ^ n) ((b / 2) / 2 ^ k)
  else Z.lor (a / 2 ^ t) (((b * 2) mod 2 ^ n * 2 ^ k) mod 2 ^ n).

Lemma lxor_sub f t : 0 <= t < nbits f -> Z.lxor t (nbits f - 1) = nbits f - 1 - t.
Proof.
  intros H. assert (A : forallb (fun i => forallb (fun f => if i <? nbits f then Z.lxor i (nbits f - 1) =? nbits f - 1 - i else true) [true; false]) (map Z.of_nat (seq 0 64)) = true) by (vm_compute; reflexivity).
  rewrite forallb_forall in A. specialize (A t). rewrite forallb_forall in A. specialize (A ltac:(apply in_map_iff; exists (Z.to_nat t); split; [lia|]; apply in_seq; destruct f; cbn in *; lia) f ltac:(destruct f; cbn; tauto)).
  cbv beta in A. replace (t <? nbits f) with true in A by lia. lia.
Qed.
(** The shift amount that completes t. *)
Lemma into_alt f left x y t : 0 <= t < nbits f -> let n := nbits f in
  canon n (res_into left n x y t) =
  canon n (if left then Z.lor ((x mod 2 ^ n) * 2 ^ t) ((y mod 2 ^ n) / 2 ^ (n - t)) else Z.lor ((x mod 2 ^ n) / 2 ^ t) ((y mod 2 ^ n) * 2 ^ (n - t))).
Proof.
  intros Ht n. unfold res_into. fold n in Ht. unfold n. rewrite (lxor_sub f t) by auto. fold n.
  assert (P : 0 < 2 ^ (n - 1 - t)) by (apply Z.pow_pos_nonneg; lia).
  assert (E : 2 ^ (n - t) = 2 * 2 ^ (n - 1 - t)) by (replace (n - t) with (1 + (n - 1 - t)) by lia; rewrite Z.pow_add_r by lia; reflexivity).
  assert (Pn : 0 < 2 ^ n) by apply nb_pos.
  destruct left.
  - rewrite Z.div_div by lia. rewrite <- E. unfold n. rewrite <- !canon_lor, canon_of_mod. reflexivity.
  - unfold n. rewrite <- !canon_lor. f_equal. apply canon_cong. fold n. rewrite Z.mod_mod by lia.
    rewrite Z.mul_mod_idemp_l by lia. f_equal. rewrite E. ring.
Qed.
Lemma into_rot f (left : bool) a t : 0 <= a < 2 ^ nbits f -> 0 <= t < nbits f -> let n := nbits f in
  canon n (rot_left n a (if left then t else (n - t) mod n)) = canon n (res_into left n a a t).
Proof.
  intros Ha Ht n. unfold n. rewrite (into_alt f left a a t) by auto. rewrite (Z.mod_small a) by auto. destruct left.
  - rewrite <- rot_or by auto. destruct (Z.eq_dec t 0) as [->|N].
    + change (- 0) with 0. rewrite Zmod_0_l, Z.sub_0_r. change (2 ^ 0) with 1. rewrite Z.div_1_r, Z.mul_1_r, Z.lor_diag, Z.div_small, Z.lor_0_r by auto. reflexivity.
    + replace ((- t) mod nbits f) with (nbits f - t) by (apply Z.mod_unique with (-1); lia). reflexivity.
  - destruct (Z.eq_dec t 0) as [->|N].
    + rewrite Z.sub_0_r, Z_mod_same_full. unfold rot_left. change (2 ^ 0) with 1. rewrite Z.mul_1_r, Z.sub_0_r, Z.div_1_r, Z.mod_small, Z.div_small, Z.add_0_r by auto.
      rewrite <- canon_lor. assert (canon (nbits f) (a * 2 ^ nbits f) = 0) as ->. { rewrite <- (canon_0 f). apply canon_cong. rewrite Z.mod_mul, Zmod_0_l; auto. pose proof (nb_pos f). lia. }
      rewrite Z.lor_0_r. reflexivity.
    + rewrite (Z.mod_small (nbits f - t)) by lia. rewrite <- rot_or by (auto; lia). rewrite Z.lor_comm. f_equal. f_equal.
      replace ((- (nbits f - t)) mod nbits f) with t by (apply Z.mod_unique with (-1); lia). reflexivity.
Qed.

(** ** SLJIT_MULADD *)
Lemma muladd_ok c is32 d src1 w1 src2 w2 s : wf s -> ureg d -> src_legal src1 w1 -> src_legal src2 w2 ->
  let n := nbits is32 in let m := if is32 then 4%nat else 8%nat in
  in_format s n src1 -> in_format s n src2 ->
  ok (emit_muladd c is32 d src1 w1 src2 w2) s (fun s' =>
    dest s s' m (AReg d) 0 (canon n (rd s d + argval s m src1 w1 * argval s m src2 w2))).
Proof.
  intros W D L1 L2 n m F1 F2. unfold emit_muladd. apply ok_then. unfold ureg, NREGS in D.
  eapply ok_mono. { apply (emit_op2_ok c (mkOp (K2 O_MUL) is32 false VNone) O_MUL s false (AReg 26) 0 src1 w1 src2 w2); cbn [kind f32 setz vf dst_okp flags_legal uses_carry]; auto; try discriminate. }
  cbv beta zeta. cbn [f32 vf]. fold n m. intros s1 ((G & V & M & K) & _). specialize (V ltac:(lia)).
  change (if is32 then 8 else 0) with (wd is32). unfold TMP_REG2. sxw is32. fold n.
  unfold dest. rewrite fregs_wr. repeat split; auto.
  - intros _. rdw. rewrite V, (K d) by (unfold visible, ureg, NREGS; lia). unfold n. rewrite canon_add_r. cbn [res2].
    rewrite <- (canon_add_r is32 (rd s d)), <- (canon_add_r is32 (rd s d) (argval _ _ _ _ * _)). fold n.
    assert (E : forall x y, canon n ((x mod 2 ^ n) * (y mod 2 ^ n)) = canon n (x * y)) by (intros; apply canon_cong; symmetry; apply Zmult_mod).
    rewrite E. reflexivity.
  - rewrite mem_wr. auto.
  - intros q Q N. rewrite rd_wr_other by (unfold visible, ureg, NREGS, SLJIT_SP, vreg in *; lia). apply K; auto. unfold visible, ureg, NREGS, SLJIT_SP in *; lia.
Qed.

(** ** sljit_emit_shift_into *)
Lemma land_n f w : w .& (nbits f - 1) = w mod nbits f.
Proof. destruct f; cbn [nbits]. - apply (land_low w 5); lia. - apply (land_low w 6); lia. Qed.
Lemma mod_n_lxor f x : Z.lxor x (nbits f - 1) mod nbits f = nbits f - 1 - x mod nbits f.
Proof.
  rewrite <- (lxor_sub f (x mod nbits f)) by (apply Z.mod_pos_bound; destruct f; cbn; lia).
  assert (A : forall k, 0 <= k -> Z.lxor x (2 ^ k - 1) mod 2 ^ k = Z.lxor (x mod 2 ^ k) (2 ^ k - 1)).
  { intros k K. replace (2 ^ k - 1) with (Z.ones k) by (rewrite Z.ones_equiv; lia).
    rewrite <- !Z.land_ones by auto. apply Z.bits_inj'. intros i Hi. rewrite Z.land_spec, !Z.lxor_spec, Z.land_spec. rewrite Z.testbit_ones_nonneg by lia.
    destruct (i <? k), (Z.testbit x i); reflexivity. }
  destruct f; [apply (A 5)|apply (A 6)]; lia.
Qed.
Lemma canon_wrap12 f : wrap (sext 12 (nbits f - 1)) = nbits f - 1. Proof. destruct f; reflexivity. Qed.

Lemma ins_comm i w k x y : i .| w .| k .| x .| y = i .| w .| x .| y .| k.
Proof. rewrite <- !Z.lor_assoc. do 2 f_equal. rewrite (Z.lor_comm k), Z.lor_assoc. reflexivity. Qed.

Section SI.
Variables (c : cfg) (left f nz : bool) (d r1 r2 : Z) (s : mst).
Notation n := (nbits f).
Hypothesis (W : wf s) (Hd : ureg d) (H1 : ureg r1) (H2 : ureg r2) (N2 : d <> r2).
Hypothesis (F1 : rd s r1 = canon n (rd s r1)) (F2 : rd s r2 = canon n (rd s r2)).
Notation res t := (canon n (res_into left n (rd s r1) (rd s r2) t)).

(** The instructions after the shift amount is in a register. *)
Lemma into_reg_ok s1 r3 t : (ureg r3 /\ r3 <> d) \/ r3 = 26 -> keeps s s1 [26; 27] -> rd s1 r3 mod n = t -> (nz = true -> t <> 0) -> wf s1 ->
  ok (E32 ((if left then SLL else SRL) .| wd f .| RD d .| RS1 r1 .| RS2 r3) ;;
       (if negb nz then
          E32 ((if left then SRLI else SLLI) .| wd f .| RD 25 .| RS1 r2 .| IMM_I 1) ;;
          E32 (XORI .| RD 26 .| RS1 r3 .| IMM_I (n - 1))
        else E32 (SUB .| wd f .| RD 26 .| RS1 0 .| RS2 r3)) ;;
       E32 ((if left then SRL else SLL) .| wd f .| RD 25 .| RS1 (if negb nz then 25 else r2) .| RS2 26) ;;
       E32 (OR .| RD d .| RS1 d .| RS2 25)) s1 (fun s' => keeps s s' [d; 25; 26; 27] /\ rd s' d = res t).
Proof.
  intros R3 K Et Nz W1. unfold ureg, NREGS in *. assert (Nn := nb f). assert (Pn := nb_pos f).
  assert (Bt : 0 <= t < n) by (subst t; apply Z.mod_pos_bound; destruct f; cbn; lia).
  set (a := rd s r1 mod 2 ^ n). set (b := rd s r2 mod 2 ^ n).
  assert (E1 : rd s1 r1 = canon n a). { rewrite (keeps_rd _ _ _ _ K) by (try vl; cbn; lia). rewrite F1. unfold a. rewrite canon_of_mod. reflexivity. }
  assert (E2 : rd s1 r2 = canon n b). { rewrite (keeps_rd _ _ _ _ K) by (try vl; cbn; lia). rewrite F2. unfold b. rewrite canon_of_mod. reflexivity. }
  assert (Ba : 0 <= a < 2 ^ n) by (apply Z.mod_pos_bound; auto). assert (Bb : 0 <= b < 2 ^ n) by (apply Z.mod_pos_bound; auto).
  set (P := fun s' => keeps s s' [d; 25; 26; 27] /\ rd s' d = res t).
  assert (FIN : forall sx v, keeps s sx [d; 25; 26; 27] -> v = (if left then Z.lor (canon n (a * 2 ^ t)) (canon n (b / 2 ^ (n - t))) else Z.lor (canon n (a / 2 ^ t)) (canon n (b * 2 ^ (n - t)))) ->
    P (wr sx d v)).
  { intros sx v Kx ->. unfold P. split. { kps. } rdw. rewrite into_alt by auto. fold a b. destruct left; rewrite canon_lor; reflexivity. }
  assert (K' : keeps s s1 [d; 25; 26; 27]) by (eapply keeps_incl; [|exact K]; intros ? [<-|[<-|[]]]; cbn; tauto).
  assert (T1 : forall x, Z.lxor x (n - 1) mod n = n - 1 - x mod n) by apply mod_n_lxor.
  assert (P1 : 0 < 2 ^ (n - 1 - t)) by (apply Z.pow_pos_nonneg; lia).
  assert (P2 : 2 ^ (n - t) = 2 * 2 ^ (n - 1 - t)) by (replace (n - t) with (1 + (n - 1 - t)) by lia; rewrite Z.pow_add_r by lia; reflexivity).
  assert (T2 : nz = true -> canon n (0 - rd s1 r3) mod n = n - t).
  { intros Hn. rewrite canon_mod_n. change (0 - rd s1 r3) with (- rd s1 r3). rewrite mod_neg_aux, Et by lia. apply Z.mod_small. specialize (Nz Hn). lia. }
  clearbody P. destruct left, nz; cbn [negb].
  - repeat (sx1 f). rewrite T2, E1, E2, Et by auto. apply FIN. { kps. } rewrite canon_mul_l, canon_mod, (modN f b) by auto. reflexivity.
  - repeat (sx1 f). rewrite (canon_wrap12 f), T1, E1, E2, Et by auto. apply FIN. { kps. } rewrite canon_mul_l, !canon_mod, (modN f b) by auto.
    change (2 ^ 1) with 2. assert (Bh : 0 <= b / 2 < 2 ^ n) by (split; [apply Z.div_pos; lia|apply Z.div_lt_upper_bound; lia]).
    rewrite (modN f (b / 2)) by auto. rewrite Z.div_div by lia. rewrite P2. reflexivity.
  - repeat (sx1 f). rewrite T2, E1, E2, Et by auto. apply FIN. { kps. } rewrite canon_mul_l, canon_mod, (modN f a) by auto. reflexivity.
  - repeat (sx1 f). rewrite (canon_wrap12 f), T1, E1, E2, Et by auto. apply FIN. { kps. } rewrite !canon_mul_l, canon_mod, (modN f a) by auto.
    rewrite P2. change (2 ^ 1) with 2. rewrite <- Z.mul_assoc, canon_mul_l. reflexivity.
Qed.
Lemma dest_keeps s' m v : keeps s s' [d; 25; 26; 27] -> rd s' d = v -> dest s s' m (AReg d) 0 v.
Proof.
  intros (M & G & _ & K) V. split; auto. repeat split; auto. intros q Q N. apply K; unfold visible, ureg, NREGS, SLJIT_SP, vreg in *; cbn; lia.
Qed.

Lemma shift_into_ok src3 w3 : src_legal src3 w3 -> let m := if f then 4%nat else 8%nat in let t := argval s m src3 w3 mod n in
  (nz = true -> t <> 0) -> (src3 = AImm -> r1 <> r2 -> t = 0 -> d = r1) -> (r1 = r2 -> in_format s n src3) ->
  ok (emit_shift_into c left f nz d r1 r2 src3 w3) s (fun s' => dest s s' m (AReg d) 0 (res t)).
Proof.
  intros L m t Nz Iz Fm. unfold emit_shift_into. change (if f then 8 else 0) with (wd f). change (if f then 32 else 64) with n.
  unfold TMP_REG1, TMP_REG2, TMP_ZERO. cbv zeta. assert (Nn := nb f). assert (Pn := nb_pos f).
  assert (Bt : 0 <= t < n) by (apply Z.mod_pos_bound; lia).
  destruct (r1 =? r2) eqn:E12.
  - assert (r1 = r2) by lia. eapply ok_mono.
    { apply (emit_op2_ok c (mkOp (K2 (if left then O_ROTL else O_ROTR)) f false VNone) (if left then O_ROTL else O_ROTR) s false (AReg d) 0 (AReg r1) 0 src3 w3); cbn [kind f32 setz vf dst_okp flags_legal uses_carry src_legal in_format]; auto; try discriminate.
      - unfold ureg, NREGS in *. lia.
      - destruct left; cbn; auto.
      - destruct left; discriminate. }
    cbv beta zeta. cbn [f32 vf]. fold m. intros s' (D & _). rewrite <- H. cbn [argval] in D.
    assert (E : canon n (res2 (if left then O_ROTL else O_ROTR) n (rd s r1) (argval s m src3 w3) false) = res t); [|rewrite <- H in E; rewrite E in D; exact D].
    assert (R : res t = canon n (res_into left n (rd s r1 mod 2 ^ n) (rd s r1 mod 2 ^ n) t)). { unfold res_into. rewrite !Z.mod_mod, <- H by lia. reflexivity. }
    rewrite R, <- into_rot by (auto; apply Z.mod_pos_bound; auto). unfold t. destruct left; cbn [res2]; rewrite mod_n; reflexivity.
  - assert (N12 : r1 <> r2) by lia. clear E12. unfold ureg, NREGS in *.
    assert (Rg : forall s1 r3, (ureg r3 /\ r3 <> d) \/ r3 = 26 -> keeps s s1 [26; 27] -> rd s1 r3 mod n = t -> wf s1 ->
      ok (E32 ((if left then SLL else SRL) .| wd f .| RD d .| RS1 r1 .| RS2 r3) ;;
       (if negb nz then
          E32 ((if left then SRLI else SLLI) .| wd f .| RD 25 .| RS1 r2 .| IMM_I 1) ;;
          E32 (XORI .| RD 26 .| RS1 r3 .| IMM_I (n - 1))
        else E32 (SUB .| wd f .| RD 26 .| RS1 0 .| RS2 r3)) ;;
       E32 ((if left then SRL else SLL) .| wd f .| RD 25 .| RS1 (if negb nz then 25 else r2) .| RS2 26) ;;
       E32 (OR .| RD d .| RS1 d .| RS2 25)) s1 (fun s' => dest s s' m (AReg d) 0 (res t))).
    { intros s1 r3 A B C D. eapply ok_mono. { apply (into_reg_ok s1 r3 t); auto. } cbv beta. intros s' (K & V). apply dest_keeps; auto. }
    destruct src3 as [r| |b0 o0]; cbn [src_legal argval] in *; unfold ureg, NREGS in *.
    + destruct (d =? r) eqn:Er.
      * apply ok_ign. apply (x_ADDI _ _ f); [vl|vl|]. change (sext 12 0) with 0. rewrite Z.add_0_r. apply Rg; auto.
        -- apply keeps_wr; [vl|cbn; tauto|apply keeps_refl].
        -- rdw. rewrite canon_mod_n. reflexivity.
        -- apply wf_wr; auto. apply canon_isw.
      * apply ok_ign. apply ok_nop. apply Rg; auto. { unfold ureg, NREGS. left. split; lia. } apply keeps_refl.
    + rewrite land_n. fold t. destruct (t =? 0) eqn:E0.
      * assert (Et : t = 0) by lia. specialize (Iz eq_refl N12 Et). apply ok_nop. apply dest_keeps. { apply keeps_refl. }
        rewrite Et, into_alt, Iz by lia. rewrite F1 at 1. change (2 ^ 0) with 1. rewrite Z.sub_0_r, Z.mul_1_r, Z.div_1_r.
        assert (Z1 : canon n (rd s r2 mod 2 ^ n * 2 ^ n) = 0). { rewrite <- (canon_0 f). apply canon_cong. rewrite Z.mod_mul, Zmod_0_l; lia. }
        rewrite <- (canon_of_mod f (rd s r1)). destruct left.
        -- rewrite Z.div_small, Z.lor_0_r by (apply Z.mod_pos_bound; auto). reflexivity.
        -- rewrite <- canon_lor, Z1, Z.lor_0_r. reflexivity.
      * assert (C1 : rd s r1 = canon n (rd s r1 mod 2 ^ n)) by (rewrite canon_of_mod; auto). assert (C2 : rd s r2 = canon n (rd s r2 mod 2 ^ n)) by (rewrite canon_of_mod; auto).
        set (a := rd s r1 mod 2 ^ n) in *. set (b := rd s r2 mod 2 ^ n) in *.
        assert (Ba : 0 <= a < 2 ^ n) by (apply Z.mod_pos_bound; auto). assert (Bb : 0 <= b < 2 ^ n) by (apply Z.mod_pos_bound; auto).
        set (P := fun s' : mst => dest s s' m (AReg d) 0 (res t)).
        assert (FIN : forall sx v, keeps s sx [d; 25; 26; 27] -> v = (if left then Z.lor (canon n (a * 2 ^ t)) (canon n (b / 2 ^ (n - t))) else Z.lor (canon n (a / 2 ^ t)) (canon n (b * 2 ^ (n - t)))) -> P (wr sx d v)).
        { intros sx v Kx ->. apply dest_keeps. { kps. } rdw. rewrite into_alt by auto. fold a b. destruct left; rewrite canon_lor; reflexivity. }
        clearbody P t.
        rewrite !(ins_comm _ _ (IMM_I _)).
        destruct left.
        -- repeat (sx1 f). rewrite C1, C2. apply FIN. { kps. } rewrite canon_mul_l, canon_mod, (modN f b) by auto. reflexivity.
        -- repeat (sx1 f). rewrite C1, C2. apply FIN. { kps. } rewrite canon_mul_l, canon_mod, (modN f a) by auto. reflexivity.
    + apply ok_then. apply ok_wfP; auto. eapply ok_mono. { apply (op_mem_ok c ((if f then INT_DATA else WORD_DATA) .| LOAD_DATA) 26 s); auto; try lia; try vl.
        - destruct f; vm_compute; split; congruence. - intros _. destruct L as (L & _). unfold ureg, NREGS, SLJIT_SP in L. lia. }
      cbv beta. intros s1 (s0 & K & ->) W1. apply ok_ign. apply ok_nop. apply Rg; auto.
      * rewrite access_load by (destruct f; vm_compute; discriminate). apply keeps_wr; [vl|cbn; tauto|]. destruct f; exact K.
      * rewrite access_load by (destruct f; vm_compute; discriminate). rdw. unfold t. rewrite (keeps_mem _ _ _ K). destruct f; [reflexivity|]. unfold m. exact (canon_mod_n false (load (mem s) (addr s b0 o0 w3) 8)).
Qed.
End SI.

(** The result as a part of the shifted double word. *)
Lemma into_double f (left : bool) a b t : 0 <= a < 2 ^ nbits f -> 0 <= b < 2 ^ nbits f -> 0 <= t < nbits f -> let n := nbits f in
  canon n (if left then Z.lor (a * 2 ^ t) (b / 2 ^ (n - t)) else Z.lor (a / 2 ^ t) (b * 2 ^ (n - t))) =
  canon n (if left then (a * 2 ^ n + b) * 2 ^ t / 2 ^ n else (b * 2 ^ n + a) / 2 ^ t).
Proof.
  intros Ha Hb Ht n. fold n in Ha, Hb, Ht. assert (Pn : 0 < 2 ^ n) by apply nb_pos. assert (Pt : 0 < 2 ^ t) by (apply Z.pow_pos_nonneg; lia).
  assert (Q : 0 < 2 ^ (n - t)) by (apply Z.pow_pos_nonneg; lia). assert (E : 2 ^ n = 2 ^ (n - t) * 2 ^ t) by (rewrite <- Z.pow_add_r by lia; f_equal; lia).
  assert (A : forall u v, 0 <= v < 2 ^ t -> Z.lor (u * 2 ^ t) v = u * 2 ^ t + v) by (intros; symmetry; apply add_lor; lia).
  assert (B : forall u v, 0 <= v < 2 ^ (n - t) -> Z.lor (u * 2 ^ (n - t)) v = u * 2 ^ (n - t) + v) by (intros; symmetry; apply add_lor; lia).
  destruct left.
  - rewrite A. 2:{ split; [apply Z.div_pos; lia|]. apply Z.div_lt_upper_bound; [lia|]. rewrite <- E. lia. }
    f_equal. rewrite Z.mul_add_distr_r. replace (a * 2 ^ n * 2 ^ t) with (a * 2 ^ t * 2 ^ n) by ring. rewrite Z.div_add_l by lia. f_equal.
    rewrite E, Z.div_mul_cancel_r by lia. reflexivity.
  - rewrite Z.lor_comm, B. 2:{ split; [apply Z.div_pos; lia|]. apply Z.div_lt_upper_bound; [lia|]. rewrite Z.mul_comm, <- E. lia. }
    f_equal. rewrite E. rewrite Z.mul_assoc, Z.div_add_l by lia. reflexivity.
Qed.
Lemma shift_into_double c left (is32 nz : bool) d r1 r2 src3 w3 s : let n := if is32 then 32 else 64 in let m := if is32 then 4%nat else 8%nat in
  wf s -> ureg d -> ureg r1 -> ureg r2 -> d <> r2 -> src_legal src3 w3 -> in_format s n (AReg r1) -> in_format s n (AReg r2) -> in_format s n src3 ->
  let t := argval s m src3 w3 mod n in
  (nz = true -> t <> 0) -> (src3 = AImm -> r1 <> r2 -> t = 0 -> d = r1) ->
  let x := rd s r1 mod 2 ^ n in let y := rd s r2 mod 2 ^ n in
  ok (emit_shift_into c left is32 nz d r1 r2 src3 w3) s (fun s' =>
    dest s s' m (AReg d) 0 (canon n (if left then (x * 2 ^ n + y) * 2 ^ t / 2 ^ n else (y * 2 ^ n + x) / 2 ^ t))).
Proof.
  intros n m W D U1 U2 N L F1 F2 F3 t Nz Iz x y. eapply ok_mono.
  - apply (shift_into_ok c left is32 nz d r1 r2 s); auto.
  - cbv beta. intros s' A. assert (Bt : 0 <= t < nbits is32) by (apply Z.mod_pos_bound; destruct is32; reflexivity).
    pose proof (into_double is32 left x y t (Z.mod_pos_bound _ _ (nb_pos is32)) (Z.mod_pos_bound _ _ (nb_pos is32)) Bt) as E. cbv zeta in E.
    pose proof (into_alt is32 left (rd s r1) (rd s r2) t Bt) as E2. cbv zeta in E2. fold n m in A. fold t in A.
    change (nbits is32) with n in E, E2. fold x y in E2. rewrite E in E2. rewrite <- E2. exact A.
Qed.
