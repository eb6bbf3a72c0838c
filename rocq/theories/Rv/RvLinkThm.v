(** Generated code meets its specification. *)
Require Import ZArith List Bool Lia Zify ZifyBool.
From Verif Require Import Rv.RvLib Rv.RvBits Rv.RvIsa Rv.RvEnc Rv.RvImm Rv.RvRun Rv.RvImmProofs Rv.RvConst Rv.RvAddr Rv.RvCtl Rv.RvAddrProofs Rv.RvLink Rv.RvLinkOps Rv.RvLinkReduce Rv.RvLinkEst Rv.RvLinkGen Rv.RvLinkPick Rv.RvLinkFit Rv.RvLinkLay Rv.RvLinkPatch Rv.RvLinkAll Rv.RvLinkExec Rv.RvLinkApi Rv.RvLinkMap Rv.RvLinkSpec.
Import ListNotations.
Open Scope Z_scope.
Ltac Zify.zify_post_hook ::= idtac.

Lemma ends_label_calls cf ts calls : forall pend ts', ts' = ts -> ends_label pend (oplist cf pend ts' calls) = ends_with_label pend calls.
Proof.
  intros pend ts' _. revert pend ts'. induction calls as [|k calls IH]; intros pend ts'; [reflexivity|]. cbn [oplist ends_with_label]. rewrite ends_label_app, IH. f_equal.
  destruct k; cbn [kops ends_label is_label]; auto.
  - rewrite ends_label_units. destruct l as [|[w|w] l]; reflexivity.
  - destruct pend; reflexivity.
  - destruct (small_al cf al), pend; reflexivity.
  - destruct (units_of (p :: l)) eqn:E; [destruct p; discriminate|]. cbn [ends_label is_label]. rewrite ends_label_units. destruct l0; reflexivity.
Qed.

Lemma wrap_sw x : wrap (sw x) = wrap x.
Proof. unfold sw, wrap. destruct (sext_mod 64 x ltac:(lia)) as (k & E). rewrite E at 2. rewrite Z_mod_plus_full. reflexivity. Qed.

(** ** Positions *)
Lemma clay_pos cf code eo g FL TS calls : forall pre r r2, clay cf code eo g FL TS pre r calls r2 ->
  exists pos : nat -> Z, pos 0%nat = r /\ pos (length calls) = r2 /\
    forall i k, nth_error calls i = Some k -> done cf code eo g FL TS (pre ++ firstn i calls) k (pos i) (pos (S i)).
Proof.
  induction calls as [|k calls IH]; intros pre r r2 H; cbn [clay] in H.
  - exists (fun _ => r). subst. split; [reflexivity|]. split; [reflexivity|]. intros [|i] k E; discriminate.
  - destruct H as (r1 & D & H). apply IH in H. destruct H as (pos & P0 & PN & P).
    exists (fun i => match i with O => r | S i => pos i end). split; [reflexivity|]. split; [exact PN|].
    intros [|i] k0 E; cbn [nth_error] in E.
    + injection E as <-. cbn [firstn]. rewrite app_nil_r, P0. exact D.
    + specialize (P i k0 E). cbn [firstn]. rewrite <- app_assoc in P. exact P.
Qed.
Lemma done_mono cf code eo g FL TS pre k r r1 : done cf code eo g FL TS pre k r r1 -> r <= r1.
Proof.
  destruct k; cbn [done]; unfold jdone.
  - lia. - lia.
  - intros (_ & H). destruct (small_al cf al); lia.
  - intros (p & jj & _ & _ & -> & _). pose proof (klen_pos (jc_word x)). pose proof (dsz_range p (jc_word x)). lia.
  - intros (p & jj & _ & _ & -> & _). pose proof (klen_pos (jc_word JAlways)). pose proof (dsz_range p (jc_word JAlways)). lia.
  - intros (p & jj & _ & _ & -> & _). destruct p; cbn; lia.
  - lia. - lia. - lia.
Qed.
Lemma p32_units l : Forall p32 l -> Z.of_nat (length (units_of l)) mod 2 = 0.
Proof.
  intros H. assert (E : length (units_of l) = (2 * length l)%nat).
  { induction H as [|p l Hp _ IH]; [reflexivity|]. destruct p; [destruct Hp|]. unfold units_of in *. cbn [flat_map units app length]. rewrite IH. lia. }
  rewrite E. rewrite Nat2Z.inj_mul. change (Z.of_nat 2) with 2. rewrite Z.mul_comm. apply Z.mod_mul. lia.
Qed.
Lemma nops_even cf al : cC cf = false -> Z.of_nat (length (nops_of cf al)) mod 2 = 0.
Proof.
  intros C. unfold nops_of. rewrite C.
  assert (L : forall n, length (flat_map (fun _ : unit => [u16 NOP; u16 (Z.shiftr NOP 16)]) (repeat tt n)) = (2 * n)%nat) by (induction n; [reflexivity|cbn [repeat flat_map app length]; rewrite IHn; lia]).
  rewrite L, Nat2Z.inj_mul. change (Z.of_nat 2) with 2. rewrite Z.mul_comm. apply Z.mod_mul. lia.
Qed.
Lemma ext_mod4 code cp mask : code mod 4 = 0 -> cp mod 2 = 0 -> Z.land (Z.lnot mask) 3 = 3 -> process_extended_label code cp mask mod 2 = 0.
Proof.
  intros C P M. unfold process_extended_label. set (Y := (code + 2 * cp) .& Z.lnot mask).
  assert (Y4 : Y mod 4 = 0).
  { change 4 with (2 ^ 2). rewrite <- Z.land_ones by lia. unfold Y. change (Z.ones 2) with 3. rewrite <- Z.land_assoc, M. change 3 with (Z.ones 2). rewrite Z.land_ones by lia. change (2 ^ 2) with 4.
    clear -C P. Z.div_mod_to_equations. lia. }
  clearbody Y. clear -C Y4. Z.div_mod_to_equations. lia.
Qed.
Lemma dsz_even cf k p : cC cf = false -> kp_ok k p -> (p = PJ16 -> cC cf = true) -> (forall w, k <> Cond16 w) -> (klen k + dsz p k) mod 2 = 0.
Proof.
  intros C K J N. destruct k as [|w|w]; [|congruence|]; destruct p; cbn [klen dsz plen]; try reflexivity; try (rewrite J in C by reflexivity; discriminate); try (destruct K; discriminate).
Qed.
Lemma done_even cf code eo g FL TS pre k r r1 c : cC cf = false -> code mod 4 = 0 -> call_ok cf c k -> done cf code eo g FL TS pre k r r1 -> r mod 2 = 0 -> r1 mod 2 = 0.
Proof.
  intros C H4 OK D R. assert (AD : forall x, x mod 2 = 0 -> (r + x) mod 2 = 0) by (intros x X; clear -R X; Z.div_mod_to_equations; lia).
  assert (JD : forall x rewr call, match x with JZ _ _ => cC cf = true | _ => True end -> jdone cf code eo g FL TS pre x rewr call r r1 -> r1 mod 2 = 0).
  { intros x rewr call X (p & jj & _ & _ & -> & _ & K & _ & _ & _ & J). rewrite <- Z.add_assoc. apply AD. eapply dsz_even; eauto.
    intros w E. destruct x; try discriminate. congruence. }
  destruct k; cbn [done call_ok] in *.
  - destruct D as (_ & ->). apply AD, p32_units. auto.
  - destruct D as (-> & _). exact R.
  - destruct D as (_ & D). destruct (small_al cf al) eqn:S; [subst; auto|]. destruct D as (_ & _ & _ & ->). apply ext_mod4; auto.
    + apply AD, nops_even, C.
    + unfold mask_of, small_al in *. rewrite C in *. assert (al = 3 \/ al = 4) as [->| ->] by lia; reflexivity.
  - eapply JD; eauto. apply OK.
  - eapply JD; eauto. exact I.
  - destruct D as (p & jj & _ & _ & -> & _). apply AD. destruct p; reflexivity.
  - destruct D as (_ & -> & _). apply AD, p32_units. auto.
  - subst; auto.
  - subst; auto.
Qed.
Lemma calls_ok_nth cf calls : forall c i k, calls_ok cf c calls -> nth_error calls i = Some k -> exists c', call_ok cf c' k.
Proof. induction calls as [|a calls IH]; intros c [|i] k H E; try discriminate; cbn in *; destruct H as (H1 & H2); [injection E as <-; eauto|eauto]. Qed.

(** ** NOPs *)
Lemma run_nops p n s : p = P16 C_NOP \/ p = P32 NOP -> run (repeat p n) s = Some s.
Proof.
  intros H. induction n; [reflexivity|]. cbn [repeat run].
  assert (D : decode_piece p = Some (IImm Addi 0 0 0)) by (destruct H as [->| ->]; vm_compute; reflexivity).
  rewrite D. cbn [exec_s]. change (setr s 0 _) with s. exact IHn.
Qed.
Lemma nops_run cf codef a n al s : (n <= length (nops_of cf al))%nat -> (cC cf = false -> Z.of_nat n mod 2 = 0) -> isw (pc s) -> pc s = a ->
  code_at codef a (map u16 (firstn n (nops_of cf al))) -> steps codef s (setpc s (wrap (a + 2 * Z.of_nat n))).
Proof.
  intros L E W P C.
  assert (G : exists p k, (p = P16 C_NOP \/ p = P32 NOP) /\ map u16 (firstn n (nops_of cf al)) = units_of (repeat p k) /\ length (units_of (repeat p k)) = n).
  { unfold nops_of in *. destruct (cC cf).
    - exists (P16 C_NOP), n. split; [auto|]. rewrite repeat_length in L. set (m := Z.to_nat _) in *. clearbody m. clear -L. revert m L.
      induction n as [|n IH]; intros m L; [split; reflexivity|]. destruct m as [|m]; [lia|]. cbn [repeat firstn map]. destruct (IH m ltac:(lia)) as (I1 & I2).
      unfold units_of in *. cbn [flat_map units app length]. rewrite I1, I2. split; reflexivity.
    - specialize (E eq_refl). exists (P32 NOP), (n / 2)%nat. split; [auto|].
      assert (n = 2 * (n / 2))%nat as N2.
      { apply Nat2Z.inj. rewrite Nat2Z.inj_mul, Nat2Z.inj_div. change (Z.of_nat 2) with 2. clear -E. Z.div_mod_to_equations. lia. }
      set (h := (n / 2)%nat) in *. clearbody h. subst n. set (m := Z.to_nat _) in *. clearbody m. clear -L. revert m L.
      induction h as [|h IH]; intros m L; [split; reflexivity|]. replace (2 * S h)%nat with (S (S (2 * h))) in * by lia.
      destruct m as [|m]; [cbn in L; lia|]. cbn [repeat flat_map app firstn map] in *. destruct (IH m ltac:(cbn [length] in L; lia)) as (I1 & I2).
      unfold units_of in *. cbn [flat_map units app length]. rewrite I1, I2. split; reflexivity. }
  destruct G as (p & k & Hp & E1 & E2). rewrite E1 in C. pose proof (run_nops p k s Hp) as R. subst a.
  destruct (run_steps codef _ s s R W C) as (S & _). rewrite E2 in S. exact S.
Qed.

(** ** The last instruction *)
Definition cj (o : op) : bool := match o with OJmp NoCond _ => false | OJmp _ _ => true | _ => false end.
Fixpoint ends_cj (b : bool) (ops : list op) : bool :=
  match ops with [] => b | OLab :: ops => ends_cj b ops | o :: ops => ends_cj (cj o) ops end.
Lemma ends_cj_app a : forall b c, ends_cj c (a ++ b) = ends_cj (ends_cj c a) b.
Proof. induction a as [|o a IH]; intros; [reflexivity|]. cbn [app ends_cj]. destruct o; apply IH. Qed.
Lemma ends_cj_est cf ol ops : forall el p e b, ends_cj b (est cf ol el p e ops) = ends_cj b ops.
Proof. induction ops as [|o ops IH]; intros; cbn [est ends_cj]; [auto|]. destruct o; cbn [est_op]; rewrite IH; reflexivity. Qed.
Lemma ends_cj_total cf EL ops : forall n E b, eok cf EL n E ops -> okl b ops -> ends_cj true ops = false -> 1 <= total ops.
Proof.
  induction ops as [|o ops IH]; intros n E b K L H; [discriminate|]. cbn [eok total] in *. destruct K as (K1 & K2).
  pose proof (eok_pos cf EL ops _ _ K2) as P. assert (0 <= total ops) by (clear -P; induction P as [|o l Ho _ IHl]; cbn [total]; [lia|pose proof (osize_pos o Ho); lia]).
  assert (D : o = OLab \/ o <> OLab) by (destruct o; (left; reflexivity) || (right; discriminate)). destruct D as [->|D].
  - cbn [okl ends_cj osize] in *. specialize (IH _ _ _ K2 (proj2 L) H). lia.
  - pose proof (eok_size cf EL n E o b ops K1 L D). lia.
Qed.
Lemma okl_tail o ops b : okl b (o :: ops) -> exists b', okl b' ops.
Proof. cbn [okl]. destruct o; intros; try (eexists; eassumption); destruct H; eexists; eassumption. Qed.
Lemma tail_ok_cj cf EL ops : forall n E b c, eok cf EL n E ops -> okl b ops -> ends_cj c ops = false -> tail_ok ops.
Proof.
  induction ops as [|o ops IH]; intros n E b c K L H; [exact I|]. pose proof K as K0. cbn [eok tail_ok] in *. destruct K as (K1 & K2). destruct (okl_tail _ _ _ L) as (b' & L').
  split.
  - intros Z. destruct o; cbn [zero_jump] in Z; try tauto. destruct k as [|w|w].
    + exfalso. pose proof (eok_size cf EL n E _ b ops K1 L ltac:(discriminate)) as S. cbn in S. lia.
    + cbn [ends_cj cj] in H. eapply ends_cj_total; eauto.
    + cbn [ends_cj cj] in H. eapply ends_cj_total; eauto.
  - cbn [ends_cj] in H. destruct o; eapply IH; eauto.
Qed.
Lemma ends_cj_units b l : ends_cj b (units_ops l) = match l with [] => b | _ => false end.
Proof. destruct l as [|w l]; [reflexivity|]. unfold units_ops. cbn [map ends_cj cj]. induction l; [reflexivity|exact IHl]. Qed.
Lemma ends_cj_mono ops : ends_cj true ops = false -> forall b, ends_cj b ops = false.
Proof. induction ops as [|o ops IH]; [discriminate|]. cbn [ends_cj]. intros H b. destruct o; auto. Qed.
Lemma ends_jump_mono calls : ends_with_jump true calls = false -> ends_with_jump false calls = false.
Proof. induction calls as [|k calls IH]; [discriminate|]. cbn [ends_with_jump]. destruct k; auto. destruct l; auto. Qed.
Lemma ends_cj_calls cf calls : forall pend ts b b', (b = true -> b' = true) -> ends_with_jump b' calls = false -> ends_cj b (oplist cf pend ts calls) = false.
Proof.
  induction calls as [|k calls IH]; intros pend ts b b' B H; cbn [oplist ends_with_jump] in *.
  - cbn. destruct b; [rewrite B in H by auto; discriminate|reflexivity].
  - rewrite ends_cj_app. eapply IH; [|exact H]. destruct k; cbn [kops].
    + rewrite ends_cj_units. destruct l as [|[w|w] l]; cbn; auto.
    + destruct pend; cbn; auto.
    + destruct (small_al cf al), pend; cbn; auto; discriminate.
    + cbn [ends_cj]. destruct x; cbn; auto.
    + cbn; auto.
    + cbn; auto.
    + destruct (units_of (p :: l)) eqn:X; [destruct p; discriminate|]. cbn [ends_cj cj]. rewrite ends_cj_units. destruct l0; auto.
    + exact B.
    + exact B.
Qed.

(** ** Order of labels *)
Lemma flay_sorted cf code eo m FL ops : forall n r r2 js cs, flay cf code eo m FL n r ops r2 js cs -> r <= r2 /\
  (forall i, (n <= i < n + nlabs ops)%nat -> r <= nth i FL 0 <= r2) /\
  (forall i j, (n <= i <= j)%nat -> (j < n + nlabs ops)%nat -> nth i FL 0 <= nth j FL 0).
Proof.
  induction ops as [|o ops IH]; intros n r r2 js cs F; cbn [flay nlabs] in F.
  - destruct F as (-> & _). split; [lia|]. cbn [nlabs]. split; intros; lia.
  - destruct F as (r1 & a & b & c & d & F1 & F2 & _). apply IH in F2. destruct F2 as (M & A & B). cbn [nlabs].
    assert (X : r <= r1 /\ (nlab o = 1%nat -> nth n FL 0 = r1)).
    { destruct o; cbn [fitem nlab] in *; try (split; [lia|discriminate]).
      - split; [lia|]. intros _. lia.
      - split; [lia|]. intros _. lia.
      - destruct F1 as (p & _ & _ & -> & _). pose proof (klen_pos k). pose proof (dsz_range p k). split; [lia|discriminate].
      - destruct F1 as (p & _ & _ & -> & _). split; [destruct p; cbn; lia|discriminate]. }
    destruct X as (X1 & X2). assert (NL : (nlab o <= 1)%nat) by (destruct o; cbn; lia).
    assert (A' : forall i, (n <= i < n + (nlab o + nlabs ops))%nat -> (i = n /\ nlab o = 1%nat) \/ (n + nlab o <= i)%nat) by lia.
    split; [lia|]. split.
    + intros i Hi. destruct (A' i Hi) as [(-> & Y)|Y]; [rewrite X2 by auto; lia|]. specialize (A i ltac:(lia)). lia.
    + intros i j Hi Hj. destruct (A' i ltac:(lia)) as [(-> & Y)|Y].
      * rewrite X2 by auto. destruct (A' j ltac:(lia)) as [(-> & _)|Z]; [rewrite X2 by auto; lia|]. specialize (A j ltac:(lia)). lia.
      * apply B; lia.
Qed.

Section T.
Variables (cf : cfg) (calls : list call) (code eo : Z) (m0 : Z -> Z).
Hypothesis OK : prog_ok cf calls.
Hypothesis LD : loadable cf calls code eo.
Let g := generate_code cf code eo m0 (emits cf calls).
Let TS := targets calls.
Let ops := oplist cf false TS calls.

Lemma code2 : code mod 2 = 0.
Proof. destruct LD as (A & _). destruct (cC cf); [exact A|]. clear -A. Z.div_mod_to_equations. lia. Qed.
Lemma total_ops : total ops = csize (emits cf calls).
Proof. rewrite emits_ops. reflexivity. Qed.
Lemma ops_ok : okl false ops /\ Forall orig_op ops /\ Forall (wf_op cf (length (labs 0 ops))) ops.
Proof.
  destruct OK as (O1 & O2). split; [eapply oplist_okl; exact O1|]. split; [apply oplist_orig|].
  eapply oplist_wf; eauto.
  - pose proof (tvalid_calls cf calls _ [] O1 ltac:(constructor)) as V. fold (targets calls) in V. fold (emits cf calls) in V. rewrite emits_ops in V at 1. exact V.
  - apply targets_length.
Qed.
Lemma linked_ok : eo = 0 \/ ends_with_label false calls = false -> exists FL, linked cf code eo ops g FL.
Proof.
  intros E. destruct ops_ok as (A & B & C). destruct LD as (D1 & _ & D2 & D3). unfold g. rewrite emits_ops. fold TS. fold ops.
  destruct (est_total cf (map lsize (labs 0 ops)) ops B [] 0 0) as (T1 & T2). fold (sized cf ops) in T1, T2.
  rewrite <- total_ops in D3.
  apply link_ok; auto.
  - apply code2.
  - lia.
  - unfold MAX_ADDRESS. change (2 ^ 63) with 9223372036854775808 in D3. change (2 ^ 64) with 18446744073709551616. lia.
  - destruct E as [E|E]; [left; exact E|right]. unfold ops. rewrite (ends_label_calls cf TS) by reflexivity. exact E.
Qed.

Section U.
Variables (FL : list Z) (codef : Z -> Z).
Hypothesis LK : linked cf code eo ops g FL.
Hypothesis FE : fetches code eo g codef.

Lemma nlabs_pre pre post' : calls = pre ++ post' -> (length (clabels (emits cf pre)) <= length FL)%nat.
Proof.
  intros E. rewrite (l_len _ _ _ _ _ _ LK). rewrite (emits_labels cf TS).
  assert (X : forall l p, length (labs p l) = nlabs l).
  { induction l as [|o l IH]; intros p; [reflexivity|]. cbn [labs nlabs]. rewrite app_length, IH. destruct o; reflexivity. }
  rewrite X. unfold ops. rewrite E, oplist_app, nlabs_app. lia.
Qed.
Lemma emit_has_label c k : (k = KLabel \/ exists al, k = KAlign al) -> clabels (emit cf c k) <> [].
Proof.
  assert (L : forall c, clabels (emit_label c) <> []).
  { intros x. unfold emit_label. destruct (last_label (clabels x)) eqn:E; [destruct (_ =? _)|]; cbn [set_label clabels].
    - intros N. rewrite N in E. discriminate.
    - destruct (clabels x); discriminate.
    - destruct (clabels x); discriminate. }
  intros [->|(al & ->)]; cbn [emit]; [apply L|]. unfold emit_aligned_label. destruct (cC cf); destruct (_ <=? _); auto; cbn [set_label clabels]; destruct (clabels (push_units c _)); discriminate.
Qed.
Lemma ret_lt pre k post' : calls = pre ++ k :: post' -> (k = KLabel \/ exists al, k = KAlign al) -> (ret_label (emits cf (pre ++ [k])) < length FL)%nat.
Proof.
  intros E K. pose proof (nlabs_pre (pre ++ [k]) post' ltac:(rewrite <- app_assoc; exact E)) as N.
  unfold ret_label. pose proof (emit_has_label (emits cf pre) k K) as H.
  assert (X : emits cf (pre ++ [k]) = emit cf (emits cf pre) k) by (unfold emits; rewrite fold_left_app; reflexivity).
  rewrite X in *. destruct (clabels (emit cf (emits cf pre) k)); [congruence|cbn [length] in *; lia].
Qed.
Lemma TS_length : length TS = njumps calls. Proof. apply targets_length. Qed.
Lemma tgt_taddr i : (i < length TS)%nat -> tgt_t code eo FL (nth i TS None) = taddr g (nth i TS None) /\ 0 <= tgt_t code eo FL (nth i TS None) /\ isw (tgt_t code eo FL (nth i TS None)).
Proof.
  intros H. destruct OK as (O1 & O2). destruct LD as (_ & _ & D2 & D3). rewrite <- total_ops in D3.
  destruct ops_ok as (_ & B & _). destruct (est_total cf (map lsize (labs 0 ops)) ops B [] 0 0) as (T1 & T2). fold (sized cf ops) in T1, T2.
  pose proof (tvalid_calls cf calls _ [] O1 ltac:(constructor)) as V. fold (targets calls) in V. fold (emits cf calls) in V. fold TS in V.
  rewrite Forall_forall in V, O2. specialize (V (nth i TS None) ltac:(apply nth_In; auto)). specialize (O2 (nth i TS None) ltac:(apply nth_In; auto)).
  unfold tgt_t, taddr. destruct (nth i TS None) as [[l|a]|]; [| |congruence]; cbn [tdef tvalid] in *.
  - rewrite emits_ops in V. cbn [comp_of clabels] in V. fold TS in V. fold ops in V. rewrite <- (l_len _ _ _ _ _ _ LK) in V.
    rewrite (l_addrs _ _ _ _ _ _ LK) by auto. pose proof (l_range _ _ _ _ _ _ LK l V). unfold isw. change (2 ^ 63) with 9223372036854775808 in *. change (2 ^ 64) with 18446744073709551616. lia.
  - unfold isw in *. lia.
Qed.

Lemma done_call i k r r1 : nth_error calls i = Some k -> done cf code eo g FL TS (firstn i calls) k r r1 -> 0 <= r -> r1 <= rend g ->
  (cC cf = false -> r mod 2 = 0) -> (cC cf = false -> r1 mod 2 = 0) -> call_at cf calls code eo g codef (firstn i calls) k r r1.
Proof.
  intros E D R0 R1 EV EV1. pose proof (done_mono _ _ _ _ _ _ _ _ _ _ D) as MO.
  destruct LD as (A4 & E2 & D2 & D3). rewrite <- total_ops in D3. pose proof code2 as C2.
  destruct ops_ok as (_ & B & _). destruct (est_total cf (map lsize (labs 0 ops)) ops B [] 0 0) as (T1 & T2). fold (sized cf ops) in T1, T2.
  pose proof (l_end _ _ _ _ _ _ LK) as RE.
  assert (SPL : calls = firstn i calls ++ k :: skipn (S i) calls).
  { rewrite <- (firstn_skipn i calls) at 1. f_equal. clear -E. revert i E. induction calls as [|a l IH]; intros [|i] E; cbn in E; try discriminate; [injection E as ->; reflexivity|]. cbn [skipn]. apply IH. exact E. }
  set (pre := firstn i calls) in *.
  destruct (calls_ok_nth cf calls _ i k (proj1 OK) E) as (c & CO).
  assert (W : forall x, 0 <= x <= rend g -> isw (xaddr code eo x)).
  { intros x Hx. unfold isw, xaddr. change (2 ^ 63) with 9223372036854775808 in *. change (2 ^ 64) with 18446744073709551616. lia. }
  assert (XE : forall x, xaddr code eo x mod 2 = 0).
  { intros x. unfold xaddr. clear -C2 E2. Z.div_mod_to_equations. lia. }
  assert (AC : forall x l, atm (munit (rmem g)) x l -> 0 <= x -> x + Z.of_nat (length l) <= rend g -> code_at codef (xaddr code eo x) l).
  { intros x l H1 H2 H3. unfold xaddr. eapply atm_code; [|exact H1]. intros j Hj. apply FE. lia. }
  assert (NJ : njump k = 1%nat -> (next_jump (emits cf pre) < length TS)%nat).
  { intros N. rewrite (emits_jumps cf). rewrite TS_length. rewrite SPL. unfold njumps. clear -N. induction pre as [|a l IH]; cbn [app fold_right]; lia. }
  assert (JD : forall x rewr call, (jc_ok x /\ (call = true -> x = JAlways)) -> njump k = 1%nat -> jdone cf code eo g FL TS pre x rewr call r r1 -> jump_at calls code eo g codef (next_jump (emits cf pre)) x rewr call r r1).
  { intros x rewr call (J1 & J2) N (p & jj & A1 & A2 & A3 & A5 & A6 & A7 & A8 & A9 & A10). unfold jump_at.
    fold TS. destruct (tgt_taddr _ (NJ N)) as (TE & TP & TW). set (i0 := next_jump (emits cf pre)) in *. rewrite <- TE. set (T := tgt_t code eo FL (nth i0 TS None)) in *. cbv zeta.
    assert (CA : code_at codef (xaddr code eo r) (jcode code eo (jc_word x) p call r T)).
    { apply AC; auto. rewrite jcode_len by auto. lia. }
    split.
    - intros TM B1 B2 s Ps.
      assert (B3 : istaddr (nth i0 TS None) = true -> ~ bad_b16 x T (code + 2 * r + eo)).
      { intros Ia. apply B2. unfold istaddr in Ia. destruct (nth i0 TS None) as [[l|a]|]; cbn in *; try discriminate; exact I. }
      destruct (jump_exec code eo codef _ x p call r T s J1 A6 J2 A9 A7 TW TM (XE r) (W r ltac:(lia))) as (s' & S1 & S2 & S3 & S4); auto.
      { rewrite <- A3. apply (W r1). lia. }
      exists s'. rewrite <- A3 in *. split; [exact S1|]. split; [exact S2|]. split; [exact S3|exact S4].
    - intros RW. specialize (A8 RW). subst p. exists jj. split; [exact A1|]. cbn [paddr] in A2. pose proof (klen_pos (jc_word x)). cbn [dsz plen] in A3.
      split; [lia|]. split; [lia|].
      unfold jcode in CA. cbv zeta in CA. apply code_at_app in CA. destruct CA as (_ & CA). rewrite kfix_len in CA by (auto; discriminate).
      unfold rewritable_units. rewrite A2. unfold xaddr in *. 
      replace (code + 2 * (r + klen (jc_word x)) + eo) with (code + 2 * r + eo + 2 * klen (jc_word x)) by lia. exact CA. }
  destruct k; cbn [done call_at call_ok njump] in *.
  - destruct D as (D & ->). split; [|reflexivity]. apply AC; auto.
  - destruct D as (-> & D). split; [|reflexivity]. rewrite (l_addrs _ _ _ _ _ _ LK) by (eapply ret_lt; eauto). rewrite D. reflexivity.
  - destruct D as (D & D'). rewrite (l_addrs _ _ _ _ _ _ LK) by (eapply ret_lt; [exact SPL|eauto]). rewrite D. split; [reflexivity|]. split; [lia|].
    assert (AL4 : cC cf = false -> (code + 2 * r1) mod 4 = 0).
    { intros C. rewrite C in A4. specialize (EV1 C). clear -A4 EV1. Z.div_mod_to_equations. lia. }
    assert (AL2 : (code + 2 * r1) mod 2 = 0) by (clear -C2; Z.div_mod_to_equations; lia).
    assert (MB : forall a b n, 2 ^ n - 1 = Z.lor a b -> 0 <= n -> (code + 2 * r1) .& a = 0 -> (code + 2 * r1) .& b = 0 -> (code + 2 * r1) mod 2 ^ n = 0).
    { intros a b n H Hn Ha Hb. rewrite <- Z.land_ones by lia. rewrite Z.ones_equiv. unfold Z.pred. replace (2 ^ n + -1) with (2 ^ n - 1) by lia. rewrite H, Z.land_lor_distr_r, Ha, Hb. reflexivity. }
    assert (L1 : (code + 2 * r1) .& 1 = 0) by (change 1 with (Z.ones 1); rewrite Z.land_ones by lia; exact AL2).
    assert (L3 : cC cf = false -> (code + 2 * r1) .& 3 = 0) by (intros C; change 3 with (Z.ones 2); rewrite Z.land_ones by lia; exact (AL4 C)).
    split.
    + unfold xaddr. replace (code + 2 * r1 + eo - eo) with (code + 2 * r1) by lia. unfold small_al, mask_of in D'. destruct (cC cf).
      * destruct (al <=? 1) eqn:S.
        -- assert (al = 0 \/ al = 1) as [->| ->] by lia; [apply Z.mod_1_r|exact AL2].
        -- destruct D' as (_ & _ & D' & _). assert (al = 2 \/ al = 3 \/ al = 4) as [->|[->| ->]] by lia; (eapply (MB _ 1); [| |exact D'|exact L1]; [reflexivity|lia]).
      * destruct (al <=? 2) eqn:S.
        -- assert (al = 0 \/ al = 1 \/ al = 2) as [->|[->| ->]] by lia; [apply Z.mod_1_r|exact AL2|exact (AL4 eq_refl)].
        -- destruct D' as (_ & _ & D' & _). assert (al = 3 \/ al = 4) as [->| ->] by lia; (eapply (MB _ 3); [| |exact D'|exact (L3 eq_refl)]; [reflexivity|lia]).
    + intros s Ps. destruct (small_al cf al).
      * rewrite D', <- Ps. destruct s. apply steps_refl.
      * destruct D' as (B1 & B2 & _). 
        pose proof (nops_run cf codef (xaddr code eo r) (Z.to_nat (r1 - r)) al s) as N.
        replace (wrap (xaddr code eo r + 2 * Z.of_nat (Z.to_nat (r1 - r)))) with (xaddr code eo r1) in N.
        2:{ rewrite Z2Nat.id by lia. rewrite wrap_small; [unfold xaddr; lia|]. replace (xaddr code eo r + 2 * (r1 - r)) with (xaddr code eo r1) by (unfold xaddr; lia). apply W. lia. }
        apply N; auto.
        -- lia.
        -- intros C. rewrite Z2Nat.id by lia. specialize (EV C). specialize (EV1 C). clear -EV EV1. Z.div_mod_to_equations. lia.
        -- rewrite Ps. apply W. lia.
        -- apply AC; auto. rewrite map_length, firstn_length. lia.
  - apply JD; tauto.
  - apply JD; auto. cbn; tauto.
  - destruct D as (p & jj & A1 & A2 & A3 & A5 & A6 & A7). fold TS. destruct (tgt_taddr _ (NJ eq_refl)) as (TE & TP & TW). set (i0 := next_jump (emits cf pre)) in *. rewrite <- TE.
    set (T := tgt_t code eo FL (nth i0 TS None)) in *. intros B1 s Ps.
    assert (VR : u16 reg = reg). { unfold u16. apply Z.mod_small. destruct CO as (V & _). unfold vreg in V. change (2 ^ 16) with 65536. lia. }
    rewrite VR in A5.
    assert (LA : length (units_of (map P32 (load_addr p true false reg (sw T) (sw (code + 2 * r + eo))))) = (2 * length (load_addr p true false reg (sw T) (sw (code + 2 * r + eo))))%nat) by apply units32.
    pose proof (load_addr_plen p true false reg (sw T) (sw (code + 2 * r + eo)) A6) as PL. rewrite LA in PL.
    assert (RO : range_ok p (sw T) (sw (code + 2 * r + eo))).
    { assert (SM : T <= S52_MAX -> sw T = T) by (intros; apply sw_small; unfold S52_MAX in *; change (2 ^ 63) with 9223372036854775808; lia).
      assert (DD : sw (sw T - sw (code + 2 * r + eo)) = sw (T - (code + 2 * r + eo))).
      { destruct (sext_mod 64 T ltac:(lia)) as (k1 & X1). destruct (sext_mod 64 (code + 2 * r + eo) ltac:(lia)) as (k2 & X2). unfold sw in *.
        apply (sext_eq 64 _ _ (k2 - k1)); [lia|]. lia. }
      destruct p; cbn [range_ok jfit movp] in *; try destruct A6; rewrite ?DD; try exact A7.
      - exact (sext_range 64 T ltac:(lia)).
      - rewrite SM by (unfold S32_MAX, S52_MAX in *; lia). unfold isw in TW. lia.
      - rewrite SM by (unfold S44_MAX, S52_MAX in *; lia). unfold isw in TW. lia.
      - rewrite SM by lia. unfold isw in TW. unfold bad_abs52 in B1. lia. }
    destruct (load_addr_mov_ok p reg (sw T) (sw (code + 2 * r + eo)) codef s false) as (s' & S1 & S2 & S3 & S4); try tauto.
    + rewrite Ps. apply W. lia.
    + intros _. rewrite Ps. specialize (W r ltac:(lia)). unfold xaddr in *. rewrite wrap_sw. apply wrap_small. exact W.
    + rewrite Ps. apply AC; auto. rewrite LA. lia.
    + exists s'. split; [exact S1|]. split; [|split; [|exact S4]].
      * rewrite S2, Ps. unfold last_len. rewrite wrap_small; [unfold xaddr; lia|].
        replace (xaddr code eo r + 4 * Z.of_nat (length (load_addr p true false reg (sw T) (sw (code + 2 * r + eo))))) with (xaddr code eo r1) by (unfold xaddr; lia). apply W. lia.
      * rewrite S3. rewrite wrap_sw. apply wrap_small. exact TW.
  - destruct D as (D & -> & D'). split; [|split; [reflexivity|exact D']]. apply AC; auto.
  - exact D.
  - exact D.
Qed.
End U.

Theorem program_ok : eo = 0 \/ ends_with_label false calls = false ->
  exists pos, forall codef, fetches code eo g codef -> program_at cf calls code eo g codef pos.
Proof.
  intros E. destruct (linked_ok E) as (FL & LK). 
  pose proof (flay_flay0 cf code eo _ FL ops (sized cf ops) (sized_same cf _ ops [] 0 0) _ _ _ _ _ (l_lay _ _ _ _ _ _ LK)) as F0.
  pose proof (flay0_clay cf code eo g FL TS calls [] 0 (rend g)) as CL.
  cbn [oplist nlabs njumps fold_right skipn ends_label] in CL. change (next_const (emits cf [])) with 0%nat in CL. cbn [skipn] in CL.
  specialize (CL F0 ltac:(discriminate)). apply clay_pos in CL. destruct CL as (pos & P0 & PN & P). cbn [app] in P.
  assert (EVN : cC cf = false -> forall i, (i <= length calls)%nat -> pos i mod 2 = 0).
  { intros C. destruct LD as (A4 & _). rewrite C in A4. induction i as [|i IH]; intros Hi; [rewrite P0; reflexivity|].
    destruct (nth_error calls i) as [k|] eqn:X; [|apply nth_error_None in X; lia].
    destruct (calls_ok_nth cf calls _ i k (proj1 OK) X) as (c & CO). eapply done_even; eauto. apply IH. lia. }
  assert (MONO : forall i, (i < length calls)%nat -> pos i <= pos (S i)).
  { intros i Hi. destruct (nth_error calls i) as [k|] eqn:X; [|apply nth_error_None in X; lia]. eapply done_mono; eauto. }
  assert (LO : forall i, (i <= length calls)%nat -> 0 <= pos i).
  { induction i as [|i IH]; intros Hi; [lia|]. specialize (IH ltac:(lia)). specialize (MONO i ltac:(lia)). lia. }
  assert (HI : forall d i, (i + d = length calls)%nat -> pos i <= rend g).
  { induction d as [|d IH]; intros i Hi; [replace i with (length calls) by lia; lia|]. specialize (IH (S i) ltac:(lia)). specialize (MONO i ltac:(lia)). lia. }
  exists pos. intros codef FE. split; [exact P0|]. split; [exact PN|]. intros i k X.
  assert (Hi : (i < length calls)%nat) by (apply nth_error_Some; congruence).
  split; [apply MONO; auto|]. split; [intros C; apply EVN; auto; lia|].
  eapply done_call; eauto.
  - apply LO. lia.
  - apply (HI (length calls - S i)%nat). lia.
  - intros C; apply EVN; auto; lia.
Qed.

(** Memory. *)
Theorem memory_ok : eo = 0 \/ ends_with_label false calls = false -> ends_with_jump false calls = false -> mok (rmem g) = true.
Proof.
  intros E J. destruct (linked_ok E) as (FL & LK). apply (l_mem _ _ _ _ _ _ LK). destruct ops_ok as (A & B & C).
  unfold sized. eapply (tail_ok_cj cf _ _ 0 0 false false).
  - apply (eok_est cf (map lsize (labs 0 ops)) ops B [] 0 0 (length (labs 0 ops))); auto; lia.
  - apply est_okl. exact A.
  - rewrite ends_cj_est. eapply ends_cj_calls; [|exact J]. auto.
Qed.
Theorem end_ok : eo = 0 \/ ends_with_label false calls = false -> 0 <= rend g <= csize (reduce_code_size cf (emits cf calls)) /\ rsize g = 4 * rend g.
Proof.
  intros E. destruct (linked_ok E) as (FL & LK). destruct ops_ok as (A & B & C). destruct LD as (_ & _ & D2 & D3). rewrite <- total_ops in D3.
  rewrite emits_ops. fold TS. fold ops. rewrite reduce_comp; auto.
  - cbn [csize]. split; [exact (l_end _ _ _ _ _ _ LK)|exact (l_size _ _ _ _ _ _ LK)].
  - unfold MAX_ADDRESS. change (2 ^ 63) with 9223372036854775808 in D3. change (2 ^ 64) with 18446744073709551616. lia.
Qed.
Theorem labels_ok : eo = 0 \/ ends_with_label false calls = false ->
  forall l, (l < length (clabels (emits cf calls)))%nat ->
   code + eo <= label_addr (rlabels g) l <= code + eo + 2 * rend g /\
   forall l', (l <= l')%nat -> (l' < length (clabels (emits cf calls)))%nat -> label_addr (rlabels g) l <= label_addr (rlabels g) l'.
Proof.
  intros E l L. destruct (linked_ok E) as (FL & LK).
  assert (LE : length (clabels (emits cf calls)) = length FL). { rewrite emits_ops. cbn [comp_of clabels]. fold TS. fold ops. symmetry. apply (l_len _ _ _ _ _ _ LK). }
  assert (NL : forall l p, length (labs p l) = nlabs l).
  { induction l0 as [|o l0 IH]; intros p; [reflexivity|]. cbn [labs nlabs]. rewrite app_length, IH. destruct o; reflexivity. }
  destruct (flay_sorted _ _ _ _ _ _ _ _ _ _ _ (l_lay _ _ _ _ _ _ LK)) as (M & A & B).
  assert (NS : nlabs (sized cf ops) = length FL).
  { rewrite (l_len _ _ _ _ _ _ LK), NL. unfold sized. generalize (map lsize (labs 0 ops)) as ol. generalize (@nil Z) as el. generalize 0 at 2 as e. generalize 0 as p. 
    generalize ops. induction ops0 as [|o l0 IH]; intros; [reflexivity|]. cbn [est nlabs]. rewrite IH. destruct o; reflexivity. }
  rewrite NS in A, B. rewrite LE in *. rewrite (l_addrs _ _ _ _ _ _ LK) by auto. split.
  - specialize (A l ltac:(lia)). lia.
  - intros l' H1 H2. rewrite (l_addrs _ _ _ _ _ _ LK) by auto. specialize (B l l' ltac:(lia) ltac:(lia)). lia.
Qed.
End T.
