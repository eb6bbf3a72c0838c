(** Histories of calls: the compiler represents what the abstract emission functions give, or has an error. *)
Require Import ZArith List Bool Lia Zify ZifyBool Permutation.
From Verif Require Import Rv.RvLib Rv.RvEnc Rv.RvIsa Rv.RvImm Rv.RvAddr Rv.RvLink Rv.RvLinkOps Rv.RvLinkExec Rv.RvLinkApi Rv.RvLinkReduce
  Comp.CpMem Comp.CpState Comp.CpCore Comp.CpRep Comp.CpCalls.
Import ListNotations.
Open Scope Z_scope.
Ltac Zify.zify_post_hook ::= idtac.

(** ** Chained lists in memory *)
Lemma chain_ptrs_gen {A} (body : Z -> Z -> A -> list (Z * cell)) L : forall n fuel m R, sat m (chainH body n L 0 ++ R) -> Forall (fun x => 0 < fst x < 2 ^ 64) L ->
  chain_ptrs fuel m (hdp L) = firstn fuel (map fst L).
Proof.
  induction L as [|(q, a) L IH]; intros n fuel m R S P.
  - destruct fuel; reflexivity.
  - destruct fuel as [|fuel]; [reflexivity|]. inversion P as [|? ? P1 P2]; subst. cbn [hdp map fst firstn chain_ptrs] in *. replace (q =? 0) with false by lia. f_equal.
    cbn [chainH] in S. assert (E : ldw m q = hdp L).
    { rewrite <- hdn_hdp. eapply sat_ldw; [exact S|left; reflexivity|]. rewrite hdn_hdp. unfold is64. destruct L as [|(x, b) L]; cbn [hdp]; [lia|]. inversion P2 as [|? ? P3 _]; subst. cbn [fst] in P3. lia. }
    rewrite E. apply (IH (n + 1) fuel m (body n q a ++ R)); auto. rewrite <- app_comm_cons, <- app_assoc in S. apply sat_drop in S. eapply sat_perm; [|exact S]. psolve.
Qed.
Lemma core_sat s F G live R : core s F G live R -> sat (hm (ch s)) R.
Proof. intros (S & _). apply sat_app in S. destruct S as (_ & S). apply sat_app in S. destruct S as (_ & S). apply sat_app in S. apply S. Qed.
Lemma rep_sat s c L J K live : rep s c L J K live -> exists U, sat (hm (ch s)) (chainH labB 0 L 0 ++ chainH jmpB 0 J 0 ++ chainH conB 0 K 0 ++ U).
Proof. intros ((F & G & U & C & _) & _). exists U. eapply core_sat; eauto. Qed.
Lemma firstn_all' {A} n (l : list A) : zlen l <= n -> firstn (Z.to_nat n) l = l.
Proof. intros H. apply firstn_all2. unfold zlen in H. lia. Qed.
Lemma rep_jump_ptrs s c L J K live : rep s c L J K live -> jump_ptrs s = map fst J.
Proof.
  intros H. destruct (rep_sat _ _ _ _ _ _ H) as (U & S). rep_fields H. unfold jump_ptrs. rewrite B3.
  rewrite (chain_ptrs_gen jmpB J 0 _ _ (chainH labB 0 L 0 ++ chainH conB 0 K 0 ++ U)).
  - apply firstn_all'. unfold zlen in *. rewrite map_length. lia.
  - sp S.
  - eapply Forall_mono; [|exact D2]. intros x (Hx & _). exact Hx.
Qed.
Lemma rep_label_ptrs s c L J K live : rep s c L J K live -> label_ptrs s = map fst L.
Proof.
  intros H. destruct (rep_sat _ _ _ _ _ _ H) as (U & S). rep_fields H. unfold label_ptrs. rewrite B1, A5.
  rewrite (chain_ptrs_gen labB L 0 _ _ (chainH jmpB 0 J 0 ++ chainH conB 0 K 0 ++ U)).
  - apply firstn_all'. unfold zlen in *. rewrite map_length. lia.
  - sp S.
  - eapply Forall_mono; [|exact D1]. intros x (Hx & _). exact Hx.
Qed.

(** ** sljit_set_label and sljit_set_target *)
Lemma jflags_label l j : Z.land (jflags j) (Z.lnot JUMP_ADDR) = jflags (set_jtarget (TLabel l) j).
Proof. unfold jflags. cbn [set_jtarget jisaddr jmov jcond jcall jcond16 jrewr]. destruct (jisaddr j), (jmov j), (jcond j), (jcall j), (jcond16 j), (jrewr j); reflexivity. Qed.
Lemma jflags_addr a j : Z.lor (jflags j) JUMP_ADDR = jflags (set_jtarget (TAddr a) j).
Proof. unfold jflags. cbn [set_jtarget jisaddr jmov jcond jcall jcond16 jrewr]. destruct (jisaddr j), (jmov j), (jcond j), (jcall j), (jcond16 j), (jrewr j); reflexivity. Qed.
Lemma nth_split_ptr {A} (J : list (Z * A)) j : nth j (map fst J) 0 <> 0 -> exists J1 x J2, J = J1 ++ x :: J2 /\ length J1 = j /\ nth j (map fst J) 0 = fst x.
Proof.
  intros H. destruct (Nat.lt_ge_cases j (length J)) as [L|L].
  - destruct (nth_error J j) as [x|] eqn:E; [|apply nth_error_None in E; lia]. apply nth_error_split in E. destruct E as (J1 & J2 & E & E2). exists J1, x, J2. split; auto. split; auto.
    rewrite E, map_app, app_nth2 by (rewrite map_length; lia). rewrite map_length, E2, Nat.sub_diag. reflexivity.
  - rewrite nth_overflow in H by (rewrite map_length; lia). congruence.
Qed.
Lemma upd_over {A} (f : A -> A) l : forall j, (length l <= j)%nat -> upd j f l = l.
Proof. induction l as [|x l IH]; intros [|j] H; cbn [upd length] in *; auto; try lia. f_equal. apply IH. lia. Qed.
Lemma nth_ptr_zero {A} (J : list (Z * A)) j : Forall (fun x => 0 < fst x) J -> nth j (map fst J) 0 = 0 -> (length J <= j)%nat.
Proof.
  intros P H. destruct (Nat.lt_ge_cases j (length J)) as [L|L]; auto. destruct (nth_error J j) as [x|] eqn:E; [|apply nth_error_None in E; lia].
  assert (nth j (map fst J) 0 = fst x) by (apply nth_error_nth; rewrite nth_error_map, E; reflexivity). apply nth_error_In in E. rewrite Forall_forall in P. specialize (P _ E). lia.
Qed.
(** Both functions, with the word stored and the flags they compute. *)
Lemma set_rep t u s c L J1 q j u0 J2 K live : rep s c L (J1 ++ (q, (j, u0)) :: J2) K live ->
  jval_ok (map fst L) (set_jtarget t j) u ->
  let s' := st (st s (q + 16) (jflags (set_jtarget t j))) (q + 24) u in
  rep s' (mkComp (cbuf c) (clabels c) (upd (length J1) (set_jtarget t) (cjumps c)) (cconsts c) (csize c)) L (J1 ++ (q, (set_jtarget t j, u)) :: J2) K live.
Proof.
  intros H V s'. rep_fields H. split; [|split; [|split]]; cbn [cbuf clabels cjumps cconsts csize].
  - exists F, G, U. split; auto. rewrite chain_app in *. cbn [chainH hdn] in *. unfold jmpB at 2 in HC. unfold jmpB at 2. cbn [fst snd app] in *.
    cfront HC (q + 16, W (jflags j)). apply (core_st_w _ _ _ _ _ _ _ (jflags (set_jtarget t j))) in HC.
    cfront HC (q + 24, W u0). apply (core_st_w _ _ _ _ _ _ _ u) in HC. change (jaddr (set_jtarget t j)) with (jaddr j). fold s' in HC. cp HC.
  - split; auto. split; [|split; auto]. rewrite <- A2, !map_app. cbn [map fst snd]. replace (length J1) with (length (map (fun x : Z * (jump * Z) => fst (snd x)) J1)) by apply map_length. symmetry. apply upd_mid.
  - unfold lastp in *. rewrite !map_app in *. cbn [map fst] in *. replace (hdp (J1 ++ (q, (set_jtarget t j, u)) :: J2)) with (hdp (J1 ++ (q, (j, u0)) :: J2)) by (destruct J1 as [|(x & y) J1]; reflexivity).
    repeat split; auto.
  - split; auto. split; [|split; auto; split; auto; split; auto; split; auto].
    + apply Forall_app in D2. destruct D2 as (D2 & D8). inversion D8 as [|? ? D9 D10]; subst. apply Forall_app. split; auto. constructor; auto.
      unfold jok, jump_new in *. cbn [fst snd] in *. change (jaddr (set_jtarget t j)) with (jaddr j). change (jsz (set_jtarget t j)) with (jsz j). change (jpatch (set_jtarget t j)) with (jpatch j). tauto.
    + unfold zlen in *. rewrite app_length in *. cbn [length] in *. lia.
Qed.
Lemma fcells_pos P : Forall fcells P -> Forall (fun x => 0 < fst x < 2 ^ 64) P.
Proof. apply Forall_mono. intros x (H & _). exact H. Qed.
(** A store of both words into a jump record keeps what is valid after an error. *)
Lemma fr_set s live f u n : fr s live -> let p := nth n (jump_ptrs s) 0 in p <> 0 -> fr (st (st s (p + 16) f) (p + 24) u) live.
Proof.
  intros (F & G & R & P & C & E & X) p. unfold p, jump_ptrs. rewrite E. rewrite (chain_ptrs_gen jmpF P 0 _ _ R (core_sat _ _ _ _ _ C) (fcells_pos _ X)).
  intros Np. assert (exists n', nth n (firstn (Z.to_nat (csz s)) (map fst P)) 0 = nth n' (map fst P) 0) as (n' & En).
  { destruct (Nat.lt_ge_cases n (length (firstn (Z.to_nat (csz s)) (map fst P)))) as [Ln|Ln].
    - exists n. rewrite <- (firstn_skipn (Z.to_nat (csz s)) (map fst P)) at 2. rewrite app_nth1; auto.
    - rewrite nth_overflow in Np by exact Ln. congruence. }
  rewrite En in *. destruct (nth_split_ptr P n' Np) as (P1 & (q & ((c1 & c2) & c3)) & P2 & E1 & E2 & E3). cbn [fst] in E3. rewrite E3. clear E2 E3 En Np p.
  exists F, G, R, (P1 ++ (q, (c1, W f, W u)) :: P2). subst P. apply Forall_app in X. destruct X as (X1 & X2). inversion X2 as [|? ? (X3 & X4 & X5 & X6) X7]; subst. cbn [fst snd] in *.
  split; [|split].
  - rewrite chain_app in *. cbn [chainH hdn] in *. unfold jmpF at 2 in C. unfold jmpF at 2. cbn [fst snd app] in *.
    cfront C (q + 16, c2). apply (core_st _ _ _ _ _ (q + 16) c2 f) in C; [|exact X5]. cfront C (q + 24, c3). apply (core_st _ _ _ _ _ (q + 24) c3 u) in C; [|exact X6]. cp C.
  - cbn [st set_h cjmp]. rewrite E. destruct P1 as [|(x & y) P1]; reflexivity.
  - apply Forall_app. split; auto. constructor; auto. repeat split; auto; cbn [fst]; lia.
Qed.
Lemma fr_set_label s live n l : fr s live -> fr (api_set_label (nth n (jump_ptrs s) 0) l s) live.
Proof. intros H. unfold api_set_label. destruct (nth n (jump_ptrs s) 0 =? 0) eqn:E; cbn [negb andb]; auto. destruct (l =? 0); cbn [negb]; auto. apply fr_set; auto. lia. Qed.
Lemma fr_set_target s live n a : fr s live -> fr (api_set_target (nth n (jump_ptrs s) 0) a s) live.
Proof. intros H. unfold api_set_target. destruct (nth n (jump_ptrs s) 0 =? 0) eqn:E; cbn [negb andb]; auto. apply fr_set; auto. lia. Qed.
Lemma flags_at s c L J1 q j u0 J2 K live : rep s c L (J1 ++ (q, (j, u0)) :: J2) K live -> ld s (q + 16) = jflags j.
Proof.
  intros H. rep_fields H. eapply core_ld; [exact HC| |apply jflags_64]. apply in_or_app. right. apply in_or_app. left. rewrite chain_app. apply in_or_app. right. cbn. auto.
Qed.
Lemma set_label_rep s c L J K live n l : rep s c L J K live -> (l < length L)%nat ->
  exists J', rep (api_set_label (nth n (jump_ptrs s) 0) (nth l (label_ptrs s) 0) s)
    (mkComp (cbuf c) (clabels c) (upd n (set_jtarget (TLabel l)) (cjumps c)) (cconsts c) (csize c)) L J' K live.
Proof.
  intros H Hl. rewrite (rep_jump_ptrs _ _ _ _ _ _ H), (rep_label_ptrs _ _ _ _ _ _ H).
  assert (Xl : exists x, nth_error L l = Some x /\ nth l (map fst L) 0 = fst x /\ 0 < fst x < 2 ^ 64).
  { destruct (nth_error L l) as [x|] eqn:E; [|apply nth_error_None in E; lia]. exists x. split; auto. split; [apply nth_error_nth; rewrite nth_error_map, E; reflexivity|].
    destruct H as (_ & _ & _ & (D1 & _)). rewrite Forall_forall in D1. apply nth_error_In in E. apply D1 in E. apply E. }
  destruct Xl as (x & Xl & El & Px). rewrite El. unfold api_set_label. destruct (nth n (map fst J) 0 =? 0) eqn:E; cbn [negb andb].
  - exists J. rewrite upd_over; [destruct c; exact H|]. destruct H as (_ & (_ & A2 & _) & _ & (_ & D2 & _)). rewrite <- A2, map_length. apply nth_ptr_zero; [eapply jmp_pos; eauto|lia].
  - replace (fst x =? 0) with false by lia. cbn [negb]. destruct (nth_split_ptr J n ltac:(lia)) as (J1 & (q & (j & u0)) & J2 & E1 & E2 & E3). cbn [fst] in E3. rewrite E3. clear E E3. subst J n.
    rewrite (flags_at _ _ _ _ _ _ _ _ _ _ H), (jflags_label l). eexists. apply (set_rep (TLabel l) (fst x) s c L J1 q j u0 J2 K live H).
    unfold jval_ok. cbn [set_jtarget jisaddr jtarget jlabel]. split; auto. right. rewrite nth_error_map, Xl. reflexivity.
Qed.
Lemma set_target_rep s c L J K live n a : rep s c L J K live -> is64 a ->
  exists J', rep (api_set_target (nth n (jump_ptrs s) 0) a s)
    (mkComp (cbuf c) (clabels c) (upd n (set_jtarget (TAddr a)) (cjumps c)) (cconsts c) (csize c)) L J' K live.
Proof.
  intros H Ha. rewrite (rep_jump_ptrs _ _ _ _ _ _ H). unfold api_set_target. destruct (nth n (map fst J) 0 =? 0) eqn:E; cbn [negb andb].
  - exists J. rewrite upd_over; [destruct c; exact H|]. destruct H as (_ & (_ & A2 & _) & _ & (_ & D2 & _)). rewrite <- A2, map_length. apply nth_ptr_zero; [eapply jmp_pos; eauto|lia].
  - destruct (nth_split_ptr J n ltac:(lia)) as (J1 & (q & (j & u0)) & J2 & E1 & E2 & E3). cbn [fst] in E3. rewrite E3. clear E E3. subst J n.
    rewrite (flags_at _ _ _ _ _ _ _ _ _ _ H), (jflags_addr a). eexists. apply (set_rep (TAddr a) a s c L J1 q j u0 J2 K live H).
    unfold jval_ok. cbn [set_jtarget jisaddr jtarget jlabel]. auto.
Qed.

(** ** Sizes only grow *)
Lemma emit_mono cf k c : csize c <= csize (emit cf c k).
Proof.
  assert (PU : forall c us, csize c <= csize (push_units c us)) by (intros; rewrite push_units_size; pose proof (zlen_pos us); lia).
  assert (EL : forall c, csize c <= csize (emit_label c)). { intros c0. unfold emit_label, RvLink.set_label. destruct (last_label (clabels c0)) as [l|]; [destruct (lsize l =? csize c0)|]; cbn [csize]; lia. }
  destruct k as [l| |al|x rewr call|call a|reg|p l|j l|j a]; cbn [emit csize]; auto; try lia.
  - unfold emit_aligned_label. destruct (cC cf); [destruct (al <=? 1)|destruct (al <=? 2)]; auto; unfold RvLink.set_label; cbn [csize]; rewrite push_units_size; match goal with |- context[zlen ?l] => pose proof (zlen_pos l) end; lia.
  - rewrite emit_jump_eq. cbn [csize]. pose proof (zlen_pos (cond_units (jc_word x))). unfold JUMP_MAX_SIZE. lia.
  - rewrite emit_jump_eq. cbn [csize]. pose proof (zlen_pos (cond_units NoCond)). unfold JUMP_MAX_SIZE. lia.
  - unfold emit_mov_addr, JUMP_MAX_SIZE. cbn [csize]. lia.
  - unfold emit_constant. rewrite push_units_size. cbn [csize]. pose proof (zlen_pos (units_of (p :: l))). lia.
Qed.
Lemma emits_mono cf ks : forall c, csize c <= csize (fold_left (emit cf) ks c).
Proof. induction ks as [|k ks IH]; intros c; cbn [fold_left]; [lia|]. pose proof (emit_mono cf k c). specialize (IH (emit cf c k)). lia. Qed.

(** ** Aligned labels *)
Lemma piece_units_repeat p n : units_of (repeat p n) = flat_map (fun _ => units p) (repeat tt n).
Proof. induction n as [|n IH]; cbn [repeat flat_map]; unfold units_of in *; cbn [flat_map]; congruence. Qed.
Lemma align_units cf al : units_of (align_nops cf al) =
  if cC cf then repeat C_NOP (Z.to_nat (Z.shiftr (2 ^ al - 2) 1)) else flat_map (fun _ => [u16 NOP; u16 (Z.shiftr NOP 16)]) (repeat tt (Z.to_nat (Z.shiftr (2 ^ al - 4) 2))).
Proof.
  unfold align_nops, align_mask. destruct (cC cf).
  - generalize (Z.to_nat (Z.shiftr (2 ^ al - 2) 1)). induction n as [|n IH]; [reflexivity|]. cbn [repeat]. unfold units_of in *. cbn [flat_map units app]. change (u16 C_NOP) with C_NOP. congruence.
  - apply piece_units_repeat.
Qed.
Lemma emit_align_eq cf c al : emit_aligned_label cf c al =
  if (if cC cf then al <=? 1 else al <=? 2) then emit_label c else RvLink.set_label (push_units c (units_of (align_nops cf al))) (Some (align_mask cf al)).
Proof. unfold emit_aligned_label. rewrite align_units. unfold align_mask. destruct (cC cf); reflexivity. Qed.
Lemma align_nops_pos cf al : (if cC cf then al <=? 1 else al <=? 2) = false -> 1 <= zlen (units_of (align_nops cf al)).
Proof.
  intros H. assert (X : exists n p, align_nops cf al = repeat p (S n)).
  { unfold align_nops, align_mask. destruct (cC cf).
    - assert (2 ^ 2 <= 2 ^ al) by (apply Z.pow_le_mono_r; lia). change (2 ^ 2) with 4 in *. rewrite Z.shiftr_div_pow2 by lia. change (2 ^ 1) with 2.
      assert (1 <= (2 ^ al - 2) / 2) by (apply Z.div_le_lower_bound; lia). exists (Z.to_nat ((2 ^ al - 2) / 2) - 1)%nat, (P16 C_NOP). f_equal. lia.
    - assert (2 ^ 3 <= 2 ^ al) by (apply Z.pow_le_mono_r; lia). change (2 ^ 3) with 8 in *. rewrite Z.shiftr_div_pow2 by lia. change (2 ^ 2) with 4.
      assert (1 <= (2 ^ al - 4) / 4) by (apply Z.div_le_lower_bound; lia). exists (Z.to_nat ((2 ^ al - 4) / 4) - 1)%nat, (P32 NOP). f_equal. lia. }
  destruct X as (n & p & ->). cbn [repeat]. unfold units_of. cbn [flat_map]. rewrite zlen_app. pose proof (zlen_pos (flat_map units (repeat p n))). destruct p; unfold zlen in *; cbn [units length]; lia.
Qed.
Lemma align_mask_64 cf al : 0 <= al < 64 -> (if cC cf then al <=? 1 else al <=? 2) = false -> is64 (align_mask cf al).
Proof.
  intros H E. assert (2 ^ al <= 2 ^ 63) by (apply Z.pow_le_mono_r; lia). unfold align_mask, is64. destruct (cC cf).
  - assert (2 ^ 2 <= 2 ^ al) by (apply Z.pow_le_mono_r; lia). change (2 ^ 2) with 4 in *. lia.
  - assert (2 ^ 3 <= 2 ^ al) by (apply Z.pow_le_mono_r; lia). change (2 ^ 3) with 8 in *. lia.
Qed.
Lemma buffer_rep cf sizes : forall ret s c L J K live, rep s c L J K live -> cerr s = 0 -> 0 < ret ->
  let c' := fold_left (emit cf) (buffer_calls cf sizes) c in
  csize c' < 2 ^ 63 ->
  let (r, s') := buffer_loop cf sizes ret s in
  fr s' live /\
  (cerr s' = ERR_ALLOC_FAILED /\ r = 0 \/ cerr s' = 0 /\ r = ret /\ exists L', rep s' c' L' J K live /\ cfld s' = cfld s).
Proof.
  induction sizes as [|x sizes IH]; intros ret s c L J K live H Er Rt c' Bd.
  - cbn [buffer_loop]. split; [eapply rep_fr; eauto|]. right. split; auto. split; auto. exists L. split; auto.
  - cbn [buffer_loop]. set (c1 := push_units c (units_of (nop_area cf x))).
    assert (Em : c' = match sizes with [] => c1 | _ => fold_left (emit cf) (buffer_calls cf sizes) (emit_label c1) end) by (unfold c', c1; destruct sizes; reflexivity).
    assert (B1 : csize c1 < 2 ^ 63).
    { rewrite Em in Bd. destruct sizes as [|y sizes]; auto. pose proof (emits_mono cf (buffer_calls cf (y :: sizes)) (emit_label c1)). pose proof (emit_mono cf KLabel c1) as M. cbn [emit] in M. lia. }
    unfold c1 in B1. rewrite push_units_size in B1. pose proof (em_rep (em_of (nop_area cf x)) s c L J K live H) as E. rewrite em_of_flat in E. specialize (E B1).
    destruct (run_em (em_of (nop_area cf x)) s) as (r, s1). destruct E as (E1 & c2 & E2 & _ & E4). apply rest_fields in E1.
    destruct E4 as [(-> & E4 & ->)|(E4 & E5)].
    2:{ specialize (E5 (em_of_checked _)). replace (r =? 0) with false by lia. cbn [negb]. split; [eapply rep_fr; eauto|]. auto. }
    cbn [Z.eqb negb]. fold c1 in E2. destruct sizes as [|y sizes].
    { split; [eapply rep_fr; eauto|]. right. split; [congruence|]. split; auto. exists L. rewrite Em. split; auto. apply E1. }
    pose proof (label_rep s1 c1 L J K live E2 ltac:(congruence)) as T. destruct (api_label s1) as (q, s2).
    destruct T as (T1 & [(T2 & ->)|(T2 & L' & T3 & T4 & T5 & T6)]); [cbn [Z.eqb]; auto|].
    replace (q =? 0) with false by lia. rewrite Em in *. specialize (IH ret s2 (emit_label c1) L' J K live T3 ltac:(congruence) Rt Bd). cbv zeta in IH.
    destruct (buffer_loop cf (y :: sizes) ret s2) as (r, s3). destruct IH as (I1 & I2). split; auto. destruct I2 as [I2|(I2 & I3 & L2 & I4 & I5)]; auto. right. split; auto. split; auto. exists L2. split; auto.
    rewrite I5, T6. apply E1.
Qed.
Lemma align_rep cf al sizes s c L J K live : rep s c L J K live -> cerr s = 0 -> 0 <= al < 64 ->
  let c' := fold_left (emit cf) (aligned_label_calls cf al sizes) c in
  csize c' < 2 ^ 63 ->
  let (r, s') := api_align cf al sizes s in
  fr s' live /\
  (cerr s' = ERR_ALLOC_FAILED /\ r = 0 \/ cerr s' = 0 /\ 0 < r /\ exists L', rep s' c' L' J K live /\ cfld s' = cfld s).
Proof.
  intros H Er Ha c' Bd. unfold c', aligned_label_calls in *. clear c'. cbn [fold_left emit] in *. rewrite emit_align_eq in *. unfold api_align, guard. rewrite Er. cbn [Z.eqb negb].
  pose proof (emits_mono cf (buffer_calls cf sizes)) as Mo.
  destruct (if cC cf then al <=? 1 else al <=? 2) eqn:A.
  - pose proof (label_rep s c L J K live H Er) as T. destruct (api_label s) as (q, s2).
    destruct T as (T1 & [(T2 & ->)|(T2 & L' & T3 & T4 & T5 & T6)]); [cbn [Z.eqb]; auto|].
    replace (q =? 0) with false by lia. pose proof (buffer_rep cf sizes q s2 _ L' J K live T3 ltac:(congruence) T5 Bd) as X. cbv zeta in X. destruct (buffer_loop cf sizes q s2) as (r, s3).
    destruct X as (X1 & X2). split; auto. destruct X2 as [X2|(X2 & X3 & L2 & X4 & X5)]; auto. right. split; auto. split; [congruence|]. exists L2. split; auto. congruence.
  - set (c1 := push_units c (units_of (align_nops cf al))) in *. set (c2 := RvLink.set_label c1 (Some (align_mask cf al))) in *.
    specialize (Mo c2). assert (B1 : csize c + zlen (units_of (align_nops cf al)) < 2 ^ 63) by (unfold c2, RvLink.set_label, c1, push_units, zlen in *; cbn [csize] in *; lia).
    pose proof (em_rep (em_of (align_nops cf al)) s c L J K live H) as E. rewrite em_of_flat in E. specialize (E B1).
    destruct (run_em (em_of (align_nops cf al)) s) as (r, s1). destruct E as (E1 & c3 & E2 & _ & E4). apply rest_fields in E1.
    destruct E4 as [(-> & E4 & ->)|(E4 & E5)].
    2:{ specialize (E5 (em_of_checked _)). replace (r =? 0) with false by lia. cbn [negb Z.eqb]. split; [eapply rep_fr; eauto|]. auto. }
    cbn [negb]. change (negb (0 =? 0)) with false. cbv iota.
    assert (LL : match last_label (clabels c1) with Some l => lsize l < csize c1 | None => True end).
    { unfold c1. cbn [push_units clabels]. destruct (last_label (clabels c)) as [l|] eqn:Q; auto. rewrite push_units_size. pose proof (align_nops_pos cf al A).
      assert (lsize l <= csize c); [|lia]. destruct H as (_ & (A1 & _) & _ & (D1 & _)). rewrite <- A1 in Q.
      destruct L as [|x L] using rev_ind; [discriminate|]. rewrite map_app in Q. cbn [map] in Q. rewrite last_label_snoc in Q. injection Q as Q. apply Forall_app in D1. destruct D1 as (_ & D1). inversion D1 as [|? ? (_ & D2 & _) _]; subst. lia. }
    pose proof (ext_label_rep s1 c1 L J K live (align_mask cf al) E2 ltac:(congruence) (align_mask_64 cf al Ha A) LL) as T.
    destruct (ensure_abuf s1 40) as (q0, s2).
    destruct (if q0 =? 0 then (0, s2) else (q0, set_extended_label s2 q0 LABEL_ALIGNED (align_mask cf al))) as (q, s3).
    destruct T as (T1 & [(T2 & ->)|(T2 & L' & T3 & T4 & T5 & T6)]); [cbn [Z.eqb]; auto|].
    replace (q =? 0) with false by lia. fold c2 in T3. pose proof (buffer_rep cf sizes q s3 _ L' J K live T3 ltac:(congruence) T5 Bd) as X. cbv zeta in X. destruct (buffer_loop cf sizes q s3) as (r, s4).
    destruct X as (X1 & X2). split; auto. destruct X2 as [X2|(X2 & X3 & L2 & X4 & X5)]; auto. right. split; auto. split; [congruence|]. exists L2. split; auto. rewrite X5, T6. apply E1.
Qed.

(** ** Histories *)

(** The calls of the linker model which a call stands for. *)
Definition kcalls (cf : cfg) (k : ccall) : list call :=
  match k with
  | CIns e => [KIns (flat e)]
  | CLabel => [KLabel]
  | CAlign al sizes => aligned_label_calls cf al sizes
  | CJump pre x rewr call => [KIns (flat pre); KJump x rewr call]
  | CIJump pre call a => [KIns (flat pre); KIJump call a]
  | CMov pre reg post => [KIns (flat pre); KMov reg; KIns (flat post)]
  | CConst p e => [KConst p (flat e)]
  | CSetLabel j l => [KSetLabel j l]
  | CSetTarget j a => [KSetTarget j a]
  | CAlloc _ | CFields _ | CMemError => []
  end.
(** What a call needs of its arguments: words, registers, branch words of 16 bit, and labels which exist ([n] of them). *)
Definition ccall_ok (n : nat) (k : ccall) : Prop :=
  match k with
  | CAlign al _ => 0 <= al < 64
  | CJump _ x _ _ => cond_ok (jc_word x)
  | CIJump _ _ a => is64 a
  | CMov _ reg _ => u16 reg = reg
  | CSetLabel _ l => (l < n)%nat
  | CSetTarget _ a => is64 a
  | _ => True
  end.
(** No result is ignored inside the call. *)
Definition ccall_checked (k : ccall) : Prop :=
  match k with
  | CIns e => checked e
  | CJump pre _ _ _ => checked pre
  | CIJump pre _ _ => checked pre
  | CMov pre _ post => checked pre /\ checked post
  | CConst _ e => checked e
  | _ => True
  end.
(** The result which tells the caller about an error. *)
Definition failed (k : ccall) (r : Z) : Prop :=
  match k with
  | CIns _ | CIJump _ _ _ => r <> 0
  | CLabel | CAlign _ _ | CJump _ _ _ _ | CMov _ _ _ | CConst _ _ | CAlloc _ => r = 0
  | _ => True
  end.
Definition fstep (f : fields) (k : ccall) : fields := match k with CFields f => f | _ => f end.
Definition res_ok (k : ccall) (r : Z) (s : cst) : Prop :=
  match k with
  | CIns _ | CIJump _ _ _ => r = 0
  | CLabel => r = last (label_ptrs s) 0 /\ 0 < r
  | CAlign _ _ => 0 < r
  | CJump _ _ _ _ | CMov _ _ _ => r = last (jump_ptrs s) 0 /\ 0 < r
  | CConst _ _ => r = clastc s /\ 0 < r
  | _ => True
  end.
Lemma step_rep cf k s c L J K live : rep s c L J K live -> cerr s = 0 -> ccall_ok (length (clabels c)) k ->
  let c' := fold_left (emit cf) (kcalls cf k) c in
  csize c' < 2 ^ 63 ->
  let (r, s') := ccall_run cf k (jump_ptrs s) (label_ptrs s) s in
  fr s' live /\
  (cerr s' = ERR_ALLOC_FAILED /\ (ccall_checked k -> failed k r) \/
   cerr s' = 0 /\ res_ok k r s' /\ cfld s' = fstep (cfld s) k /\ exists L' J' K', rep s' c' L' J' K' live).
Proof.
  intros H Er Ok c' Bd. unfold c' in *. clear c'.
  destruct k as [e| |al sizes|pre x rewr call|pre call a|pre reg post|p e|j l|j a|n|f|]; cbn [kcalls fold_left emit] in *; cbn [ccall_run res_ok failed ccall_checked fstep ccall_ok] in *.
  - pose proof (ins_rep e s c L J K live H Er Bd) as X. destruct (api_ins e s) as (r, s'). destruct X as (X1 & [X2|(X2 & X3 & X4 & X5)]); (split; [exact X1|]); [left; tauto|right]. repeat split; eauto.
  - pose proof (label_rep s c L J K live H Er) as X. destruct (api_label s) as (r, s'). destruct X as (X1 & [(X2 & X3)|(X2 & L' & X3 & X4 & X5 & X6)]); (split; [exact X1|]); [left; auto|right].
    split; [congruence|]. rewrite (rep_label_ptrs _ _ _ _ _ _ X3). repeat split; eauto.
  - pose proof (align_rep cf al sizes s c L J K live H Er Ok Bd) as X. destruct (api_align cf al sizes s) as (r, s'). destruct X as (X1 & [(X2 & X3)|(X2 & X3 & L' & X4 & X5)]); (split; [exact X1|]); [left; auto|right].
    repeat split; eauto.
  - pose proof (jump_rep pre (jc_word x) rewr call s c L J K live H Er Ok Bd) as X. cbv zeta in X. destruct (api_jump pre (jc_word x) rewr call s) as (r, s'). destruct X as (X1 & [(X2 & X3)|(X2 & L' & X3 & X4 & X5 & X6)]); (split; [exact X1|]); [left; auto|right].
    split; [congruence|]. rewrite (rep_jump_ptrs _ _ _ _ _ _ X3). repeat split; eauto.
  - pose proof (ijump_rep pre call a s c L J K live H Er Ok Bd) as X. cbv zeta in X. destruct (api_ijump pre call a s) as (r, s'). destruct X as (X1 & [(X2 & X3)|(X2 & X3 & L' & X4 & X5)]); (split; [exact X1|]); [left; auto|right].
    repeat split; eauto.
  - pose proof (mov_rep pre reg post s c L J K live H Er Ok Bd) as X. cbv zeta in X. destruct (api_mov pre reg post s) as (r, s'). destruct X as (X1 & [(X2 & X3)|(X2 & L' & X3 & X4 & X5 & X6)]); (split; [exact X1|]); [left; split; [exact X2|tauto]|right].
    split; [congruence|]. rewrite (rep_jump_ptrs _ _ _ _ _ _ X3). repeat split; eauto.
  - pose proof (const_rep p e s c L J K live H Er Bd) as X. cbv zeta in X. destruct (api_const p e s) as (r, s'). destruct X as (X1 & [(X2 & X3)|(X2 & L' & X3 & X4 & X5 & X6)]); (split; [exact X1|]); [left; auto|right].
    split; [congruence|]. split; [|split; eauto]. pose proof X3 as (_ & _ & (_ & _ & _ & _ & _ & B6) & _). rewrite B6. auto.
  - assert (Hl : (l < length L)%nat) by (destruct H as (_ & (A1 & _) & _); rewrite <- A1, map_length in Ok; exact Ok).
    destruct (set_label_rep s c L J K live j l H Hl) as (J' & H'). split; [eapply rep_fr; eauto|]. right.
    unfold api_set_label in *. destruct (negb (nth j (jump_ptrs s) 0 =? 0) && negb (nth l (label_ptrs s) 0 =? 0)); cbn [st set_h cerr cfld]; repeat split; eauto.
  - destruct (set_target_rep s c L J K live j a H Ok) as (J' & H'). split; [eapply rep_fr; eauto|]. right.
    unfold api_set_target in *. destruct (negb (nth j (jump_ptrs s) 0 =? 0)); cbn [st set_h cerr cfld]; repeat split; eauto.
  - pose proof (alloc_rep n s c L J K live H Er) as X. destruct (alloc_memory s n) as (r, s'). destruct X as (X1 & [(X2 & X3)|(X2 & X3 & X4)]); (split; [exact X1|]); [left; auto|right]. repeat split; eauto.
  - unfold guard. rewrite Er. cbn [Z.eqb negb]. assert (R : rep (set_fld s f) c L J K live).
    { destruct H as ((F & G & U & C & X) & H). split; [|exact H]. exists F, G, U. split; auto. }
    split; [eapply rep_fr; eauto|]. right. repeat split; eauto.
  - unfold api_memory_error. rewrite Er. cbn [Z.eqb]. split; [|left; auto]. apply rep_fr in H. destruct H as (F & G & R & P & C & X). exists F, G, R, P. split; auto.
Qed.
(** After an error. *)
Lemma step_err cf k s live : fr s live -> cerr s <> 0 ->
  let (r, s') := ccall_run cf k (jump_ptrs s) (label_ptrs s) s in fr s' live /\ cerr s' = cerr s /\ cfld s' = cfld s.
Proof.
  intros H Er. assert (N : (cerr s =? 0) = false) by lia.
  destruct k as [e| |al sizes|pre x rewr call|pre call a|pre reg post|p e|j l|j a|n|f|]; cbn [ccall_run];
    unfold api_ins, api_label, api_align, api_jump, api_ijump, api_mov, api_const, alloc_memory, guard; rewrite ?N; cbn [negb]; auto.
  - split; [apply fr_set_label; auto|]. unfold api_set_label. destruct (negb (nth j (jump_ptrs s) 0 =? 0) && negb (nth l (label_ptrs s) 0 =? 0)); auto.
  - split; [apply fr_set_target; auto|]. unfold api_set_target. destruct (negb (nth j (jump_ptrs s) 0 =? 0)); auto.
  - unfold api_memory_error. rewrite N. auto.
Qed.
Definition ccalls_ok (cf : cfg) : list ccall -> comp -> Prop :=
  fix go ks c := match ks with [] => True | k :: ks => ccall_ok (length (clabels c)) k /\ go ks (fold_left (emit cf) (kcalls cf k) c) end.
Definition kall (cf : cfg) (ks : list ccall) : list call := flat_map (kcalls cf) ks.
Lemma hist_err cf ks : forall s live, fr s live -> cerr s <> 0 ->
  let (rs, s') := ccalls_run cf ks s in fr s' live /\ cerr s' = cerr s.
Proof.
  induction ks as [|k ks IH]; intros s live H Er; cbn [ccalls_run]; auto.
  pose proof (step_err cf k s live H Er) as X. destruct (ccall_run cf k (jump_ptrs s) (label_ptrs s) s) as (r, s1). destruct X as (X1 & X2 & _).
  specialize (IH s1 live X1 ltac:(congruence)). destruct (ccalls_run cf ks s1) as (rs, s2). destruct IH as (I1 & I2). split; auto. congruence.
Qed.
Lemma hist_rep cf ks : forall s c L J K live, rep s c L J K live -> cerr s = 0 -> ccalls_ok cf ks c ->
  let c' := fold_left (emit cf) (kall cf ks) c in
  csize c' < 2 ^ 63 ->
  let (rs, s') := ccalls_run cf ks s in
  fr s' live /\
  (cerr s' = ERR_ALLOC_FAILED \/ cerr s' = 0 /\ cfld s' = fold_left fstep ks (cfld s) /\ exists L' J' K', rep s' c' L' J' K' live).
Proof.
  induction ks as [|k ks IH]; intros s c L J K live H Er Ok c' Bd.
  - cbn [ccalls_run]. split; [eapply rep_fr; eauto|]. right. repeat split; eauto.
  - unfold c', kall in *. clear c'. cbn [flat_map ccalls_run] in *. rewrite fold_left_app in *. destruct Ok as (O1 & O2). set (c1 := fold_left (emit cf) (kcalls cf k) c) in *.
    pose proof (emits_mono cf (flat_map (kcalls cf) ks) c1) as Mo.
    pose proof (step_rep cf k s c L J K live H Er O1 ltac:(fold c1; lia)) as X. cbv zeta in X. fold c1 in X.
    destruct (ccall_run cf k (jump_ptrs s) (label_ptrs s) s) as (r, s1). destruct X as (X1 & [(X2 & _)|(X2 & _ & X3 & L' & J' & K' & X4)]).
    + pose proof (hist_err cf ks s1 live X1 ltac:(rewrite X2; discriminate)) as Y. destruct (ccalls_run cf ks s1) as (rs, s2). destruct Y as (Y1 & Y2). split; auto. left. congruence.
    + specialize (IH s1 c1 L' J' K' live X4 X2 O2 Bd). cbv zeta in IH. destruct (ccalls_run cf ks s1) as (rs, s2). destruct IH as (I1 & [I2|(I2 & I3 & I4)]); (split; [exact I1|]); auto.
      right. split; auto. split; auto. rewrite I3, X3. reflexivity.
Qed.
