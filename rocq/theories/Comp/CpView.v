(** Creation, what code generation sees, and the release of all blocks. *)
Require Import ZArith List Bool Lia Zify ZifyBool Permutation.
From Verif Require Import Rv.RvLib Rv.RvEnc Rv.RvIsa Rv.RvImm Rv.RvAddr Rv.RvLink Rv.RvLinkOps Rv.RvLinkExec Rv.RvLinkApi Rv.RvLinkReduce
  Comp.CpMem Comp.CpState Comp.CpCore Comp.CpRep Comp.CpCalls Comp.CpHist.
Import ListNotations.
Open Scope Z_scope.
Ltac Zify.zify_post_hook ::= idtac.

(** ** sljit_create_compiler *)

(** The allocator: it returns NULL or blocks which are not in use, of 4096 bytes, apart from each other and not at the end of the address space. *)
Definition heap_ok (h : heap) : Prop :=
  Forall (fun p => p = 0 \/ bok p) (hsched h) /\ NoDup (hlive h ++ nz (hsched h)) /\ disjoint (schedH (hsched h)).
Lemma un_sat m H : Forall (fun p => exists n, snd p = Un n) H -> disjoint H -> sat m H.
Proof. intros F D. split; auto. rewrite Forall_forall in *. intros (a, c) I. specialize (F _ I). destruct F as (n & E). cbn [snd] in E. subst c. exact Logic.I. Qed.
Lemma sched_sat m l : disjoint (schedH l) -> sat m (schedH l).
Proof.
  intros D. apply un_sat; auto. unfold schedH in *. clear D. induction l as [|p l IH]; cbn [flat_map]; [constructor|]. destruct (p =? 0); auto. cbn [app]. constructor; auto. cbn. eauto.
Qed.
Lemma sat_empty m a H : sat m H -> sat m ((a, Kn []) :: H).
Proof.
  intros (F & D). split; [constructor; auto; reflexivity|]. split; auto. apply Forall_forall. intros x _ z (I1 & _). unfold inside in I1. cbn in I1. lia.
Qed.
Definition empty : comp := mkComp [] [] [] [] 0.
Definition fields0 : fields := mkF 0 (-1) (-1) (-1) (-1) (-1) (-1) (-1).
Lemma remove_notin (l : list Z) p : ~ In p l -> remove Z.eq_dec p l = l.
Proof. intros H. induction l as [|x l IH]; [reflexivity|]. cbn [remove]. destruct (Z.eq_dec p x) as [->|N]; [cbn in H; tauto|]. f_equal. apply IH. cbn in H. tauto. Qed.
Lemma remove_head (l : list Z) p : ~ In p l -> remove Z.eq_dec p (p :: l) = l.
Proof. intros H. cbn [remove]. destruct (Z.eq_dec p p); [|congruence]. apply remove_notin; auto. Qed.
Lemma malloc_cases h p h' : malloc h = (p, h') -> heap_ok h ->
  heap_ok h' /\ hm h' = hm h /\ (p = 0 /\ hlive h' = hlive h \/ bok p /\ hlive h' = p :: hlive h /\ ~ In p (hlive h) /\ disjoint ((p, Un 4096) :: schedH (hsched h'))).
Proof.
  unfold malloc. intros E (H1 & H2 & H3). destruct (hsched h) as [|q r] eqn:S.
  - injection E as <- <-. split; [|auto]. repeat split; rewrite ?S; auto.
  - injection E as <- <-. inversion H1 as [|? ? P1 P2]; subst. unfold heap_ok. cbn [hsched hlive hm]. cbn [nz filter schedH flat_map] in H2, H3. destruct (q =? 0) eqn:Q; cbn [negb] in H2.
    + split; [|split; [reflexivity|left; split; [lia|reflexivity]]]. repeat split; auto.
    + pose proof (NoDup_remove_2 _ _ _ H2) as N2. split; [split; [auto|split]|split; [reflexivity|right]].
      * apply nodup_move in H2. exact H2.
      * apply H3.
      * split; [destruct P1; [lia|auto]|]. split; auto. split; [intros I; apply N2; apply in_or_app; auto|]. exact H3.
Qed.
Definition created (h : heap) (s : cst) : Prop := rep s empty [] [] [] (hlive h) /\ cerr s = 0 /\ cfld s = fields0.
Lemma create_core h : heap_ok h -> let (o, h') := create_compiler h in
  match o with
  | Some s => h' = ch s /\ (exists b a, core s [(b, [])] [(a, 0)] (hlive h) []) /\
      (clab s, clastl s, cjmp s, clastj s, ccon s, clastc s, ccount s, csz s, cerr s, cfld s) = (0, 0, 0, 0, 0, 0, 0, 0, 0, fields0)
  | None => hlive h' = hlive h
  end.
Proof.
  intros H. unfold create_compiler. destruct (malloc h) as (self, h1) eqn:M1. destruct (malloc_cases _ _ _ M1 H) as (K1 & W1 & C1).
  destruct (self =? 0) eqn:Z1. { destruct C1 as [(_ & C1)|(C1 & _)]; auto. unfold bok in C1. lia. }
  destruct C1 as [(C1 & _)|(C1 & L1 & N1 & _)]; [lia|].
  destruct (malloc h1) as (b, h2) eqn:M2. destruct (malloc_cases _ _ _ M2 K1) as (K2 & W2 & C2).
  destruct (malloc h2) as (a, h3) eqn:M3. destruct (malloc_cases _ _ _ M3 K2) as (K3 & W3 & C3).
  destruct ((b =? 0) || (a =? 0)) eqn:Z2.
  - destruct (b =? 0) eqn:Zb.
    + destruct C2 as [(_ & C2)|(C2 & _)]; [|unfold bok in C2; lia]. destruct (a =? 0) eqn:Za.
      * destruct C3 as [(_ & C3)|(C3 & _)]; [|unfold bok in C3; lia]. cbn [free hlive]. rewrite C3, C2, L1. apply remove_head; auto.
      * destruct C3 as [(C3 & _)|(C3 & C4 & C5 & _)]; [lia|]. cbn [free hlive]. rewrite C4. rewrite remove_head by exact C5. rewrite C2, L1. apply remove_head; auto.
    + destruct C2 as [(C2 & _)|(C2 & C4 & C5 & _)]; [lia|]. destruct (a =? 0) eqn:Za; [|discriminate].
      destruct C3 as [(_ & C3)|(C3 & _)]; [|unfold bok in C3; lia]. cbn [free hlive]. rewrite C3, C4. rewrite remove_head by exact C5. rewrite L1. apply remove_head; auto.
  - destruct C2 as [(C2 & _)|(C2 & Lb & Nb & _)]; [lia|]. destruct C3 as [(C3 & _)|(C3 & La & Na & _)]; [lia|].
    split; [reflexivity|]. split; [|reflexivity].
    + exists b, a. unfold core. cbn [ch cbufp cabufp cself hst hm hsched hlive hdp map fst]. destruct K3 as (H1 & H2 & H3).
      split; [|split; [split; [reflexivity|split; [discriminate|]]|split; [split; [reflexivity|split; [discriminate|]]|]]].
      * assert (D : disjoint ((a, Un 4096) :: (b, Un 4096) :: schedH (hsched h3))).
        { unfold malloc in M3, M2, M1. destruct H as (X1 & X2 & X3). destruct (hsched h) as [|p0 r0] eqn:S0; [injection M1 as <- <-; lia|]. injection M1 as <- <-. cbn [hsched] in *.
          destruct r0 as [|p1 r1]; [injection M2 as <- <-; lia|]. injection M2 as <- <-. cbn [hsched] in *. destruct r1 as [|p2 r2]; [injection M3 as <- <-; lia|]. injection M3 as <- <-. cbn [hsched].
          cbn [schedH flat_map] in X3. destruct (p0 =? 0); [lia|]. destruct (p1 =? 0); [lia|]. destruct (p2 =? 0); [lia|]. cbn [app] in X3. fold (schedH r2) in X3.
          eapply disjoint_perm; [apply perm_swap|exact (proj2 X3)]. }
        assert (S : sat (hm h3) ((a, Un (8 + (8 + 4080))) :: (b, Un (8 + (8 + 4080))) :: schedH (hsched h3))).
        { apply un_sat; auto. constructor; [cbn; eauto|]. constructor; [cbn; eauto|]. apply Forall_forall. intros x I. unfold schedH in I. apply in_flat_map in I. destruct I as (y & _ & I). destruct (y =? 0); [destruct I|]. destruct I as [<-|[]]. cbn. eauto. }
        apply sat_unk in S; try lia. front S (a + 8, Un (8 + 4080)). apply sat_unk in S; try lia. front S (b, Un (8 + (8 + 4080))). apply sat_unk in S; try lia. front S (b + 8, Un (8 + 4080)). apply sat_unk in S; try lia.
        front S (b, Un 8). apply (sat_stw _ _ _ 0) in S; [|reflexivity]. front S (b + 8, Un 8). apply (sat_stw _ _ _ 0) in S; [|reflexivity].
        front S (a, Un 8). apply (sat_stw _ _ _ 0) in S; [|reflexivity]. front S (a + 8, Un 8). apply (sat_stw _ _ _ 0) in S; [|reflexivity].
        cbn [bufH abufH hdp chainH app]. change (zlen (@nil Z)) with 0. cbn [Z.sub Z.opp Pos.add Z.add]. replace (b + 16 + 0) with (b + 8 + 8) by lia. replace (a + 16 + 0) with (a + 8 + 8) by lia.
        apply (sat_empty _ (b + 16)) in S. rewrite app_nil_r. sp S.
      * constructor; [|constructor]. split; [exact C2|]. cbn. lia.
      * constructor; [|constructor]. split; [exact C3|]. cbn. lia.
      * split; [exact H1|]. split; [|exact H2]. rewrite La, Lb, L1. cbn [app]. eapply perm_trans; [apply perm_swap|]. eapply perm_trans; [apply perm_skip, perm_swap|]. eapply perm_trans; [apply perm_swap|]. reflexivity.
Qed.
Lemma create_ok h : heap_ok h -> let (o, h') := create_compiler h in
  match o with Some s => created h s /\ h' = ch s | None => hlive h' = hlive h end.
Proof.
  intros H. pose proof (create_core h H) as X. destruct (create_compiler h) as (o, h'). destruct o as [s|]; [|exact X]. destruct X as (X1 & (b & a & X2) & X3). split; [|exact X1].
  injection X3 as E1 E2 E3 E4 E5 E6 E7 E8 E9 E10. split; [|split; assumption]. split; [|split; [|split]].
  - exists [(b, [])], [(a, 0)], []. split; [exact X2|]. exists [[]]. split; reflexivity.
  - repeat split; assumption.
  - repeat split; assumption.
  - cbn. repeat split; auto; try lia; constructor.
Qed.

(** ** reverse_buf *)
Definition bufB (_ b : Z) (l : list Z) : list (Z * cell) := [(b + 8, W (zlen l)); (b + 16, Kn l); (b + 16 + zlen l, Un (4080 - zlen l))].
Lemma bufH_chain F : forall n, bufH F = chainH bufB n F 0.
Proof. induction F as [|(b, l) F IH]; intros n; [reflexivity|]. cbn [bufH chainH bufB app]. rewrite hdn_hdp, <- (IH (n + 1)). reflexivity. Qed.
Lemma fok_ptr F : Forall fok F -> Forall (fun x => 0 < fst x < 2 ^ 64) F.
Proof. apply Forall_mono. intros x (H & _). unfold bok in H. lia. Qed.
Lemma rev_ok F1 : forall F2 fuel m R, sat m (bufH F1 ++ bufH F2 ++ R) -> F1 <> [] -> Forall fok F1 -> (length F1 <= fuel)%nat ->
  let (m', p) := reverse_loop fuel m (hdp F1) (hdp F2) in sat m' (bufH (rev F1 ++ F2) ++ R) /\ p = hdp (rev F1 ++ F2).
Proof.
  induction F1 as [|(b, l) F1 IH]; intros F2 fuel m R S N P Lf; [congruence|]. destruct fuel as [|fuel]; [cbn [length] in Lf; lia|]. cbn [hdp reverse_loop].
  inversion P as [|? ? P1 P2]; subst. pose proof (fok_ptr _ P2) as P3.
  assert (T : ldw m b = hdp F1).
  { eapply sat_ldw; [exact S|left; reflexivity|]. apply hdp_ok in P2. unfold is64. exact P2. }
  rewrite T. cbn [bufH app] in S. apply (sat_stw _ _ _ (hdp F2)) in S; [|reflexivity].
  assert (S1 : sat (stw m b (hdp F2)) (bufH F1 ++ bufH ((b, l) :: F2) ++ R)). { cbn [bufH]. sp S. }
  destruct F1 as [|f F1].
  - cbn [hdp Z.eqb rev app]. split; [exact S1|reflexivity].
  - assert (Z0 : hdp (f :: F1) =? 0 = false). { destruct f as (x, y). cbn [hdp]. inversion P3 as [|? ? P4 _]; subst. cbn [fst] in P4. lia. }
    rewrite Z0. cbn [rev] in *. change b with (hdp ((b, l) :: F2)) at 2. cbn [length] in Lf. specialize (IH ((b, l) :: F2) fuel (stw m b (hdp F2)) R S1 ltac:(discriminate) P2 ltac:(cbn [length]; lia)).
    destruct (reverse_loop fuel (stw m b (hdp F2)) (hdp (f :: F1)) (hdp ((b, l) :: F2))) as (m', p). rewrite <- (app_assoc (rev F1 ++ [f])) . cbn [app]. exact IH.
Qed.
Lemma live_len s F G live R : core s F G live R -> (length F <= length (hlive (ch s)))%nat /\ (length G <= length (hlive (ch s)))%nat.
Proof. intros (_ & _ & _ & _ & P & _). apply Permutation_length in P. rewrite P. cbn [length]. rewrite !app_length, !map_length. lia. Qed.
Lemma reverse_core s F G live R : core s F G live R -> core (reverse_buf s) (rev F) G live R.
Proof.
  intros C. pose proof (live_len _ _ _ _ _ C) as (Lf & _). destruct C as (S & (B1 & B2 & B3) & B4 & B5 & B6 & B7). unfold reverse_buf. rewrite B1.
  pose proof (rev_ok F [] (length (hlive (ch s))) (hm (ch s)) (abufH G ++ schedH (hsched (ch s)) ++ R) ltac:(cbn [bufH app]; exact S) B2 B3 Lf) as X. cbn [hdp] in X.
  destruct (reverse_loop (length (hlive (ch s))) (hm (ch s)) (hdp F) 0) as (m, p). rewrite app_nil_r in X. destruct X as (X1 & X2).
  unfold core. cbn [set_buf set_h ch cself cbufp cabufp hm hsched hlive]. split; [exact X1|]. split; [split; [exact X2|split]|].
  - intros E. apply B2. rewrite <- (rev_involutive F), E. reflexivity.
  - apply Forall_rev. exact B3.
  - split; [exact B4|]. split; [exact B5|]. split; [|exact B7]. rewrite B6. apply perm_skip. apply Permutation_app_tail. rewrite map_rev. apply Permutation_rev.
Qed.

(** ** The view *)
Definition is16 (x : Z) : Prop := 0 <= x < 65536.
Lemma view_units_ok u : forall m a, get m a (length (ubytes u)) = ubytes u -> Forall is16 u -> view_units (length u) m a = u.
Proof.
  induction u as [|x u IH]; intros m a E P; [reflexivity|]. inversion P as [|? ? P1 P2]; subst. cbn [length view_units].
  change (ubytes (x :: u)) with (enc 2 x ++ ubytes u) in E. rewrite app_length, enc_len in E. rewrite get_app in E.
  assert (E1 : get m a 2 = enc 2 x /\ get m (a + Z.of_nat 2) (length (ubytes u)) = ubytes u).
  { assert (LL : length (get m a 2) = length (enc 2 x)) by (rewrite get_len, enc_len; reflexivity). 
    split; [apply (f_equal (firstn 2)) in E|apply (f_equal (skipn 2)) in E].
    - rewrite !firstn_app, !get_len, !enc_len in E. cbn [Nat.sub] in E. rewrite !firstn_O, !app_nil_r in E. rewrite !firstn_all2 in E by (rewrite ?get_len, ?enc_len; lia). exact E.
    - rewrite !skipn_app, !get_len, !enc_len in E. cbn [Nat.sub] in E. rewrite !skipn_O in E. rewrite !skipn_all2 in E by (rewrite ?get_len, ?enc_len; lia). exact E. }
  destruct E1 as (E1 & E2). rewrite E1, dec_enc. change (256 ^ Z.of_nat 2) with 65536. unfold is16 in P1. rewrite Z.mod_small by lia. f_equal. apply IH; auto.
Qed.
Lemma view_frag_ok m b u H : sat m H -> In (b + 8, W (zlen (ubytes u))) H -> In (b + 16, Kn (ubytes u)) H -> zlen (ubytes u) <= 4080 -> Forall is16 u -> view_frag m b = u.
Proof.
  intros S I1 I2 B P. unfold view_frag. rewrite (sat_ldw _ _ _ _ S I1) by (unfold is64; pose proof (zlen_pos (ubytes u)); lia). rewrite ubytes_len.
  rewrite Z.shiftr_div_pow2 by lia. change (2 ^ 1) with 2. replace (2 * zlen u / 2) with (zlen u) by (rewrite Z.mul_comm, Z.div_mul; lia). unfold zlen. rewrite Nat2Z.id. apply view_units_ok; auto.
  apply (sat_in _ _ _ S) in I2. exact I2.
Qed.
Lemma bufH_in F b l : In (b, l) F -> In (b + 8, W (zlen l)) (bufH F) /\ In (b + 16, Kn l) (bufH F).
Proof.
  induction F as [|(b', l') F IH]; intros I; [destruct I|]. cbn [bufH]. destruct I as [E|I]; [injection E as -> ->; cbn; auto|]. destruct (IH I). cbn [In]. auto 8.
Qed.
Lemma view_frags m F Us R : sat m (bufH F ++ R) -> Forall fok F -> map snd F = map ubytes Us -> Forall (Forall is16) Us -> flat_map (view_frag m) (map fst F) = concat Us.
Proof.
  intros S P E Q. assert (X : forall f, In f F -> In (fst f + 8, W (zlen (snd f))) (bufH F ++ R) /\ In (fst f + 16, Kn (snd f)) (bufH F ++ R)).
  { intros (b, l) I. destruct (bufH_in _ _ _ I). split; apply in_or_app; auto. }
  set (H := bufH F ++ R) in *. clearbody H. revert Us E Q. induction F as [|f F IH]; intros Us E Q; destruct Us as [|u Us]; cbn [map] in E; try discriminate; [reflexivity|].
  injection E as E1 E2. inversion P as [|? ? (P0 & P1) P2]; subst. inversion Q as [|? ? Q1 Q2]; subst. cbn [map flat_map concat]. f_equal.
  - destruct (X f (or_introl eq_refl)) as (X1 & X2). rewrite E1 in *. eapply view_frag_ok; eauto.
  - apply IH; auto. intros g I. apply X. right. exact I.
Qed.
Lemma chain_in {A} (body : Z -> Z -> A -> list (Z * cell)) L : forall n q, In q (map fst L) -> exists v, In (q, W v) (chainH body n L 0).
Proof.
  induction L as [|(x, a) L IH]; intros n q I; [destruct I|]. cbn [map fst] in I. cbn [chainH]. destruct I as [<-|I]; [eexists; left; reflexivity|]. destruct (IH (n + 1) q I) as (v & V). exists v. right. apply in_or_app. auto.
Qed.
Lemma chain_nodup {A} (body : Z -> Z -> A -> list (Z * cell)) L : forall n R, disjoint (chainH body n L 0 ++ R) -> NoDup (map fst L).
Proof.
  induction L as [|(q, a) L IH]; intros n R D; cbn [map]; constructor.
  - cbn [fst]. intros I. destruct (chain_in body L (n + 1) q I) as (v & V). cbn [chainH app disjoint] in D. destruct D as (D & _). rewrite Forall_forall in D.
    assert (In (q, W v) ((body n q a ++ chainH body (n + 1) L 0) ++ R)) as V2 by (apply in_or_app; left; apply in_or_app; auto). specialize (D _ V2 q). apply D. unfold inside. cbn. lia.
  - cbn [chainH app disjoint] in D. destruct D as (_ & D). apply (IH (n + 1) (body n q a ++ R)). eapply disjoint_perm; [|exact D]. psolve.
Qed.
Lemma index_of_ok l : forall k u, NoDup l -> nth_error l k = Some u -> index_of u l = k.
Proof.
  induction l as [|x l IH]; intros [|k] u N E; cbn [nth_error] in E; try discriminate; cbn [index_of].
  - injection E as ->. rewrite Z.eqb_refl. reflexivity.
  - inversion N as [|? ? N1 N2]; subst. destruct (Z.eqb_spec x u) as [->|X]; [|f_equal; auto]. exfalso. apply N1. eapply nth_error_In; eauto.
Qed.
Lemma view_labels m L : forall n R sz, sat m (chainH labB n L 0 ++ R) -> Forall (lok sz) L -> sz < 2 ^ 63 -> 0 <= n -> n + zlen L < 2 ^ 64 - 2 -> map (view_label m) (map fst L) = map snd L.
Proof.
  induction L as [|(q, l) L IH]; intros n R sz S P Sz N1 N2; [reflexivity|]. inversion P as [|? ? (P1 & P2 & P3 & P4) P5]; subst. cbn [map fst snd] in *.
  change (zlen ((q, l) :: L)) with (Z.of_nat (Datatypes.S (length L))) in N2. rewrite Nat2Z.inj_succ in N2. fold (zlen L) in N2. pose proof (zlen_pos L). f_equal.
  - unfold view_label. destruct l as (sz0, mk, ad). unfold labB in S. cbn [chainH lsize lmask laddr] in *. subst ad. destruct mk as [d|].
    + rewrite (sat_ldw m _ (q + 16) sz0 S) by (cbn; auto || (unfold is64; lia)).
      rewrite (sat_ldw m _ (q + 8) LABEL_ALIGNED S) by (cbn; auto || (unfold is64, LABEL_ALIGNED; lia)).
      rewrite (sat_ldw m _ (q + 32) d S) by (cbn; auto 8 || exact P3). unfold LABEL_ALIGNED. rewrite Z.geb_leb, Z.leb_refl. reflexivity.
    + rewrite (sat_ldw m _ (q + 16) sz0 S) by (cbn; auto || (unfold is64; lia)).
      rewrite (sat_ldw m _ (q + 8) n S) by (cbn; auto || (unfold is64; lia)).
      replace (n >=? LABEL_ALIGNED) with false by (unfold LABEL_ALIGNED; lia). reflexivity.
  - apply (IH (n + 1) (R) sz); auto; try lia. cbn [chainH] in S. rewrite <- app_comm_cons, <- app_assoc in S. apply sat_drop in S. apply sat_app in S. apply S.
Qed.
Lemma flag_bits j : Z.testbit (jflags j) 0 = jisaddr j /\ Z.testbit (jflags j) 1 = jmov j /\ Z.testbit (jflags j) 2 = jcond j /\ Z.testbit (jflags j) 3 = jcall j /\ Z.testbit (jflags j) 4 = jcond16 j /\ Z.testbit (jflags j) 16 = jrewr j.
Proof. unfold jflags. destruct (jisaddr j), (jmov j), (jcond j), (jcall j), (jcond16 j), (jrewr j); repeat split. Qed.
Lemma view_jumps m LP J : forall n R sz, sat m (chainH jmpB n J 0 ++ R) -> Forall (jok LP sz) J -> sz < 2 ^ 63 -> NoDup LP -> Forall (fun q => 0 < q < 2 ^ 64) LP ->
  map (view_jump m LP) (map fst J) = map (fun x => fst (snd x)) J.
Proof.
  induction J as [|(q, (j, u)) J IH]; intros n R sz S P Sz N F; [reflexivity|]. inversion P as [|? ? (P1 & P2 & (P3 & P4) & P5) P6]; subst. cbn [map fst snd] in *. f_equal.
  - unfold view_jump. cbn [chainH jmpB fst snd] in S. destruct (flag_bits j) as (F0 & F1 & F2 & F3 & F4 & F5).
    assert (Bu : is64 u). { unfold jval_ok in P5. destruct (jisaddr j); [tauto|]. destruct P5 as (_ & [(-> & _)|P5]); [unfold is64; lia|]. apply nth_error_In in P5. rewrite Forall_forall in F. apply F in P5. unfold is64. lia. }
    rewrite (sat_ldw m _ (q + 8) (jaddr j) S) by (cbn; auto || (unfold is64; lia)).
    rewrite (sat_ldw m _ (q + 16) (jflags j) S) by (cbn; auto || apply jflags_64).
    rewrite (sat_ldw m _ (q + 24) u S) by (cbn; auto 8 || exact Bu).
    rewrite F0, F1, F2, F3, F4, F5. unfold jval_ok in P5. destruct j as (j1, j2, j3, j4, j5, j6, j7, j8, j9, j10, j11). cbn [jisaddr jaddr jrewr jcall jcond jcond16 jmov jsz jpatch jtarget jlabel] in *. subst j8 j9.
    destruct j3.
    + destruct P5 as (-> & -> & _). reflexivity.
    + destruct P5 as (-> & [(-> & ->)|P5]); [reflexivity|]. assert (0 < u) by (pose proof (nth_error_In _ _ P5) as I; rewrite Forall_forall in F; apply F in I; lia).
      replace (u =? 0) with false by lia. rewrite (index_of_ok _ _ _ N P5). reflexivity.
  - apply (IH (n + 1) R sz); auto; try lia. cbn [chainH] in S. rewrite <- app_comm_cons, <- app_assoc in S. apply sat_drop in S. apply sat_app in S. apply S.
Qed.
Lemma view_consts m K : forall n R sz, sat m (chainH conB n K 0 ++ R) -> Forall (kok sz) K -> sz < 2 ^ 63 -> map (fun q => ldw m (q + 8)) (map fst K) = map snd K.
Proof.
  induction K as [|(q, a) K IH]; intros n R sz S P Sz; [reflexivity|]. inversion P as [|? ? (P1 & P2) P3]; subst. cbn [map fst snd] in *. f_equal.
  - cbn [chainH conB] in S. apply (sat_ldw m _ _ _ S); [cbn; auto|unfold is64; lia].
  - apply (IH (n + 1) R sz); auto. cbn [chainH] in S. rewrite <- app_comm_cons, <- app_assoc in S. apply sat_drop in S. apply sat_app in S. apply S.
Qed.
Lemma concat_is16 (Us : list (list Z)) : Forall is16 (concat Us) -> Forall (Forall is16) Us.
Proof. induction Us as [|u Us IH]; intros H; constructor; cbn [concat] in H; apply Forall_app in H; tauto. Qed.
Lemma view_rep s c L J K live : rep s c L J K live -> Forall is16 (cbuf c) -> view s = c.
Proof.
  intros H Q. rep_fields H. pose proof (reverse_core _ _ _ _ _ HC) as C. unfold view.
  assert (FE : (clab (reverse_buf s), cjmp (reverse_buf s), ccon (reverse_buf s), ccount (reverse_buf s), csz (reverse_buf s), hlive (ch (reverse_buf s))) = (clab s, cjmp s, ccon s, ccount s, csz s, hlive (ch s))).
  { unfold reverse_buf. destruct (reverse_loop (length (hlive (ch s))) (hm (ch s)) (cbufp s) 0). reflexivity. }
  injection FE as F1 F2 F3 F4 F5 F6. rewrite F1, F2, F3, F4, F5, F6. pose proof (core_sat _ _ _ _ _ C) as S. pose proof (live_len _ _ _ _ _ HC) as (Ln & _).
  set (m := hm (ch (reverse_buf s))) in *.
  assert (SB : sat m (bufH (rev F) ++ abufH G ++ schedH (hsched (ch (reverse_buf s))) ++ chainH labB 0 L 0 ++ chainH jmpB 0 J 0 ++ chainH conB 0 K 0 ++ U)) by apply C.
  destruct C as (_ & (E1 & _ & E3) & _). rewrite E1, B1, B3, B5, A4, A5.
  assert (SJ : sat m (chainH jmpB 0 J 0 ++ chainH labB 0 L 0 ++ chainH conB 0 K 0 ++ U)) by sp S.
  assert (SK : sat m (chainH conB 0 K 0 ++ chainH labB 0 L 0 ++ chainH jmpB 0 J 0 ++ U)) by sp S.
  assert (PL : Forall (fun x => 0 < fst x < 2 ^ 64) L) by (eapply Forall_mono; [|exact D1]; intros x (Hx & _); exact Hx).
  rewrite (chain_ptrs_gen labB L 0 _ m _ S PL). rewrite (firstn_all' (zlen L)) by (unfold zlen; rewrite map_length; lia).
  rewrite (chain_ptrs_gen jmpB J 0 _ m _ SJ) by (eapply Forall_mono; [|exact D2]; intros x (Hx & _); exact Hx). rewrite (firstn_all' (csize c)) by (unfold zlen in *; rewrite map_length; lia).
  rewrite (chain_ptrs_gen conB K 0 _ m _ SK) by (eapply Forall_mono; [|exact D3]; intros x (Hx & _); exact Hx). rewrite (firstn_all' (csize c)) by (unfold zlen in *; rewrite map_length; lia).
  rewrite (chain_ptrs_gen bufB (rev F) 0 _ m (abufH G ++ schedH (hsched (ch (reverse_buf s))) ++ chainH labB 0 L 0 ++ chainH jmpB 0 J 0 ++ chainH conB 0 K 0 ++ U)); [|rewrite <- bufH_chain; exact SB|apply fok_ptr; exact E3].
  rewrite firstn_all2 by (rewrite map_length, rev_length; lia).
  destruct HU as (Us & U1 & U2). assert (EM : map snd (rev F) = map ubytes (rev Us)) by (rewrite !map_rev; congruence).
  rewrite (view_frags m (rev F) (rev Us) _ SB E3 EM) by (apply concat_is16; rewrite <- U2; exact Q).
  assert (LB : zlen L < 2 ^ 63 + 1).
  { destruct (last_label (clabels c)) as [l|] eqn:EL; [|lia]. assert (lsize l <= csize c); [|lia]. rewrite <- A1 in EL.
    destruct L as [|x L] using rev_ind; [discriminate|]. rewrite map_app in EL. cbn [map] in EL. rewrite last_label_snoc in EL. injection EL as EL. apply Forall_app in D1. destruct D1 as (_ & D1). inversion D1 as [|? ? (_ & X2 & _) _]; subst. lia. }
  rewrite (view_labels m L 0 _ (csize c) S D1) by lia. rewrite (view_consts m K 0 _ (csize c) SK D3) by lia.
  rewrite (view_jumps m (map fst L) J 0 _ (csize c) SJ D2); [|lia|eapply chain_nodup; apply S|].
  - rewrite A1, A2, A3, <- U2. destruct c; reflexivity.
  - apply Forall_forall. intros q I. apply in_map_iff in I. destruct I as (x & <- & I). rewrite Forall_forall in PL. apply PL; auto.
Qed.

(** ** sljit_free_compiler *)
Lemma free_chain_ok {A} (body : Z -> Z -> A -> list (Z * cell)) L : forall n fuel h R, sat (hm h) (chainH body n L 0 ++ R) -> Forall (fun x => 0 < fst x < 2 ^ 64) L -> (length L <= fuel)%nat ->
  forall l, Permutation (hlive h) (map fst L ++ l) -> NoDup (hlive h) ->
  Permutation (hlive (free_chain fuel h (hdp L))) l /\ hm (free_chain fuel h (hdp L)) = hm h.
Proof.
  induction L as [|(q, a) L IH]; intros n fuel h R S P Lf l Pm Nd.
  - cbn [hdp map app] in *. destruct fuel; cbn [free_chain Z.eqb]; auto.
  - destruct fuel as [|fuel]; [cbn [length] in Lf; lia|]. inversion P as [|? ? P1 P2]; subst. cbn [hdp free_chain fst map app] in *. replace (q =? 0) with false by lia.
    assert (T : ldw (hm h) q = hdp L).
    { rewrite <- hdn_hdp. eapply sat_ldw; [exact S|left; reflexivity|]. rewrite hdn_hdp. unfold is64. destruct L as [|(x, b) L]; cbn [hdp]; [lia|]. inversion P2 as [|? ? P3 _]; subst. cbn [fst] in P3. lia. }
    rewrite T. destruct (IH (n + 1) fuel (free h q) R) with (l := l) as (I1 & I2); auto.
    + cbn [chainH] in S. rewrite <- app_comm_cons, <- app_assoc in S. apply sat_drop in S. apply sat_app in S. apply S.
    + cbn [length] in Lf. lia.
    + cbn [free hlive]. pose proof (Permutation_NoDup Pm Nd) as Nd2. inversion Nd2; subst. apply perm_trans with (remove Z.eq_dec q (q :: map fst L ++ l)); [|rewrite remove_head; auto].
      clear - Pm. induction Pm; cbn [remove]; auto; repeat match goal with |- context[Z.eq_dec ?a ?b] => destruct (Z.eq_dec a b) end; auto using perm_swap. eapply perm_trans; eauto.
    + cbn [free hlive]. clear - Nd. induction (hlive h) as [|x l IH]; [constructor|]. inversion Nd; subst. cbn [remove]. destruct (Z.eq_dec q x); auto. constructor; auto. intros I. apply in_remove in I. tauto.
Qed.
Lemma perm_remove (q : Z) l l' : Permutation l l' -> Permutation (remove Z.eq_dec q l) (remove Z.eq_dec q l').
Proof. intros Pm. induction Pm; cbn [remove]; auto; repeat match goal with |- context[Z.eq_dec ?a ?b] => destruct (Z.eq_dec a b) end; auto using perm_swap. eapply perm_trans; eauto. Qed.
Definition abufB (_ b : Z) (u : Z) : list (Z * cell) := [(b + 8, W u); (b + 16 + u, Un (4080 - u))].
Lemma abufH_chain G : forall n, abufH G = chainH abufB n G 0.
Proof. induction G as [|(b, l) G IH]; intros n; [reflexivity|]. cbn [abufH chainH abufB app]. rewrite hdn_hdp, <- (IH (n + 1)). reflexivity. Qed.
Lemma free_ok s live : cored s live -> Permutation (hlive (free_compiler s)) live.
Proof.
  intros (F & G & R & C). pose proof (live_len _ _ _ _ _ C) as (Lf & Lg). destruct C as (S & (B1 & B2 & B3) & (C1 & C2 & C3) & B5 & B6 & B7).
  assert (Nd : NoDup (hlive (ch s))). { clear - B7. induction (hlive (ch s)) as [|x l IH]; [constructor|]. cbn [app] in B7. inversion B7; subst. constructor; auto. intros I. apply H1. apply in_or_app. auto. }
  assert (Pg : Forall (fun x => 0 < fst x < 2 ^ 64) G). { eapply Forall_mono; [|exact C3]. intros x (Hx & _). unfold bok in Hx. lia. }
  unfold free_compiler. rewrite B1, C1.
  destruct (free_chain_ok bufB F 0 (length (hlive (ch s))) (ch s) (abufH G ++ schedH (hsched (ch s)) ++ R)) with (l := cself s :: map fst G ++ live) as (X1 & X2); auto.
  { rewrite <- bufH_chain. exact S. } { apply fok_ptr; auto. } { rewrite B6. apply Permutation_middle. }
  set (h1 := free_chain (length (hlive (ch s))) (ch s) (hdp F)) in *. pose proof (Permutation_NoDup B6 Nd) as Nd0.
  assert (Nd1 : NoDup (cself s :: map fst G ++ live)).
  { inversion Nd0; subst. constructor; [intros I; apply H1; apply in_or_app; auto|]. clear - H2. induction (map fst F) as [|x l IH]; auto. cbn [app] in H2. inversion H2; auto. }
  destruct (free_chain_ok abufB G 0 (length (hlive (ch s))) h1 (bufH F ++ schedH (hsched (ch s)) ++ R)) with (l := cself s :: live) as (Y1 & Y2); auto.
  { rewrite X2. rewrite <- abufH_chain. sp S. } { rewrite X1. apply Permutation_middle. } { eapply Permutation_NoDup; [symmetry; exact X1|exact Nd1]. }
  cbn [free hlive]. rewrite (perm_remove (cself s) _ _ Y1). rewrite remove_head; auto. inversion Nd1; subst. intros I. apply H1. apply in_or_app. auto.
Qed.
