(** sljit_serialize_compiler writes the bytes of the image of the compiler. *)
Require Import ZArith List Bool Lia Zify ZifyBool Permutation.
From Verif Require Import Rv.RvLib Rv.RvEnc Rv.RvIsa Rv.RvImm Rv.RvAddr Rv.RvLink Rv.RvLinkOps Rv.RvLinkExec Rv.RvLinkApi Comp.CpMem Comp.CpState Comp.CpCore Comp.CpRep Comp.CpCalls Comp.CpHist Comp.CpView
  Comp.CpSer Comp.CpSerImg Comp.CpSerParse.
Import ListNotations.
Open Scope Z_scope.
Ltac Zify.zify_post_hook ::= idtac.

(** ** Writing a list of items *)
Definition advs (l : list (list Z * Z)) : Z := fold_right Z.add 0 (map snd l).
Definition item_o (x : list Z * Z) : list (option Z) := map Some (fst x) ++ repeat None (Z.to_nat (snd x - zlen (fst x))).
Definition item_ok (x : list Z * Z) : Prop := zlen (fst x) <= snd x.
Lemma advs_cons x l : advs (x :: l) = snd x + advs l. Proof. reflexivity. Qed.
Lemma advs_app a c : advs (a ++ c) = advs a + advs c.
Proof. induction a as [|x a IH]; [reflexivity|]. cbn [app]. rewrite !advs_cons, IH. lia. Qed.
Lemma advs_pos l : Forall item_ok l -> 0 <= advs l.
Proof. induction 1 as [|x l A B IH]; [cbn; lia|]. rewrite advs_cons. unfold item_ok in A. pose proof (zlen_pos (fst x)). lia. Qed.
Lemma put_ok l : forall pre n, Forall item_ok l -> Z.of_nat n = advs l -> put_items l (pre ++ repeat None n) (zlen pre) = Some (pre ++ flat_map item_o l).
Proof.
  induction l as [|(x, adv) l IH]; intros pre n F N.
  - change (advs []) with 0 in N. assert (n = O) as -> by lia. reflexivity.
  - apply Forall_cons_iff in F. destruct F as (F1 & F2). unfold item_ok in F1. cbn [fst snd] in F1. rewrite advs_cons in N. cbn [snd] in N. pose proof (advs_pos l F2) as P. pose proof (zlen_pos x) as Px. pose proof (zlen_pos pre) as Pp.
    cbn [put_items flat_map]. unfold wrb. replace (0 <=? zlen pre) with true by lia. rewrite app_length, repeat_length. replace (zlen pre + Z.of_nat (length x) <=? Z.of_nat (length pre + n)) with true by (unfold zlen in *; lia). cbn [andb].
    unfold zlen at 1 2. rewrite Nat2Z.id. rewrite firstn_app, firstn_all, Nat.sub_diag. cbn [firstn]. rewrite app_nil_r.
    rewrite skipn_app, skipn_all2 by lia. cbn [app]. replace (length pre + length x - length pre)%nat with (length x) by lia.
    set (k := Z.to_nat (adv - zlen x)). assert (Nk : n = (length x + (k + Z.to_nat (advs l)))%nat) by (unfold k, zlen in *; lia).
    rewrite Nk, repeat_app, skipn_app, skipn_all2, repeat_length, Nat.sub_diag by (rewrite repeat_length; lia). cbn [skipn app]. rewrite repeat_app.
    specialize (IH (pre ++ item_o (x, adv)) (Z.to_nat (advs l)) F2 ltac:(lia)). unfold item_o in IH at 1 2. cbn [fst snd] in IH. fold k in IH.
    rewrite zlen_app in IH. replace (zlen (map Some x ++ repeat None k)) with adv in IH by (unfold zlen; rewrite app_length, map_length, repeat_length; unfold k, zlen in *; lia).
    rewrite <- !app_assoc in IH. rewrite IH. unfold item_o at 1 3. cbn [fst snd]. fold k. rewrite <- ?app_assoc. reflexivity.
Qed.
(** The bytes for some contents of the gaps. *)
Inductive ib : list (list Z * Z) -> list Z -> Prop :=
| ib_nil : ib [] []
| ib_cons x adv pd l r : zlen pd = adv - zlen x -> ib l r -> ib ((x, adv) :: l) (x ++ pd ++ r).
Lemma ib_inv x adv l r : ib ((x, adv) :: l) r -> exists pd r', r = x ++ pd ++ r' /\ zlen pd = adv - zlen x /\ ib l r'.
Proof. intros H. inversion H; subst. eauto. Qed.
Lemma fill_some x : forall r g i, fill (map Some x ++ r) g i = x ++ fill r g (i + zlen x).
Proof.
  induction x as [|a x IH]; intros r g i; [cbn [map app]; change (zlen (@nil Z)) with 0; rewrite Z.add_0_r; reflexivity|]. cbn [map app fill]. rewrite IH, zlen_cons. do 3 f_equal. lia.
Qed.
Lemma fill_none n : forall r g i, exists pd, zlen pd = Z.of_nat n /\ fill (repeat None n ++ r) g i = pd ++ fill r g (i + Z.of_nat n).
Proof.
  induction n as [|n IH]; intros r g i; [exists []; split; [reflexivity|]; cbn [repeat app]; rewrite Z.add_0_r; reflexivity|]. cbn [repeat app fill].
  destruct (IH r g (i + 1)) as (pd & L & E). exists (g i :: pd). rewrite zlen_cons, E. split; [lia|]. cbn [app]. do 3 f_equal. lia.
Qed.
Lemma fill_ib l : forall g i, Forall item_ok l -> ib l (fill (flat_map item_o l) g i).
Proof.
  induction l as [|(x, adv) l IH]; intros g i F; [constructor|]. apply Forall_cons_iff in F. destruct F as (F1 & F2). unfold item_ok in F1. cbn [fst snd] in F1. cbn [flat_map]. unfold item_o at 1. cbn [fst snd].
  rewrite <- app_assoc, fill_some. destruct (fill_none (Z.to_nat (adv - zlen x)) (flat_map item_o l) g (i + zlen x)) as (pd & L & ->). constructor; [lia|]. apply IH; auto.
Qed.
Lemma ib_app a : forall c r, ib (a ++ c) r -> exists r1 r2, r = r1 ++ r2 /\ ib a r1 /\ ib c r2.
Proof.
  induction a as [|(x, adv) a IH]; intros c r H; [exists [], r; repeat split; auto; constructor|]. cbn [app] in H. inversion H; subst. destruct (IH _ _ H5) as (r1 & r2 & -> & A & B).
  exists (x ++ pd ++ r1), r2. rewrite <- !app_assoc. repeat split; auto. constructor; auto.
Qed.
Lemma ib_exact l : forall r, Forall (fun x => zlen (fst x) = snd x) l -> ib l r -> r = flat_map fst l.
Proof.
  induction l as [|(x, adv) l IH]; intros r F H; inversion H as [|x0 adv0 pd l0 r0 H3 H4]; subst; [reflexivity|]. apply Forall_cons_iff in F. destruct F as (F1 & F2). cbn [fst snd] in F1. cbn [flat_map fst].
  assert (pd = []) as -> by (destruct pd; [reflexivity|rewrite zlen_cons in H3; pose proof (zlen_pos pd); lia]). rewrite (IH _ F2 H4). reflexivity.
Qed.
Definition frag_it (l : list Z) : list (list Z * Z) := [(enc 8 (zlen l), 8); (l, align8 (zlen l))].
Lemma ib_frags ls : forall r, Forall (fun l => zlen l <= 4080) ls -> ib (flat_map frag_it ls) r -> exists fs, map fst fs = ls /\ Forall frag_ok fs /\ r = flat_map frag_b fs.
Proof.
  induction ls as [|l ls IH]; intros r F H. { inversion H; subst. exists []. repeat split; constructor. }
  apply Forall_cons_iff in F. destruct F as (F1 & F2). cbn [flat_map frag_it app] in H. apply ib_inv in H. destruct H as (pd & r1 & -> & H1 & H2). apply ib_inv in H2. destruct H2 as (pd2 & r2 & -> & H3 & H4).
  rewrite zlen_enc in H1. assert (pd = []) as -> by (destruct pd; [reflexivity|rewrite zlen_cons in H1; pose proof (zlen_pos pd); lia]).
  destruct (IH _ F2 H4) as (fs & E1 & E2 & ->). exists ((l, pd2) :: fs). cbn [map fst flat_map]. split; [congruence|]. split; [constructor; [split; auto|auto]|]. unfold frag_b at 2. cbn [fst snd app]. rewrite <- !app_assoc. reflexivity.
Qed.

(** ** The number of bytes in disjoint pieces *)
Definition lens (H : list (Z * cell)) : Z := fold_right Z.add 0 (map (fun p => clen (snd p)) H).
Lemma lens_app a c : lens (a ++ c) = lens a + lens c.
Proof. unfold lens. induction a as [|x a IH]; [reflexivity|]. cbn [app map fold_right] in *. rewrite IH. lia. Qed.
Definition addrs (p : Z * cell) : list Z := map (fun i => fst p + Z.of_nat i) (seq 0 (Z.to_nat (clen (snd p)))).
Lemma addrs_in p z : In z (addrs p) -> inside p z.
Proof. unfold addrs. intros I. apply in_map_iff in I. destruct I as (i & <- & I). apply in_seq in I. unfold inside. lia. Qed.
Lemma nodup_app {A} (a c : list A) : NoDup a -> NoDup c -> (forall x, In x a -> In x c -> False) -> NoDup (a ++ c).
Proof.
  induction 1 as [|x a N M IH]; intros C D; [exact C|]. cbn [app]. constructor.
  - intros I. apply in_app_or in I. destruct I as [I|I]; [auto|]. apply (D x); [left; reflexivity|auto].
  - apply IH; auto. intros y I J. apply (D y); [right; auto|auto].
Qed.
Lemma nodup_addrs p : NoDup (addrs p).
Proof. unfold addrs. generalize (seq_NoDup (Z.to_nat (clen (snd p))) 0). generalize (seq 0 (Z.to_nat (clen (snd p)))). intros l N. induction N as [|x l H N IH]; cbn [map]; constructor; auto. intros I. apply in_map_iff in I. destruct I as (y & E & I). assert (y = x) by lia. congruence. Qed.
Lemma count N H : disjoint H -> Forall (fun p => 0 <= fst p /\ 0 <= clen (snd p) /\ fst p + clen (snd p) <= N) H -> 0 <= N -> lens H <= N.
Proof.
  intros D F P. assert (ND : NoDup (flat_map addrs H)).
  { clear F. induction H as [|p H IH]; [constructor|]. cbn [flat_map disjoint] in *. destruct D as (D1 & D2). apply nodup_app; [apply nodup_addrs|auto|]. intros z I J. apply in_flat_map in J. destruct J as (q & J1 & J2).
    rewrite Forall_forall in D1. apply (D1 q J1 z). split; apply addrs_in; auto. }
  assert (IN : incl (flat_map addrs H) (map Z.of_nat (seq 0 (Z.to_nat N)))).
  { intros z I. apply in_flat_map in I. destruct I as (p & I1 & I2). apply addrs_in in I2. rewrite Forall_forall in F. specialize (F _ I1). unfold inside in I2. apply in_map_iff. exists (Z.to_nat z). split; [lia|]. apply in_seq. lia. }
  pose proof (NoDup_incl_length ND IN) as L. rewrite map_length, seq_length in L.
  assert (LL : Z.of_nat (length (flat_map addrs H)) = lens H).
  { clear - F. induction F as [|p H F1 F2 IH]; [reflexivity|]. cbn [flat_map]. rewrite app_length, Nat2Z.inj_add, IH. unfold addrs. rewrite map_length, seq_length. unfold lens. cbn [map fold_right]. lia. }
  lia.
Qed.

(** ** The image of a compiler *)
Definition lrec_of (l : label) : lrec := (lsize l, option_map (fun d => (LABEL_ALIGNED, d)) (lmask l)).
Definition jrec_of (x : jump * Z) : jrec :=
  let (j, u) := x in (jaddr j, jflags j, if jisaddr j then jtarget j else if u =? 0 then 2 ^ 64 - 1 else Z.of_nat (jlabel j)).
Definition img_fld (f : fields) : fields := mkF (f_options f) (f_scratches f) (f_saveds f) (f_fscratches f) (f_fsaveds f) (f_local f) (-1) (-1).
Definition img_of (s : cst) (F : list (Z * list Z)) (L : list (Z * label)) (J : list (Z * (jump * Z))) (K : list (Z * Z)) : image :=
  mkI (map snd F) (map (fun x => lrec_of (snd x)) L) (map (fun x => jrec_of (snd x)) J) (map snd K) (img_fld (cfld s)) (csz s) (ccount s).
Definition rep_at (s : cst) (c : comp) F L J K live : Prop :=
  rep s c L J K live /\ exists G U, core s F G live (chainH labB 0 L 0 ++ chainH jmpB 0 J 0 ++ chainH conB 0 K 0 ++ U) /\ funits F (cbuf c).
Lemma rep_ex s c L J K live : rep s c L J K live -> exists F, rep_at s c F L J K live.
Proof. intros H. pose proof H as ((F & G & U & C & U') & _). exists F. split; eauto 8. Qed.
Lemma chain_item {A} (body : Z -> Z -> A -> list (Z * cell)) L : forall n k q a, nth_error L k = Some (q, a) -> exists v, In (q, W v) (chainH body n L 0) /\ incl (body (n + Z.of_nat k) q a) (chainH body n L 0).
Proof.
  induction L as [|(x, y) L IH]; intros n [|k] q a E; cbn [nth_error] in E; try discriminate; cbn [chainH].
  - injection E as -> ->. rewrite Z.add_0_r. eexists. split; [left; reflexivity|]. intros z I. right. apply in_or_app. auto.
  - destruct (IH (n + 1) k q a E) as (v & V1 & V2). exists v. split; [right; apply in_or_app; auto|]. intros z I. right. apply in_or_app. right. apply V2. replace (n + 1 + Z.of_nat k) with (n + Z.of_nat (Datatypes.S k)) by lia. exact I.
Qed.
Section Written.
Context (s : cst) (c : comp) (F : list (Z * list Z)) (L : list (Z * label)) (J : list (Z * (jump * Z))) (K : list (Z * Z)) (live : list Z).
Hypothesis R : rep_at s c F L J K live.
Let m := hm (ch s).
Lemma w_frag_ptrs : frag_ptrs s = map fst F.
Proof.
  destruct R as (_ & G & U & C & _). pose proof (live_len _ _ _ _ _ C) as (Ln & _). destruct C as (S & (B1 & B2 & B3) & _). unfold frag_ptrs. rewrite B1.
  rewrite (chain_ptrs_gen bufB F 0 _ _ (abufH G ++ schedH (hsched (ch s)) ++ chainH labB 0 L 0 ++ chainH jmpB 0 J 0 ++ chainH conB 0 K 0 ++ U)); [|rewrite <- bufH_chain; exact S|apply fok_ptr; auto].
  apply firstn_all2. rewrite map_length. exact Ln.
Qed.
Lemma w_const_ptrs : const_ptrs s = map fst K.
Proof.
  destruct R as (H & _). destruct (rep_sat _ _ _ _ _ _ H) as (U & S). rep_fields H. unfold const_ptrs. rewrite B5, A4.
  rewrite (chain_ptrs_gen conB K 0 _ _ (chainH labB 0 L 0 ++ chainH jmpB 0 J 0 ++ U)).
  - apply firstn_all'. unfold zlen in *. rewrite map_length. lia.
  - sp S.
  - eapply Forall_mono; [|exact D3]. intros x (Hx & _). exact Hx.
Qed.
Lemma w_fok : Forall (fun l => zlen l <= 4080) (map snd F).
Proof. destruct R as (_ & G & U & (_ & (_ & _ & B3) & _) & _). apply Forall_forall. intros l I. apply in_map_iff in I. destruct I as (x & <- & I). rewrite Forall_forall in B3. apply B3 in I. apply I. Qed.
Lemma w_frags : flat_map (frag_items m) (map fst F) = flat_map frag_it (map snd F).
Proof.
  destruct R as (_ & G & U & (S & (_ & _ & B3) & _) & _).
  assert (X : forall f, In f F -> frag_items m (fst f) = frag_it (snd f)).
  { intros (b, l) I. pose proof (bufH_in _ _ _ I) as (I1 & I2). rewrite Forall_forall in B3. pose proof (B3 _ I) as (_ & B). cbn [fst snd] in *. pose proof (zlen_pos l). unfold frag_items.
    rewrite (sat_ldw m _ (b + 8) (zlen l) S) by first [solve [apply in_or_app; auto]|unfold is64; lia]. unfold MEMORY, frag_it. replace (Z.to_nat (zlen l)) with (length l) by (unfold zlen; lia).
    pose proof (sat_in _ _ (b + 16, Kn l) S ltac:(apply in_or_app; auto)) as Hd. unfold holds in Hd. cbn [fst snd] in Hd. unfold m. rewrite Hd. reflexivity. }
  clear - X. induction F as [|f F' IH]; [reflexivity|]. cbn [map flat_map]. rewrite X by (left; reflexivity). f_equal. apply IH. intros g I. apply X. right; auto.
Qed.
Lemma w_count : 0 <= zlen L < 2 ^ 63 + 1.
Proof.
  destruct R as (H & _). rep_fields H. pose proof (zlen_pos L). destruct (last_label (clabels c)) as [l|] eqn:EL; [|lia]. assert (lsize l <= csize c); [|lia]. rewrite <- A1 in EL.
  destruct L as [|x L'] using rev_ind; [discriminate|]. rewrite map_app in EL. cbn [map] in EL. rewrite last_label_snoc in EL. injection EL as EL. apply Forall_app in D1. destruct D1 as (_ & D1). inversion D1 as [|? ? (_ & X2 & _) _]; subst. lia.
Qed.
(** The members of the k-th label. *)
Lemma w_label k q l : nth_error L k = Some (q, l) -> is_aligned m q = match lmask l with Some _ => true | None => false end /\ ldw m (q + 16) = lsize l /\ label_index m q = Z.of_nat k /\
  match lmask l with Some d => ldw m (q + 8) = LABEL_ALIGNED /\ ldw m (q + 32) = d | None => True end.
Proof.
  intros E. pose proof w_count as W1. destruct R as (H & G & U & C & _). pose proof (core_sat _ _ _ _ _ C) as S. rep_fields H. fold m in S.
  assert (Lk : (k < length L)%nat) by (apply nth_error_Some; congruence). destruct (chain_item labB L 0 k q l E) as (v & _ & I). rewrite Z.add_0_l in I.
  pose proof (nth_error_In _ _ E) as In0. rewrite Forall_forall in D1. destruct (D1 _ In0) as (_ & P2 & P3 & _). cbn [fst snd] in *.
  assert (S' : forall a w, In (a, W w) (labB (Z.of_nat k) q l) -> is64 w -> ldw m a = w). { intros a w I0 B. eapply sat_ldw; [exact S| |exact B]. apply in_or_app. left. apply I. exact I0. }
  unfold labB in S'. unfold is_aligned, label_index, is_aligned. unfold zlen in W1. destruct (lmask l) as [d|].
  - rewrite (S' (q + 8) LABEL_ALIGNED) by first [solve [cbn; auto 8]|unfold is64, LABEL_ALIGNED; lia]. rewrite Z.ltb_irrefl. cbn [negb].
    rewrite (S' (q + 16) (lsize l)) by first [solve [cbn; auto 8]|unfold is64, LABEL_ALIGNED; lia]. rewrite (S' (q + 24) (Z.of_nat k)) by first [solve [cbn; auto 8]|unfold is64, LABEL_ALIGNED; lia]. rewrite (S' (q + 32) d) by (cbn; auto 8). auto.
  - rewrite (S' (q + 8) (Z.of_nat k)) by first [solve [cbn; auto 8]|unfold is64, LABEL_ALIGNED; lia]. replace (Z.of_nat k <? LABEL_ALIGNED) with true by (unfold LABEL_ALIGNED; lia). cbn [negb].
    rewrite (S' (q + 16) (lsize l)) by first [solve [cbn; auto 8]|unfold is64, LABEL_ALIGNED; lia]. auto.
Qed.
Definition lab_it (l : lrec) : list (list Z * Z) := match snd l with None => [(enc 8 (fst l), 8)] | Some (t, d) => [(enc 8 t, 8); (enc 8 (fst l) ++ enc 8 d, 16)] end.
Lemma flat_map_ext_in {A B C} (f : A -> list C) (g : B -> list C) (p : A -> Z) (h : A -> B) (x : Z -> list C) l : (forall a, In a l -> x (p a) = g (h a)) -> flat_map x (map p l) = flat_map g (map h l).
Proof. intros H. induction l as [|a l IH]; [reflexivity|]. cbn [map flat_map]. rewrite H by (left; reflexivity). f_equal. apply IH. intros b I. apply H. right; auto. Qed.
Lemma w_labels : flat_map (label_items m) (map fst L) = flat_map lab_it (map (fun x => lrec_of (snd x)) L).
Proof.
  apply (flat_map_ext_in (fun _ => [])). intros (q, l) I. cbn [fst snd]. apply In_nth_error in I. destruct I as (k & E). destruct (w_label k q l E) as (X1 & X2 & _ & X4). unfold label_items, lab_it, lrec_of. rewrite X1, X2. cbn [fst snd].
  destruct (lmask l) as [d|]; cbn [option_map]; [|reflexivity]. destruct X4 as (-> & ->). reflexivity.
Qed.
Lemma w_aligned : Z.of_nat (length (filter (is_aligned m) (map fst L))) = n_aligned (map (fun x => lrec_of (snd x)) L).
Proof.
  unfold n_aligned, zlen. f_equal. assert (X : forall x, In x L -> is_aligned m (fst x) = aligned (lrec_of (snd x))).
  { intros (q, l) I. apply In_nth_error in I. destruct I as (k & E). destruct (w_label k q l E) as (X1 & _). cbn [fst snd]. rewrite X1. unfold aligned, lrec_of. cbn [snd]. destruct (lmask l); reflexivity. }
  clear - X. induction L as [|x L' IH]; [reflexivity|]. cbn [map filter]. rewrite X by (left; reflexivity). destruct (aligned (lrec_of (snd x))); cbn [length]; [f_equal|]; apply IH; intros y I; apply X; right; auto.
Qed.
Lemma w_jump k q j u : nth_error J k = Some (q, (j, u)) -> ldw m (q + 8) = jaddr j /\ ldw m (q + 16) = jflags j /\ ldw m (q + 24) = u /\ jump_value m q = snd (jrec_of (j, u)).
Proof.
  intros E. pose proof w_count as W1. pose proof R as (H & G & U & C & _). pose proof (core_sat _ _ _ _ _ C) as S. rep_fields H. fold m in S.
  destruct (chain_item jmpB J 0 k q (j, u) E) as (v & _ & I). pose proof (nth_error_In _ _ E) as In0. rewrite Forall_forall in D2. destruct (D2 _ In0) as (_ & P2 & P3 & P4). cbn [fst snd] in *.
  assert (S' : forall a w, In (a, W w) (jmpB (0 + Z.of_nat k) q (j, u)) -> is64 w -> ldw m a = w). { intros a w I0 B. eapply sat_ldw; [exact S| |exact B]. apply in_or_app. right. apply in_or_app. left. apply I. exact I0. }
  cbn [jmpB fst snd] in S'.
  assert (PL : Forall (fun x => 0 < x < 2 ^ 64) (map fst L)). { apply Forall_forall. intros x Ix. apply in_map_iff in Ix. destruct Ix as (y & <- & Iy). rewrite Forall_forall in D1. apply D1 in Iy. apply Iy. }
  assert (Bu : is64 u). { unfold jval_ok in P4. destruct (jisaddr j); [tauto|]. destruct P4 as (_ & [(-> & _)|P5]); [unfold is64; lia|]. apply nth_error_In in P5. rewrite Forall_forall in PL. apply PL in P5. unfold is64. lia. }
  assert (E8 : ldw m (q + 8) = jaddr j) by (apply S'; [cbn; auto|unfold is64; lia]). assert (E16 : ldw m (q + 16) = jflags j) by (apply S'; [cbn; auto|apply jflags_64]). assert (E24 : ldw m (q + 24) = u) by (apply S'; [cbn; auto|exact Bu]).
  repeat split; auto. unfold jump_value, jrec_of. rewrite E16, E24. destruct (flag_bits j) as (-> & _). cbn [snd]. unfold jval_ok in P4. destruct (jisaddr j); [tauto|].
  destruct (u =? 0) eqn:Z0; [reflexivity|]. destruct P4 as (_ & [(-> & _)|P5]); [lia|]. rewrite nth_error_map in P5. destruct (nth_error L (jlabel j)) as [(q', l)|] eqn:EL; [|discriminate]. cbn [option_map fst] in P5. injection P5 as ->.
  apply (w_label _ _ _ EL).
Qed.
Definition jmp_it (j : jrec) : list (list Z * Z) := [(jmp_b j, 24)].
Lemma w_jumps : flat_map (jump_items m) (map fst J) = flat_map jmp_it (map (fun x => jrec_of (snd x)) J).
Proof.
  apply (flat_map_ext_in (fun _ => [])). intros (q, (j, u)) I. apply In_nth_error in I. destruct I as (k & E). destruct (w_jump k q j u E) as (X1 & X2 & _ & X4). cbn [fst snd]. unfold jump_items, jmp_it. rewrite X1, X2, X4. reflexivity.
Qed.
Definition con_it (a : Z) : list (list Z * Z) := [(enc 8 a, 8)].
Lemma w_consts : flat_map (const_items m) (map fst K) = flat_map con_it (map snd K).
Proof.
  apply (flat_map_ext_in (fun _ => [])). intros (q, a) I. apply In_nth_error in I. destruct I as (k & E). pose proof R as (H & G & U & C & _). pose proof (core_sat _ _ _ _ _ C) as S. rep_fields H. fold m in S.
  destruct (chain_item conB K 0 k q a E) as (v & _ & I). pose proof (nth_error_In _ _ E) as In0. rewrite Forall_forall in D3. destruct (D3 _ In0) as (_ & P2). cbn [fst snd] in *.
  unfold const_items, con_it. rewrite (sat_ldw m _ (q + 8) a S); [reflexivity| |unfold is64; lia]. apply in_or_app. right. apply in_or_app. right. apply in_or_app. left. apply I. cbn. auto.
Qed.
Let x := img_of s F L J K.
Lemma w_wf fs : map fst fs = map snd F -> Forall frag_ok fs -> fields32 (cfld s) -> image_wf fs x.
Proof.
  intros E1 E2 E3. pose proof w_count as W1. pose proof R as (H & G & U & C & _). rep_fields H. unfold image_wf, x, img_of. cbn [i_frags i_labs i_jmps i_cons i_fld i_size i_count img_fld f_vscratches f_vsaveds].
  split; [exact E2|]. split; [auto|]. split; [|split; [|split; [|split; [|split; [|split]]]]].
  - apply Forall_forall. intros y I. apply in_map_iff in I. destruct I as ((q, l) & <- & I). rewrite Forall_forall in D1. destruct (D1 _ I) as (_ & P2 & P3 & _). unfold lab_wf, lrec_of. cbn [fst snd] in *. destruct (lmask l); cbn [option_map].
    + unfold LABEL_ALIGNED, is64 in *. lia.
    + unfold LABEL_ALIGNED. lia.
  - apply Forall_forall. intros y I. apply in_map_iff in I. destruct I as ((q, (j, u)) & <- & I). pose proof I as I'. rewrite Forall_forall in D2. destruct (D2 _ I) as (_ & P2 & _ & P4). cbn [snd fst] in *. unfold jmp_wf, jrec_of.
    split; [unfold is64; lia|]. split; [apply jflags_64|]. unfold jbad. destruct (flag_bits j) as (-> & _). unfold jval_ok in P4. destruct (jisaddr j); cbn [negb andb]; [split; [|reflexivity]; destruct P4 as (<- & _ & P4); exact P4|].
    destruct (u =? 0) eqn:Z0. { rewrite Z.eqb_refl. split; [unfold is64; lia|reflexivity]. }
    destruct P4 as (_ & [(-> & _)|P5]); [lia|]. assert (jlabel j < length L)%nat by (rewrite <- (map_length fst); apply nth_error_Some; congruence). rewrite A5. unfold zlen in *. split; [unfold is64; lia|].
    replace (Z.of_nat (jlabel j) <? Z.of_nat (length L)) with true by lia. rewrite andb_false_r. reflexivity.
  - apply Forall_forall. intros y I. apply in_map_iff in I. destruct I as (z & <- & I). rewrite Forall_forall in D3. destruct (D3 _ I) as (_ & P2). unfold is64. lia.
  - rewrite A5. unfold zlen. rewrite map_length. reflexivity.
  - exact E3.
  - unfold is64. lia.
  - split; reflexivity.
Qed.
(** The space used by the records and the fragments. *)
Definition img_len (d : option debug) : Z :=
  80 + zlen (dbg_b d) + fold_right Z.add 0 (map (fun f => 8 + align8 (zlen (snd f))) F) + (8 * zlen L + 16 * n_aligned (map (fun x => lrec_of (snd x)) L)) + 24 * zlen J + 8 * zlen K.
Lemma dbg_len d : zlen (dbg_b d) = match d with Some _ => 16 | None => 0 end.
Proof. destruct d; cbn [dbg_b]; rewrite ?zlen_app, ?zlen_enc; reflexivity. Qed.
Lemma lens_bufH F0 : lens (bufH F0) = 4096 * zlen F0.
Proof. induction F0 as [|(b, l) F0 IH]; [reflexivity|]. cbn [bufH]. rewrite zlen_cons. unfold lens in *. cbn [map fold_right snd clen]. rewrite IH. unfold W. cbn [clen]. rewrite !enc_len. unfold zlen. lia. Qed.
Lemma lens_lab L0 : forall n nx, lens (chainH labB n L0 nx) = 24 * zlen L0 + 16 * n_aligned (map (fun x => lrec_of (snd x)) L0).
Proof.
  induction L0 as [|(q, l) L0 IH]; intros n nx; [reflexivity|]. cbn [chainH map]. change ((q, W (hdn L0 nx)) :: labB n q l ++ chainH labB (n + 1) L0 nx) with (((q, W (hdn L0 nx)) :: labB n q l) ++ chainH labB (n + 1) L0 nx).
  rewrite lens_app, IH, zlen_cons. unfold n_aligned, labB. cbn [filter snd].
  replace (aligned (lrec_of l)) with (match lmask l with Some _ => true | None => false end) by (unfold aligned, lrec_of; cbn [snd]; destruct (lmask l); reflexivity). destruct (lmask l); rewrite ?zlen_cons; unfold lens; cbn [map fold_right snd clen W]; rewrite ?enc_len; lia.
Qed.
Lemma lens_jmp J0 : forall n nx, lens (chainH jmpB n J0 nx) = 32 * zlen J0.
Proof.
  induction J0 as [|(q, l) J0 IH]; intros n nx; [reflexivity|]. cbn [chainH]. change ((q, W (hdn J0 nx)) :: jmpB n q l ++ chainH jmpB (n + 1) J0 nx) with (((q, W (hdn J0 nx)) :: jmpB n q l) ++ chainH jmpB (n + 1) J0 nx).
  rewrite lens_app, IH, zlen_cons. unfold jmpB, lens; cbn [map fold_right snd clen W]; rewrite ?enc_len; lia.
Qed.
Lemma lens_con J0 : forall n nx, lens (chainH conB n J0 nx) = 16 * zlen J0.
Proof.
  induction J0 as [|(q, l) J0 IH]; intros n nx; [reflexivity|]. cbn [chainH]. change ((q, W (hdn J0 nx)) :: conB n q l ++ chainH conB (n + 1) J0 nx) with (((q, W (hdn J0 nx)) :: conB n q l) ++ chainH conB (n + 1) J0 nx).
  rewrite lens_app, IH, zlen_cons. unfold conB, lens; cbn [map fold_right snd clen W]; rewrite ?enc_len; lia.
Qed.
Definition inN (p : Z * cell) : Prop := 0 <= fst p /\ 0 <= clen (snd p) /\ fst p + clen (snd p) <= 2 ^ 64 + 40.
Lemma inW a v : 0 <= a <= 2 ^ 64 + 32 -> inN (a, W v).
Proof. intros H. unfold inN. cbn [fst snd W clen]. rewrite enc_len. lia. Qed.
Lemma img_bound d : img_len d < 2 ^ 64.
Proof.
  pose proof R as (H & G & U & C & _). rep_fields H. destruct C as ((_ & S) & (_ & Fn & Ff) & _).
  assert (D : disjoint (bufH F ++ chainH labB 0 L 0 ++ chainH jmpB 0 J 0 ++ chainH conB 0 K 0)).
  { eapply disjoint_perm with (H' := (bufH F ++ chainH labB 0 L 0 ++ chainH jmpB 0 J 0 ++ chainH conB 0 K 0) ++ abufH G ++ schedH (hsched (ch s)) ++ U) in S; [|psolve]. apply disjoint_app in S. apply S. }
  apply (count (2 ^ 64 + 40)) in D.
  - rewrite !lens_app, lens_bufH, lens_lab, lens_jmp, lens_con in D. unfold img_len. rewrite dbg_len.
    assert (X : fold_right Z.add 0 (map (fun f => 8 + align8 (zlen (snd f))) F) <= 4088 * zlen F).
    { clear - Ff. induction Ff as [|f F' (_ & P) _ IH]; [cbn; lia|]. cbn [map fold_right]. rewrite zlen_cons. pose proof (zlen_pos (snd f)). assert (align8 (zlen (snd f)) <= 4080); [|lia]. rewrite align8_small by lia. assert ((zlen (snd f) + 7) / 8 < 511); [|lia]. apply Z.div_lt_upper_bound; lia. }
    pose proof (zlen_pos F). pose proof (zlen_pos L). pose proof (zlen_pos J). pose proof (zlen_pos K). pose proof (zlen_pos (filter aligned (map (fun x0 => lrec_of (snd x0)) L))) as Pa. fold (n_aligned (map (fun x0 => lrec_of (snd x0)) L)) in Pa.
    assert (Pb : n_aligned (map (fun x0 => lrec_of (snd x0)) L) <= zlen L).
    { clear. unfold n_aligned. induction L as [|y L' IH]; [cbn; lia|]. cbn [map filter]. destruct (aligned _); rewrite ?zlen_cons; lia. }
    destruct d; lia.
  - apply Forall_forall. intros p I. apply in_app_or in I. destruct I as [I|I]; [|apply in_app_or in I; destruct I as [I|I]; [|apply in_app_or in I; destruct I as [I|I]]]; fold (inN p); revert p I; apply Forall_forall.
    + clear - Ff. induction Ff as [|(b, l) F' (P & Q) _ IH]; [constructor|]. cbn [fst snd] in *. unfold bok in P. pose proof (zlen_pos l). cbn [bufH]. repeat apply Forall_cons; auto; try (apply inW; lia); unfold inN; cbn [fst snd clen]; unfold zlen in *; lia.
    + clear - D1. generalize 0 at 1. induction D1 as [|(q, l) L' (P & _) _ IH]; intros n; [constructor|]. cbn [fst snd] in *. cbn [chainH]. constructor; [apply inW; lia|]. apply Forall_app. split; [|apply IH]. unfold labB. destruct (lmask l); repeat apply Forall_cons; try constructor; try (apply inW; lia).
    + clear - D2. generalize 0 at 1. induction D2 as [|(q, l) L' (P & _) _ IH]; intros n; [constructor|]. cbn [fst snd] in *. cbn [chainH]. constructor; [apply inW; lia|]. apply Forall_app. split; [|apply IH]. unfold jmpB. repeat apply Forall_cons; try constructor; try (apply inW; lia).
    + clear - D3. generalize 0 at 1. induction D3 as [|(q, l) L' (P & _) _ IH]; intros n; [constructor|]. cbn [fst snd] in *. cbn [chainH]. constructor; [apply inW; lia|]. apply Forall_app. split; [|apply IH]. unfold conB. repeat apply Forall_cons; try constructor; try (apply inW; lia).
  - lia.
Qed.
End Written.

(** ** SLJIT_MALLOC for another block *)
Lemma core_malloc s F G live R p h : core s F G live R -> malloc (ch s) = (p, h) ->
  hm h = hm (ch s) /\ (p = 0 /\ hlive h = hlive (ch s) /\ core (set_h s h) F G live R \/
  bok p /\ hlive h = p :: hlive (ch s) /\ ~ In p (hlive (ch s)) /\ core (set_h s h) F G (p :: live) ((p, Un 4096) :: R)).
Proof.
  intros (S & FF & GG & SC & PM & ND) E. destruct (malloc_ok _ _ _ E SC ND) as (M1 & M2 & M3 & [(-> & M4 & M5)|(M4 & M5 & M6 & M7)]); (split; [exact M1|]).
  - left. split; [reflexivity|]. split; [exact M4|]. split; [|split; [exact FF|split; [exact GG|split; [exact M2|split; [|exact M3]]]]].
    + cbn [ch set_h]. rewrite M1, M5. exact S.
    + cbn [ch set_h cself]. rewrite M4. exact PM.
  - right. split; [exact M4|]. split; [exact M6|]. split. { rewrite M6 in M3. inversion M3 as [|? ? X _]; subst. intros I. apply X. apply in_or_app. auto. }
    split; [|split; [exact FF|split; [exact GG|split; [exact M2|split; [|exact M3]]]]].
    + cbn [ch set_h]. rewrite M1. rewrite M7 in S. sp S.
    + cbn [ch set_h cself]. rewrite M6, PM. psolve.
Qed.

(** ** The size *)
Definition sumz {A} (f : A -> Z) (l : list A) : Z := fold_right Z.add 0 (map f l).
Lemma sumz_cons {A} (f : A -> Z) a l : sumz f (a :: l) = f a + sumz f l. Proof. reflexivity. Qed.
Lemma fold_wrap {A} (f : A -> Z) l : forall n, fold_left (fun n x => wrap (n + f x)) l (wrap n) = wrap (n + sumz f l).
Proof.
  induction l as [|a l IH]; intros n; [cbn; rewrite Z.add_0_r; reflexivity|]. cbn [fold_left]. rewrite sumz_cons. replace (wrap (wrap n + f a)) with (wrap (n + f a)).
  - rewrite IH. f_equal. lia.
  - unfold wrap. rewrite Z.add_mod_idemp_l; [reflexivity|]. discriminate.
Qed.
Lemma sumz_ext {A} (f g : A -> Z) l : (forall a, In a l -> f a = g a) -> sumz f l = sumz g l.
Proof. intros H. induction l as [|a l IH]; [reflexivity|]. rewrite !sumz_cons, H by (left; reflexivity). rewrite IH; auto. intros b I. apply H. right; auto. Qed.
Lemma sumz_map {A B} (f : B -> Z) (g : A -> B) l : sumz f (map g l) = sumz (fun a => f (g a)) l.
Proof. unfold sumz. rewrite map_map. reflexivity. Qed.
Lemma sumz_const {A} k (l : list A) : sumz (fun _ => k) l = k * zlen l.
Proof. induction l as [|a l IH]; [cbn; lia|]. rewrite sumz_cons, zlen_cons, IH. lia. Qed.
Section Serialized.
Context (s : cst) (c : comp) (F : list (Z * list Z)) (L : list (Z * label)) (J : list (Z * (jump * Z))) (K : list (Z * Z)) (live : list Z).
Hypothesis R : rep_at s c F L J K live.
Let x := img_of s F L J K.
Lemma w_len fs d : map fst fs = map snd F -> Forall frag_ok fs -> zlen (bytes d fs x) = img_len F L J K d.
Proof.
  intros E1 E2. unfold bytes, img_len, x, img_of. cbn [i_labs i_jmps i_cons i_fld i_size i_count]. rewrite !zlen_app, head_len, lab_len, jmp_len, con_len.
  assert (X : zlen (flat_map frag_b fs) = fold_right Z.add 0 (map (fun f => 8 + align8 (zlen (snd f))) F)).
  { clear - E1 E2. revert fs E1 E2. induction F as [|f F' IH]; intros [|g fs] E1 E2; try discriminate; [reflexivity|]. cbn [map] in E1. injection E1 as E0 E1. apply Forall_cons_iff in E2. destruct E2 as (E2 & E3).
    cbn [flat_map map fold_right]. rewrite zlen_app, frag_b_len by auto. rewrite (IH fs E1 E3), E0. reflexivity. }
  rewrite X. unfold zlen. rewrite !map_length. lia.
Qed.
Lemma img_pos d : 0 <= img_len F L J K d.
Proof.
  pose proof R as (_ & G & U & (_ & (_ & _ & B3) & _) & _). unfold img_len. rewrite dbg_len. assert (0 <= fold_right Z.add 0 (map (fun f => 8 + align8 (zlen (snd f))) F)).
  { clear - B3. induction B3 as [|f F' (_ & P) _ IH]; [cbn; lia|]. cbn [map fold_right]. pose proof (zlen_pos (snd f)). pose proof (align8_bounds (zlen (snd f)) ltac:(lia)). lia. }
  unfold n_aligned. pose proof (zlen_pos L). pose proof (zlen_pos J). pose proof (zlen_pos K). pose proof (zlen_pos (filter aligned (map (fun x0 => lrec_of (snd x0)) L))). destruct d; lia.
Qed.
Lemma ser_size_ok d : ser_size d s = img_len F L J K d.
Proof.
  pose proof (img_bound s c F L J K live R d) as Bd. pose proof (img_pos d) as P. pose proof R as (H & G & U & (S & (_ & _ & B3) & _) & _).
  unfold ser_size. rewrite (w_frag_ptrs _ _ _ _ _ _ _ R), (rep_label_ptrs _ _ _ _ _ _ H), (rep_jump_ptrs _ _ _ _ _ _ H), (w_const_ptrs _ _ _ _ _ _ _ R).
  replace (match d with Some _ => HEADER + 16 | None => HEADER end) with (wrap (80 + zlen (dbg_b d))) by (rewrite dbg_len; destruct d; reflexivity).
  cbv zeta. rewrite (fold_wrap (fun b => wrap (8 + align8 (ldw (hm (ch s)) (b + 8))))), (fold_wrap (fun q => if is_aligned (hm (ch s)) q then 24 else 8)), (fold_wrap (fun _ => 24)), (fold_wrap (fun _ => 8)), !sumz_map, !sumz_const.
  match goal with |- wrap ?t = _ => assert (E : t = img_len F L J K d) end.
  { unfold img_len. rewrite (sumz_ext _ (fun f => 8 + align8 (zlen (snd f)))), (sumz_ext (fun a => if is_aligned (hm (ch s)) (fst a) then 24 else 8) (fun a => if aligned (lrec_of (snd a)) then 24 else 8)).
    - assert (X : sumz (fun a => if aligned (lrec_of (snd a)) then 24 else 8) L = 8 * zlen L + 16 * n_aligned (map (fun x0 => lrec_of (snd x0)) L)).
      { clear. unfold n_aligned. induction L as [|y L' IH]; [reflexivity|]. rewrite sumz_cons, IH, zlen_cons. cbn [map filter]. destruct (aligned (lrec_of (snd y))); rewrite ?zlen_cons; lia. }
      rewrite X. unfold sumz, zlen. rewrite ?map_length. lia.
    - intros (q, l) I. apply In_nth_error in I. destruct I as (k & E). destruct (w_label s c F L J K live R k q l E) as (X1 & _). cbn [fst snd]. rewrite X1. unfold aligned, lrec_of. cbn [snd]. destruct (lmask l); reflexivity.
    - intros (b, l) I. pose proof (bufH_in _ _ _ I) as (I1 & I2). rewrite Forall_forall in B3. pose proof (B3 _ I) as (_ & B). cbn [fst snd] in *. pose proof (zlen_pos l).
      rewrite (sat_ldw _ _ (b + 8) (zlen l) S) by first [solve [apply in_or_app; auto]|unfold is64; lia]. pose proof (align8_bounds (zlen l) ltac:(lia)). apply wrap_small. unfold isw. lia. }
  rewrite E. apply wrap_small. unfold isw. lia.
Qed.
Lemma items_ok d : all_items d s = (head_b d (zlen F) (i_count x) (n_aligned (i_labs x)) (zlen (i_jmps x)) (zlen (i_cons x)) (i_fld x) (i_size x), 80) ::
  flat_map frag_it (map snd F) ++ flat_map lab_it (i_labs x) ++ flat_map jmp_it (i_jmps x) ++ flat_map con_it (i_cons x) ++ debug_items d.
Proof.
  pose proof R as (H & _). unfold all_items, header. rewrite (w_frag_ptrs _ _ _ _ _ _ _ R), (rep_label_ptrs _ _ _ _ _ _ H), (rep_jump_ptrs _ _ _ _ _ _ H), (w_const_ptrs _ _ _ _ _ _ _ R).
  cbv zeta. rewrite (w_frags _ _ _ _ _ _ _ R), (w_labels _ _ _ _ _ _ _ R), (w_jumps _ _ _ _ _ _ _ R), (w_consts _ _ _ _ _ _ _ R), (w_aligned _ _ _ _ _ _ _ R), !map_length. unfold x, img_of, head_b, img_fld, zlen. cbn [i_labs i_jmps i_cons i_fld i_size i_count f_options f_scratches f_saveds f_fscratches f_fsaveds f_local].
  rewrite !map_length. reflexivity.
Qed.
Lemma all_item_ok d : Forall item_ok (all_items d s).
Proof.
  rewrite items_ok. pose proof (w_fok _ _ _ _ _ _ _ R) as Fo. apply Forall_cons; [unfold item_ok; cbn [fst snd]; rewrite head_len; lia|]. repeat (apply Forall_app; split); apply Forall_forall; intros y I; try (apply in_flat_map in I; destruct I as (z & I1 & I2)).
  - rewrite Forall_forall in Fo. apply Fo in I1. pose proof (zlen_pos z). pose proof (align8_bounds (zlen z) ltac:(lia)). destruct I2 as [<-|[<-|[]]]; unfold item_ok; cbn [fst snd]; rewrite ?zlen_enc; lia.
  - unfold lab_it in I2. destruct (snd z) as [(t, d0)|]; [destruct I2 as [<-|[<-|[]]]|destruct I2 as [<-|[]]]; unfold item_ok; cbn [fst snd]; rewrite ?zlen_app, ?zlen_enc; lia.
  - destruct I2 as [<-|[]]. unfold item_ok, jmp_b. destruct z as ((a, f), v). cbn [fst snd]. rewrite !zlen_app, !zlen_enc. lia.
  - destruct I2 as [<-|[]]. unfold item_ok. cbn [fst snd]. rewrite zlen_enc. lia.
  - destruct d; [|destruct I]. destruct I as [<-|[]]. unfold item_ok. cbn [fst snd]. rewrite !zlen_app, !zlen_enc. lia.
Qed.
Lemma all_advs d : advs (all_items d s) = img_len F L J K d.
Proof.
  rewrite items_ok, advs_cons, !advs_app. cbn [snd]. unfold img_len.
  assert (X1 : advs (flat_map frag_it (map snd F)) = fold_right Z.add 0 (map (fun f => 8 + align8 (zlen (snd f))) F)).
  { clear. induction F as [|f F' IH]; [reflexivity|]. cbn [map flat_map fold_right]. rewrite advs_app, IH. unfold frag_it. rewrite !advs_cons. change (advs []) with 0. cbn [snd]. lia. }
  assert (X2 : forall ls, advs (flat_map lab_it ls) = 8 * zlen ls + 16 * n_aligned ls).
  { clear. unfold n_aligned. induction ls as [|(sz, o) ls IH]; [reflexivity|]. cbn [flat_map filter]. rewrite advs_app, IH, zlen_cons. destruct o as [(t, d)|]; [change (aligned (sz, Some (t, d))) with true|change (aligned (sz, None)) with false]; cbv iota; rewrite ?zlen_cons; unfold lab_it; cbn [snd fst]; rewrite !advs_cons; change (advs []) with 0; cbn [snd]; lia. }
  assert (X3 : forall ls, advs (flat_map jmp_it ls) = 24 * zlen ls). { clear. induction ls as [|z ls IH]; [reflexivity|]. cbn [flat_map]. rewrite advs_app, IH, zlen_cons. unfold jmp_it. rewrite advs_cons. change (advs []) with 0. cbn [snd]. lia. }
  assert (X4 : forall ls, advs (flat_map con_it ls) = 8 * zlen ls). { clear. induction ls as [|z ls IH]; [reflexivity|]. cbn [flat_map]. rewrite advs_app, IH, zlen_cons. unfold con_it. rewrite advs_cons. change (advs []) with 0. cbn [snd]. lia. }
  rewrite X1, X2, X3, X4, dbg_len. unfold x, img_of. cbn [i_labs i_jmps i_cons]. unfold zlen. rewrite !map_length. destruct d; cbn [debug_items]; rewrite ?advs_cons; change (advs []) with 0; cbn [snd]; lia.
Qed.
Lemma ib_bytes d r : ib (all_items d s) r -> exists fs, map fst fs = map snd F /\ Forall frag_ok fs /\ r = bytes d fs x.
Proof.
  rewrite items_ok. intros H. apply ib_inv in H. destruct H as (pd & r0 & -> & H1 & H). rewrite head_len in H1. assert (pd = []) as -> by (destruct pd; [reflexivity|rewrite zlen_cons in H1; pose proof (zlen_pos pd); lia]).
  apply ib_app in H. destruct H as (r1 & r2 & -> & H2 & H). apply ib_app in H. destruct H as (r3 & r4 & -> & H3 & H). apply ib_app in H. destruct H as (r5 & r6 & -> & H4 & H). apply ib_app in H. destruct H as (r7 & r8 & -> & H5 & H6).
  destruct (ib_frags _ _ (w_fok _ _ _ _ _ _ _ R) H2) as (fs & E1 & E2 & ->). exists fs. split; [exact E1|]. split; [exact E2|].
  assert (X : zlen fs = zlen F) by (unfold zlen; rewrite <- (map_length fst fs), E1, map_length; reflexivity).
  apply ib_exact in H3. 2:{ apply Forall_forall. intros y I. apply in_flat_map in I. destruct I as (z & _ & I2). unfold lab_it in I2. destruct (snd z) as [(t, d0)|]; [destruct I2 as [<-|[<-|[]]]|destruct I2 as [<-|[]]]; cbn [fst snd]; rewrite ?zlen_app, ?zlen_enc; lia. }
  apply ib_exact in H4. 2:{ apply Forall_forall. intros y I. apply in_flat_map in I. destruct I as (((a, f), v) & _ & I2). destruct I2 as [<-|[]]. cbn [fst snd]. unfold jmp_b. rewrite !zlen_app, !zlen_enc. lia. }
  apply ib_exact in H5. 2:{ apply Forall_forall. intros y I. apply in_flat_map in I. destruct I as (z & _ & I2). destruct I2 as [<-|[]]. cbn [fst snd]. rewrite zlen_enc. lia. }
  apply ib_exact in H6. 2:{ apply Forall_forall. intros y I. destruct d; [|destruct I]. destruct I as [<-|[]]. cbn [fst snd]. rewrite !zlen_app, !zlen_enc. lia. }
  subst. unfold bytes. rewrite X. cbn [app]. f_equal. f_equal.
  assert (Y1 : forall ls, flat_map fst (flat_map lab_it ls) = flat_map lab_b ls). { clear. induction ls as [|z ls IH]; [reflexivity|]. cbn [flat_map]. rewrite flat_map_app, IH. f_equal. unfold lab_it, lab_b. destruct (snd z) as [(t, d)|]; cbn [flat_map fst]; rewrite ?app_nil_r; reflexivity. }
  assert (Y2 : forall ls, flat_map fst (flat_map jmp_it ls) = flat_map jmp_b ls). { clear. induction ls as [|z ls IH]; [reflexivity|]. cbn [flat_map]. rewrite flat_map_app, IH. f_equal. unfold jmp_it. cbn [flat_map fst]. apply app_nil_r. }
  assert (Y3 : forall ls, flat_map fst (flat_map con_it ls) = flat_map (enc 8) ls). { clear. induction ls as [|z ls IH]; [reflexivity|]. cbn [flat_map]. rewrite flat_map_app, IH. reflexivity. }
  rewrite Y1, Y2, Y3. do 3 f_equal. destruct d; cbn [debug_items flat_map fst dbg_b]; rewrite ?app_nil_r; reflexivity.
Qed.
(** The block, with any contents of the bytes which are not written, holds the image of the compiler. *)
Theorem serialize_ok d : cerr s = 0 ->
  match serialize d s with
  | SNull s' => hsched (ch s) = [] /\ s' = set_err s ERR_ALLOC_FAILED \/ (exists r, hsched (ch s) = 0 :: r /\ s' = set_err (set_h s (mkH (hm (ch s)) r (hlive (ch s)))) ERR_ALLOC_FAILED)
  | SOk p n buf s' => (exists r, hsched (ch s) = p :: r /\ s' = set_h s (mkH (hm (ch s)) r (p :: hlive (ch s)))) /\ p <> 0 /\ ~ In p (hlive (ch s)) /\
      rep s' c L J K (p :: live) /\ n = Z.of_nat (length buf) /\ n < 2 ^ 64 /\
      (forall g, exists fs, map fst fs = map snd F /\ Forall frag_ok fs /\ fill buf g 0 = bytes d fs x) /\ buf = flat_map item_o (all_items d s)
  | SBad => False
  end.
Proof.
  intros Er. unfold serialize. rewrite Er. cbn [Z.eqb negb]. rewrite ser_size_ok. destruct (malloc (ch s)) as (p, h) eqn:M. cbv zeta.
  pose proof (put_ok (all_items d s) [] (Z.to_nat (img_len F L J K d)) (all_item_ok d)) as P. rewrite all_advs in P. pose proof (img_pos d) as Q. specialize (P ltac:(lia)). cbn [app] in P. change (zlen (@nil (option Z))) with 0 in P. rewrite P.
  pose proof R as (H & G & U & C & FU). destruct (core_malloc _ _ _ _ _ _ _ C M) as (_ & [(-> & _ & _)|(M1 & _ & M3 & M4)]).
  - cbn [Z.eqb]. unfold malloc in M. destruct (hsched (ch s)) as [|a r] eqn:Sc; [injection M as M'; subst h; left|injection M as -> M'; subst h; right; exists r]; (split; [reflexivity|]); [destruct s; reflexivity|]. reflexivity.
  - unfold bok in M1. replace (p =? 0) with false by lia. unfold malloc in M. destruct (hsched (ch s)) as [|a r] eqn:Sc; injection M as M M'; [lia|]. subst a. replace (p =? 0) with false in M' by lia. subst h.
    split; [exists r; split; reflexivity|]. split; [lia|]. split; [exact M3|]. split.
    + destruct H as (_ & H). split; [|exact H]. exists F, G, ((p, Un 4096) :: U). split; [|exact FU]. cp M4.
    + assert (Ln : zlen (flat_map item_o (all_items d s)) = advs (all_items d s)).
      { generalize (all_item_ok d). generalize (all_items d s). intros l A. induction A as [|y l A1 A2 IH]; [reflexivity|]. cbn [flat_map]. rewrite zlen_app, IH, advs_cons. unfold item_o, item_ok in *. unfold zlen in *. rewrite app_length, map_length, repeat_length. lia. }
      rewrite all_advs in Ln. split; [symmetry; exact Ln|]. split; [apply (img_bound s c F L J K live R d)|]. split; [|reflexivity]. intros g. apply ib_bytes. apply fill_ib. apply all_item_ok.
Qed.
End Serialized.
