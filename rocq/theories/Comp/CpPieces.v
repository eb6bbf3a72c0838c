(** The pieces handed out by ensure_buf and ensure_abuf, whatever their users write into them. *)
Require Import ZArith List Bool Lia Zify ZifyBool Permutation.
From Verif Require Import Rv.RvLib Rv.RvEnc Rv.RvIsa Comp.CpMem Comp.CpState Comp.CpCore Comp.CpRep Comp.CpCalls Comp.CpView.
Import ListNotations.
Open Scope Z_scope.
Ltac Zify.zify_post_hook ::= idtac.

Definition pieces (ps : list (Z * Z)) : list (Z * cell) := map (fun p => (fst p, Un (snd p))) ps.
(** Both chains: headers, free space, and the pieces. *)
Definition pc (s : cst) (A B : list (Z * Z)) (live : list Z) (R : list (Z * cell)) : Prop :=
  sat (hm (ch s)) (abufH A ++ abufH B ++ schedH (hsched (ch s)) ++ R) /\
  (cbufp s = hdp A /\ A <> [] /\ Forall gok A) /\ (cabufp s = hdp B /\ B <> [] /\ Forall gok B) /\
  Forall (fun p => p = 0 \/ bok p) (hsched (ch s)) /\
  Permutation (hlive (ch s)) (cself s :: map fst A ++ map fst B ++ live) /\
  NoDup (hlive (ch s) ++ nz (hsched (ch s))).
Lemma abuf_pc s F G live R size : pc s F G live R -> 0 < size <= 256 ->
  let (q, s') := ensure_abuf s size in
  (q = 0 /\ pc s' F G live R \/
   0 < q /\ exists G', pc s' F G' live ((q, Un size) :: R) /\ incl (map fst G) (map fst G') /\ (exists b, In b (map fst G') /\ b + 16 <= q /\ q + size <= b + 4096)).
Proof.
  intros (S & FF & (B1 & B2 & B3) & SC & PM & ND) SZ. unfold ensure_abuf, ld. destruct G as [|(b, u) G0]; [contradiction|].
  cbn [hdp] in B1. rewrite B1. inversion B3 as [|? ? (X1 & X2) B3']; subst. cbn [fst snd] in X1, X2. unfold bok in X1.
  assert (E : ldw (hm (ch s)) (cabufp s + 8) = u).
  { apply (sat_ldw _ _ _ _ S); [|unfold is64; lia]. apply in_or_app. right. cbn [abufH app]. right; left. reflexivity. }
  rewrite E. rewrite wrap_small by (unfold isw; lia). unfold ABUF_SIZE, MEMORY. destruct (u + size <=? 4096 - 16) eqn:C.
  - right. split; [lia|].
    exists ((cabufp s, u + size) :: G0). split; [|split; [apply incl_refl|]; exists (cabufp s); split; [left; reflexivity|lia]].
    split; [|split; [|split; [|split]]]; auto.
    + cbn [st set_h ch hst hm hsched]. cbn [abufH app] in S |- *.
      front S (cabufp s + 8, W u). eapply sat_stw with (v := u + size) in S; [|reflexivity].
      replace (4080 - u) with (size + (4080 - (u + size))) in S by lia.
      front S (cabufp s + 16 + u, Un (size + (4080 - (u + size)))). apply sat_unk in S; try lia.
      replace (cabufp s + 16 + u + size) with (cabufp s + 16 + (u + size)) in S by lia. sp S.
    + cbn [cabufp st set_h hdp]. repeat split; auto; try discriminate. constructor; auto. split; cbn [fst snd]; [apply X1|lia].
  - destruct (malloc (ch s)) as (p, h) eqn:M. destruct (malloc_ok _ _ _ M SC ND) as (M1 & M2 & M3 & M4).
    destruct M4 as [(-> & M4 & M5)|(M4 & M5 & M6 & M7)].
    + rewrite M4 in M3. rewrite Z.eqb_refl. left. split; [reflexivity|].
      split; [|split; [|split; [|split]]]; auto; cbn [set_err set_h ch cself cbufp]; try rewrite M1; try rewrite M4; try rewrite M5; auto.
    + replace (p =? 0) with false by lia. unfold bok in M4. right. split; [lia|].
      exists ((p, size) :: (cabufp s, u) :: G0). split; [|split; [cbn [map fst]; apply incl_tl, incl_refl|]; exists p; split; [left; reflexivity|lia]].
      split; [|split; [|split; [|split]]]; cbn [set_abuf st hst set_h ch cself cabufp hm hsched hlive cbufp] in *; auto.
      * rewrite M1. rewrite M7 in S. set (A := abufH ((cabufp s, u) :: G0)) in *. set (B := abufH F) in *. cbn [abufH hdp]. fold A.
        assert (S2 : sat (hm (ch s)) ((p, Un 4096) :: B ++ A ++ schedH (hsched h) ++ R)) by sp S. clear S.
        change 4096 with (8 + 4088) in S2. apply sat_unk in S2; try lia. eapply sat_stw with (v := cabufp s) in S2; [|reflexivity].
        apply (sat_get _ [_]) in S2. cbn [app] in S2. change 4088 with (8 + 4080) in S2. apply sat_unk in S2; try lia.
        eapply sat_stw with (v := size) in S2; [|reflexivity]. replace 4080 with (size + (4080 - size)) in S2 at 1 by lia.
        apply (sat_get _ [_]) in S2. cbn [app] in S2. apply sat_unk in S2; try lia. replace (p + 8 + 8) with (p + 16) in S2 by lia.
        unfold A in S2; cbn [abufH] in S2; sp S2.
      * cbn [hdp]. repeat split; auto; try discriminate. constructor; auto. split; cbn [fst snd]; unfold bok; lia.
      * split; [|exact M3]. rewrite M6, PM. cbn [map fst app]. psolve.
Qed.
(** ensure_buf is ensure_abuf with the other member. *)
Definition swapb (s : cst) : cst :=
  mkC (ch s) (cself s) (cabufp s) (cbufp s) (clab s) (clastl s) (cjmp s) (clastj s) (ccon s) (clastc s) (ccount s) (csz s) (cerr s) (cfld s).
Lemma buf_swap s n : ensure_buf s n = let (q, s') := ensure_abuf (swapb s) n in (q, swapb s').
Proof.
  unfold ensure_buf, ensure_abuf. change (ld (swapb s) (cabufp (swapb s) + 8)) with (ld s (cbufp s + 8)). change BUF_SIZE with ABUF_SIZE.
  destruct (wrap (ld s (cbufp s + 8) + n) <=? ABUF_SIZE - MEMORY); [reflexivity|]. change (ch (swapb s)) with (ch s). destruct (malloc (ch s)) as (p, h). destruct (p =? 0); reflexivity.
Qed.
Lemma pc_swap s A B live R : pc s A B live R -> pc (swapb s) B A live R.
Proof.
  intros (S & X & Y & C & P & N). split; [|split; [|split; [|split; [|split]]]]; auto.
  - cbn [swapb ch]. sp S.
  - cbn [swapb ch cself]. rewrite P. psolve.
Qed.
Lemma buf_pc s F G live R size : pc s F G live R -> 0 < size <= 256 ->
  let (q, s') := ensure_buf s size in
  (q = 0 /\ pc s' F G live R \/
   0 < q /\ exists F', pc s' F' G live ((q, Un size) :: R) /\ incl (map fst F) (map fst F') /\ (exists b, In b (map fst F') /\ b + 16 <= q /\ q + size <= b + 4096)).
Proof.
  intros H SZ. rewrite buf_swap. pose proof (abuf_pc (swapb s) G F live R size (pc_swap _ _ _ _ _ H) SZ) as X. destruct (ensure_abuf (swapb s) size) as (q, s'). cbv beta iota zeta.
  destruct X as [(-> & X)|(Q & F' & X & I & b & I2)].
  - left. split; auto. apply pc_swap. exact X.
  - right. split; auto. exists F'. split; [apply pc_swap; exact X|]. split; auto. exists b. auto.
Qed.
Lemma put_out m a l z : ~ (a <= z < a + Z.of_nat (length l)) -> put m a l z = m z.
Proof. intros H. unfold put. replace ((a <=? z) && (z <? a + Z.of_nat (length l))) with false by lia. reflexivity. Qed.
Lemma sat_write m a n H off l : sat m ((a, Un n) :: H) -> 0 <= off -> off + Z.of_nat (length l) <= n -> sat (put m (a + off) l) ((a, Un n) :: H).
Proof.
  intros (S1 & S2) O1 O2. inversion S1; subst. destruct S2 as (D1 & D2). split; [|split; auto]. constructor; [exact Logic.I|].
  assert (X : sat (put m (a + off) l) H); [|apply X]. apply (sat_ext m); [|split; auto].
  intros p z I Iz. symmetry. apply put_out. intros Hz. rewrite Forall_forall in D1. apply (D1 p I z). split; auto. unfold inside. cbn [fst snd clen]. lia.
Qed.
Definition req_ok (r : req) : Prop := match r with RBuf n | RAbuf n => 0 < n <= 256 | RWrite _ _ _ => True end.
(** A piece is inside the memory of a fragment. *)
Definition placed (bs : list Z) (p : Z * Z) : Prop := exists b, In b bs /\ b + 16 <= fst p /\ fst p + snd p <= b + 4096.
Lemma placed_incl bs bs' ps : incl bs bs' -> Forall (placed bs) ps -> Forall (placed bs') ps.
Proof. intros I H. eapply Forall_impl; [|exact H]. intros p (b & B & X). exists b. auto. Qed.
Lemma req_pc rs : forall ps s A B live, Forall req_ok rs -> pc s A B live (pieces ps) -> Forall (placed (map fst A ++ map fst B)) ps ->
  let (ps', s') := req_run rs ps s in exists A' B', pc s' A' B' live (pieces ps') /\ Forall (placed (map fst A' ++ map fst B')) ps' /\ exists l, ps' = ps ++ l.
Proof.
  induction rs as [|r rs IH]; intros ps s A B live Ok H P; cbn [req_run].
  - exists A, B. split; auto. split; auto. exists []. rewrite app_nil_r. reflexivity.
  - inversion Ok as [|? ? O1 O2]; subst. destruct r as [n|n|i off l]; cbn [req_ok] in O1.
    + pose proof (buf_pc s A B live (pieces ps) n H O1) as X. destruct (ensure_buf s n) as (q, s1). destruct X as [(-> & X)|(Q & A1 & X & I & Y)].
      * cbn [Z.eqb]. apply (IH ps s1 A B live); auto.
      * replace (q =? 0) with false by lia. specialize (IH (ps ++ [(q, n)]) s1 A1 B live O2).
        destruct (req_run rs (ps ++ [(q, n)]) s1) as (ps', s'). destruct IH as (A2 & B2 & I1 & I2 & k & I3).
        { unfold pieces. rewrite map_app. cbn [map fst snd]. destruct X as (S & X). split; auto. eapply sat_perm; [|exact S]. do 3 apply Permutation_app_head. apply Permutation_cons_append. }
        { apply Forall_app. split; [eapply placed_incl; [|exact P]; intros z; rewrite !in_app_iff; intros [Hz|Hz]; auto|]. constructor; [|constructor]. destruct Y as (b & Y1 & Y2). exists b. cbn [fst snd]. split; [apply in_or_app; auto|lia]. }
        exists A2, B2. split; auto. split; auto. exists ((q, n) :: k). rewrite I3, <- app_assoc. reflexivity.
    + pose proof (abuf_pc s A B live (pieces ps) n H O1) as X. destruct (ensure_abuf s n) as (q, s1). destruct X as [(-> & X)|(Q & B1 & X & I & Y)].
      * cbn [Z.eqb]. apply (IH ps s1 A B live); auto.
      * replace (q =? 0) with false by lia. specialize (IH (ps ++ [(q, n)]) s1 A B1 live O2).
        destruct (req_run rs (ps ++ [(q, n)]) s1) as (ps', s'). destruct IH as (A2 & B2 & I1 & I2 & k & I3).
        { unfold pieces. rewrite map_app. cbn [map fst snd]. destruct X as (S & X). split; auto. eapply sat_perm; [|exact S]. do 3 apply Permutation_app_head. apply Permutation_cons_append. }
        { apply Forall_app. split; [eapply placed_incl; [|exact P]; intros z; rewrite !in_app_iff; intros [Hz|Hz]; auto|]. constructor; [|constructor]. destruct Y as (b & Y1 & Y2). exists b. cbn [fst snd]. split; [apply in_or_app; auto|lia]. }
        exists A2, B2. split; auto. split; auto. exists ((q, n) :: k). rewrite I3, <- app_assoc. reflexivity.
    + destruct (nth i ps (0, 0)) as (p, n) eqn:N. apply (IH ps _ A B live); auto. destruct ((0 <=? off) && (off + Z.of_nat (length l) <=? n)) eqn:G; auto.
      destruct (Nat.ltb_spec i (length ps)) as [Li|Li].
      * assert (I : In (p, n) ps) by (rewrite <- N; apply nth_In; auto). apply in_split in I. destruct I as (l1 & l2 & ->).
        destruct H as (S & X). split; auto. cbn [set_h ch hm hsched]. unfold pieces in *. rewrite map_app in *. cbn [map fst snd] in *.
        set (X1 := map (fun p => (fst p, Un (snd p))) l1) in *. set (X2 := map (fun p => (fst p, Un (snd p))) l2) in *.
        front S (p, Un n). apply (sat_write _ _ _ _ off l) in S; try lia. sp S.
      * rewrite nth_overflow in N by auto. injection N as <- <-. assert (l = []) as -> by (destruct l; [reflexivity|cbn [length] in G; lia]).
        destruct H as (S & X). split; auto. cbn [set_h ch hm hsched]. eapply sat_ext; [|exact S]. intros z0 z _ _. symmetry. apply put_out. cbn [length]. lia.
Qed.
Lemma gok_ptr G : Forall gok G -> Forall (fun x => 0 < fst x < 2 ^ 64) G.
Proof. intros H. eapply Forall_impl; [|exact H]. intros x (Hx & _). unfold bok in Hx. lia. Qed.
Lemma nodup_appl (a b : list Z) : NoDup (a ++ b) -> NoDup a.
Proof. induction a as [|x a IH]; intros N; [constructor|]. cbn [app] in N. inversion N; subst. constructor; auto. intros I. apply H1. apply in_or_app. auto. Qed.
Lemma pc_free s A B live R : pc s A B live R -> Permutation (hlive (free_compiler s)) live.
Proof.
  intros (S & (B1 & B2 & B3) & (C1 & C2 & C3) & B5 & B6 & B7). pose proof (nodup_appl _ _ B7) as Nd.
  assert (Ln : (length A <= length (hlive (ch s)) /\ length B <= length (hlive (ch s)))%nat). { rewrite (Permutation_length B6). cbn [length]. rewrite !app_length, !map_length. lia. }
  unfold free_compiler. rewrite B1, C1.
  destruct (free_chain_ok abufB A 0 (length (hlive (ch s))) (ch s) (abufH B ++ schedH (hsched (ch s)) ++ R)) with (l := cself s :: map fst B ++ live) as (X1 & X2); auto.
  { rewrite <- abufH_chain. exact S. } { apply gok_ptr; auto. } { apply Ln. } { rewrite B6. apply Permutation_middle. }
  set (h1 := free_chain (length (hlive (ch s))) (ch s) (hdp A)) in *. pose proof (Permutation_NoDup B6 Nd) as Nd0.
  assert (Nd1 : NoDup (cself s :: map fst B ++ live)).
  { inversion Nd0; subst. constructor; [intros I; apply H1; apply in_or_app; auto|]. clear - H2. induction (map fst A) as [|x l IH]; auto. cbn [app] in H2. inversion H2; auto. }
  destruct (free_chain_ok abufB B 0 (length (hlive (ch s))) h1 (abufH A ++ schedH (hsched (ch s)) ++ R)) with (l := cself s :: live) as (Y1 & Y2); auto.
  { rewrite X2. rewrite <- abufH_chain. sp S. } { apply gok_ptr; auto. } { apply Ln. } { rewrite X1. apply Permutation_middle. } { eapply Permutation_NoDup; [symmetry; exact X1|exact Nd1]. }
  cbn [free hlive]. rewrite (perm_remove (cself s) _ _ Y1). rewrite remove_head; auto. inversion Nd1; subst. intros I. apply H1. apply in_or_app. auto.
Qed.
Lemma sat_app_drop m A B C : sat m (A ++ B ++ C) -> sat m (A ++ C).
Proof. intros S. apply sat_swap in S. apply sat_app in S. apply S. Qed.
Lemma bufH_abufH m F : forall R, sat m (bufH F ++ R) -> sat m (abufH (map (fun f => (fst f, zlen (snd f))) F) ++ R).
Proof.
  induction F as [|(b, l) F IH]; intros R S; auto. cbn [bufH map fst snd abufH app] in *.
  front S (b + 16, Kn l). apply sat_drop in S. replace (hdp (map (fun f => (fst f, zlen (snd f))) F)) with (hdp F) by (destruct F as [|(x, y) F]; reflexivity).
  apply (IH ((b, W (hdp F)) :: (b + 8, W (zlen l)) :: (b + 16 + zlen l, Un (4080 - zlen l)) :: R)) in S || idtac.
  assert (S2 : sat m (bufH F ++ (b, W (hdp F)) :: (b + 8, W (zlen l)) :: (b + 16 + zlen l, Un (4080 - zlen l)) :: R)) by sp S.
  apply IH in S2. sp S2.
Qed.
Lemma cored_pc s live : cored s live -> exists A B, pc s A B live (pieces []).
Proof.
  intros (F & G & R & S & (B1 & B2 & B3) & C & B5 & B6 & B7). exists (map (fun f => (fst f, zlen (snd f))) F), G.
  split; [|split; [|split; [|split; [|split]]]]; auto.
  - apply bufH_abufH. cbn [pieces map]. rewrite app_nil_r. rewrite !app_assoc in S. apply sat_app in S. destruct S as (S & _). rewrite <- !app_assoc in S. exact S.
  - split; [rewrite B1; destruct F as [|(x, y) F]; reflexivity|]. split; [destruct F; [contradiction|discriminate]|]. clear - B3. induction B3 as [|x F (P1 & P2) P IH]; cbn [map]; constructor; auto. split; cbn [fst snd]; auto. unfold zlen in *. lia.
  - rewrite B6, map_map. cbn [fst]. reflexivity.
Qed.
(** Statement with plain intervals. *)
Definition overlap (p q : Z * Z) : Prop := exists z, fst p <= z < fst p + snd p /\ fst q <= z < fst q + snd q.
Lemma pieces_apart ps i j : disjoint (pieces ps) -> (i < length ps)%nat -> (j < length ps)%nat -> i <> j -> ~ overlap (nth i ps (0, 0)) (nth j ps (0, 0)).
Proof.
  revert i j. induction ps as [|p ps IH]; intros i j D Li Lj N; [cbn in Li; lia|]. cbn [pieces map disjoint length] in *. destruct D as (D1 & D2). fold (pieces ps) in *.
  assert (K : forall k, (k < length ps)%nat -> ~ overlap p (nth k ps (0, 0))).
  { intros k Lk (z & Z1 & Z2). rewrite Forall_forall in D1. apply (D1 (fst (nth k ps (0, 0)), Un (snd (nth k ps (0, 0)))) ) with (z := z).
    - unfold pieces. apply in_map_iff. exists (nth k ps (0, 0)). split; auto. apply nth_In; auto.
    - split; unfold inside; cbn [fst snd clen]; lia. }
  destruct i as [|i], j as [|j]; cbn [nth]; try lia.
  - apply K. lia.
  - intros (z & Z1 & Z2). apply (K i); [lia|]. exists z. auto.
  - apply IH; auto; lia.
Qed.
Definition no_overlap (ps : list (Z * Z)) : Prop :=
  forall i j, (i < length ps)%nat -> (j < length ps)%nat -> i <> j -> ~ overlap (nth i ps (0, 0)) (nth j ps (0, 0)).
Lemma reqs_ok rs s live : cored s live -> Forall req_ok rs ->
  let (ps, s') := req_run rs [] s in
  no_overlap ps /\ Forall (placed (hlive (ch s'))) ps /\ Permutation (hlive (free_compiler s')) live.
Proof.
  intros C Ok. destruct (cored_pc _ _ C) as (A & B & P). pose proof (req_pc rs [] s A B live Ok P (Forall_nil _)) as X. destruct (req_run rs [] s) as (ps, s').
  destruct X as (A' & B' & X & Y & _). pose proof (pc_free _ _ _ _ _ X) as Fr. destruct X as (S & _ & _ & _ & Pm & _). split; [|split; auto].
  - intros i j. apply pieces_apart. do 3 (apply sat_app in S; destruct S as (_ & S)). apply S.
  - eapply placed_incl; [|exact Y]. intros b I. eapply Permutation_in; [symmetry; exact Pm|]. right. rewrite app_assoc. apply in_or_app. auto.
Qed.
