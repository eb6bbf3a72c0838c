(** sljit_deserialize_compiler does what the parser says, for every buffer; it never leaks. *)
Require Import ZArith List Bool Lia Zify ZifyBool Permutation.
From Verif Require Import Rv.RvLib Rv.RvEnc Rv.RvIsa Rv.RvImm Rv.RvAddr Rv.RvLink Rv.RvLinkOps Rv.RvLinkExec Rv.RvLinkApi Comp.CpMem Comp.CpState Comp.CpCore Comp.CpRep Comp.CpCalls Comp.CpHist Comp.CpView
  Comp.CpSer Comp.CpSerImg Comp.CpSerParse Comp.CpSerW.
Import ListNotations.
Open Scope Z_scope.
Ltac Zify.zify_post_hook ::= idtac.

(** Enough successful SLJIT_MALLOC calls. *)
Definition good (k : nat) (h : heap) : Prop := Forall (fun p => p <> 0) (hsched h) /\ (k <= length (hsched h))%nat.
Lemma good_malloc k h p h' : good (S k) h -> malloc h = (p, h') -> p <> 0 /\ good k h'.
Proof.
  intros (A & B) M. unfold malloc in M. destruct (hsched h) as [|q r] eqn:E; [cbn in B; lia|]. injection M as <- <-. apply Forall_cons_iff in A. destruct A as (A1 & A2). split; auto. split; [exact A2|]. cbn [hsched length] in *. lia.
Qed.
Lemma good_abuf k s F G live R n : core s F G live R -> good (S k) (ch s) -> let (q, s') := ensure_abuf s n in q <> 0 /\ good k (ch s').
Proof.
  intros C Gd. unfold ensure_abuf. destruct C as (S & _ & (B1 & B2 & B3) & SC & _). destruct G as [|(a, u) G0]; [contradiction|]. cbn [hdp] in B1. apply Forall_cons_iff in B3. destruct B3 as ((B3 & B4) & _). cbn [fst snd] in *. unfold bok in B3.
  assert (E : ld s (cabufp s + 8) = u). { unfold ld. rewrite B1. apply (sat_ldw _ _ _ _ S); [|unfold is64; lia]. apply in_or_app. right. cbn [abufH app]. right; left. reflexivity. }
  rewrite E. destruct (wrap (u + n) <=? ABUF_SIZE - MEMORY).
  - split; [unfold MEMORY; lia|]. destruct Gd as (A & B). split; [exact A|]. cbn [st set_h ch hst hsched]. lia.
  - destruct (malloc (ch s)) as (p, h) eqn:M. destruct (good_malloc _ _ _ _ Gd M) as (P & Q). replace (p =? 0) with false by lia. split; [unfold MEMORY|exact Q].
    unfold malloc in M. destruct (hsched (ch s)) as [|q r] eqn:Sc; injection M as M _; [lia|]. subst q.
    apply Forall_cons_iff in SC. destruct SC as ([SC|SC] & _); [lia|unfold bok in SC; lia].
Qed.

(** ** Fragments *)
Definition hput (s : cst) (a : Z) (l : list Z) : cst := set_h s (mkH (put (hm (ch s)) a l) (hsched (ch s)) (hlive (ch s))).
Lemma core_put s F G live R a c l : core s F G live ((a, c) :: R) -> clen c = zlen l -> core (hput s a l) F G live ((a, Kn l) :: R).
Proof.
  intros (S & C) L. split; auto. cbn [hput set_h ch hm hsched]. front S (a, c). eapply sat_put with (l := l) in S; [|unfold zlen in L; lia]. sp S.
Qed.
Lemma seg_next s F G live R p h l : core s F G live R -> malloc (ch s) = (p, h) -> p <> 0 -> zlen l <= 4080 ->
  core (st (hput (st (st (set_h s h) p 0) (p + 8) (zlen l)) (p + 16) l) (lastp F) p) (F ++ [(p, l)]) G live R.
Proof.
  intros C M P L. pose proof (zlen_pos l) as Pl. destruct (core_malloc _ _ _ _ _ _ _ C M) as (_ & [(-> & _)|(M1 & _ & _ & C1)]); [lia|].
  apply (core_split _ _ _ _ _ p 8 4088) in C1; try lia. apply core_st with (v := 0) in C1; [|reflexivity]. cfront C1 (p + 8, Un 4088).
  apply (core_split _ _ _ _ _ (p + 8) 8 4080) in C1; try lia. apply core_st with (v := zlen l) in C1; [|reflexivity]. replace (p + 8 + 8) with (p + 16) in C1 by lia. cfront C1 (p + 16, Un 4080).
  replace 4080 with (zlen l + (4080 - zlen l)) in C1 at 1 by lia. apply core_split in C1; try lia. apply core_put with (l := l) in C1; [|reflexivity].
  set (s3 := hput _ _ _) in *. clearbody s3. destruct C1 as (S & (B1 & B2 & B3) & GG & SC & PM & ND). destruct F as [|f F0 _] using rev_ind; [contradiction|]. destruct f as (q0, l0). rewrite lastp_snoc.
  split; [|split; [|split; [|split; [|split]]]]; auto.
  - cbn [st set_h ch hst hm hsched]. rewrite (bufH_chain _ 0), chain_snoc in S. front S (q0, W 0). apply sat_stw with (v := p) in S; [|reflexivity].
    rewrite (bufH_chain _ 0), !chain_snoc.
    change (bufB (0 + zlen (F0 ++ [(q0, l0)])) p l) with [(p + 8, W (zlen l)); (p + 16, Kn l); (p + 16 + zlen l, Un (4080 - zlen l))]. sp S.
  - cbn [cbufp st set_h]. split; [|split].
    + rewrite B1. destruct F0 as [|(a, b) F0]; reflexivity.
    + destruct F0; discriminate.
    + apply Forall_app. split; [exact B3|]. constructor; [|constructor]. split; auto.
  - cbn [ch st set_h hst hlive cself]. rewrite PM, (map_app fst (F0 ++ [(q0, l0)])). cbn [map fst]. psolve.
Qed.
Lemma seg_first s b G live R l : core s [(b, [])] G live R -> zlen l <= 4080 -> core (hput (st s (b + 8) (zlen l)) (b + 16) l) [(b, l)] G live R.
Proof.
  intros (S & (B1 & B2 & B3) & GG & SC & PM & ND) L. pose proof (zlen_pos l) as Pl. apply Forall_cons_iff in B3. destruct B3 as ((B3 & _) & _).
  split; [|split; [|split; [|split; [|split]]]]; auto.
  - cbn [hput st set_h ch hst hm hsched]. cbn [bufH app] in *. change (zlen (@nil Z)) with 0 in S. rewrite Z.add_0_r, Z.sub_0_r in S.
    front S (b + 8, W 0). apply sat_stw with (v := zlen l) in S; [|reflexivity]. front S (b + 16, Kn []). apply sat_drop in S. front S (b + 16, Un 4080).
    replace 4080 with (zlen l + (4080 - zlen l)) in S by lia. apply sat_unk in S; try lia. apply sat_put with (l := l) in S; [|reflexivity]. sp S.
  - split; [exact B1|]. split; [discriminate|]. constructor; [|constructor]. split; auto.
Qed.

Definition same (s s' : cst) : Prop := rest s s' /\ csz s' = csz s /\ cerr s' = cerr s.
Lemma same_refl s : same s s. Proof. repeat split. Qed.
Lemma same_trans s s' s'' : same s s' -> same s' s'' -> same s s''.
Proof. intros (A1 & A2 & A3) (B1 & B2 & B3). split; [eapply rest_trans; eauto|]. split; congruence. Qed.
Ltac sj := repeat match goal with |- _ /\ _ => split end.
Definition gstep (n : nat) (s s' : cst) : Prop := forall k, good (n + k) (ch s) -> good k (ch s').
Section Loops.
Variable b : list Z.
Hypothesis Bb : Forall isb b.
Lemma rdw_64 off v : rdw b off = Some v -> is64 v.
Proof.
  unfold rdw, sub. destruct ((0 <=? off) && (off + 8 <=? bsize b)) eqn:E; [|discriminate]. intros H. injection H as <-.
  assert (X : Forall isb (firstn (Z.to_nat 8) (skipn (Z.to_nat off) b))). { apply Forall_forall. intros y I. rewrite Forall_forall in Bb. apply Bb. rewrite <- (firstn_skipn (Z.to_nat off) b). apply in_or_app. right. rewrite <- (firstn_skipn (Z.to_nat 8) (skipn (Z.to_nat off) b)). apply in_or_app. auto. }
  pose proof (dec_bound _ X) as D. assert (Ln : length (firstn (Z.to_nat 8) (skipn (Z.to_nat off) b)) = 8%nat). { rewrite firstn_length, skipn_length. unfold bsize in E. lia. }
  rewrite Ln in D. change (256 ^ Z.of_nat 8) with (2 ^ 64) in D. exact D.
Qed.
Lemma sub_len off n : 0 <= off -> 0 <= n -> off + n <= bsize b -> zlen (sub b off n) = n.
Proof. intros A C D. unfold sub, zlen, bsize in *. rewrite firstn_length, skipn_length. lia. Qed.
Lemma segs_next : forall fuel i off s F G live R, core s F G live R -> 0 <= i -> 0 <= off ->
  match segs b fuel i off (lastp F) s with
  | DRet (off', s') => exists F', psegs b fuel i off = PRet (off', map snd F') /\ core s' (F ++ F') G live R /\ same s s' /\ cabufp s' = cabufp s /\ off <= off' /\ gstep (Z.to_nat i) s s'
  | DErr s' => cored s' live /\ (psegs b fuel i off = PErr \/ ~ good (Z.to_nat i) (ch s))
  | DBad => psegs b fuel i off = PBad
  end.
Proof.
  induction fuel as [|fuel IH]; intros i off s F G live R C Pi Po.
  { cbn [segs psegs]. destruct (i =? 0) eqn:Zi; [|reflexivity]. exists []. rewrite app_nil_r. sj; auto using same_refl; try lia. intros k. replace (Z.to_nat i + k)%nat with k by lia. auto. }
  cbn [segs psegs]. destruct (i =? 0) eqn:Zi.
  { exists []. rewrite app_nil_r. sj; auto using same_refl; try lia. intros k. replace (Z.to_nat i + k)%nat with k by lia. auto. }
  destruct (left b off <? 8). { split; [exists F, G, R; exact C|auto]. }
  destruct (rdw b off) as [u|] eqn:Eu; [|reflexivity]. pose proof (rdw_64 _ _ Eu) as U64. cbv zeta.
  destruct (left b (off + 8) <? align8 u) eqn:El. { split; [exists F, G, R; exact C|auto]. }
  pose proof C as (_ & (_ & Fn & Fk) & _). assert (Lp : lastp F =? 0 = false). { destruct F as [|f F0 _] using rev_ind; [contradiction|]. destruct f as (q0, l0). rewrite lastp_snoc. apply Forall_app in Fk. destruct Fk as (_ & Fk). apply Forall_cons_iff in Fk. destruct Fk as ((Fk & _) & _). cbn in Fk. unfold bok in Fk. lia. }
  rewrite Lp. destruct (malloc (ch s)) as (p, h) eqn:M. destruct (core_malloc _ _ _ _ _ _ _ C M) as (_ & M1).
  destruct (p =? 0) eqn:Zp.
  { destruct M1 as [(_ & _ & M1)|(M1 & _)]; [|unfold bok in M1; lia]. split; [exists F, G, R; exact M1|]. right. intros Gd. replace (Z.to_nat i) with (S (Z.to_nat (i - 1))) in Gd by lia. destruct (good_malloc _ _ _ _ Gd M). lia. }
  destruct ((u >? BUF_SIZE - MEMORY) || (off + 8 + u >? bsize b)) eqn:Ov; [reflexivity|]. unfold BUF_SIZE, MEMORY in *. unfold is64 in U64.
  pose proof (sub_len (off + 8) u ltac:(lia) ltac:(lia) ltac:(lia)) as Ls. pose proof (seg_next s F G live R p h (sub b (off + 8) u) C M ltac:(lia) ltac:(lia)) as C2. rewrite Ls in C2.
  change (set_h (st (st (set_h s h) p 0) (p + 8) u) (mkH (put (hm (ch (st (st (set_h s h) p 0) (p + 8) u))) (p + 16) (sub b (off + 8) u)) (hsched (ch (st (st (set_h s h) p 0) (p + 8) u))) (hlive (ch (st (st (set_h s h) p 0) (p + 8) u))))) with (hput (st (st (set_h s h) p 0) (p + 8) u) (p + 16) (sub b (off + 8) u)).
  set (s4 := st (hput _ _ _) _ _) in *. pose proof (align8_bounds u ltac:(lia)) as Al.
  assert (Sm : same s s4) by (repeat split). assert (Ga : cabufp s4 = cabufp s) by reflexivity. assert (Gs : forall k, good (S k) (ch s) -> good k (ch s4)).
  { intros k Gd. destruct (good_malloc _ _ _ _ Gd M) as (_ & Gd'). exact Gd'. }
  clearbody s4. specialize (IH (i - 1) (off + 8 + align8 u) s4 (F ++ [(p, sub b (off + 8) u)]) G live R C2 ltac:(lia) ltac:(lia)). rewrite lastp_snoc in IH.
  destruct (segs b fuel (i - 1) (off + 8 + align8 u) p s4) as [(off', s')|s'|].
  - destruct IH as (F' & I1 & I2 & I3 & I4 & I5 & I6). rewrite I1. exists ((p, sub b (off + 8) u) :: F'). cbn [pbind fst snd map]. rewrite <- app_assoc in I2. sj; auto; try lia; try (apply (same_trans _ _ _ Sm I3)); try congruence.
    intros k Gd. apply I6. apply Gs. replace (S (Z.to_nat (i - 1) + k)) with (Z.to_nat i + k)%nat by lia. exact Gd.
  - destruct IH as (I1 & I2). split; [exact I1|]. destruct I2 as [I2|I2]; [left; rewrite I2; reflexivity|right]. intros Gd. apply I2. apply Gs. replace (S (Z.to_nat (i - 1))) with (Z.to_nat i) by lia. exact Gd.
  - rewrite IH. reflexivity.
Qed.
(** From a new compiler. *)
Lemma segs_ok fuel i off s a G live R : core s [(a, [])] G live R -> 0 <= i -> 0 <= off ->
  match segs b fuel i off 0 s with
  | DRet (off', s') => exists F' fs, psegs b fuel i off = PRet (off', fs) /\ map snd F' = (match fs with [] => [[]] | _ => fs end) /\ core s' F' G live R /\ same s s' /\ cabufp s' = cabufp s /\ off <= off' /\ gstep (Z.to_nat i) s s'
  | DErr s' => cored s' live /\ (psegs b fuel i off = PErr \/ ~ good (Z.to_nat i) (ch s))
  | DBad => psegs b fuel i off = PBad
  end.
Proof.
  intros C Pi Po. destruct fuel as [|fuel].
  { cbn [segs psegs]. destruct (i =? 0) eqn:Zi; [|reflexivity]. exists [(a, [])], []. sj; auto using same_refl; try lia. intros k. replace (Z.to_nat i + k)%nat with k by lia. auto. }
  cbn [segs psegs]. destruct (i =? 0) eqn:Zi.
  { exists [(a, [])], []. sj; auto using same_refl; try lia. intros k. replace (Z.to_nat i + k)%nat with k by lia. auto. }
  destruct (left b off <? 8). { split; [exists [(a, [])], G, R; exact C|auto]. }
  destruct (rdw b off) as [u|] eqn:Eu; [|reflexivity]. pose proof (rdw_64 _ _ Eu) as U64. cbv zeta.
  destruct (left b (off + 8) <? align8 u) eqn:El. { split; [exists [(a, [])], G, R; exact C|auto]. }
  pose proof C as (_ & (Fb & _ & Fk) & _). apply Forall_cons_iff in Fk. destruct Fk as ((Fk & _) & _). cbn [fst hdp] in *. unfold bok in Fk. rewrite Z.eqb_refl, Fb. replace (a =? 0) with false by lia.
  destruct ((u >? BUF_SIZE - MEMORY) || (off + 8 + u >? bsize b)) eqn:Ov; [reflexivity|]. unfold BUF_SIZE, MEMORY in *. unfold is64 in U64.
  pose proof (sub_len (off + 8) u ltac:(lia) ltac:(lia) ltac:(lia)) as Ls. pose proof (seg_first s a G live R (sub b (off + 8) u) C ltac:(lia)) as C2. rewrite Ls in C2.
  change (set_h (st s (a + 8) u) (mkH (put (hm (ch (st s (a + 8) u))) (a + 16) (sub b (off + 8) u)) (hsched (ch (st s (a + 8) u))) (hlive (ch (st s (a + 8) u))))) with (hput (st s (a + 8) u) (a + 16) (sub b (off + 8) u)).
  set (s4 := hput _ _ _) in *. pose proof (align8_bounds u ltac:(lia)) as Al.
  assert (Sm : same s s4) by (repeat split). assert (Ga : cabufp s4 = cabufp s) by reflexivity. assert (Gs : forall k, good (S k) (ch s) -> good k (ch s4)).
  { intros k (Ga1 & Ga2). split; [exact Ga1|]. change (hsched (ch s4)) with (hsched (ch s)). lia. }
  clearbody s4. pose proof (segs_next fuel (i - 1) (off + 8 + align8 u) s4 [(a, sub b (off + 8) u)] G live R C2 ltac:(lia) ltac:(lia)) as IH. change (lastp [(a, sub b (off + 8) u)]) with a in IH.
  destruct (segs b fuel (i - 1) (off + 8 + align8 u) a s4) as [(off', s')|s'|].
  - destruct IH as (F' & I1 & I2 & I3 & I4 & I5 & I6). rewrite I1. exists ((a, sub b (off + 8) u) :: F'), (sub b (off + 8) u :: map snd F'). cbn [pbind fst snd map]. sj; auto; try lia; try (apply (same_trans _ _ _ Sm I3)); try congruence.
    intros k Gd. apply I6. apply Gs. replace (S (Z.to_nat (i - 1) + k)) with (Z.to_nat i + k)%nat by lia. exact Gd.
  - destruct IH as (I1 & I2). split; [exact I1|]. destruct I2 as [I2|I2]; [left; rewrite I2; reflexivity|right]. intros Gd. apply I2. apply Gs. replace (S (Z.to_nat (i - 1))) with (Z.to_nat i) by lia. exact Gd.
  - rewrite IH. reflexivity.
Qed.

(** ** The records *)
Definition labD (n q : Z) (r : lrec) : list (Z * cell) :=
  match snd r with None => [(q + 8, W n); (q + 16, W (fst r))] | Some (t, d) => [(q + 8, W t); (q + 16, W (fst r)); (q + 24, W n); (q + 32, W d)] end.
Definition jmpD (_ q : Z) (j : jrec) : list (Z * cell) := let '(a, f, u) := j in [(q + 8, W a); (q + 16, W f); (q + 24, W u)].
(** What is stored for a jump, given the addresses of the labels. *)
Definition res (LP : list Z) (j : jrec) : jrec := let '(a, f, v) := j in (a, f, if Z.testbit f 0 then v else if v =? 2 ^ 64 - 1 then 0 else nth (Z.to_nat v) LP 0).
Definition kp (s s' : cst) : Prop := (cself s', cbufp s', ccount s', csz s', cerr s', cfld s') = (cself s, cbufp s, ccount s, csz s, cerr s, cfld s).
Definition kl (s s' : cst) : Prop := (clab s', clastl s') = (clab s, clastl s).
Definition kj (s s' : cst) : Prop := (cjmp s', clastj s') = (cjmp s, clastj s).
Definition kc (s s' : cst) : Prop := (ccon s', clastc s') = (ccon s, clastc s).
Lemma rest_kp s s' : rest s s' -> csz s' = csz s -> cbufp s' = cbufp s -> cerr s' = cerr s -> kp s s' /\ kl s s' /\ kj s s' /\ kc s s'.
Proof. unfold rest, kp, kl, kj, kc. intros H A B C. injection H as -> -> -> -> -> -> -> -> ->. rewrite A, B, C. repeat split. Qed.
Lemma kp_trans s s' s'' : kp s s' -> kp s' s'' -> kp s s''. Proof. unfold kp. congruence. Qed.
Lemma kl_trans s s' s'' : kl s s' -> kl s' s'' -> kl s s''. Proof. unfold kl. congruence. Qed.
Lemma kj_trans s s' s'' : kj s s' -> kj s' s'' -> kj s s''. Proof. unfold kj. congruence. Qed.
Lemma kc_trans s s' s'' : kc s s' -> kc s' s'' -> kc s s''. Proof. unfold kc. congruence. Qed.
Definition ptrs {A} (L : list (Z * A)) : Prop := Forall (fun x => 0 < fst x < 2 ^ 64) L.
Lemma link2 {A} (body : Z -> Z -> A -> list (Z * cell)) s F G live R L n q : core s F G live (chainH body n L 0 ++ R) -> ptrs L ->
  core (if lastp L =? 0 then s else st s (lastp L) q) F G live (chainH body n L q ++ R).
Proof.
  intros C P. pose proof (link_ok body s F G live R L n q C) as X. unfold link in X. assert (P' : Forall (fun x : Z * A => 0 < fst x) L) by (eapply Forall_mono; [|exact P]; cbn; lia). specialize (X P').
  destruct (lastp L =? 0); apply X.
Qed.
Lemma lastp_zero {A} (L : list (Z * A)) : ptrs L -> (lastp L =? 0) = match L with [] => true | _ => false end.
Proof.
  intros P. destruct L as [|f L0 _] using rev_ind; [reflexivity|]. destruct f as (q, a). rewrite lastp_snoc. apply Forall_app in P. destruct P as (_ & P). apply Forall_cons_iff in P. destruct P as (P & _). cbn [fst] in P. replace (q =? 0) with false by lia. destruct L0; reflexivity.
Qed.
Lemma hdn_ptr {A} (L : list (Z * A)) q : hdn L q = match L with [] => q | _ => hdp L end. Proof. destruct L as [|(x, y) L]; reflexivity. Qed.
Lemma ptrs_snoc {A} (L : list (Z * A)) q a : ptrs L -> 0 < q < 2 ^ 64 -> ptrs (L ++ [(q, a)]).
Proof. intros P Q. apply Forall_app. split; [exact P|]. constructor; [exact Q|constructor]. Qed.
Lemma chain_snoc' {A} (body : Z -> Z -> A -> list (Z * cell)) L q a : chainH body 0 (L ++ [(q, a)]) 0 = chainH body 0 L q ++ (q, W 0) :: body (zlen L) q a.
Proof. rewrite chain_snoc. reflexivity. Qed.
Lemma labs_ok : forall fuel n al off L s F G live U, core s F G live (chainH labD 0 L 0 ++ U) -> ptrs L -> clab s = hdp L -> 0 <= off ->
  match labs b fuel (zlen L) n al off (lastp L) (map fst L) s with
  | DRet (off', al', ll, last, s') => exists L' G', plabs b fuel (zlen L) n al off = PRet (off', al', map snd L') /\
      core s' F G' live (chainH labD 0 (L ++ L') 0 ++ U) /\ ptrs (L ++ L') /\ clab s' = hdp (L ++ L') /\ last = lastp (L ++ L') /\ ll = map fst (L ++ L') /\
      clastl s' = clastl s /\ kp s s' /\ kj s s' /\ kc s s' /\ gstep (Z.to_nat (n - zlen L)) s s' /\ off <= off' /\ (zlen L <= n -> zlen (L ++ L') = n)
  | DErr s' => cored s' live /\ (plabs b fuel (zlen L) n al off = PErr \/ ~ good (Z.to_nat (n - zlen L)) (ch s))
  | DBad => plabs b fuel (zlen L) n al off = PBad
  end.
Proof.
  induction fuel as [|fuel IH]; intros n al off L s F G live U C PL HL Po.
  { cbn [labs plabs]. destruct (negb (zlen L <? n)) eqn:Zi; [|reflexivity]. exists [], G. rewrite app_nil_r. sj; auto; try reflexivity; try lia. intros k. replace (Z.to_nat (n - zlen L) + k)%nat with k by lia. auto. }
  cbn [labs plabs]. destruct (negb (zlen L <? n)) eqn:Zi.
  { exists [], G. rewrite app_nil_r. sj; auto; try reflexivity; try lia. intros k. replace (Z.to_nat (n - zlen L) + k)%nat with k by lia. auto. }
  destruct (rdw b off) as [t|] eqn:Et; [|reflexivity]. pose proof (rdw_64 _ _ Et) as T64. cbv zeta.
  set (nb := if t <? LABEL_ALIGNED then 24 else 40). pose proof (ensure_abuf_ok s F G live _ nb C ltac:(unfold nb; destruct (t <? LABEL_ALIGNED); lia)) as E. pose proof (good_abuf) as Gd.
  assert (Gd' : forall k, good (S k) (ch s) -> fst (ensure_abuf s nb) <> 0 /\ good k (ch (snd (ensure_abuf s nb)))).
  { intros k Hk. pose proof (good_abuf k s F G live _ nb C Hk) as X. destruct (ensure_abuf s nb); exact X. }
  clear Gd. destruct (ensure_abuf s nb) as (q, s1). cbn [fst snd] in Gd'. destruct E as (E1 & E2 & E3 & E4).
  assert (Nk : S (Z.to_nat (n - (zlen L + 1))) = Z.to_nat (n - zlen L)) by lia.
  destruct (q =? 0) eqn:Zq.
  { destruct E4 as [(_ & _ & E4)|(E4 & _)]; [|lia]. split; [eexists _, _, _; exact E4|]. right. intros Hg. rewrite <- Nk in Hg. destruct (Gd' _ Hg). lia. }
  destruct E4 as [(E4 & _)|(E4 & E5 & G1 & C1 & _)]; [lia|]. destruct (rest_kp s s1 E1 E2 E3 E5) as (K1 & K2 & K3 & K4).
  assert (Q : 0 < q < 2 ^ 64) by (unfold nb in E4; destruct (t <? LABEL_ALIGNED); lia). clear E4.
  assert (C2 : core (st s1 q 0) F G1 live (chainH labD 0 L 0 ++ (q, W 0) :: (q + 8, Un (nb - 8)) :: U)).
  { replace nb with (8 + (nb - 8)) in C1 by apply Zplus_minus. apply core_split in C1; try lia; [|unfold nb; destruct (t <? LABEL_ALIGNED); lia]. apply core_st with (v := 0) in C1; [|reflexivity]. cp C1. }
  apply (link2 labD _ _ _ _ _ _ _ q) in C2; [|exact PL].
  set (s2 := if lastp L =? 0 then set_labs (st s1 q 0) q (clastl (st s1 q 0)) else st (st s1 q 0) (lastp L) q).
  assert (C3 : core s2 F G1 live (chainH labD 0 L q ++ (q, W 0) :: (q + 8, Un (nb - 8)) :: U)). { unfold s2. destruct (lastp L =? 0); eapply core_ext; try exact C2; reflexivity. } clear C2.
  assert (H2 : clab s2 = hdn L q). { unfold s2. rewrite (lastp_zero L PL), hdn_ptr. injection K2 as K2 _. destruct L; cbn; [reflexivity|]. rewrite K2. exact HL. }
  assert (KK : clastl s2 = clastl s /\ kp s s2 /\ kj s s2 /\ kc s s2 /\ ch s2 = ch s2). { injection K2 as K2 K2'. unfold s2. destruct (lastp L =? 0); sj; auto. }
  assert (G2 : forall k, good (S k) (ch s) -> good k (ch s2)). { intros k Hk. destruct (Gd' k Hk) as (_ & X). unfold s2. destruct (lastp L =? 0); exact X. }
  clearbody s2. destruct KK as (KA & KB & KC & KD & _). clear Gd' K1 K2 K3 K4 C1 E5 E1 E2 E3. clear s1.
  destruct (8 * (zlen L + 1) >? wrap (8 * n)); [reflexivity|]. unfold nb in C3. destruct (t <? LABEL_ALIGNED) eqn:Ty.
  - assert (C4 : core (st (st s2 (q + 8) (zlen L)) (q + 16) t) F G1 live (chainH labD 0 (L ++ [(q, (t, None))]) 0 ++ U)).
    { cfront C3 (q + 8, Un (24 - 8)). change (24 - 8) with (8 + 8) in C3. apply core_split in C3; try lia. replace (q + 8 + 8) with (q + 16) in C3 by lia. apply core_st with (v := zlen L) in C3; [|reflexivity]. cst C3 (q + 16) t.
      rewrite chain_snoc'. change (labD (zlen L) q (t, None)) with [(q + 8, W (zlen L)); (q + 16, W t)]. cp C3. }
    specialize (IH n al (off + 8) _ _ _ _ _ _ C4 (ptrs_snoc _ _ _ PL Q)). cbn [clab st set_h] in IH. rewrite hdp_snoc, lastp_snoc, zlen_app, map_app in IH. change (zlen [(q, (t, @None (Z * Z)))]) with 1 in IH. cbn [map fst] in IH. specialize (IH H2 ltac:(lia)).
    set (s4 := st (st s2 (q + 8) (zlen L)) (q + 16) t) in *. assert (G4 : forall k, good (S k) (ch s) -> good k (ch s4)) by exact G2. assert (KK : clastl s4 = clastl s /\ kp s s4 /\ kj s s4 /\ kc s s4) by (sj; assumption). clearbody s4. clear KA KB KC KD. destruct KK as (KA & KB & KC & KD).
    destruct (labs b fuel (zlen L + 1) n al (off + 8) q (map fst L ++ [q]) s4) as [((((off', al'), ll), last), s')|s'|].
    + destruct IH as (L' & G' & I1 & I2 & I3 & I4 & I5 & I6 & I7 & I8 & I9 & I10 & I11 & I12 & I13). rewrite I1. exists ((q, (t, None)) :: L'), G'. rewrite <- app_assoc in *. cbn [app] in *. cbn [pbind fst snd map].
      sj; auto; try lia; try congruence; eauto using kp_trans, kj_trans, kc_trans.
      * intros k Hk. apply I11. apply G4. rewrite <- Nk in Hk. exact Hk.
      * intros Hn. apply I13. lia.
    + destruct IH as (I1 & I2). split; [exact I1|]. destruct I2 as [I2|I2]; [left; rewrite I2; reflexivity|right]. intros Hg. apply I2. apply G4. rewrite Nk. exact Hg.
    + rewrite IH. reflexivity.
  - destruct (al =? 0). { split; [eexists _, _, _; exact C3|auto]. }
    destruct (rdw b (off + 8)) as [sz|] eqn:Es; [|reflexivity]. destruct (rdw b (off + 8 + 8)) as [d|] eqn:Ed; [|reflexivity].
    assert (C4 : core (st (st (st (st s2 (q + 8) t) (q + 16) sz) (q + 24) (zlen L)) (q + 32) d) F G1 live (chainH labD 0 (L ++ [(q, (sz, Some (t, d)))]) 0 ++ U)).
    { cfront C3 (q + 8, Un (40 - 8)). change (40 - 8) with (8 + 24) in C3. apply core_split in C3; try lia. replace (q + 8 + 8) with (q + 16) in C3 by lia. apply core_st with (v := t) in C3; [|reflexivity].
      cfront C3 (q + 16, Un 24). change (Un 24) with (Un (8 + 16)) in C3. apply core_split in C3; try lia. replace (q + 16 + 8) with (q + 24) in C3 by lia. apply core_st with (v := sz) in C3; [|reflexivity].
      cfront C3 (q + 24, Un 16). change (Un 16) with (Un (8 + 8)) in C3. apply core_split in C3; try lia. replace (q + 24 + 8) with (q + 32) in C3 by lia. apply core_st with (v := zlen L) in C3; [|reflexivity]. cst C3 (q + 32) d.
      rewrite chain_snoc'. change (labD (zlen L) q (sz, Some (t, d))) with [(q + 8, W t); (q + 16, W sz); (q + 24, W (zlen L)); (q + 32, W d)]. cp C3. }
    specialize (IH n (al - 1) (off + 8 + 16) _ _ _ _ _ _ C4 (ptrs_snoc _ _ _ PL Q)). cbn [clab st set_h] in IH. rewrite hdp_snoc, lastp_snoc, zlen_app, map_app in IH. change (zlen [(q, (sz, Some (t, d)))]) with 1 in IH. cbn [map fst] in IH. specialize (IH H2 ltac:(lia)).
    set (s4 := st (st (st (st s2 (q + 8) t) (q + 16) sz) (q + 24) (zlen L)) (q + 32) d) in *. assert (G4 : forall k, good (S k) (ch s) -> good k (ch s4)) by exact G2. assert (KK : clastl s4 = clastl s /\ kp s s4 /\ kj s s4 /\ kc s s4) by (sj; assumption). clearbody s4. clear KA KB KC KD. destruct KK as (KA & KB & KC & KD).
    destruct (labs b fuel (zlen L + 1) n (al - 1) (off + 8 + 16) q (map fst L ++ [q]) s4) as [((((off', al'), ll), last), s')|s'|].
    + destruct IH as (L' & G' & I1 & I2 & I3 & I4 & I5 & I6 & I7 & I8 & I9 & I10 & I11 & I12 & I13). rewrite I1. exists ((q, (sz, Some (t, d))) :: L'), G'. rewrite <- app_assoc in *. cbn [app] in *. cbn [pbind fst snd map].
      sj; auto; try lia; try congruence; eauto using kp_trans, kj_trans, kc_trans.
      * intros k Hk. apply I11. apply G4. rewrite <- Nk in Hk. exact Hk.
      * intros Hn. apply I13. lia.
    + destruct IH as (I1 & I2). split; [exact I1|]. destruct I2 as [I2|I2]; [left; rewrite I2; reflexivity|right]. intros Hg. apply I2. apply G4. rewrite Nk. exact Hg.
    + rewrite IH. reflexivity.
Qed.

Lemma jmps_ok LP : forall fuel i n off J s F G live U, core s F G live (chainH jmpD 0 J 0 ++ U) -> ptrs J -> cjmp s = hdp J -> 0 <= off -> 0 <= i ->
  match jmps b fuel i n off (lastp J) LP s with
  | DRet (off', last, s') => exists js J' G', pjmps b fuel i n off = PRet (off', js) /\ map snd J' = map (res LP) js /\
      core s' F G' live (chainH jmpD 0 (J ++ J') 0 ++ U) /\ ptrs (J ++ J') /\ cjmp s' = hdp (J ++ J') /\ last = lastp (J ++ J') /\
      clastj s' = clastj s /\ kp s s' /\ kl s s' /\ kc s s' /\ gstep (Z.to_nat i) s s' /\ off <= off'
  | DErr s' => cored s' live /\ (pjmps b fuel i n off = PErr \/ ~ good (Z.to_nat i) (ch s))
  | DBad => pjmps b fuel i n off = PBad
  end.
Proof.
  induction fuel as [|fuel IH]; intros i n off J s F G live U C PJ HJ Po Pi.
  { cbn [jmps pjmps]. destruct (i =? 0) eqn:Zi; [|auto]. exists [], [], G. rewrite app_nil_r. sj; auto; try reflexivity; try lia. intros k. replace (Z.to_nat i + k)%nat with k by lia. auto. }
  cbn [jmps pjmps]. destruct (i =? 0) eqn:Zi.
  { exists [], [], G. rewrite app_nil_r. sj; auto; try reflexivity; try lia. intros k. replace (Z.to_nat i + k)%nat with k by lia. auto. }
  pose proof (ensure_abuf_ok s F G live _ 32 C ltac:(lia)) as E.
  assert (Gd' : forall k, good (S k) (ch s) -> fst (ensure_abuf s 32) <> 0 /\ good k (ch (snd (ensure_abuf s 32)))).
  { intros k Hk. pose proof (good_abuf k s F G live _ 32 C Hk) as X. destruct (ensure_abuf s 32); exact X. }
  destruct (ensure_abuf s 32) as (q, s1). cbn [fst snd] in Gd'. destruct E as (E1 & E2 & E3 & E4).
  assert (Nk : S (Z.to_nat (i - 1)) = Z.to_nat i) by lia.
  destruct (q =? 0) eqn:Zq.
  { destruct E4 as [(_ & _ & E4)|(E4 & _)]; [|lia]. split; [eexists _, _, _; exact E4|]. right. intros Hg. rewrite <- Nk in Hg. destruct (Gd' _ Hg). lia. }
  destruct E4 as [(E4 & _)|(E4 & E5 & G1 & C1 & _)]; [lia|]. destruct (rest_kp s s1 E1 E2 E3 E5) as (K1 & K2 & K3 & K4). assert (Q : 0 < q < 2 ^ 64) by lia.
  destruct (rdw b off) as [a|] eqn:Ea; [|auto]. destruct (rdw b (off + 8)) as [f|] eqn:Ef; [|auto]. destruct (rdw b (off + 16)) as [v|] eqn:Ev; [|auto]. cbv zeta. fold (jbad n f v).
  assert (C2 : core (st (st (st s1 q 0) (q + 8) a) (q + 16) f) F G1 live ((q, W 0) :: (q + 8, W a) :: (q + 16, W f) :: (q + 24, Un 8) :: chainH jmpD 0 J 0 ++ U)).
  { apply core_words4 in C1. cst C1 q 0. cst C1 (q + 8) a. cst C1 (q + 16) f. cp C1. }
  destruct (jbad n f v). { split; [eexists _, _, _; exact C2|auto]. }
  set (w := if Z.testbit f 0 then v else if v =? 2 ^ 64 - 1 then 0 else nth (Z.to_nat v) LP 0). cst C2 (q + 24) w.
  set (s2 := st (st (st (st s1 q 0) (q + 8) a) (q + 16) f) (q + 24) w) in *. assert (F2 : kp s s2 /\ kl s s2 /\ kj s s2 /\ kc s s2 /\ forall k, good (S k) (ch s) -> good k (ch s2)) by (sj; try assumption; intros k Hk; apply (Gd' k Hk)).
  clearbody s2. destruct F2 as (F2 & F3 & F4 & F5 & F6). clear K1 K2 K3 K4 Gd' C1 E1 E2 E3 E4 E5.
  assert (C3 : core (if lastp J =? 0 then s2 else st s2 (lastp J) q) F G1 live (chainH jmpD 0 (J ++ [(q, (a, f, w))]) 0 ++ U)).
  { rewrite chain_snoc'. change (jmpD (zlen J) q (a, f, w)) with [(q + 8, W a); (q + 16, W f); (q + 24, W w)].
    assert (X : core s2 F G1 live (chainH jmpD 0 J 0 ++ (q, W 0) :: (q + 8, W a) :: (q + 16, W f) :: (q + 24, W w) :: U)) by cp C2. apply (link2 jmpD _ _ _ _ _ _ _ q) in X; [|exact PJ]. cp X. }
  set (s4 := if lastp J =? 0 then set_jmps s2 q (clastj s2) else st s2 (lastp J) q).
  assert (C4 : core s4 F G1 live (chainH jmpD 0 (J ++ [(q, (a, f, w))]) 0 ++ U)). { unfold s4. destruct (lastp J =? 0); eapply core_ext; try exact C3; reflexivity. }
  assert (H4 : cjmp s4 = hdn J q). { unfold s4. rewrite (lastp_zero J PJ), hdn_ptr. injection F4 as F4 _. destruct J; cbn; [reflexivity|]. rewrite F4. exact HJ. }
  assert (KK : clastj s4 = clastj s /\ kp s s4 /\ kl s s4 /\ kc s s4 /\ forall k, good (S k) (ch s) -> good k (ch s4)). { injection F4 as F4 F4'. unfold s4. destruct (lastp J =? 0); sj; auto. }
  clearbody s4. destruct KK as (KA & KB & KC & KD & G4).
  specialize (IH (i - 1) n (off + 24) _ _ _ _ _ _ C4 (ptrs_snoc _ _ _ PJ Q)). rewrite hdp_snoc, lastp_snoc in IH. specialize (IH H4 ltac:(lia) ltac:(lia)).
  destruct (jmps b fuel (i - 1) n (off + 24) q LP s4) as [((off', last), s')|s'|].
  - destruct IH as (js & J' & G' & I1 & I2 & I3 & I4 & I5 & I6 & I7 & I8 & I9 & I10 & I11 & I12). rewrite I1. exists ((a, f, v) :: js), ((q, (a, f, w)) :: J'), G'. rewrite <- app_assoc in *. cbn [app] in *. cbn [pbind fst snd map].
    sj; auto; try lia; try congruence; eauto using kp_trans, kl_trans, kc_trans.
    + rewrite I2. reflexivity.
    + intros k Hk. apply I11. apply G4. rewrite <- Nk in Hk. exact Hk.
  - destruct IH as (I1 & I2). split; [exact I1|]. destruct I2 as [I2|I2]; [left; rewrite I2; reflexivity|right]. intros Hg. apply I2. apply G4. rewrite Nk. exact Hg.
  - rewrite IH. reflexivity.
Qed.
Lemma cons_ok : forall fuel i off K s F G live U, core s F G live (chainH conB 0 K 0 ++ U) -> ptrs K -> ccon s = hdp K -> 0 <= off -> 0 <= i ->
  match cons b fuel i off (lastp K) s with
  | DRet (off', last, s') => exists K' G', pcons b fuel i off = PRet (off', map snd K') /\
      core s' F G' live (chainH conB 0 (K ++ K') 0 ++ U) /\ ptrs (K ++ K') /\ ccon s' = hdp (K ++ K') /\ last = lastp (K ++ K') /\
      clastc s' = clastc s /\ kp s s' /\ kl s s' /\ kj s s' /\ gstep (Z.to_nat i) s s' /\ off <= off'
  | DErr s' => cored s' live /\ ~ good (Z.to_nat i) (ch s)
  | DBad => pcons b fuel i off = PBad
  end.
Proof.
  induction fuel as [|fuel IH]; intros i off K s F G live U C PK HK Po Pi.
  { cbn [cons pcons]. destruct (i =? 0) eqn:Zi; [|auto]. exists [], G. rewrite app_nil_r. sj; auto; try reflexivity; try lia. intros k. replace (Z.to_nat i + k)%nat with k by lia. auto. }
  cbn [cons pcons]. destruct (i =? 0) eqn:Zi.
  { exists [], G. rewrite app_nil_r. sj; auto; try reflexivity; try lia. intros k. replace (Z.to_nat i + k)%nat with k by lia. auto. }
  pose proof (ensure_abuf_ok s F G live _ 16 C ltac:(lia)) as E.
  assert (Gd' : forall k, good (S k) (ch s) -> fst (ensure_abuf s 16) <> 0 /\ good k (ch (snd (ensure_abuf s 16)))).
  { intros k Hk. pose proof (good_abuf k s F G live _ 16 C Hk) as X. destruct (ensure_abuf s 16); exact X. }
  destruct (ensure_abuf s 16) as (q, s1). cbn [fst snd] in Gd'. destruct E as (E1 & E2 & E3 & E4).
  assert (Nk : S (Z.to_nat (i - 1)) = Z.to_nat i) by lia.
  destruct (q =? 0) eqn:Zq.
  { destruct E4 as [(_ & _ & E4)|(E4 & _)]; [|lia]. split; [eexists _, _, _; exact E4|]. intros Hg. rewrite <- Nk in Hg. destruct (Gd' _ Hg). lia. }
  destruct E4 as [(E4 & _)|(E4 & E5 & G1 & C1 & _)]; [lia|]. destruct (rest_kp s s1 E1 E2 E3 E5) as (K1 & K2 & K3 & K4). assert (Q : 0 < q < 2 ^ 64) by lia.
  destruct (rdw b off) as [a|] eqn:Ea; [|auto]. cbv zeta.
  apply core_words2 in C1. cst C1 q 0. cst C1 (q + 8) a.
  set (s2 := st (st s1 q 0) (q + 8) a) in *. assert (F2 : kp s s2 /\ kl s s2 /\ kj s s2 /\ kc s s2 /\ forall k, good (S k) (ch s) -> good k (ch s2)) by (sj; try assumption; intros k Hk; apply (Gd' k Hk)).
  clearbody s2. destruct F2 as (F2 & F3 & F4 & F5 & F6). clear K1 K2 K3 K4 Gd' E1 E2 E3 E4 E5.
  assert (C3 : core (if lastp K =? 0 then s2 else st s2 (lastp K) q) F G1 live (chainH conB 0 (K ++ [(q, a)]) 0 ++ U)).
  { rewrite chain_snoc'. change (conB (zlen K) q a) with [(q + 8, W a)].
    assert (X : core s2 F G1 live (chainH conB 0 K 0 ++ (q, W 0) :: (q + 8, W a) :: U)) by cp C1. apply (link2 conB _ _ _ _ _ _ _ q) in X; [|exact PK]. cp X. }
  set (s4 := if lastp K =? 0 then set_cons s2 q (clastc s2) else st s2 (lastp K) q).
  assert (C4 : core s4 F G1 live (chainH conB 0 (K ++ [(q, a)]) 0 ++ U)). { unfold s4. destruct (lastp K =? 0); eapply core_ext; try exact C3; reflexivity. }
  assert (H4 : ccon s4 = hdn K q). { unfold s4. rewrite (lastp_zero K PK), hdn_ptr. injection F5 as F5 _. destruct K; cbn; [reflexivity|]. rewrite F5. exact HK. }
  assert (KK : clastc s4 = clastc s /\ kp s s4 /\ kl s s4 /\ kj s s4 /\ forall k, good (S k) (ch s) -> good k (ch s4)). { injection F5 as F5 F5'. unfold s4. destruct (lastp K =? 0); sj; auto. }
  clearbody s4. destruct KK as (KA & KB & KC & KD & G4).
  specialize (IH (i - 1) (off + 8) _ _ _ _ _ _ C4 (ptrs_snoc _ _ _ PK Q)). rewrite hdp_snoc, lastp_snoc in IH. specialize (IH H4 ltac:(lia) ltac:(lia)).
  destruct (cons b fuel (i - 1) (off + 8) q s4) as [((off', last), s')|s'|].
  - destruct IH as (K' & G' & I1 & I3 & I4 & I5 & I6 & I7 & I8 & I9 & I10 & I11 & I12). rewrite I1. exists ((q, a) :: K'), G'. rewrite <- app_assoc in *. cbn [app] in *. cbn [pbind fst snd map].
    sj; auto; try lia; try congruence; eauto using kp_trans, kl_trans, kj_trans.
    intros k Hk. apply I11. apply G4. rewrite <- Nk in Hk. exact Hk.
  - destruct IH as (I1 & I2). split; [exact I1|]. intros Hg. apply I2. apply G4. rewrite Nk. exact Hg.
  - rewrite IH. reflexivity.
Qed.
End Loops.

(** ** SLJIT_FREE of another block *)
Lemma nodup_l {A} (l k : list A) : NoDup (l ++ k) -> NoDup l.
Proof. induction l as [|x l IH]; intros N; [constructor|]. cbn [app] in N. inversion N as [|? ? N1 N2]; subst. constructor; auto. intros I. apply N1. apply in_or_app. auto. Qed.
Lemma core_live s F G live R p : core s F G (p :: live) R -> ~ In p (cself s :: map fst F ++ map fst G ++ live).
Proof.
  intros (_ & _ & _ & _ & PM & ND). apply nodup_l in ND. apply (Permutation_NoDup PM) in ND.
  assert (X : Permutation (cself s :: map fst F ++ map fst G ++ p :: live) (p :: cself s :: map fst F ++ map fst G ++ live)) by psolve. apply (Permutation_NoDup X) in ND. inversion ND; auto.
Qed.
Lemma core_free s F G live R p : core s F G (p :: live) R -> core (set_h s (free (ch s) p)) F G live R.
Proof.
  intros C. pose proof (core_live _ _ _ _ _ _ C) as NI. destruct C as (S & FF & GG & SC & PM & ND). split; [exact S|]. split; [exact FF|]. split; [exact GG|]. split; [exact SC|]. cbn [set_h ch free hlive hsched cself].
  split.
  - rewrite (perm_remove p _ _ PM), (perm_remove p _ (p :: cself s :: map fst F ++ map fst G ++ live)) by psolve. rewrite remove_head by exact NI. reflexivity.
  - clear - ND. induction (hlive (ch s)) as [|x l IH]; [exact ND|]. cbn [app remove] in *. inversion ND as [|? ? N1 N2]; subst. destruct (Z.eq_dec p x); [apply IH; auto|]. cbn [app]. constructor; [|apply IH; auto].
    intros I. apply N1. apply in_app_or in I. apply in_or_app. destruct I as [I|I]; [left; eapply in_remove; eauto|auto].
Qed.
Lemma derror_ok s live lp : cored s (if lp =? 0 then live else lp :: live) -> Permutation (hlive (derror s lp)) live.
Proof.
  intros C. pose proof (free_ok _ _ C) as X. unfold derror. destruct (lp =? 0); [exact X|]. cbn [free hlive]. rewrite (perm_remove lp _ _ X). destruct C as (F & G & R & C).
  rewrite remove_head; [reflexivity|]. intros I. apply (core_live _ _ _ _ _ _ C). right. apply in_or_app. right. apply in_or_app. auto.
Qed.
Lemma core_set s s' F G live R : core s F G live R -> ch s' = ch s -> kp s s' -> cabufp s' = cabufp s -> core s' F G live R.
Proof. intros C A B D. unfold kp in B. injection B as B1 B2 _ _ _ _. eapply core_ext; eauto. Qed.

(** ** The whole function *)

(** The compiler [s] holds the image [x]. *)
Definition drep (s : cst) (x : image) (live : list Z) : Prop :=
  exists F G L J K U, core s F G live (chainH labD 0 L 0 ++ chainH jmpD 0 J 0 ++ chainH conB 0 K 0 ++ U) /\
    (map snd F = match i_frags x with [] => [[]] | _ => i_frags x end /\ map snd L = i_labs x /\ map snd J = map (res (map fst L)) (i_jmps x) /\ map snd K = i_cons x) /\
    (ptrs L /\ ptrs J /\ ptrs K) /\
    (clab s = hdp L /\ clastl s = lastp L /\ cjmp s = hdp J /\ clastj s = lastp J /\ ccon s = hdp K /\ clastc s = lastp K) /\
    (csz s = i_size x /\ ccount s = i_count x /\ cerr s = 0 /\ cfld s = i_fld x) /\ zlen L = i_count x.
(** Enough successful allocations: one for each element is more than needed. *)
Definition allocs (b : list Z) : nat := (4 + Z.to_nat (subw b 8) + Z.to_nat (subw b 16) + Z.to_nat (subw b 32) + Z.to_nat (subw b 40))%nat.
Lemma good_le k n h : (k <= n)%nat -> good n h -> good k h.
Proof. intros L (A & B). split; auto. lia. Qed.
Lemma create_good h : forall k, good (3 + k) h -> match create_compiler h with (Some s, _) => good k (ch s) | (None, _) => False end.
Proof.
  intros k Gd. unfold create_compiler. destruct (malloc h) as (p1, h1) eqn:M1. destruct (good_malloc _ _ _ _ Gd M1) as (P1 & Gd1). replace (p1 =? 0) with false by lia.
  destruct (malloc h1) as (p2, h2) eqn:M2. destruct (good_malloc _ _ _ _ Gd1 M2) as (P2 & Gd2). destruct (malloc h2) as (p3, h3) eqn:M3. destruct (good_malloc _ _ _ _ Gd2 M3) as (P3 & Gd3).
  replace (p2 =? 0) with false by lia. replace (p3 =? 0) with false by lia. exact Gd3.
Qed.
Lemma subw_pos b off : Forall isb b -> 0 <= subw b off.
Proof.
  intros Bb. unfold subw, sub. apply dec_bound. apply Forall_forall. intros y I. rewrite Forall_forall in Bb. apply Bb. rewrite <- (firstn_skipn (Z.to_nat off) b). apply in_or_app. right. rewrite <- (firstn_skipn (Z.to_nat 8) (skipn (Z.to_nat off) b)). apply in_or_app. auto.
Qed.
Theorem deserialize_ok b dbg h : Forall isb b -> heap_ok h ->
  match deserialize b dbg h with
  | DNull h' => Permutation (hlive h') (hlive h) /\ (parse b dbg = PErr \/ ~ good (allocs b) h)
  | DUB => parse b dbg = PBad
  | DOk s d => exists x, parse b dbg = PRet (x, d) /\ drep s x (hlive h)
  end.
Proof.
  intros Bb H. unfold deserialize, parse. destruct ((bsize b <? HEADER) || negb (bsize b mod 8 =? 0)); [auto|]. destruct (negb (dec (sub b 0 4) =? SIGNATURE) || negb (dec (sub b 4 2) =? VERSION)); [auto|].
  pose proof (create_core h H) as X. pose proof (create_good h) as Gc. destruct (create_compiler h) as (o, h0). destruct o as [s0|]; [|split; [rewrite X; reflexivity|right; intros Gd; apply (Gc (1 + Z.to_nat (subw b 8) + Z.to_nat (subw b 16) + Z.to_nat (subw b 32) + Z.to_nat (subw b 40))%nat); exact Gd]].
  destruct X as (_ & (bb & ab & C) & E0). injection E0 as E1 E2 E3 E4 E5 E6 E7 E8 E9 E10. cbv zeta.
  set (ns := subw b 8) in *. set (n := subw b 16) in *. set (nj := subw b 32) in *. set (nc := subw b 40) in *.
  pose proof (subw_pos b 8 Bb) as P1. pose proof (subw_pos b 16 Bb) as P2. pose proof (subw_pos b 32 Bb) as P3. pose proof (subw_pos b 40 Bb) as P4. fold ns in P1. fold n in P2. fold nj in P3. fold nc in P4.
  rewrite E10. cbn [fields0 f_vscratches f_vsaveds]. set (fl := mkF (sub32 b 48) (sub32 b 52) (sub32 b 56) (sub32 b 60) (sub32 b 64) (sub32 b 68) (-1) (-1)).
  set (s1 := set_size (set_fld (set_count s0 n) fl) (subw b 72)).
  assert (C1 : core s1 [(bb, [])] [(ab, 0)] (hlive h) []) by (eapply core_ext; [exact C|..]; reflexivity).
  assert (Q1 : (clab s1, clastl s1, cjmp s1, clastj s1, ccon s1, clastc s1) = (0, 0, 0, 0, 0, 0)) by (unfold s1; cbn [set_labs set_jmps set_cons set_h set_size set_fld set_count clab clastl cjmp clastj ccon clastc ccount csz cerr cfld]; congruence).
  assert (Q2 : (ccount s1, csz s1, cerr s1, cfld s1) = (n, subw b 72, 0, fl)) by (unfold s1; cbn [set_labs set_jmps set_cons set_h set_size set_fld set_count clab clastl cjmp clastj ccon clastc ccount csz cerr cfld]; congruence).
  assert (G1 : forall k, good (3 + k) h -> good k (ch s1)) by exact Gc.
  assert (AL : allocs b = (3 + (Z.to_nat ns + (1 + (Z.to_nat n + (Z.to_nat nj + Z.to_nat nc)))))%nat) by (unfold allocs, ns, n, nj, nc; lia).
  clearbody s1. clear C Gc E1 E2 E3 E4 E5 E6 E7 E8 E9 E10. clear s0. rewrite AL. clear AL.
  destruct (dbg && negb (Z.testbit (dec (sub b 6 2)) 0)). { split; [|auto]. apply derror_ok. eexists _, _, _; exact C1. }
  pose proof (segs_ok b Bb (S (length b)) ns HEADER s1 bb _ _ _ C1 P1 ltac:(unfold HEADER; lia)) as X. destruct (segs b (S (length b)) ns HEADER 0 s1) as [(off, s2)|s2|].
  2:{ destruct X as (X1 & X2). split; [apply derror_ok; exact X1|]. destruct X2 as [->|X2]; [left; reflexivity|right]. intros Gd. apply X2. apply G1. eapply good_le; [|exact Gd]. lia. }
  2:{ rewrite X. reflexivity. }
  destruct X as (F & fs & X1 & X2 & C2 & (S2 & S2' & S2'') & _ & O2 & Gs2). rewrite X1. cbn [pbind].
  assert (Q3 : (clab s2, clastl s2, cjmp s2, clastj s2, ccon s2, clastc s2) = (0, 0, 0, 0, 0, 0)) by (unfold rest in S2; congruence).
  assert (Q4 : (ccount s2, csz s2, cerr s2, cfld s2) = (n, subw b 72, 0, fl)) by (unfold rest in S2; congruence).
  assert (G2 : forall k, good (3 + (Z.to_nat ns + k)) h -> good k (ch s2)) by (intros k Hk; apply Gs2; apply G1; exact Hk).
  clear C1 S2 S2' S2'' Q1 Q2 G1 Gs2. clear s1. destruct (left b off <? wrap (wrap (n * 8) + wrap (subw b 24 * 16))). { split; [|auto]. apply derror_ok. eexists _, _, _; exact C2. }
  destruct (malloc (ch s2)) as (lp, h2) eqn:M. destruct (core_malloc _ _ _ _ _ _ _ C2 M) as (_ & M1). destruct (lp =? 0) eqn:Zl.
  { destruct M1 as [(_ & _ & M1)|(M1 & _)]; [|unfold bok in M1; lia]. split; [apply derror_ok; eexists _, _, _; exact M1|]. right. intros Gd. pose proof (G2 _ Gd) as Gd2. destruct (good_malloc _ _ _ _ Gd2 M). lia. }
  destruct M1 as [(M1 & _)|(_ & _ & _ & C3)]; [lia|]. set (s3 := set_h s2 h2) in *.
  assert (Q5 : (clab s3, clastl s3, cjmp s3, clastj s3, ccon s3, clastc s3) = (0, 0, 0, 0, 0, 0)) by exact Q3. assert (Q6 : (ccount s3, csz s3, cerr s3, cfld s3) = (n, subw b 72, 0, fl)) by exact Q4.
  assert (G3 : forall k, good (3 + (Z.to_nat ns + (1 + k))) h -> good k (ch s3)) by (intros k Hk; apply (good_malloc _ _ _ _ (G2 _ Hk) M)).
  clearbody s3. clear Q3 Q4 G2 M C2. clear s2 h2. injection Q5 as A1 A2 A3 A4 A5 A6. injection Q6 as B1 B2 B3 B4.
  pose proof (labs_ok b Bb (S (length b)) n (subw b 24) off [] s3 F _ _ [(lp, Un 4096)] C3 ltac:(constructor) A1 ltac:(unfold HEADER in *; lia)) as X. change (zlen (@nil (Z * lrec))) with 0 in X. change (lastp (@nil (Z * lrec))) with 0 in X. cbn [map] in X.
  destruct (labs b (S (length b)) 0 n (subw b 24) off 0 [] s3) as [((((off2, al), ll), last), s4)|s4|].
  2:{ destruct X as (X3 & X4). split; [apply derror_ok; rewrite Zl; exact X3|]. destruct X4 as [->|X4]; [left; reflexivity|right]. intros Gd. apply X4. apply G3. eapply good_le; [|exact Gd]. lia. }
  2:{ rewrite X. reflexivity. }
  destruct X as (L & G4 & X3 & C4 & PL & H4 & -> & -> & Y1 & Y2 & Y3 & Y4 & Gs4 & O4 & Ln). rewrite X3. cbn [pbind]. cbn [app] in *. specialize (Ln P2).
  replace (Z.to_nat (n - 0)) with (Z.to_nat n) in Gs4 by lia.
  set (s5 := set_labs s4 (clab s4) (lastp L)). assert (C5 : core s5 F G4 (lp :: hlive h) (chainH jmpD 0 [] 0 ++ chainH labD 0 L 0 ++ [(lp, Un 4096)])) by (eapply core_ext; [exact C4|..]; reflexivity).
  assert (Z5 : (clab s5, clastl s5, cjmp s5, clastj s5, ccon s5, clastc s5) = (hdp L, lastp L, 0, 0, 0, 0)) by (unfold kj, kc in *; unfold s5; cbn [set_labs set_jmps set_cons set_h set_size set_fld set_count clab clastl cjmp clastj ccon clastc ccount csz cerr cfld]; congruence).
  assert (Z6 : (ccount s5, csz s5, cerr s5, cfld s5) = (n, subw b 72, 0, fl)) by (unfold kp in *; unfold s5; cbn [set_labs set_jmps set_cons set_h set_size set_fld set_count clab clastl cjmp clastj ccon clastc ccount csz cerr cfld]; congruence).
  assert (G5 : forall k, good (3 + (Z.to_nat ns + (1 + (Z.to_nat n + k)))) h -> good k (ch s5)) by (intros k Hk; apply Gs4; apply G3; exact Hk).
  clearbody s5. clear Y1 Y2 Y3 Y4 Gs4 G3 C4 C3 H4 A1 A2 A3 A4 A5 A6 B1 B2 B3 B4. clear s4 s3. destruct (negb (al =? 0)). { split; [|auto]. apply derror_ok. rewrite Zl. eexists _, _, _; exact C5. }
  destruct (left b off2 <? wrap (nj * 24)). { split; [|auto]. apply derror_ok. rewrite Zl. eexists _, _, _; exact C5. }
  injection Z5 as A1 A2 A3 A4 A5 A6. injection Z6 as B1 B2 B3 B4.
  pose proof (jmps_ok b (map fst L) (S (length b)) nj n off2 [] s5 F _ _ _ C5 ltac:(constructor) A3 ltac:(unfold HEADER in *; lia) P3) as X. change (lastp (@nil (Z * jrec))) with 0 in X.
  destruct (jmps b (S (length b)) nj n off2 0 (map fst L) s5) as [((off3, last), s6)|s6|].
  2:{ destruct X as (X4 & X5). split; [apply derror_ok; rewrite Zl; exact X4|]. destruct X5 as [->|X5]; [left; reflexivity|right]. intros Gd. apply X5. apply G5. eapply good_le; [|exact Gd]. lia. }
  2:{ rewrite X. reflexivity. }
  destruct X as (js & J & G6 & X4 & X5 & C6 & PJ & H6 & -> & Y1 & Y2 & Y3 & Y4 & Gs6 & O6). rewrite X4. cbn [pbind]. cbn [app] in *.
  set (s7 := set_h (set_jmps s6 (cjmp s6) (lastp J)) (free (ch (set_jmps s6 (cjmp s6) (lastp J))) lp)).
  assert (C7 : core s7 F G6 (hlive h) (chainH conB 0 [] 0 ++ chainH labD 0 L 0 ++ chainH jmpD 0 J 0 ++ [(lp, Un 4096)])).
  { apply core_free. eapply core_ext; [|reflexivity..]. cbn [chainH app]. cp C6. }
  assert (Z5 : (clab s7, clastl s7, cjmp s7, clastj s7, ccon s7, clastc s7) = (hdp L, lastp L, hdp J, lastp J, 0, 0)) by (unfold kl, kc in *; unfold s7; cbn [set_labs set_jmps set_cons set_h set_size set_fld set_count clab clastl cjmp clastj ccon clastc ccount csz cerr cfld]; congruence).
  assert (Z6 : (ccount s7, csz s7, cerr s7, cfld s7) = (n, subw b 72, 0, fl)) by (unfold kp in *; unfold s7; cbn [set_labs set_jmps set_cons set_h set_size set_fld set_count clab clastl cjmp clastj ccon clastc ccount csz cerr cfld]; congruence).
  assert (G7 : forall k, good (3 + (Z.to_nat ns + (1 + (Z.to_nat n + (Z.to_nat nj + k))))) h -> good k (ch s7)) by (intros k Hk; apply (Gs6 k); apply G5; exact Hk).
  clearbody s7. clear Y1 Y2 Y3 Y4 Gs6 G5 C6 C5 H6 A1 A2 A3 A4 A5 A6 B1 B2 B3 B4. clear s6 s5.
  destruct (left b off3 <? wrap (nc * 8)). { split; [|auto]. apply derror_ok. eexists _, _, _; exact C7. }
  injection Z5 as A1 A2 A3 A4 A5 A6. injection Z6 as B1 B2 B3 B4.
  pose proof (cons_ok b (S (length b)) nc off3 [] s7 F _ _ _ C7 ltac:(constructor) A5 ltac:(unfold HEADER in *; lia) P4) as X. change (lastp (@nil (Z * Z))) with 0 in X.
  destruct (cons b (S (length b)) nc off3 0 s7) as [((off4, last), s8)|s8|].
  2:{ destruct X as (X6 & X7). split; [apply derror_ok; exact X6|]. right. intros Gd. apply X7. apply G7. eapply good_le; [|exact Gd]. lia. }
  2:{ rewrite X. reflexivity. }
  destruct X as (K & G8 & X6 & C8 & PK & H8 & -> & Y1 & Y2 & Y3 & Y4 & Gs8 & O8). rewrite X6. cbn [pbind]. cbn [app] in *.
  set (s9 := set_cons s8 (ccon s8) (lastp K)). assert (C9 : core s9 F G8 (hlive h) (chainH labD 0 L 0 ++ chainH jmpD 0 J 0 ++ chainH conB 0 K 0 ++ [(lp, Un 4096)])) by (eapply core_ext; [|reflexivity..]; cp C8).
  assert (Z5 : (clab s9, clastl s9, cjmp s9, clastj s9, ccon s9, clastc s9) = (hdp L, lastp L, hdp J, lastp J, hdp K, lastp K)) by (unfold kl, kj in *; unfold s9; cbn [set_labs set_jmps set_cons set_h set_size set_fld set_count clab clastl cjmp clastj ccon clastc ccount csz cerr cfld]; congruence).
  assert (Z6 : (ccount s9, csz s9, cerr s9, cfld s9) = (n, subw b 72, 0, fl)) by (unfold kp in *; unfold s9; cbn [set_labs set_jmps set_cons set_h set_size set_fld set_count clab clastl cjmp clastj ccon clastc ccount csz cerr cfld]; congruence). clearbody s9.
  assert (DR : drep s9 (mkI fs (map snd L) js (map snd K) fl (subw b 72) n) (hlive h)).
  { injection Z5 as Z51 Z52 Z53 Z54 Z55 Z56. injection Z6 as Z61 Z62 Z63 Z64. exists F, G8, L, J, K, [(lp, Un 4096)]. cbn [i_frags i_labs i_jmps i_cons i_fld i_size i_count]. split; [exact C9|]. sj; auto. }
  unfold pdebug. destruct dbg; [|cbn [pbind]; eexists; split; [reflexivity|exact DR]].
  destruct (left b off4 <? 16). { split; [|auto]. apply derror_ok. eexists _, _, _; exact C9. } destruct (off4 + 16 >? bsize b); [reflexivity|]. cbn [pbind]. eexists; split; [reflexivity|exact DR].
Qed.
