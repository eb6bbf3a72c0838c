(** reduce_code_size computes the estimated sizes. *)
Require Import ZArith List Bool Lia Zify ZifyBool.
From Verif Require Import Rv.RvLib Rv.RvBits Rv.RvIsa Rv.RvEnc Rv.RvImm Rv.RvAddr Rv.RvLink Rv.RvLinkOps.
Import ListNotations.
Open Scope Z_scope.

(** No label follows a label without any unit between them. *)
Fixpoint okl (pend : bool) (ops : list op) : Prop :=
  match ops with
  | [] => True
  | OLab :: ops => pend = false /\ okl true ops
  | OAlign nops _ :: ops => nops <> [] /\ okl true ops
  | _ :: ops => okl false ops
  end.
(** Sizes of freshly emitted jumps. *)
Definition orig_op (o : op) : Prop :=
  match o with
  | OJmp _ j => jsz j = 12 /\ jmov j = false
  | OMov _ j => jsz j = 11 /\ jmov j = true
  | _ => True
  end.
Definition pos_op (o : op) : Prop := match o with OJmp _ j | OMov _ j => 0 <= jsz j | _ => True end.
Lemma orig_pos o : orig_op o -> pos_op o.
Proof. destruct o; cbn; lia. Qed.

Lemma klen_pos k : 0 <= klen k <= 2. Proof. destruct k; cbn; lia. Qed.
Lemma osize_pos o : pos_op o -> 0 <= osize o.
Proof. destruct o; cbn [osize pos_op]; intros; try (pose proof (klen_pos k)); lia. Qed.
Lemma total_pos ops : Forall pos_op ops -> 0 <= total ops.
Proof. induction 1; cbn; [lia|]. pose proof (osize_pos x H). lia. Qed.

Definition plab (pend : option (option Z)) (p : Z) : list label := match pend with Some m => [mkLabel p m 0] | None => [] end.
Definition isp {A} (x : option A) : bool := match x with Some _ => true | None => false end.

Lemma labs_bounds ops : Forall pos_op ops -> forall p l, In l (labs p ops) -> p <= lsize l <= p + total ops.
Proof.
  induction 1 as [|o ops Ho Hops IH]; intros p l I; cbn [labs jmps csts total] in *; [destruct I|].
  pose proof (osize_pos o Ho). pose proof (total_pos ops Hops).
  apply in_app_or in I. destruct I as [I|I].
  - destruct o; cbn [olab ocst osize In] in *; try tauto; destruct I as [<-|[]]; cbn [lsize]; lia.
  - specialize (IH _ _ I). lia.
Qed.
Lemma jmps_bounds f ops : Forall pos_op ops -> forall p l, In l (jmps f p ops) -> p <= jaddr l <= p + total ops.
Proof.
  induction 1 as [|o ops Ho Hops IH]; intros p l I; cbn [labs jmps csts total] in *; [destruct I|].
  pose proof (osize_pos o Ho). pose proof (total_pos ops Hops).
  apply in_app_or in I. destruct I as [I|I].
  - destruct o; cbn [ojmp osize In] in *; try tauto; destruct I as [<-|[]]; cbn [jaddr set_jaddr_sz]; cbn [pos_op] in Ho; try pose proof (klen_pos k); lia.
  - specialize (IH _ _ I). lia.
Qed.
Lemma csts_bounds ops : Forall pos_op ops -> forall p l, In l (csts p ops) -> p <= l <= p + total ops.
Proof.
  induction 1 as [|o ops Ho Hops IH]; intros p l I; cbn [labs jmps csts total] in *; [destruct I|].
  pose proof (osize_pos o Ho). pose proof (total_pos ops Hops).
  apply in_app_or in I. destruct I as [I|I].
  - destruct o; cbn [olab ocst osize In] in *; try tauto; destruct I as [<-|[]]; cbn [lsize]; lia.
  - specialize (IH _ _ I). lia.
Qed.
Lemma labs_next ops p i : Forall pos_op ops -> p + total ops < MAX_ADDRESS -> p <= next_size (labs p ops) i.
Proof.
  intros H M. pose proof (total_pos ops H). unfold next_size. destruct (nth_error (labs p ops) i) eqn:E; [|lia]. apply nth_error_In in E.
  apply labs_bounds in E; auto. lia.
Qed.
Lemma jmps_next f ops p : Forall pos_op ops -> p + total ops < MAX_ADDRESS -> p <= next_jaddr (jmps f p ops).
Proof.
  intros H M. pose proof (total_pos ops H). pose proof (jmps_bounds f ops H p) as B. unfold next_jaddr. destruct (jmps f p ops); [lia|].
  apply B. left; auto.
Qed.
Lemma csts_next ops p : Forall pos_op ops -> p + total ops < MAX_ADDRESS -> p <= next_caddr (csts p ops).
Proof.
  intros H M. pose proof (total_pos ops H). pose proof (csts_bounds ops H p) as B. unfold next_caddr. destruct (csts p ops); [lia|].
  apply B. left; auto.
Qed.

Lemma nth_error_mid {A} (a : list A) x b : nth_error (a ++ x :: b) (length a) = Some x.
Proof. rewrite nth_error_app2, Nat.sub_diag by lia. reflexivity. Qed.
Lemma nth_error_skip {A} (a b : list A) i : nth_error (a ++ b) (length a + i) = nth_error b i.
Proof. rewrite nth_error_app2 by lia. f_equal. lia. Qed.
Lemma upd_mid {A} (f : A -> A) (a : list A) x b : upd (length a) f (a ++ x :: b) = a ++ f x :: b.
Proof. induction a; cbn; [reflexivity|]. rewrite IHa. reflexivity. Qed.
Lemma next_size_mid a x b : next_size (a ++ x :: b) (length a) = lsize x.
Proof. unfold next_size. rewrite nth_error_mid. reflexivity. Qed.
Lemma next_size_skip a b : next_size (a ++ b) (length a) = next_size b 0.
Proof. unfold next_size. rewrite <- (Nat.add_0_r (length a)), nth_error_skip. reflexivity. Qed.

Section Reduce.
Variable cf : cfg.

(** A pending label is processed alone when nothing else is at its position. *)
Lemma reduce_pend pend n ld rest jd jr cd cr p e :
  p < next_jaddr jr -> p < next_caddr cr -> p < MAX_ADDRESS ->
  reduce_loop ((if isp pend then 1 else 0) + n) cf (ld ++ plab pend p ++ rest) (length ld) jd jr cd cr (p - e) =
  reduce_loop n cf ((ld ++ plab pend e) ++ rest) (length (ld ++ plab pend e)) jd jr cd cr (p - e).
Proof.
  intros Hj Hc Hm. destruct pend as [m|]; cbn [isp plab app Nat.add].
  - cbn [reduce_loop]. rewrite next_size_mid. cbn [lsize]. unfold get_next_min.
    destruct (next_caddr cr <? next_jaddr jr) eqn:E1; cbn iota.
    + destruct (p <? next_caddr cr) eqn:E2; [|lia]. destruct (p =? MAX_ADDRESS) eqn:E3; [lia|]. rewrite Z.eqb_refl.
      destruct (p =? next_caddr cr) eqn:E4; [lia|]. destruct (p =? next_jaddr jr) eqn:E5; [lia|]. cbn [negb].
      rewrite upd_mid. unfold set_lsize. cbn [lsize lmask laddr]. replace (p - (p - e)) with e by lia.
      rewrite <- app_assoc. cbn [app]. rewrite app_length. cbn [length]. rewrite Nat.add_comm. reflexivity.
    + destruct (p <? next_jaddr jr) eqn:E2; [|lia]. destruct (p =? MAX_ADDRESS) eqn:E3; [lia|]. rewrite Z.eqb_refl.
      destruct (p =? next_caddr cr) eqn:E4; [lia|]. destruct (p =? next_jaddr jr) eqn:E5; [lia|]. cbn [negb].
      rewrite upd_mid. unfold set_lsize. cbn [lsize lmask laddr]. replace (p - (p - e)) with e by lia.
      rewrite <- app_assoc. cbn [app]. rewrite app_length. cbn [length]. rewrite Nat.add_comm. reflexivity.
  - rewrite app_nil_r. reflexivity.
Qed.
(** A jump, together with the label at its position. *)
Lemma reduce_at_jump pend n ld rest jd j jr cd cr p e :
  jaddr j = p -> p < next_caddr cr -> p < next_size rest 0 -> p < MAX_ADDRESS ->
  reduce_loop (S n) cf (ld ++ plab pend p ++ rest) (length ld) jd (j :: jr) cd cr (p - e) =
  let '(j', sr') := reduce_jump cf ((ld ++ plab pend e) ++ rest) (p - e) j in
  reduce_loop n cf ((ld ++ plab pend e) ++ rest) (length (ld ++ plab pend e)) (j' :: jd) jr cd cr sr'.
Proof.
  intros Hj Hc Hr Hm. cbn [reduce_loop next_jaddr]. rewrite Hj. unfold get_next_min.
  destruct (next_caddr cr <? p) eqn:E1; [lia|]. cbn iota.
  destruct pend as [m|]; cbn [plab app].
  - rewrite next_size_mid. cbn [lsize]. rewrite Z.ltb_irrefl.
    destruct (p =? MAX_ADDRESS) eqn:E3; [lia|]. rewrite Z.eqb_refl. destruct (p =? next_caddr cr) eqn:E4; [lia|]. cbn [negb].
    rewrite upd_mid. unfold set_lsize. cbn [lsize lmask laddr]. replace (p - (p - e)) with e by lia.
    rewrite <- app_assoc. cbn [app]. rewrite app_length. cbn [length]. rewrite (Nat.add_comm (length ld) 1). reflexivity.
  - rewrite next_size_skip. destruct (next_size rest 0 <? p) eqn:E2; [lia|]. destruct (p =? MAX_ADDRESS) eqn:E3; [lia|].
    destruct (p =? next_size rest 0) eqn:E5; [lia|]. rewrite Z.eqb_refl. destruct (p =? next_caddr cr) eqn:E4; [lia|]. cbn [negb].
    rewrite app_nil_r. reflexivity.
Qed.
Lemma reduce_at_const pend n ld rest jd jr cd cr p e :
  p < next_jaddr jr -> p < next_size rest 0 -> p < MAX_ADDRESS ->
  reduce_loop (S n) cf (ld ++ plab pend p ++ rest) (length ld) jd jr cd (p :: cr) (p - e) =
  reduce_loop n cf ((ld ++ plab pend e) ++ rest) (length (ld ++ plab pend e)) jd jr (e :: cd) cr (p - e).
Proof.
  intros Hj Hr Hm. cbn [reduce_loop next_caddr]. unfold get_next_min.
  destruct (p <? next_jaddr jr) eqn:E1; [|lia]. cbn iota.
  destruct pend as [m|]; cbn [plab app].
  - rewrite next_size_mid. cbn [lsize]. rewrite Z.ltb_irrefl.
    destruct (p =? MAX_ADDRESS) eqn:E3; [lia|]. rewrite Z.eqb_refl.
    rewrite upd_mid. unfold set_lsize. cbn [lsize lmask laddr]. replace (p - (p - e)) with e by lia.
    rewrite <- app_assoc. cbn [app]. rewrite app_length. cbn [length]. rewrite (Nat.add_comm (length ld) 1). reflexivity.
  - rewrite next_size_skip. destruct (next_size rest 0 <? p) eqn:E2; [lia|]. destruct (p =? MAX_ADDRESS) eqn:E3; [lia|].
    destruct (p =? next_size rest 0) eqn:E5; [lia|]. rewrite Z.eqb_refl.
    rewrite app_nil_r. replace (p - (p - e)) with e by lia. reflexivity.
Qed.

Definition records (p : Z) (ops : list op) : nat := length (labs p ops) + length (jmps (fun _ => 0%Z) p ops) + length (csts p ops).

Lemma records_cons p o ops : records p (o :: ops) = (length (olab p o) + length (ojmp (fun _ => 0%Z) p o) + length (ocst p o) + records (p + osize o) ops)%nat.
Proof. unfold records. cbn [labs jmps csts]. rewrite !app_length. lia. Qed.

Lemma label_size_mix (ls : list label) el ol n : map lsize ls = el ++ skipn (length el) ol -> label_size ls n = mix_size el ol n.
Proof.
  intros H. unfold label_size, mix_size. rewrite <- H. clear. revert n. induction ls; intros [|n]; cbn; auto. 
Qed.
Lemma map_plab pend p : map lsize (plab pend p) = match pend with Some _ => [p] | None => [] end.
Proof. destruct pend; reflexivity. Qed.

Lemma set_jaddr_sz_twice j a b c d : set_jaddr_sz (set_jaddr_sz j a b) c d = set_jaddr_sz j c d.
Proof. reflexivity. Qed.

Lemma skipn_pend {A B} (f : A -> B) (ld : list A) x rest ol : skipn (length ld) ol = f x :: map f rest -> skipn (length ld + 1) ol = map f rest.
Proof.
  intros H. rewrite Nat.add_comm. revert ol H. induction ld as [|y ld IH]; intros ol H; cbn in *.
  - subst. reflexivity.
  - destruct ol; [discriminate|]. cbn. apply IH. auto.
Qed.
Lemma skipn_plab (ld : list label) pend p e rest ol : skipn (length ld) ol = map lsize (plab pend p ++ rest) ->
  skipn (length (ld ++ plab pend e)) ol = map lsize rest.
Proof.
  intros H. rewrite app_length. destruct pend; cbn [plab app length map] in *.
  - eapply skipn_pend. exact H.
  - rewrite Nat.add_0_r. auto.
Qed.

Ltac useIH T := let H := fresh in pose proof T as H; cbv zeta in H; cbn [plab app] in H; rewrite H; clear H.
Theorem reduce_loop_ok ol : forall ops pend fuel ld jd cd p e,
  okl (isp pend) ops -> Forall orig_op ops -> p + total ops < MAX_ADDRESS ->
  skipn (length ld) ol = map lsize (plab pend p ++ labs p ops) ->
  (fuel > (if isp pend then 1 else 0) + records p ops)%nat ->
  let eops := est cf ol (map lsize (ld ++ plab pend e)) p e ops in
  reduce_loop fuel cf (ld ++ plab pend p ++ labs p ops) (length ld) jd (jmps (fun _ => 0) p ops) cd (csts p ops) (p - e) =
  (ld ++ plab pend e ++ labs e eops, rev jd ++ jmps (fun x => x) e eops, rev cd ++ csts e eops, (p - e) + (total ops - total eops)).
Proof.
  induction ops as [|o ops IH]; intros pend fuel ld jd cd p e Hl Ho Hm Hs Hf; cbn [est labs jmps csts total].
  - rewrite !app_nil_r. cbn [total] in Hm. unfold records in Hf. cbn in Hf. destruct pend as [m|]; cbn [isp] in Hf.
    + destruct fuel as [|fuel]; [lia|]. pose proof (reduce_pend (Some m) fuel ld [] jd [] cd [] p e) as R.
      cbn [isp Nat.add] in R. rewrite !app_nil_r in R. rewrite R by (cbn [next_jaddr next_caddr]; lia).
      destruct fuel as [|fuel]; [lia|]. cbn [reduce_loop next_jaddr next_caddr]. unfold next_size.
      replace (nth_error (ld ++ plab (Some m) e) (length (ld ++ plab (Some m) e))) with (@None label) by (symmetry; apply nth_error_None; lia).
      change (get_next_min MAX_ADDRESS MAX_ADDRESS MAX_ADDRESS =? MAX_ADDRESS) with true. cbn iota.
      rewrite !app_nil_r. f_equal. lia.
    + destruct fuel as [|fuel]; [lia|]. cbn [plab]. rewrite app_nil_r. cbn [reduce_loop next_jaddr next_caddr]. unfold next_size.
      replace (nth_error ld (length ld)) with (@None label) by (symmetry; apply nth_error_None; lia).
      change (get_next_min MAX_ADDRESS MAX_ADDRESS MAX_ADDRESS =? MAX_ADDRESS) with true. cbn iota. rewrite !app_nil_r. f_equal. lia.
  - inversion Ho as [|? ? Oo Hops]; subst. cbn [total] in Hm.
    assert (Pops : Forall pos_op ops) by (eapply Forall_impl; [|exact Hops]; apply orig_pos).
    assert (Po : pos_op o) by (apply orig_pos; auto).
    pose proof (osize_pos o Po) as So. pose proof (total_pos ops Pops) as Sops.
    pose proof (jmps_next (fun _ => 0) ops (p + osize o) Pops ltac:(lia)) as Nj.
    pose proof (csts_next ops (p + osize o) Pops ltac:(lia)) as Nc.
    pose proof (labs_next ops (p + osize o) 0 Pops ltac:(lia)) as Nl.
    rewrite records_cons in Hf.
    assert (Hpe : forall e', (if isp pend then 1%nat else 0%nat) = length (plab pend e')) by (destruct pend; reflexivity).
    destruct o; cbn [okl] in Hl.
    + (* unit *)
      cbn [olab ojmp ocst app length osize est_op est_labs map labs jmps csts total] in *.
      set (n := (fuel - (if isp pend then 1 else 0))%nat). replace fuel with ((if isp pend then 1 else 0) + n)%nat by lia.
      rewrite reduce_pend by lia.
      replace (p - e) with ((p + 1) - (e + 1)) by lia.
      useIH (IH None n (ld ++ plab pend e) jd cd (p + 1) (e + 1)); auto; try lia.
      * cbn [plab app]. rewrite !app_nil_r. rewrite <- app_assoc. f_equal. lia.
      * eapply skipn_plab. exact Hs.
      * cbn [isp]. lia.
    + (* const *)
      cbn [olab ojmp ocst app length osize est_op est_labs map labs jmps csts total] in *.
      destruct fuel as [|n]; [lia|]. rewrite reduce_at_const by lia.
      replace (p - e) with ((p + 1) - (e + 1)) by lia.
      useIH (IH None n (ld ++ plab pend e) jd (e :: cd) (p + 1) (e + 1)); auto; try lia.
      * cbn [plab app rev]. rewrite !app_nil_r. rewrite <- !app_assoc. cbn [app]. f_equal. lia.
      * eapply skipn_plab. exact Hs.
      * cbn [isp]. destruct pend; cbn [isp] in *; lia.
    + (* label *)
      destruct Hl as (Hp & Hl). destruct pend; [discriminate|]. cbn [olab ojmp ocst app length osize est_op est_labs map labs jmps csts total isp plab] in *.
      rewrite Z.add_0_r in *. rewrite app_nil_r.
      specialize (IH (Some None) fuel ld jd cd p e). cbn [plab app isp] in IH. rewrite !Z.add_0_r. rewrite (IH Hl Hops); try lia.
      * rewrite map_app. cbn [map lsize app]. reflexivity.
      * exact Hs.
    + (* aligned label *)
      destruct Hl as (Hn & Hl). assert (1 <= Z.of_nat (length nops)) by (destruct nops; [congruence|cbn [length]; lia]).
      cbn [olab ojmp ocst app length osize est_op est_labs map labs jmps csts total] in *.
      set (k := Z.of_nat (length nops)) in *.
      set (n := (fuel - (if isp pend then 1 else 0))%nat). replace fuel with ((if isp pend then 1 else 0) + n)%nat by lia.
      rewrite reduce_pend by lia.
      replace (p - e) with ((p + k) - (e + k)) by lia.
            useIH (IH (Some (Some mask)) n (ld ++ plab pend e) jd cd (p + k) (e + k)); auto; try lia.
      * cbn [lsize]. rewrite (map_app lsize (ld ++ plab pend e)). cbn [map plab lsize app]. rewrite <- app_assoc. f_equal. lia.
      * cbn [plab app]. eapply skipn_plab. exact Hs.
      * cbn [isp]. lia.
    + (* jump *)
      cbn [orig_op] in Oo. destruct Oo as (Os & Om).
      cbn [olab ojmp ocst app length osize est_op est_labs map labs jmps csts total] in *. rewrite Os in *.
      pose proof (klen_pos k) as K.
      assert (MX : mix_size (map lsize (ld ++ plab pend e)) ol (jlabel j) = label_size ((ld ++ plab pend e) ++ labs (p + (klen k + 12)) ops) (jlabel j)).
      { symmetry. apply label_size_mix. rewrite map_app. f_equal. rewrite map_length. symmetry. eapply skipn_plab. exact Hs. }
      assert (G : forall n ld' jd', (n > 1 + records (p + (klen k + 12)) ops)%nat -> ld' = ld ++ plab pend e ->
         jd' = jd -> 
         reduce_jump cf (ld' ++ labs (p + (klen k + 12)) ops) (p - e) (set_jaddr_sz j (p + klen k) 0) =
         (set_jaddr_sz j (e + klen k) (jump_estimate cf j (mix_size (map lsize (ld ++ plab pend e)) ol (jlabel j)) (e + klen k) (p - e)),
          (p - e) + (12 - jump_estimate cf j (mix_size (map lsize (ld ++ plab pend e)) ol (jlabel j)) (e + klen k) (p - e)))).
      { intros n ld' jd' Hn -> ->. unfold reduce_jump. cbn [jmov set_jaddr_sz jaddr jlabel]. rewrite Om. cbn [negb]. rewrite <- MX.
        replace (p + klen k - (p - e)) with (e + klen k) by lia. reflexivity. }
      set (z := jump_estimate cf j (mix_size (map lsize (ld ++ plab pend e)) ol (jlabel j)) (e + klen k) (p - e)) in *.
      assert (F : forall n, (n > records (p + (klen k + 12)) ops)%nat -> 
        reduce_loop n cf ((ld ++ plab pend e) ++ labs (p + (klen k + 12)) ops) (length (ld ++ plab pend e)) (set_jaddr_sz j (e + klen k) z :: jd)
          (jmps (fun _ => 0) (p + (klen k + 12)) ops) cd (csts (p + (klen k + 12)) ops) (p - e + (12 - z)) =
        (ld ++ plab pend e ++ labs (e + (klen k + z)) (est cf ol (map lsize (ld ++ plab pend e) ++ []) (p + (klen k + 12)) (e + (klen k + z)) ops),
          rev jd ++ set_jaddr_sz j (e + klen k) z :: jmps (fun x => x) (e + (klen k + z)) (est cf ol (map lsize (ld ++ plab pend e) ++ []) (p + (klen k + 12)) (e + (klen k + z)) ops),
          rev cd ++ csts (e + (klen k + z)) (est cf ol (map lsize (ld ++ plab pend e) ++ []) (p + (klen k + 12)) (e + (klen k + z)) ops),
          p - e + (klen k + 12 + total ops - (klen k + z + total (est cf ol (map lsize (ld ++ plab pend e) ++ []) (p + (klen k + 12)) (e + (klen k + z)) ops))))).
      { intros n Hn. replace (p - e + (12 - z)) with ((p + (klen k + 12)) - (e + (klen k + z))) by lia.
        useIH (IH None n (ld ++ plab pend e) (set_jaddr_sz j (e + klen k) z :: jd) cd (p + (klen k + 12)) (e + (klen k + z))); auto; try lia.
        - cbn [plab app rev]. rewrite !app_nil_r. rewrite <- !app_assoc. cbn [app]. f_equal. lia.
        - eapply skipn_plab. exact Hs. }
      destruct (Z.eq_dec (klen k) 0) as [K0|K0].
      * destruct fuel as [|n]; [lia|]. rewrite reduce_at_jump; [|cbn [jaddr set_jaddr_sz]; lia|lia..].
        rewrite (G (S (S (records (p + (klen k + 12)) ops))) _ _ ltac:(lia) eq_refl eq_refl). cbn [jsz set_sz set_jaddr_sz].
        rewrite F by (destruct pend; cbn [isp] in *; lia). reflexivity.
      * set (n := (fuel - (if isp pend then 1 else 0))%nat). replace fuel with ((if isp pend then 1 else 0) + n)%nat by lia.
        rewrite reduce_pend by (cbn [next_jaddr jaddr set_jaddr_sz]; lia).
        destruct n as [|n'] eqn:En; [lia|].
        pose proof (reduce_at_jump None n' (ld ++ plab pend e) (labs (p + (klen k + 12)) ops) jd (set_jaddr_sz j (p + klen k) 0)
           (jmps (fun _ => 0) (p + (klen k + 12)) ops) cd (csts (p + (klen k + 12)) ops) (p + klen k) (e + klen k)) as R.
        cbn [plab app] in R. replace (p + klen k - (e + klen k)) with (p - e) in R by lia. rewrite R; [|reflexivity|lia..].
        rewrite !app_nil_r. rewrite (G (S (S (records (p + (klen k + 12)) ops))) _ _ ltac:(lia) eq_refl eq_refl). cbn [jsz set_sz set_jaddr_sz].
        rewrite F by lia. rewrite !app_nil_r; reflexivity.
    + (* address load *)
      cbn [orig_op] in Oo. destruct Oo as (Os & Om).
      cbn [olab ojmp ocst app length osize est_op est_labs map labs jmps csts total] in *. rewrite Os in *.
      assert (MX : mix_size (map lsize (ld ++ plab pend e)) ol (jlabel j) = label_size ((ld ++ plab pend e) ++ labs (p + (1 + 11)) ops) (jlabel j)).
      { symmetry. apply label_size_mix. rewrite map_app. f_equal. rewrite map_length. symmetry. eapply skipn_plab. exact Hs. }
      destruct fuel as [|n]; [lia|]. rewrite reduce_at_jump; [|reflexivity|lia..].
      unfold reduce_jump. cbn [jmov set_jaddr_sz jaddr jlabel]. rewrite Om. cbn [negb]. rewrite <- MX.
      replace (p - (p - e)) with e by lia. rewrite set_jaddr_sz_twice.
      change (mov_estimate (set_jaddr_sz j p 0)) with (mov_estimate j).
      set (z := mov_estimate j (mix_size (map lsize (ld ++ plab pend e)) ol (jlabel j)) e (p - e)) in *.
      cbn [jsz set_sz set_jaddr_sz].
      replace (p - e + (11 - z)) with ((p + (1 + 11)) - (e + (1 + z))) by lia.
      useIH (IH None n (ld ++ plab pend e) (set_jaddr_sz j e z :: jd) cd (p + (1 + 11)) (e + (1 + z))); auto; try lia.
      * cbn [plab app rev]. rewrite !app_nil_r. rewrite <- !app_assoc. cbn [app]. unfold set_sz. rewrite set_jaddr_sz_twice. f_equal. lia.
      * eapply skipn_plab. exact Hs.
      * cbn [isp]. destruct pend; cbn [isp] in *; lia.
Qed.
End Reduce.
