(** Deserializing what was serialized: the round trip. *)
Require Import ZArith List Bool Lia Zify ZifyBool Permutation.
From Verif Require Import Rv.RvLib Rv.RvEnc Rv.RvIsa Rv.RvImm Rv.RvAddr Rv.RvLink Rv.RvLinkOps Rv.RvLinkExec Rv.RvLinkApi Comp.CpMem Comp.CpState Comp.CpCore Comp.CpRep Comp.CpCalls Comp.CpHist Comp.CpView Comp.CpErr Comp.CpPieces Comp.CpFinal
  Comp.CpSer Comp.CpSerImg Comp.CpSerParse Comp.CpSerW Comp.CpSerR.
Import ListNotations.
Open Scope Z_scope.
Ltac Zify.zify_post_hook ::= idtac.

(** ** What the application sees: the records in order (sljitLir.h:2527-2553) *)
Inductive dest := DNone | DLabel (index : Z) | DAddr (target : Z).
(** The destination of a jump, a label being identified by its index. *)
Definition jump_dest (m : memory) (q : Z) : dest :=
  if jump_has_target m q then DAddr (jump_get m q) else if jump_has_label m q then DLabel (label_index m (jump_get m q)) else DNone.
(** The label indexes, the jumps (destination, sljit_jump_is_mov_addr), and the number of constants. *)
Definition observe (s : cst) : list Z * list (dest * bool) * nat :=
  let m := hm (ch s) in (map (label_index m) (label_ptrs s), map (fun q => (jump_dest m q, jump_is_mov_addr m q)) (jump_ptrs s), length (const_ptrs s)).

(** ** Transferring the representation *)
Lemma combine_fst {A B} (D : list (Z * A)) (bs : list B) : length D = length bs -> map fst (combine (map fst D) bs) = map fst D /\ map snd (combine (map fst D) bs) = bs.
Proof.
  revert bs. induction D as [|x D IH]; intros [|b bs] E; cbn [length] in E; try discriminate; [split; reflexivity|]. cbn [map combine fst snd]. destruct (IH bs ltac:(lia)) as (-> & ->). split; reflexivity.
Qed.
Lemma transfer {A B} (bA : Z -> Z -> A -> list (Z * cell)) (bB : Z -> Z -> B -> list (Z * cell)) (g : B -> A) : (forall n q b, bA n q (g b) = bB n q b) ->
  forall D bs n nx, map snd D = map g bs -> chainH bA n D nx = chainH bB n (combine (map fst D) bs) nx.
Proof.
  intros H. induction D as [|(q, a) D IH]; intros [|b bs] n nx E; cbn [map] in E; try discriminate; [reflexivity|]. cbn [snd] in E. injection E as -> E. cbn [map fst combine chainH]. rewrite H, (IH bs (n + 1) nx E). do 2 f_equal.
  destruct D as [|(q', a') D], bs as [|b' bs]; cbn [map] in E; try discriminate; reflexivity.
Qed.
Lemma hdp_fst {A B} (D : list (Z * A)) (E : list (Z * B)) : map fst D = map fst E -> hdp D = hdp E.
Proof. destruct D as [|(q, a) D], E as [|(q', b) E]; cbn; intros H; try discriminate; congruence. Qed.
Lemma lastp_fst {A B} (D : list (Z * A)) (E : list (Z * B)) : map fst D = map fst E -> lastp D = lastp E.
Proof. unfold lastp. intros ->. reflexivity. Qed.
Lemma zlen_fst {A B} (D : list (Z * A)) (E : list (Z * B)) : map fst D = map fst E -> zlen D = zlen E.
Proof. intros H. apply (f_equal (@length Z)) in H. rewrite !map_length in H. unfold zlen. lia. Qed.
Lemma forall_pair {A B} (P : A -> Prop) (Q : B -> Prop) (l : list (A * B)) : Forall P (map fst l) -> Forall Q (map snd l) -> Forall (fun x => P (fst x) /\ Q (snd x)) l.
Proof. induction l as [|x l IH]; cbn [map]; intros H K; constructor; apply Forall_cons_iff in H; apply Forall_cons_iff in K; [tauto|apply IH; tauto]. Qed.
Lemma forall_map {A B} (P : B -> Prop) (f : A -> B) l : Forall P (map f l) <-> Forall (fun x => P (f x)) l.
Proof. rewrite !Forall_forall. split; intros H x I; [apply H; apply in_map; auto|]. apply in_map_iff in I. destruct I as (y & <- & I). auto. Qed.
Lemma labD_lab n q l : labD n q (lrec_of l) = labB n q l.
Proof. unfold labD, labB, lrec_of. cbn [fst snd]. destruct (lmask l); reflexivity. Qed.
Lemma img_fld_idem f : img_fld (img_fld f) = img_fld f. Proof. reflexivity. Qed.
(** The new value of the union of a jump. *)
Definition nval (LP : list Z) (x : jump * Z) : jump * Z := (fst x, snd (res LP (jrec_of x))).
Lemma nval_ok LP LP' j u : length LP = length LP' -> Z.of_nat (length LP) < 2 ^ 63 + 1 -> Forall (fun p => 0 < p) LP -> Forall (fun p => 0 < p) LP' -> jval_ok LP j u ->
  jval_ok LP' j (snd (nval LP' (j, u))) /\ jrec_of (nval LP' (j, u)) = jrec_of (j, u).
Proof.
  intros Ln Bd P P' H. unfold nval, res, jrec_of. cbn [fst snd]. destruct (flag_bits j) as (-> & _). unfold jval_ok in *. destruct (jisaddr j).
  - destruct H as (-> & H). split; auto.
  - destruct H as (H0 & [(-> & H)|H]).
    + rewrite Z.eqb_refl. cbn [snd fst]. rewrite Z.eqb_refl. split; [split; auto|]. reflexivity.
    + assert (U : 0 < u) by (rewrite Forall_forall in P; apply P; eapply nth_error_In; exact H). pose proof (proj1 (nth_error_Some LP (jlabel j)) ltac:(congruence)) as Lt.
      replace (u =? 0) with false by lia. replace (Z.of_nat (jlabel j) =? 2 ^ 64 - 1) with false by lia. rewrite Nat2Z.id. cbn [snd fst].
      pose proof (nth_error_nth' LP' 0 (n := jlabel j) ltac:(lia)) as N. assert (U' : 0 < nth (jlabel j) LP' 0) by (rewrite Forall_forall in P'; apply P'; eapply nth_error_In; exact N).
      replace (nth (jlabel j) LP' 0 =? 0) with false by lia. split; [split; auto|reflexivity].
Qed.
Lemma drep_rep s c F L J K live s' live' : rep_at s c F L J K live -> drep s' (img_of s F L J K) live' ->
  exists F' L' J' K', rep_at s' c F' L' J' K' live' /\ img_of s' F' L' J' K' = img_of s F L J K /\ cerr s' = 0 /\ cfld s' = img_fld (cfld s).
Proof.
  intros R (F' & G' & L' & J' & K' & U' & C & (E1 & E2 & E3 & E4) & (P1 & P2 & P3) & (Q1 & Q2 & Q3 & Q4 & Q5 & Q6) & (S1 & S2 & S3 & S4) & N).
  pose proof (w_count _ _ _ _ _ _ _ R) as Wc. pose proof R as (H & G & U & C0 & FU). rep_fields H. unfold img_of in *. cbn [i_frags i_labs i_jmps i_cons i_fld i_size i_count] in *.
  assert (EF : map snd F' = map snd F). { destruct C0 as (_ & (_ & N0 & _) & _). destruct F; [congruence|]. exact E1. } clear E1.
  set (bs := map (fun x => nval (map fst L') (snd x)) J).
  assert (NL : length L' = length (map snd L)) by (apply (f_equal (@length _)) in E2; rewrite !map_length in *; exact E2).
  assert (NJ : length J' = length bs) by (unfold bs; apply (f_equal (@length _)) in E3; rewrite !map_length in *; exact E3).
  set (L2 := combine (map fst L') (map snd L)). set (J2 := combine (map fst J') bs).
  destruct (combine_fst L' (map snd L) NL) as (L2f & L2s). destruct (combine_fst J' bs NJ) as (J2f & J2s). fold L2 in L2f, L2s. fold J2 in J2f, J2s.
  assert (Pos : Forall (fun p => 0 < p) (map fst L)) by (apply forall_map; eapply Forall_mono; [|exact D1]; intros x (X & _); lia).
  assert (Pos' : Forall (fun p => 0 < p) (map fst L')) by (apply forall_map; eapply Forall_mono; [|exact P1]; intros x X; cbn beta in X; lia).
  assert (LL : length (map fst L) = length (map fst L')) by (rewrite !map_length in *; lia).
  assert (NV : forall x, In x J -> jval_ok (map fst L') (fst (snd x)) (snd (nval (map fst L') (snd x))) /\ jrec_of (nval (map fst L') (snd x)) = jrec_of (snd x)).
  { intros (q, (j, u)) I. rewrite Forall_forall in D2. destruct (D2 _ I) as (_ & _ & _ & V). cbn [fst snd] in *. apply (nval_ok (map fst L)); auto. rewrite map_length. unfold zlen in Wc. lia. }
  assert (X1 : chainH labD 0 L' 0 = chainH labB 0 L2 0). { apply (transfer labD labB lrec_of labD_lab). rewrite E2, map_map. reflexivity. }
  assert (X2 : chainH jmpD 0 J' 0 = chainH jmpB 0 J2 0).
  { apply (transfer jmpD jmpB (fun x => (jaddr (fst x), jflags (fst x), snd x))). { intros n q b. reflexivity. }
    rewrite E3. unfold bs. rewrite !map_map. apply map_ext. intros (q, (j, u)). reflexivity. }
  exists F', L2, J2, K'. split; [|split; [|split; [exact S3|rewrite S4; reflexivity]]].
  2:{ rewrite EF, E4, S1, S2, S4, img_fld_idem. f_equal.
      - rewrite <- (map_map snd lrec_of), L2s, map_map. reflexivity.
      - rewrite <- (map_map snd jrec_of), J2s. unfold bs. rewrite map_map. apply map_ext_in. intros x I. apply NV; auto. }
  rewrite X1, X2 in C.
  assert (FU' : funits F' (cbuf c)) by (destruct FU as (Us & A & B); exists Us; split; [congruence|exact B]).
  split; [|exists G', U'; split; [exact C|exact FU']].
  split; [exists F', G', U'; split; [exact C|exact FU']|]. split; [|split].
  - rewrite L2s, E4. split; [exact A1|]. split. { rewrite <- (map_map snd fst), J2s. unfold bs. rewrite map_map. rewrite <- A2. reflexivity. }
    split; [exact A3|]. split; [congruence|]. rewrite S2, A5. unfold zlen. f_equal. pose proof (f_equal (@length _) L2f) as Y. rewrite !map_length in *. lia.
  - rewrite (hdp_fst L2 L' L2f), (lastp_fst L2 L' L2f), (hdp_fst J2 J' J2f), (lastp_fst J2 J' J2f). tauto.
  - rewrite L2f. split; [|split; [|split; [|split; [exact D4|split; [|split]]]]].
    + apply (forall_pair (fun q => 0 < q < 2 ^ 64) (fun l => 0 <= lsize l <= csize c /\ match lmask l with Some d => is64 d | None => True end /\ laddr l = 0)).
      * rewrite L2f. apply forall_map. exact P1.
      * rewrite L2s. apply forall_map. eapply Forall_mono; [|exact D1]. intros x X. apply X.
    + apply (forall_pair (fun q => 0 < q < 2 ^ 64) (fun x => 0 <= jaddr (fst x) <= csize c /\ jump_new (fst x) /\ jval_ok (map fst L') (fst x) (snd x))).
      * rewrite J2f. apply forall_map. exact P2.
      * rewrite J2s. unfold bs. apply forall_map. rewrite Forall_forall in D2 |- *. intros x I. destruct (D2 _ I) as (_ & V1 & V2 & _). cbn [nval fst]. split; [exact V1|]. split; [exact V2|]. apply NV; auto.
    + apply (forall_pair (fun q => 0 < q < 2 ^ 64) (fun a => 0 <= a <= csize c)).
      * apply forall_map. exact P3.
      * rewrite E4. apply forall_map. eapply Forall_mono; [|exact D3]. intros x X. apply X.
    + replace (zlen L2) with (zlen L); [exact D5|]. unfold zlen. f_equal. pose proof (f_equal (@length _) L2f) as Y. rewrite !map_length in *. lia.
    + replace (zlen J2) with (zlen J); [exact D6|]. unfold zlen. f_equal. pose proof (f_equal (@length _) J2f) as Y. unfold bs in NJ. rewrite !map_length in *. lia.
    + replace (zlen K') with (zlen K); [exact D7|]. unfold zlen. f_equal. pose proof (f_equal (@length _) E4) as Y. rewrite !map_length in *. lia.
Qed.

(** ** The observations are determined by the image *)
Definition rec_dest (j : jrec) : dest * bool := let '(a, f, v) := j in (if Z.testbit f 0 then DAddr v else if v =? 2 ^ 64 - 1 then DNone else DLabel v, Z.testbit f 1).
Lemma map_nth {A B C} (p : A -> B) (f : B -> C) (g : A -> C) l : (forall k a, nth_error l k = Some a -> f (p a) = g a) -> map f (map p l) = map g l.
Proof. intros H. rewrite map_map. apply map_ext_in. intros a I. apply In_nth_error in I. destruct I as (k & I). eapply H; exact I. Qed.
Lemma observe_img s c F L J K live : rep_at s c F L J K live ->
  let x := img_of s F L J K in observe s = (map Z.of_nat (seq 0 (length (i_labs x))), map rec_dest (i_jmps x), length (i_cons x)).
Proof.
  intros R x. pose proof R as (H & _). pose proof (w_count _ _ _ _ _ _ _ R) as Wc. unfold observe. cbv zeta. rewrite (rep_label_ptrs _ _ _ _ _ _ H), (rep_jump_ptrs _ _ _ _ _ _ H), (w_const_ptrs _ _ _ _ _ _ _ R). unfold x, img_of. cbn [i_labs i_jmps i_cons].
  rewrite !map_length. f_equal. f_equal.
  - apply nth_ext with (d := 0) (d' := Z.of_nat 0); [rewrite !map_length, seq_length; reflexivity|]. intros k Lk. rewrite !map_length in Lk.
    rewrite List.map_nth, seq_nth by exact Lk. cbn [Nat.add].
    destruct (nth_error L k) as [(q, l)|] eqn:E; [|apply nth_error_None in E; lia]. destruct (w_label _ _ _ _ _ _ _ R _ _ _ E) as (_ & _ & X & _). rewrite <- X.
    apply nth_error_nth with (d := 0). rewrite !nth_error_map, E. reflexivity.
  - rewrite !map_map. apply map_ext_in. intros (q, (j, u)) I. apply In_nth_error in I. destruct I as (k & E). destruct (w_jump _ _ _ _ _ _ _ R _ _ _ _ E) as (_ & X2 & X3 & X4). cbn [fst snd].
    rep_fields H. pose proof (nth_error_In _ _ E) as I. rewrite Forall_forall in D2. destruct (D2 _ I) as (_ & _ & _ & V). cbn [fst snd] in V.
    unfold jump_dest, jump_has_target, jump_has_label, jump_is_mov_addr, jump_get, rec_dest, jrec_of in *. unfold jump_value in X4. rewrite X2, X3 in *. destruct (flag_bits j) as (Y & _). rewrite Y in *. unfold jval_ok in V.
    destruct (jisaddr j); cbn [negb andb snd] in *; [rewrite X4; reflexivity|]. destruct (u =? 0) eqn:U0; cbn [negb andb]; [rewrite Z.eqb_refl; reflexivity|].
    rewrite X4. destruct V as (_ & [(-> & _)|V]); [discriminate|]. pose proof (proj1 (nth_error_Some (map fst L) (jlabel j)) ltac:(congruence)) as Lt. rewrite map_length in Lt. unfold zlen in Wc. replace (Z.of_nat (jlabel j) =? 2 ^ 64 - 1) with false by lia. reflexivity.
Qed.

(** ** The bytes *)
Lemma flat_isb {A} (f : A -> list Z) l : (forall a, Forall isb (f a)) -> Forall isb (flat_map f l).
Proof. intros H. induction l as [|a l IH]; [constructor|]. cbn [flat_map]. apply Forall_app. auto. Qed.
Lemma ubytes_isb u : Forall isb (ubytes u). Proof. apply flat_isb. intros a. apply enc_byte. Qed.
Definition itb (x : list Z * Z) : Prop := Forall isb (fst x).
Lemma items_isb s c F L J K live d : rep_at s c F L J K live -> Forall itb (all_items d s).
Proof.
  intros R. rewrite (items_ok _ _ _ _ _ _ _ R). pose proof R as (_ & G & U & _ & Us & E & _). constructor.
  { unfold itb. cbn [fst]. unfold head_b. repeat (apply Forall_app; split); apply enc_byte. }
  repeat (apply Forall_app; split); apply Forall_forall; intros y I; try (apply in_flat_map in I; destruct I as (z & I1 & I2)); unfold itb.
  - rewrite E in I1. apply in_map_iff in I1. destruct I1 as (u & <- & _). destruct I2 as [<-|[<-|[]]]; cbn [fst]; [apply enc_byte|apply ubytes_isb].
  - unfold lab_it in I2. destruct (snd z) as [(t, d0)|]; [destruct I2 as [<-|[<-|[]]]|destruct I2 as [<-|[]]]; cbn [fst]; repeat (apply Forall_app; split); apply enc_byte.
  - destruct I2 as [<-|[]]. destruct z as ((a, f), v). cbn [fst jmp_b]. repeat (apply Forall_app; split); apply enc_byte.
  - destruct I2 as [<-|[]]. apply enc_byte.
  - destruct d; [|destruct I]. destruct I as [<-|[]]. cbn [fst]. repeat (apply Forall_app; split); apply enc_byte.
Qed.
Lemma fill_isb buf g : (forall i, isb (g i)) -> Forall (fun o => match o with Some x => isb x | None => True end) buf -> forall i, Forall isb (fill buf g i).
Proof. intros G H. induction H as [|o buf H1 H2 IH]; intros i; cbn [fill]; constructor; auto. destruct o; auto. Qed.
Lemma items_fill l g i : (forall i, isb (g i)) -> Forall itb l -> Forall isb (fill (flat_map item_o l) g i).
Proof.
  intros G H. apply fill_isb; auto. clear i. induction H as [|x l H1 H2 IH]; [constructor|]. cbn [flat_map]. repeat (apply Forall_app; split); auto.
  - apply forall_map. exact H1.
  - apply Forall_forall. intros o I. apply repeat_spec in I. subst. exact Logic.I.
Qed.
Lemma fill_len buf g : forall i, length (fill buf g i) = length buf.
Proof. induction buf as [|o buf IH]; intros i; [reflexivity|]. cbn [fill length]. rewrite IH. reflexivity. Qed.
Lemma allocs_bytes d fs x : image_wf fs x -> zlen (bytes d fs x) < 2 ^ 64 -> (allocs (bytes d fs x) <= length (bytes d fs x))%nat.
Proof.
  intros (W1 & W2 & W3 & W4 & W5 & W6 & W7 & W8 & W9 & W10) Bd. pose proof (frags_len fs W1) as (Lf & _).
  pose proof (zlen_pos fs) as P1. pose proof (zlen_pos (i_labs x)) as P2. pose proof (zlen_pos (i_jmps x)) as P3. pose proof (zlen_pos (i_cons x)) as P4. pose proof (zlen_pos (dbg_b d)) as P5.
  pose proof (zlen_pos (filter aligned (i_labs x))) as P6. fold (n_aligned (i_labs x)) in P6.
  assert (Len : zlen (bytes d fs x) = 80 + (zlen (flat_map frag_b fs) + (8 * zlen (i_labs x) + 16 * n_aligned (i_labs x) + (24 * zlen (i_jmps x) + (8 * zlen (i_cons x) + zlen (dbg_b d)))))).
  { unfold bytes. rewrite !zlen_app, head_len, lab_len, jmp_len, con_len. reflexivity. }
  assert (A : at_ (bytes d fs x) 0 (head_b d (zlen fs) (i_count x) (n_aligned (i_labs x)) (zlen (i_jmps x)) (zlen (i_cons x)) (i_fld x) (i_size x))).
  { exists [], (flat_map frag_b fs ++ flat_map lab_b (i_labs x) ++ flat_map jmp_b (i_jmps x) ++ flat_map (enc 8) (i_cons x) ++ dbg_b d). split; reflexivity. }
  unfold head_b in A. apply at_app in A. destruct A as (_ & _ & A). rewrite zlen_enc in A. change (0 + Z.of_nat 4) with 4 in A.
  apply at_app in A. destruct A as (_ & _ & A). rewrite zlen_enc in A. change (4 + Z.of_nat 2) with 6 in A.
  apply at_app in A. destruct A as (_ & _ & A). rewrite zlen_enc in A. change (6 + Z.of_nat 2) with 8 in A.
  apply at_app in A. destruct A as (_ & A1 & A). rewrite zlen_enc in A. change (8 + Z.of_nat 8) with 16 in A.
  apply at_app in A. destruct A as (_ & A2 & A). rewrite zlen_enc in A. change (16 + Z.of_nat 8) with 24 in A.
  apply at_app in A. destruct A as (_ & _ & A). rewrite zlen_enc in A. change (24 + Z.of_nat 8) with 32 in A.
  apply at_app in A. destruct A as (_ & A3 & A). rewrite zlen_enc in A. change (32 + Z.of_nat 8) with 40 in A.
  apply at_app in A. destruct A as (_ & A4 & _).
  apply subw_ok in A1; [|unfold is64; lia]. apply subw_ok in A2; [|unfold is64; lia]. apply subw_ok in A3; [|unfold is64; lia]. apply subw_ok in A4; [|unfold is64; lia].
  unfold allocs. rewrite A1, A2, A3, A4. unfold zlen in *. lia.
Qed.

(** ** The round trip *)
Section Trip.
Context (cf : cfg) (h : heap) (ks : list ccall) (rs : list Z) (s : cst) (d : option debug) (p n : Z) (buf : list (option Z)) (s1 : cst) (g : Z -> Z) (dbg : bool) (h2 : heap).
Hypothesis (R : reached cf h ks rs s) (F32 : fields32 (cfld s)) (D32 : debug32 d) (S : serialize d s = SOk p n buf s1) (G : forall i, isb (g i)) (H2 : heap_ok h2).
Let b := fill buf g 0.
Let c := emits cf (kall cf ks).
Lemma ser_err : cerr s = 0.
Proof. unfold serialize in S. destruct (cerr s =? 0) eqn:E; [lia|]. cbn [negb] in S. discriminate. Qed.
Lemma trip_rep : exists F L J K, rep_at s c F L J K (hlive h).
Proof.
  destruct (reached_rep _ _ _ _ _ R) as (_ & [X|(_ & _ & L & J & K & Rp)]); [rewrite ser_err in X; discriminate|]. destruct (rep_ex _ _ _ _ _ _ Rp) as (F & Ra). eauto.
Qed.
Lemma trip_is16 : Forall is16 (cbuf c).
Proof. unfold c, emits. rewrite hist_buf. cbn [cbuf app]. eapply hist_is16. apply R. Qed.
Lemma trip_bytes F L J K : rep_at s c F L J K (hlive h) -> Forall isb b /\ zlen b < 2 ^ 64 /\ exists fs, image_wf fs (img_of s F L J K) /\ b = bytes d fs (img_of s F L J K).
Proof.
  intros Ra. pose proof (serialize_ok _ _ _ _ _ _ _ Ra d ser_err) as X. rewrite S in X. destruct X as (_ & _ & _ & _ & N1 & N2 & X1 & X2).
  split; [unfold b; rewrite X2; apply items_fill; auto; eapply items_isb; exact Ra|].
  split; [unfold b, zlen; rewrite fill_len; lia|]. destruct (X1 g) as (fs & Y1 & Y2 & Y3). exists fs. split; [|exact Y3]. eapply w_wf; eauto.
Qed.
Theorem trip : match deserialize b dbg h2 with
  | DUB => False
  | DNull h' => Permutation (hlive h') (hlive h2) /\ (dbg = true /\ d = None \/ ~ good (length b) h2)
  | DOk s' d' => d' = (if dbg then d else None) /\ cerr s' = 0 /\ cfld s' = img_fld (cfld s) /\
      exists F L J K F' L' J' K', rep_at s c F L J K (hlive h) /\ rep_at s' c F' L' J' K' (hlive h2) /\ img_of s' F' L' J' K' = img_of s F L J K
  end.
Proof.
  destruct trip_rep as (F & L & J & K & Ra). destruct (trip_bytes _ _ _ _ Ra) as (B1 & B2 & fs & W & E).
  pose proof (parse_gen b [] d dbg fs _ W D32 ltac:(rewrite app_nil_r; auto) ltac:(rewrite <- E; exact B2)) as P.
  replace (bsize b <? needed dbg d fs (img_of s F L J K)) with false in P.
  2:{ unfold needed. rewrite <- E. change (bsize b) with (zlen b). pose proof (zlen_pos (dbg_b d)). destruct dbg; lia. }
  replace (bsize b mod 8 =? 0) with true in P.
  2:{ change (bsize b) with (zlen b). rewrite E. unfold bytes. rewrite !zlen_app, head_len, lab_len, jmp_len, con_len, dbg_len. destruct W as (W & _). destruct (frags_len fs W) as (_ & W').
      symmetry. apply Z.eqb_eq. replace (_ + _) with (zlen (flat_map frag_b fs) + (10 + zlen (i_labs (img_of s F L J K)) + 2 * n_aligned (i_labs (img_of s F L J K)) + 3 * zlen (i_jmps (img_of s F L J K)) + zlen (i_cons (img_of s F L J K)) + match d with Some _ => 2 | None => 0 end) * 8) by (destruct d; lia).
      rewrite Z.mod_add by lia. exact W'. }
  cbn [negb orb] in P. pose proof (deserialize_ok b dbg h2 B1 H2) as X. destruct (deserialize b dbg h2) as [h'|s' d'|].
  - destruct X as (X1 & X2). split; [exact X1|]. destruct X2 as [X2|X2].
    + rewrite P in X2. destruct dbg; [destruct d; [discriminate|auto]|discriminate].
    + right. intros Gd. apply X2. eapply good_le; [|exact Gd]. rewrite E in *. apply allocs_bytes; auto.
  - destruct X as (x & X1 & X2). rewrite P in X1. destruct (dbg && _); [discriminate|]. injection X1 as X3 X4. subst x. destruct (drep_rep _ _ _ _ _ _ _ _ _ Ra X2) as (F' & L' & J' & K' & Y1 & Y2 & Y3 & Y4).
    split; [symmetry; exact X4|]. split; [exact Y3|]. split; [exact Y4|]. exists F, L, J, K, F', L', J', K'. auto.
  - rewrite P in X. destruct (dbg && _); discriminate.
Qed.
Lemma trip_same s' d' : deserialize b dbg h2 = DOk s' d' ->
  view s' = view s /\ observe s' = observe s /\ cfld s' = img_fld (cfld s) /\ cerr s' = 0 /\ d' = (if dbg then d else None) /\ Permutation (hlive (free_compiler s')) (hlive h2).
Proof.
  intros E. pose proof trip as T. rewrite E in T. destruct T as (T1 & T2 & T3 & F & L & J & K & F' & L' & J' & K' & R1 & R2 & T4).
  pose proof (observe_img _ _ _ _ _ _ _ R1) as O1. pose proof (observe_img _ _ _ _ _ _ _ R2) as O2. cbv zeta in O1, O2. rewrite T4 in O2.
  destruct R1 as (R1 & _). destruct R2 as (R2 & G' & U' & C' & _). rewrite (view_rep _ _ _ _ _ _ R1 trip_is16), (view_rep _ _ _ _ _ _ R2 trip_is16).
  split; [reflexivity|]. split; [congruence|]. split; [exact T3|]. split; [exact T2|]. split; [exact T1|]. apply free_ok. exists F', G'. eauto.
Qed.
(** Further calls on the new compiler. *)
Lemma trip_continue s' d' ks2 rs2 s2 : deserialize b dbg h2 = DOk s' d' -> ccalls_ok cf (ks ++ ks2) empty -> csize (emits cf (kall cf (ks ++ ks2))) < 2 ^ 63 -> ccalls_run cf ks2 s' = (rs2, s2) ->
  Permutation (hlive (free_compiler s2)) (hlive h2) /\
  (cerr s2 = ERR_ALLOC_FAILED \/ cerr s2 = 0 /\ view s2 = emits cf (kall cf (ks ++ ks2)) /\ cfld s2 = fold_left fstep ks2 (img_fld (cfld s))).
Proof.
  intros E Ok Bd Rn. pose proof trip as T. rewrite E in T. destruct T as (_ & T2 & T3 & F & L & J & K & F' & L' & J' & K' & _ & (R2 & _) & _).
  pose proof Ok as Ok0. apply ccalls_ok_app in Ok. destruct Ok as (_ & Ok). unfold kall in Bd. rewrite flat_map_app in Bd. unfold emits in Bd. rewrite fold_left_app in Bd.
  pose proof (hist_rep cf ks2 s' c L' J' K' (hlive h2) R2 T2 Ok Bd) as X. rewrite Rn, T3 in X. destruct X as (X1 & X2). split; [apply free_ok; apply fr_cored; exact X1|].
  destruct X2 as [X2|(X2 & X3 & L3 & J3 & K3 & X4)]; [left; exact X2|right]. split; [exact X2|]. split; [|exact X3].
  assert (EC : emits cf (kall cf (ks ++ ks2)) = fold_left (emit cf) (kall cf ks2) c) by (unfold c, kall; rewrite flat_map_app; unfold emits; rewrite fold_left_app; reflexivity).
  rewrite EC. eapply view_rep; [exact X4|]. rewrite <- EC. unfold emits. rewrite hist_buf. cbn [cbuf app]. eapply hist_is16. exact Ok0.
Qed.
Lemma trip_generate s' d' ks2 rs2 s2 code eo m0 : deserialize b dbg h2 = DOk s' d' -> ccalls_ok cf (ks ++ ks2) empty -> csize (emits cf (kall cf (ks ++ ks2))) < 2 ^ 63 -> ccalls_run cf ks2 s' = (rs2, s2) ->
  cerr s2 = 0 -> code <> 0 -> fst (api_generate cf code eo m0 s2) = Some (generate_code cf code eo m0 (emits cf (kall cf (ks ++ ks2)))).
Proof.
  intros E Ok Bd Rn Er Cd. destruct (trip_continue _ _ _ _ _ E Ok Bd Rn) as (_ & [X|(_ & X & _)]); [rewrite Er in X; discriminate|].
  unfold api_generate. rewrite Er. replace (code =? 0) with false by lia. cbn [Z.eqb negb fst]. rewrite X. reflexivity.
Qed.
(** Serializing the new compiler: the same block. *)
Lemma trip_again s' d' p2 n2 buf2 s2 : deserialize b dbg h2 = DOk s' d' -> serialize d s' = SOk p2 n2 buf2 s2 -> n2 = n /\ buf2 = buf.
Proof.
  intros E S2. pose proof trip as T. rewrite E in T. destruct T as (_ & T2 & T3 & F & L & J & K & F' & L' & J' & K' & R1 & R2 & T4).
  pose proof (serialize_ok _ _ _ _ _ _ _ R1 d ser_err) as X1. rewrite S in X1. destruct X1 as (_ & _ & _ & _ & N1 & _ & _ & B1).
  pose proof (serialize_ok _ _ _ _ _ _ _ R2 d T2) as X2. rewrite S2 in X2. destruct X2 as (_ & _ & _ & _ & N2 & _ & _ & B2).
  assert (X : buf2 = buf); [|subst buf2; split; congruence]. rewrite B1, B2. f_equal. rewrite (items_ok _ _ _ _ _ _ _ R1), (items_ok _ _ _ _ _ _ _ R2). cbv zeta. rewrite T4.
  pose proof (f_equal i_frags T4) as Fr. cbn [img_of i_frags] in Fr. rewrite Fr. replace (zlen F') with (zlen F); [reflexivity|]. unfold zlen. f_equal. apply (f_equal (@length _)) in Fr. rewrite !map_length in Fr. auto.
Qed.
End Trip.
