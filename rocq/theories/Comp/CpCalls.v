(** Every call changes what the compiler represents as the abstract emission functions of the linker model say, or sets the error. *)
Require Import ZArith List Bool Lia Zify ZifyBool Permutation.
From Verif Require Import Rv.RvLib Rv.RvEnc Rv.RvIsa Rv.RvImm Rv.RvAddr Rv.RvLink Rv.RvLinkOps Rv.RvLinkExec Rv.RvLinkApi Comp.CpMem Comp.CpState Comp.CpCore Comp.CpRep.
Import ListNotations.
Open Scope Z_scope.
Ltac Zify.zify_post_hook ::= idtac.

Lemma lok_mono a b x : a <= b -> lok a x -> lok b x.
Proof. unfold lok. intros L (H1 & H2 & H3). repeat split; try tauto; lia. Qed.
Lemma jok_mono LP a b x : a <= b -> jok LP a x -> jok LP b x.
Proof. unfold jok. intros L (H1 & H2 & H3 & H4). repeat split; try tauto; try lia; apply H3. Qed.
Lemma kok_mono a b x : a <= b -> kok a x -> kok b x.
Proof. unfold kok. intros L (H1 & H2). lia. Qed.
Lemma Forall_mono {A} (P Q : A -> Prop) l : (forall x, P x -> Q x) -> Forall P l -> Forall Q l.
Proof. intros H. apply Forall_impl. exact H. Qed.
Lemma jok_ext LP q sz x : jok LP sz x -> jok (LP ++ [q]) sz x.
Proof.
  unfold jok, jval_ok. intros (H1 & H2 & H3 & H4). repeat split; try tauto; try apply H3. destruct (jisaddr (fst (snd x))); auto.
  destruct H4 as (H4 & [H5|H5]); split; auto. right. rewrite nth_error_app1; auto. apply nth_error_Some. congruence.
Qed.
Lemma last_label_snoc l x : last_label (l ++ [x]) = Some x.
Proof. induction l as [|a l IH]; [reflexivity|]. cbn [app last_label]. rewrite IH. destruct l; reflexivity. Qed.
Lemma rest_fields s s' : rest s s' -> cself s' = cself s /\ clab s' = clab s /\ clastl s' = clastl s /\ cjmp s' = cjmp s /\ clastj s' = clastj s /\
  ccon s' = ccon s /\ clastc s' = clastc s /\ ccount s' = ccount s /\ cfld s' = cfld s.
Proof. unfold rest. intros E. injection E; intros. repeat split; congruence. Qed.

(** Instructions only. *)
Lemma rep_units s c L J K live F G U s' us : rep s c L J K live -> rest s s' ->
  core s' F G live (chainH labB 0 L 0 ++ chainH jmpB 0 J 0 ++ chainH conB 0 K 0 ++ U) -> funits F (cbuf c ++ us) ->
  csz s' = csz s + zlen us -> csize c + zlen us < 2 ^ 63 -> rep s' (push_units c us) L J K live.
Proof.
  intros (_ & (A1 & A2 & A3 & A4 & A5) & (B1 & B2 & B3 & B4 & B5 & B6) & (D1 & D2 & D3 & D4 & D5 & D6 & D7)) R C X Y Z'.
  apply rest_fields in R. destruct R as (R0 & R1 & R2 & R3 & R4 & R5 & R6 & R7 & R8). pose proof (zlen_pos us) as Z2.
  unfold push_units. fold (zlen us). split; [|split; [|split]]; cbn [cbuf clabels cjumps cconsts csize].
  - exists F, G, U. auto.
  - repeat split; auto; congruence.
  - repeat split; congruence.
  - split; [eapply Forall_mono; [|exact D1]; intros; eapply lok_mono; [|eauto]; lia|].
    split; [eapply Forall_mono; [|exact D2]; intros; eapply jok_mono; [|eauto]; lia|].
    split; [eapply Forall_mono; [|exact D3]; intros; eapply kok_mono; [|eauto]; lia|]. repeat split; auto; lia.
Qed.
(** The parts which stay valid after an error: the fragments, and the chained list of the jumps, whose members may be anything. *)
Definition jmpF (_ q : Z) (x : cell * cell * cell) : list (Z * cell) := [(q + 8, fst (fst x)); (q + 16, snd (fst x)); (q + 24, snd x)].
Definition fcells (x : Z * (cell * cell * cell)) : Prop := 0 < fst x < 2 ^ 64 /\ clen (fst (fst (snd x))) = 8 /\ clen (snd (fst (snd x))) = 8 /\ clen (snd (snd x)) = 8.
Definition fr (s : cst) (live : list Z) : Prop :=
  exists F G R P, core s F G live (chainH jmpF 0 P 0 ++ R) /\ cjmp s = hdp P /\ Forall fcells P.
Definition fconv (x : Z * (jump * Z)) : Z * (cell * cell * cell) := (fst x, (W (jaddr (fst (snd x))), W (jflags (fst (snd x))), W (snd (snd x)))).
Lemma fconv_hdn J nx : hdn (map fconv J) nx = hdn J nx. Proof. destruct J as [|(q, x) J]; reflexivity. Qed.
Lemma fconv_hdp J : hdp (map fconv J) = hdp J. Proof. destruct J as [|(q, x) J]; reflexivity. Qed.
Lemma fconv_chain J : forall n nx, chainH jmpF n (map fconv J) nx = chainH jmpB n J nx.
Proof. induction J as [|(q, x) J IH]; intros n nx; [reflexivity|]. cbn [map fconv chainH fst snd]. rewrite fconv_hdn, IH. reflexivity. Qed.
Lemma fconv_cells LP sz J : Forall (jok LP sz) J -> Forall fcells (map fconv J).
Proof. induction 1 as [|x J H _ IH]; constructor; auto. destruct H as (H & _). split; [exact H|]. repeat split. Qed.
Lemma core_fr s F G live J R LP sz : core s F G live (chainH jmpB 0 J 0 ++ R) -> cjmp s = hdp J -> Forall (jok LP sz) J -> fr s live.
Proof. intros C H1 H2. exists F, G, R, (map fconv J). rewrite fconv_chain, fconv_hdp. split; auto. split; auto. eapply fconv_cells; eauto. Qed.
Lemma rep_fr s c L J K live : rep s c L J K live -> fr s live.
Proof.
  intros ((F & G & U & C & X) & _ & (_ & _ & B & _) & (_ & D & _)). eapply (core_fr s F G live J (chainH labB 0 L 0 ++ chainH conB 0 K 0 ++ U)); [cp C|exact B|exact D].
Qed.
Lemma fr_cored s live : fr s live -> cored s live.
Proof. intros (F & G & R & P & C & _). exists F, G. eauto. Qed.
Lemma post_fr s live c (P : list (Z * label) -> Prop) J K A B : (A \/ B /\ exists L', rep s c L' J K live /\ P L') -> (A -> fr s live) ->
  fr s live /\ (A \/ B /\ exists L', rep s c L' J K live /\ P L').
Proof. intros [H|(H & L' & H1 & H2)] X; (split; [|eauto 8]); auto. eapply rep_fr; eauto. Qed.
(** One more jump, not complete. *)
Lemma core_fr_snoc s F G live J R LP sz q c1 c2 c3 : core s F G live ((q, W 0) :: (q + 8, c1) :: (q + 16, c2) :: (q + 24, c3) :: chainH jmpB 0 J q ++ R) ->
  cjmp s = hdn J q -> Forall (jok LP sz) J -> 0 < q < 2 ^ 64 -> clen c1 = 8 -> clen c2 = 8 -> clen c3 = 8 -> fr s live.
Proof.
  intros C H1 H2 Q L1 L2 L3. exists F, G, R, (map fconv J ++ [(q, (c1, c2, c3))]). split; [|split].
  - rewrite chain_snoc, fconv_chain. unfold jmpF. cbn [fst snd]. cp C.
  - rewrite hdp_snoc, fconv_hdn. exact H1.
  - apply Forall_app. split; [eapply fconv_cells; eauto|]. constructor; auto. unfold fcells. cbn [fst snd]. auto.
Qed.

(** Instructions; after an error a part of them. *)
Lemma em_rep e s c L J K live : rep s c L J K live -> csize c + zlen (units_of (flat e)) < 2 ^ 63 ->
  let (r, s') := run_em e s in
  rest s s' /\ exists c', rep s' c' L J K live /\ csize c <= csize c' <= csize c + zlen (units_of (flat e)) /\
  (r = 0 /\ cerr s' = cerr s /\ c' = push_units c (units_of (flat e)) \/
   cerr s' = ERR_ALLOC_FAILED /\ (checked e -> r <> 0)).
Proof.
  intros H B. pose proof H as ((F & G & U & C & X) & (_ & _ & _ & Sz & _) & _). pose proof (run_em_ok e s F G live _ _ C X) as E.
  pose proof (run_em_size e s) as Z1. destruct (run_em e s) as (r, s'). cbn [snd] in Z1.
  destruct E as (E1 & E2 & F' & us' & E3 & E4 & E5). split; [exact E1|]. pose proof (zlen_pos (units_of (flat e))) as Z2.
  destruct E5 as [(-> & E5 & E6 & ->)|(E5 & E6)].
  - exists (push_units c (units_of (flat e))). split; [eapply rep_units; eauto|]. split; [unfold push_units; cbn [csize]; fold (zlen (units_of (flat e))); lia|]. left. auto.
  - exists (mkComp us' (clabels c) (cjumps c) (cconsts c) (csz s')). split; [|split; [cbn [csize]; lia|right; auto]].
    destruct H as (_ & (A1 & A2 & A3 & A4 & A5) & (B1 & B2 & B3 & B4 & B5 & B6) & (D1 & D2 & D3 & D4 & D5 & D6 & D7)).
    apply rest_fields in E1. destruct E1 as (R0 & R1 & R2 & R3 & R4 & R5 & R6 & R7 & R8).
    split; [|split; [|split]]; cbn [cbuf clabels cjumps cconsts csize].
    + exists F', G, U. auto.
    + repeat split; auto; congruence.
    + repeat split; congruence.
    + split; [eapply Forall_mono; [|exact D1]; intros; eapply lok_mono; [|eauto]; lia|].
      split; [eapply Forall_mono; [|exact D2]; intros; eapply jok_mono; [|eauto]; lia|].
      split; [eapply Forall_mono; [|exact D3]; intros; eapply kok_mono; [|eauto]; lia|]. repeat split; auto; lia.
Qed.
Lemma em_of_flat l : flat (em_of l) = l.
Proof. induction l as [|[w|w] l IH]; cbn [em_of flat app]; congruence. Qed.
Lemma em_of_checked l : checked (em_of l).
Proof. induction l as [|[w|w] l IH]; cbn [em_of checked]; auto. Qed.

(** A new record: the words are separate pieces. *)
Lemma core_word s F G live R q k n : core s F G live ((q + k, Un (8 + n)) :: R) -> 0 <= n -> core s F G live ((q + k, Un 8) :: (q + (k + 8), Un n) :: R).
Proof. intros C N. apply core_split in C; try lia. replace (q + k + 8) with (q + (k + 8)) in C by lia. exact C. Qed.
Lemma core_words2 s F G live R q : core s F G live ((q, Un 16) :: R) -> core s F G live ((q, Un 8) :: (q + 8, Un 8) :: R).
Proof. intros C. apply (core_split s F G live R q 8 8) in C; try lia. exact C. Qed.
Lemma core_words3 s F G live R q : core s F G live ((q, Un 24) :: R) -> core s F G live ((q, Un 8) :: (q + 8, Un 8) :: (q + 16, Un 8) :: R).
Proof.
  intros C. apply (core_split s F G live R q 8 16) in C; try lia. cfront C (q + 8, Un 16). apply (core_word _ _ _ _ _ q 8 8) in C; try lia. cbn [Z.add Pos.add Pos.succ] in C. cp C.
Qed.
Lemma core_words4 s F G live R q : core s F G live ((q, Un 32) :: R) -> core s F G live ((q, Un 8) :: (q + 8, Un 8) :: (q + 16, Un 8) :: (q + 24, Un 8) :: R).
Proof.
  intros C. apply (core_split s F G live R q 8 24) in C; try lia. cfront C (q + 8, Un 24). apply (core_word _ _ _ _ _ q 8 16) in C; try lia. cbn [Z.add Pos.add Pos.succ] in C.
  cfront C (q + 16, Un 16). apply (core_word _ _ _ _ _ q 16 8) in C; try lia. cbn [Z.add Pos.add Pos.succ] in C. cp C.
Qed.
Lemma core_words5 s F G live R q : core s F G live ((q, Un 40) :: R) -> core s F G live ((q, Un 8) :: (q + 8, Un 8) :: (q + 16, Un 8) :: (q + 24, Un 8) :: (q + 32, Un 8) :: R).
Proof.
  intros C. apply (core_split s F G live R q 8 32) in C; try lia. cfront C (q + 8, Un 32). apply (core_word _ _ _ _ _ q 8 24) in C; try lia. cbn [Z.add Pos.add Pos.succ] in C.
  cfront C (q + 16, Un 24). apply (core_word _ _ _ _ _ q 16 16) in C; try lia. cbn [Z.add Pos.add Pos.succ] in C.
  cfront C (q + 24, Un 16). apply (core_word _ _ _ _ _ q 24 8) in C; try lia. cbn [Z.add Pos.add Pos.succ] in C. cp C.
Qed.
(** A store to the word at [a]. *)
Ltac cst C a w := cfront C (a, Un 8); apply (core_st _ _ _ _ _ a (Un 8) w) in C; [|reflexivity].

(** ** Labels *)
Ltac rep_fields H :=
  let F := fresh "F" in let G := fresh "G" in let U := fresh "U" in
  destruct H as ((F & G & U & HC & HU) & (A1 & A2 & A3 & A4 & A5) & (B1 & B2 & B3 & B4 & B5 & B6) & (D1 & D2 & D3 & D4 & D5 & D6 & D7)).
Lemma lab_pos L sz : Forall (lok sz) L -> Forall (fun x => 0 < fst x) L.
Proof. apply Forall_mono. intros x (H & _). lia. Qed.
Lemma jmp_pos LP J sz : Forall (jok LP sz) J -> Forall (fun x => 0 < fst x) J.
Proof. apply Forall_mono. intros x (H & _). lia. Qed.
Lemma con_pos K sz : Forall (kok sz) K -> Forall (fun x => 0 < fst x) K.
Proof. apply Forall_mono. intros x (H & _). lia. Qed.

(** set_label on a new record. *)
Lemma set_label_ok s c L J K live F G U q :
  core s F G live ((q, Un 8) :: (q + 8, Un 8) :: (q + 16, Un 8) :: chainH labB 0 L 0 ++ chainH jmpB 0 J 0 ++ chainH conB 0 K 0 ++ U) ->
  clab s = hdp L -> clastl s = lastp L -> Forall (lok (csize c)) L -> ccount s = zlen L -> csz s = csize c ->
  let s' := set_label s q in
  core s' F G live ((q, W 0) :: (q + 8, W (zlen L)) :: (q + 16, W (csize c)) :: chainH labB 0 L q ++ chainH jmpB 0 J 0 ++ chainH conB 0 K 0 ++ U) /\
  cself s' = cself s /\ cbufp s' = cbufp s /\ cabufp s' = cabufp s /\ clab s' = hdn L q /\ clastl s' = q /\ cjmp s' = cjmp s /\ clastj s' = clastj s /\ ccon s' = ccon s /\ clastc s' = clastc s /\
  ccount s' = zlen L + 1 /\ csz s' = csz s /\ cerr s' = cerr s /\ cfld s' = cfld s.
Proof.
  intros C P1 P2 P3 P4 P5 s'. unfold s', set_label. clear s'.
  set (s1 := st s q 0). set (s2 := set_count (st s1 (q + 8) (ccount s1)) (ccount s1 + 1)). set (s3 := st s2 (q + 16) (csz s2)).
  cst C q 0. cst C (q + 8) (ccount s1). cst C (q + 16) (csz s2).
  assert (C3 : core s3 F G live (chainH labB 0 L 0 ++ (q, W 0) :: (q + 8, W (zlen L)) :: (q + 16, W (csize c)) :: chainH jmpB 0 J 0 ++ chainH conB 0 K 0 ++ U)).
  { rewrite <- P4, <- P5. change (ccount s) with (ccount s1). change (csz s) with (csz s2). eapply core_ext; [cp C|..]; reflexivity. }
  pose proof (link_ok labB s3 F G live _ L 0 q C3 (lab_pos _ _ P3)) as X. change (clab s3) with (clab s). change (clastl s3) with (clastl s). rewrite P1, P2.
  destruct (link s3 (hdp L) (lastp L) q) as (s4, f). destruct X as (X1 & X2 & X3 & X4 & X5 & X6 & X7). apply rest_fields in X3. destruct X3 as (R0 & R1 & R2 & R3 & R4 & R5 & R6 & R7 & R8).
  cbn [set_labs ch cself cbufp cabufp clab clastl cjmp clastj ccon clastc ccount csz cerr cfld]. 
  split; [eapply core_ext; [cp X1|..]; reflexivity|]. rewrite <- P4. repeat split; auto.
Qed.
Lemma snoc_len {A} (l : list A) x : zlen (l ++ [x]) = zlen l + 1.
Proof. rewrite zlen_app. reflexivity. Qed.
(** sljit_emit_label *)
Lemma label_rep s c L J K live : rep s c L J K live -> cerr s = 0 ->
  let (r, s') := api_label s in
  fr s' live /\
  (cerr s' = ERR_ALLOC_FAILED /\ r = 0 \/
   cerr s' = cerr s /\ exists L', rep s' (emit_label c) L' J K live /\ r = lastp L' /\ 0 < r /\ cfld s' = cfld s).
Proof.
  intros H Er. pose proof H as H0. rep_fields H. unfold api_label, guard. rewrite Er. cbn [Z.eqb negb].
  assert (Em : emit_label c = if negb (clastl s =? 0) && (ld s (clastl s + 16) =? csz s) then c else RvLink.set_label c None).
  { unfold emit_label. rewrite B2, <- A1. destruct L as [|x L] using rev_ind; [reflexivity|clear IHL]. destruct x as (q, l).
    rewrite map_app. cbn [map snd]. rewrite last_label_snoc, lastp_snoc. apply Forall_app in D1. destruct D1 as (_ & D1). inversion D1 as [|? ? (Y1 & Y2 & Y3) _]; subst. cbn [fst snd] in *.
    replace (q =? 0) with false by lia. cbn [negb andb]. replace (ld s (q + 16)) with (lsize l); [rewrite A4; reflexivity|]. symmetry.
    eapply core_ld; [exact HC| |unfold is64; lia]. rewrite chain_snoc. apply in_or_app. left. apply in_or_app. right. right. unfold labB. destruct (lmask l); cbn; auto. }
  rewrite Em. destruct (negb (clastl s =? 0) && (ld s (clastl s + 16) =? csz s)) eqn:E.
  - split; [eapply rep_fr; exact H0|]. right. split; auto. exists L. split; [exact H0|]. split; auto.
    apply andb_prop in E. destruct E as (E & _). assert (0 <= clastl s); [|split; [lia|reflexivity]]. rewrite B2. destruct L as [|x L] using rev_ind; [cbn; lia|]. destruct x as (q, l). rewrite lastp_snoc.
    apply Forall_app in D1. destruct D1 as (_ & D1). inversion D1 as [|? ? (Y1 & _) _]; subst. cbn [fst] in Y1. lia.
  - pose proof (ensure_abuf_ok s F G live _ 24 HC ltac:(lia)) as X. destruct (ensure_abuf s 24) as (q, s1).
    destruct X as (X1 & X2 & X3 & [(-> & X4 & X5)|(X4 & X5 & G' & X6 & _)]).
    + rewrite Z.eqb_refl. split; [|left; auto]. apply rest_fields in X1. destruct X1 as (_ & _ & _ & R3 & _). eapply (core_fr s1 F G live J (chainH labB 0 L 0 ++ chainH conB 0 K 0 ++ U)); [cp X5|congruence|exact D2].
    + replace (q =? 0) with false by lia. apply core_words3 in X6. apply rest_fields in X1. destruct X1 as (R0 & R1 & R2 & R3 & R4 & R5 & R6 & R7 & R8).
      pose proof (set_label_ok s1 c L J K live F G' U q X6 ltac:(congruence) ltac:(congruence) D1 ltac:(congruence) ltac:(congruence)) as Y.
      destruct Y as (Y0 & Y1 & Y2 & Y3 & Y4 & Y5 & Y6 & Y7 & Y8 & Y9 & Y10 & Y11 & Y12 & Y13).
      apply post_fr; [|intros (_ & Hz); lia]. right. split; [congruence|]. exists (L ++ [(q, mkLabel (csize c) None 0)]).
      split; [|split; [rewrite lastp_snoc; reflexivity|split; [lia|congruence]]].
      unfold RvLink.set_label. split; [|split; [|split]]; cbn [cbuf clabels cjumps cconsts csize].
      * exists F, G', U. split; [|exact HU]. rewrite chain_snoc. unfold labB at 2. cbn [lmask lsize]. rewrite Z.add_0_l. cp Y0.
      * rewrite map_app, A1. cbn [map snd]. rewrite snoc_len. repeat split; auto; congruence.
      * rewrite hdp_snoc, lastp_snoc. repeat split; congruence.
      * rewrite last_label_snoc. cbn [lsize]. split; [|split; [|split; [|split; [|split; [|split]]]]]; auto.
        -- apply Forall_app. split; auto. constructor; auto. unfold lok. cbn [fst snd lsize lmask laddr]. repeat split; auto; lia.
        -- rewrite map_app. cbn [map fst]. eapply Forall_mono; [|exact D2]. intros; apply jok_ext; auto.
        -- rewrite snoc_len. destruct (last_label (clabels c)) as [l|] eqn:E2; [|lia].
           assert (lsize l < csize c); [|lia]. rewrite <- A1 in E2. destruct L as [|x L] using rev_ind; [discriminate|clear IHL]. destruct x as (q0, l0).
           rewrite map_app in E2. cbn [map snd] in E2. rewrite last_label_snoc in E2. injection E2 as ->. apply Forall_app in D1. destruct D1 as (_ & D1). inversion D1 as [|? ? (Z1 & Z2 & Z3) _]; subst. cbn [fst snd] in *.
           rewrite B2, lastp_snoc in E. replace (q0 =? 0) with false in E by lia. cbn [negb andb] in E.
           replace (ld s (q0 + 16)) with (lsize l) in E; [lia|]. symmetry.
           eapply core_ld; [exact HC| |unfold is64; lia]. rewrite chain_snoc. apply in_or_app. left. apply in_or_app. right. right. unfold labB. destruct (lmask l); cbn; auto.
Qed.

(** sljit_emit_aligned_label: the extended label *)
Lemma ext_label_rep s c L J K live d : rep s c L J K live -> cerr s = 0 -> is64 d ->
  match last_label (clabels c) with Some l => lsize l < csize c | None => True end ->
  let (q, s1) := ensure_abuf s 40 in
  let (r, s') := if q =? 0 then (0, s1) else (q, set_extended_label s1 q LABEL_ALIGNED d) in
  fr s' live /\
  (cerr s' = ERR_ALLOC_FAILED /\ r = 0 \/
   cerr s' = cerr s /\ exists L', rep s' (RvLink.set_label c (Some d)) L' J K live /\ r = lastp L' /\ 0 < r /\ cfld s' = cfld s).
Proof.
  intros H Er Dd Lt. rep_fields H.
  pose proof (ensure_abuf_ok s F G live _ 40 HC ltac:(lia)) as X. destruct (ensure_abuf s 40) as (q, s1).
  destruct X as (X1 & X2 & X3 & [(-> & X4 & X5)|(X4 & X5 & G' & X6 & _)]).
  - rewrite Z.eqb_refl. split; [|left; auto]. apply rest_fields in X1. destruct X1 as (_ & _ & _ & R3 & _). eapply (core_fr s1 F G live J (chainH labB 0 L 0 ++ chainH conB 0 K 0 ++ U)); [cp X5|congruence|exact D2].
  - replace (q =? 0) with false by lia. apply core_words5 in X6. apply rest_fields in X1. destruct X1 as (R0 & R1 & R2 & R3 & R4 & R5 & R6 & R7 & R8).
    assert (X7 : core s1 F G' live ((q, Un 8) :: (q + 8, Un 8) :: (q + 16, Un 8) :: chainH labB 0 L 0 ++ chainH jmpB 0 J 0 ++ chainH conB 0 K 0 ++ (q + 24, Un 8) :: (q + 32, Un 8) :: U)) by cp X6.
    pose proof (set_label_ok s1 c L J K live F G' _ q X7 ltac:(congruence) ltac:(congruence) D1 ltac:(congruence) ltac:(congruence)) as Y.
    destruct Y as (Y0 & Y1 & Y2 & Y3 & Y4 & Y5 & Y6 & Y7 & Y8 & Y9 & Y10 & Y11 & Y12 & Y13).
    unfold set_extended_label. set (s2 := CpState.set_label s1 q) in *. pose proof (zlen_pos L) as ZL. pose proof (zlen_pos K) as ZK.
    assert (LB : zlen L < 2 ^ 63). { destruct (last_label (clabels c)) as [l|] eqn:E; lia. }
    assert (E : ld s2 (q + 8) = zlen L). { eapply core_ld; [exact Y0|cbn; auto|unfold is64; lia]. }
    rewrite E. cst Y0 (q + 24) (zlen L). cfront Y0 (q + 8, W (zlen L)). apply (core_st _ _ _ _ _ (q + 8) (W (zlen L)) LABEL_ALIGNED) in Y0; [|reflexivity].
    cst Y0 (q + 32) d. apply post_fr; [|intros (_ & Hz); lia]. right. cbn [cerr st set_h]. split; [congruence|]. exists (L ++ [(q, mkLabel (csize c) (Some d) 0)]).
    split; [|split; [rewrite lastp_snoc; reflexivity|split; [lia|cbn [cfld st set_h]; congruence]]].
    unfold RvLink.set_label. split; [|split; [|split]]; cbn [cbuf clabels cjumps cconsts csize].
    + exists F, G', U. split; [|exact HU]. rewrite chain_snoc. unfold labB at 2. cbn [lmask lsize]. rewrite Z.add_0_l. cp Y0.
    + rewrite map_app, A1. cbn [map snd]. rewrite snoc_len. cbn [csz ccount st set_h]. repeat split; auto; congruence.
    + rewrite hdp_snoc, lastp_snoc. cbn [clab clastl cjmp clastj ccon clastc st set_h]. repeat split; congruence.
    + rewrite last_label_snoc. cbn [lsize]. split; [|split; [|split; [|split; [|split; [|split]]]]]; auto.
      * apply Forall_app. split; auto. constructor; auto. unfold lok. cbn [fst snd lsize lmask laddr]. repeat split; auto; try lia; apply Dd.
      * rewrite map_app. cbn [map fst]. eapply Forall_mono; [|exact D2]. intros; apply jok_ext; auto.
      * rewrite snoc_len. destruct (last_label (clabels c)) as [l|] eqn:E2; lia.
Qed.

(** ** Jumps *)
Lemma set_jump_core s L J K live F G U q fl sz :
  core s F G live ((q, Un 8) :: (q + 16, Un 8) :: (q + 24, Un 8) :: chainH labB 0 L 0 ++ chainH jmpB 0 J 0 ++ chainH conB 0 K 0 ++ U) ->
  cjmp s = hdp J -> clastj s = lastp J -> Forall (jok (map fst L) sz) J ->
  let s' := set_jump s q fl in
  core s' F G live ((q, W 0) :: (q + 16, W fl) :: (q + 24, W 0) :: chainH labB 0 L 0 ++ chainH jmpB 0 J q ++ chainH conB 0 K 0 ++ U) /\
  cself s' = cself s /\ cbufp s' = cbufp s /\ cabufp s' = cabufp s /\ clab s' = clab s /\ clastl s' = clastl s /\ cjmp s' = hdn J q /\ clastj s' = q /\ ccon s' = ccon s /\ clastc s' = clastc s /\
  ccount s' = ccount s /\ csz s' = csz s /\ cerr s' = cerr s /\ cfld s' = cfld s.
Proof.
  intros C P1 P2 P3 s'. unfold s', set_jump. clear s'.
  cst C q 0. cst C (q + 16) fl. cst C (q + 24) 0. set (s3 := st (st (st s q 0) (q + 16) fl) (q + 24) 0) in *.
  assert (C3 : core s3 F G live (chainH jmpB 0 J 0 ++ (q, W 0) :: (q + 16, W fl) :: (q + 24, W 0) :: chainH labB 0 L 0 ++ chainH conB 0 K 0 ++ U)) by cp C.
  pose proof (link_ok jmpB s3 F G live _ J 0 q C3 (jmp_pos _ _ _ P3)) as X. change (cjmp s3) with (cjmp s). change (clastj s3) with (clastj s). rewrite P1, P2.
  destruct (link s3 (hdp J) (lastp J) q) as (s4, f). destruct X as (X1 & X2 & X3 & X4 & X5 & X6 & X7). apply rest_fields in X3. destruct X3 as (R0 & R1 & R2 & R3 & R4 & R5 & R6 & R7 & R8).
  cbn [set_jmps ch cself cbufp cabufp clab clastl cjmp clastj ccon clastc ccount csz cerr cfld].
  split; [eapply core_ext; [cp X1|..]; reflexivity|]. repeat split; auto.
Qed.
(** All parts of a state with one more jump. *)
Lemma rep_add_jump s c L J K live F G U q j u us sz : rep s c L J K live -> forall s',
  core s' F G live ((q, W 0) :: (q + 8, W (jaddr j)) :: (q + 16, W (jflags j)) :: (q + 24, W u) :: chainH labB 0 L 0 ++ chainH jmpB 0 J q ++ chainH conB 0 K 0 ++ U) ->
  funits F us -> 0 < q < 2 ^ 64 -> jok (map fst L) sz (q, (j, u)) -> csize c < sz < 2 ^ 63 ->
  clab s' = clab s -> clastl s' = clastl s -> cjmp s' = hdn J q -> clastj s' = q -> ccon s' = ccon s -> clastc s' = clastc s -> ccount s' = ccount s -> csz s' = sz ->
  rep s' (mkComp us (clabels c) (cjumps c ++ [j]) (cconsts c) sz) L (J ++ [(q, (j, u))]) K live.
Proof.
  intros H s' C HU' Q Jk Sz E1 E2 E3 E4 E5 E6 E7 E8. rep_fields H.
  split; [|split; [|split]]; cbn [cbuf clabels cjumps cconsts csize].
  - exists F, G, U. split; [|exact HU']. rewrite chain_snoc. unfold jmpB at 2. cbn [fst snd]. cp C.
  - rewrite map_app, A2. cbn [map snd fst]. repeat split; auto; congruence.
  - rewrite hdp_snoc, lastp_snoc. repeat split; congruence.
  - split; [eapply Forall_mono; [|exact D1]; intros; eapply lok_mono; [|eauto]; lia|].
    split; [apply Forall_app; split; [eapply Forall_mono; [|exact D2]; intros; eapply jok_mono; [|eauto]; lia|constructor; auto]|].
    split; [eapply Forall_mono; [|exact D3]; intros; eapply kok_mono; [|eauto]; lia|]. rewrite snoc_len. repeat split; auto; lia.
Qed.
Lemma jump_flags a k rewr call t : ((bz rewr REWRITABLE_JUMP .| cond_flags k) .| bz call IS_CALL) = jflags (new_jump a rewr call k false (TLabel t)).
Proof. destruct k, rewr, call; reflexivity. Qed.
Ltac n64 := split; [vm_compute; discriminate|vm_compute; reflexivity].
Definition cond_ok (k : jcnd) : Prop := match k with Cond16 w => u16 w = w | _ => True end.
Definition cond_units (k : jcnd) : list Z := match k with NoCond => [] | Cond16 w => [w] | Cond32 w => [u16 w; u16 (Z.shiftr w 16)] end.
Lemma cond_em_units k : cond_ok k -> units_of (flat (cond_em k)) = cond_units k.
Proof. destruct k; intros H; cbn in *; rewrite ?H; reflexivity. Qed.
Lemma emit_jump_eq c k rewr call t : emit_jump c k rewr call t =
  mkComp (cbuf c ++ cond_units k ++ [0]) (clabels c) (cjumps c ++ [new_jump (csize c + zlen (cond_units k)) rewr call k false t]) (cconsts c) (csize c + zlen (cond_units k) + JUMP_MAX_SIZE).
Proof. destruct k; unfold emit_jump, push_units; cbn [cbuf clabels cjumps cconsts csize cond_units app length]; rewrite <- ?app_assoc; cbn [app]; try reflexivity. change (zlen (@nil Z)) with 0. rewrite Z.add_0_r. reflexivity. Qed.
Lemma jflags_64 j : is64 (jflags j).
Proof. unfold jflags, is64. destruct (jisaddr j), (jmov j), (jcond j), (jcall j), (jcond16 j), (jrewr j); cbn; lia. Qed.
Lemma core_st_w s F G live R a v w : core s F G live ((a, W v) :: R) -> core (st s a w) F G live ((a, W w) :: R).
Proof. intros C. apply (core_st _ _ _ _ _ a (W v) w) in C; auto. Qed.
(** The placeholder of a jump, after its record is complete except for the chained list. *)
Lemma jump_end s c L J K live F G U q j u us w s0 : rep s c L J K live ->
  core s0 F G live ((q, W 0) :: (q + 8, W (jaddr j)) :: (q + 16, W (jflags j)) :: (q + 24, W u) :: chainH labB 0 L 0 ++ chainH jmpB 0 J q ++ chainH conB 0 K 0 ++ U) ->
  funits F us -> 0 < q < 2 ^ 64 -> u16 w = w ->
  clab s0 = clab s -> clastl s0 = clastl s -> cjmp s0 = hdn J q -> clastj s0 = q -> ccon s0 = ccon s -> clastc s0 = clastc s -> ccount s0 = ccount s ->
  csize c <= csz s0 -> csz s0 + JUMP_MAX_SIZE < 2 ^ 63 -> jok (map fst L) (csz s0 + JUMP_MAX_SIZE) (q, (j, u)) ->
  let (r, s1) := push_inst16 s0 w in
  fr s1 live /\ cfld s1 = cfld s0 /\
  (cerr s1 = ERR_ALLOC_FAILED /\ r <> 0 \/
   cerr s1 = cerr s0 /\ r = 0 /\
   rep (set_size s1 (csz s1 + (JUMP_MAX_SIZE - 1))) (mkComp (us ++ [w]) (clabels c) (cjumps c ++ [j]) (cconsts c) (csz s0 + JUMP_MAX_SIZE)) L (J ++ [(q, (j, u))]) K live).
Proof.
  intros H C Us Q Hw E1 E2 E3 E4 E5 E6 E7 Z1 Z2 Jk. pose proof (push_ok (P16 w) s0 F G live _ us C Us) as X. cbn [push units] in X.
  destruct (push_inst16 s0 w) as (r, s1). destruct X as (X1 & X2 & F' & us' & X3 & X4 & X5).
  apply rest_fields in X1. destruct X1 as (R0 & R1 & R2 & R3 & R4 & R5 & R6 & R7 & R8).
  pose proof H as (_ & _ & _ & (_ & D2 & _)).
  split.
  { eapply (core_fr_snoc s1 F' G live J (chainH labB 0 L 0 ++ chainH conB 0 K 0 ++ U) (map fst L) (csize c) q (W (jaddr j)) (W (jflags j)) (W u)); try reflexivity; auto; [cp X3|congruence]. }
  split; [congruence|]. destruct X5 as [(-> & X5 & X6 & ->)|(X5 & X6)]; [right|left; auto].
  split; auto. split; auto. rewrite Hw in *. change (zlen [w]) with 1 in X6.
  eapply (rep_add_jump s c L J K live F' G U q j u (us ++ [w]) (csz s0 + JUMP_MAX_SIZE) H); cbn [set_size clab clastl cjmp clastj ccon clastc ccount csz]; auto; try congruence.
  all: unfold JUMP_MAX_SIZE in *; lia.
Qed.
Lemma jump_tail_rep k rewr call s c L J K live : rep s c L J K live -> cond_ok k ->
  let c' := emit_jump c k rewr call (TLabel 0) in
  csize c' < 2 ^ 63 ->
  let (r, s') := jump_tail k rewr call s in
  fr s' live /\
  (cerr s' = ERR_ALLOC_FAILED /\ r = 0 \/
   cerr s' = cerr s /\ exists J', rep s' c' L J' K live /\ r = lastp J' /\ 0 < r /\ cfld s' = cfld s).
Proof.
  intros H Ck c' Bd. unfold c' in *. rewrite emit_jump_eq in *. clear c'. cbn [csize] in Bd. unfold jump_tail. pose proof H as H0. rep_fields H.
  pose proof (zlen_pos (cond_units k)) as Zk.
  pose proof (ensure_abuf_ok s F G live _ 32 HC ltac:(lia)) as X. destruct (ensure_abuf s 32) as (q, s1).
  destruct X as (X1 & X2 & X3 & [(-> & X4 & X5)|(X4 & X5 & G' & X6 & _)]).
  { rewrite Z.eqb_refl. split; [|left; auto]. apply rest_fields in X1. destruct X1 as (_ & _ & _ & R3 & _).
    eapply (core_fr s1 F G live J (chainH labB 0 L 0 ++ chainH conB 0 K 0 ++ U)); [cp X5|congruence|exact D2]. }
  replace (q =? 0) with false by lia. apply core_words4 in X6. apply rest_fields in X1. destruct X1 as (R0 & R1 & R2 & R3 & R4 & R5 & R6 & R7 & R8).
  change (if rewr then REWRITABLE_JUMP else 0) with (bz rewr REWRITABLE_JUMP).
  pose proof (set_jump_core s1 L J K live F G' ((q + 8, Un 8) :: U) q (bz rewr REWRITABLE_JUMP) (csize c) ltac:(cp X6) ltac:(congruence) ltac:(congruence) D2) as Y.
  cbv zeta in Y. set (s2 := set_jump s1 q (bz rewr REWRITABLE_JUMP)) in *. destruct Y as (Y0 & Y1 & Y2 & Y3 & Y4 & Y5 & Y6 & Y7 & Y8 & Y9 & Y10 & Y11 & Y12 & Y13).
  pose proof (run_em_ok (cond_em k) s2 F G' live _ _ Y0 HU) as E. rewrite (cond_em_units k Ck) in E. destruct (run_em (cond_em k) s2) as (r, s3).
  destruct E as (E1 & E2 & F' & us' & E3 & E4 & E5). apply rest_fields in E1. destruct E1 as (S0 & S1 & S2 & S3 & S4 & S5 & S6 & S7 & S8).
  destruct E5 as [(-> & E5 & E6 & ->)|(E5 & E6)].
  2:{ assert (r <> 0) by (apply E6; destruct k; exact I). replace (r =? 0) with false by lia. cbn [negb]. split; [|left; auto].
      eapply (core_fr_snoc s3 F' G' live J (chainH labB 0 L 0 ++ chainH conB 0 K 0 ++ U) (map fst L) (csize c) q (Un 8) (W (bz rewr REWRITABLE_JUMP)) (W 0)); try reflexivity; auto; [cp E3|congruence|lia]. }
  cbn [Z.eqb negb].
  assert (L1 : ld s3 (q + 16) = bz rewr REWRITABLE_JUMP). { eapply core_ld; [exact E3|cbn; auto|destruct rewr; n64]. }
  rewrite L1. set (f1 := bz rewr REWRITABLE_JUMP .| cond_flags k). cfront E3 (q + 16, W (bz rewr REWRITABLE_JUMP)). apply (core_st_w _ _ _ _ _ _ _ f1) in E3.
  cst E3 (q + 8) (csz (st s3 (q + 16) f1)). set (s4 := st (st s3 (q + 16) f1) (q + 8) (csz (st s3 (q + 16) f1))) in *.
  change (csz (st s3 (q + 16) f1)) with (csz s3) in E3.
  set (j := new_jump (csize c + zlen (cond_units k)) rewr call k false (TLabel 0)).
  assert (Sz3 : csz s3 = csize c + zlen (cond_units k)) by congruence.
  set (s5 := if call then st s4 (q + 16) (ld s4 (q + 16) .| IS_CALL) else s4).
  assert (C5 : core s5 F' G' live ((q, W 0) :: (q + 8, W (jaddr j)) :: (q + 16, W (jflags j)) :: (q + 24, W 0) :: chainH labB 0 L 0 ++ chainH jmpB 0 J q ++ chainH conB 0 K 0 ++ U)).
  { unfold j. rewrite <- jump_flags. fold f1. cbn [jaddr new_jump]. rewrite <- Sz3. unfold s5. destruct call; cbn [bz].
    - assert (L2 : ld s4 (q + 16) = f1). { eapply core_ld; [exact E3|cbn; auto|unfold f1; destruct rewr, k; n64]. }
      rewrite L2. cfront E3 (q + 16, W f1). apply (core_st_w _ _ _ _ _ _ _ (f1 .| IS_CALL)) in E3. cp E3.
    - replace (f1 .| 0) with f1 by (symmetry; apply Z.lor_0_r). cp E3. }
  assert (Fs : csz s5 = csz s3 /\ cerr s5 = cerr s3 /\ cfld s5 = cfld s3 /\ clab s5 = clab s3 /\ clastl s5 = clastl s3 /\ cjmp s5 = cjmp s3 /\ clastj s5 = clastj s3 /\ ccon s5 = ccon s3 /\ clastc s5 = clastc s3 /\ ccount s5 = ccount s3).
  { unfold s5. destruct call; repeat split. }
  destruct Fs as (Fz & Fe & Ff & F1 & F2 & F3 & F4 & F5 & F6 & F7). clearbody s5.
  pose proof (jump_end s c L J K live F' G' U q j 0 (cbuf c ++ cond_units k) 0 s5 H0 C5 E4 ltac:(lia) eq_refl) as Z0.
  assert (Zj : jok (map fst L) (csz s5 + JUMP_MAX_SIZE) (q, (j, 0))).
  { unfold jok, j, jump_new, jval_ok, JUMP_MAX_SIZE in *. cbn [fst snd new_jump jaddr jsz jpatch jisaddr jtarget jlabel]. rewrite Fz, Sz3. repeat split; auto; lia. }
  specialize (Z0 ltac:(congruence) ltac:(congruence) ltac:(congruence) ltac:(congruence) ltac:(congruence) ltac:(congruence) ltac:(congruence) ltac:(lia) ltac:(lia) Zj).
  destruct (push_inst16 s5 0) as (r, s6). destruct Z0 as (Z1 & Z2 & [(Z3 & Z4)|(Z3 & -> & Z4)]).
  - replace (r =? 0) with false by lia. cbn [negb]. split; auto.
  - cbn [Z.eqb negb]. split; [eapply rep_fr; exact Z4|]. right. cbn [cerr cfld set_size]. split; [congruence|]. exists (J ++ [(q, (j, 0))]).
    rewrite lastp_snoc. split; [|split; [reflexivity|split; [lia|congruence]]]. rewrite Fz, Sz3, <- app_assoc in Z4. exact Z4.
Qed.
Lemma ijump_flags a call t : (JUMP_ADDR .| bz call IS_CALL) = jflags (new_jump a false call NoCond false (TAddr t)).
Proof. destruct call; reflexivity. Qed.
Lemma ijump_tail_rep call a s c L J K live : rep s c L J K live -> is64 a ->
  let c' := emit_jump c NoCond false call (TAddr a) in
  csize c' < 2 ^ 63 ->
  let (r, s') := ijump_tail call a s in
  fr s' live /\
  (cerr s' = ERR_ALLOC_FAILED /\ r <> 0 \/
   cerr s' = cerr s /\ r = 0 /\ exists J', rep s' c' L J' K live /\ cfld s' = cfld s).
Proof.
  intros H Ca c' Bd. unfold c' in *. rewrite emit_jump_eq in *. clear c'. cbn [csize cond_units] in Bd. change (zlen (@nil Z)) with 0 in Bd. unfold ijump_tail. pose proof H as H0. rep_fields H.
  pose proof (ensure_abuf_ok s F G live _ 32 HC ltac:(lia)) as X. destruct (ensure_abuf s 32) as (q, s1).
  destruct X as (X1 & X2 & X3 & [(-> & X4 & X5)|(X4 & X5 & G' & X6 & _)]).
  { rewrite Z.eqb_refl. split; [|left; split; [auto|rewrite X4; discriminate]]. apply rest_fields in X1. destruct X1 as (_ & _ & _ & R3 & _).
    eapply (core_fr s1 F G live J (chainH labB 0 L 0 ++ chainH conB 0 K 0 ++ U)); [cp X5|congruence|exact D2]. }
  replace (q =? 0) with false by lia. apply core_words4 in X6. apply rest_fields in X1. destruct X1 as (R0 & R1 & R2 & R3 & R4 & R5 & R6 & R7 & R8).
  change (if call then IS_CALL else 0) with (bz call IS_CALL). set (fl := JUMP_ADDR .| bz call IS_CALL).
  pose proof (set_jump_core s1 L J K live F G' ((q + 8, Un 8) :: U) q fl (csize c) ltac:(cp X6) ltac:(congruence) ltac:(congruence) D2) as Y.
  cbv zeta in Y. set (s2 := set_jump s1 q fl) in *. destruct Y as (Y0 & Y1 & Y2 & Y3 & Y4 & Y5 & Y6 & Y7 & Y8 & Y9 & Y10 & Y11 & Y12 & Y13).
  cfront Y0 (q + 24, W 0). apply (core_st_w _ _ _ _ _ _ _ a) in Y0. cst Y0 (q + 8) (csz (st s2 (q + 24) a)).
  set (s5 := st (st s2 (q + 24) a) (q + 8) (csz (st s2 (q + 24) a))) in *. change (csz (st s2 (q + 24) a)) with (csz s2) in Y0.
  set (j := new_jump (csize c) false call NoCond false (TAddr a)).
  assert (Sz3 : csz s2 = csize c) by congruence.
  assert (C5 : core s5 F G' live ((q, W 0) :: (q + 8, W (jaddr j)) :: (q + 16, W (jflags j)) :: (q + 24, W a) :: chainH labB 0 L 0 ++ chainH jmpB 0 J q ++ chainH conB 0 K 0 ++ U)).
  { unfold j. rewrite <- ijump_flags. fold fl. cbn [jaddr new_jump]. rewrite <- Sz3. cp Y0. }
  pose proof (jump_end s c L J K live F G' U q j a (cbuf c) 0 s5 H0 C5 HU ltac:(lia) eq_refl) as Z0.
  change (csz s5) with (csz s2) in Z0. rewrite Sz3 in Z0.
  assert (Zj : jok (map fst L) (csize c + JUMP_MAX_SIZE) (q, (j, a))).
  { unfold jok, j, jump_new, jval_ok, JUMP_MAX_SIZE in *. cbn [fst snd new_jump jaddr jsz jpatch jisaddr jtarget jlabel]. repeat split; auto; try lia; apply Ca. }
  change (clab s5) with (clab s2) in Z0. change (clastl s5) with (clastl s2) in Z0. change (cjmp s5) with (cjmp s2) in Z0. change (clastj s5) with (clastj s2) in Z0.
  change (ccon s5) with (ccon s2) in Z0. change (clastc s5) with (clastc s2) in Z0. change (ccount s5) with (ccount s2) in Z0.
  specialize (Z0 ltac:(congruence) ltac:(congruence) ltac:(congruence) ltac:(congruence) ltac:(congruence) ltac:(congruence) ltac:(congruence) ltac:(lia) ltac:(lia) Zj).
  change (cerr s5) with (cerr s2) in Z0. change (cfld s5) with (cfld s2) in Z0.
  destruct (push_inst16 s5 0) as (r, s6). destruct Z0 as (Z1 & Z2 & [(Z3 & Z4)|(Z3 & -> & Z4)]).
  - replace (r =? 0) with false by lia. cbn [negb]. split; auto. left. split; auto. rewrite Z3. discriminate.
  - cbn [Z.eqb negb]. split; [eapply rep_fr; exact Z4|]. right. cbn [cerr cfld set_size]. split; [congruence|]. split; auto. exists (J ++ [(q, (j, a))]).
    split; [|congruence]. cbn [cond_units app]. change (zlen (@nil Z)) with 0. rewrite Z.add_0_r. exact Z4.
Qed.
Lemma set_mov_core s L J K live F G U q sz :
  core s F G live ((q, Un 8) :: (q + 8, Un 8) :: (q + 16, Un 8) :: (q + 24, Un 8) :: chainH labB 0 L 0 ++ chainH jmpB 0 J 0 ++ chainH conB 0 K 0 ++ U) ->
  cjmp s = hdp J -> clastj s = lastp J -> Forall (jok (map fst L) sz) J ->
  let s' := set_mov_addr s q in
  core s' F G live ((q, W 0) :: (q + 8, W (csz s)) :: (q + 16, W JUMP_MOV_ADDR) :: (q + 24, W 0) :: chainH labB 0 L 0 ++ chainH jmpB 0 J q ++ chainH conB 0 K 0 ++ U) /\
  cself s' = cself s /\ cbufp s' = cbufp s /\ cabufp s' = cabufp s /\ clab s' = clab s /\ clastl s' = clastl s /\ cjmp s' = hdn J q /\ clastj s' = q /\ ccon s' = ccon s /\ clastc s' = clastc s /\
  ccount s' = ccount s /\ csz s' = csz s /\ cerr s' = cerr s /\ cfld s' = cfld s.
Proof.
  intros C P1 P2 P3 s'. unfold s', set_mov_addr. clear s'.
  cst C q 0. cst C (q + 8) (csz (st s q 0)). cst C (q + 16) JUMP_MOV_ADDR. cst C (q + 24) 0.
  set (s3 := st (st (st (st s q 0) (q + 8) (csz (st s q 0))) (q + 16) JUMP_MOV_ADDR) (q + 24) 0) in *. change (csz (st s q 0)) with (csz s) in C.
  assert (C3 : core s3 F G live (chainH jmpB 0 J 0 ++ (q, W 0) :: (q + 8, W (csz s)) :: (q + 16, W JUMP_MOV_ADDR) :: (q + 24, W 0) :: chainH labB 0 L 0 ++ chainH conB 0 K 0 ++ U)) by cp C.
  pose proof (link_ok jmpB s3 F G live _ J 0 q C3 (jmp_pos _ _ _ P3)) as X. change (cjmp s3) with (cjmp s). change (clastj s3) with (clastj s). rewrite P1, P2.
  destruct (link s3 (hdp J) (lastp J) q) as (s4, f). destruct X as (X1 & X2 & X3 & X4 & X5 & X6 & X7). apply rest_fields in X3. destruct X3 as (R0 & R1 & R2 & R3 & R4 & R5 & R6 & R7 & R8).
  cbn [set_jmps ch cself cbufp cabufp clab clastl cjmp clastj ccon clastc ccount csz cerr cfld].
  split; [eapply core_ext; [cp X1|..]; reflexivity|]. repeat split; auto.
Qed.
Lemma mov_tail_rep reg s c L J K live : rep s c L J K live -> u16 reg = reg ->
  let c' := emit_mov_addr c reg (TLabel 0) in
  csize c' < 2 ^ 63 ->
  let (r, s') := mov_tail reg s in
  fr s' live /\
  (cerr s' = ERR_ALLOC_FAILED /\ r = 0 \/
   cerr s' = cerr s /\ exists J', rep s' c' L J' K live /\ r = lastp J' /\ 0 < r /\ cfld s' = cfld s).
Proof.
  intros H Cr c' Bd. unfold c', emit_mov_addr in *. clear c'. cbn [csize] in Bd. unfold mov_tail. pose proof H as H0. rep_fields H.
  pose proof (ensure_abuf_ok s F G live _ 32 HC ltac:(lia)) as X. destruct (ensure_abuf s 32) as (q, s1).
  destruct X as (X1 & X2 & X3 & [(-> & X4 & X5)|(X4 & X5 & G' & X6 & _)]).
  { rewrite Z.eqb_refl. split; [|left; auto]. apply rest_fields in X1. destruct X1 as (_ & _ & _ & R3 & _).
    eapply (core_fr s1 F G live J (chainH labB 0 L 0 ++ chainH conB 0 K 0 ++ U)); [cp X5|congruence|exact D2]. }
  replace (q =? 0) with false by lia. apply core_words4 in X6. apply rest_fields in X1. destruct X1 as (R0 & R1 & R2 & R3 & R4 & R5 & R6 & R7 & R8).
  pose proof (set_mov_core s1 L J K live F G' U q (csize c) X6 ltac:(congruence) ltac:(congruence) D2) as Y.
  cbv zeta in Y. set (s2 := set_mov_addr s1 q) in *. destruct Y as (Y0 & Y1 & Y2 & Y3 & Y4 & Y5 & Y6 & Y7 & Y8 & Y9 & Y10 & Y11 & Y12 & Y13).
  set (j := new_jump (csize c) false false NoCond true (TLabel 0)).
  assert (Sz3 : csz s2 = csize c) by congruence.
  assert (C5 : core s2 F G' live ((q, W 0) :: (q + 8, W (jaddr j)) :: (q + 16, W (jflags j)) :: (q + 24, W 0) :: chainH labB 0 L 0 ++ chainH jmpB 0 J q ++ chainH conB 0 K 0 ++ U)).
  { replace (jaddr j) with (csz s1) by (cbn [j new_jump jaddr]; congruence). change (jflags j) with JUMP_MOV_ADDR. exact Y0. }
  pose proof (jump_end s c L J K live F G' U q j 0 (cbuf c) reg s2 H0 C5 HU ltac:(lia) Cr) as Z0. rewrite Sz3 in Z0.
  assert (Zj : jok (map fst L) (csize c + JUMP_MAX_SIZE) (q, (j, 0))).
  { unfold jok, j, jump_new, jval_ok, JUMP_MAX_SIZE in *. cbn [fst snd new_jump jaddr jsz jpatch jisaddr jtarget jlabel]. repeat split; auto; try lia. }
  specialize (Z0 ltac:(congruence) ltac:(congruence) ltac:(congruence) ltac:(congruence) ltac:(congruence) ltac:(congruence) ltac:(congruence) ltac:(lia) ltac:(lia) Zj).
  destruct (push_inst16 s2 reg) as (r, s6). destruct Z0 as (Z1 & Z2 & [(Z3 & Z4)|(Z3 & -> & Z4)]).
  - replace (r =? 0) with false by lia. cbn [negb]. split; auto.
  - cbn [Z.eqb negb]. split; [eapply rep_fr; exact Z4|]. right. cbn [cerr cfld set_size]. split; [congruence|]. exists (J ++ [(q, (j, 0))]).
    rewrite lastp_snoc. split; [exact Z4|split; [reflexivity|split; [lia|congruence]]].
Qed.
(** Constants *)
Lemma set_const_core s L J K live F G U q sz :
  core s F G live ((q, Un 8) :: (q + 8, Un 8) :: chainH labB 0 L 0 ++ chainH jmpB 0 J 0 ++ chainH conB 0 K 0 ++ U) ->
  ccon s = hdp K -> clastc s = lastp K -> Forall (kok sz) K ->
  let s' := set_const s q in
  core s' F G live (chainH labB 0 L 0 ++ chainH jmpB 0 J 0 ++ chainH conB 0 (K ++ [(q, csz s)]) 0 ++ U) /\
  cself s' = cself s /\ cbufp s' = cbufp s /\ cabufp s' = cabufp s /\ clab s' = clab s /\ clastl s' = clastl s /\ cjmp s' = cjmp s /\ clastj s' = clastj s /\ ccon s' = hdn K q /\ clastc s' = q /\
  ccount s' = ccount s /\ csz s' = csz s /\ cerr s' = cerr s /\ cfld s' = cfld s.
Proof.
  intros C P1 P2 P3 s'. unfold s', set_const. clear s'.
  cst C q 0. cst C (q + 8) (csz (st s q 0)).
  set (s3 := st (st s q 0) (q + 8) (csz (st s q 0))) in *. change (csz (st s q 0)) with (csz s) in C.
  assert (C3 : core s3 F G live (chainH conB 0 K 0 ++ (q, W 0) :: (q + 8, W (csz s)) :: chainH labB 0 L 0 ++ chainH jmpB 0 J 0 ++ U)) by cp C.
  pose proof (link_ok conB s3 F G live _ K 0 q C3 (con_pos _ _ P3)) as X. change (ccon s3) with (ccon s). change (clastc s3) with (clastc s). rewrite P1, P2.
  destruct (link s3 (hdp K) (lastp K) q) as (s4, f). destruct X as (X1 & X2 & X3 & X4 & X5 & X6 & X7). apply rest_fields in X3. destruct X3 as (R0 & R1 & R2 & R3 & R4 & R5 & R6 & R7 & R8).
  cbn [set_cons ch cself cbufp cabufp clab clastl cjmp clastj ccon clastc ccount csz cerr cfld].
  split; [|repeat split; auto]. rewrite chain_snoc. unfold conB at 2. eapply core_ext; [cp X1|..]; reflexivity.
Qed.
Definition const_em (p : piece) (e : em) : em := EThen (match p with P16 w => E16 w | P32 w => E32 w end) e.
Lemma const_flat p e : flat (const_em p e) = p :: flat e.
Proof. destruct p; reflexivity. Qed.
Lemma const_rep p e s c L J K live : rep s c L J K live -> cerr s = 0 ->
  let c' := emit_constant c (units_of (p :: flat e)) in
  csize c' < 2 ^ 63 ->
  let (r, s') := api_const p e s in
  fr s' live /\
  (cerr s' = ERR_ALLOC_FAILED /\ (checked e -> r = 0) \/
   cerr s' = 0 /\ exists K', rep s' c' L J K' live /\ r = lastp K' /\ 0 < r /\ cfld s' = cfld s).
Proof.
  intros H Er c' Bd. unfold api_const, guard. rewrite Er. cbn [Z.eqb negb]. fold (const_em p e).
  unfold c', emit_constant in *. clear c'. pose proof H as H0. rep_fields H.
  pose proof (ensure_abuf_ok s F G live _ 16 HC ltac:(lia)) as X. destruct (ensure_abuf s 16) as (q, s1).
  destruct X as (X1 & X2 & X3 & [(-> & X4 & X5)|(X4 & X5 & G' & X6 & _)]).
  { rewrite Z.eqb_refl. split; [|left; auto]. apply rest_fields in X1. destruct X1 as (_ & _ & _ & R3 & _).
    eapply (core_fr s1 F G live J (chainH labB 0 L 0 ++ chainH conB 0 K 0 ++ U)); [cp X5|congruence|exact D2]. }
  replace (q =? 0) with false by lia. apply core_words2 in X6. apply rest_fields in X1. destruct X1 as (R0 & R1 & R2 & R3 & R4 & R5 & R6 & R7 & R8).
  pose proof (set_const_core s1 L J K live F G' U q (csize c) X6 ltac:(congruence) ltac:(congruence) D3) as Y.
  cbv zeta in Y. set (s2 := set_const s1 q) in *. destruct Y as (Y0 & Y1 & Y2 & Y3 & Y4 & Y5 & Y6 & Y7 & Y8 & Y9 & Y10 & Y11 & Y12 & Y13).
  pose proof (run_em_ok (const_em p e) s2 F G' live _ _ Y0 HU) as E. rewrite const_flat in E. destruct (run_em (const_em p e) s2) as (r, s3).
  destruct E as (E1 & E2 & F' & us' & E3 & E4 & E5). apply rest_fields in E1. destruct E1 as (S0 & S1 & S2 & S3 & S4 & S5 & S6 & S7 & S8).
  assert (FR : fr s3 live).
  { eapply (core_fr s3 F' G' live J (chainH labB 0 L 0 ++ chainH conB 0 (K ++ [(q, csz s1)]) 0 ++ U)); [cp E3|congruence|exact D2]. }
  destruct E5 as [(-> & E5 & E6 & ->)|(E5 & E6)].
  2:{ destruct (r =? 0) eqn:R; cbn [negb]; (split; [exact FR|]); left; (split; [exact E5|]); auto. intros Ch. assert (r <> 0) by (apply E6; unfold const_em; cbn [checked]; destruct p; cbn [checked]; auto). lia. }
  cbn [Z.eqb negb]. split; [exact FR|]. right. split; [congruence|]. exists (K ++ [(q, csz s1)]). rewrite lastp_snoc.
  split; [|split; [reflexivity|split; [lia|congruence]]].
  set (us := units_of (p :: flat e)) in *. assert (Lu : 1 <= zlen us). { unfold us, units_of. cbn [flat_map]. rewrite zlen_app. pose proof (zlen_pos (flat_map units (flat e))). destruct p; cbn [units]; unfold zlen in *; cbn [length]; lia. }
  unfold push_units in *. fold (zlen us) in *. cbn [csize] in Bd. split; [|split; [|split]]; cbn [cbuf clabels cjumps cconsts csize].
  - exists F', G', U. split; [exact E3|exact E4].
  - rewrite map_app, A3. cbn [map snd]. repeat split; auto; try congruence.
  - rewrite hdp_snoc, lastp_snoc. repeat split; congruence.
  - split; [eapply Forall_mono; [|exact D1]; intros; eapply lok_mono; [|eauto]; lia|].
    split; [eapply Forall_mono; [|exact D2]; intros; eapply jok_mono; [|eauto]; lia|].
    split; [apply Forall_app; split; [eapply Forall_mono; [|exact D3]; intros; eapply kok_mono; [|eauto]; lia|constructor; auto; unfold kok; cbn [fst snd]; lia]|].
    rewrite snoc_len. repeat split; auto; lia.
Qed.

(** ** Complete calls *)
Lemma zlen_pos' {A} (l : list A) : 0 <= Z.of_nat (length l). Proof. lia. Qed.
Lemma push_units_size c us : csize (push_units c us) = csize c + zlen us. Proof. reflexivity. Qed.
(** sljit_emit_op1 and others *)
Lemma ins_rep e s c L J K live : rep s c L J K live -> cerr s = 0 -> csize (push_units c (units_of (flat e))) < 2 ^ 63 ->
  let (r, s') := api_ins e s in
  fr s' live /\
  (cerr s' = ERR_ALLOC_FAILED /\ (checked e -> r <> 0) \/ cerr s' = 0 /\ r = 0 /\ rep s' (push_units c (units_of (flat e))) L J K live /\ cfld s' = cfld s).
Proof.
  intros H Er Bd. rewrite push_units_size in Bd. unfold api_ins, guard. rewrite Er. cbn [Z.eqb negb]. pose proof (em_rep e s c L J K live H Bd) as E. destruct (run_em e s) as (r, s').
  destruct E as (E1 & c' & E2 & E3 & E4). split; [eapply rep_fr; eauto|]. apply rest_fields in E1. destruct E4 as [(-> & E4 & ->)|E4]; [right|left; auto]. repeat split; auto; try congruence; try apply E2. apply E1.
Qed.
Lemma jump_rep pre k rewr call s c L J K live : rep s c L J K live -> cerr s = 0 -> cond_ok k ->
  let c' := emit_jump (push_units c (units_of (flat pre))) k rewr call (TLabel 0) in
  csize c' < 2 ^ 63 ->
  let (r, s') := api_jump pre k rewr call s in
  fr s' live /\
  (cerr s' = ERR_ALLOC_FAILED /\ (checked pre -> r = 0) \/
   cerr s' = 0 /\ exists J', rep s' c' L J' K live /\ r = lastp J' /\ 0 < r /\ cfld s' = cfld s).
Proof.
  intros H Er Ck c' Bd. unfold api_jump, guard. rewrite Er. cbn [Z.eqb negb].
  assert (Sz : forall c0, csize (emit_jump c0 k rewr call (TLabel 0)) = csize c0 + zlen (cond_units k) + JUMP_MAX_SIZE) by (intros; rewrite emit_jump_eq; reflexivity).
  unfold c' in *. clear c'. rewrite Sz, push_units_size in Bd. pose proof (zlen_pos (cond_units k)) as Zk. unfold JUMP_MAX_SIZE in *.
  pose proof (em_rep pre s c L J K live H ltac:(lia)) as E. destruct (run_em pre s) as (r, s1).
  destruct E as (E1 & c1 & E2 & E3 & E4). apply rest_fields in E1.
  pose proof (jump_tail_rep k rewr call s1 c1 L J K live E2 Ck ltac:(rewrite Sz; lia)) as T.
  destruct E4 as [(-> & E4 & ->)|(E4 & E5)].
  - cbn [Z.eqb negb]. destruct (jump_tail k rewr call s1) as (r', s2). destruct T as (T1 & [(T2 & T3)|(T2 & J' & T3 & T4 & T5 & T6)]).
    + split; auto.
    + split; auto. right. split; [congruence|]. exists J'. split; auto. split; auto. split; auto. rewrite T6. apply E1.
  - destruct (r =? 0) eqn:R0; cbn [negb].
    + destruct (jump_tail k rewr call s1) as (r', s2). destruct T as (T1 & T2). split; auto. left. split; [destruct T2 as [(T2 & T3)|(T2 & _)]; congruence|]. intros Ch. specialize (E5 Ch). lia.
    + split; [eapply rep_fr; eauto|]. left. auto.
Qed.
Lemma ijump_rep pre call a s c L J K live : rep s c L J K live -> cerr s = 0 -> is64 a ->
  let c' := emit_jump (push_units c (units_of (flat pre))) NoCond false call (TAddr a) in
  csize c' < 2 ^ 63 ->
  let (r, s') := api_ijump pre call a s in
  fr s' live /\
  (cerr s' = ERR_ALLOC_FAILED /\ (checked pre -> r <> 0) \/
   cerr s' = 0 /\ r = 0 /\ exists J', rep s' c' L J' K live /\ cfld s' = cfld s).
Proof.
  intros H Er Ca c' Bd. unfold api_ijump, guard. rewrite Er. cbn [Z.eqb negb].
  assert (Sz : forall c0, csize (emit_jump c0 NoCond false call (TAddr a)) = csize c0 + JUMP_MAX_SIZE) by reflexivity.
  unfold c' in *. clear c'. rewrite Sz, push_units_size in Bd. unfold JUMP_MAX_SIZE in *.
  pose proof (em_rep pre s c L J K live H ltac:(lia)) as E. destruct (run_em pre s) as (r, s1).
  destruct E as (E1 & c1 & E2 & E3 & E4). apply rest_fields in E1.
  pose proof (ijump_tail_rep call a s1 c1 L J K live E2 Ca ltac:(rewrite Sz; lia)) as T.
  destruct E4 as [(-> & E4 & ->)|(E4 & E5)].
  - cbn [Z.eqb negb]. destruct (ijump_tail call a s1) as (r', s2). destruct T as (T1 & [(T2 & T3)|(T2 & T3 & J' & T4 & T6)]).
    + split; auto.
    + split; auto. right. split; [congruence|]. split; auto. exists J'. split; auto. rewrite T6. apply E1.
  - destruct (r =? 0) eqn:R0; cbn [negb].
    + destruct (ijump_tail call a s1) as (r', s2). destruct T as (T1 & T2). split; auto. left. split; [destruct T2 as [(T2 & T3)|(T2 & _)]; congruence|]. intros Ch. specialize (E5 Ch). lia.
    + split; [eapply rep_fr; eauto|]. left. auto.
Qed.
Lemma mov_rep pre reg post s c L J K live : rep s c L J K live -> cerr s = 0 -> u16 reg = reg ->
  let c' := push_units (emit_mov_addr (push_units c (units_of (flat pre))) reg (TLabel 0)) (units_of (flat post)) in
  csize c' < 2 ^ 63 ->
  let (r, s') := api_mov pre reg post s in
  fr s' live /\
  (cerr s' = ERR_ALLOC_FAILED /\ (checked pre -> checked post -> r = 0) \/
   cerr s' = 0 /\ exists J', rep s' c' L J' K live /\ r = lastp J' /\ 0 < r /\ cfld s' = cfld s).
Proof.
  intros H Er Cr c' Bd. unfold api_mov, guard. rewrite Er. cbn [Z.eqb negb].
  assert (Sz : forall c0, csize (emit_mov_addr c0 reg (TLabel 0)) = csize c0 + JUMP_MAX_SIZE) by reflexivity.
  unfold c' in *. clear c'. rewrite push_units_size, Sz, push_units_size in Bd. unfold JUMP_MAX_SIZE in *. pose proof (zlen_pos (units_of (flat post))) as Zp.
  pose proof (em_rep pre s c L J K live H ltac:(lia)) as E. destruct (run_em pre s) as (r, s1).
  destruct E as (E1 & c1 & E2 & E3 & E4). apply rest_fields in E1.
  pose proof (mov_tail_rep reg s1 c1 L J K live E2 Cr ltac:(rewrite Sz; lia)) as T.
  destruct (r =? 0) eqn:R0; cbn [negb].
  2:{ split; [eapply rep_fr; eauto|]. left. destruct E4 as [(-> & _)|(E4 & E5)]; [discriminate|]. auto. }
  destruct (mov_tail reg s1) as (q, s2). destruct T as (T1 & [(T2 & ->)|(T2 & J' & T3 & T4 & T5 & T6)]).
  { cbn [Z.eqb]. split; auto. }
  replace (q =? 0) with false by lia.
  pose proof (em_rep post s2 _ L J' K live T3 ltac:(rewrite Sz; lia)) as P. destruct (run_em post s2) as (r2, s3).
  destruct P as (P1 & c2 & P2 & P3 & P4). apply rest_fields in P1. pose proof (rep_fr _ _ _ _ _ _ P2) as P5.
  destruct E4 as [(-> & E4 & ->)|(E4 & E5)].
  - destruct P4 as [(-> & P4 & ->)|(P4 & P6)].
    + cbn [Z.eqb negb]. split; auto. right. split; [congruence|]. exists J'. split; auto. split; auto. split; auto. replace (cfld s3) with (cfld s2) by (symmetry; apply P1). rewrite T6. apply E1.
    + destruct (r2 =? 0) eqn:R2; cbn [negb]; (split; [exact P5|]); left; (split; [exact P4|]); auto. intros _ Cp. specialize (P6 Cp). lia.
  - assert (cerr s3 = ERR_ALLOC_FAILED) by (destruct P4 as [(_ & P4 & _)|(P4 & _)]; congruence).
    destruct (r2 =? 0); cbn [negb]; (split; [exact P5|]); left; (split; [assumption|]); auto. intros Cp _. specialize (E5 Cp). lia.
Qed.
(** sljit_alloc_memory: the block is not part of anything else. *)
Lemma alloc_rep n s c L J K live : rep s c L J K live -> cerr s = 0 ->
  let (r, s') := alloc_memory s n in
  fr s' live /\
  (cerr s' = ERR_ALLOC_FAILED /\ r = 0 \/ cerr s' = 0 /\ rep s' c L J K live /\ cfld s' = cfld s).
Proof.
  intros H Er. unfold alloc_memory. rewrite Er. cbn [Z.eqb negb]. destruct ((n <=? 0) || (n >? 128)) eqn:N.
  { split; [eapply rep_fr; eauto|]. right. auto. }
  assert (Hn : 0 < Z.land (n + 7) (Z.lnot 7) <= 256).
  { change (Z.lnot 7) with (- 2 ^ 3). rewrite Z.land_comm. 
    assert (A : Z.land (- 2 ^ 3) (n + 7) = (n + 7) / 2 ^ 3 * 2 ^ 3).
    { rewrite <- Z.shiftr_div_pow2, <- Z.shiftl_mul_pow2 by lia. apply Z.bits_inj'. intros i Hi. rewrite Z.land_spec. destruct (Z.ltb_spec i 3) as [I|I].
      - rewrite Z.shiftl_spec_low by lia. replace (- 2 ^ 3) with (Z.shiftl (-1) 3) by reflexivity. rewrite Z.shiftl_spec_low by lia. reflexivity.
      - replace (- 2 ^ 3) with (Z.shiftl (-1) 3) by reflexivity. rewrite !Z.shiftl_spec_high by lia. rewrite Z.bits_m1 by lia. rewrite Z.shiftr_spec by lia. cbn [andb]. f_equal. lia. }
    rewrite A. change (2 ^ 3) with 8. pose proof (Z.div_mod (n + 7) 8 ltac:(lia)). pose proof (Z.mod_pos_bound (n + 7) 8 ltac:(lia)). lia. }
  set (k := Z.land (n + 7) (Z.lnot 7)) in *. clearbody k. pose proof H as H0. rep_fields H.
  pose proof (ensure_abuf_ok s F G live _ k HC Hn) as X. destruct (ensure_abuf s k) as (q, s1).
  destruct X as (X1 & X2 & X3 & [(-> & X4 & X5)|(X4 & X5 & G' & X6 & _)]); apply rest_fields in X1; destruct X1 as (R0 & R1 & R2 & R3 & R4 & R5 & R6 & R7 & R8).
  - split; [|left; auto]. eapply (core_fr s1 F G live J (chainH labB 0 L 0 ++ chainH conB 0 K 0 ++ U)); [cp X5|congruence|exact D2].
  - assert (R : rep s1 c L J K live).
    { split; [|split; [|split]].
      - exists F, G', ((q, Un k) :: U). split; auto. cp X6.
      - repeat split; auto; congruence.
      - repeat split; congruence.
      - repeat split; auto; lia. }
    split; [eapply rep_fr; eauto|]. right. split; [congruence|]. split; auto.
Qed.
