(** The fragments: ensure_buf and ensure_abuf keep their chains, the pieces handed out are new. *)
Require Import ZArith List Bool Lia Zify ZifyBool Permutation.
From Verif Require Import Rv.RvLib Rv.RvEnc Rv.RvIsa Comp.CpMem Comp.CpState.
Import ListNotations.
Open Scope Z_scope.
Ltac Zify.zify_post_hook ::= idtac.

(** First pointer of a chained list. *)
Definition hdp {A} (l : list (Z * A)) : Z := match l with [] => 0 | (q, _) :: _ => q end.
Definition zlen {A} (l : list A) : Z := Z.of_nat (length l).
(** The fragments of compiler->buf, newest first: header, used bytes, free space. *)
Fixpoint bufH (F : list (Z * list Z)) : list (Z * cell) :=
  match F with
  | [] => []
  | (b, l) :: F => (b, W (hdp F)) :: (b + 8, W (zlen l)) :: (b + 16, Kn l) :: (b + 16 + zlen l, Un (4080 - zlen l)) :: bufH F
  end.
(** The fragments of compiler->abuf: header and free space (the used part is handed out). *)
Fixpoint abufH (G : list (Z * Z)) : list (Z * cell) :=
  match G with
  | [] => []
  | (b, u) :: G => (b, W (hdp G)) :: (b + 8, W u) :: (b + 16 + u, Un (4080 - u)) :: abufH G
  end.
(** The blocks which the allocator will return. *)
Definition schedH (l : list Z) : list (Z * cell) := flat_map (fun p => if p =? 0 then [] else [(p, Un 4096)]) l.
Definition nz (l : list Z) : list Z := filter (fun p => negb (p =? 0)) l.
Definition bok (p : Z) : Prop := 0 < p < 2 ^ 64 - 4096.
Definition fok (f : Z * list Z) : Prop := bok (fst f) /\ zlen (snd f) <= 4080.
Definition gok (g : Z * Z) : Prop := bok (fst g) /\ 0 <= snd g <= 4080.
(** The state of the fragments; [R] are the other pieces of memory, [live] the other live blocks. *)
Definition core (s : cst) (F : list (Z * list Z)) (G : list (Z * Z)) (live : list Z) (R : list (Z * cell)) : Prop :=
  sat (hm (ch s)) (bufH F ++ abufH G ++ schedH (hsched (ch s)) ++ R) /\
  (cbufp s = hdp F /\ F <> [] /\ Forall fok F) /\ (cabufp s = hdp G /\ G <> [] /\ Forall gok G) /\
  Forall (fun p => p = 0 \/ bok p) (hsched (ch s)) /\
  Permutation (hlive (ch s)) (cself s :: map fst F ++ map fst G ++ live) /\
  NoDup (hlive (ch s) ++ nz (hsched (ch s))).
(** The members which the buffer functions do not touch. *)
Definition rest (s s' : cst) : Prop :=
  (cself s', clab s', clastl s', cjmp s', clastj s', ccon s', clastc s', ccount s', cfld s') =
  (cself s, clab s, clastl s, cjmp s, clastj s, ccon s, clastc s, ccount s, cfld s).
Lemma rest_refl s : rest s s. Proof. reflexivity. Qed.
Lemma rest_trans s s' s'' : rest s s' -> rest s' s'' -> rest s s''.
Proof. unfold rest. intros -> E. exact E. Qed.

Lemma hdp_ok F : Forall fok F -> 0 <= hdp F < 2 ^ 64.
Proof. intros H. destruct F as [|(b, l) F]; cbn [hdp]; [lia|]. inversion H as [|? ? (X & _)]; subst. unfold bok in X. cbn [fst] in X. lia. Qed.
Lemma hdg_ok G : Forall gok G -> 0 <= hdp G < 2 ^ 64.
Proof. intros H. destruct G as [|(b, l) G]; cbn [hdp]; [lia|]. inversion H as [|? ? (X & _)]; subst. unfold bok in X. cbn [fst] in X. lia. Qed.
Lemma zlen_pos {A} (l : list A) : 0 <= zlen l. Proof. unfold zlen; lia. Qed.
Lemma zlen_app {A} (l k : list A) : zlen (l ++ k) = zlen l + zlen k.
Proof. unfold zlen. rewrite app_length. lia. Qed.

(** Bring the piece [x] to the front. *)
Lemma perm_mid {A} (x : A) l1 l2 : Permutation (l1 ++ x :: l2) (x :: l1 ++ l2).
Proof. symmetry. apply Permutation_middle. Qed.
Lemma sat_get m l1 x l2 : sat m (l1 ++ x :: l2) -> sat m (x :: l1 ++ l2).
Proof. apply sat_perm. apply perm_mid. Qed.
Lemma sat_back m l1 x l2 : sat m (x :: l1 ++ l2) -> sat m (l1 ++ x :: l2).
Proof. apply sat_perm. apply Permutation_middle. Qed.
Lemma sat_swap m A B C : sat m (A ++ B ++ C) -> sat m (B ++ A ++ C).
Proof. apply sat_perm. rewrite !app_assoc. apply Permutation_app_tail. apply Permutation_app_comm. Qed.

(** ** SLJIT_MALLOC *)
Lemma nodup_move p (l1 l2 : list Z) : NoDup (l1 ++ p :: l2) -> NoDup ((p :: l1) ++ l2).
Proof. intros N. eapply Permutation_NoDup; [|exact N]. apply perm_mid. Qed.
Definition up_h (s : cst) h := set_h s h.
Lemma malloc_ok h p h' : malloc h = (p, h') -> Forall (fun p => p = 0 \/ bok p) (hsched h) -> NoDup (hlive h ++ nz (hsched h)) ->
  hm h' = hm h /\ Forall (fun p => p = 0 \/ bok p) (hsched h') /\ NoDup (hlive h' ++ nz (hsched h')) /\
  (p = 0 /\ hlive h' = hlive h /\ schedH (hsched h') = schedH (hsched h) \/
   bok p /\ p <> 0 /\ hlive h' = p :: hlive h /\ schedH (hsched h) = (p, Un 4096) :: schedH (hsched h')).
Proof.
  unfold malloc. destruct h as [m sc lv]. cbn [hm hsched hlive]. destruct sc as [|q sc]; intros E F N.
  - injection E as <- <-. cbn. repeat split; auto.
  - injection E as <- <-. cbn [hm hsched hlive]. inversion F as [|? ? Q F']; subst. split; auto. split; auto.
    unfold nz in N |- *. cbn [filter] in N. unfold schedH. cbn [flat_map]. destruct (q =? 0) eqn:E; cbn [negb] in N.
    + split; auto. left. repeat split; auto. lia.
    + split; [apply nodup_move; auto|]. right. destruct Q as [Q|Q]; [lia|]. repeat split; auto; try apply Q. lia.
Qed.

(** ** ensure_buf *)
Definition openH (b : Z) (l : list Z) (size : Z) (F : list (Z * list Z)) : list (Z * cell) :=
  (b, W (hdp F)) :: (b + 8, W (zlen l + size)) :: (b + 16, Kn l) :: (b + 16 + zlen l, Un size) :: (b + 16 + zlen l + size, Un (4080 - zlen l - size)) :: bufH F.
(** [F] with [size] more bytes reserved in the newest fragment. *)
Definition opened (s : cst) b l size F G live R : Prop :=
  sat (hm (ch s)) (openH b l size F ++ abufH G ++ schedH (hsched (ch s)) ++ R) /\
  (cbufp s = b /\ bok b /\ 0 < size /\ zlen l + size <= 4080 /\ Forall fok F) /\ (cabufp s = hdp G /\ G <> [] /\ Forall gok G) /\
  Forall (fun p => p = 0 \/ bok p) (hsched (ch s)) /\
  Permutation (hlive (ch s)) (cself s :: (b :: map fst F) ++ map fst G ++ live) /\
  NoDup (hlive (ch s) ++ nz (hsched (ch s))).
(** Writing the reserved bytes. *)
Lemma opened_put s b l size F G live R bs : opened s b l size F G live R -> zlen bs = size ->
  core (set_h s (mkH (put (hm (ch s)) (b + 16 + zlen l) bs) (hsched (ch s)) (hlive (ch s)))) ((b, l ++ bs) :: F) G live R.
Proof.
  intros (S & (B1 & B2 & B3 & B4 & B5) & GG & SC & PM & ND) L. split; [|split; [|split; [|split]]]; auto.
  - cbn [ch set_h hm hsched]. unfold openH in S. cbn [app] in S.
    apply (sat_get _ [_; _; _]) in S. cbn [app] in S.
    eapply sat_put in S; [|cbn [clen]; unfold zlen in L; exact L].
    assert (S2 : sat (put (hm (ch s)) (b + 16 + zlen l) bs) ((b + 16, Kn l) :: (b + 16 + zlen l, Kn bs) :: (b, W (hdp F)) :: (b + 8, W (zlen l + size)) ::
       (b + 16 + zlen l + size, Un (4080 - zlen l - size)) :: bufH F ++ abufH G ++ schedH (hsched (ch s)) ++ R)).
    { sp S. }
    apply sat_kn in S2. cbn [bufH app]. rewrite zlen_app, L.
    replace (4080 - (zlen l + size)) with (4080 - zlen l - size) by lia. replace (b + 16 + (zlen l + size)) with (b + 16 + zlen l + size) by lia.
    apply (sat_back _ [_; _]). exact S2.
  - cbn [cbufp set_h hdp]. repeat split; auto; [discriminate|]. constructor; auto. split; cbn [fst snd]; auto. rewrite zlen_app. lia.
Qed.
Lemma ensure_buf_ok s F G live R size : core s F G live R -> 0 < size <= 256 ->
  let (p, s') := ensure_buf s size in
  rest s s' /\ csz s' = csz s /\ cabufp s' = cabufp s /\
  (p = 0 /\ cerr s' = ERR_ALLOC_FAILED /\ core s' F G live R \/
   p <> 0 /\ cerr s' = cerr s /\ exists b l F0, p = b + 16 + zlen l /\ opened s' b l size F0 G live R /\
     (F = (b, l) :: F0 \/ l = [] /\ F0 = F)).
Proof.
  intros (S & (B1 & B2 & B3) & GG & SC & PM & ND) SZ. unfold ensure_buf, ld. destruct F as [|(b, l) F0]; [contradiction|].
  cbn [hdp] in B1. rewrite B1. inversion B3 as [|? ? (X1 & X2) B3']; subst. cbn [fst snd] in X1, X2. unfold bok in X1.
  pose proof (zlen_pos l) as Lp.
  assert (E : ldw (hm (ch s)) (cbufp s + 8) = zlen l).
  { apply (sat_ldw _ _ _ _ S); [|unfold is64; lia]. cbn [bufH app]. right; left. reflexivity. }
  rewrite E. rewrite wrap_small by (unfold isw; lia). unfold BUF_SIZE, MEMORY. destruct (zlen l + size <=? 4096 - 16) eqn:C.
  - cbn [fst snd]. split; [reflexivity|]. split; [reflexivity|]. split; [reflexivity|]. right. split; [lia|]. split; [reflexivity|].
    exists (cbufp s), l, F0. split; [reflexivity|]. split; [|left; reflexivity].
    split; [|split; [|split; [|split]]]; auto.
    + cbn [st set_h ch hst hm hsched]. unfold openH. cbn [app]. apply (sat_back _ [_]). cbn [app].
      cbn [bufH app] in S. apply (sat_get _ [_]) in S. cbn [app] in S. eapply sat_stw with (v := zlen l + size) in S; [|reflexivity].
      replace (4080 - zlen l) with (size + (4080 - zlen l - size)) in S by lia.
      apply (sat_get _ [_; _; _]) in S. cbn [app] in S. apply sat_unk in S; try lia.
      sp S.
    + cbn [cbufp st set_h]. repeat split; auto; try lia; apply X1.
  - destruct (malloc (ch s)) as (p, h) eqn:M. destruct (malloc_ok _ _ _ M SC ND) as (M1 & M2 & M3 & M4).
    destruct M4 as [(-> & M4 & M5)|(M4 & M5 & M6 & M7)].
    + rewrite M4 in M3. rewrite Z.eqb_refl. split; [reflexivity|]. split; [reflexivity|]. split; [reflexivity|]. left. split; [reflexivity|]. split; [reflexivity|].
      split; [|split; [|split; [|split]]]; auto; cbn [set_err set_h ch cself cbufp]; try rewrite M1; try rewrite M4; try rewrite M5; auto.
    + replace (p =? 0) with false by lia. unfold bok in M4. cbn [fst snd]. split; [reflexivity|]. split; [reflexivity|]. split; [reflexivity|]. right. split; [lia|]. split; [reflexivity|].
      exists p, [], ((cbufp s, l) :: F0). split; [cbn; lia|]. split; [|right; split; auto].
      split; [|split; [|split; [|split]]]; cbn [set_buf st hst set_h ch cself cbufp hm hsched hlive cabufp] in *; auto.
      * rewrite M1. rewrite M7 in S.
        assert (S2 : sat (hm (ch s)) ((p, Un 4096) :: bufH ((cbufp s, l) :: F0) ++ abufH G ++ schedH (hsched h) ++ R)).
        { rewrite !app_assoc in S. rewrite <- app_assoc in S. cbn [app] in S. apply sat_get in S. rewrite <- !app_assoc in S. exact S. }
        assert (Ex : forall x v, sat (hm (ch s)) ((p, Un 4096) :: x) ->
           sat (stw (stw (hm (ch s)) p v) (p + 8) size) ((p, W v) :: (p + 8, W size) :: (p + 16, Un size) :: (p + 16 + size, Un (4080 - size)) :: x)).
        { intros x v S'. change 4096 with (8 + 4088) in S'. apply sat_unk in S'; try lia. eapply sat_stw with (v := v) in S'; [|reflexivity].
          apply (sat_get _ [_]) in S'. cbn [app] in S'. change 4088 with (8 + 4080) in S'. apply sat_unk in S'; try lia.
          eapply sat_stw with (v := size) in S'; [|reflexivity]. replace 4080 with (size + (4080 - size)) in S' at 1 by lia.
          apply (sat_get _ [_]) in S'. cbn [app] in S'. apply sat_unk in S'; try lia. replace (p + 8 + 8) with (p + 16) in S' by lia.
          sp S'. }
        unfold openH. cbn [app zlen length hdp Z.of_nat]. change (zlen (@nil Z)) with 0.
        replace (0 + size) with size by lia. replace (p + 16 + 0 + size) with (p + 16 + size) by lia. replace (p + 16 + 0) with (p + 16) by lia.
        replace (4080 - 0 - size) with (4080 - size) by lia.
        apply Ex with (v := cbufp s) in S2.
        apply (sat_back _ [_; _]). cbn [app]. 
        match goal with |- sat _ (?x :: _) => enough (sat (stw (stw (hm (ch s)) p (cbufp s)) (p + 8) size) (x :: (p, W (cbufp s)) :: (p + 8, W size) :: (p + 16, Un size) :: (p + 16 + size, Un (4080 - size)) ::
           bufH ((cbufp s, l) :: F0) ++ abufH G ++ schedH (hsched h) ++ R)) as K by exact K end.
        split; [constructor; [reflexivity|apply S2]|]. split; [|apply S2]. apply Forall_forall. intros y _ z (Y1 & Y2). unfold inside in Y1. cbn [fst snd clen length] in Y1. lia.
      * repeat split; auto; try lia; cbn; lia.
      * split; [|exact M3]. rewrite M6, PM. cbn [map fst app]. apply perm_swap.
Qed.

(** ** ensure_abuf *)
Lemma ensure_abuf_ok s F G live R size : core s F G live R -> 0 < size <= 256 ->
  let (q, s') := ensure_abuf s size in
  rest s s' /\ csz s' = csz s /\ cbufp s' = cbufp s /\
  (q = 0 /\ cerr s' = ERR_ALLOC_FAILED /\ core s' F G live R \/
   0 < q < 2 ^ 64 - size /\ cerr s' = cerr s /\ exists G', core s' F G' live ((q, Un size) :: R) /\
     (exists b u G0, q = b + 16 + u /\ G' = (b, u + size) :: G0 /\ (G = (b, u) :: G0 \/ u = 0 /\ G0 = G))).
Proof.
  intros (S & FF & (B1 & B2 & B3) & SC & PM & ND) SZ. unfold ensure_abuf, ld. destruct G as [|(b, u) G0]; [contradiction|].
  cbn [hdp] in B1. rewrite B1. inversion B3 as [|? ? (X1 & X2) B3']; subst. cbn [fst snd] in X1, X2. unfold bok in X1.
  assert (E : ldw (hm (ch s)) (cabufp s + 8) = u).
  { apply (sat_ldw _ _ _ _ S); [|unfold is64; lia]. apply in_or_app. right. cbn [abufH app]. right; left. reflexivity. }
  rewrite E. rewrite wrap_small by (unfold isw; lia). unfold ABUF_SIZE, MEMORY. destruct (u + size <=? 4096 - 16) eqn:C.
  - split; [reflexivity|]. split; [reflexivity|]. split; [reflexivity|]. right. split; [lia|]. split; [reflexivity|].
    exists ((cabufp s, u + size) :: G0). split; [|exists (cabufp s), u, G0; split; [reflexivity|]; split; [reflexivity|]; left; reflexivity].
    split; [|split; [|split; [|split]]]; auto.
    + cbn [st set_h ch hst hm hsched]. cbn [abufH app] in S |- *.
      front S (cabufp s + 8, W u). eapply sat_stw with (v := u + size) in S; [|reflexivity].
      replace (4080 - u) with (size + (4080 - (u + size))) in S by lia.
      front S (cabufp s + 16 + u, Un (size + (4080 - (u + size)))). apply sat_unk in S; try lia.
      replace (cabufp s + 16 + u + size) with (cabufp s + 16 + (u + size)) in S by lia. sp S.
    + cbn [cabufp st set_h hdp]. repeat split; auto; try discriminate. constructor; auto. split; cbn [fst snd]; [apply X1|lia].
  - destruct (malloc (ch s)) as (p, h) eqn:M. destruct (malloc_ok _ _ _ M SC ND) as (M1 & M2 & M3 & M4).
    destruct M4 as [(-> & M4 & M5)|(M4 & M5 & M6 & M7)].
    + rewrite M4 in M3. rewrite Z.eqb_refl. split; [reflexivity|]. split; [reflexivity|]. split; [reflexivity|]. left. split; [reflexivity|]. split; [reflexivity|].
      split; [|split; [|split; [|split]]]; auto; cbn [set_err set_h ch cself cbufp]; try rewrite M1; try rewrite M4; try rewrite M5; auto.
    + replace (p =? 0) with false by lia. unfold bok in M4. split; [reflexivity|]. split; [reflexivity|]. split; [reflexivity|]. right. split; [lia|]. split; [reflexivity|].
      exists ((p, size) :: (cabufp s, u) :: G0). split; [|exists p, 0, ((cabufp s, u) :: G0); split; [lia|]; split; [f_equal; f_equal; lia|]; right; split; reflexivity].
      split; [|split; [|split; [|split]]]; cbn [set_abuf st hst set_h ch cself cabufp hm hsched hlive cbufp] in *; auto.
      * rewrite M1. rewrite M7 in S. set (A := abufH ((cabufp s, u) :: G0)) in *. set (B := bufH F) in *. cbn [abufH hdp]. fold A.
        assert (S2 : sat (hm (ch s)) ((p, Un 4096) :: B ++ A ++ schedH (hsched h) ++ R)) by sp S. clear S.
        change 4096 with (8 + 4088) in S2. apply sat_unk in S2; try lia. eapply sat_stw with (v := cabufp s) in S2; [|reflexivity].
        apply (sat_get _ [_]) in S2. cbn [app] in S2. change 4088 with (8 + 4080) in S2. apply sat_unk in S2; try lia.
        eapply sat_stw with (v := size) in S2; [|reflexivity]. replace 4080 with (size + (4080 - size)) in S2 at 1 by lia.
        apply (sat_get _ [_]) in S2. cbn [app] in S2. apply sat_unk in S2; try lia. replace (p + 8 + 8) with (p + 16) in S2 by lia.
        unfold A in S2; cbn [abufH] in S2; sp S2.
      * cbn [hdp]. repeat split; auto; try discriminate. constructor; auto. split; cbn [fst snd]; unfold bok; lia.
      * split; [|exact M3]. rewrite M6, PM. cbn [map fst app]. psolve.
Qed.
(** The order of the pieces does not matter. *)
Lemma core_perm s F G live R R' : Permutation R R' -> core s F G live R -> core s F G live R'.
Proof. intros P (S & C). split; auto. eapply sat_perm; [|exact S]. rewrite P. reflexivity. Qed.
(** A store to one of the other pieces. *)
Lemma core_st s F G live R a c v : core s F G live ((a, c) :: R) -> clen c = 8 -> core (st s a v) F G live ((a, W v) :: R).
Proof.
  intros (S & C) L. split; auto. cbn [st set_h ch hst hm hsched].
  front S (a, c). eapply sat_stw with (v := v) in S; [|exact L]. sp S.
Qed.
Lemma core_split s F G live R a n k : core s F G live ((a, Un (n + k)) :: R) -> 0 <= n -> 0 <= k -> core s F G live ((a, Un n) :: (a + n, Un k) :: R).
Proof.
  intros (S & C) N K. split; auto. front S (a, Un (n + k)). apply sat_unk in S; try lia. sp S.
Qed.
Lemma core_ld s F G live R a v : core s F G live R -> In (a, W v) R -> is64 v -> ld s a = v.
Proof. intros (S & C) I B. unfold ld. eapply sat_ldw; eauto. do 3 (apply in_or_app; right). auto. Qed.
(** Only the heap and the fragment pointers matter. *)
Lemma core_ext s s' F G live R : core s F G live R -> ch s' = ch s -> cself s' = cself s -> cbufp s' = cbufp s -> cabufp s' = cabufp s -> core s' F G live R.
Proof. unfold core. intros C -> -> -> ->. exact C. Qed.
Ltac cfront C x := lazymatch type of C with core _ _ _ _ ?r => let p := pull x r in apply (core_perm _ _ _ _ _ _ p) in C end.
Ltac cp C := eapply core_perm; [|exact C]; psolve.
