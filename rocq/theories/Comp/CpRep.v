(** The chained records: what a compiler state represents, and how the calls change it. *)
Require Import ZArith List Bool Lia Zify ZifyBool Permutation.
From Verif Require Import Rv.RvLib Rv.RvEnc Rv.RvIsa Rv.RvImm Rv.RvAddr Rv.RvLink Rv.RvLinkOps Rv.RvLinkExec Rv.RvLinkApi Comp.CpMem Comp.CpState Comp.CpCore.
Import ListNotations.
Open Scope Z_scope.
Ltac Zify.zify_post_hook ::= idtac.

(** ** Pushing instructions *)

(** The fragments hold these half words, in order of emission. *)
Definition funits (F : list (Z * list Z)) (us : list Z) : Prop := exists Us, map snd F = map ubytes Us /\ us = concat (rev Us).
Lemma ubytes_app a b : ubytes (a ++ b) = ubytes a ++ ubytes b.
Proof. apply flat_map_app. Qed.
Lemma ubytes_len a : zlen (ubytes a) = 2 * zlen a.
Proof. induction a as [|x a IH]; [reflexivity|]. change (ubytes (x :: a)) with (enc 2 x ++ ubytes a). rewrite zlen_app, IH. unfold zlen. rewrite enc_len. cbn [length]. lia. Qed.
Definition push (p : piece) (s : cst) : Z * cst := match p with P16 w => push_inst16 s w | P32 w => push_inst s w end.
Definition cored (s : cst) (live : list Z) : Prop := exists F G R, core s F G live R.

Lemma push_gen s F G live R us l : core s F G live R -> funits F us -> 0 < zlen l <= 2 ->
  let (p, s1) := ensure_buf s (2 * zlen l) in
  let (r, s') := if p =? 0 then (cerr s1, s1) else (0, set_size (sth s1 p l) (csz s1 + zlen l)) in
  rest s s' /\ cabufp s' = cabufp s /\ exists F' us', core s' F' G live R /\ funits F' us' /\
    (r = 0 /\ cerr s' = cerr s /\ csz s' = csz s + zlen l /\ us' = us ++ l \/ cerr s' = ERR_ALLOC_FAILED /\ r <> 0).
Proof.
  intros C U L. pose proof (ensure_buf_ok s F G live R (2 * zlen l) C ltac:(lia)) as E. destruct (ensure_buf s (2 * zlen l)) as (p, s1).
  destruct E as (E1 & E2 & E3 & [(-> & E4 & E5)|(E4 & E5 & b & k & F0 & E6 & E7 & E8)]).
  - rewrite Z.eqb_refl. split; [exact E1|]. split; [exact E3|]. exists F, us. split; [exact E5|]. split; [exact U|]. right. split; [exact E4|]. rewrite E4. discriminate.
  - replace (p =? 0) with false by lia. split; [exact E1|]. split; [exact E3|].
    exists ((b, k ++ ubytes l) :: F0), (us ++ l). split; [|split; [|left]].
    + pose proof (opened_put _ _ _ _ _ _ _ _ (ubytes l) E7 (ubytes_len l)) as X. rewrite <- E6 in X. eapply core_ext; [exact X|..]; reflexivity.
    + destruct U as (Us & U1 & U2). destruct E8 as [->|(-> & ->)].
      * cbn [map snd] in U1. destruct Us as [|u Us]; [discriminate|]. cbn [map] in U1. injection U1 as -> U1. exists ((u ++ l) :: Us).
        cbn [map snd rev]. rewrite ubytes_app. split; [congruence|]. rewrite U2. cbn [rev]. rewrite !concat_app. cbn [concat]. rewrite !app_nil_r, app_assoc. reflexivity.
      * exists (l :: Us). cbn [map snd rev app]. split; [congruence|]. rewrite U2, concat_app. cbn [concat]. rewrite app_nil_r. reflexivity.
    + cbn [cerr csz set_size sth set_h]. repeat split; auto. lia.
Qed.
Lemma push_ok p s F G live R us : core s F G live R -> funits F us ->
  let (r, s') := push p s in
  rest s s' /\ cabufp s' = cabufp s /\ exists F' us', core s' F' G live R /\ funits F' us' /\
    (r = 0 /\ cerr s' = cerr s /\ csz s' = csz s + zlen (units p) /\ us' = us ++ units p \/ cerr s' = ERR_ALLOC_FAILED /\ r <> 0).
Proof.
  intros C U. destruct p as [w|w].
  - pose proof (push_gen s F G live R us [u16 w] C U) as X. cbn [zlen length units] in *. change (zlen [u16 w]) with 1 in *. change (2 * 1) with 2 in X.
    cbn [push]. unfold push_inst16. destruct (ensure_buf s 2) as (q, s1). destruct (q =? 0); apply X; lia.
  - pose proof (push_gen s F G live R us [u16 w; u16 (Z.shiftr w 16)] C U) as X. change (zlen [u16 w; u16 (Z.shiftr w 16)]) with 2 in *. change (2 * 2) with 4 in X.
    cbn [push units]. change (zlen [u16 w; u16 (Z.shiftr w 16)]) with 2. unfold push_inst. destruct (ensure_buf s 4) as (q, s1). destruct (q =? 0); apply X; lia.
Qed.
(** Code which pushes instructions: everything is pushed, or the error is set.  The result tells which when no result is ignored. *)
Fixpoint checked (e : em) : Prop := match e with EThen a b => checked a /\ checked b | EIgn _ _ => False | _ => True end.
Lemma run_em_ok e : forall s F G live R us, core s F G live R -> funits F us ->
  let (r, s') := run_em e s in
  rest s s' /\ cabufp s' = cabufp s /\ exists F' us', core s' F' G live R /\ funits F' us' /\
    (r = 0 /\ cerr s' = cerr s /\ csz s' = csz s + zlen (units_of (flat e)) /\ us' = us ++ units_of (flat e) \/
     cerr s' = ERR_ALLOC_FAILED /\ (checked e -> r <> 0)).
Proof.
  induction e as [|w|w|a IHa b IHb|a IHa b IHb]; intros s F G live R us C U; cbn [run_em].
  - split; [reflexivity|]. split; [reflexivity|]. exists F, us. split; auto. split; auto. left. cbn [flat units_of flat_map]. rewrite app_nil_r. change (zlen (@nil Z)) with 0. repeat split; auto. lia.
  - pose proof (push_ok (P16 w) s F G live R us C U) as X. cbn [push] in X. destruct (push_inst16 s w) as (r, s'). destruct X as (X1 & X2 & F' & us' & X3 & X4 & X5).
    split; auto. split; auto. exists F', us'. split; auto. split; auto. cbn [flat units_of flat_map]. rewrite app_nil_r. destruct X5 as [X5|(X5 & X6)]; auto.
  - pose proof (push_ok (P32 w) s F G live R us C U) as X. cbn [push] in X. destruct (push_inst s w) as (r, s'). destruct X as (X1 & X2 & F' & us' & X3 & X4 & X5).
    split; auto. split; auto. exists F', us'. split; auto. split; auto. cbn [flat units_of flat_map]. rewrite app_nil_r. destruct X5 as [X5|(X5 & X6)]; auto.
  - specialize (IHa s F G live R us C U). destruct (run_em a s) as (r, s1). destruct IHa as (A1 & A2 & F1 & us1 & A3 & A4 & A5).
    cbn [checked flat]. unfold units_of in *. rewrite flat_map_app. destruct (r =? 0) eqn:E.
    + specialize (IHb s1 F1 G live R us1 A3 A4). destruct (run_em b s1) as (r', s2). destruct IHb as (B1 & B2 & F2 & us2 & B3 & B4 & B5).
      split; [eapply rest_trans; eauto|]. split; [congruence|]. exists F2, us2. split; auto. split; auto.
      destruct A5 as [(-> & A6 & A7 & ->)|(A5 & A6)].
      * destruct B5 as [(-> & B6 & B7 & ->)|(B5 & B6)]; [left|right].
        -- rewrite zlen_app, app_assoc. repeat split; auto; try congruence. lia.
        -- split; [exact B5|tauto].
      * right. split; [destruct B5 as [(B5 & B6 & B7)|(B5 & B6)]; congruence|]. intros (Ca & Cb). specialize (A6 Ca). lia.
    + split; auto. split; auto. exists F1, us1. split; auto. split; auto. destruct A5 as [(-> & _)|(A5 & A6)]; [lia|]. right. split; auto. intros _. rewrite A5. discriminate.
  - specialize (IHa s F G live R us C U). destruct (run_em a s) as (r, s1). destruct IHa as (A1 & A2 & F1 & us1 & A3 & A4 & A5).
    cbn [checked flat]. unfold units_of in *. rewrite flat_map_app.
    specialize (IHb s1 F1 G live R us1 A3 A4). destruct (run_em b s1) as (r', s2). destruct IHb as (B1 & B2 & F2 & us2 & B3 & B4 & B5).
    split; [eapply rest_trans; eauto|]. split; [congruence|]. exists F2, us2. split; auto. split; auto.
    destruct A5 as [(-> & A6 & A7 & ->)|(A5 & A6)].
    + destruct B5 as [(-> & B6 & B7 & ->)|(B5 & B6)]; [left|right].
      * rewrite zlen_app, app_assoc. repeat split; auto; try congruence. lia.
      * split; [exact B5|tauto].
    + right. split; [destruct B5 as [(B5 & B6 & B7)|(B5 & B6)]; congruence|]. intros [].
Qed.

Lemma ensure_buf_csz s n : csz (snd (ensure_buf s n)) = csz s.
Proof.
  unfold ensure_buf. repeat match goal with |- context[if ?b then _ else _] => destruct b end; try reflexivity.
  all: destruct (malloc _) as (p, h); cbn; repeat match goal with |- context[if ?b then _ else _] => destruct b end; reflexivity.
Qed.
Lemma push_size p s : csz s <= csz (snd (push p s)) <= csz s + zlen (units p).
Proof.
  destruct p as [w|w]; cbn [push units]; unfold push_inst16, push_inst.
  - pose proof (ensure_buf_csz s 2) as E. destruct (ensure_buf s 2) as (q, s1). cbn [snd] in E. change (zlen [u16 w]) with 1. destruct (q =? 0); cbn [snd csz set_size sth set_h]; lia.
  - pose proof (ensure_buf_csz s 4) as E. destruct (ensure_buf s 4) as (q, s1). cbn [snd] in E. change (zlen [u16 w; u16 (Z.shiftr w 16)]) with 2. destruct (q =? 0); cbn [snd csz set_size sth set_h]; lia.
Qed.
Lemma run_em_size e : forall s, csz s <= csz (snd (run_em e s)) <= csz s + zlen (units_of (flat e)).
Proof.
  induction e as [|w|w|a IHa b IHb|a IHa b IHb]; intros s; cbn [run_em flat].
  - cbn [snd units_of flat_map]. change (zlen (@nil Z)) with 0. lia.
  - cbn [units_of flat_map]. rewrite app_nil_r. apply (push_size (P16 w)).
  - cbn [units_of flat_map]. rewrite app_nil_r. apply (push_size (P32 w)).
  - specialize (IHa s). destruct (run_em a s) as (r, s1). unfold units_of in *. rewrite flat_map_app, zlen_app. cbn [snd] in IHa.
    pose proof (zlen_pos (flat_map units (flat b))). destruct (r =? 0); [|cbn [snd]; lia]. specialize (IHb s1). lia.
  - specialize (IHa s). destruct (run_em a s) as (r, s1). unfold units_of in *. rewrite flat_map_app, zlen_app. cbn [snd] in IHa. specialize (IHb s1). lia.
Qed.

(** ** Chained lists *)
Definition hdn {A} (L : list (Z * A)) (nx : Z) : Z := match L with [] => nx | (q, _) :: _ => q end.
(** A chained list of records: [body] are the members after next, [nx] the final next pointer. *)
Fixpoint chainH {A} (body : Z -> Z -> A -> list (Z * cell)) (n : Z) (L : list (Z * A)) (nx : Z) : list (Z * cell) :=
  match L with [] => [] | (q, a) :: L => (q, W (hdn L nx)) :: body n q a ++ chainH body (n + 1) L nx end.
Definition lastp {A} (L : list (Z * A)) : Z := last (map fst L) 0.
Lemma hdn_hdp {A} (L : list (Z * A)) : hdn L 0 = hdp L. Proof. destruct L as [|(q, a) L]; reflexivity. Qed.
Lemma lastp_snoc {A} (L : list (Z * A)) q a : lastp (L ++ [(q, a)]) = q.
Proof. unfold lastp. rewrite map_app. apply last_last. Qed.
Lemma hdp_snoc {A} (L : list (Z * A)) q a : hdp (L ++ [(q, a)]) = hdn L q.
Proof. destruct L as [|(x, y) L]; reflexivity. Qed.
Lemma hdn_snoc {A} (L : list (Z * A)) q a nx : hdn (L ++ [(q, a)]) nx = hdn L q.
Proof. destruct L as [|(x, y) L]; reflexivity. Qed.
Section Chain.
Context {A : Type} (body : Z -> Z -> A -> list (Z * cell)).
Lemma chain_app L : forall n L' nx, chainH body n (L ++ L') nx = chainH body n L (hdn L' nx) ++ chainH body (n + zlen L) L' nx.
Proof.
  induction L as [|(q, a) L IH]; intros n L' nx; cbn [app chainH].
  - change (zlen (@nil (Z * A))) with 0. rewrite Z.add_0_r. reflexivity.
  - rewrite IH. change (zlen ((q, a) :: L)) with (Z.of_nat (S (length L))). rewrite Nat2Z.inj_succ. fold (zlen L).
    replace (n + 1 + zlen L) with (n + Z.succ (zlen L)) by lia. rewrite <- app_assoc. do 2 f_equal.
    destruct L as [|(x, y) L]; reflexivity.
Qed.
Lemma chain_snoc L n q a nx : chainH body n (L ++ [(q, a)]) nx = chainH body n L q ++ (q, W nx) :: body (n + zlen L) q a.
Proof. rewrite chain_app. cbn [chainH hdn]. rewrite app_nil_r. reflexivity. Qed.
(** The list part of the functions which add a record. *)
Lemma link_ok s F G live R L n q : core s F G live (chainH body n L 0 ++ R) -> Forall (fun x => 0 < fst x) L ->
  let (s', f) := link s (hdp L) (lastp L) q in
  core s' F G live (chainH body n L q ++ R) /\ f = hdn L q /\ rest s s' /\ csz s' = csz s /\ cerr s' = cerr s /\ cbufp s' = cbufp s /\ cabufp s' = cabufp s.
Proof.
  intros C P. unfold link. destruct L as [|x L] using rev_ind; [|clear IHL].
  - cbn [lastp map last hdn chainH app] in *. rewrite Z.eqb_refl. repeat split; auto; apply C.
  - destruct x as (q0, a0). rewrite lastp_snoc. apply Forall_app in P. destruct P as (_ & P). inversion P as [|? ? P0 _]; subst. cbn [fst] in P0.
    replace (q0 =? 0) with false by lia. rewrite chain_snoc in C |- *. rewrite hdp_snoc, hdn_snoc.
    split; [|repeat split].
    cfront C (q0, W 0). apply core_st with (v := q) in C; [|reflexivity]. cp C.
Qed.
End Chain.

(** ** The records *)

(** struct sljit_label and sljit_extended_label. *)
Definition labB (n q : Z) (l : label) : list (Z * cell) :=
  match lmask l with
  | None => [(q + 8, W n); (q + 16, W (lsize l))]
  | Some d => [(q + 8, W LABEL_ALIGNED); (q + 16, W (lsize l)); (q + 24, W n); (q + 32, W d)]
  end.
(** struct sljit_jump: the flags word, and the union. *)
Definition bz (b : bool) (v : Z) : Z := if b then v else 0.
Definition jflags (j : jump) : Z :=
  bz (jisaddr j) 1 .| bz (jmov j) 2 .| bz (jcond j) 4 .| bz (jcall j) 8 .| bz (jcond16 j) 16 .| bz (jrewr j) 65536.
Definition jmpB (_ q : Z) (x : jump * Z) : list (Z * cell) := [(q + 8, W (jaddr (fst x))); (q + 16, W (jflags (fst x))); (q + 24, W (snd x))].
(** struct sljit_const *)
Definition conB (_ q : Z) (a : Z) : list (Z * cell) := [(q + 8, W a)].
(** The union of a jump: address, no label yet, or pointer to a label. *)
Definition jval_ok (LP : list Z) (j : jump) (u : Z) : Prop :=
  if jisaddr j then u = jtarget j /\ jlabel j = 0%nat /\ is64 u
  else jtarget j = 0 /\ (u = 0 /\ jlabel j = 0%nat \/ nth_error LP (jlabel j) = Some u).
Definition jump_new (j : jump) : Prop := jsz j = 0 /\ jpatch j = PNone.
Definition jok (LP : list Z) (sz : Z) (x : Z * (jump * Z)) : Prop :=
  0 < fst x < 2 ^ 64 /\ 0 <= jaddr (fst (snd x)) <= sz /\ jump_new (fst (snd x)) /\ jval_ok LP (fst (snd x)) (snd (snd x)).
Definition lok (sz : Z) (x : Z * label) : Prop :=
  0 < fst x < 2 ^ 64 /\ 0 <= lsize (snd x) <= sz /\ match lmask (snd x) with Some d => is64 d | None => True end /\ laddr (snd x) = 0.
Definition kok (sz : Z) (x : Z * Z) : Prop := 0 < fst x < 2 ^ 64 /\ 0 <= snd x <= sz.

(** The compiler [s] represents the abstract compiler [c] of the linker model; [L], [J], [K] are the records with their addresses. *)
Definition rep (s : cst) (c : comp) (L : list (Z * label)) (J : list (Z * (jump * Z))) (K : list (Z * Z)) (live : list Z) : Prop :=
  (exists F G U, core s F G live (chainH labB 0 L 0 ++ chainH jmpB 0 J 0 ++ chainH conB 0 K 0 ++ U) /\ funits F (cbuf c)) /\
  (map snd L = clabels c /\ map (fun x => fst (snd x)) J = cjumps c /\ map snd K = cconsts c /\ csz s = csize c /\ ccount s = zlen L) /\
  (clab s = hdp L /\ clastl s = lastp L /\ cjmp s = hdp J /\ clastj s = lastp J /\ ccon s = hdp K /\ clastc s = lastp K) /\
  (Forall (lok (csize c)) L /\ Forall (jok (map fst L) (csize c)) J /\ Forall (kok (csize c)) K /\ 0 <= csize c < 2 ^ 63 /\
   zlen L <= match last_label (clabels c) with Some l => lsize l + 1 | None => 0 end /\ zlen J <= csize c /\ zlen K <= csize c).
