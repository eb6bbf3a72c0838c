(** Arbitrary buffers: what is accepted, what is released, and when reading is in bounds. *)
Require Import ZArith List Bool Lia Zify ZifyBool Permutation.
From Verif Require Import Rv.RvLib Rv.RvEnc Rv.RvIsa Rv.RvImm Rv.RvAddr Rv.RvLink Rv.RvLinkOps Rv.RvLinkExec Rv.RvLinkApi Comp.CpMem Comp.CpState Comp.CpCore Comp.CpRep Comp.CpCalls Comp.CpHist Comp.CpView Comp.CpErr Comp.CpPieces Comp.CpFinal
  Comp.CpSer Comp.CpSerImg Comp.CpSerParse Comp.CpSerW Comp.CpSerR Comp.CpSerT.
Import ListNotations.
Open Scope Z_scope.
Ltac Zify.zify_post_hook ::= idtac.

(** ** Serializing leaves the compiler as it was *)
Lemma ser_state cf h ks rs s d : reached cf h ks rs s ->
  match serialize d s with
  | SOk p n buf s' => hsched (ch s) = p :: hsched (ch s') /\ p <> 0 /\ ~ In p (hlive (ch s)) /\ n = Z.of_nat (length buf) /\
      s' = set_h s (mkH (hm (ch s)) (hsched (ch s')) (p :: hlive (ch s))) /\ view s' = view s /\ observe s' = observe s /\ cerr s = 0
  | SNull s' => hm (ch s') = hm (ch s) /\ hlive (ch s') = hlive (ch s) /\ (cerr s <> 0 /\ s' = s \/ cerr s = 0 /\ s' = set_err (set_h s (ch s')) ERR_ALLOC_FAILED)
  | SBad => False
  end.
Proof.
  intros R. destruct (cerr s =? 0) eqn:E. 2:{ unfold serialize. rewrite E. cbn [negb]. repeat split; auto. left. split; [lia|reflexivity]. }
  assert (Er : cerr s = 0) by lia. destruct (reached_rep _ _ _ _ _ R) as (_ & [X|(_ & _ & L & J & K & Rp)]); [rewrite Er in X; discriminate|]. destruct (rep_ex _ _ _ _ _ _ Rp) as (F & Ra).
  pose proof (serialize_ok _ _ _ _ _ _ _ Ra d Er) as X. destruct (serialize d s) as [s'|p n buf s'|]; [| |exact X].
  - destruct X as [(X & ->)|(r & X & ->)]; (split; [reflexivity|]); (split; [reflexivity|]); right; (split; [exact Er|]); destruct s; reflexivity.
  - destruct X as ((r & X1 & ->) & X2 & X3 & X4 & X5 & _). cbn [ch set_h hsched hlive hm]. rewrite X1. repeat split; auto.
    assert (I16 : Forall is16 (cbuf (emits cf (kall cf ks)))) by (unfold emits; rewrite hist_buf; cbn [cbuf app]; eapply hist_is16; apply R).
    rewrite (view_rep _ _ _ _ _ _ X4 I16), (view_rep _ _ _ _ _ _ Rp I16). reflexivity.
Qed.
Lemma item_inj {A} (x y : A * Z) l a r l' a' r' : x :: (l, a) :: r = y :: (l', a') :: r' -> l' = l /\ r = r'.
Proof. intros H. injection H as _ -> _ ->. auto. Qed.
Lemma ser_twice cf h ks rs s d p n buf s1 p2 n2 buf2 s2 : reached cf h ks rs s -> serialize d s = SOk p n buf s1 -> serialize d s1 = SOk p2 n2 buf2 s2 -> n2 = n /\ buf2 = buf.
Proof.
  intros R S1 S2. pose proof (ser_state _ _ _ _ _ d R) as X. rewrite S1 in X. destruct X as (X1 & X2 & X3 & X4 & X5 & _ & _ & Er).
  destruct (reached_rep _ _ _ _ _ R) as (_ & [Y|(_ & _ & L & J & K & Rp)]); [rewrite Er in Y; discriminate|]. destruct (rep_ex _ _ _ _ _ _ Rp) as (F & Ra).
  pose proof (serialize_ok _ _ _ _ _ _ _ Ra d Er) as Y. rewrite S1 in Y. destruct Y as (_ & _ & _ & Rp1 & _ & _ & _ & B1). destruct (rep_ex _ _ _ _ _ _ Rp1) as (F1 & Ra1).
  assert (Er1 : cerr s1 = 0) by (rewrite X5; exact Er). pose proof (serialize_ok _ _ _ _ _ _ _ Ra1 d Er1) as Y. rewrite S2 in Y. destruct Y as (_ & _ & _ & _ & N2 & _ & _ & B2).
  assert (E : buf2 = buf); [|subst buf2; split; congruence]. rewrite B1, B2. f_equal.
  rewrite (items_ok _ _ _ _ _ _ _ Ra), (items_ok _ _ _ _ _ _ _ Ra1). cbv zeta.
  assert (FF : map fst F1 = map fst F /\ map snd F1 = map snd F).
  { pose proof (w_frags _ _ _ _ _ _ _ Ra) as W. pose proof (w_frags _ _ _ _ _ _ _ Ra1) as W1. pose proof (w_frag_ptrs _ _ _ _ _ _ _ Ra) as Q. pose proof (w_frag_ptrs _ _ _ _ _ _ _ Ra1) as Q1.
    assert (QE : map fst F1 = map fst F).
    { destruct Ra as (_ & G & U & C & _). destruct Ra1 as (_ & G1 & U1 & C1 & _). pose proof (live_len _ _ _ _ _ C) as (Ln & _). 
      unfold frag_ptrs in Q, Q1. pose proof (live_len _ _ _ _ _ C1) as (Ln1 & _).
      assert (HL : length (hlive (ch s1)) = Datatypes.S (length (hlive (ch s)))) by (rewrite X5; reflexivity). assert (HM : hm (ch s1) = hm (ch s)) by (rewrite X5; reflexivity). assert (HB : cbufp s1 = cbufp s) by (rewrite X5; reflexivity).
      rewrite HM, HB in Q1. destruct C as (Sa & (B1' & B2' & B3') & _). 
      pose proof (chain_ptrs_gen bufB F 0 (length (hlive (ch s1))) (hm (ch s)) (abufH G ++ schedH (hsched (ch s)) ++ chainH labB 0 L 0 ++ chainH jmpB 0 J 0 ++ chainH conB 0 K 0 ++ U)) as Cp.
      rewrite <- bufH_chain in Cp. specialize (Cp Sa (fok_ptr _ B3')). rewrite <- B1' in Cp. rewrite Q1 in Cp. rewrite Cp. apply firstn_all2. rewrite map_length. lia. }
    split; [exact QE|]. assert (HM : hm (ch s1) = hm (ch s)) by (rewrite X5; reflexivity). rewrite HM, QE, W in W1. clear - W1 QE.
    assert (LF : length F1 = length F) by (apply (f_equal (@length _)) in QE; rewrite !map_length in QE; exact QE). clear QE. revert F1 LF W1. induction F as [|f F IH]; intros [|f1 F1] LF W1; cbn [length] in LF; try discriminate; [reflexivity|].
    cbn [map flat_map frag_it app] in W1. apply item_inj in W1. destruct W1 as (W1 & W2). cbn [map]. rewrite W1. f_equal. apply IH; auto. }
  destruct FF as (FF1 & FF2). rewrite FF2. assert (ZF : zlen F1 = zlen F) by (unfold zlen; apply (f_equal (@length _)) in FF1; rewrite !map_length in FF1; congruence). rewrite ZF.
  unfold img_of. cbn [i_count i_labs i_jmps i_cons i_fld i_size]. assert (XE : (ccount s1, cfld s1, csz s1) = (ccount s, cfld s, csz s)) by (rewrite X5; reflexivity). injection XE as -> -> ->. reflexivity.
Qed.
Lemma ser_continue cf h ks rs s d p n buf s1 ks2 rs2 s2 : reached cf h ks rs s -> serialize d s = SOk p n buf s1 ->
  ccalls_ok cf (ks ++ ks2) empty -> csize (emits cf (kall cf (ks ++ ks2))) < 2 ^ 63 -> ccalls_run cf ks2 s1 = (rs2, s2) ->
  Permutation (hlive (free_compiler s2)) (p :: hlive h) /\ (cerr s2 = ERR_ALLOC_FAILED \/ cerr s2 = 0 /\ view s2 = emits cf (kall cf (ks ++ ks2)) /\ cfld s2 = fold_left fstep (ks ++ ks2) fields0).
Proof.
  intros R S Ok Bd Rn. pose proof (ser_err s d p n buf s1 S) as Er. destruct (reached_rep _ _ _ _ _ R) as (_ & [Y|(_ & Fl & L & J & K & Rp)]); [rewrite Er in Y; discriminate|]. destruct (rep_ex _ _ _ _ _ _ Rp) as (F & Ra).
  pose proof (serialize_ok _ _ _ _ _ _ _ Ra d Er) as Y. rewrite S in Y. destruct Y as ((r & _ & X5) & _ & _ & R2 & _).
  assert (T2 : cerr s1 = 0) by (rewrite X5; exact Er). assert (T3 : cfld s1 = cfld s) by (rewrite X5; reflexivity).
  pose proof Ok as Ok0. apply ccalls_ok_app in Ok. destruct Ok as (_ & Ok). unfold kall in Bd. rewrite flat_map_app in Bd. unfold emits in Bd. rewrite fold_left_app in Bd.
  pose proof (hist_rep cf ks2 s1 _ L J K (p :: hlive h) R2 T2 Ok Bd) as X. rewrite Rn, T3 in X. destruct X as (X1 & X2). split; [apply free_ok; apply fr_cored; exact X1|].
  destruct X2 as [X2|(X2 & X3 & L3 & J3 & K3 & X4)]; [left; exact X2|right]. split; [exact X2|]. split; [|rewrite fold_left_app, <- Fl; exact X3].
  assert (EC : emits cf (kall cf (ks ++ ks2)) = fold_left (emit cf) (kall cf ks2) (emits cf (kall cf ks))) by (unfold kall; rewrite flat_map_app; unfold emits; rewrite fold_left_app; reflexivity).
  rewrite EC. eapply view_rep; [exact X4|]. rewrite <- EC. unfold emits. rewrite hist_buf. cbn [cbuf app]. eapply hist_is16. exact Ok0.
Qed.
(** The bytes which are written do not depend on what the block contained before. *)
Lemma fill_nth buf g : forall i k v, nth_error buf k = Some (Some v) -> nth_error (fill buf g i) k = Some v.
Proof. induction buf as [|o buf IH]; intros i [|k] v H; cbn [nth_error fill] in *; try discriminate; [injection H as ->; reflexivity|eauto]. Qed.

(** ** Acceptance *)
Lemma sub_isb b off n : Forall isb b -> Forall isb (sub b off n).
Proof.
  intros Bb. apply Forall_forall. intros y I. unfold sub in I. rewrite Forall_forall in Bb. apply Bb. rewrite <- (firstn_skipn (Z.to_nat off) b). apply in_or_app. right. rewrite <- (firstn_skipn (Z.to_nat n) (skipn (Z.to_nat off) b)). apply in_or_app. auto.
Qed.
Lemma dec_bytes b off l : Forall isb b -> 0 <= off -> dec (sub b off (zlen l)) = dec l -> Forall isb l -> off + zlen l <= bsize b -> sub b off (zlen l) = l.
Proof.
  intros B O E L Len. pose proof (sub_len b off (zlen l) O (zlen_pos l) Len) as N. rewrite <- (enc_dec _ (sub_isb b off (zlen l) B)), E. replace (length (sub b off (zlen l))) with (length l) by (unfold zlen in *; lia). apply enc_dec. exact L.
Qed.
(** An accepted buffer starts with the signature and the version, consists of words, and says that it contains the debug information which is read. *)
Lemma accepted b dbg h s d : Forall isb b -> deserialize b dbg h = DOk s d ->
  firstn 4 b = [0x54; 0x4a; 0x4c; 0x53] /\ firstn 2 (skipn 4 b) = [1; 0] /\ 80 <= Z.of_nat (length b) /\ Z.of_nat (length b) mod 8 = 0 /\ (dbg = true -> Z.testbit (nth 6 b 0) 0 = true).
Proof.
  intros B H. unfold deserialize in H. change (Z.of_nat (length b)) with (bsize b). unfold HEADER in *.
  destruct (bsize b <? 80) eqn:E1; [discriminate|]. destruct (bsize b mod 8 =? 0) eqn:E2; cbn [orb negb] in H; [|discriminate].
  destruct (dec (sub b 0 4) =? SIGNATURE) eqn:E3; cbn [orb negb] in H; [|discriminate]. destruct (dec (sub b 4 2) =? VERSION) eqn:E4; cbn [orb negb] in H; [|discriminate].
  split; [|split; [|split; [lia|split; [lia|]]]].
  - apply (dec_bytes b 0 [0x54; 0x4a; 0x4c; 0x53] B); [lia|change (dec [84; 74; 76; 83]) with SIGNATURE; change (zlen [84; 74; 76; 83]) with 4; lia|repeat constructor; lia|change (zlen [84; 74; 76; 83]) with 4; lia].
  - apply (dec_bytes b 4 [1; 0] B); [lia|change (dec [1; 0]) with VERSION; change (zlen [1; 0]) with 2; lia|repeat constructor; lia|change (zlen [1; 0]) with 2; lia].
  - intros ->. destruct (create_compiler h) as ([s0|], h0); [|discriminate]. cbv zeta in H. destruct (Z.testbit (dec (sub b 6 2)) 0) eqn:E5; [|cbn [andb negb] in H; discriminate].
    unfold bsize in E1. do 8 (destruct b as [|? b]; [cbn [length] in E1; lia|]). cbn [nth]. change (sub _ 6 2) with [z5; z6] in E5. cbn [dec] in E5. rewrite Z.add_0_r || idtac.
    rewrite Z.testbit_odd in *. rewrite Z.shiftr_0_r in *. revert E5. rewrite Z.odd_add, Z.odd_mul. cbn [Z.odd andb]. rewrite xorb_false_r. auto.
Qed.
(** Nothing is leaked: neither when NULL is returned nor in the new compiler. *)
Lemma no_leak b dbg h : Forall isb b -> heap_ok h ->
  match deserialize b dbg h with DNull h' => Permutation (hlive h') (hlive h) | DOk s _ => Permutation (hlive (free_compiler s)) (hlive h) | DUB => True end.
Proof.
  intros B H. pose proof (deserialize_ok b dbg h B H) as X. destruct (deserialize b dbg h) as [h'|s d|]; [apply X| |exact Logic.I].
  destruct X as (x & _ & F & G & L & J & K & U & C & _). apply free_ok. exists F, G. eauto.
Qed.

(** ** Reading in bounds *)
Section Safe.
Variable b : list Z.
Hypothesis (Bb : Forall isb b) (B64 : bsize b < 2 ^ 64).
Lemma rdw_in off : 0 <= off -> off + 8 <= bsize b -> rdw b off = Some (subw b off).
Proof. intros A C. unfold rdw, subw. replace (0 <=? off) with true by lia. replace (off + 8 <=? bsize b) with true by lia. reflexivity. Qed.
(** The word at an offset. *)
Definition word (off : Z) : Z := dec (firstn 8 (skipn (Z.to_nat off) b)).
(** Where the [k]-th fragment starts: the fragments follow the header, each has its size in a word and occupies whole words. *)
Inductive frag_start : Z -> Z -> Prop :=
| fs_first : frag_start 0 80
| fs_next k o : frag_start k o -> frag_start (k + 1) (o + 8 + (word o + 7) / 8 * 8).
Lemma psegs_safe : forall fuel i off k, 0 <= i -> 0 <= off <= bsize b -> bsize b - off < 8 * Z.of_nat fuel ->
  frag_start k off -> (forall k' o, frag_start k' o -> k' < k + i -> o + 8 <= bsize b -> word o <= 4080) ->
  match psegs b fuel i off with PBad => False | PErr => True | PRet (o, _) => off <= o <= bsize b end.
Proof.
  induction fuel as [|fuel IH]; intros i off k I0 O Fu St H; [lia|]. cbn [psegs]. destruct (i =? 0) eqn:Ei; [lia|]. rewrite left_ok by lia. destruct (bsize b - off <? 8) eqn:E1; [exact Logic.I|].
  rewrite rdw_in by lia. pose proof (H k off St ltac:(lia) ltac:(lia)) as Hu. change (word off) with (subw b off) in Hu. pose proof (subw_pos b off Bb) as P0. set (u := subw b off) in *. pose proof (align8_bounds u ltac:(lia)) as (A1 & A2).
  rewrite left_ok by lia. destruct (bsize b - (off + 8) <? align8 u) eqn:E2; [exact Logic.I|]. unfold BUF_SIZE, MEMORY. replace (u >? 4096 - 16) with false by lia. replace (off + 8 + u >? bsize b) with false by lia. cbn [orb].
  assert (St' : frag_start (k + 1) (off + 8 + align8 u)) by (rewrite align8_small by lia; apply fs_next; exact St).
  specialize (IH (i - 1) (off + 8 + align8 u) (k + 1)). destruct (psegs b fuel (i - 1) (off + 8 + align8 u)) as [(o, fs)| |]; cbn [pbind fst snd].
  - assert (off + 8 + align8 u <= o <= bsize b); [|lia]. apply IH; auto; try lia. intros k' o' X1 X2. apply (H k' o' X1). lia.
  - exact Logic.I.
  - apply IH; auto; try lia. intros k' o' X1 X2. apply (H k' o' X1). lia.
Qed.
Lemma plabs_safe n : 8 * n < 2 ^ 64 -> forall fuel i al off, 0 <= i -> 0 <= al -> 0 <= off -> i <= n -> off + 8 * (n - i) + 16 * al <= bsize b -> n - i <= Z.of_nat fuel ->
  match plabs b fuel i n al off with PBad => False | PErr => True | PRet (o, a, _) => off <= o /\ 0 <= a /\ o + 16 * a <= bsize b end.
Proof.
  intros Bn. induction fuel as [|fuel IH]; intros i al off I0 A0 O Ni Bd Fu; cbn [plabs]. { replace (i <? n) with false by lia. cbn [negb]. lia. }
  destruct (i <? n) eqn:Ei; cbn [negb]; [|lia]. rewrite rdw_in by lia. rewrite (wrap_small (8 * n)) by (unfold isw; lia). replace (8 * (i + 1) >? 8 * n) with false by lia. destruct (subw b off <? LABEL_ALIGNED).
  - specialize (IH (i + 1) al (off + 8)). destruct (plabs b fuel (i + 1) n al (off + 8)) as [((o, a), ls)| |]; cbn [pbind fst snd]; [|exact Logic.I|apply IH; lia]. assert (off + 8 <= o /\ 0 <= a /\ o + 16 * a <= bsize b) by (apply IH; lia). lia.
  - destruct (al =? 0) eqn:Ea; [exact Logic.I|]. rewrite !rdw_in by lia. specialize (IH (i + 1) (al - 1) (off + 8 + 16)). destruct (plabs b fuel (i + 1) n (al - 1) (off + 8 + 16)) as [((o, a), ls)| |]; cbn [pbind fst snd]; [|exact Logic.I|apply IH; lia].
    assert (off + 8 + 16 <= o /\ 0 <= a /\ o + 16 * a <= bsize b) by (apply IH; lia). lia.
Qed.
Lemma pjmps_safe n : forall fuel i off, 0 <= i -> 0 <= off -> off + 24 * i <= bsize b -> i <= Z.of_nat fuel ->
  match pjmps b fuel i n off with PBad => False | PErr => True | PRet (o, _) => off <= o <= bsize b end.
Proof.
  induction fuel as [|fuel IH]; intros i off I0 O Bd Fu; cbn [pjmps]. { replace (i =? 0) with true by lia. lia. } destruct (i =? 0) eqn:Ei; [lia|]. rewrite !rdw_in by lia. destruct (jbad _ _ _); [exact Logic.I|].
  specialize (IH (i - 1) (off + 24)). destruct (pjmps b fuel (i - 1) n (off + 24)) as [(o, ls)| |]; cbn [pbind fst snd]; [|exact Logic.I|apply IH; lia]. assert (off + 24 <= o <= bsize b) by (apply IH; lia). lia.
Qed.
Lemma pcons_safe : forall fuel i off, 0 <= i -> 0 <= off -> off + 8 * i <= bsize b -> i <= Z.of_nat fuel ->
  match pcons b fuel i off with PBad => False | PErr => True | PRet (o, _) => off <= o <= bsize b end.
Proof.
  induction fuel as [|fuel IH]; intros i off I0 O Bd Fu; cbn [pcons]. { replace (i =? 0) with true by lia. lia. } destruct (i =? 0) eqn:Ei; [lia|]. rewrite !rdw_in by lia.
  specialize (IH (i - 1) (off + 8)). destruct (pcons b fuel (i - 1) (off + 8)) as [(o, ls)| |]; cbn [pbind fst snd]; [|exact Logic.I|apply IH; lia]. assert (off + 8 <= o <= bsize b) by (apply IH; lia). lia.
Qed.
Lemma parse_safe dbg : (forall k o, frag_start k o -> k < word 8 -> o + 8 <= bsize b -> word o <= 4080) -> 8 * word 16 + 16 * word 24 < 2 ^ 64 -> 24 * word 32 < 2 ^ 64 -> 8 * word 40 < 2 ^ 64 -> parse b dbg <> PBad.
Proof.
  intros H1 H2 H3 H4. change (word 16) with (subw b 16) in *. change (word 24) with (subw b 24) in *. change (word 32) with (subw b 32) in *. change (word 40) with (subw b 40) in *.
  pose proof (subw_pos b 16 Bb). pose proof (subw_pos b 24 Bb). pose proof (subw_pos b 32 Bb). pose proof (subw_pos b 40 Bb). pose proof (subw_pos b 8 Bb).
  unfold parse, HEADER. destruct (bsize b <? 80) eqn:E0; [discriminate|]. cbn [orb]. destruct (negb (bsize b mod 8 =? 0)); [discriminate|]. destruct (negb _ || negb _); [discriminate|]. destruct (dbg && _); [discriminate|]. cbv zeta.
  pose proof (psegs_safe (S (length b)) (subw b 8) 80 0 ltac:(lia) ltac:(lia) ltac:(unfold bsize in *; lia) fs_first H1) as X. destruct (psegs b (S (length b)) (subw b 8) 80) as [(o1, fs)| |]; cbn [pbind]; [|discriminate|contradiction].
  rewrite left_ok by lia. rewrite (wrap_small (subw b 16 * 8)) by (unfold isw; lia). rewrite (wrap_small (subw b 24 * 16)) by (unfold isw; lia). rewrite wrap_small by (unfold isw; lia). destruct (bsize b - o1 <? _) eqn:E1; [discriminate|].
  pose proof (plabs_safe (subw b 16) ltac:(lia) (S (length b)) 0 (subw b 24) o1 ltac:(lia) ltac:(lia) ltac:(lia) ltac:(lia) ltac:(lia) ltac:(unfold bsize in *; lia)) as Y. destruct (plabs b (S (length b)) 0 (subw b 16) (subw b 24) o1) as [((o2, a), ls)| |]; cbn [pbind]; [|discriminate|contradiction].
  destruct (negb (a =? 0)) eqn:Ea; [discriminate|]. rewrite left_ok by lia. rewrite (wrap_small (subw b 32 * 24)) by (unfold isw; lia). destruct (bsize b - o2 <? _) eqn:E2; [discriminate|].
  pose proof (pjmps_safe (subw b 16) (S (length b)) (subw b 32) o2 ltac:(lia) ltac:(lia) ltac:(lia) ltac:(unfold bsize in *; lia)) as W. destruct (pjmps b (S (length b)) (subw b 32) (subw b 16) o2) as [(o3, js)| |]; cbn [pbind]; [|discriminate|contradiction].
  rewrite left_ok by lia. rewrite (wrap_small (subw b 40 * 8)) by (unfold isw; lia). destruct (bsize b - o3 <? _) eqn:E3; [discriminate|].
  pose proof (pcons_safe (S (length b)) (subw b 40) o3 ltac:(lia) ltac:(lia) ltac:(lia) ltac:(unfold bsize in *; lia)) as V. destruct (pcons b (S (length b)) (subw b 40) o3) as [(o4, cs)| |]; cbn [pbind]; [|discriminate|contradiction].
  unfold pdebug. destruct dbg; [|discriminate]. rewrite left_ok by lia. destruct (bsize b - o4 <? 16) eqn:E4; [discriminate|]. replace (o4 + 16 >? bsize b) with false by lia. discriminate.
Qed.
End Safe.
Lemma read_safe b dbg h : Forall isb b -> Z.of_nat (length b) < 2 ^ 64 -> heap_ok h ->
  (forall k o, frag_start b k o -> k < word b 8 -> o + 8 <= Z.of_nat (length b) -> word b o <= 4080) -> 8 * word b 16 + 16 * word b 24 < 2 ^ 64 -> 24 * word b 32 < 2 ^ 64 -> 8 * word b 40 < 2 ^ 64 ->
  deserialize b dbg h <> DUB.
Proof.
  intros B L H A1 A2 A3 A4 E. pose proof (deserialize_ok b dbg h B H) as X. rewrite E in X. eapply parse_safe; eauto.
Qed.

(** ** Truncated buffers *)
Lemma truncated cf h ks rs s d p n buf s1 g b tail (dbg : bool) h2 : reached cf h ks rs s -> fields32 (cfld s) -> debug32 d -> serialize d s = SOk p n buf s1 -> (forall i, isb (g i)) -> heap_ok h2 ->
  fill buf g 0 = b ++ tail -> Z.of_nat (length b) < n - (if dbg then 0 else match d with Some _ => 16 | None => 0 end) ->
  exists h', deserialize b dbg h2 = DNull h' /\ Permutation (hlive h') (hlive h2).
Proof.
  intros R F32 D32 S G H2 E Ln. destruct (trip_rep cf h ks rs s d p n buf s1 R S) as (F & L & J & K & Ra). destruct (trip_bytes cf h ks s d p n buf s1 g F32 S G F L J K Ra) as (B1 & B2 & fs & W & Eb).
  assert (Len : n = zlen (fill buf g 0)). { pose proof (ser_state _ _ _ _ _ d R) as X. rewrite S in X. destruct X as (_ & _ & _ & X & _). unfold zlen. rewrite fill_len. exact X. }
  assert (Bi : Forall isb b). { rewrite E in B1. apply Forall_app in B1. tauto. }
  pose proof (parse_gen b tail d dbg fs _ W D32 ltac:(congruence) ltac:(rewrite <- Eb; exact B2)) as P.
  replace (bsize b <? needed dbg d fs (img_of s F L J K)) with true in P.
  2:{ symmetry. apply Z.ltb_lt. unfold needed. rewrite <- Eb, <- Len, dbg_len. change (bsize b) with (Z.of_nat (length b)). destruct dbg; exact Ln. }
  cbn [orb] in P. pose proof (deserialize_ok b dbg h2 Bi H2) as X. destruct (deserialize b dbg h2) as [h'|s' d'|].
  - exists h'. split; [reflexivity|apply X].
  - destruct X as (x & X & _). congruence.
  - congruence.
Qed.
