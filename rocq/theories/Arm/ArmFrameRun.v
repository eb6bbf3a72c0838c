(** ARM64: saving and restoring registers. *)
Require Import ZArith List Bool Lia Zify ZifyBool Permutation FinFun.
From Verif Require Import Rv.RvLib Rv.RvBits Imm.ImmLib Imm.MsProofs Imm.PpProofs Arm.ArmIsa Arm.ArmBr Arm.ArmEnc Arm.ArmBits Arm.ArmImm Arm.ArmImmProofs Arm.ArmLogImm Arm.ArmLoadImm
  Arm.ArmJump Arm.ArmJumpSpec Arm.ArmJumpProofs Arm.ArmCondProofs Arm.ArmOp Arm.ArmOpSpec Arm.ArmOpDec Arm.ArmOpProofs Arm.ArmOpImm Arm.ArmOp1 Arm.ArmMem Arm.ArmMemSpec Arm.ArmMemProofs Arm.ArmPair Arm.ArmFrame Arm.ArmFrameSpec Arm.ArmFrameDec.
Import ListNotations.
Open Scope Z_scope.
Ltac Zify.zify_post_hook ::= idtac.

(** ** Addresses *)
Lemma st_cong : forall n m a b v, a mod 2 ^ 64 = b mod 2 ^ 64 -> st_bytes n m a v = st_bytes n m b v.
Proof. induction n as [|n IH]; intros m a b v E; [reflexivity|]. cbn [st_bytes]. unfold wrap. rewrite E. apply IH. apply add_cong. exact E. Qed.
Lemma ld_cong s a b : a mod 2 ^ 64 = b mod 2 ^ 64 -> ld8 s a = ld8 s b.
Proof. intros E. unfold ld8. rewrite !le_value. apply value_cong. exact E. Qed.
Lemma st8_cong s a b v : a mod 2 ^ 64 = b mod 2 ^ 64 -> st8 s a v = st8 s b v.
Proof. intros E. unfold st8. rewrite (st_cong 8 _ a b v E). reflexivity. Qed.

(** ** A slot: a register and the offset of its place *)
Definition slot : Type := bool * Z * Z.
Definition put (A : Z) (s : fstate) (x : slot) : fstate := let '(v, r, o) := x in st8 s (A + o) (reg s v (num v r)).
Definition get (A : Z) (s : fstate) (x : slot) : fstate := let '(v, r, o) := x in wreg s v (num v r) (ld8 s (A + o)).
Definition act (ld : bool) (A : Z) : fstate -> slot -> fstate := if ld then get A else put A.
Lemma sp_wG s r v : sp (wG s r v) = sp s.
Proof. unfold sp, wG, wX. cbn. destruct (r =? 31) eqn:E; [reflexivity|]. cbn. unfold upd. replace (31 =? r) with false by lia. reflexivity. Qed.
Lemma sp_act ld A s x : sp (act ld A s x) = sp s.
Proof. destruct x as [[v r] o], ld; cbn [act get put]; [destruct v; [reflexivity|apply sp_wG]|reflexivity]. Qed.
Lemma act_cong (ld : bool) A a s v r o : (a mod 2 ^ 64 = (A + o) mod 2 ^ 64) -> (if ld then wreg s v (num v r) (ld8 s a) else st8 s a (reg s v (num v r))) = act ld A s (v, r, o).
Proof. intros E. destruct ld; cbn [act get put]; [rewrite (ld_cong s a _ E); reflexivity|rewrite (st8_cong s a _ _ E); reflexivity]. Qed.

(** ** Words *)
Lemma mod_cong_add s T A o x : (sp s + T) mod 2 ^ 64 = A mod 2 ^ 64 -> o = x - T -> (sp s + x) mod 2 ^ 64 = (A + o) mod 2 ^ 64.
Proof. intros E ->. replace (sp s + x) with (sp s + T + (x - T)) by ring. apply add_cong. exact E. Qed.
Lemma pair_step (ld : bool) v p i x s T A : 0 <= x <= 496 -> x mod 16 = 0 -> (sp s + T) mod 2 ^ 64 = A mod 2 ^ 64 ->
  step_f (pair_word ld v p i x) s = Some (act ld A (act ld A s (v, p, x - T)) (v, i, x - T + 8)).
Proof.
  intros X X16 E. set (j := x / 8). assert (J : x = 8 * j /\ 0 <= j < 64) by (unfold j; Z.to_euclidean_division_equations; lia). destruct J as (J & JB).
  assert (W : pair_word ld v p i x = (pairk ld v .| num v p .| Z.shiftl (num v i) 10 .| Z.shiftl 31 5 .| Z.shiftl j 15)).
  { unfold pair_word, pairk. change (RN SLJIT_SP) with (Z.shiftl 31 5). f_equal. rewrite !Z.shiftl_mul_pow2 by lia. rewrite J. change (2 ^ 15) with (8 * 2 ^ 12). ring. }
  rewrite W. unfold step_f. rewrite dec_pair by (try apply num_lt; lia). cbn [exec_f Z.eqb Pos.eqb]. rewrite (sext_small 7 j) by (cbn; lia). f_equal. rewrite <- J.
  set (a := wrap (rSP (gs s) 31 + x)).
  assert (E1 : a mod 2 ^ 64 = (A + (x - T)) mod 2 ^ 64) by (unfold a, wrap; rewrite Z.mod_mod by lia; apply (mod_cong_add s T A _ x E eq_refl)).
  assert (E2 : (a + 8) mod 2 ^ 64 = (A + (x - T + 8)) mod 2 ^ 64) by (rewrite Z.add_assoc; apply add_cong; exact E1).
  rewrite <- (act_cong ld A a s v p _ E1). destruct ld.
  - rewrite <- (act_cong true A (a + 8) (wreg s v (num v p) (ld8 s a)) v i _ E2). cbv iota. f_equal. destruct v; [reflexivity|]. cbn [wreg]. unfold ld8, wG. cbn [gs]. rewrite mm_wX. reflexivity.
  - rewrite <- (act_cong false A (a + 8) _ v i _ E2). cbv iota. reflexivity.
Qed.
Lemma one_step (ld v : bool) p x (one : bool) s T A : 0 <= x <= 496 -> x mod 16 = 0 -> (sp s + T) mod 2 ^ 64 = A mod 2 ^ 64 -> step_f (one_word ld v p x one) s = Some (act ld A s (v, p, x - T + if one then 8 else 0)).
Proof.
  intros X X16 E. set (j := x / 8 + if one then 1 else 0). assert (J : x + (if one then 8 else 0) = 8 * j /\ 0 <= j < 4096) by (unfold j; destruct one; Z.to_euclidean_division_equations; lia). destruct J as (J & JB).
  assert (O : (Z.shiftr (Z.shiftl x 12) 5 .| (if one then Z.shiftl 1 10 else 0)) = Z.shiftl j 10).
  { rewrite Z.shiftr_div_pow2, !Z.shiftl_mul_pow2 by lia. assert (Q : x * 2 ^ 12 / 2 ^ 5 = (x / 16) * 2 ^ 11) by (Z.to_euclidean_division_equations; lia). rewrite Q. destruct one.
    - rewrite <- (add_lor 11) by lia. Z.to_euclidean_division_equations; lia.
    - rewrite Z.lor_0_r. Z.to_euclidean_division_equations; lia. }
  assert (W : one_word ld v p x one = ((if ld then (if v then LDRI_F64 else LDRI) else if v then STRI_F64 else STRI) .| num v p .| Z.shiftl 31 5 .| Z.shiftl j 10)).
  { unfold one_word. change (RN SLJIT_SP) with (Z.shiftl 31 5). rewrite <- (Z.lor_assoc _ (Z.shiftr _ _)), O. reflexivity. }
  rewrite W. clear W O. unfold step_f. set (a := rSP (gs s) 31 + 8 * j).
  assert (E1 : a mod 2 ^ 64 = (A + (x - T + if one then 8 else 0)) mod 2 ^ 64) by (unfold a; rewrite <- J; apply (mod_cong_add s T A _ _ E); lia).
  rewrite <- (act_cong ld A a s v p _ E1). destruct v; cbn [num].
  - replace (if ld then LDRI_F64 else STRI_F64) with (if ld then LDRI_F64 else STRI_F64) by reflexivity. rewrite dec_vld by (try apply freg_lt; lia). cbn [exec_f]. fold a. reflexivity.
  - destruct (dec_ldri ld (reg_map p) j (reg_lt p) JB) as (D1 & D2). rewrite D1, D2. cbn [exec]. unfold ldst. change (Z.to_nat (2 ^ 3)) with 8%nat. replace (rSP (gs s) 31 + j * 2 ^ 3) with a by (unfold a; change (2 ^ 3) with 8; ring).
    destruct ld; reflexivity.
Qed.

(** ** The loops *)
Lemma run_f_app a b s : run_f (a ++ b) s = match run_f a s with None => None | Some s' => run_f b s' end.
Proof. revert s. induction a as [|w a IH]; intros s; [reflexivity|]. cbn [app run_f]. destruct (step_f w s); [apply IH|reflexivity]. Qed.
Fixpoint pslots (v : bool) (l : list Z) (prev : option Z) (x : Z) : list slot * option Z * Z :=
  match l with
  | [] => ([], prev, x)
  | i :: l =>
      match prev with
      | None => pslots v l (Some i) x
      | Some p => let '(sl, q, x') := pslots v l None (x - 16) in ((v, p, x) :: (v, i, x + 8) :: sl, q, x')
      end
  end.
Definition olist (o : option Z) : list Z := match o with None => [] | Some x => [x] end.
Definition slots (c : ctx) : list slot :=
  let '(s1, prev, x1) := pslots false (ints c) None (-16) in
  let '(s2, fprev, x2) := pslots true (floats c) None x1 in
  s1 ++ s2 ++ (match fprev with Some f => [(true, f, x2 + 8)] | None => [] end) ++
  (match prev with Some r => [(false, r, x2 + match fprev with None => 8 | _ => 0 end)] | None => [] end).
Definition len (l : list Z) (o : option Z) : Z := Z.of_nat (length l) + match o with None => 0 | Some _ => 1 end.
(** Different places. *)
Definition apart (a b : slot) : Prop := snd a + 8 <= snd b \/ snd b + 8 <= snd a.
Definition within (lo hi : Z) (a : slot) : Prop := lo <= snd a /\ snd a + 8 <= hi.
Lemma pairs_run ld v T A l : forall prev x s, x mod 16 = 0 -> x <= 496 -> 8 * len l prev <= x + 16 -> (sp s + T) mod 2 ^ 64 = A mod 2 ^ 64 ->
  exists ws q x' sl, pairs ld v l prev x = (ws, q, x') /\ pslots v l prev (x - T) = (sl, q, x' - T) /\ run_f ws s = Some (fold_left (act ld A) sl s) /\ x' mod 16 = 0 /\ x' <= x /\ 8 * len [] q + (x - x') = 8 * len l prev.
Proof.
  induction l as [|i l IH]; intros prev x s X X1 R E.
  - exists [], prev, x, []. repeat split; try assumption; try lia.
  - destruct prev as [p|]; cbn [pairs pslots].
    + unfold len in R. cbn [length] in R.
      destruct (IH None (x - 16) (act ld A (act ld A s (v, p, x - T)) (v, i, x - T + 8))) as (ws & q & x' & sl & P1 & P2 & P3 & P4 & P5 & P6); [Z.to_euclidean_division_equations; lia|lia|unfold len; lia|rewrite !sp_act; exact E|].
      rewrite P1. replace (x - T - 16) with (x - 16 - T) by lia. rewrite P2. eexists _, q, x', _. split; [reflexivity|]. split; [reflexivity|]. cbn [run_f fold_left].
      rewrite (pair_step ld v p i x s T A) by (assumption || lia). split; [exact P3|]. split; [exact P4|]. split; [lia|]. unfold len in *. cbn [length] in *. lia.
    + destruct (IH (Some i) x s X X1) as (ws & q & x' & sl & P1 & P2 & P3 & P4 & P5 & P6); [unfold len in *; cbn [length] in *; lia|exact E|].
      exists ws, q, x', sl. repeat split; try assumption. unfold len in *. cbn [length] in *. lia.
Qed.
Lemma sp_fold ld A sl : forall s, sp (fold_left (act ld A) sl s) = sp s.
Proof. induction sl as [|x sl IH]; intros s; [reflexivity|]. cbn [fold_left]. rewrite IH. apply sp_act. Qed.
Lemma save_run ld c T A s : T mod 16 = 0 -> T <= 512 -> 8 * (len (ints c) None + len (floats c) None) <= T -> (sp s + T) mod 2 ^ 64 = A mod 2 ^ 64 ->
  run_f (save_words ld c (T - 16)) s = Some (fold_left (act ld A) (slots c) s).
Proof.
  intros T16 TB R E. unfold save_words, slots. unfold len in R.
  destruct (pairs_run ld false T A (ints c) None (T - 16) s) as (w1 & q1 & x1 & s1 & P1 & P2 & P3 & P4 & P5 & P6); [Z.to_euclidean_division_equations; lia|lia|unfold len; lia|exact E|].
  rewrite P1. replace (T - 16 - T) with (-16) in P2 by lia. rewrite P2. unfold len in P6. cbn [length] in P6.
  assert (E1 : (sp (fold_left (act ld A) s1 s) + T) mod 2 ^ 64 = A mod 2 ^ 64) by (rewrite sp_fold; exact E).
  destruct (pairs_run ld true T A (floats c) None x1 _ P4 ltac:(lia) ltac:(unfold len; destruct q1; lia) E1) as (w2 & q2 & x2 & s2 & Q1 & Q2 & Q3 & Q4 & Q5 & Q6).
  rewrite Q1, Q2. unfold len in Q6. cbn [length] in Q6. rewrite run_f_app, P3, run_f_app, Q3, run_f_app, !fold_left_app. set (sa := fold_left (act ld A) s2 (fold_left (act ld A) s1 s)).
  assert (E2 : (sp sa + T) mod 2 ^ 64 = A mod 2 ^ 64) by (unfold sa; rewrite sp_fold; exact E1).
  assert (XB : match q1, q2 with None, None => True | _, _ => 0 <= x2 end) by (destruct q1, q2; auto; Z.to_euclidean_division_equations; lia).
  destruct q2 as [f|]; cbn [run_f fold_left].
  - rewrite (one_step ld true f x2 true sa T A) by (assumption || (destruct q1; lia)). replace (x2 - T + 8) with (x2 - T + 8) by lia.
    destruct q1 as [r|]; cbn [run_f fold_left]; [|reflexivity]. rewrite (one_step ld false r x2 false _ T A) by (assumption || lia || (rewrite sp_act; exact E2)). reflexivity.
  - destruct q1 as [r|]; cbn [run_f fold_left]; [|reflexivity]. rewrite (one_step ld false r x2 true _ T A) by (assumption || lia). reflexivity.
Qed.

(** ** The places *)
Lemma pslots_ok v l : forall prev x, exists sl q x', pslots v l prev x = (sl, q, x') /\ map fst sl ++ map (pair v) (olist q) = map (pair v) (olist prev ++ l) /\ x' <= x /\
  Forall (within (x' + 16) (x + 16)) sl /\ ForallOrdPairs apart sl /\ 8 * len [] q + (x - x') = 8 * len l prev.
Proof.
  induction l as [|i l IH]; intros prev x.
  - exists [], prev, x. cbn. rewrite app_nil_r. repeat split; try lia; constructor.
  - destruct prev as [p|]; cbn [pslots].
    + destruct (IH None (x - 16)) as (sl & q & x' & P1 & P2 & P3 & P4 & P5 & P6). rewrite P1. eexists _, q, x'. split; [reflexivity|]. cbn [map olist app fst] in *. split; [cbn; rewrite P2; reflexivity|]. split; [lia|].
      assert (W : Forall (within (x' + 16) (x + 16)) sl) by (eapply Forall_impl; [|exact P4]; unfold within; intros; lia).
      split; [constructor; [unfold within; cbn; lia|constructor; [unfold within; cbn; lia|exact W]]|]. split.
      * constructor; [constructor; [unfold apart; cbn; lia|]|constructor; [|exact P5]]; (eapply Forall_impl; [|exact P4]; unfold within, apart; cbn; intros; lia).
      * unfold len in *. cbn [length] in *. lia.
    + destruct (IH (Some i) x) as (sl & q & x' & P1 & P2 & P3 & P4 & P5 & P6). exists sl, q, x'. repeat split; try assumption. unfold len in *. cbn [length] in *. lia.
Qed.
Lemma fop_app (l1 l2 : list slot) : ForallOrdPairs apart l1 -> ForallOrdPairs apart l2 -> (forall a b, In a l1 -> In b l2 -> apart a b) -> ForallOrdPairs apart (l1 ++ l2).
Proof.
  intros H1 H2 H. induction H1 as [|a l Ha Hl IH]; [exact H2|]. cbn [app]. constructor; [|apply IH; intros; apply H; [right|]; assumption].
  apply Forall_app. split; [exact Ha|]. apply Forall_forall. intros b B. apply H; [left; reflexivity|exact B].
Qed.
Lemma slots_ok c : let n := len (ints c) None + len (floats c) None in
  Forall (within (- 8 * n) 0) (slots c) /\ ForallOrdPairs apart (slots c) /\ (forall v r, In (v, r) (map fst (slots c)) <-> In r (if v then floats c else ints c)) /\
  (NoDup (ints c) -> NoDup (floats c) -> NoDup (map fst (slots c))).
Proof.
  cbv zeta. unfold slots. destruct (pslots_ok false (ints c) None (-16)) as (s1 & q1 & x1 & P1 & P2 & P3 & P4 & P5 & P6). rewrite P1.
  destruct (pslots_ok true (floats c) None x1) as (s2 & q2 & x2 & Q1 & Q2 & Q3 & Q4 & Q5 & Q6). rewrite Q1. cbn [olist app] in *. unfold len in *. cbn [length] in *.
  set (t := (match q2 with Some f => [(true, f, x2 + 8)] | None => [] end) ++ (match q1 with Some r => [(false, r, x2 + match q2 with None => 8 | _ => 0 end)] | None => [] end)).
  set (lo := - 8 * (Z.of_nat (length (ints c)) + 0 + (Z.of_nat (length (floats c)) + 0))).
  assert (LO : lo = x2 + 16 - 8 * (match q1 with None => 0 | Some _ => 1 end + match q2 with None => 0 | Some _ => 1 end)) by (unfold lo; destruct q1, q2; lia).
  assert (T1 : Forall (within lo (x2 + 16)) t) by (unfold t; destruct q1, q2; cbn [app]; repeat (apply Forall_cons; [unfold within; cbn [snd]; lia|]); apply Forall_nil).
  assert (T2 : ForallOrdPairs apart t) by (unfold t; destruct q1, q2; cbn [app]; repeat (apply FOP_cons; [repeat (apply Forall_cons; [unfold apart; cbn [snd]; lia|]); apply Forall_nil|]); apply FOP_nil).
  rewrite !Forall_forall in *.
  assert (PM : Permutation (map fst (s1 ++ s2 ++ t)) (map (pair false) (ints c) ++ map (pair true) (floats c))).
  { rewrite <- P2, <- Q2. rewrite !map_app. unfold t. destruct q1 as [a|], q2 as [b|]; cbn [olist map app fst]; rewrite ?app_nil_r, <- ?app_assoc; try apply Permutation_refl.
    - apply Permutation_app_head. cbn [app]. change ((true, b) :: (false, a) :: nil) with ([(true, b)] ++ [(false, a)]). rewrite app_assoc. apply Permutation_sym. apply (Permutation_cons_append (map fst s2 ++ [(true, b)]) (false, a)).
    - apply Permutation_app_head. cbn [app]. apply Permutation_sym. apply (Permutation_cons_append (map fst s2) (false, a)). }
  split; [|split; [|split]].
  - intros a I. rewrite !in_app_iff in I. unfold within in *. destruct I as [I | [I | I]]; [specialize (P4 a I); destruct q1, q2; lia|specialize (Q4 a I); destruct q1, q2; lia|specialize (T1 a I); destruct q1, q2; lia].
  - apply fop_app; [exact P5|apply fop_app; [exact Q5|exact T2|]|].
    + intros a b Ia Ib. specialize (Q4 a Ia). specialize (T1 b Ib). unfold within, apart in *. lia.
    + intros a b Ia Ib. specialize (P4 a Ia). rewrite in_app_iff in Ib. unfold within, apart in *. destruct Ib as [Ib | Ib]; [specialize (Q4 b Ib)|specialize (T1 b Ib)]; lia.
  - intros v r. split; intros I.
    + apply (Permutation_in _ PM) in I. rewrite in_app_iff, !in_map_iff in I. destruct I as [(y & Y & I) | (y & Y & I)]; injection Y as <- <-; exact I.
    + apply (Permutation_in _ (Permutation_sym PM)). rewrite in_app_iff, !in_map_iff. destruct v; [right|left]; exists r; auto.
  - intros N1 N2. apply (Permutation_NoDup (Permutation_sym PM)). assert (NM : forall (v : bool) (l : list Z), NoDup l -> NoDup (map (pair v) l)).
    { intros v l N. apply Injective_map_NoDup; [intros a b E; injection E; auto|exact N]. }
    assert (AP : forall l1 l2 : list (bool * Z), NoDup l1 -> NoDup l2 -> (forall x, In x l1 -> ~ In x l2) -> NoDup (l1 ++ l2)).
    { intros l1 l2 H1 H2 H. induction H1 as [|a l Na Nl IH]; [exact H2|]. cbn. constructor; [rewrite in_app_iff; intros [I|I]; [contradiction|apply (H a (or_introl eq_refl) I)]|apply IH; intros x I; apply H; right; exact I]. }
    apply AP; [apply NM; exact N1|apply NM; exact N2|]. intros x I1 I2. rewrite in_map_iff in I1, I2. destruct I1 as (y & <- & _). destruct I2 as (z & E & _). discriminate E.
Qed.
