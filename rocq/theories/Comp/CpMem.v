(** Byte memory of the C program and assertions about it: disjoint pieces with known contents.
    Words are little endian (RISC-V 64), sljit_uw and pointers are 8 bytes (sljitConfigInternal.h). *)
Require Import ZArith List Bool Lia Zify ZifyBool Permutation.
Import ListNotations.
Open Scope Z_scope.
Ltac Zify.zify_post_hook ::= idtac.

(** The memory of the C program (model of memory accesses; no particular line). *)
Definition memory := Z -> Z.
(** [n] bytes at address [a] (reads through pointers, SLJIT_MEMCPY source sljitSerialize.c:245). *)
Fixpoint get (m : memory) (a : Z) (n : nat) : list Z :=
  match n with O => [] | S n => m a :: get m (a + 1) n end.
(** Bytes written at address [a] (assignments through pointers, SLJIT_MEMCPY sljitSerialize.c:431). *)
Definition put (m : memory) (a : Z) (l : list Z) : memory :=
  fun x => if (a <=? x) && (x <? a + Z.of_nat (length l)) then nth (Z.to_nat (x - a)) l 0 else m x.
(** The bytes of an [n] byte integer, and back (object representation of integers, little endian). *)
Fixpoint enc (n : nat) (v : Z) : list Z := match n with O => [] | S n => v mod 256 :: enc n (v / 256) end.
Fixpoint dec (l : list Z) : Z := match l with [] => 0 | b :: l => b + 256 * dec l end.
(** A sljit_uw or pointer in memory. *)
Definition ldw (m : memory) (a : Z) : Z := dec (get m a 8).
Definition stw (m : memory) (a v : Z) : memory := put m a (enc 8 v).

Lemma get_len n : forall m a, length (get m a n) = n.
Proof. induction n; intros; cbn [get length]; auto. Qed.
Lemma enc_len n : forall v, length (enc n v) = n.
Proof. induction n; intros; cbn [enc length]; auto. Qed.
Lemma dec_enc n : forall v, dec (enc n v) = v mod 256 ^ Z.of_nat n.
Proof.
  induction n as [|n IH]; intros v; [cbn; rewrite Z.mod_1_r; reflexivity|].
  cbn [enc dec]. rewrite IH, Nat2Z.inj_succ, Z.pow_succ_r by lia. rewrite Z.rem_mul_r by lia. lia.
Qed.
Definition isb (b : Z) : Prop := 0 <= b < 256.
Lemma enc_byte n : forall v, Forall isb (enc n v).
Proof. induction n; intros; cbn [enc]; constructor; auto. apply Z.mod_pos_bound; lia. Qed.
Lemma enc_dec l : Forall isb l -> enc (length l) (dec l) = l.
Proof.
  induction 1 as [|b l B F IH]; [reflexivity|]. cbn [length enc dec]. unfold isb in B. f_equal.
  - rewrite (Z.mul_comm 256), Z_mod_plus_full. apply Z.mod_small; lia.
  - rewrite (Z.mul_comm 256), Z.div_add by lia. rewrite Z.div_small by lia. exact IH.
Qed.
Lemma dec_bound l : Forall isb l -> 0 <= dec l < 256 ^ Z.of_nat (length l).
Proof.
  induction 1 as [|b l B F IH]; [cbn; lia|]. cbn [length dec]. rewrite Nat2Z.inj_succ, Z.pow_succ_r by lia. unfold isb in B. lia.
Qed.
Definition is64 (v : Z) : Prop := 0 <= v < 2 ^ 64.
Lemma dec_enc8 v : is64 v -> dec (enc 8 v) = v.
Proof. intros B. rewrite dec_enc. apply Z.mod_small. exact B. Qed.
Lemma dec_enc8_wrap v : dec (enc 8 v) = v mod 2 ^ 64.
Proof. rewrite dec_enc. reflexivity. Qed.

Lemma nth_get n : forall m a i d, (i < n)%nat -> nth i (get m a n) d = m (a + Z.of_nat i).
Proof.
  induction n as [|n IH]; intros m a [|i] d L; try lia; cbn [get nth].
  - f_equal; lia.
  - rewrite IH by lia. f_equal; lia.
Qed.
Lemma get_ext n : forall m m' a, (forall x, a <= x < a + Z.of_nat n -> m x = m' x) -> get m a n = get m' a n.
Proof.
  induction n as [|n IH]; intros m m' a E; cbn [get]; auto. f_equal; [apply E; lia|]. apply IH. intros; apply E; lia.
Qed.
Lemma get_app n k : forall m a, get m a (n + k) = get m a n ++ get m (a + Z.of_nat n) k.
Proof.
  induction n as [|n IH]; intros m a; cbn [get app Nat.add].
  - f_equal; lia.
  - rewrite IH. do 2 f_equal. f_equal; lia.
Qed.
Lemma get_put_same m a l : get (put m a l) a (length l) = l.
Proof.
  apply (nth_ext _ _ 0 0); [apply get_len|]. intros i L. rewrite get_len in L. rewrite nth_get by auto.
  unfold put. replace (a <=? a + Z.of_nat i) with true by lia. replace (a + Z.of_nat i <? a + Z.of_nat (length l)) with true by lia. cbn [andb].
  f_equal; lia.
Qed.

(** ** Disjoint pieces of memory *)

(** A piece with known contents, or with unknown contents of a given length. *)
Inductive cell := Kn (l : list Z) | Un (n : Z).
Definition clen (c : cell) : Z := match c with Kn l => Z.of_nat (length l) | Un n => n end.
Definition inside (x : Z * cell) (z : Z) : Prop := fst x <= z < fst x + clen (snd x).
Definition apart (x y : Z * cell) : Prop := forall z, ~ (inside x z /\ inside y z).
Lemma apart_sym x y : apart x y -> apart y x.
Proof. unfold apart. intros A z (X & Y). apply (A z). auto. Qed.
(** The memory holds the pieces [H] (address and contents), and they do not overlap. *)
Definition holds (m : memory) (p : Z * cell) : Prop := match snd p with Kn l => get m (fst p) (length l) = l | Un _ => True end.
Fixpoint disjoint (H : list (Z * cell)) : Prop :=
  match H with [] => True | p :: H => Forall (apart p) H /\ disjoint H end.
Definition sat (m : memory) (H : list (Z * cell)) : Prop := Forall (holds m) H /\ disjoint H.
(** A word. *)
Definition W (v : Z) : cell := Kn (enc 8 v).

Lemma disjoint_perm H H' : Permutation H H' -> disjoint H -> disjoint H'.
Proof.
  induction 1 as [|x l l' P IH|x y l|l l' l'' P1 IH1 P2 IH2]; intros D; auto.
  - destruct D as (F & D). split; auto. rewrite <- P; auto.
  - destruct D as (F & G & D). inversion F; subst. cbn. repeat split; auto. constructor; auto. apply apart_sym; auto.
Qed.
Lemma sat_perm m H H' : Permutation H H' -> sat m H -> sat m H'.
Proof. intros P (F & D). split; [rewrite <- P; auto|eapply disjoint_perm; eauto]. Qed.
Lemma disjoint_app A B : disjoint (A ++ B) <-> disjoint A /\ disjoint B /\ Forall (fun a => Forall (apart a) B) A.
Proof.
  induction A as [|a A IH]; cbn [app disjoint]; [intuition|].
  rewrite Forall_app, IH, Forall_cons_iff. tauto.
Qed.
Lemma sat_app m A B : sat m (A ++ B) -> sat m A /\ sat m B.
Proof. unfold sat. rewrite Forall_app, disjoint_app. tauto. Qed.
Lemma sat_in m H p : sat m H -> In p H -> holds m p.
Proof. intros (F & _) I. rewrite Forall_forall in F. auto. Qed.
Lemma sat_ldw m H a v : sat m H -> In (a, W v) H -> is64 v -> ldw m a = v.
Proof.
  intros S I B. apply (sat_in _ _ _ S) in I. unfold holds in I. cbn [fst snd W] in I. rewrite enc_len in I.
  unfold ldw. rewrite I. apply dec_enc8; auto.
Qed.
(** Writing a piece. *)
Lemma apart_len a c c' p : clen c' = clen c -> apart (a, c) p -> apart (a, c') p.
Proof. intros L A z (X & Y). apply (A z). unfold inside in *. cbn [fst snd] in *. rewrite L in X. auto. Qed.
Lemma sat_put m a c l H : sat m ((a, c) :: H) -> Z.of_nat (length l) = clen c -> sat (put m a l) ((a, Kn l) :: H).
Proof.
  intros (F & A & D) L. inversion F as [|? ? X Y]; subst. split.
  - constructor; [apply get_put_same|]. rewrite Forall_forall in *. intros (b, k) I. specialize (A _ I). specialize (Y _ I).
    unfold holds in *. cbn [fst snd] in *. destruct k as [k|k]; auto. rewrite <- Y at 2. apply get_ext. intros x X'.
    specialize (A x). unfold inside in A. cbn [fst snd clen] in A. rewrite <- L in A.
    unfold put. destruct (a <=? x) eqn:E1, (x <? a + Z.of_nat (length l)) eqn:E2; cbn [andb]; auto. lia.
  - cbn [disjoint]. split; auto. rewrite Forall_forall in *. intros p I. eapply apart_len; eauto.
Qed.
Lemma sat_stw m a c v H : sat m ((a, c) :: H) -> clen c = 8 -> sat (stw m a v) ((a, W v) :: H).
Proof. intros S L. eapply sat_put; eauto. Qed.
(** Forgetting contents. *)
Lemma sat_un m a l H : sat m ((a, Kn l) :: H) -> sat m ((a, Un (Z.of_nat (length l))) :: H).
Proof.
  intros (F & A & D). inversion F; subst. split; [constructor; [exact I|assumption]|]. cbn [disjoint]. split; [|assumption].
  rewrite Forall_forall in *. intros p I. eapply apart_len; [|eauto]. reflexivity.
Qed.
(** Splitting and joining pieces. *)
Lemma holds_app m a l1 l2 : holds m (a, Kn (l1 ++ l2)) <-> holds m (a, Kn l1) /\ holds m (a + Z.of_nat (length l1), Kn l2).
Proof.
  unfold holds. cbn [fst snd]. rewrite app_length, get_app. split; [|intros (-> & ->); auto].
  intros E. apply (f_equal (fun l => (firstn (length l1) l, skipn (length l1) l))) in E.
  rewrite !firstn_app, !skipn_app, !get_len, !Nat.sub_diag in E. cbn [firstn skipn] in E.
  rewrite !firstn_all2, !skipn_all2, !app_nil_r, !app_nil_l in E by (rewrite ?get_len; lia).
  injection E; auto.
Qed.
Lemma apart_app a c c1 c2 p : clen c = clen c1 + clen c2 -> 0 <= clen c1 -> 0 <= clen c2 ->
  apart (a, c) p <-> apart (a, c1) p /\ apart (a + clen c1, c2) p.
Proof.
  unfold apart, inside. cbn [fst snd]. intros -> P1 P2. split.
  - intros A. split; intros z (X & Y); apply (A z); split; auto; lia.
  - intros (A & B) z (X & Y). destruct (Z_lt_ge_dec z (a + clen c1)); [apply (A z)|apply (B z)]; split; auto; lia.
Qed.
Lemma sat_split_gen m a c c1 c2 H : clen c = clen c1 + clen c2 -> 0 <= clen c1 -> 0 <= clen c2 ->
  (holds m (a, c) <-> holds m (a, c1) /\ holds m (a + clen c1, c2)) ->
  sat m ((a, c) :: H) <-> sat m ((a, c1) :: (a + clen c1, c2) :: H).
Proof.
  intros L P1 P2 X. unfold sat. rewrite !Forall_cons_iff. cbn [disjoint]. rewrite !Forall_cons_iff, X.
  assert (Y : Forall (apart (a, c)) H <-> Forall (apart (a, c1)) H /\ Forall (apart (a + clen c1, c2)) H).
  { rewrite !Forall_forall. split.
    - intros F. split; intros p I; specialize (F p I); apply (apart_app a c c1 c2) in F; tauto.
    - intros (F & G) p I. apply (apart_app a c c1 c2); auto. }
  rewrite Y.
  assert (Z : apart (a, c1) (a + clen c1, c2)) by (intros z; unfold inside; cbn [fst snd]; lia).
  tauto.
Qed.
Lemma sat_kn m a l1 l2 H : sat m ((a, Kn (l1 ++ l2)) :: H) <-> sat m ((a, Kn l1) :: (a + Z.of_nat (length l1), Kn l2) :: H).
Proof. apply sat_split_gen; cbn [clen]; try lia; [rewrite app_length; lia|apply holds_app]. Qed.
Lemma sat_unk m a n k H : 0 <= n -> 0 <= k -> sat m ((a, Un (n + k)) :: H) <-> sat m ((a, Un n) :: (a + n, Un k) :: H).
Proof. intros N K. apply (sat_split_gen m a (Un (n + k)) (Un n) (Un k)); cbn [clen]; try lia. unfold holds; cbn [snd]. tauto. Qed.
Lemma sat_drop m p H : sat m (p :: H) -> sat m H.
Proof. intros (F & A & D). inversion F; subst. split; auto. Qed.
(** The bytes at the pieces determine the truth: memories agreeing on them. *)
Lemma sat_ext m m' H : (forall p z, In p H -> inside p z -> m z = m' z) -> sat m H -> sat m' H.
Proof.
  intros E (F & D). split; auto. rewrite Forall_forall in *. intros (a, [l|n]) I; unfold holds; cbn [fst snd]; auto.
  specialize (F _ I). unfold holds in F. cbn [fst snd] in F. rewrite <- F at 2. symmetry. apply get_ext. intros x X. eapply E; eauto.
Qed.

(** ** Permutations of lists made of elements and parts *)
Lemma p_nil {A} (a : list A) : Permutation a (a ++ []). Proof. rewrite app_nil_r. reflexivity. Qed.
Lemma p_tail {A} (a u u' v : list A) : Permutation u (a ++ u') -> Permutation (u ++ v) (a ++ u' ++ v).
Proof. intros ->. rewrite app_assoc. reflexivity. Qed.
Lemma p_head {A} (a u v v' : list A) : Permutation v (a ++ v') -> Permutation (u ++ v) (a ++ u ++ v').
Proof. intros ->. rewrite !app_assoc. apply Permutation_app_tail. apply Permutation_app_comm. Qed.
Lemma p_cons {A} y (a t t' : list A) : Permutation t (a ++ t') -> Permutation (y :: t) (a ++ y :: t').
Proof. intros ->. apply Permutation_middle. Qed.
Lemma p_mid {A} x (a b b' : list A) : Permutation b (x :: b') -> Permutation (a ++ b) (x :: a ++ b').
Proof. intros ->. symmetry. apply Permutation_middle. Qed.
Lemma p_sw {A} x y (t t' : list A) : Permutation t (x :: t') -> Permutation (y :: t) (x :: y :: t').
Proof. intros ->. apply perm_swap. Qed.
Lemma p_front {A} x (a a' b : list A) : Permutation a (x :: a') -> Permutation (a ++ b) (x :: a' ++ b).
Proof. intros ->. reflexivity. Qed.
Ltac pull x r :=
  lazymatch r with
  | x :: ?t => constr:(Permutation_refl (x :: t))
  | ?y :: ?t => let p := pull x t in constr:(p_sw x y _ _ p)
  | ?a ++ ?b => match constr:(Set) with
     | _ => let p := pull x a in constr:(p_front x _ _ b p)
     | _ => let p := pull x b in constr:(p_mid x a _ _ p) end
  end.
Ltac pulll a r :=
  lazymatch r with
  | a => constr:(p_nil a)
  | ?y :: ?t => let p := pulll a t in constr:(p_cons y a _ _ p)
  | ?u ++ ?v => match constr:(Set) with
     | _ => let p := pulll a u in constr:(p_tail a _ _ v p)
     | _ => let p := pulll a v in constr:(p_head a u _ _ p) end
  end.
Ltac psolve :=
  cbn [app]; rewrite <- ?app_assoc; cbn [app]; rewrite ?app_nil_r;
  lazymatch goal with
  | |- Permutation ?l ?l => apply Permutation_refl
  | |- Permutation (?x :: ?t) ?R => let p := pull x R in refine (perm_trans _ (Permutation_sym p)); apply perm_skip; psolve
  | |- Permutation (?a ++ ?b) ?R => let p := pulll a R in refine (perm_trans _ (Permutation_sym p)); apply Permutation_app_head; psolve
  | |- Permutation ?a ?R => let p := pulll a R in refine (perm_trans _ (Permutation_sym p)); cbn [app]; rewrite ?app_nil_r; apply Permutation_refl
  end.
(** Rearranging the pieces. *)
Ltac sp S := eapply sat_perm; [|exact S]; psolve.
(** Bring the piece at address [a] with contents [c] to the front of hypothesis [S]. *)
Ltac front S x := lazymatch type of S with sat ?m ?r => let p := pull x r in apply (sat_perm m _ _ p) in S end.
