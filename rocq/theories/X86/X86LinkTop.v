(** Proofs about the x86-64 code generator: the whole program. *)
Require Import ZArith List Bool Lia.
From Verif Require Import Rv.RvLib Rv.RvIsa X86.X86Isa X86.X86Emit X86.X86Spec X86.X86OpSpec X86.X86Cond X86.X86Enc X86.X86EncTop X86.X86Link X86.X86LinkSpec X86.X86LinkOps X86.X86LinkRed X86.X86LinkGen X86.X86LinkFit X86.X86LinkRun.
Import ListNotations.
Ltac Zify.zify_post_hook ::= idtac.
Open Scope Z_scope.

Section Top.
Variables (win : bool) (code eo : Z).
Notation jmps_at := (jmps_at win). Notation Est := (Est win). Notation lay := (lay win code eo). Notation alabs := (alabs code eo). Notation aconsts := (aconsts code).
Notation opgen := (opgen win code eo). Notation alab := (alab code eo).
Definition fits (ly : list (list Z * list xjump)) (szs : list Z) : Prop := Forall2 (fun r z => zlen (fst r) <= z) ly szs.

(** ** Sizes *)
Lemma zsum_cons : forall z l, zsum (z :: l) = z + zsum l. Proof. reflexivity. Qed.
Lemma est_nonneg : forall ops labs e szs, Est labs e ops szs -> 0 <= zsum szs.
Proof. induction ops as [|o ops IH]; intros labs e [|z szs] H; cbn [X86LinkRed.Est] in H; try contradiction; [cbn; lia|]. destruct H as (_ & Z0 & H). apply IH in H. rewrite zsum_cons. lia. Qed.
Lemma lab_bounds : forall ops labs e szs n, Est labs e ops szs -> (n < length (labs_at e ops szs))%nat -> e <= lsz (labs_at e ops szs) n <= e + zsum szs.
Proof.
  induction ops as [|o ops IH]; intros labs e [|z szs] n H N; cbn [X86LinkRed.Est] in H; try contradiction; [cbn in N; lia|]. destruct H as (Eo & Z0 & H).
  pose proof (est_nonneg _ _ _ _ H). rewrite zsum_cons. cbn [labs_at] in *. destruct (Nat.lt_ge_cases n (length (lab_of e o z))) as [Q|Q].
  - rewrite lsz_app1 by exact Q. destruct o; cbn [lab_of length] in *; try lia; assert (n = 0%nat) as -> by lia; unfold lsz; cbn [nth lsize]; lia.
  - rewrite lsz_app2 by exact Q. rewrite app_length in N. specialize (IH labs (e + z) szs (n - length (lab_of e o z))%nat H ltac:(lia)). lia.
Qed.
Definition linv (gld elabs : list xlabel) (e pos : Z) : Prop :=
  length elabs = length gld /\ forall n, (n < length gld)%nat -> 0 <= lsz gld n <= pos /\ pos - lsz gld n <= e - lsz elabs n.
Lemma linv_step : forall gld elabs e pos o z L, linv gld elabs e pos -> 0 <= pos -> (match o with OLab => z = 0 | _ => True end) -> zlen (fst (opgen L e pos o)) <= z ->
  linv (gld ++ alab pos o (fst (opgen L e pos o))) (elabs ++ lab_of e o z) (e + z) (pos + zlen (fst (opgen L e pos o))).
Proof.
  intros gld elabs e pos o z L [LL I] P OL Fz. set (ch := fst (opgen L e pos o)) in *. pose proof (zlen_nonneg ch). split.
  - rewrite !app_length, LL. destruct o; reflexivity.
  - intros n N. rewrite app_length in N. destruct (Nat.lt_ge_cases n (length gld)) as [Q|Q].
    + rewrite (lsz_app1 gld), (lsz_app1 elabs) by lia. specialize (I n Q). lia.
    + rewrite (lsz_app2 gld), (lsz_app2 elabs) by lia. rewrite LL. destruct o; cbn [X86LinkGen.alab lab_of length] in *; try lia; assert (n - length gld = 0)%nat as -> by lia; unfold lsz; cbn [nth lsize]; [|lia].
      assert (zlen ch = 0) by reflexivity. lia.
Qed.
Lemma tgt_lab : forall nl gld elabs labs e pos o ops z szs, opok nl o -> Est labs e (o :: ops) (z :: szs) -> labs = elabs ++ labs_at e (o :: ops) (z :: szs) -> nl = length labs ->
  linv gld elabs e pos -> e + zsum (z :: szs) <= 2 ^ 31 - 32 ->
  labfs (fun n => (n < nl)%nat /\ ((length gld <= n)%nat -> e + z <= lsz labs n <= 2 ^ 31 - 32)) o.
Proof.
  intros nl gld elabs labs e pos o ops z szs O Es LE NL [LL I] T.
  assert (G : forall n, labs_at e (o :: ops) (z :: szs) = labs_at (e + z) ops szs -> (n < nl)%nat -> (n < nl)%nat /\ ((length gld <= n)%nat -> e + z <= lsz labs n <= 2 ^ 31 - 32)).
  { intros n EQ Hn. split; [exact Hn|]. intros Q. rewrite LE, lsz_app2 by lia. rewrite LL, EQ. destruct Es as (Eo & Z0 & Es).
    pose proof (lab_bounds ops labs (e + z) szs (n - length gld)%nat Es) as B. rewrite zsum_cons in T. rewrite NL, LE, app_length, EQ in Hn. specialize (B ltac:(lia)). lia. }
  unfold labfs. destruct o as [bs| |m|k rw t|reg t|]; cbn [tgt]; auto; destruct t as [n|a]; auto; apply G; try reflexivity; [destruct O as [_ O]; exact O|destruct O as (_ & _ & _ & O); exact O].
Qed.
Lemma labfs_imp : forall (P Q : nat -> Prop) o, (forall n, P n -> Q n) -> labfs P o -> labfs Q o.
Proof. intros P Q o H. unfold labfs. destruct (tgt o) as [[n|a]|]; auto. Qed.
Lemma tgt_labf : forall nl gld elabs labs e pos o ops z szs, opok nl o -> Est labs e (o :: ops) (z :: szs) -> labs = elabs ++ labs_at e (o :: ops) (z :: szs) -> nl = length labs ->
  linv gld elabs e pos -> e + zsum (z :: szs) <= 2 ^ 31 - 32 -> labfs (labf (gld ++ labs_at e (o :: ops) (z :: szs)) labs e z pos) o.
Proof.
  intros nl gld elabs labs e pos o ops z szs O Es LE NL I T. pose proof (tgt_lab nl gld elabs labs e pos o ops z szs O Es LE NL I T) as H. destruct I as [LL I].
  eapply labfs_imp; [|exact H]. cbn beta. clear H. intros n [Hn H]. destruct (Nat.lt_ge_cases n (length gld)) as [Q|Q].
  - left. rewrite lsz_app1 by exact Q. rewrite LE, lsz_app1 by lia. exact (I n Q).
  - right. split; [|exact (H Q)]. rewrite lsz_app2 by exact Q. rewrite LE, lsz_app2 by lia. rewrite LL. reflexivity.
Qed.
Lemma lay_fits : forall nl ops szs e pos gld elabs labs, Forall (opok nl) ops -> Est labs e ops szs -> labs = elabs ++ labs_at e ops szs -> nl = length labs ->
  0 <= pos <= e -> e + zsum szs <= 2 ^ 31 - 32 -> linv gld elabs e pos -> fits (lay gld e pos ops szs) szs.
Proof.
  intros nl ops. induction ops as [|o ops IH]; intros szs e pos gld elabs labs F Es LE NL P T I; destruct szs as [|z szs]; try contradiction; [constructor|].
  apply Forall_cons_iff in F as [Fo F]. pose proof (tgt_labf nl gld elabs labs e pos o ops z szs Fo Es LE NL I T) as TL. destruct Es as (Eo & Z0 & Es). rewrite zsum_cons in T. pose proof (est_nonneg _ _ _ _ Es).
  cbn [X86LinkGen.lay]. set (L := gld ++ labs_at e (o :: ops) (z :: szs)) in *.
  assert (Fz : zlen (fst (opgen L e pos o)) <= z) by (apply (op_fit win code eo nl L labs e z pos o); try assumption; lia).
  constructor; [exact Fz|]. apply (IH szs (e + z) _ _ (elabs ++ lab_of e o z) labs F Es); try assumption.
  - rewrite LE. cbn [labs_at]. rewrite <- app_assoc. reflexivity.
  - pose proof (zlen_nonneg (fst (opgen L e pos o))). lia.
  - lia.
  - apply linv_step; try assumption; [lia|]. destruct o; auto.
Qed.
Lemma fits_sum : forall ly szs, fits ly szs -> zlen (bytes ly) <= zsum szs.
Proof. intros ly szs H. unfold bytes. induction H as [|r z ly szs A B C]; cbn [map concat]; [cbn; lia|]. rewrite zlen_app, zsum_cons. lia. Qed.
Lemma lay_len : forall ops szs gld e pos, length ops = length szs -> length (lay gld e pos ops szs) = length ops.
Proof. induction ops as [|o ops IH]; intros [|z szs] gld e pos H; try discriminate; [reflexivity|]. cbn [X86LinkGen.lay length]. rewrite IH by (cbn in H; lia). reflexivity. Qed.
Lemma alabs_len : forall ops szs ly e pos, length ops = length szs -> length ly = length ops -> length (alabs pos ops ly) = length (labs_at e ops szs).
Proof.
  induction ops as [|o ops IH]; intros [|z szs] [|r ly] e pos H1 H2; try discriminate; [reflexivity|]. cbn [X86LinkGen.alabs labs_at]. rewrite !app_length. f_equal; [destruct o; reflexivity|].
  apply IH; cbn in *; lia.
Qed.
(** Labels do not get further away. *)
Definition okl (o : op) (r : list Z * list xjump) : Prop := match o with OLab => fst r = [] | _ => True end.
Lemma alabs_bounds : forall ops labs e szs pos ly n, Est labs e ops szs -> fits ly szs -> Forall2 okl ops ly -> (n < length (labs_at e ops szs))%nat ->
  pos <= lsz (alabs pos ops ly) n <= pos + zlen (bytes ly) /\ lsz (alabs pos ops ly) n - pos <= lsz (labs_at e ops szs) n - e.
Proof.
  induction ops as [|o ops IH]; intros labs e szs pos ly n Es Fi Ok N; destruct szs as [|z szs]; cbn [X86LinkRed.Est] in Es; try contradiction; [cbn in N; lia|].
  inversion Fi as [|r z' ly' szs' Fr Fl]; subst. inversion Ok as [|o' r' ops' ly0 O1 O2]; subst. destruct Es as (Eo & Z0 & Es).
  cbn [X86LinkGen.alabs labs_at] in *. unfold bytes in *. cbn [map concat]. rewrite zlen_app. pose proof (zlen_nonneg (fst r)). pose proof (zlen_nonneg (concat (map fst ly'))).
  assert (LL : length (alab pos o (fst r)) = length (lab_of e o z)) by (destruct o; reflexivity).
  destruct (Nat.lt_ge_cases n (length (lab_of e o z))) as [Q|Q].
  - rewrite !lsz_app1 by lia. destruct o; cbn [lab_of X86LinkGen.alab length] in *; try lia; assert (n = 0%nat) as -> by lia; unfold lsz; cbn [nth lsize]; lia.
  - rewrite !lsz_app2 by lia. rewrite LL. rewrite app_length in N. specialize (IH labs (e + z) szs (pos + zlen (fst r)) ly' (n - length (lab_of e o z))%nat Es Fl O2 ltac:(lia)). lia.
Qed.
Lemma lay_okl : forall ops szs gld e pos, length ops = length szs -> Forall2 okl ops (lay gld e pos ops szs).
Proof. induction ops as [|o ops IH]; intros [|z szs] gld e pos H; try discriminate; [constructor|]. cbn [X86LinkGen.lay]. constructor; [destruct o; exact I || reflexivity|]. apply IH. cbn in H. lia. Qed.

(** ** Final code *)
Definition fin (AL : list xlabel) (pos : Z) (r : list Z * list xjump) : list Z := match snd r with [j] => patch_jump (code + pos) eo AL (fst r) j | _ => fst r end.
Fixpoint fbytes (AL : list xlabel) (pos : Z) (ly : list (list Z * list xjump)) : list Z :=
  match ly with [] => [] | r :: ly => fin AL pos r ++ fbytes AL (pos + zlen (fst r)) ly end.
Definition op_ok (AL : list xlabel) (pos : Z) (o : op) (r : list Z * list xjump) : Prop :=
  match o with
  | OIns bs => r = (bs, [])
  | OLab | OConst => r = ([], [])
  | OAl m => r = (align_pad code m pos, [])
  | OJmp k rewr t => exists j, snd r = [j] /\ inside code pos (fst r) j /\ (~ bad_jump code eo k rewr t pos -> jfinal win code eo k (tadr AL t) pos (fin AL pos r))
    /\ (rewr = true -> fin AL pos r = farb win k false (tadr AL t) /\ jaddr j = code + pos + zlen (jinv k false) + 2)
  | OMov reg t => exists j, snd r = [j] /\ inside code pos (fst r) j /\ (~ bad_mov code eo t pos -> mfinal win code eo reg (tadr AL t) pos (fin AL pos r))
  end.
Fixpoint fin_ok (AL : list xlabel) (pos : Z) (ops : list op) (ly : list (list Z * list xjump)) : Prop :=
  match ops, ly with [], [] => True | o :: ops, r :: ly => op_ok AL pos o r /\ fin_ok AL (pos + zlen (fst r)) ops ly | _, _ => False end.
Definition lok (AL : list xlabel) : Prop := forall n, (n < length AL)%nat -> laddr (nth n AL (mkXL 0 None 0)) = code + lsz AL n + eo.
Lemma lay_final : forall nl AL ops szs e pos gld elabs labs, Forall (opok nl) ops -> Est labs e ops szs -> labs = elabs ++ labs_at e ops szs -> nl = length labs ->
  0 <= pos <= e -> e + zsum szs <= 2 ^ 31 - 32 -> linv gld elabs e pos -> AL = gld ++ alabs pos ops (lay gld e pos ops szs) -> lok AL -> fin_ok AL pos ops (lay gld e pos ops szs).
Proof.
  intros nl AL ops. induction ops as [|o ops IH]; intros szs e pos gld elabs labs F Es LE NL P T I AE AO; destruct szs as [|z szs]; try contradiction; [exact Logic.I|].
  assert (FI : fits (lay gld e pos (o :: ops) (z :: szs)) (z :: szs)) by (eapply (lay_fits nl); eassumption).
  assert (OKL : Forall2 okl (o :: ops) (lay gld e pos (o :: ops) (z :: szs))) by (apply lay_okl, (est_len win _ _ _ _ Es)).
  pose proof (est_len win _ _ _ _ Es) as LEN.
  pose proof (fun n => alabs_bounds (o :: ops) labs e (z :: szs) pos (lay gld e pos (o :: ops) (z :: szs)) n Es FI OKL) as AB.
  assert (ALEN : length (alabs pos (o :: ops) (lay gld e pos (o :: ops) (z :: szs))) = length (labs_at e (o :: ops) (z :: szs))) by (apply alabs_len; [exact LEN|apply lay_len, LEN]).
  apply Forall_cons_iff in F as [Fo F]. pose proof (tgt_labf nl gld elabs labs e pos o ops z szs Fo Es LE NL I T) as TL.
  assert (TL2 : labfs (labf2 code eo (gld ++ labs_at e (o :: ops) (z :: szs)) AL labs e z pos) o).
  { pose proof (tgt_lab nl gld elabs labs e pos o ops z szs Fo Es LE NL I T) as H. destruct I as [LL I]. eapply labfs_imp; [|exact H]. cbn beta. clear H. intros n [Hn H].
    rewrite NL, LE, app_length in Hn. split; [apply AO; rewrite AE, app_length, ALEN; lia|]. rewrite AE. destruct (Nat.lt_ge_cases n (length gld)) as [Q|Q].
    - left. rewrite !(lsz_app1 gld) by exact Q. split; [reflexivity|]. specialize (I n Q). rewrite LE, lsz_app1 by lia. exact I.
    - right. specialize (AB (n - length gld)%nat ltac:(lia)). rewrite !(lsz_app2 gld) by exact Q. specialize (H Q).
      assert (LN : lsz labs n = lsz (labs_at e (o :: ops) (z :: szs)) (n - length gld)) by (rewrite LE, lsz_app2 by lia; rewrite LL; reflexivity).
      rewrite LN in *. split; [reflexivity|]. lia. }
  destruct Es as (Eo & Z0 & Es). rewrite zsum_cons in T. pose proof (est_nonneg _ _ _ _ Es).
  cbn [X86LinkGen.lay] in *. set (L := gld ++ labs_at e (o :: ops) (z :: szs)) in *. inversion FI as [|r0 z0 ly0 szs0 Fz FI']; subst r0 z0 ly0 szs0.
  cbn [fin_ok]. split.
  - destruct o as [bs| |m|k rw t|reg t|]; cbn [op_ok]; try reflexivity.
    + pose proof (jump_final win code eo nl L AL labs e z pos k rw t Fo P ltac:(lia) Eo TL2) as J. cbv zeta in J. unfold fin. cbn [X86LinkGen.opgen].
      destruct (gen_jump win code eo L (mkXJ e k rw false false t PNo) pos) as [b j]. cbn [fst snd] in *. exists j. split; [reflexivity|]. exact J.
    + pose proof (mov_final win code eo nl L AL labs e z pos reg t Fo P ltac:(lia) TL2 ltac:(lia)) as J. cbv zeta in J. unfold fin. cbn [X86LinkGen.opgen].
      destruct (mov_gen win code eo L reg t pos) as [b p]. cbn [fst snd] in *. eexists. split; [reflexivity|]. exact J.
  - apply (IH szs (e + z) _ _ (elabs ++ lab_of e o z) labs F Es); try assumption.
    + rewrite LE. cbn [labs_at]. rewrite <- app_assoc. reflexivity.
    + pose proof (zlen_nonneg (fst (opgen L e pos o))). lia.
    + lia.
    + apply linv_step; try assumption; [lia|]. destruct o; auto.
    + rewrite AE. cbn [X86LinkGen.alabs]. rewrite <- app_assoc. reflexivity.
Qed.
End Top.
