(** Proofs about the x86-64 code generator: code changed after generation. *)
Require Import ZArith List Bool Lia.
From Verif Require Import Rv.RvLib Rv.RvIsa X86.X86Isa X86.X86Emit X86.X86Spec X86.X86OpSpec X86.X86Cond X86.X86Link X86.X86LinkSpec X86.X86LinkOps X86.X86LinkRed X86.X86LinkGen X86.X86LinkFit X86.X86LinkRun X86.X86LinkTop
  X86.X86LinkAll.
Import ListNotations.
Ltac Zify.zify_post_hook ::= idtac.
Open Scope Z_scope.

Definition vals := nat -> option (list Z).
(** New bytes at the end of [pre]. *)
Definition repl (v : option (list Z)) (pre : list Z) : list Z := match v with Some bs => firstn (length pre - length bs) pre ++ bs | None => pre end.
Definition kconst (l : list call) : bool := match l with KConst :: _ => true | _ => false end.
Fixpoint with_consts (n : nat) (v : vals) (l : list call) : list call :=
  match l with
  | [] => []
  | KIns pre :: l => KIns (if kconst l then repl (v n) pre else pre) :: with_consts n v l
  | KConst :: l => KConst :: with_consts (S n) v l
  | k :: l => k :: with_consts n v l
  end.
Definition oconst (l : list op) : bool := match l with OConst :: _ => true | _ => false end.
Fixpoint cops (n : nat) (v : vals) (l : list op) : list op :=
  match l with
  | [] => []
  | OIns pre :: l => OIns (if oconst l then repl (v n) pre else pre) :: cops n v l
  | OConst :: l => OConst :: cops (S n) v l
  | o :: l => o :: cops n v l
  end.
Fixpoint cly (n : nat) (v : vals) (l : list op) (ly : list (list Z * list xjump)) : list (list Z * list xjump) :=
  match l, ly with
  | OIns pre :: l, r :: ly => (if oconst l then repl (v n) pre else pre, snd r) :: cly n v l ly
  | OConst :: l, r :: ly => r :: cly (S n) v l ly
  | _ :: l, r :: ly => r :: cly n v l ly
  | _, _ => []
  end.
(** The values fit. *)
Fixpoint vok (n : nat) (v : vals) (l : list op) : Prop :=
  match l with
  | [] => True
  | OIns pre :: l => (oconst l = true -> forall bs, v n = Some bs -> (length bs <= length pre)%nat) /\ vok n v l
  | OConst :: l => vok (S n) v l
  | _ :: l => vok n v l
  end.
(** The instruction before the constant number [n]. *)
Fixpoint pre_of (l : list op) (n : nat) : option (list Z) :=
  match l with
  | [] => None
  | OIns pre :: l => if oconst l then match n with O => Some pre | S _ => pre_of l n end else pre_of l n
  | OConst :: l => match n with O => None | S n => pre_of l n end
  | _ :: l => pre_of l n
  end.
Definition vupd (v : vals) (n : nat) (bs : list Z) : vals := fun j => if Nat.eqb n j then Some bs else v j.

Lemma repl_len : forall (v : option (list Z)) (pre : list Z), (forall bs, v = Some bs -> (length bs <= length pre)%nat) -> length (repl v pre) = length pre.
Proof. intros [bs|] pre H; [|reflexivity]. cbn [repl]. rewrite app_length, firstn_length. specialize (H bs eq_refl). lia. Qed.
Lemma repl_again : forall (v : option (list Z)) (pre bs : list Z), (forall b0, v = Some b0 -> length b0 = length bs) -> (length bs <= length pre)%nat ->
  repl v pre = firstn (length pre - length bs) pre ++ skipn (length pre - length bs) (repl v pre) /\ length (skipn (length pre - length bs) (repl v pre)) = length bs.
Proof.
  intros v pre bs H L. assert (RL : length (repl v pre) = length pre) by (apply repl_len; intros b0 E; rewrite (H b0 E); exact L). split.
  - rewrite <- (firstn_skipn (length pre - length bs) (repl v pre)) at 1. f_equal. destruct v as [b0|]; [|reflexivity]. cbn [repl]. rewrite (H b0 eq_refl).
    rewrite firstn_app, firstn_length. replace (length pre - length bs - Nat.min (length pre - length bs) (length pre))%nat with 0%nat by lia. cbn [firstn]. rewrite app_nil_r, firstn_firstn. f_equal. lia.
  - rewrite skipn_length. lia.
Qed.
Lemma cops_ext : forall l n v v', (forall j, (n <= j)%nat -> v j = v' j) -> cops n v l = cops n v' l.
Proof.
  induction l as [|o l IH]; intros n v v' H; [reflexivity|]. destruct o; cbn [cops]; try (rewrite (IH n v v' H); reflexivity).
  - rewrite (IH n v v' H), (H n (le_n n)). reflexivity.
  - rewrite (IH (S n) v v'); [reflexivity|]. intros j J. apply H. lia.
Qed.
Lemma cly_ext : forall l ly n v v', (forall j, (n <= j)%nat -> v j = v' j) -> cly n v l ly = cly n v' l ly.
Proof.
  induction l as [|o l IH]; intros ly n v v' H; [reflexivity|]. destruct ly as [|r ly]; [destruct o; reflexivity|]. destruct o; cbn [cly]; try (rewrite (IH ly n v v' H); reflexivity).
  - rewrite (IH ly n v v' H), (H n (le_n n)). reflexivity.
  - rewrite (IH ly (S n) v v'); [reflexivity|]. intros j J. apply H. lia.
Qed.
Lemma cops_none : forall l n, cops n (fun _ => None) l = l.
Proof. induction l as [|o l IH]; intros n; [reflexivity|]. destruct o; cbn [cops repl]; rewrite IH; try reflexivity. destruct (oconst l); reflexivity. Qed.
Lemma vok_none : forall l n, vok n (fun _ => None) l.
Proof. induction l as [|o l IH]; intros n; [exact Logic.I|]. destruct o; cbn [vok]; try apply IH. split; [discriminate|apply IH]. Qed.
Lemma vok_upd : forall l k n v bs pre, vok k v l -> (k <= n)%nat -> pre_of l (n - k) = Some pre -> (length bs <= length pre)%nat -> vok k (vupd v n bs) l.
Proof.
  induction l as [|o l IH]; intros k n v bs pre V K P L; [discriminate|]. destruct o as [p0| |m|kd rw t|reg t|]; cbn [vok pre_of] in *; try (eapply IH; eauto; fail).
  - destruct V as [V1 V2]. destruct (oconst l) eqn:OC.
    + destruct (Nat.eq_dec n k) as [E|E].
      * subst n. rewrite Nat.sub_diag in P. injection P as <-. split.
        { intros _ b0. unfold vupd. rewrite Nat.eqb_refl. intros X. injection X as <-. exact L. }
        destruct l as [|[]]; try discriminate. cbn [vok] in *. assert (X : forall l j, (k < j)%nat -> vok j v l -> vok j (vupd v k bs) l); [|apply X; [lia|exact V2]].
        clear. induction l as [|o l IH]; intros j J V; [exact Logic.I|]. destruct o; cbn [vok] in *; try (apply IH; [lia|exact V]). destruct V as [V1 V2]. split; [|apply IH; [lia|exact V2]].
        intros OC b0. unfold vupd. replace (Nat.eqb k j) with false by (symmetry; apply Nat.eqb_neq; lia). apply V1, OC.
      * destruct (n - k)%nat as [|q] eqn:Q; [lia|]. split; [|eapply IH; eauto; rewrite Q; exact P]. intros _ b0. unfold vupd. replace (Nat.eqb n k) with false by (symmetry; apply Nat.eqb_neq; lia). apply V1. reflexivity.
    + split; [discriminate|]. eapply IH; eauto.
  - destruct (n - k)%nat as [|q] eqn:Q; [discriminate|]. eapply (IH (S k) n v bs pre V); [lia| |exact L]. replace (n - S k)%nat with q by lia. exact P.
Qed.

Section Hist.
Variables (win : bool) (code eo : Z).
Notation fin := (fin code eo). Notation fbytes := (fbytes code eo). Notation op_ok := (op_ok win code eo). Notation fin_ok := (fin_ok win code eo).
Notation alabs := (alabs code eo). Notation aconsts := (aconsts code). Notation segs := (segs win code eo). Notation seg := (seg win code eo).

Lemma repl_z : forall (oc : bool) (v : option (list Z)) (pre : list Z), (oc = true -> forall bs, v = Some bs -> (length bs <= length pre)%nat) -> zlen (if oc then repl v pre else pre) = zlen pre.
Proof. intros [] v pre H; [|reflexivity]. unfold zlen. rewrite repl_len; [reflexivity|]. exact (H eq_refl). Qed.
Lemma cfin : forall AL v l ly n pos, vok n v l -> fin_ok AL pos l ly -> fin_ok AL pos (cops n v l) (cly n v l ly).
Proof.
  intros AL v. induction l as [|o l IH]; intros ly n pos V F; destruct ly as [|r ly]; try contradiction; [exact Logic.I|]. cbn [X86LinkTop.fin_ok] in F. destruct F as [O F].
  destruct o as [pre| |m|k rw t|reg t|]; cbn [cops cly vok X86LinkTop.fin_ok] in *; try (split; [exact O|apply IH; assumption]).
  destruct V as [V1 V2]. cbn [X86LinkTop.op_ok] in O. subst r. cbn [fst snd] in *. split; [reflexivity|]. rewrite (repl_z _ _ _ V1). apply IH; assumption.
Qed.
Lemma cjr : forall v l ly n, Forall2 jr_ok l ly -> Forall2 jr_ok (cops n v l) (cly n v l ly).
Proof.
  intros v. induction l as [|o l IH]; intros ly n H; inversion H as [|o' r l' ly' H1 H2]; subst; [constructor|]. destruct o as [pre| |m|k rw t|reg t|]; cbn [cops cly]; constructor; auto.
Qed.
Lemma clen : forall v l ly n, length l = length ly -> length (cops n v l) = length (cly n v l ly).
Proof. intros v. induction l as [|o l IH]; intros [|r ly] n H; try discriminate; [reflexivity|]. destruct o; cbn [cops cly length]; f_equal; apply IH; cbn in H; lia. Qed.
Lemma cjumps_eq : forall v l ly n, length l = length ly -> jumps (cly n v l ly) = jumps ly.
Proof. intros v. unfold jumps. induction l as [|o l IH]; intros [|r ly] n H; try discriminate; [reflexivity|]. destruct o; cbn [cly map concat snd]; f_equal; apply IH; cbn in H; lia. Qed.
Lemma cconsts_eq : forall AL v l ly n pos, vok n v l -> fin_ok AL pos l ly -> aconsts pos (cops n v l) (cly n v l ly) = aconsts pos l ly.
Proof.
  intros AL v. induction l as [|o l IH]; intros ly n pos V F; destruct ly as [|r ly]; try contradiction; [reflexivity|]. cbn [X86LinkTop.fin_ok] in F. destruct F as [O F].
  destruct o as [pre| |m|k rw t|reg t|]; cbn [cops cly vok X86LinkGen.aconsts aconst] in *; try (f_equal; apply IH; assumption).
  destruct V as [V1 V2]. cbn [X86LinkTop.op_ok] in O. subst r. cbn [fst snd app] in *. rewrite (repl_z _ _ _ V1). apply IH; assumption.
Qed.
Lemma calabs_eq : forall AL v l ly n pos, vok n v l -> fin_ok AL pos l ly -> alabs pos (cops n v l) (cly n v l ly) = alabs pos l ly.
Proof.
  intros AL v. induction l as [|o l IH]; intros ly n pos V F; destruct ly as [|r ly]; try contradiction; [reflexivity|]. cbn [X86LinkTop.fin_ok] in F. destruct F as [O F].
  destruct o as [pre| |m|k rw t|reg t|]; cbn [cops cly vok X86LinkGen.alabs alab] in *; try (f_equal; apply IH; assumption).
  destruct V as [V1 V2]. cbn [X86LinkTop.op_ok] in O. subst r. cbn [fst snd app] in *. rewrite (repl_z _ _ _ V1). apply IH; assumption.
Qed.
Lemma cbytes_len : forall AL v l ly n pos, vok n v l -> fin_ok AL pos l ly -> zlen (bytes (cly n v l ly)) = zlen (bytes ly).
Proof.
  intros AL v. unfold bytes. induction l as [|o l IH]; intros ly n pos V F; destruct ly as [|r ly]; try contradiction; [reflexivity|]. cbn [X86LinkTop.fin_ok] in F. destruct F as [O F].
  destruct o as [pre| |m|k rw t|reg t|]; cbn [cly vok map concat] in *; rewrite !zlen_app; try (rewrite (IH _ _ _ V F); reflexivity).
  destruct V as [V1 V2]. cbn [X86LinkTop.op_ok] in O. subst r. cbn [fst snd] in *. rewrite (repl_z _ _ _ V1). f_equal. eapply IH; eassumption.
Qed.
(** Writing a constant. *)
Lemma const_segs : forall AL cur bs l ly k n i pos v B pre, vok k v l -> fin_ok AL pos l ly -> zlen B = pos -> (k <= n)%nat -> pre_of l (n - k) = Some pre -> (length bs <= length pre)%nat ->
  (forall b0, v n = Some b0 -> length b0 = length bs) ->
  putb (B ++ segs AL cur i pos (cops k v l) (cly k v l ly)) (nth (n - k) (aconsts pos l ly) 0 - code - zlen bs) bs = B ++ segs AL cur i pos (cops k (vupd v n bs) l) (cly k (vupd v n bs) l ly).
Proof.
  intros AL cur bs. induction l as [|o l IH]; intros ly k n i pos v B pre V F LB K P L SZ; [discriminate|]. destruct ly as [|r ly]; [contradiction|]. cbn [X86LinkTop.fin_ok] in F. destruct F as [O F].
  assert (P0 : 0 <= pos) by (rewrite <- LB; apply zlen_nonneg).
  assert (SKIP : forall o', X86LinkTop.op_ok win code eo AL pos o' r -> vok k v l -> pre_of l (n - k) = Some pre ->
    putb (B ++ seg AL cur i pos o' r ++ segs AL cur (i + length (snd r)) (pos + zlen (fst r)) (cops k v l) (cly k v l ly)) (nth (n - k) (aconsts (pos + zlen (fst r)) l ly) 0 - code - zlen bs) bs =
    B ++ seg AL cur i pos o' r ++ segs AL cur (i + length (snd r)) (pos + zlen (fst r)) (cops k (vupd v n bs) l) (cly k (vupd v n bs) l ly)).
  { intros o' O' V' P'. rewrite !app_assoc. apply (IH ly k n (i + length (snd r))%nat (pos + zlen (fst r)) v (B ++ seg AL cur i pos o' r) pre); try assumption. rewrite zlen_app, (seg_len win code eo AL) by assumption. lia. }
  destruct o as [p0| |m|kd rw t|reg t|]; cbn [cops cly vok pre_of X86LinkGen.aconsts aconst X86LinkAll.segs app] in *; try (apply SKIP; assumption).
  - destruct V as [V1 V2]. pose proof O as O'. cbn [X86LinkTop.op_ok] in O. subst r. cbn [fst snd length] in *. rewrite Nat.add_0_r in *.
    assert (SEG : forall q, seg AL cur i pos (OIns q) (q, []) = q) by reflexivity.
    destruct (oconst l) eqn:OC.
    + destruct (Nat.eq_dec n k) as [E|E].
      * subst n. rewrite Nat.sub_diag in *. injection P as ->. destruct l as [|[]]; try discriminate. cbn [cops cly vok] in *. destruct ly as [|r ly]; [contradiction|]. cbn [X86LinkTop.fin_ok] in F. destruct F as [O2 F]. cbn [X86LinkTop.op_ok] in O2. subst r.
        cbn [X86LinkGen.aconsts aconst app nth X86LinkAll.segs]. rewrite !SEG. replace (vupd v k bs k) with (Some bs) by (unfold vupd; rewrite Nat.eqb_refl; reflexivity).
        assert (R1 : zlen (repl (v k) pre) = zlen pre) by (apply (repl_z true); intros _ b0 X; rewrite (SZ b0 X); exact L).
        assert (R2 : zlen (repl (Some bs) pre) = zlen pre) by (apply (repl_z true); intros _ b0 X; injection X as <-; exact L). rewrite R1, R2.
        rewrite (cops_ext l (Datatypes.S k) (vupd v k bs) v), (cly_ext l ly (Datatypes.S k) (vupd v k bs) v) by (intros j J; unfold vupd; replace (Nat.eqb k j) with false by (symmetry; apply Nat.eqb_neq; lia); reflexivity).
        change (seg AL cur (i + 0) (pos + zlen pre) OConst ([], [])) with (@nil Z). cbn [app length]. set (T := segs AL cur _ _ _ _). destruct (repl_again (v k) pre bs SZ L) as [R3 R4]. rewrite R3. cbn [repl].
        replace (code + (pos + zlen pre) - code - zlen bs) with (zlen (B ++ firstn (length pre - length bs) pre)) by (rewrite zlen_app, LB; unfold zlen; rewrite firstn_length; lia).
        pose proof (putb_mid (B ++ firstn (length pre - length bs) pre) _ T bs R4) as PM. rewrite <- !app_assoc in PM |- *. exact PM.
      * destruct (n - k)%nat as [|q] eqn:Q; [lia|]. rewrite <- Q in *. assert (VU : vupd v n bs k = v k) by (unfold vupd; replace (Nat.eqb n k) with false by (symmetry; apply Nat.eqb_neq; lia); reflexivity). rewrite VU.
        rewrite !SEG. assert (R1 : zlen (repl (v k) p0) = zlen p0) by (apply (repl_z true); intros _; exact (V1 eq_refl)). rewrite R1.
        rewrite !app_assoc. apply (IH ly k n i (pos + zlen p0) v (B ++ repl (v k) p0) pre); try assumption. rewrite zlen_app, R1. lia.
    + apply (SKIP (OIns p0)); assumption.
  - destruct (n - k)%nat as [|q] eqn:Q; [discriminate|]. cbn [X86LinkTop.op_ok] in O. subst r. cbn [fst snd length nth]. change (seg AL cur i pos OConst ([], [])) with (@nil Z). change (zlen (@nil Z)) with 0 in *. rewrite Z.add_0_r in *. cbn [app].
    replace q with (n - S k)%nat in * by lia. apply (IH ly (S k) n _ pos v B pre); try assumption. lia.
Qed.

(** ** Calls *)
Lemma kop_st : forall a b k, st a = st b -> kop a k = kop b k.
Proof. intros a b k H. unfold kop, ends_label. rewrite H. reflexivity. Qed.
Lemma st_kop : forall a b x y, st a = st b -> fold_left nxt x POther = fold_left nxt y POther -> (forall p, fold_left nxt x p = fold_left nxt y p) -> st (a ++ x) = st (b ++ y).
Proof. intros a b x y H _ E. unfold st in *. rewrite !fold_left_app, H. apply E. Qed.
Lemma oconst_restf : forall calls done, kconst calls = true -> oconst (restf done calls) = true.
Proof. intros [|[]] done H; try discriminate. reflexivity. Qed.
Lemma oconst_restf' : forall calls done, st done = POther -> kconst calls = false -> oconst (restf done calls) = false.
Proof.
  intros [|[]] done S H; try discriminate; cbn [restf kop app]; unfold ends_label; rewrite ?S; try reflexivity. destruct (al <=? 0); reflexivity.
Qed.
Lemma restf_consts : forall v calls done done' n, st done = st done' -> restf done' (with_consts n v calls) = cops n v (restf done calls).
Proof.
  intros v. induction calls as [|k calls IH]; intros done done' n S; [reflexivity|].
  assert (G : forall x y, (forall p, fold_left nxt x p = fold_left nxt y p) -> st (done ++ x) = st (done' ++ y)) by (intros x y E; unfold st in *; rewrite !fold_left_app, S; apply E).
  assert (LAB : (if ends_label done' then [] else [OLab]) = (if ends_label done then [] else [OLab])) by (unfold ends_label; rewrite S; reflexivity).
  destruct k as [bs| |al|kd rw t|reg t|]; cbn [with_consts restf kop app].
  - cbn [cops]. set (q := if kconst calls then _ else _). rewrite <- (IH (done ++ [OIns bs]) (done' ++ [OIns q]) n (G [OIns bs] [OIns q] (fun p => eq_refl))). f_equal. f_equal. subst q. destruct (kconst calls) eqn:KC.
    + rewrite oconst_restf by exact KC. reflexivity.
    + rewrite oconst_restf' by (try exact KC; rewrite st_app; reflexivity). reflexivity.
  - rewrite LAB. destruct (ends_label done); cbn [app cops]; [|f_equal]; apply IH, G; reflexivity.
  - rewrite LAB. destruct (al <=? 0); [destruct (ends_label done)|]; cbn [app cops]; [|f_equal|f_equal]; apply IH, G; reflexivity.
  - cbn [cops]. f_equal. apply IH, G. reflexivity.
  - cbn [cops]. f_equal. apply IH, G. reflexivity.
  - cbn [cops]. f_equal. apply IH, G. reflexivity.
Qed.
Lemma calls_ok_consts : forall nl v calls done n, Forall (call_ok nl) calls -> vok n v (restf done calls) -> Forall (call_ok nl) (with_consts n v calls).
Proof.
  intros nl v. induction calls as [|k calls IH]; intros done n F V; [constructor|]. apply Forall_cons_iff in F as [Fk F]. cbn [restf] in V.
  destruct k as [bs| |al|kd rw t|reg t|]; cbn [with_consts kop app] in *; (constructor; [|]); try exact Fk; try (eapply IH; [exact F|exact V]).
  - cbn [vok call_ok] in *. destruct V as [V1 _]. destruct (kconst calls) eqn:KC; [|exact Fk]. intros X. assert (length (repl (v n) bs) = length bs) by (apply repl_len, V1, oconst_restf, KC). rewrite X in H. destruct bs; [apply Fk; reflexivity|discriminate].
  - destruct V as [_ V]. eapply IH; [exact F|exact V].
  - destruct (ends_label done); cbn [app vok] in V; eapply IH; try exact F; exact V.
  - destruct (al <=? 0); [destruct (ends_label done)|]; cbn [app vok] in V; eapply IH; try exact F; exact V.
Qed.

(** ** Histories of both kinds of changes *)
Inductive wev := WJump (n : nat) (T : Z) | WConst (n : nat) (bs : list Z).
Definition wset (g : gen) (b : list Z) (e : wev) : list Z :=
  match e with WJump n T => set_jump code g b (n, T) | WConst n bs => putb b (nth n (rconsts g) 0 - code - zlen bs) bs end.
(** [sz]: the size of the constants. *)
Definition wok (sz : nat -> nat) (calls : list call) (g : gen) (e : wev) : Prop :=
  match e with
  | WJump n T => (n < length (rjumps g))%nat /\ jrewr (nth n (rjumps g) nojump) = true /\ isw T
  | WConst n bs => exists pre, pre_of (restf [] calls) n = Some pre /\ length bs = sz n /\ (sz n <= length pre)%nat
  end.
Definition wlast_j (h : list wev) (n : nat) : option Z := fold_left (fun r e => match e with WJump m T => if Nat.eqb m n then Some T else r | _ => r end) h None.
Definition wlast_c (h : list wev) (n : nat) : option (list Z) := fold_left (fun r e => match e with WConst m bs => if Nat.eqb m n then Some bs else r | _ => r end) h None.
(** The number of a jump. *)
Fixpoint njump (l : list call) : nat := match l with [] => O | KJump _ _ _ :: l | KMov _ _ :: l => S (njump l) | _ :: l => njump l end.
Lemma jump_number : forall x kd rw t y done ly, Forall2 jr_ok (restf done (x ++ KJump kd rw t :: y)) ly -> (njump x < length (jumps ly))%nat /\ jrewr (nth (njump x) (jumps ly) nojump) = rw.
Proof.
  unfold jumps. induction x as [|k x IH]; intros kd rw t y done ly H.
  - cbn [app restf kop] in H. inversion H as [|o r l' ly' J1 J2]; subst. cbn [jr_ok] in J1. destruct J1 as (j & E & J). cbn [map concat njump]. rewrite E. cbn [app length nth]. split; [lia|exact J].
  - cbn [app restf] in H.
    assert (NJ : forall o l, Forall2 jr_ok (o :: l) ly -> match o with OJmp _ _ _ | OMov _ _ => True | _ => False end -> exists j ly', concat (map snd ly) = j :: concat (map snd ly') /\ Forall2 jr_ok l ly').
    { intros o l F Q. inversion F as [|o' r l' ly' F1 F2]; subst. destruct o; cbn in Q; try contradiction; cbn [jr_ok] in F1; destruct F1 as (j & E & _); exists j, ly'; cbn [map concat]; rewrite E; auto. }
    assert (NN : forall o l, Forall2 jr_ok (o :: l) ly -> match o with OJmp _ _ _ | OMov _ _ => False | _ => True end -> exists ly', concat (map snd ly) = concat (map snd ly') /\ Forall2 jr_ok l ly').
    { intros o l F Q. inversion F as [|o' r l' ly' F1 F2]; subst. exists ly'. destruct o; cbn in Q; try contradiction; cbn [jr_ok] in F1; cbn [map concat]; rewrite F1; auto. }
    destruct k as [bs| |al|kd' rw' t'|reg t'|]; cbn [kop njump] in *.
    + destruct (NN _ _ H Logic.I) as (ly' & -> & F). eapply IH, F.
    + destruct (ends_label done); [eapply IH, H|]. destruct (NN _ _ H Logic.I) as (ly' & -> & F). eapply IH, F.
    + destruct (al <=? 0); [destruct (ends_label done); [eapply IH, H|]|]; destruct (NN _ _ H Logic.I) as (ly' & -> & F); eapply IH, F.
    + destruct (NJ _ _ H Logic.I) as (j & ly' & -> & F). destruct (IH _ _ _ _ _ _ F) as [A B]. cbn [length nth]. split; [lia|exact B].
    + destruct (NJ _ _ H Logic.I) as (j & ly' & -> & F). destruct (IH _ _ _ _ _ _ F) as [A B]. cbn [length nth]. split; [lia|exact B].
    + destruct (NN _ _ H Logic.I) as (ly' & -> & F). eapply IH, F.
Qed.
Theorem link_hist : forall calls sz, prog_ok win code eo calls -> mov_label false calls = false ->
  exists g, generate win code eo (emits win calls) = Some g /\ (forall n, (n < length (clabels (emits win calls)))%nat -> isw (laddr (nth n (rlabels g) (mkXL 0 None 0)))) /\
    (forall x kd rw t y, calls = x ++ KJump kd rw t :: y -> (njump x < length (rjumps g))%nat /\ jrewr (nth (njump x) (rjumps g) nojump) = rw) /\
    forall h, Forall (wok sz calls g) h -> zlen (fold_left (wset g) h (rb g)) <= csize (emits win calls) /\ laid win code eo g (fold_left (wset g) h (rb g)) (wlast_j h) comp0 (with_consts 0 (wlast_c h) calls) 0.
Proof.
  intros calls sz PO ML. destruct (link_parts win code eo calls PO ML) as (g & ly & GE & (EG & EA & FN & JR & LL & LB & TW) & TL). exists g. split; [exact GE|]. split; [exact TW|].
  assert (RJ0 : rjumps g = jumps ly) by (rewrite EG; reflexivity). split; [intros x kd rw t y E; rewrite RJ0; rewrite E in JR; exact (jump_number x kd rw t y [] ly JR)|].
  destruct PO as (Fc & CS & C0 & CE & CT & _).
  set (ops := restf [] calls) in *. set (AL := rlabels g) in *.
  assert (RJ : rjumps g = jumps ly) by (rewrite EG; reflexivity). assert (RC : rconsts g = aconsts 0 ops ly) by (rewrite EG; reflexivity). assert (RB : rb g = fbytes AL 0 ly) by (rewrite EG; reflexivity).
  intros h H.
  assert (K : vok 0 (wlast_c h) ops /\ (forall n T, wlast_j h n = Some T -> isw T) /\ (forall n bs, wlast_c h n = Some bs -> length bs = sz n) /\
    fold_left (wset g) h (rb g) = segs AL (wlast_j h) 0 0 (cops 0 (wlast_c h) ops) (cly 0 (wlast_c h) ops ly)).
  { induction h as [|e h IH] using rev_ind.
    - split; [apply vok_none|]. split; [discriminate|]. split; [discriminate|]. cbn [fold_left]. change (wlast_j []) with (fun _ : nat => @None Z). change (wlast_c []) with (fun _ : nat => @None (list Z)). rewrite cops_none.
      assert (X : forall l ly n pos, fin_ok AL pos l ly -> cly n (fun _ => None) l ly = ly).
      { clear. induction l as [|o l IH]; intros [|r ly] n pos F; try contradiction; [reflexivity|]. cbn [X86LinkTop.fin_ok] in F. destruct F as [O F]. destruct o; cbn [cly repl]; try (rewrite (IH _ _ _ F); reflexivity).
        rewrite (IH _ _ _ F). cbn [X86LinkTop.op_ok] in O. subst r. cbn [snd]. destruct (oconst l); reflexivity. }
      rewrite (X _ _ 0%nat 0 FN), (segs_none win code eo AL) by exact LL. exact RB.
    - apply Forall_app in H as [H1 H2]. apply Forall_inv in H2. destruct (IH H1) as (I1 & I2 & I3 & I4). rewrite fold_left_app. cbn [fold_left]. rewrite I4.
      assert (FN' : fin_ok AL 0 (cops 0 (wlast_c h) ops) (cly 0 (wlast_c h) ops ly)) by (apply cfin; assumption).
      destruct e as [n T|n bs]; cbn [wok wset] in *.
      + assert (EC : forall j, wlast_c (h ++ [WJump n T]) j = wlast_c h j) by (intros j; unfold wlast_c; rewrite fold_left_app; reflexivity).
        assert (EJ : forall j, wlast_j (h ++ [WJump n T]) j = upd (wlast_j h) n T j) by (intros j; unfold wlast_j; rewrite fold_left_app; reflexivity).
        destruct H2 as (N & R & IT). rewrite (cops_ext ops 0 (wlast_c (h ++ _)) (wlast_c h)), (cly_ext ops ly 0 (wlast_c (h ++ _)) (wlast_c h)) by (intros; apply EC).
        split; [|split; [|split]].
        * assert (X : forall l k v v', (forall j, v j = v' j) -> vok k v l -> vok k v' l).
          { clear. induction l as [|o l IH]; intros k v v' E V; [exact Logic.I|]. destruct o; cbn [vok] in *; try (eapply IH; eauto). destruct V as [V1 V2]. split; [intros OC b0; rewrite <- E; apply V1, OC|eapply IH; eauto]. }
          eapply X; [|exact I1]. intros j. symmetry. apply EC.
        * intros m T' E. rewrite EJ in E. unfold upd in E. destruct (Nat.eqb n m); [congruence|exact (I2 _ _ E)].
        * intros m bs E. rewrite EC in E. exact (I3 _ _ E).
        * rewrite (segs_ext win code eo AL (wlast_j (h ++ _)) (upd (wlast_j h) n T)) by (intros; apply EJ). unfold set_jump. cbn [fst snd]. fold nojump.
          pose proof (set_segs win code eo AL (wlast_j h) T _ _ 0 n 0 [] FN' (cjr (wlast_c h) ops ly 0 JR) eq_refl) as SS. rewrite cjumps_eq in SS by exact LL. rewrite Nat.sub_0_r in SS. rewrite RJ in *. cbn [app] in SS. apply SS; [lia|exact R].
      + assert (EC : forall j, wlast_c (h ++ [WConst n bs]) j = vupd (wlast_c h) n bs j) by (intros j; unfold wlast_c; rewrite fold_left_app; reflexivity).
        assert (EJ : forall j, wlast_j (h ++ [WConst n bs]) j = wlast_j h j) by (intros j; unfold wlast_j; rewrite fold_left_app; reflexivity).
        destruct H2 as (pre & PR & LBS & LP). rewrite (cops_ext ops 0 (wlast_c (h ++ _)) (vupd (wlast_c h) n bs)), (cly_ext ops ly 0 (wlast_c (h ++ _)) (vupd (wlast_c h) n bs)) by (intros; apply EC).
        split; [|split; [|split]].
        * assert (X : forall l k v v', (forall j, v j = v' j) -> vok k v l -> vok k v' l).
          { clear. induction l as [|o l IH]; intros k v v' E V; [exact Logic.I|]. destruct o; cbn [vok] in *; try (eapply IH; eauto). destruct V as [V1 V2]. split; [intros OC b0; rewrite <- E; apply V1, OC|eapply IH; eauto]. }
          eapply X; [intros j; symmetry; apply EC|]. apply (vok_upd ops 0 n _ bs pre); [exact I1|lia|rewrite Nat.sub_0_r; exact PR|lia].
        * intros m T' E. rewrite EJ in E. exact (I2 _ _ E).
        * intros m b0 E. rewrite EC in E. unfold vupd in E. destruct (Nat.eqb_spec n m); [|exact (I3 _ _ E)]. injection E as <-. subst m. exact LBS.
        * rewrite (segs_ext win code eo AL (wlast_j (h ++ _)) (wlast_j h)) by (intros; apply EJ). rewrite RC.
          pose proof (const_segs AL (wlast_j h) bs ops ly 0 n 0 0 (wlast_c h) [] pre I1 FN eq_refl ltac:(lia)) as CSG. rewrite Nat.sub_0_r in CSG. cbn [app] in CSG. apply CSG; [exact PR|lia|]. intros b0 E. rewrite (I3 _ _ E). lia. }
  destruct K as (K1 & K2 & K3 & K4). rewrite K4.
  assert (FN' : fin_ok AL 0 (cops 0 (wlast_c h) ops) (cly 0 (wlast_c h) ops ly)) by (apply cfin; assumption).
  assert (RF : restf [] (with_consts 0 (wlast_c h) calls) = cops 0 (wlast_c h) ops) by (apply restf_consts; reflexivity).
  assert (ZB : zlen (segs AL (wlast_j h) 0 0 (cops 0 (wlast_c h) ops) (cly 0 (wlast_c h) ops ly)) = zlen (bytes ly)) by (rewrite (segs_len win code eo AL (wlast_j h) _ _ 0 0 FN') by lia; apply (cbytes_len AL _ ops ly 0 0 K1 FN)).
  split; [lia|]. change comp0 with (comp_of win []). apply (laid_from win code eo (length (clabels (emits win calls)))) with (B := []) (ALd := []) (Jd := []) (Cd := []) (ly := cly 0 (wlast_c h) ops ly); try rewrite RF; fold AL; try reflexivity; try assumption; try apply Forall_nil; try exact Logic.I.
  - rewrite ZB. unfold xpos. lia.
  - apply (calls_ok_consts _ _ calls [] 0); assumption.
  - rewrite EA at 1. symmetry. apply (calabs_eq AL); assumption.
  - rewrite RJ. symmetry. apply cjumps_eq. exact LL.
  - rewrite RC. symmetry. apply (cconsts_eq AL); assumption.
Qed.
End Hist.
