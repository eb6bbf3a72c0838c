(** Proofs about the x86-64 code generator: patching, the calls, and the results. *)
Require Import ZArith List Bool Lia.
From Verif Require Import Rv.RvLib Rv.RvIsa X86.X86Isa X86.X86Emit X86.X86Spec X86.X86OpSpec X86.X86Cond X86.X86Enc X86.X86EncTop X86.X86Link X86.X86LinkSpec X86.X86LinkOps X86.X86LinkRed X86.X86LinkGen X86.X86LinkFit X86.X86LinkRun X86.X86LinkTop.
Import ListNotations.
Ltac Zify.zify_post_hook ::= idtac.
Open Scope Z_scope.

Section All.
Variables (win : bool) (code eo : Z).
Notation fin := (fin code eo). Notation fbytes := (fbytes code eo). Notation op_ok := (op_ok win code eo). Notation fin_ok := (fin_ok win code eo).
Notation alabs := (alabs code eo). Notation aconsts := (aconsts code). Notation lay := (lay win code eo).

(** ** Patching *)
Lemma op_fin : forall AL pos o r B S, op_ok AL pos o r -> zlen B = pos ->
  fold_left (patch_jump code eo AL) (snd r) (B ++ fst r ++ S) = B ++ fin AL pos r ++ S /\ length (fin AL pos r) = length (fst r).
Proof.
  intros AL pos o r B S O P. unfold X86LinkTop.fin. assert (G : forall j, snd r = [j] -> inside code pos (fst r) j ->
    fold_left (patch_jump code eo AL) (snd r) (B ++ fst r ++ S) = B ++ (match snd r with [j] => patch_jump (code + pos) eo AL (fst r) j | _ => fst r end) ++ S /\
    length (match snd r with [j] => patch_jump (code + pos) eo AL (fst r) j | _ => fst r end) = length (fst r)).
  { intros j J I. rewrite J. cbn [fold_left]. subst pos. apply patch_local. exact I. }
  destruct o as [bs| |m|k rw t|reg t|]; cbn [X86LinkTop.op_ok] in O; try (subst r; split; reflexivity).
  - destruct O as (j & J & I & _). apply (G j J I).
  - destruct O as (j & J & I & _). apply (G j J I).
Qed.
Lemma patch_all : forall AL ops ly B, fin_ok AL (zlen B) ops ly -> fold_left (patch_jump code eo AL) (jumps ly) (B ++ bytes ly) = B ++ fbytes AL (zlen B) ly.
Proof.
  intros AL ops. induction ops as [|o ops IH]; intros [|r ly] B F; cbn [X86LinkTop.fin_ok] in F; try contradiction; [reflexivity|]. destruct F as [O F].
  unfold jumps, bytes. cbn [map concat X86LinkTop.fbytes]. rewrite fold_left_app. destruct (op_fin AL (zlen B) o r B (bytes ly) O eq_refl) as [E1 E2]. assert (E3 : zlen (fin AL (zlen B) r) = zlen (fst r)) by (unfold zlen at 1 3; rewrite E2; reflexivity).
  fold (bytes ly). fold (jumps ly). rewrite E1, app_assoc. rewrite (IH ly (B ++ fin AL (zlen B) r)).
  - rewrite <- app_assoc, zlen_app, E3. reflexivity.
  - rewrite zlen_app, E3. exact F.
Qed.
Lemma fbytes_len : forall AL ops ly pos, fin_ok AL pos ops ly -> 0 <= pos -> zlen (fbytes AL pos ly) = zlen (bytes ly).
Proof.
  intros AL ops. induction ops as [|o ops IH]; intros [|r ly] pos F P; cbn [X86LinkTop.fin_ok] in F; try contradiction; [reflexivity|]. destruct F as [O F].
  unfold bytes. cbn [map concat X86LinkTop.fbytes]. rewrite !zlen_app. fold (bytes ly). pose proof (zlen_nonneg (fst r)). rewrite IH by (try exact F; lia). f_equal. unfold zlen.
  destruct (op_fin AL pos o r (repeat 0 (Z.to_nat pos)) [] O) as [_ E]; [unfold zlen; rewrite repeat_length; lia|]. rewrite E. reflexivity.
Qed.

(** ** Rewritten jumps *)
Definition seg (AL : list xlabel) (cur : nat -> option Z) (i : nat) (pos : Z) (o : op) (r : list Z * list xjump) : list Z :=
  match o with OJmp k true _ => match cur i with Some T => farb win k false T | None => fin AL pos r end | _ => fin AL pos r end.
Fixpoint segs (AL : list xlabel) (cur : nat -> option Z) (i : nat) (pos : Z) (ops : list op) (ly : list (list Z * list xjump)) : list Z :=
  match ops, ly with o :: ops, r :: ly => seg AL cur i pos o r ++ segs AL cur (i + length (snd r)) (pos + zlen (fst r)) ops ly | _, _ => [] end.
Lemma segs_none : forall AL ops ly i pos, length ops = length ly -> segs AL (fun _ => None) i pos ops ly = fbytes AL pos ly.
Proof.
  intros AL. induction ops as [|o ops IH]; intros [|r ly] i pos H; try discriminate; [reflexivity|]. cbn [segs X86LinkTop.fbytes]. rewrite IH by (cbn in H; lia). f_equal.
  unfold seg. destruct o; try destruct rewr; reflexivity.
Qed.
Lemma segs_ext : forall AL cur cur' ops ly i pos, (forall j, (i <= j)%nat -> cur j = cur' j) -> segs AL cur i pos ops ly = segs AL cur' i pos ops ly.
Proof.
  intros AL cur cur'. induction ops as [|o ops IH]; intros [|r ly] i pos H; try reflexivity. cbn [segs]. rewrite (IH ly (i + length (snd r))%nat) by (intros; apply H; lia). f_equal.
  unfold seg. rewrite (H i) by lia. reflexivity.
Qed.
Lemma farb_zlen : forall k T, zlen (farb win k false T) = zlen (jinv k false) + 13.
Proof. intros k T. destruct k; reflexivity. Qed.
Lemma seg_len : forall AL cur i pos o r, op_ok AL pos o r -> 0 <= pos -> zlen (seg AL cur i pos o r) = zlen (fst r).
Proof.
  intros AL cur i pos o r O P. assert (E : zlen (fin AL pos r) = zlen (fst r)).
  { unfold zlen. destruct (op_fin AL pos o r (repeat 0 (Z.to_nat pos)) [] O) as [_ ->]; [unfold zlen; rewrite repeat_length; lia|reflexivity]. }
  unfold seg. destruct o as [bs| |m|k [] t|reg t|]; try exact E. destruct (cur i) as [T|]; [|exact E]. destruct O as (j & _ & _ & _ & O). destruct (O eq_refl) as [F _]. rewrite <- E, F, !farb_zlen. reflexivity.
Qed.
Lemma segs_len : forall AL cur ops ly i pos, fin_ok AL pos ops ly -> 0 <= pos -> zlen (segs AL cur i pos ops ly) = zlen (bytes ly).
Proof.
  intros AL cur. induction ops as [|o ops IH]; intros [|r ly] i pos F P; cbn [X86LinkTop.fin_ok] in F; try contradiction; [reflexivity|]. destruct F as [O F].
  cbn [segs]. unfold bytes. cbn [map concat]. rewrite !zlen_app. fold (bytes ly). pose proof (zlen_nonneg (fst r)). rewrite IH by (try exact F; lia). rewrite seg_len by assumption. reflexivity.
Qed.
Definition upd (cur : nat -> option Z) (n : nat) (T : Z) : nat -> option Z := fun j => if Nat.eqb n j then Some T else cur j.
(** The jumps keep SLJIT_REWRITABLE_JUMP. *)
Definition jr_ok (o : op) (r : list Z * list xjump) : Prop :=
  match o with OJmp k rw t => exists j, snd r = [j] /\ jrewr j = rw | OMov _ _ => exists j, snd r = [j] /\ jrewr j = false | _ => snd r = [] end.
Definition nojump := mkXJ 0 JAlways false false false (TAddr 0) PNo.
Lemma set_segs : forall AL cur T ops ly i n pos B, fin_ok AL pos ops ly -> Forall2 jr_ok ops ly -> zlen B = pos -> (i <= n < i + length (jumps ly))%nat -> jrewr (nth (n - i) (jumps ly) nojump) = true ->
  putb (B ++ segs AL cur i pos ops ly) (jaddr (nth (n - i) (jumps ly) nojump) - code) (lebytes 8 T) = B ++ segs AL (upd cur n T) i pos ops ly.
Proof.
  intros AL cur T. induction ops as [|o ops IH]; intros [|r ly] i n pos B F J LB N R; cbn [X86LinkTop.fin_ok] in F; try contradiction; [cbn in N; lia|]. destruct F as [O F].
  inversion J as [|o' r' ops' ly' J1 J2]; subst o' r' ops' ly'. unfold jumps in N, R |- *. cbn [map concat] in N, R |- *. fold (jumps ly) in N, R |- *. rewrite app_length in N. cbn [segs].
  assert (P : 0 <= pos) by (rewrite <- LB; apply zlen_nonneg).
  destruct (Nat.lt_ge_cases (n - i) (length (snd r))) as [Q|Q].
  - rewrite app_nth1 in R |- * by exact Q.
    assert (X : exists k t, o = OJmp k true t /\ n = i).
    { destruct o as [bs| |m|k rw t|reg t|]; cbn [jr_ok] in J1; try (rewrite J1 in Q; cbn in Q; lia).
      - destruct J1 as (j & E & Rj). rewrite E in Q, R. cbn [length] in Q. replace (n - i)%nat with 0%nat in R by lia. cbn [nth] in R. exists k, t. split; [congruence|lia].
      - destruct J1 as (j & E & Rj). rewrite E in Q, R. cbn [length] in Q. replace (n - i)%nat with 0%nat in R by lia. cbn [nth] in R. congruence. }
    destruct X as (k & t & -> & ->). rewrite Nat.sub_diag. pose proof O as (j & E & _ & _ & O2). destruct (O2 eq_refl) as [Fj Ja]. rewrite E. cbn [nth]. rewrite Ja.
    rewrite (segs_ext AL (upd cur i T) cur) by (intros q H; cbn [length] in H; unfold upd; destruct (Nat.eqb_spec i q); [lia|reflexivity]).
    unfold seg at 2. unfold upd. rewrite Nat.eqb_refl.
    assert (S0 : exists T0, seg AL cur i pos (OJmp k true t) r = farb win k false T0) by (unfold seg; destruct (cur i) as [T0|]; eauto). destruct S0 as (T0 & ->).
    unfold farb. replace (code + pos + zlen (jinv k false) + 2 - code) with (zlen (B ++ jinv k false ++ jmovb win false)) by (rewrite !zlen_app; change (zlen (jmovb win false)) with 2; lia).
    set (Sx := segs AL cur _ _ _ _). replace (B ++ (jinv k false ++ jmovb win false ++ lebytes 8 T0 ++ jjmp win k) ++ Sx) with ((B ++ jinv k false ++ jmovb win false) ++ lebytes 8 T0 ++ (jjmp win k ++ Sx)) by (rewrite <- !app_assoc; reflexivity).
    rewrite putb_mid by reflexivity. rewrite <- !app_assoc. reflexivity.
  - rewrite app_nth2 in R |- * by exact Q. replace (n - i - length (snd r))%nat with (n - (i + length (snd r)))%nat in * by lia.
    assert (SE : seg AL (upd cur n T) i pos o r = seg AL cur i pos o r).
    { unfold seg. destruct o as [bs| |m|k [] t|reg t|]; try reflexivity. unfold upd. destruct (Nat.eqb_spec n i); [|reflexivity]. subst n. cbn [jr_ok] in J1. destruct J1 as (j & E & _). rewrite E in Q. cbn in Q. lia. }
    rewrite SE, !app_assoc. apply IH; try assumption; [|lia]. rewrite zlen_app, seg_len by assumption. lia.
Qed.
Lemma hist_segs : forall AL ops ly h, fin_ok AL 0 ops ly -> Forall2 jr_ok ops ly -> length ops = length ly ->
  Forall (fun x => (fst x < length (jumps ly))%nat /\ jrewr (nth (fst x) (jumps ly) nojump) = true /\ isw (snd x)) h ->
  fold_left (fun b (x : nat * Z) => putb b (jaddr (nth (fst x) (jumps ly) nojump) - code) (lebytes 8 (snd x))) h (fbytes AL 0 ly) = segs AL (last_set h) 0 0 ops ly /\ (forall n T, last_set h n = Some T -> isw T).
Proof.
  intros AL ops ly h F J L. induction h as [|x h IH] using rev_ind; intros H.
  - cbn [fold_left]. split; [|discriminate]. rewrite <- (segs_none AL ops ly 0 0 L). reflexivity.
  - apply Forall_app in H as [H1 H2]. apply Forall_inv in H2 as (X1 & X2 & X3). destruct (IH H1) as [I1 I2]. rewrite fold_left_app. cbn [fold_left]. rewrite I1.
    assert (LS : forall n, last_set (h ++ [x]) n = upd (last_set h) (fst x) (snd x) n) by (intros n; unfold last_set at 1; rewrite fold_left_app; cbn [fold_left]; reflexivity).
    split.
    + rewrite (segs_ext AL (last_set (h ++ [x])) (upd (last_set h) (fst x) (snd x))) by (intros; apply LS).
      pose proof (set_segs AL (last_set h) (snd x) ops ly 0 (fst x) 0 [] F J eq_refl ltac:(lia)) as S. rewrite Nat.sub_0_r in S. cbn [app] in S. apply S, X2.
    + intros n T E. rewrite LS in E. unfold upd in E. destruct (Nat.eqb (fst x) n); [injection E as <-; exact X3|exact (I2 n T E)].
Qed.
Lemma lay_jr : forall ops szs gld e pos, length ops = length szs -> Forall2 jr_ok ops (lay gld e pos ops szs).
Proof.
  induction ops as [|o ops IH]; intros [|z szs] gld e pos H; try discriminate; [constructor|]. cbn [X86LinkGen.lay]. constructor; [|apply IH; cbn in H; lia].
  destruct o as [bs| |m|k rw t|reg t|]; cbn [jr_ok X86LinkGen.opgen]; try reflexivity.
  - unfold gen_jump. cbn [jrewr]. destruct rw; [rewrite far_eq; eexists; split; reflexivity|]. rewrite near_eq. cbv zeta.
    match goal with |- context [if ?b then far_jump _ _ _ _ else _] => destruct b end; [rewrite far_eq|unfold neargen]; eexists; split; reflexivity.
  - destruct (mov_gen _ _ _ _ _ _ _) as [b p]. eexists. split; reflexivity.
Qed.

(** ** The calls *)
Fixpoint restf (done : list op) (calls : list call) : list op := match calls with [] => [] | k :: calls => kop done k ++ restf (done ++ kop done k) calls end.
Lemma restf_fold : forall calls done, fold_left opstep calls done = done ++ restf done calls.
Proof. induction calls as [|k calls IH]; intros done; cbn [fold_left restf]; [rewrite app_nil_r; reflexivity|]. rewrite IH. unfold opstep. rewrite <- app_assoc. reflexivity. Qed.

Section Laid.
Variables (nl : nat) (g : gen) (b : list Z) (cur : nat -> option Z).
Notation AL := (rlabels g).
Hypothesis P0 : 0 <= code + eo.
Hypothesis PT : xpos code eo (zlen b) < 2 ^ 64.
Hypothesis CW : forall n T, cur n = Some T -> isw T.
Hypothesis TW : forall n, (n < nl)%nat -> isw (laddr (nth n AL (mkXL 0 None 0))).
Lemma tadr_isw : forall t, target_ok nl t -> isw (tadr AL t).
Proof. intros [n|a] H; [apply TW, H|exact H]. Qed.
Lemma bytes_mid : forall (B f S : list Z) pos, b = B ++ f ++ S -> zlen B = pos -> bytes_at b pos f.
Proof. intros B f S pos E L. exists B, S. split; assumption. Qed.
Definition stok (done : list op) (ALd : list xlabel) (pos : Z) : Prop :=
  match st done with PLab => (0 < length ALd)%nat /\ laddr (nth (pred (length ALd)) ALd (mkXL 0 None 0)) = xpos code eo pos | _ => True end.
Lemma mid_bound : forall (B f S : list Z) pos, b = B ++ f ++ S -> zlen B = pos -> 0 <= pos /\ xpos code eo (pos + zlen f) < 2 ^ 64.
Proof. intros B f S pos E L. rewrite E, !zlen_app in PT. pose proof (zlen_nonneg B). pose proof (zlen_nonneg f). pose proof (zlen_nonneg S). unfold xpos in *. lia. Qed.
Lemma laid_from : forall calls done pos B ALd Jd Cd ly,
  Forall (call_ok nl) calls -> Forall (opok nl) done ->
  b = B ++ segs AL cur (length (cjumps (comp_of win done))) pos (restf done calls) ly -> zlen B = pos ->
  AL = ALd ++ alabs pos (restf done calls) ly -> length ALd = length (clabels (comp_of win done)) ->
  rjumps g = Jd ++ jumps ly -> length Jd = length (cjumps (comp_of win done)) ->
  rconsts g = Cd ++ aconsts pos (restf done calls) ly -> length Cd = length (cconsts (comp_of win done)) ->
  fin_ok AL pos (restf done calls) ly -> stok done ALd pos -> laid win code eo g b cur (comp_of win done) calls pos.
Proof.
  induction calls as [|k calls IH]; intros done pos B ALd Jd Cd ly Fc Fo EB LB EA LA EJ LJ EC LC Fi So.
  - cbn [restf X86LinkTop.fin_ok] in Fi. destruct ly; [|contradiction]. cbn [laid]. rewrite EB. cbn [restf segs]. rewrite app_nil_r. symmetry. exact LB.
  - apply Forall_cons_iff in Fc as [Fk Fc]. cbn [laid restf] in *. rewrite (emit_step win nl) by assumption. unfold opstep.
    assert (POS : 0 <= pos) by (rewrite <- LB; apply zlen_nonneg).
    (* a new operation *)
    assert (NEW : forall o, kop done k = [o] ->
      exists r ly', ly = r :: ly' /\ op_ok AL pos o r /\ b = B ++ seg AL cur (length Jd) pos o r ++ segs AL cur (length Jd + length (snd r)) (pos + zlen (fst r)) (restf (done ++ [o]) calls) ly' /\ zlen (seg AL cur (length Jd) pos o r) = zlen (fst r) /\
        AL = ALd ++ alab code eo pos o (fst r) ++ alabs (pos + zlen (fst r)) (restf (done ++ [o]) calls) ly' /\
        rjumps g = Jd ++ snd r ++ jumps ly' /\ rconsts g = Cd ++ aconst code pos o ++ aconsts (pos + zlen (fst r)) (restf (done ++ [o]) calls) ly' /\
        (stok (done ++ [o]) (ALd ++ alab code eo pos o (fst r)) (pos + zlen (fst r)) -> laid win code eo g b cur (comp_of win (done ++ [o])) calls (pos + zlen (fst r)))).
    { intros o KO. rewrite KO in *. cbn [app X86LinkTop.fin_ok] in Fi. destruct ly as [|r ly]; [contradiction|]. destruct Fi as [O Fi]. exists r, ly. split; [reflexivity|]. split; [exact O|].
      rewrite <- LJ in *. cbn [segs app X86LinkGen.alabs X86LinkGen.aconsts] in *.
      assert (LF : zlen (seg AL cur (length Jd) pos o r) = zlen (fst r)) by (apply seg_len; assumption).
      assert (LJ' : length (cjumps (comp_of win (done ++ [o]))) = (length Jd + length (snd r))%nat).
      { rewrite comp_app. cbn [cjumps]. rewrite app_length, LJ. f_equal. clear - O. destruct o as [bs| |m|k rw t|reg t|]; cbn [X86LinkTop.op_ok] in O; try (subst r; reflexivity); destruct O as (j & -> & _); reflexivity. }
      split; [exact EB|]. split; [exact LF|]. split; [exact EA|]. unfold jumps in EJ. cbn [map concat] in EJ. split; [exact EJ|]. split; [exact EC|]. intros So'.
      apply (IH (done ++ [o]) (pos + zlen (fst r)) (B ++ seg AL cur (length Jd) pos o r) (ALd ++ alab code eo pos o (fst r)) (Jd ++ snd r) (Cd ++ aconst code pos o) ly); try assumption.
      - apply Forall_app. split; [exact Fo|]. pose proof (kop_ok nl done k Fk) as KK. rewrite KO in KK. exact KK.
      - rewrite LJ', <- app_assoc. exact EB.
      - rewrite zlen_app. lia.
      - rewrite <- app_assoc. exact EA.
      - rewrite comp_app. cbn [clabels]. rewrite !app_length, LA. f_equal. destruct o; reflexivity.
      - rewrite <- app_assoc. exact EJ.
      - rewrite app_length. symmetry. exact LJ'.
      - rewrite <- app_assoc. exact EC.
      - rewrite comp_app. cbn [cconsts]. rewrite !app_length, LC. f_equal. destruct o; reflexivity. }
    assert (NW : forall o, nxt (st done) o = POther \/ nxt (st done) o = PMov -> forall a p, stok (done ++ [o]) a p).
    { intros o [H|H] a p; unfold stok; rewrite st_app, H; exact Logic.I. }
    (* labels *)
    assert (LAB : kop done k = (if ends_label done then [] else [OLab]) -> exists pos', pos' = pos /\ laddr (nth (ret_label (comp_of win (done ++ kop done k))) AL (mkXL 0 None 0)) = xpos code eo pos' /\
      laid win code eo g b cur (comp_of win (done ++ kop done k)) calls pos').
    { intros KO. exists pos. split; [reflexivity|]. unfold ends_label in KO. unfold ret_label. destruct (st done) eqn:ST.
      - destruct (NEW OLab KO) as (r & ly' & -> & O & E1 & E2 & E3 & E4 & E5 & E6). cbn [X86LinkTop.op_ok] in O. subst r. rewrite KO. cbn [fst snd] in *. change (zlen (@nil Z)) with 0 in *. rewrite !Z.add_0_r in *.
        assert (LL : pred (length (clabels (comp_of win (done ++ [OLab])))) = length ALd) by (rewrite comp_app; cbn [clabels]; rewrite app_length; cbn [lab_of length]; lia). rewrite LL.
        assert (N0 : laddr (nth (length ALd) AL (mkXL 0 None 0)) = xpos code eo pos) by (rewrite E3; rewrite app_nth2, Nat.sub_diag by lia; cbn [alab app nth laddr]; unfold xpos; lia).
        split; [exact N0|]. apply E6. unfold stok. rewrite st_app. cbn [nxt alab]. rewrite app_length. cbn [length]. split; [lia|]. replace (pred (length ALd + 1)) with (length ALd) by lia.
        rewrite app_nth2, Nat.sub_diag by lia. cbn [nth laddr]. unfold xpos. lia.
      - rewrite KO in *. rewrite app_nil_r in *. unfold stok in So. rewrite ST in So. destruct So as [So1 So2]. split.
        + rewrite <- LA, EA, app_nth1 by lia. exact So2.
        + apply (IH done pos B ALd Jd Cd ly); try assumption. unfold stok. rewrite ST. split; assumption.
      - destruct (NEW OLab KO) as (r & ly' & -> & O & E1 & E2 & E3 & E4 & E5 & E6). cbn [X86LinkTop.op_ok] in O. subst r. rewrite KO. cbn [fst snd] in *. change (zlen (@nil Z)) with 0 in *. rewrite !Z.add_0_r in *.
        assert (LL : pred (length (clabels (comp_of win (done ++ [OLab])))) = length ALd) by (rewrite comp_app; cbn [clabels]; rewrite app_length; cbn [lab_of length]; lia). rewrite LL.
        assert (N0 : laddr (nth (length ALd) AL (mkXL 0 None 0)) = xpos code eo pos) by (rewrite E3; rewrite app_nth2, Nat.sub_diag by lia; cbn [alab app nth laddr]; unfold xpos; lia).
        split; [exact N0|]. apply E6. unfold stok. rewrite st_app. cbn [nxt alab]. rewrite app_length. cbn [length]. split; [lia|]. replace (pred (length ALd + 1)) with (length ALd) by lia.
        rewrite app_nth2, Nat.sub_diag by lia. cbn [nth laddr]. unfold xpos. lia. }
    destruct k as [bs| |al|kd rw t|reg t|]; cbn [kop] in *.
    + (* instruction *)
      destruct (NEW (OIns bs) eq_refl) as (r & ly' & -> & O & E1 & E2 & E3 & E4 & E5 & E6). cbn [X86LinkTop.op_ok] in O. subst r. exists (pos + zlen bs). cbn [fst snd] in *. pose proof (zlen_nonneg bs).
      split; [lia|]. split; [|apply E6, NW; left; reflexivity]. cbn [call_laid]. split; [|reflexivity]. eapply bytes_mid; [exact E1|exact LB].
    + (* label *)
      destruct (LAB eq_refl) as (pos' & -> & A & L). exists pos. split; [lia|]. split; [|exact L]. cbn [call_laid]. rewrite (emit_step win nl) by assumption. unfold opstep. cbn [kop]. split; [exact A|reflexivity].
    + (* aligned label *)
      cbn [call_laid]. rewrite (emit_step win nl) by assumption. unfold opstep. cbn [kop]. destruct (al <=? 0) eqn:AL0.
      * destruct (LAB eq_refl) as (pos' & -> & A & L). apply Z.leb_le in AL0. exists pos. split; [lia|]. split; [|exact L]. split; [exact A|]. split.
        { intros H. assert (al = 0) as -> by lia. rewrite Z.pow_0_r, Z.mod_1_r. lia. }
        rewrite Z.sub_diag. eexists B, _. split; [exact EB|exact LB].
      * apply Z.leb_gt in AL0. cbn [call_ok] in Fk. clear LAB. destruct (NEW (OAl (2 ^ al - 1)) eq_refl) as (r & ly' & -> & O & E1 & E2 & E3 & E4 & E5 & E6). cbn [X86LinkTop.op_ok] in O. subst r. cbn [fst snd] in *.
        pose proof (align_ok code al pos ltac:(lia)) as AO. set (pad := align_pad code (2 ^ al - 1) pos) in *. pose proof (zlen_nonneg pad).
        assert (PA : 2 <= 2 ^ al <= 16) by (apply pow_al; lia). pose proof (Z.mod_pos_bound (- (code + pos)) (2 ^ al) ltac:(lia)) as MB.
        exists (pos + zlen pad). split; [lia|].
        assert (N0 : laddr (nth (ret_label (comp_of win (done ++ [OAl (2 ^ al - 1)]))) AL (mkXL 0 None 0)) = xpos code eo (pos + zlen pad)).
        { unfold ret_label. rewrite comp_app. cbn [clabels]. rewrite app_length. cbn [lab_of length]. replace (pred (length (clabels (comp_of win done)) + 1)) with (length ALd) by lia.
          rewrite E3. rewrite app_nth2, Nat.sub_diag by lia. cbn [alab app nth laddr]. unfold xpos. lia. }
        split; [|apply E6]. 
        { split; [exact N0|]. split.
          - intros _. split; [|lia]. replace (code + (pos + zlen pad)) with ((code + pos) + zlen pad) by lia. rewrite AO, Zplus_mod_idemp_r. replace (code + pos + - (code + pos)) with 0 by lia. apply Z.mod_0_l. lia.
          - replace (repeat 144 (Z.to_nat (pos + zlen pad - pos))) with pad; [eapply bytes_mid; [exact E1|exact LB]|].
            assert (X : exists n, pad = repeat 144 n) by (eexists; reflexivity). destruct X as (n & X). rewrite X. f_equal. unfold zlen. rewrite repeat_length. lia. }
        unfold stok. rewrite st_app. cbn [nxt alab]. rewrite app_length. cbn [length]. split; [lia|]. replace (pred (length ALd + 1)) with (length ALd) by lia.
        rewrite app_nth2, Nat.sub_diag by lia. cbn [nth laddr]. unfold xpos. lia.
    + (* jump *)
      destruct (NEW (OJmp kd rw t) eq_refl) as (r & ly' & -> & O & E1 & E2 & E3 & E4 & E5 & E6). destruct O as (j & J & I & O1 & O2). cbn [call_ok] in Fk. destruct Fk as [Kk Kt].
      pose proof (zlen_nonneg (fst r)). exists (pos + zlen (fst r)). split; [lia|]. split; [|apply E6, NW; left; reflexivity]. destruct (mid_bound B _ _ pos E1 LB) as [_ MB].
      cbn [call_laid]. intros NB. specialize (O1 NB). rewrite <- LJ. rewrite <- E2. change (taddr g t) with (tadr AL t).
      apply run_jump; try assumption; [| |eapply bytes_mid; [exact E1|exact LB]].
      * destruct rw; [|apply tadr_isw, Kt]. destruct (cur (length Jd)) as [T|] eqn:CU; [exact (CW _ _ CU)|apply tadr_isw, Kt].
      * unfold seg. destruct rw; [|exact O1]. destruct (cur (length Jd)) as [T|] eqn:CU; [apply JFar; discriminate|exact O1].
    + (* address *)
      destruct (NEW (OMov reg t) eq_refl) as (r & ly' & -> & O & E1 & E2 & E3 & E4 & E5 & E6). destruct O as (j & J & I & O1). cbn [call_ok] in Fk. destruct Fk as (Kr & _ & _ & Kt).
      pose proof (zlen_nonneg (fst r)). exists (pos + zlen (fst r)). split; [lia|]. split; [|apply E6, NW; right; reflexivity]. destruct (mid_bound B _ _ pos E1 LB) as [_ MB].
      cbn [call_laid]. intros NB. specialize (O1 NB). rewrite <- E2. change (taddr g t) with (tadr AL t). apply run_addr; try assumption; [apply tadr_isw, Kt|]. eapply bytes_mid; [exact E1|exact LB].
    + (* constant *)
      destruct (NEW OConst eq_refl) as (r & ly' & -> & O & E1 & E2 & E3 & E4 & E5 & E6). cbn [X86LinkTop.op_ok] in O. subst r. exists pos. cbn [fst snd] in *. change (zlen (@nil Z)) with 0 in *. rewrite !Z.add_0_r in *.
      split; [lia|]. split.
      * cbn [call_laid]. split; [|reflexivity]. rewrite <- LC, E5, app_nth2, Nat.sub_diag by lia. reflexivity.
      * apply E6. unfold stok in *. rewrite st_app. cbn [nxt alab]. rewrite app_nil_r. exact So.
Qed.
End Laid.

(** ** The furthest position written to *)
Fixpoint obytes (ops : list op) : Z := match ops with [] => 0 | OIns bs :: ops => zlen bs + obytes ops | _ :: ops => obytes ops end.
Fixpoint otail (ops : list op) : Prop := match ops with [] => True | OMov _ _ :: ops => 5 <= obytes ops /\ otail ops | _ :: ops => otail ops end.
Lemma obytes_sum : forall ops labs e szs, Est win labs e ops szs -> obytes ops <= zsum szs.
Proof.
  induction ops as [|o ops IH]; intros labs e [|z szs] H; cbn [Est] in H; try contradiction; [cbn; lia|]. destruct H as (Eo & Z0 & H). apply IH in H. rewrite zsum_cons.
  destruct o; cbn [obytes est_ok] in *; lia.
Qed.
Lemma atop_bound : forall ops labs e szs pos ly top, Est win labs e ops szs -> fits ly szs -> pos <= e -> top <= e + zsum szs + 5 ->
  atop top pos ops ly <= e + zsum szs + 5 /\ (otail ops -> top <= e + zsum szs -> atop top pos ops ly <= e + zsum szs).
Proof.
  induction ops as [|o ops IH]; intros labs e szs pos ly top Es Fi P T; destruct szs as [|z szs]; cbn [Est] in Es; try contradiction.
  - inversion Fi; subst. cbn [atop]. lia.
  - inversion Fi as [|r z' ly' szs' Fr Fl]; subst. destruct Es as (Eo & Z0 & Es). rewrite zsum_cons in *. cbn [atop]. pose proof (est_nonneg win _ _ _ _ Es). pose proof (obytes_sum _ _ _ _ Es).
    set (top' := match o with OConst => top | OMov _ _ => _ | _ => _ end).
    assert (T' : top' <= e + z + zsum szs + 5).
    { destruct o; subst top'; try lia. cbn [est_ok] in Eo. destruct t as [n|a]; [lia|]. destruct (a <=? _); [destruct (8 <=? _)|]; lia. }
    destruct (IH labs (e + z) szs (pos + zlen (fst r)) ly' top' Es Fl ltac:(lia) ltac:(lia)) as [I1 I2].
    split; [lia|]. intros OT TT. assert (otail ops) by (destruct o; cbn [otail] in OT; tauto). specialize (I2 H1).
    assert (T2 : top' <= e + z + zsum szs).
    { destruct o; subst top'; try lia. cbn [otail] in OT. destruct OT as [OT _]. cbn [est_ok] in Eo. destruct t as [n|a]; [lia|]. destruct (a <=? _); [destruct (8 <=? _)|]; lia. }
    specialize (I2 ltac:(lia)). lia.
Qed.
Lemma obytes_restf : forall calls done, obytes (restf done calls) = ins_bytes calls.
Proof.
  induction calls as [|k calls IH]; intros done; [reflexivity|]. cbn [restf ins_bytes]. destruct k as [bs| |al|kd rw t|reg t|]; cbn [kop app obytes]; rewrite ?IH; try reflexivity.
  - destruct (ends_label done); cbn [app obytes]; apply IH.
  - destruct (al <=? 0); [destruct (ends_label done)|]; cbn [app obytes]; apply IH.
Qed.
Lemma otail_restf : forall calls done, mov_tail calls -> otail (restf done calls).
Proof.
  induction calls as [|k calls IH]; intros done H; [exact Logic.I|]. cbn [restf mov_tail] in *. destruct k as [bs| |al|kd rw t|reg t|]; cbn [kop app otail]; try (apply IH, H).
  - destruct (ends_label done); cbn [app otail]; apply IH, H.
  - destruct (al <=? 0); [destruct (ends_label done)|]; cbn [app otail]; apply IH, H.
  - destruct H as [H1 H2]. rewrite obytes_restf. split; [exact H1|apply IH, H2].
Qed.

(** ** The result *)
Lemma lok_alabs : forall ops ly pos l, In l (alabs pos ops ly) -> laddr l = code + lsize l + eo.
Proof.
  induction ops as [|o ops IH]; intros [|r ly] pos l H; cbn [X86LinkGen.alabs] in H; try contradiction. apply in_app_or in H as [H|H]; [|exact (IH _ _ _ H)].
  destruct o; cbn [alab In] in H; try contradiction; destruct H as [<- |[]]; reflexivity.
Qed.
Lemma est_max : forall ops labs e szs, Est win labs e ops szs -> zsum szs <= zsum (maxs ops).
Proof.
  induction ops as [|o ops IH]; intros labs e [|z szs] Es; cbn [Est] in Es; try contradiction; [cbn; lia|].
  destruct Es as (_ & Z0 & Es). apply IH in Es. unfold maxs. cbn [map]. fold (maxs ops). rewrite !zsum_cons. lia.
Qed.
(** What sljit_generate_code computes: the parts [ly] of the operations, and the final labels [AL]. *)
Definition parts_ok (calls : list call) (g : gen) (ly : list (list Z * list xjump)) : Prop :=
  let ops := restf [] calls in let AL := rlabels g in let nl := length (clabels (emits win calls)) in
  g = mkGen (fbytes AL 0 ly) AL (jumps ly) (aconsts 0 ops ly) (ralloc g) (rtop g) /\ AL = alabs 0 ops ly /\
  fin_ok AL 0 ops ly /\ Forall2 jr_ok ops ly /\ length ops = length ly /\ zlen (bytes ly) <= csize (emits win calls) /\
  (forall n, (n < nl)%nat -> isw (laddr (nth n AL (mkXL 0 None 0)))).
Theorem link_parts : forall calls, prog_ok win code eo calls -> mov_label false calls = false ->
  exists g ly, generate win code eo (emits win calls) = Some g /\ parts_ok calls g ly /\
    zlen (rb g) <= ralloc g <= csize (emits win calls) /\ rtop g <= ralloc g + 5 /\ (mov_tail calls -> rtop g <= ralloc g).
Proof.
  intros calls (Fc & CS & C0 & CE & CT & _) ML. unfold parts_ok. set (nl := length (clabels (emits win calls))) in *. destruct (emits_ops win nl calls Fc) as [EM FO]. rewrite EM in *.
  pose proof (wfo_ops calls ML) as W. set (ops := opsof calls) in *. cbn [comp_of clabels csize] in *.
  assert (NL0 : nl = length (labs_at 0 ops (maxs ops))) by (unfold nl; rewrite EM; reflexivity). clearbody nl. rewrite NL0 in FO.
  destruct (reduce_ok win ops FO W CS) as (szs & RE & Es). pose proof (est_len win _ _ _ _ Es) as LEN.
  assert (NL : nl = length (labs_at 0 ops szs)) by (rewrite (labs_len ops 0 0 szs LEN); exact NL0).
  rewrite <- NL0 in FO.
  assert (SZ : 0 <= zsum szs <= zsum (maxs ops)).
  { split; [apply (est_nonneg win _ _ _ _ Es)|apply (est_max _ _ _ _ Es)]. }
  assert (LI : linv [] [] 0 0) by (split; [reflexivity|]; intros n H; cbn in H; lia).
  assert (FI : fits (lay [] 0 0 ops szs) szs) by (apply (lay_fits win code eo nl ops szs 0 0 [] [] (labs_at 0 ops szs)); try assumption; try reflexivity; lia).
  set (ly := lay [] 0 0 ops szs) in *.
  set (AL := alabs 0 ops ly).
  assert (LO : lok code eo AL) by (intros n H; apply (lok_alabs ops ly 0), nth_In, H).
  assert (FN : fin_ok AL 0 ops ly) by (apply (lay_final win code eo nl AL ops szs 0 0 [] [] (labs_at 0 ops szs)); try assumption; try reflexivity; lia).
  exists (mkGen (fbytes AL 0 ly) AL (jumps ly) (aconsts 0 ops ly) (zsum szs) (atop 0 0 ops ly)), ly.
  assert (LAL : length AL = nl) by (unfold AL; rewrite (alabs_len code eo ops szs ly 0 0 LEN) by (apply lay_len, LEN); symmetry; exact NL).
  assert (FB : zlen (fbytes AL 0 ly) = zlen (bytes ly)) by (apply (fbytes_len AL ops ly 0 FN); lia). pose proof (fits_sum _ _ FI) as FS.
  assert (OPS : restf [] calls = ops) by (unfold ops, opsof; rewrite restf_fold; reflexivity). rewrite OPS.
  split; [|split; [|cbn [rb ralloc rtop]; split; [|split]]].
  - unfold generate. rewrite RE. cbn [cbuf clabels cjumps]. pose proof (gen_walk win code eo nl ops szs 0 [] 0 [] [] [] FO LEN) as GW. cbv zeta in GW. change (zlen (@nil Z)) with 0 in GW. fold ly in GW. rewrite GW.
    cbn [gld glt gjd gb gc gtop csize app]. fold AL. rewrite app_nil_r. pose proof (patch_all AL ops ly [] FN) as PA. cbn [app] in PA. rewrite PA. reflexivity.
  - cbn [rlabels ralloc rtop]. split; [reflexivity|]. split; [reflexivity|]. split; [exact FN|]. split; [apply lay_jr, LEN|]. split; [symmetry; apply lay_len, LEN|]. split; [lia|].
    intros n Hn. rewrite LO by (rewrite LAL; exact Hn).
    destruct (alabs_bounds win code eo ops (labs_at 0 ops szs) 0 szs 0 ly n Es FI (lay_okl win code eo ops szs [] 0 0 LEN) ltac:(rewrite <- NL; exact Hn)) as [B1 B2]. fold AL in B1, B2. unfold isw. lia.
  - lia.
  - apply (atop_bound ops (labs_at 0 ops szs) 0 szs 0 ly 0 Es FI); lia.
  - intros MT. apply (atop_bound ops (labs_at 0 ops szs) 0 szs 0 ly 0 Es FI); try lia. unfold ops, opsof. rewrite restf_fold. apply otail_restf, MT.
Qed.
Theorem link_ok : forall calls, prog_ok win code eo calls -> mov_label false calls = false ->
  exists g, generate win code eo (emits win calls) = Some g /\ (forall h, hist_ok g h -> laid win code eo g (fold_left (set_jump code g) h (rb g)) (last_set h) comp0 calls 0) /\
    zlen (rb g) <= ralloc g <= csize (emits win calls) /\ rtop g <= ralloc g + 5 /\ (mov_tail calls -> rtop g <= ralloc g).
Proof.
  intros calls PO ML. destruct (link_parts calls PO ML) as (g & ly & GE & (EG & EA & FN & JR & LL & LB & TW) & TL). exists g. split; [exact GE|]. split; [|exact TL]. destruct PO as (Fc & CS & C0 & CE & CT & _).
  rewrite EG. clear EG GE TL. set (AL := rlabels g) in *. clearbody AL.
  intros h H. unfold hist_ok in H. cbn [rjumps] in H. unfold set_jump. cbn [rjumps rb].
  destruct (hist_segs AL _ ly h FN JR LL H) as [H1 H2]. fold nojump. rewrite H1.
  change comp0 with (comp_of win []). apply (laid_from (length (clabels (emits win calls)))) with (B := []) (ALd := []) (Jd := []) (Cd := []) (ly := ly); cbn [rb rlabels rjumps rconsts]; try reflexivity; try assumption; try apply Forall_nil; try exact Logic.I.
  rewrite (segs_len AL (last_set h) _ ly 0 0 FN) by lia. unfold xpos. lia.
Qed.
End All.
