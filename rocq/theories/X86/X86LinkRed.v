(** Proofs about the x86-64 code generator: reduce_code_size computes bounds of the sizes. *)
Require Import ZArith List Bool Lia.
From Verif Require Import Rv.RvLib Rv.RvIsa X86.X86Isa X86.X86Emit X86.X86Spec X86.X86OpSpec X86.X86Cond X86.X86Link X86.X86LinkSpec X86.X86LinkOps.
Import ListNotations.
Ltac Zify.zify_post_hook ::= idtac.
Open Scope Z_scope.

Section Red.
Variable win : bool.
Notation labs_at := labs_at. Notation jmps_at := (jmps_at win).

Definition nearsz (k : jkind) : Z := match k with JCond _ => 6 | _ => 5 end.
(** The bound [z] of the size of an operation at the (bounded) position [e]; [labs]: the labels with bounded positions. *)
Definition est_ok (labs : list xlabel) (e : Z) (o : op) (z : Z) : Prop :=
  match o with
  | OIns bs => z = zlen bs
  | OLab | OConst => z = 0
  | OAl m => z = m
  | OJmp k rewr t =>
    if rewr then z = jump_max k
    else match t with
      | TAddr a => z = jump_max k - (if a <=? 0xffffffff then 4 else 0)
      | TLabel n => z = nearsz k \/ (z = 2 /\ k <> JCall /\ -126 <= lsz labs n - e <= 129)
      end
  | OMov reg t => match t with TLabel _ => z = 7 | TAddr a => z = 10 - (if a <=? 0xffffffff then (if 8 <=? reg_map win reg then 4 else 5) else 0) end
  end.
Fixpoint Est (labs : list xlabel) (e : Z) (ops : list op) (szs : list Z) : Prop :=
  match ops, szs with
  | [], [] => True
  | o :: ops, z :: szs => est_ok labs e o z /\ 0 <= z <= omax o /\ Est labs (e + z) ops szs
  | _, _ => False
  end.

(** ** Order of the labels and jumps *)
Definition total (p : Z) (ops : list op) : Z := p + zsum (maxs ops).
Lemma total_cons : forall p o ops, total p (o :: ops) = total (p + omax o) ops.
Proof. intros. unfold total, maxs, zsum. cbn [map fold_right]. lia. Qed.
Lemma total_ge : forall nl ops p, Forall (opok nl) ops -> p <= total p ops.
Proof. intros nl ops p F. unfold total. pose proof (zsum_maxs_nonneg nl ops F). lia. Qed.
Lemma first_lab : forall nl ops pv p, Forall (opok nl) ops -> wfo pv ops -> total p ops < MAXA ->
  match pv with POther => p <= next_size (labs_at p ops (maxs ops)) | _ => p < next_size (labs_at p ops (maxs ops)) end.
Proof.
  intros nl ops. induction ops as [|o ops IH]; intros pv p F W T.
  - cbn [labs_at next_size]. unfold total in T. cbn [maxs map zsum fold_right] in T. destruct pv; lia.
  - apply Forall_cons_iff in F as [Fo F]. destruct W as [W1 W2]. rewrite total_cons in T. specialize (IH _ _ F W2 T).
    cbn [maxs map X86LinkOps.labs_at]. destruct o as [bs| |m|k rw t|reg t|]; cbn [lab_of app next_size lsize omax nxt] in *.
    + assert (0 < zlen bs) by (destruct bs; [elim Fo; reflexivity|rewrite zlen_cons; pose proof (zlen_nonneg bs); lia]). fold (maxs ops). destruct pv; lia.
    + subst pv. lia.
    + destruct Fo as (al & A & ->). pose proof (pow_al al A). destruct pv; lia.
    + assert (0 < jump_max k) by (destruct k; reflexivity). fold (maxs ops). destruct pv; lia.
    + fold (maxs ops). destruct pv; lia.
    + rewrite Z.add_0_r in *. exact IH.
Qed.
Lemma first_jmp : forall nl ops p, Forall (opok nl) ops -> total p ops < MAXA -> p <= next_addr (jmps_at p ops (maxs ops)).
Proof.
  intros nl ops. induction ops as [|o ops IH]; intros p F T.
  - cbn [X86LinkOps.jmps_at next_addr]. unfold total in T. cbn [maxs map zsum fold_right] in T. lia.
  - apply Forall_cons_iff in F as [Fo F]. rewrite total_cons in T. specialize (IH _ F T). pose proof (omax_nonneg _ _ Fo).
    cbn [maxs map X86LinkOps.jmps_at]. fold (maxs ops). destruct o as [bs| |m|k rw t|reg t|]; cbn [jmp_of app next_addr jaddr omax] in *; lia.
Qed.

(** ** Steps of the loop *)
Lemma step_label : forall fuel ld l lt jd jts sr, lsize l <= next_addr jts -> lsize l < next_size lt -> lsize l < MAXA ->
  exists f', (f' = S fuel \/ f' = fuel) /\ reduce (S fuel) ld (l :: lt) jd jts sr = reduce f' (ld ++ [set_lsize l (lsize l - sr)]) lt jd jts sr.
Proof.
  intros fuel ld l lt jd jts sr H1 H2 H3. cbn [reduce next_size]. rewrite Z.min_l by lia. replace (lsize l =? MAXA) with false by (symmetry; apply Z.eqb_neq; lia).
  rewrite Z.eqb_refl. destruct (lsize l =? next_addr jts) eqn:E.
  - apply Z.eqb_eq in E. exists (S fuel). split; [auto|]. cbn [negb]. cbn [reduce]. rewrite <- E, Z.min_r by lia.
    replace (lsize l =? MAXA) with false by (symmetry; apply Z.eqb_neq; lia). replace (lsize l =? next_size lt) with false by (symmetry; apply Z.eqb_neq; lia).
    rewrite Z.eqb_refl. reflexivity.
  - exists fuel. split; [auto|]. reflexivity.
Qed.
Lemma step_jump : forall fuel ld lt jd j jts sr, jaddr j < next_size lt -> jaddr j < MAXA ->
  reduce (S fuel) ld lt jd (j :: jts) sr =
  let j' := set_jaddr j (jaddr j - sr) in reduce fuel ld lt (jd ++ [j']) jts (sr + reduce_jump (ld ++ lt) sr j').
Proof.
  intros fuel ld lt jd j jts sr H1 H2. cbn [reduce next_addr]. rewrite Z.min_r by lia. replace (jaddr j =? MAXA) with false by (symmetry; apply Z.eqb_neq; lia).
  replace (jaddr j =? next_size lt) with false by (symmetry; apply Z.eqb_neq; lia). rewrite Z.eqb_refl. reflexivity.
Qed.

(** ** Labels behind *)
Definition nolab := mkXL 0 None 0.
Lemma lsz_app1 : forall a b n, (n < length a)%nat -> lsz (a ++ b) n = lsz a n.
Proof. intros. unfold lsz. rewrite app_nth1; auto. Qed.
Lemma lsz_app2 : forall a b n, (length a <= n)%nat -> lsz (a ++ b) n = lsz b (n - length a).
Proof. intros. unfold lsz. rewrite app_nth2; auto. Qed.
(** Reducing sizes does not increase distances. *)
Lemma lab_shrink : forall nl ops p e szs labs n, Forall (opok nl) ops -> Est labs e ops szs -> (n < length (labs_at p ops (maxs ops)))%nat ->
  0 <= lsz (labs_at e ops szs) n - e <= lsz (labs_at p ops (maxs ops)) n - p /\ lsz (labs_at p ops (maxs ops)) n <= total p ops.
Proof.
  intros nl ops. induction ops as [|o ops IH]; intros p e [|z szs] labs n F Es N; cbn [Est] in Es; try contradiction; [cbn in N; lia|].
  apply Forall_cons_iff in F as [Fo F]. destruct Es as (Eo & Ez & Es). rewrite total_cons. cbn [maxs map X86LinkOps.labs_at] in *. fold (maxs ops) in *.
  pose proof (total_ge nl ops (p + omax o) F) as G.
  assert (LL : length (lab_of e o z) = length (lab_of p o (omax o))) by (destruct o; reflexivity).
  destruct (Nat.lt_ge_cases n (length (lab_of p o (omax o)))) as [H|H].
  - rewrite !lsz_app1 by lia. destruct o; cbn [lab_of length omax] in *; try lia; assert (n = 0%nat) as -> by lia; cbn [lsz nth lsize]; unfold lsz; cbn [nth lsize]; lia.
  - rewrite app_length in N. rewrite !lsz_app2 by lia. rewrite LL. specialize (IH (p + omax o) (e + z) szs labs (n - length (lab_of p o (omax o)))%nat F Es ltac:(lia)). lia.
Qed.
Lemma labs_len : forall ops e p szs, length ops = length szs -> length (labs_at e ops szs) = length (labs_at p ops (maxs ops)).
Proof.
  induction ops as [|o ops IH]; intros e p [|z szs] H; try discriminate; [reflexivity|]. cbn [X86LinkOps.labs_at maxs map]. rewrite !app_length. f_equal; [destruct o; reflexivity|].
  apply IH. cbn in H. lia.
Qed.
Lemma est_len : forall ops labs e szs, Est labs e ops szs -> length ops = length szs.
Proof. induction ops as [|o ops IH]; intros labs e [|z szs] H; cbn [Est] in H; try contradiction; [reflexivity|]. destruct H as (_ & _ & H). cbn [length]. f_equal. eapply IH, H. Qed.

Lemma reduce_walk : forall nl ops pv p sr ld jd fuel, Forall (opok nl) ops -> wfo pv ops -> total p ops <= 2 ^ 31 - 32 -> 0 <= sr <= p ->
  Forall (fun l => 0 <= lsize l <= p - sr) ld -> nl = (length ld + length (labs_at p ops (maxs ops)))%nat ->
  (length (labs_at p ops (maxs ops)) + length (jmps_at p ops (maxs ops)) < fuel)%nat ->
  exists szs, reduce fuel ld (labs_at p ops (maxs ops)) jd (jmps_at p ops (maxs ops)) sr
      = Some (ld ++ labs_at (p - sr) ops szs, jd ++ jmps_at (p - sr) ops szs, sr + zsum (maxs ops) - zsum szs)
    /\ Est (ld ++ labs_at (p - sr) ops szs) (p - sr) ops szs.
Proof.
  intros nl ops. induction ops as [|o ops IH]; intros pv p sr ld jd fuel F W T S L N FU.
  - exists []. cbn [maxs map X86LinkOps.labs_at X86LinkOps.jmps_at zsum fold_right Est]. split; [|exact I]. destruct fuel; [cbn in FU; lia|]. cbn [reduce next_size next_addr].
    rewrite Z.min_id, Z.eqb_refl. rewrite !app_nil_r. do 2 f_equal. lia.
  - apply Forall_cons_iff in F as [Fo F]. destruct W as [W1 W2]. rewrite total_cons in T. pose proof (omax_nonneg _ _ Fo) as O0. pose proof (total_ge nl ops (p + omax o) F) as G.
    assert (MX : 2 ^ 31 < MAXA) by reflexivity.
    pose proof (first_lab nl ops _ (p + omax o) F W2 ltac:(lia)) as FL. pose proof (first_jmp nl ops (p + omax o) F ltac:(lia)) as FJ.
    cbn [maxs map X86LinkOps.labs_at X86LinkOps.jmps_at] in *. fold (maxs ops) in *.
    destruct o as [bs| |m|k rw t|reg t|].
    + (* instruction *)
      cbn [lab_of jmp_of app omax] in *. destruct (IH POther (p + zlen bs) sr ld jd fuel F W2 T ltac:(lia)) as (szs & E1 & E2); [|exact N|exact FU|].
      { eapply Forall_impl; [|exact L]. cbn beta. intros. lia. }
      exists (zlen bs :: szs). cbn [X86LinkOps.labs_at X86LinkOps.jmps_at lab_of jmp_of app Est est_ok omax]. rewrite E1.
      replace (p - sr + zlen bs) with (p + zlen bs - sr) by lia. split; [|split; [reflexivity|split; [lia|exact E2]]]. do 2 f_equal; unfold zsum; cbn [fold_right]; lia.
    + (* label *)
      cbn [lab_of jmp_of app omax nxt] in *. rewrite Z.add_0_r in *. destruct fuel as [|fuel]; [cbn in FU; lia|].
      destruct (step_label fuel ld (mkXL p None 0) (labs_at p ops (maxs ops)) jd (jmps_at p ops (maxs ops)) sr) as (f' & Hf & ->); cbn [lsize]; try lia.
      destruct (IH PLab p sr (ld ++ [mkXL (p - sr) None 0]) jd f' F W2 T S) as (szs & E1 & E2).
      { apply Forall_app. split; [exact L|]. constructor; [cbn [lsize]; lia|constructor]. }
      { rewrite app_length. cbn [length] in *. lia. }
      { cbn [length] in FU. lia. }
      exists (0 :: szs). unfold set_lsize. cbn [lsize lmask laddr]. rewrite E1. cbn [X86LinkOps.labs_at X86LinkOps.jmps_at lab_of jmp_of app Est est_ok omax]. rewrite Z.add_0_r.
      rewrite <- app_assoc in *. cbn [app] in *. split; [|split; [reflexivity|split; [lia|exact E2]]]. do 2 f_equal; unfold zsum; cbn [fold_right]; lia.
    + (* aligned label *)
      cbn [lab_of jmp_of app omax nxt] in *. destruct fuel as [|fuel]; [cbn in FU; lia|].
      destruct (step_label fuel ld (mkXL (p + m) (Some m) 0) (labs_at (p + m) ops (maxs ops)) jd (jmps_at (p + m) ops (maxs ops)) sr) as (f' & Hf & ->); cbn [lsize]; try lia.
      destruct (IH PLab (p + m) sr (ld ++ [mkXL (p + m - sr) (Some m) 0]) jd f' F W2 T ltac:(lia)) as (szs & E1 & E2).
      { apply Forall_app. split; [eapply Forall_impl; [|exact L]; cbn beta; intros; lia|]. constructor; [cbn [lsize]; lia|constructor]. }
      { rewrite app_length. cbn [length] in *. lia. }
      { cbn [length] in FU. lia. }
      exists (m :: szs). unfold set_lsize. cbn [lsize lmask laddr]. rewrite E1. cbn [X86LinkOps.labs_at X86LinkOps.jmps_at lab_of jmp_of app Est est_ok omax].
      replace (p - sr + m) with (p + m - sr) by lia.
      rewrite <- app_assoc in *. cbn [app] in *. split; [|split; [reflexivity|split; [lia|exact E2]]]. do 2 f_equal; unfold zsum; cbn [fold_right]; lia.
    + (* jump *)
      cbn [lab_of jmp_of app omax nxt] in *. destruct fuel as [|fuel]; [cbn in FU; lia|].
      assert (JM : 13 <= jump_max k <= 15) by (destruct k; cbv; split; congruence).
      rewrite step_jump; cbn [jaddr]; try lia. unfold set_jaddr. cbn [jaddr jk jrewr jmov jhi jt jp]. cbv zeta.
      set (j := mkXJ (p - sr) k rw false false t PNo). set (q := reduce_jump (ld ++ labs_at (p + jump_max k) ops (maxs ops)) sr j).
      assert (Q : 0 <= q <= jump_max k).
      { subst q. unfold reduce_jump. cbn [j jmov jrewr jt jk jaddr]. destruct rw; [lia|]. destruct t as [n|a]; [|destruct (a <=? _); lia].
        destruct k; unfold JUMP_MAX, CJUMP_MAX; cbv [jump_max JUMP_MAX CJUMP_MAX]; repeat match goal with |- context [if ?b then _ else _] => destruct b end; lia. }
      destruct (IH POther (p + jump_max k) (sr + q) ld (jd ++ [j]) fuel F W2 T ltac:(lia)) as (szs & E1 & E2).
      { eapply Forall_impl; [|exact L]. cbn beta. intros. lia. }
      { exact N. }
      { cbn [length] in FU. lia. }
      exists (jump_max k - q :: szs). rewrite E1. cbn [X86LinkOps.labs_at X86LinkOps.jmps_at lab_of jmp_of app Est omax].
      replace (p - sr + (jump_max k - q)) with (p + jump_max k - (sr + q)) by lia. rewrite <- app_assoc. cbn [app].
      split; [do 2 f_equal; unfold zsum; cbn [fold_right]; lia|]. split; [|split; [lia|exact E2]].
      (* the bound *)
      cbn [est_ok]. subst q. unfold reduce_jump in *. cbn [j jmov jrewr jt jk jaddr] in *. destruct rw; [lia|]. destruct t as [n|a]; [|destruct (a <=? _); lia].
      set (q := match k with JCond _ => _ | JAlways => _ | JCall => _ end) in *. clearbody j.
      set (u := lsz (ld ++ labs_at (p + jump_max k) ops (maxs ops)) n) in *.
      set (diff := u - (p - sr) - (if p - sr <? u then sr else 0)) in *.
      assert (Qe : q = q) by reflexivity. unfold q at 2 in Qe. clearbody q.
      set (f := lsz (ld ++ labs_at (p + jump_max k - (sr + q)) ops szs) n).
      assert (D : (diff <= 0 /\ f - (p - sr) = diff) \/ (0 <= f - (p - sr) <= diff) /\ 0 <= diff).
      { destruct Fo as [_ Ft]. cbn [target_ok] in Ft. destruct (Nat.lt_ge_cases n (length ld)) as [H|H].
        - left. subst f diff u. rewrite !lsz_app1 by exact H. assert (0 <= lsz ld n <= p - sr) as LB.
          { unfold lsz. pose proof (proj1 (Forall_forall _ _) L (nth n ld nolab) (nth_In _ _ H)) as X. exact X. }
          replace (p - sr <? lsz ld n) with false by (symmetry; apply Z.ltb_ge; lia). lia.
        - right. subst f diff u. rewrite !lsz_app2 by exact H.
          destruct (lab_shrink nl ops (p + jump_max k) (p + jump_max k - (sr + q)) szs _ (n - length ld) F E2 ltac:(lia)) as [X Y].
          match goal with |- context [if ?b then _ else _] => replace b with true by (symmetry; apply Z.ltb_lt; lia) end. lia. }
      assert (DB : - 2 ^ 31 + 32 <= diff <= 2 ^ 31 - 32).
      { destruct Fo as [_ Ft]. cbn [target_ok] in Ft. subst diff u. destruct (Nat.lt_ge_cases n (length ld)) as [H|H].
        - rewrite !lsz_app1 by exact H. assert (0 <= lsz ld n <= p - sr) as LB.
          { unfold lsz. pose proof (proj1 (Forall_forall _ _) L (nth n ld nolab) (nth_In _ _ H)) as X. exact X. }
          replace (p - sr <? lsz ld n) with false by (symmetry; apply Z.ltb_ge; lia). lia.
        - rewrite !lsz_app2 by exact H.
          destruct (lab_shrink nl ops (p + jump_max k) (p + jump_max k - (sr + q)) szs _ (n - length ld) F E2 ltac:(lia)) as [X Y].
          match goal with |- context [if ?b then _ else _] => replace b with true by (symmetry; apply Z.ltb_lt; lia) end. lia. }
      clearbody diff u f. clear - D DB Qe. unfold HMAX, HMIN in Qe.
      destruct k; cbn [nearsz jump_max] in *; unfold CJUMP_MAX, JUMP_MAX in *;
        repeat match type of Qe with context [if ?b then _ else _] => let E := fresh in destruct b eqn:E end;
        try (left; lia); try (right; split; [lia|]; split; [discriminate|]; apply andb_prop in H as [H1 H2]; apply Z.leb_le in H1, H2; lia).
      all: exfalso; apply andb_false_iff in H0 as [H0|H0] || apply andb_false_iff in H as [H0|H0]; apply Z.leb_gt in H0; lia.
    + (* address *)
      cbn [lab_of jmp_of app omax nxt] in *. destruct fuel as [|fuel]; [cbn in FU; lia|].
      rewrite step_jump; cbn [jaddr]; try lia. unfold set_jaddr. cbn [jaddr jk jrewr jmov jhi jt jp]. cbv zeta.
      set (j := mkXJ (p + 10 - sr) JAlways false true (8 <=? reg_map win reg) t PNo). set (q := reduce_jump (ld ++ labs_at (p + 10) ops (maxs ops)) sr j).
      assert (Q : q = 10 - match t with TLabel _ => 7 | TAddr a => 10 - (if a <=? 0xffffffff then (if 8 <=? reg_map win reg then 4 else 5) else 0) end).
      { subst q. unfold reduce_jump. cbn [j jmov jrewr jt jk jaddr jhi]. destruct t as [n|a]; [|lia]. destruct Fo as (_ & _ & _ & Ft). cbn [target_ok] in Ft.
        assert (LB : - 2 ^ 31 + 32 <= lsz (ld ++ labs_at (p + 10) ops (maxs ops)) n - (p + 10 - sr - 3) <= 2 ^ 31 - 1).
        { destruct (Nat.lt_ge_cases n (length ld)) as [H|H].
          - rewrite !lsz_app1 by exact H. unfold lsz. pose proof (proj1 (Forall_forall _ _) L (nth n ld nolab) (nth_In _ _ H)) as X. cbn beta in X. unfold nolab in X. lia.
          - rewrite !lsz_app2 by exact H.
            assert (EE : exists szs labs, forall e, Est labs e ops szs).
            { exists (map (fun o => match o with OJmp k true t => jump_max k | OJmp k false (TLabel _) => nearsz k | OJmp k false (TAddr a) => jump_max k - (if a <=? 0xffffffff then 4 else 0)
                 | OMov reg (TLabel _) => 7 | OMov reg (TAddr a) => 10 - (if a <=? 0xffffffff then (if 8 <=? reg_map win reg then 4 else 5) else 0) | _ => omax o end) ops), [].
              clear - F. induction F as [|o ops Fo F IH]; intros e; [exact I|]. cbn [map Est]. split; [|split; [|apply IH]].
              - destruct o as [bs| |m|k [] [n|a]|reg [n|a]|]; cbn [est_ok omax]; auto.
              - pose proof (omax_nonneg _ _ Fo). destruct o as [bs| |m|k [] [n|a]|reg [n|a]|]; cbn [omax] in *; try lia; try (destruct k; cbv [jump_max nearsz JUMP_MAX CJUMP_MAX]; lia);
                  repeat match goal with |- context [if ?b then _ else _] => destruct b end; try lia; destruct k; cbv [jump_max nearsz JUMP_MAX CJUMP_MAX]; lia. }
            destruct EE as (szs0 & labs0 & EE). destruct (lab_shrink nl ops (p + 10) 0 szs0 labs0 (n - length ld) F (EE 0) ltac:(lia)) as [X Y]. lia. }
        unfold HMAX, HMIN. replace (_ <=? _) with true by (symmetry; apply Z.leb_le; lia). replace (_ <=? _) with true by (symmetry; apply Z.leb_le; lia). reflexivity. }
      assert (QR : 0 <= q <= 10) by (rewrite Q; destruct t as [n|a]; [lia|]; destruct (a <=? _); destruct (8 <=? _); lia).
      destruct (IH PMov (p + 10) (sr + q) ld (jd ++ [j]) fuel F W2 T ltac:(lia)) as (szs & E1 & E2).
      { eapply Forall_impl; [|exact L]. cbn beta. intros. lia. }
      { exact N. }
      { cbn [length] in FU. lia. }
      exists (10 - q :: szs). rewrite E1. cbn [X86LinkOps.labs_at X86LinkOps.jmps_at lab_of jmp_of app Est omax].
      replace (p - sr + (10 - q)) with (p + 10 - (sr + q)) by lia. rewrite <- app_assoc. cbn [app].
      split; [subst j; do 2 f_equal; [|unfold zsum; cbn [fold_right]; lia]; do 4 f_equal; lia|]. split; [|split; [lia|exact E2]].
      cbn [est_ok]. destruct t; lia.
    + (* constant *)
      cbn [lab_of jmp_of app omax nxt] in *. rewrite Z.add_0_r in *. destruct (IH pv p sr ld jd fuel F W2 T S L N FU) as (szs & E1 & E2).
      exists (0 :: szs). cbn [X86LinkOps.labs_at X86LinkOps.jmps_at lab_of jmp_of app Est est_ok omax]. rewrite E1, Z.add_0_r. split; [|split; [reflexivity|split; [lia|exact E2]]].
      do 2 f_equal.
Qed.
Theorem reduce_ok : forall ops, let labs := labs_at 0 ops (maxs ops) in Forall (opok (length labs)) ops -> wfo POther ops -> zsum (maxs ops) <= 2 ^ 31 - 32 ->
  exists szs, reduce_code_size (comp_of win ops)
      = Some (mkComp (flat_map (item_of win) ops) (labs_at 0 ops szs) (jmps_at 0 ops szs) (consts_at 0 ops (maxs ops)) (zsum szs))
    /\ Est (labs_at 0 ops szs) 0 ops szs.
Proof.
  intros ops labs F W T. destruct (reduce_walk (length labs) ops POther 0 0 [] [] (S (length labs + length (jmps_at 0 ops (maxs ops)))) F W) as (szs & E1 & E2);
    [unfold total; lia|lia|constructor|reflexivity|subst labs; lia|].
  exists szs. unfold reduce_code_size, comp_of. cbn [clabels cjumps cbuf cconsts csize]. subst labs. rewrite E1. cbn [app] in *. split; [|exact E2]. do 2 f_equal. lia.
Qed.
End Red.
