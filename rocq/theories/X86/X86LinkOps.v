(** Proofs about the x86-64 code generator: the program as a list of operations, and reduce_code_size. *)
Require Import ZArith List Bool Lia.
From Verif Require Import Rv.RvLib Rv.RvIsa X86.X86Isa X86.X86Emit X86.X86Spec X86.X86OpSpec X86.X86Cond X86.X86Link X86.X86LinkSpec.
Import ListNotations.
Ltac Zify.zify_post_hook ::= idtac.
Open Scope Z_scope.

Lemma zlen_app {A} (a b : list A) : zlen (a ++ b) = zlen a + zlen b.
Proof. unfold zlen. rewrite app_length. lia. Qed.
Lemma zlen_nil {A} : zlen (@nil A) = 0. Proof. reflexivity. Qed.
Lemma zlen_cons {A} (x : A) l : zlen (x :: l) = 1 + zlen l. Proof. unfold zlen. cbn [length]. lia. Qed.
Lemma zlen_nonneg {A} (l : list A) : 0 <= zlen l. Proof. unfold zlen. lia. Qed.

(** ** Operations *)
Inductive op := OIns (bs : list Z) | OLab | OAl (m : Z) | OJmp (k : jkind) (rewr : bool) (t : target) | OMov (reg : Z) (t : target) | OConst.
Definition omax (o : op) : Z := match o with OIns bs => zlen bs | OLab | OConst => 0 | OAl m => m | OJmp k _ _ => jump_max k | OMov _ _ => 10 end.
Definition maxs : list op -> list Z := map omax.
Definition zsum (l : list Z) : Z := fold_right Z.add 0 l.
Lemma zsum_app a b : zsum (a ++ b) = zsum a + zsum b.
Proof. unfold zsum. induction a; cbn [app fold_right]; lia. Qed.
Lemma maxs_app a b : maxs (a ++ b) = maxs a ++ maxs b. Proof. apply map_app. Qed.

Section Ops.
Variable win : bool.
Definition lab_of (e : Z) (o : op) (z : Z) : list xlabel := match o with OLab => [mkXL e None 0] | OAl m => [mkXL (e + z) (Some m) 0] | _ => [] end.
Definition jmp_of (e : Z) (o : op) : list xjump :=
  match o with
  | OJmp k rewr t => [mkXJ e k rewr false false t PNo]
  | OMov reg t => [mkXJ (e + 10) JAlways false true (8 <=? reg_map win reg) t PNo]
  | _ => []
  end.
Definition item_of (o : op) : list item :=
  match o with OIns bs => [IIns bs] | OLab | OAl _ => [ILabel] | OJmp _ _ _ => [IJump] | OMov reg _ => [IIns (load_imm64 win reg 0); IMov] | OConst => [IConst] end.
Definition const_of (e : Z) (o : op) : list Z := match o with OConst => [e] | _ => [] end.
Fixpoint labs_at (e : Z) (ops : list op) (szs : list Z) : list xlabel :=
  match ops, szs with o :: ops, z :: szs => lab_of e o z ++ labs_at (e + z) ops szs | _, _ => [] end.
Fixpoint jmps_at (e : Z) (ops : list op) (szs : list Z) : list xjump :=
  match ops, szs with o :: ops, z :: szs => jmp_of e o ++ jmps_at (e + z) ops szs | _, _ => [] end.
Fixpoint consts_at (e : Z) (ops : list op) (szs : list Z) : list Z :=
  match ops, szs with o :: ops, z :: szs => const_of e o ++ consts_at (e + z) ops szs | _, _ => [] end.

Lemma labs_at_app : forall a e b sa sb, length a = length sa -> labs_at e (a ++ b) (sa ++ sb) = labs_at e a sa ++ labs_at (e + zsum sa) b sb.
Proof.
  induction a as [|o a IH]; intros e b [|z sa] sb H; try discriminate; cbn [app labs_at zsum fold_right].
  - f_equal. lia.
  - rewrite IH by (cbn in H; lia). rewrite <- app_assoc. do 2 f_equal. f_equal. unfold zsum. lia.
Qed.
Lemma jmps_at_app : forall a e b sa sb, length a = length sa -> jmps_at e (a ++ b) (sa ++ sb) = jmps_at e a sa ++ jmps_at (e + zsum sa) b sb.
Proof.
  induction a as [|o a IH]; intros e b [|z sa] sb H; try discriminate; cbn [app jmps_at zsum fold_right].
  - f_equal. lia.
  - rewrite IH by (cbn in H; lia). rewrite <- app_assoc. do 2 f_equal. f_equal. unfold zsum. lia.
Qed.
Lemma consts_at_app : forall a e b sa sb, length a = length sa -> consts_at e (a ++ b) (sa ++ sb) = consts_at e a sa ++ consts_at (e + zsum sa) b sb.
Proof.
  induction a as [|o a IH]; intros e b [|z sa] sb H; try discriminate; cbn [app consts_at zsum fold_right].
  - f_equal. lia.
  - rewrite IH by (cbn in H; lia). rewrite <- app_assoc. do 2 f_equal. f_equal. unfold zsum. lia.
Qed.

(** The kind of the last operation, which matters for labels. *)
Inductive pv := POther | PLab | PMov.
Definition nxt (p : pv) (o : op) : pv := match o with OIns _ | OJmp _ _ _ => POther | OLab | OAl _ => PLab | OMov _ _ => PMov | OConst => p end.
Definition st (ops : list op) : pv := fold_left nxt ops POther.
Definition ends_label (ops : list op) : bool := match st ops with PLab => true | _ => false end.
Definition kop (ops : list op) (k : call) : list op :=
  match k with
  | KIns bs => [OIns bs]
  | KLabel => if ends_label ops then [] else [OLab]
  | KAlign al => if al <=? 0 then (if ends_label ops then [] else [OLab]) else [OAl (2 ^ al - 1)]
  | KJump k rewr t => [OJmp k rewr t]
  | KMov reg t => [OMov reg t]
  | KConst => [OConst]
  end.
Definition opstep (ops : list op) (k : call) : list op := ops ++ kop ops k.
Definition opsof (calls : list call) : list op := fold_left opstep calls [].
Definition comp_of (ops : list op) : comp :=
  mkComp (flat_map item_of ops) (labs_at 0 ops (maxs ops)) (jmps_at 0 ops (maxs ops)) (consts_at 0 ops (maxs ops)) (zsum (maxs ops)).

Definition opok (nl : nat) (o : op) : Prop :=
  match o with
  | OIns bs => bs <> []
  | OLab | OConst => True
  | OAl m => exists al, 0 < al <= 4 /\ m = 2 ^ al - 1
  | OJmp k _ t => kind_ok k /\ target_ok nl t
  | OMov reg t => isreg reg /\ reg <> 0 /\ reg <> SLJIT_SP /\ target_ok nl t
  end.
Lemma kop_ok : forall nl ops k, call_ok nl k -> Forall (opok nl) (kop ops k).
Proof.
  intros nl ops k H. destruct k; cbn [kop call_ok] in *; try (constructor; [exact H|constructor]).
  - destruct (ends_label ops); repeat constructor.
  - destruct (al <=? 0) eqn:E; [destruct (ends_label ops); repeat constructor|]. constructor; [|constructor]. exists al. apply Z.leb_gt in E. split; [lia|reflexivity].
Qed.
Lemma pow_al : forall al, 0 < al <= 4 -> 2 <= 2 ^ al <= 16.
Proof. intros al H. assert (al = 1 \/ al = 2 \/ al = 3 \/ al = 4) as [-> | [-> | [-> | ->]]] by lia; lia. Qed.
Lemma omax_nonneg : forall nl o, opok nl o -> 0 <= omax o.
Proof.
  intros nl [bs| |m|k rw t|reg t|] H; cbn [omax opok] in *; try lia; [apply zlen_nonneg| |destruct k; cbv; congruence].
  destruct H as (al & A & ->). pose proof (pow_al al A). lia.
Qed.
Lemma zsum_maxs_nonneg : forall nl ops, Forall (opok nl) ops -> 0 <= zsum (maxs ops).
Proof. unfold zsum, maxs. intros nl ops H. induction H; cbn [map fold_right]; [lia|]. pose proof (omax_nonneg _ _ H). lia. Qed.

Lemma st_app : forall a o, st (a ++ [o]) = nxt (st a) o.
Proof. intros. unfold st. rewrite fold_left_app. reflexivity. Qed.
Lemma comp_app : forall a o, comp_of (a ++ [o]) = mkComp (cbuf (comp_of a) ++ item_of o) (clabels (comp_of a) ++ lab_of (csize (comp_of a)) o (omax o))
  (cjumps (comp_of a) ++ jmp_of (csize (comp_of a)) o) (cconsts (comp_of a) ++ const_of (csize (comp_of a)) o) (csize (comp_of a) + omax o).
Proof.
  intros a o. unfold comp_of at 1. cbn [comp_of cbuf clabels cjumps cconsts csize]. rewrite flat_map_app, maxs_app, zsum_app.
  rewrite labs_at_app, jmps_at_app, consts_at_app by (unfold maxs; rewrite map_length; reflexivity). cbn [flat_map maxs map labs_at jmps_at consts_at].
  rewrite !app_nil_r, !Z.add_0_l. f_equal. unfold zsum. cbn [fold_right]. lia.
Qed.
(** The last label is at the end iff nothing follows it. *)
Lemma last_ok : forall nl ops, Forall (opok nl) ops ->
  match st ops with
  | PLab => exists l, last_label (comp_of ops) = Some l /\ lsize l = csize (comp_of ops)
  | _ => forall l, last_label (comp_of ops) = Some l -> lsize l < csize (comp_of ops)
  end.
Proof.
  intros nl ops. induction ops as [|o ops IH] using rev_ind; intros F; [intros l H; discriminate|].
  apply Forall_app in F. destruct F as [F Fo]. apply Forall_inv in Fo. specialize (IH F). rewrite st_app, comp_app.
  assert (P0 : forall l, last_label (comp_of ops) = Some l -> lsize l <= csize (comp_of ops)).
  { intros l H. destruct (st ops); [specialize (IH l H); lia| |specialize (IH l H); lia]. destruct IH as (l' & A & B). rewrite A in H. injection H as <-. lia. }
  unfold last_label in *. cbn [clabels csize]. destruct o as [bs| |m|k rw t|reg t|]; cbn [nxt lab_of omax].
  - rewrite app_nil_r. intros l H. specialize (P0 l H). assert (0 < zlen bs) by (destruct bs; [elim Fo; reflexivity|rewrite zlen_cons; pose proof (zlen_nonneg bs); lia]). lia.
  - rewrite rev_app_distr. cbn [rev app]. eexists. split; [reflexivity|]. cbn [lsize]. lia.
  - rewrite rev_app_distr. cbn [rev app]. eexists. split; [reflexivity|]. reflexivity.
  - rewrite app_nil_r. intros l H. specialize (P0 l H). destruct k; cbn [jump_max]; unfold CJUMP_MAX, JUMP_MAX; lia.
  - rewrite app_nil_r. intros l H. specialize (P0 l H). lia.
  - rewrite app_nil_r, Z.add_0_r. exact IH.
Qed.
Lemma emit_step : forall nl ops k, Forall (opok nl) ops -> call_ok nl k -> emit win (comp_of ops) k = comp_of (opstep ops k).
Proof.
  intros nl ops k F H. pose proof (last_ok nl ops F) as L. unfold opstep.
  assert (LL : emit_label (comp_of ops) = comp_of (ops ++ if ends_label ops then [] else [OLab])).
  { unfold ends_label, emit_label. destruct (st ops).
    - rewrite comp_app. cbn [item_of lab_of jmp_of const_of omax]. rewrite !app_nil_r, Z.add_0_r.
      destruct (last_label (comp_of ops)) as [l|]; [|reflexivity]. specialize (L l eq_refl). replace (lsize l =? csize (comp_of ops)) with false by (symmetry; apply Z.eqb_neq; lia). reflexivity.
    - destruct L as (l & -> & ->). rewrite Z.eqb_refl, app_nil_r. reflexivity.
    - rewrite comp_app. cbn [item_of lab_of jmp_of const_of omax]. rewrite !app_nil_r, Z.add_0_r.
      destruct (last_label (comp_of ops)) as [l|]; [|reflexivity]. specialize (L l eq_refl). replace (lsize l =? csize (comp_of ops)) with false by (symmetry; apply Z.eqb_neq; lia). reflexivity. }
  destruct k as [bs| |al|k rw t|reg t|]; cbn [emit kop].
  - rewrite comp_app. cbn [item_of lab_of jmp_of const_of omax]. rewrite !app_nil_r. reflexivity.
  - exact LL.
  - unfold emit_aligned. destruct (al <=? 0); [exact LL|]. rewrite comp_app. cbn [item_of lab_of jmp_of const_of omax]. rewrite !app_nil_r. reflexivity.
  - rewrite comp_app. cbn [item_of lab_of jmp_of const_of omax]. rewrite !app_nil_r. reflexivity.
  - rewrite comp_app. cbn [item_of lab_of jmp_of const_of omax]. rewrite !app_nil_r. reflexivity.
  - rewrite comp_app. cbn [item_of lab_of jmp_of const_of omax]. rewrite !app_nil_r, Z.add_0_r. reflexivity.
Qed.
Lemma emits_from : forall nl calls ops, Forall (opok nl) ops -> Forall (call_ok nl) calls ->
  fold_left (emit win) calls (comp_of ops) = comp_of (fold_left opstep calls ops) /\ Forall (opok nl) (fold_left opstep calls ops).
Proof.
  intros nl calls. induction calls as [|k calls IH]; intros ops F H; [split; [reflexivity|exact F]|]. cbn [fold_left].
  apply Forall_cons_iff in H as [H1 H2]. rewrite (emit_step nl) by assumption. apply IH; [|exact H2]. unfold opstep. apply Forall_app. split; [exact F|]. apply kop_ok, H1.
Qed.
Lemma emits_ops : forall nl calls, Forall (call_ok nl) calls -> emits win calls = comp_of (opsof calls) /\ Forall (opok nl) (opsof calls).
Proof. intros nl calls H. apply (emits_from nl calls []); [constructor|exact H]. Qed.

(** No label directly after another one or after an address load. *)
Fixpoint wfo (p : pv) (ops : list op) : Prop :=
  match ops with [] => True | o :: ops => match o with OLab => p = POther | _ => True end /\ wfo (nxt p o) ops end.
Lemma wfo_app : forall a p b, wfo p a -> wfo (fold_left nxt a p) b -> wfo p (a ++ b).
Proof. induction a as [|o a IH]; intros p b H1 H2; [exact H2|]. cbn [app wfo fold_left] in *. destruct H1 as [A B]. split; [exact A|]. apply IH; assumption. Qed.
Lemma wfo_from : forall calls ops, wfo POther ops -> mov_label (match st ops with PMov => true | _ => false end) calls = false -> wfo POther (fold_left opstep calls ops).
Proof.
  induction calls as [|k calls IH]; intros ops W H; [exact W|]. cbn [fold_left]. apply IH.
  - unfold opstep. apply wfo_app; [exact W|]. fold (st ops). destruct k as [bs| |al|k rw t|reg t|]; cbn [kop wfo]; auto.
    + unfold ends_label. destruct (st ops); cbn in *; auto; discriminate.
    + cbn [mov_label] in H. destruct (al <=? 0); [|cbn; auto]. unfold ends_label. destruct (st ops); cbn in *; auto; discriminate.
  - unfold opstep. destruct k as [bs| |al|k rw t|reg t|]; cbn [kop mov_label] in *; rewrite ?st_app; cbn [nxt]; auto.
    + apply orb_false_iff in H as [H1 H2]. unfold ends_label. destruct (st ops) eqn:E; rewrite ?app_nil_r, ?st_app, ?E; cbn [nxt]; auto.
    + apply orb_false_iff in H as [H1 H2]. destruct (al <=? 0); [|rewrite st_app; exact H2]. unfold ends_label. destruct (st ops) eqn:E; rewrite ?app_nil_r, ?st_app, ?E; cbn [nxt]; auto.
Qed.
Lemma wfo_ops : forall calls, mov_label false calls = false -> wfo POther (opsof calls).
Proof. intros calls H. apply wfo_from; [exact I|exact H]. Qed.
End Ops.
