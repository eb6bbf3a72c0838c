(** Where the code of each call ends up. *)
Require Import ZArith List Bool Lia Zify ZifyBool.
From Verif Require Import Rv.RvLib Rv.RvBits Rv.RvIsa Rv.RvEnc Rv.RvImm Rv.RvRun Rv.RvImmProofs Rv.RvConst Rv.RvAddr Rv.RvCtl Rv.RvAddrProofs Rv.RvLink Rv.RvLinkOps Rv.RvLinkReduce Rv.RvLinkEst Rv.RvLinkGen Rv.RvLinkPick Rv.RvLinkFit Rv.RvLinkLay Rv.RvLinkPatch Rv.RvLinkAll Rv.RvLinkExec Rv.RvLinkApi.
Import ListNotations.
Open Scope Z_scope.
Ltac Zify.zify_post_hook ::= idtac.

(** ** Programs are well formed *)
Lemma okl_app a c : forall b, okl b a -> okl (ends_label b a) c -> okl b (a ++ c).
Proof.
  induction a as [|o a IH]; intros b H1 H2; [exact H2|]. cbn [app okl ends_label is_label] in *. destruct o; cbn [is_label] in *; try (apply IH; auto).
  - destruct H1. split; auto.
  - destruct H1. split; auto.
Qed.
Lemma okl_units b l : okl b (units_ops l).
Proof. revert b. induction l; intros b; cbn; [exact I|apply IHl]. Qed.
Lemma nops_length cf al : small_al cf al = false -> 0 <= al -> 0 <= mask_of cf al <= 2 * Z.of_nat (length (nops_of cf al)) /\ mask_of cf al mod 2 = 0 /\ nops_of cf al <> [].
Proof.
  intros S A. unfold small_al, mask_of, nops_of in *. destruct (cC cf).
  - assert (2 ^ al = 4 * 2 ^ (al - 2)) as E by (replace al with (2 + (al - 2)) at 1 by lia; rewrite Z.pow_add_r by lia; reflexivity).
    assert (1 <= 2 ^ (al - 2)) by (pose proof (Z.pow_pos_nonneg 2 (al - 2)); lia). set (q := 2 ^ (al - 2)) in *. clearbody q.
    rewrite Z.shiftr_div_pow2 by lia. change (2 ^ 1) with 2. rewrite E. replace ((4 * q - 2) / 2) with (2 * q - 1) by (Z.div_mod_to_equations; lia).
    rewrite repeat_length. split; [lia|]. split; [Z.div_mod_to_equations; lia|]. destruct (Z.to_nat (2 * q - 1)) eqn:X; [lia|discriminate].
  - assert (2 ^ al = 8 * 2 ^ (al - 3)) as E by (replace al with (3 + (al - 3)) at 1 by lia; rewrite Z.pow_add_r by lia; reflexivity).
    assert (1 <= 2 ^ (al - 3)) by (pose proof (Z.pow_pos_nonneg 2 (al - 3)); lia). set (q := 2 ^ (al - 3)) in *. clearbody q.
    rewrite E. rewrite (Z.shiftr_div_pow2 (8 * q - 4) 2) by lia. change (2 ^ 2) with 4. replace ((8 * q - 4) / 4) with (2 * q - 1) by (Z.div_mod_to_equations; lia).
    assert (L : forall n, length (flat_map (fun _ : unit => [u16 NOP; u16 (Z.shiftr NOP 16)]) (repeat tt n)) = (2 * n)%nat) by (induction n; [reflexivity|cbn [repeat flat_map app length]; rewrite IHn; lia]).
    rewrite L. split; [rewrite Nat2Z.inj_mul, Z2Nat.id by lia; change (Z.of_nat 2) with 2; lia|]. split; [Z.div_mod_to_equations; lia|]. destruct (Z.to_nat (2 * q - 1)) eqn:X; [lia|discriminate].
Qed.
Lemma oplist_okl cf calls : forall c pend ts, calls_ok cf c calls -> okl pend (oplist cf pend ts calls).
Proof.
  induction calls as [|k calls IH]; intros c pend ts H; cbn [oplist]; [exact I|]. cbn [calls_ok] in H. destruct H as (H & HR). apply okl_app; [|eapply IH; exact HR].
  destruct k; cbn [kops]; try exact I.
  - apply okl_units.
  - destruct pend; cbn; auto.
  - destruct (small_al cf al) eqn:S; [destruct pend; cbn; auto|]. cbn [call_ok] in H. destruct (nops_length cf al S ltac:(lia)) as (_ & _ & N). cbn. auto.
  - destruct (units_of (p :: l)); [exact I|]. cbn. apply okl_units.
Qed.

Definition tvalid (nl : nat) (t : option target) : Prop :=
  match t with None => True | Some (TLabel l) => (l < nl)%nat | Some (TAddr a) => isw a end.
Lemma emit_labels cf c k : (length (clabels c) <= length (clabels (emit cf c k)))%nat.
Proof.
  assert (L : forall c, (length (clabels c) <= length (clabels (emit_label c)))%nat).
  { intros x. unfold emit_label. destruct (last_label _); [destruct (_ =? _)|]; cbn; rewrite ?app_length; lia. }
  destruct k; cbn [emit push_units emit_jump emit_mov_addr emit_constant clabels]; auto.
  - unfold emit_aligned_label. destruct (cC cf); destruct (_ <=? _); auto; cbn [set_label clabels push_units]; rewrite app_length; lia.
  - unfold emit_jump. destruct (jc_word x); cbn; lia.
Qed.
Lemma emit_jumps cf c k : length (cjumps (emit cf c k)) = (length (cjumps c) + njump k)%nat.
Proof.
  assert (L : forall c, cjumps (emit_label c) = cjumps c).
  { intros x. unfold emit_label. destruct (last_label _); [destruct (_ =? _)|]; reflexivity. }
  destruct k; cbn [emit push_units emit_jump emit_mov_addr emit_constant cjumps njump]; rewrite ?L, ?app_length, ?upd_length; cbn [length]; try lia.
  - unfold emit_aligned_label. destruct (cC cf); destruct (_ <=? _); rewrite ?L; cbn; lia.
  - unfold emit_jump. destruct (jc_word x); cbn [cjumps push_units]; unfold emit_jump; cbn [cjumps push_units]; rewrite ?app_length; cbn; lia.
Qed.
Lemma upd_Forall {A} (P : A -> Prop) f l : forall j, Forall P l -> (forall x, P (f x)) -> Forall P (upd j f l).
Proof. induction l; intros j H F; destruct j; cbn [upd]; inversion H; subst; constructor; auto. Qed.
Lemma tvalid_calls cf calls : forall c ts, calls_ok cf c calls -> Forall (tvalid (length (clabels c))) ts ->
  Forall (tvalid (length (clabels (fold_left (emit cf) calls c)))) (fold_left tstep calls ts).
Proof.
  induction calls as [|k calls IH]; intros c ts H F; [exact F|]. cbn [fold_left calls_ok] in *. destruct H as (H & HR). apply IH; auto.
  pose proof (emit_labels cf c k) as M.
  assert (F2 : Forall (tvalid (length (clabels (emit cf c k)))) ts).
  { eapply Forall_impl; [|exact F]. intros [[l|a]|]; cbn; auto. lia. }
  destruct k; cbn [tstep call_ok] in *; auto.
  - apply Forall_app. split; [auto|]. repeat constructor.
  - apply Forall_app. split; [auto|]. repeat constructor; auto; cbn; apply H.
  - apply Forall_app. split; [auto|]. repeat constructor.
  - apply upd_Forall; auto. intros _. cbn in *. lia.
  - apply upd_Forall; auto. intros _. cbn in *. apply H.
Qed.

Lemma oplist_wf cf nl calls : forall c pend ts, calls_ok cf c calls -> Forall (fun t => t <> None) ts -> Forall (tvalid nl) ts -> length ts = njumps calls ->
  Forall (wf_op cf nl) (oplist cf pend ts calls).
Proof.
  assert (U : forall l, Forall (wf_op cf nl) (units_ops l)) by (induction l; constructor; [exact I|auto]).
  assert (TW : forall x rewr call mov ts, Forall (fun t => t <> None) ts -> Forall (tvalid nl) ts -> (1 <= length ts)%nat ->
    (if jisaddr (jrec x rewr call mov (tdef (hd None ts))) then isw (jtarget (jrec x rewr call mov (tdef (hd None ts)))) else (jlabel (jrec x rewr call mov (tdef (hd None ts))) < nl)%nat)).
  { intros x rewr call mov ts N V L. destruct ts as [|t ts]; [cbn in L; lia|]. inversion N; inversion V; subst. cbn [hd]. destruct t as [[l|a]|]; cbn in *; auto. congruence. }
  induction calls as [|k calls IH]; intros c pend ts H N V L; cbn [oplist]; [constructor|]. cbn [calls_ok] in H. destruct H as (H & HR).
  cbn [njumps fold_right] in L. change (fold_right (fun k n => (njump k + n)%nat) 0%nat calls) with (njumps calls) in L.
  apply Forall_app. split.
  - destruct k; cbn [kops]; auto; cbn [njump call_ok] in *.
    + destruct pend; repeat constructor.
    + destruct (small_al cf al) eqn:S; [destruct pend; repeat constructor|]. destruct (nops_length cf al S ltac:(lia)) as (N1 & N2 & _). constructor; [cbn [wf_op]; auto|constructor].
    + constructor; [|constructor]. cbn [wf_op]. destruct H as (H1 & H2 & H3).
      split; [destruct x; split; reflexivity|]. split; [destruct x; reflexivity|]. split; [destruct x; cbn; congruence|]. split; [|apply TW; auto; lia].
      cbn. intros ->. rewrite H2 by auto. reflexivity.
    + constructor; [|constructor]. cbn [wf_op]. split; [split; reflexivity|]. split; [reflexivity|]. split; [cbn; congruence|]. split; [reflexivity|apply TW; auto; lia].
    + constructor; [|constructor]. cbn [wf_op]. split; [reflexivity|apply TW; auto; lia].
    + destruct (units_of (p :: l)); [constructor|]. constructor; [exact I|auto].
  - eapply IH; eauto.
    + clear -N. generalize (njump k) as n. revert N. induction ts; intros N [|n]; cbn [skipn]; auto. inversion N; auto.
    + clear -V. generalize (njump k) as n. revert V. induction ts; intros N [|n]; cbn [skipn]; auto. inversion N; auto.
    + rewrite skipn_length. lia.
Qed.

(** ** Layout without the sizes *)
Section M.
Variables (cf : cfg) (code eo : Z).
Definition fitem0 (m : Z -> Z) (FL : list Z) (n : nat) (r : Z) (o : op) (r2 : Z) (js : list jump) (cs : list Z) : Prop :=
  match o with
  | OJmp k j => exists p jj, js = [jj] /\ jaddr jj = paddr k p r /\ cs = [] /\ r2 = r + klen k + dsz p k /\
      atm m r (jcode code eo k p (jcall j) r (tgt_of code eo FL j)) /\ kp_ok k p /\
      jfit (jisaddr j) k p (sw (tgt_of code eo FL j - (code + 2 * (r + klen k) + eo))) (tgt_of code eo FL j) /\
      (jrewr j = true -> p = PNone) /\ (jcall j = true -> p <> PJ16) /\ (p = PJ16 -> cC cf = true)
  | OMov reg j => exists p jj, js = [jj] /\ jaddr jj = r /\ cs = [] /\ r2 = r + plen p /\
      atm m r (mcode code eo p (u16 reg) (jcall j) r (tgt_of code eo FL j)) /\ movp p /\
      jfit (jisaddr j) NoCond p (sw (tgt_of code eo FL j - (code + 2 * r + eo))) (tgt_of code eo FL j)
  | _ => fitem cf code eo m FL n r o r2 js cs
  end.
Fixpoint flay0 (m : Z -> Z) (FL : list Z) (n : nat) (r : Z) (ops : list op) (r2 : Z) (js : list jump) (cs : list Z) : Prop :=
  match ops with
  | [] => r2 = r /\ js = [] /\ cs = []
  | o :: ops => exists r1 js1 js2 cs1 cs2, fitem0 m FL n r o r1 js1 cs1 /\ flay0 m FL (n + nlab o) r1 ops r2 js2 cs2 /\ js = js1 ++ js2 /\ cs = cs1 ++ cs2
  end.
Lemma flay_flay0 m FL ops ops' : 
  Forall2 (fun o o' => o' = o \/ (exists k j s, o = OJmp k j /\ o' = OJmp k (set_sz j s)) \/ (exists r j s, o = OMov r j /\ o' = OMov r (set_sz j s))) ops ops' ->
  forall n r r2 js cs, flay cf code eo m FL n r ops' r2 js cs -> flay0 m FL n r ops r2 js cs.
Proof.
  induction 1 as [|o o' ops ops' H _ IH]; intros n r r2 js cs F; [exact F|]. cbn [flay flay0] in *.
  destruct F as (r1 & js1 & js2 & cs1 & cs2 & F1 & F2 & E1 & E2). exists r1, js1, js2, cs1, cs2.
  assert (NL : nlab o' = nlab o) by (destruct H as [->|[(k & j & s & -> & ->)|(x & j & s & -> & ->)]]; reflexivity). rewrite NL in F2.
  split; [|auto].
  assert (D : forall o, fitem cf code eo m FL n r o r1 js1 cs1 -> fitem0 m FL n r o r1 js1 cs1).
  { intros o0 G. destruct o0; auto; cbn [fitem fitem0] in *; destruct G as (p & -> & G); exists p; eexists; (split; [reflexivity|]); (split; [reflexivity|]); exact G. }
  destruct H as [->|[(k & j & s & -> & ->)|(x & j & s & -> & ->)]]; [auto| |].
  - apply D in F1. exact F1.
  - apply D in F1. exact F1.
Qed.
Lemma flay0_app m FL a b : forall n r r2 js cs, flay0 m FL n r (a ++ b) r2 js cs ->
  exists r1 js1 js2 cs1 cs2, flay0 m FL n r a r1 js1 cs1 /\ flay0 m FL (n + nlabs a) r1 b r2 js2 cs2 /\ js = js1 ++ js2 /\ cs = cs1 ++ cs2.
Proof.
  induction a as [|o a IH]; intros n r r2 js cs F.
  - exists r, [], js, [], cs. cbn [flay0 app nlabs]. rewrite Nat.add_0_r. auto.
  - cbn [app flay0] in F. destruct F as (r1 & js1 & js2 & cs1 & cs2 & F1 & F2 & -> & ->). apply IH in F2.
    destruct F2 as (r3 & j1 & j2 & c1 & c2 & G1 & G2 & -> & ->). exists r3, (js1 ++ j1), j2, (cs1 ++ c1), c2.
    rewrite <- !app_assoc. split; [|split; [|auto]].
    + cbn [flay0]. exists r1, js1, j1, cs1, c1. auto.
    + cbn [nlabs]. rewrite Nat.add_assoc. exact G2.
Qed.
Lemma flay0_units m FL l : forall n r r2 js cs, flay0 m FL n r (units_ops l) r2 js cs -> atm m r (map u16 l) /\ r2 = r + Z.of_nat (length l) /\ js = [] /\ cs = [].
Proof.
  induction l as [|w l IH]; intros n r r2 js cs F; cbn [units_ops map flay0] in *.
  - destruct F as (-> & -> & ->). split; [apply atm_nil|]. cbn. split; [lia|auto].
  - destruct F as (r1 & js1 & js2 & cs1 & cs2 & F1 & F2 & -> & ->). cbn [fitem0 fitem] in F1. destruct F1 as (F1 & -> & -> & ->). apply IH in F2.
    destruct F2 as (A & -> & -> & ->). split; [apply atm_cons; auto|]. cbn [length app]. split; [lia|auto].
Qed.

(** ** Layout of the calls *)
Variables (g : gen) (FL : list Z) (TS : list (option target)).
Notation M := (munit (rmem g)).
Definition tgt_t (t : option target) : Z := match tdef t with TAddr a => a | TLabel l => code + 2 * nth l FL 0 + eo end.
Definition istaddr (t : option target) : bool := match tdef t with TAddr _ => true | TLabel _ => false end.
Definition jdone (pre : list call) (x : jc) (rewr call : bool) (r r1 : Z) : Prop :=
  let i := next_jump (emits cf pre) in let T := tgt_t (nth i TS None) in
  exists p jj, nth_error (rjumps g) i = Some jj /\ jaddr jj = paddr (jc_word x) p r /\ r1 = r + klen (jc_word x) + dsz p (jc_word x) /\
      atm M r (jcode code eo (jc_word x) p call r T) /\ kp_ok (jc_word x) p /\
      jfit (istaddr (nth i TS None)) (jc_word x) p (sw (T - (code + 2 * (r + klen (jc_word x)) + eo))) T /\
      (rewr = true -> p = PNone) /\ (call = true -> p <> PJ16) /\ (p = PJ16 -> cC cf = true).
Definition done (pre : list call) (k : call) (r r1 : Z) : Prop :=
  match k with
  | KIns l => atm M r (units_of l) /\ r1 = r + Z.of_nat (length (units_of l))
  | KLabel => r1 = r /\ nth (ret_label (emits cf (pre ++ [k]))) FL 0 = r
  | KAlign al => nth (ret_label (emits cf (pre ++ [k]))) FL 0 = r1 /\
      (if small_al cf al then r1 = r else
        r <= r1 <= r + Z.of_nat (length (nops_of cf al)) /\ atm M r (map u16 (firstn (Z.to_nat (r1 - r)) (nops_of cf al))) /\
        (code + 2 * r1) .& mask_of cf al = 0 /\ r1 = process_extended_label code (r + Z.of_nat (length (nops_of cf al))) (mask_of cf al))
  | KJump x rewr call => jdone pre x rewr call r r1
  | KIJump call _ => jdone pre JAlways false call r r1
  | KMov reg => let i := next_jump (emits cf pre) in let T := tgt_t (nth i TS None) in
      exists p jj, nth_error (rjumps g) i = Some jj /\ jaddr jj = r /\ r1 = r + plen p /\
        atm M r (mcode code eo p (u16 reg) false r T) /\ movp p /\ jfit (istaddr (nth i TS None)) NoCond p (sw (T - (code + 2 * r + eo))) T
  | KConst p l => atm M r (units_of (p :: l)) /\ r1 = r + Z.of_nat (length (units_of (p :: l))) /\
      nth_error (rconsts g) (next_const (emits cf pre)) = Some r
  | KSetLabel _ _ | KSetTarget _ _ => r1 = r
  end.
Fixpoint clay (pre : list call) (r : Z) (calls : list call) (r2 : Z) : Prop :=
  match calls with [] => r2 = r | k :: calls => exists r1, done pre k r r1 /\ clay (pre ++ [k]) r1 calls r2 end.

Lemma emits_labels calls : length (clabels (emits cf calls)) = nlabs (oplist cf false TS calls).
Proof.
  rewrite emits_ops. cbn [comp_of clabels]. destruct (oplist_ts cf calls false (targets calls) TS) as (_ & E & _). rewrite E. clear E.
  generalize 0 as p. induction (oplist cf false TS calls) as [|o l IH]; intros p; [reflexivity|]. cbn [labs nlabs]. rewrite app_length, IH. destruct o; reflexivity.
Qed.
Lemma emits_consts calls : next_const (emits cf calls) = length (csts 0 (oplist cf false TS calls)).
Proof. unfold next_const. rewrite emits_ops. cbn [comp_of cconsts]. destruct (oplist_ts cf calls false (targets calls) TS) as (_ & _ & E & _). rewrite E. reflexivity. Qed.
Lemma emits_jumps calls : next_jump (emits cf calls) = njumps calls.
Proof. unfold next_jump. rewrite emits_ops. cbn [comp_of cjumps]. apply jmps_length. Qed.
Lemma njumps_snoc a k : njumps (a ++ [k]) = (njumps a + njump k)%nat.
Proof. unfold njumps. induction a; cbn [app fold_right]; lia. Qed.
Lemma nlabs_app a b : nlabs (a ++ b) = (nlabs a + nlabs b)%nat.
Proof. induction a; cbn [app nlabs]; lia. Qed.
Lemma nlabs_units l : nlabs (units_ops l) = 0%nat.
Proof. induction l; [reflexivity|exact IHl]. Qed.
Lemma units_sum l : map u16 (units_of l) = units_of l. Proof. apply units_u16. Qed.

Lemma csts_length ops : forall p q, length (csts p ops) = length (csts q ops).
Proof. induction ops as [|o ops IH]; intros; [reflexivity|]. cbn [csts]. rewrite !app_length, (IH (p + osize o) (q + osize o)). destruct o; reflexivity. Qed.
Lemma skipn_cons {A} (l : list A) i x r : skipn i l = x :: r -> nth_error l i = Some x /\ skipn (i + 1) l = r.
Proof.
  revert i. induction l as [|a l IH]; intros [|i] H; cbn in H; try discriminate.
  - injection H as -> ->. split; reflexivity.
  - apply IH in H. exact H.
Qed.

Lemma flay0_clay calls : forall pre r r2,
  flay0 M FL (nlabs (oplist cf false TS pre)) r (oplist cf (ends_label false (oplist cf false TS pre)) (skipn (njumps pre) TS) calls) r2
    (skipn (njumps pre) (rjumps g)) (skipn (next_const (emits cf pre)) (rconsts g)) ->
  (ends_label false (oplist cf false TS pre) = true -> (1 <= nlabs (oplist cf false TS pre))%nat /\ nth (pred (nlabs (oplist cf false TS pre))) FL 0 = r) ->
  clay pre r calls r2.
Proof.
  induction calls as [|k calls IH]; intros pre r r2 F P.
  { cbn [oplist flay0 clay] in *. apply F. }
  cbn [oplist] in F. apply flay0_app in F. destruct F as (r1 & js1 & js2 & cs1 & cs2 & F1 & F2 & EJ & EC).
  cbn [clay]. exists r1. rewrite skipn_skipn in F2.
  assert (HD : hd None (skipn (njumps pre) TS) = nth (njumps pre) TS None).
  { clear. generalize (njumps pre) as n. induction TS as [|t l IH]; intros [|n]; cbn; auto. }
  rewrite HD in *. set (t := tdef (nth (njumps pre) TS None)) in *.
  assert (OS : oplist cf false TS (pre ++ [k]) = oplist cf false TS pre ++ kops cf (ends_label false (oplist cf false TS pre)) t k).
  { rewrite oplist_app. cbn [oplist]. rewrite app_nil_r. unfold t. rewrite HD. reflexivity. }
  set (pend := ends_label false (oplist cf false TS pre)) in *. set (n := nlabs (oplist cf false TS pre)) in *.
  assert (NN : nlabs (oplist cf false TS (pre ++ [k])) = (n + nlabs (kops cf pend t k))%nat) by (rewrite OS, nlabs_app; reflexivity).
  assert (PE : ends_label false (oplist cf false TS (pre ++ [k])) = ends_label pend (kops cf pend t k)) by (rewrite OS, ends_label_app; reflexivity).
  assert (NC : next_const (emits cf (pre ++ [k])) = (next_const (emits cf pre) + length (csts 0 (kops cf pend t k)))%nat).
  { rewrite !emits_consts, OS, csts_app, app_length. f_equal. apply csts_length. }
  assert (NJ : njumps (pre ++ [k]) = (njumps pre + njump k)%nat) by apply njumps_snoc.
  assert (REST : forall a b, js1 = a -> cs1 = b -> length a = njump k -> length b = length (csts 0 (kops cf pend t k)) ->
     (ends_label pend (kops cf pend t k) = true -> (1 <= n + nlabs (kops cf pend t k))%nat /\ nth (pred (n + nlabs (kops cf pend t k))) FL 0 = r1) ->
     clay (pre ++ [k]) r1 calls r2).
  { intros a b -> -> La Lb Q. apply IH; rewrite ?NN, ?PE; [|exact Q].
    rewrite NJ. rewrite (Nat.add_comm (njumps pre)). rewrite <- !skipn_skipn. rewrite NC, (Nat.add_comm (next_const _)), <- skipn_skipn. rewrite EJ, EC, <- La, <- Lb.
    rewrite !skipn_app, !skipn_all, !Nat.sub_diag. cbn [app skipn]. rewrite skipn_skipn, La. exact F2. }
  assert (RL : forall k', ret_label (emits cf (pre ++ [k'])) = pred (nlabs (oplist cf false TS (pre ++ [k'])))) by (intros; unfold ret_label; rewrite emits_labels; reflexivity).
  assert (JN : forall p rr jj, skipn (njumps pre) (rjumps g) = jj :: rr -> p = next_jump (emits cf pre) -> nth_error (rjumps g) p = Some jj).
  { intros p rr jj H ->. rewrite emits_jumps. apply skipn_cons in H. apply H. }
  destruct k; cbn [kops] in *.
  - apply flay0_units in F1. destruct F1 as (A & E & X & Y). rewrite units_sum in A. split; [cbn [done]; auto|].
    apply (REST [] []); auto. { destruct (units_ops_lay (units_of l)) as (_ & _ & U & _). rewrite U. reflexivity. }
    rewrite ends_label_units, nlabs_units, Nat.add_0_r. destruct (units_of l); [|discriminate]. cbn in E. rewrite E, Z.add_0_r. exact P.
  - destruct pend eqn:EP.
    + cbn [flay0] in F1. destruct F1 as (-> & X & Y). specialize (P eq_refl). split.
      * cbn [done]. split; [reflexivity|]. rewrite RL, NN. cbn [nlabs]. rewrite Nat.add_0_r. apply P.
      * apply (REST [] []); auto. cbn [nlabs]. rewrite Nat.add_0_r. auto.
    + cbn [flay0 fitem0 fitem nlab] in F1. destruct F1 as (r3 & j1 & j2 & c1 & c2 & (-> & L & -> & ->) & (-> & -> & ->) & -> & ->). split.
      * cbn [done]. split; [reflexivity|]. rewrite RL, NN. cbn [nlabs nlab]. rewrite Nat.add_1_r. exact L.
      * apply (REST [] []); auto. cbn [nlabs nlab]. intros _. split; [lia|]. rewrite Nat.add_1_r. exact L.
  - destruct (small_al cf al) eqn:SM; [destruct pend eqn:EP|].
    + cbn [flay0] in F1. destruct F1 as (-> & X & Y). specialize (P eq_refl). split.
      * cbn [done]. rewrite SM. split; [|reflexivity]. rewrite RL, NN. cbn [nlabs]. rewrite Nat.add_0_r. apply P.
      * apply (REST [] []); auto. cbn [nlabs]. rewrite Nat.add_0_r. auto.
    + cbn [flay0 fitem0 fitem nlab] in F1. destruct F1 as (r3 & j1 & j2 & c1 & c2 & (-> & L & -> & ->) & (-> & -> & ->) & -> & ->). split.
      * cbn [done]. rewrite SM. split; [|reflexivity]. rewrite RL, NN. cbn [nlabs nlab]. rewrite Nat.add_1_r. exact L.
      * apply (REST [] []); auto. cbn [nlabs nlab]. intros _. split; [lia|]. rewrite Nat.add_1_r. exact L.
    + cbn [flay0 fitem0 fitem nlab] in F1. destruct F1 as (r3 & j1 & j2 & c1 & c2 & (B & A & L & (AL & EX) & -> & ->) & (-> & -> & ->) & -> & ->). split.
      * cbn [done]. rewrite SM. rewrite RL, NN. cbn [nlabs nlab]. rewrite Nat.add_1_r. cbn [pred]. auto 10.
      * apply (REST [] []); auto. cbn [nlabs nlab]. intros _. split; [lia|]. rewrite Nat.add_1_r. exact L.
  - cbn [flay0 fitem0 nlab] in F1. destruct F1 as (r3 & j1 & j2 & c1 & c2 & (p & jj & -> & A1 & -> & A2 & A3 & A4) & (-> & -> & ->) & E1 & E2). cbn [app] in *. split.
    + cbn [done]. unfold jdone. cbv zeta. exists p, jj. split; [eapply JN; [|reflexivity]; rewrite EJ, E1; reflexivity|].
      split; [exact A1|]. split; [exact A2|]. unfold tgt_of, tgt_t, istaddr in *. rewrite emits_jumps. fold t.
      cbn [jrec set_sz set_jaddr_sz new_jump jcall jisaddr jtarget jlabel jrewr] in *.
      destruct t; auto.
    + apply (REST [jj] []); auto. cbn [ends_label is_label]. discriminate.
  - cbn [flay0 fitem0 nlab] in F1. destruct F1 as (r3 & j1 & j2 & c1 & c2 & (p & jj & -> & A1 & -> & A2 & A3 & A4) & (-> & -> & ->) & E1 & E2). cbn [app] in *. split.
    + cbn [done]. unfold jdone. cbv zeta. exists p, jj. split; [eapply JN; [|reflexivity]; rewrite EJ, E1; reflexivity|].
      split; [exact A1|]. split; [exact A2|]. unfold tgt_of, tgt_t, istaddr in *. rewrite emits_jumps. fold t.
      cbn [jrec set_sz set_jaddr_sz new_jump jcall jisaddr jtarget jlabel jrewr jc_word] in *.
      destruct t; auto.
    + apply (REST [jj] []); auto. cbn [ends_label is_label]. discriminate.
  - cbn [flay0 fitem0 nlab] in F1. destruct F1 as (r3 & j1 & j2 & c1 & c2 & (p & jj & -> & A1 & -> & A2 & A3 & A4) & (-> & -> & ->) & E1 & E2). cbn [app] in *. split.
    + cbn [done]. cbv zeta. exists p, jj. split; [eapply JN; [|reflexivity]; rewrite EJ, E1; reflexivity|].
      split; [exact A1|]. split; [exact A2|]. unfold tgt_of, tgt_t, istaddr in *. rewrite emits_jumps. fold t.
      cbn [jrec set_sz set_jaddr_sz new_jump jcall jisaddr jtarget jlabel jrewr jc_word] in *.
      destruct t; auto.
    + apply (REST [jj] []); auto. cbn [ends_label is_label]. discriminate.
  - cbn [done]. assert (NE : units_of (p :: l) <> []) by (destruct p; discriminate). pose proof (units_sum (p :: l)) as US. destruct (units_of (p :: l)) as [|w u]; [congruence|].
    cbn [flay0 fitem0 fitem nlab] in F1. destruct F1 as (r3 & j1 & j2 & c1 & c2 & (A1 & -> & -> & ->) & F1 & E1 & E2).
    change (map OUnit u) with (units_ops u) in F1. apply flay0_units in F1. destruct F1 as (A2 & -> & -> & ->). cbn [app] in *.
    assert (CO : length (csts 0 (OConst w :: units_ops u)) = 1%nat) by (cbn [csts ocst app length]; destruct (units_ops_lay u) as (_ & _ & U & _); rewrite U; reflexivity).
    split.
    + split; [|split].
      * cbn [map] in US. injection US as U1 U2. apply atm_cons. split; [congruence|]. rewrite <- U2. exact A2.
      * cbn [length]. lia.
      * rewrite E2 in EC. cbn [app] in EC. apply skipn_cons in EC. apply EC.
    + apply (REST [] [r]); auto. cbn [ends_label is_label]. rewrite ends_label_units. destruct u; discriminate.
  - cbn [flay0] in F1. destruct F1 as (-> & X & Y). split; [cbn [done]; reflexivity|]. apply (REST [] []); auto. cbn [nlabs ends_label]. rewrite Nat.add_0_r. auto.
  - cbn [flay0] in F1. destruct F1 as (-> & X & Y). split; [cbn [done]; reflexivity|]. apply (REST [] []); auto. cbn [nlabs ends_label]. rewrite Nat.add_0_r. auto.
Qed.
End M.
