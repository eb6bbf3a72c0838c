(** The emission interface: sequences of API calls and the compiler state they lead to. *)
Require Import ZArith List Bool Lia Zify ZifyBool.
From Verif Require Import Rv.RvLib Rv.RvBits Rv.RvIsa Rv.RvEnc Rv.RvImm Rv.RvRun Rv.RvImmProofs Rv.RvConst Rv.RvAddr Rv.RvCtl Rv.RvAddrProofs Rv.RvLink Rv.RvLinkOps Rv.RvLinkReduce Rv.RvLinkEst Rv.RvLinkGen Rv.RvLinkPick Rv.RvLinkFit Rv.RvLinkLay Rv.RvLinkPatch Rv.RvLinkAll Rv.RvLinkExec.
Import ListNotations.
Open Scope Z_scope.
Ltac Zify.zify_post_hook ::= idtac.

(** ** Model *)

(** The calls which change the compiler state.  [KIns] stands for any function which only pushes instructions.
    [KJump] covers sljit_emit_jump, sljit_emit_call and the jump of sljit_emit_cmp, [KIJump] the immediate targets of sljit_emit_ijump
    and sljit_emit_icall, [KMov] the address load of sljit_emit_op_addr.  Jumps, labels and constants are referred
    to by their number in the lists. *)
Inductive call :=
| KIns (l : list piece)
| KLabel
| KAlign (al : Z)
| KJump (x : jc) (rewr call : bool)
| KIJump (call : bool) (a : Z)
| KMov (reg : Z)
| KConst (p : piece) (l : list piece)
| KSetLabel (j l : nat)
| KSetTarget (j : nat) (a : Z).

(** sljit_set_label, sljit_set_target (LIR:631-645): the union u and the flag JUMP_ADDR. *)
Definition set_jtarget (t : target) (j : jump) : jump :=
  mkJump (jaddr j) (jrewr j) (match t with TAddr _ => true | TLabel _ => false end) (jcall j) (jcond j) (jcond16 j) (jmov j) (jsz j) (jpatch j)
    (match t with TAddr a => a | TLabel _ => 0 end) (match t with TLabel n => n | TAddr _ => 0%nat end).

(** One call.  A new jump has no target (u.label = NULL in set_jump LIR:881-893 and set_mov_addr LIR:895-906); the model has label 0 there, programs which never set a
    target are excluded below. *)
Definition emit (cf : cfg) (c : comp) (k : call) : comp :=
  match k with
  | KIns l => push_units c (units_of l)
  | KLabel => emit_label c
  | KAlign al => emit_aligned_label cf c al
  | KJump x rewr call => emit_jump c (jc_word x) rewr call (TLabel 0)
  | KIJump call a => emit_jump c NoCond false call (TAddr a)
  | KMov reg => emit_mov_addr c reg (TLabel 0)
  | KConst p l => emit_constant c (units_of (p :: l))
  | KSetLabel j l => mkComp (cbuf c) (clabels c) (upd j (set_jtarget (TLabel l)) (cjumps c)) (cconsts c) (csize c)
  | KSetTarget j a => mkComp (cbuf c) (clabels c) (upd j (set_jtarget (TAddr a)) (cjumps c)) (cconsts c) (csize c)
  end.
(** The state after a sequence of calls, from the state of sljit_create_compiler (LIR:506-575). *)
Definition emits (cf : cfg) (calls : list call) : comp := fold_left (emit cf) calls (mkComp [] [] [] [] 0).

(** The label returned by the call which led to [c]: compiler->last_label (RV:3268-3274, 3316-3321). *)
Definition ret_label (c : comp) : nat := pred (length (clabels c)).
(** The jump and constant created by the next such call. *)
Definition next_jump (c : comp) : nat := length (cjumps c).
(** The number of the next constant (set_const LIR:908-917). *)
Definition next_const (c : comp) : nat := length (cconsts c).

(** One read-only buffer of sljit_emit_aligned_label (RV:3331-3337). *)
Definition nop_area (cf : cfg) (size : Z) : list piece :=
  if cC cf then repeat (P16 C_NOP) (Z.to_nat (Z.shiftr (size + 1) 1)) else repeat (P32 NOP) (Z.to_nat (Z.shiftr (size + 3) 2)).
(** sljit_emit_aligned_label with its buffers (RV:3323-3347). *)
Fixpoint buffer_calls (cf : cfg) (sizes : list Z) : list call :=
  match sizes with
  | [] => []
  | [s] => [KIns (nop_area cf s)]
  | s :: sizes => KIns (nop_area cf s) :: KLabel :: buffer_calls cf sizes
  end.
(** The aligned label and its buffers (RV:3277-3350). *)
Definition aligned_label_calls (cf : cfg) (al : Z) (sizes : list Z) : list call := KAlign al :: buffer_calls cf sizes.

(** ** Specification of the targets *)

(** The target of each jump after a history of calls: the last one assigned. *)
Definition tstep (ts : list (option target)) (k : call) : list (option target) :=
  match k with
  | KJump _ _ _ | KMov _ => ts ++ [None]
  | KIJump _ a => ts ++ [Some (TAddr a)]
  | KSetLabel j l => upd j (fun _ => Some (TLabel l)) ts
  | KSetTarget j a => upd j (fun _ => Some (TAddr a)) ts
  | _ => ts
  end.
(** The targets after all calls (specification; LIR:631-645). *)
Definition targets (calls : list call) : list (option target) := fold_left tstep calls [].

(** A 32 bit instruction: push_inst (RV:419-427). *)
Definition p32 (p : piece) : Prop := match p with P32 _ => True | P16 _ => False end.
(** What the API demands of each call ([c] is the state before it). *)
Definition call_ok (cf : cfg) (c : comp) (k : call) : Prop :=
  match k with
  | KIns l => cC cf = false -> Forall p32 l
  | KLabel => True
  | KAlign al => 0 <= al <= 4
  | KJump x _ call => jc_ok x /\ (call = true -> x = JAlways) /\ (match x with JZ _ _ => cC cf = true | _ => True end)
  | KIJump _ a => isw a
  | KMov reg => vreg reg /\ reg <> 0 /\ reg <> TMP_REG3
  | KConst p l => cC cf = false -> Forall p32 (p :: l)
  | KSetLabel j l => (j < length (cjumps c))%nat /\ (l < length (clabels c))%nat
  | KSetTarget j a => (j < length (cjumps c))%nat /\ isw a
  end.
Fixpoint calls_ok (cf : cfg) (c : comp) (calls : list call) : Prop :=
  match calls with [] => True | k :: calls => call_ok cf c k /\ calls_ok cf (emit cf c k) calls end.
(** A program: admissible calls, and every jump has got a target. *)
Definition prog_ok (cf : cfg) (calls : list call) : Prop :=
  calls_ok cf (mkComp [] [] [] [] 0) calls /\ Forall (fun t => t <> None) (targets calls).

(** ** Correspondence to operations *)
Definition tdef (t : option target) : target := match t with Some t => t | None => TLabel 0 end.
Definition jrec (x : jcnd) (rewr call mov : bool) (t : target) : jump := set_sz (new_jump 0 rewr call x mov t) (if mov then 11 else 12).
Definition units_ops (l : list Z) : list op := map OUnit l.
Definition nops_of (cf : cfg) (al : Z) : list Z :=
  if cC cf then repeat C_NOP (Z.to_nat (Z.shiftr (2 ^ al - 2) 1))
  else flat_map (fun _ => [u16 NOP; u16 (Z.shiftr NOP 16)]) (repeat tt (Z.to_nat (Z.shiftr (2 ^ al - 4) 2))).
Definition mask_of (cf : cfg) (al : Z) : Z := if cC cf then 2 ^ al - 2 else 2 ^ al - 4.
Definition small_al (cf : cfg) (al : Z) : bool := if cC cf then al <=? 1 else al <=? 2.
Definition kops (cf : cfg) (pend : bool) (t : target) (k : call) : list op :=
  match k with
  | KIns l => units_ops (units_of l)
  | KLabel => if pend then [] else [OLab]
  | KAlign al => if small_al cf al then (if pend then [] else [OLab]) else [OAlign (nops_of cf al) (mask_of cf al)]
  | KJump x rewr call => [OJmp (jc_word x) (jrec (jc_word x) rewr call false t)]
  | KIJump call _ => [OJmp NoCond (jrec NoCond false call false t)]
  | KMov reg => [OMov reg (jrec NoCond false false true t)]
  | KConst p l => match units_of (p :: l) with [] => [] | w :: l => OConst w :: units_ops l end
  | KSetLabel _ _ | KSetTarget _ _ => []
  end.
Definition njump (k : call) : nat := match k with KJump _ _ _ | KIJump _ _ | KMov _ => 1 | _ => 0 end.
Fixpoint oplist (cf : cfg) (pend : bool) (ts : list (option target)) (calls : list call) : list op :=
  match calls with
  | [] => []
  | k :: calls => let o := kops cf pend (tdef (hd None ts)) k in
      o ++ oplist cf (ends_label pend o) (skipn (njump k) ts) calls
  end.
Definition njumps (calls : list call) : nat := fold_right (fun k n => (njump k + n)%nat) 0%nat calls.

Lemma skipn_skipn {A} (l : list A) : forall x y, skipn x (skipn y l) = skipn (x + y) l.
Proof.
  induction l as [|a l IH]; intros x y; [rewrite !skipn_nil; reflexivity|]. destruct y as [|y]; [rewrite Nat.add_0_r; reflexivity|].
  rewrite Nat.add_succ_r. cbn [skipn]. apply IH.
Qed.
Lemma oplist_app cf a : forall b pend ts, oplist cf pend ts (a ++ b) =
  oplist cf pend ts a ++ oplist cf (ends_label pend (oplist cf pend ts a)) (skipn (njumps a) ts) b.
Proof.
  induction a as [|k a IH]; intros; cbn [app oplist njumps fold_right]; [reflexivity|].
  rewrite IH, <- app_assoc, ends_label_app. f_equal. f_equal. f_equal.
  change (fold_right (fun k n => (njump k + n)%nat) 0%nat a) with (njumps a). rewrite skipn_skipn. f_equal. lia.
Qed.

(** Targets do not matter for anything but the jump records. *)
Lemma kops_pend cf pend pend2 t t2 k : pend = pend2 -> ends_label pend (kops cf pend t k) = ends_label pend2 (kops cf pend2 t2 k).
Proof. intros ->. destruct k; cbn [kops]; auto. Qed.
Lemma oplist_ts cf calls : forall pend ts ts2, 
  buf (oplist cf pend ts calls) = buf (oplist cf pend ts2 calls) /\ (forall p, labs p (oplist cf pend ts calls) = labs p (oplist cf pend ts2 calls)) /\
  (forall p, csts p (oplist cf pend ts calls) = csts p (oplist cf pend ts2 calls)) /\ total (oplist cf pend ts calls) = total (oplist cf pend ts2 calls) /\
  (forall b, ends_label b (oplist cf pend ts calls) = ends_label b (oplist cf pend ts2 calls)).
Proof.
  assert (G : forall o o2, Forall2 (fun a b => obuf a = obuf b /\ (forall p, olab p a = olab p b) /\ (forall p, ocst p a = ocst p b) /\ osize a = osize b /\ is_label a = is_label b) o o2 ->
    buf o = buf o2 /\ (forall p, labs p o = labs p o2) /\ (forall p, csts p o = csts p o2) /\ total o = total o2 /\ (forall b, ends_label b o = ends_label b o2)).
  { induction 1 as [|a b o o2 (A1 & A2 & A3 & A4 & A5) _ (I1 & I2 & I3 & I4 & I5)]; [cbn; auto|]. unfold buf in *. cbn [flat_map labs csts total ends_label].
    rewrite A1, A4, A5, I1, I4. repeat split; intros; rewrite ?A2, ?A3, ?I2, ?I3, ?I5; reflexivity. }
  intros pend ts ts2. apply G. revert pend ts ts2.
  assert (R : forall o, Forall2 (fun a b => obuf a = obuf b /\ (forall p, olab p a = olab p b) /\ (forall p, ocst p a = ocst p b) /\ osize a = osize b /\ is_label a = is_label b) o o).
  { induction o; constructor; auto. }
  induction calls as [|k calls IH]; intros; cbn [oplist]; [constructor|]. apply Forall2_app.
  - destruct k; cbn [kops]; try apply R; constructor; auto; cbn; auto.
  - rewrite (kops_pend cf pend pend _ (tdef (hd None ts2)) k eq_refl). apply IH.
Qed.
Lemma units_ops_lay l : (forall p, labs p (units_ops l) = []) /\ (forall f p, jmps f p (units_ops l) = []) /\ (forall p, csts p (units_ops l) = []) /\
  total (units_ops l) = Z.of_nat (length l) /\ buf (units_ops l) = l.
Proof.
  induction l as [|w l (I1 & I2 & I3 & I4 & I5)]; [cbn; auto|]. unfold units_ops, buf in *. cbn [map labs jmps csts total osize olab ojmp ocst app length flat_map obuf].
  rewrite I4, I5. repeat split; intros; auto. lia.
Qed.
Lemma labs_app a b : forall p, labs p (a ++ b) = labs p a ++ labs (p + total a) b.
Proof. induction a as [|o a IH]; intros; cbn [app labs total]; [rewrite Z.add_0_r; reflexivity|]. rewrite IH, <- app_assoc, Z.add_assoc. reflexivity. Qed.
Lemma jmps_app f a b : forall p, jmps f p (a ++ b) = jmps f p a ++ jmps f (p + total a) b.
Proof. induction a as [|o a IH]; intros; cbn [app jmps total]; [rewrite Z.add_0_r; reflexivity|]. rewrite IH, <- app_assoc, Z.add_assoc. reflexivity. Qed.
Lemma csts_app a b : forall p, csts p (a ++ b) = csts p a ++ csts (p + total a) b.
Proof. induction a as [|o a IH]; intros; cbn [app csts total]; [rewrite Z.add_0_r; reflexivity|]. rewrite IH, <- app_assoc, Z.add_assoc. reflexivity. Qed.
Lemma buf_app a b : buf (a ++ b) = buf a ++ buf b. Proof. apply flat_map_app. Qed.
Lemma kops_jmps cf pend t k f p : jmps f p (kops cf pend t k) =
  match k with
  | KJump x rewr call => [set_jaddr_sz (jrec (jc_word x) rewr call false t) (p + klen (jc_word x)) (f 12)]
  | KIJump call _ => [set_jaddr_sz (jrec NoCond false call false t) (p + 0) (f 12)]
  | KMov reg => [set_jaddr_sz (jrec NoCond false false true t) p (f 11)]
  | _ => []
  end.
Proof.
  destruct k; cbn [kops]; try reflexivity.
  - apply units_ops_lay.
  - destruct pend; reflexivity.
  - destruct (small_al cf al), pend; reflexivity.
  - destruct (units_of (p0 :: l)); [reflexivity|]. cbn [jmps ojmp app osize]. apply units_ops_lay.
Qed.
Lemma jmps_length cf calls : forall pend ts f p, length (jmps f p (oplist cf pend ts calls)) = njumps calls.
Proof.
  induction calls as [|k calls IH]; intros; [reflexivity|]. cbn [oplist njumps fold_right]. rewrite jmps_app, app_length, IH, kops_jmps.
  destruct k; reflexivity.
Qed.

(** Assigning a target. *)
Lemma oplist_upd cf f t calls : forall j pend ts p, length ts = njumps calls -> 
  jmps f p (oplist cf pend (upd j (fun _ => Some t) ts) calls) = upd j (set_jtarget t) (jmps f p (oplist cf pend ts calls)).
Proof.
  induction calls as [|k calls IH]; intros j pend ts p L; cbn [oplist].
  { destruct j; reflexivity. }
  cbn [njumps fold_right] in L. change (fold_right (fun k n => (njump k + n)%nat) 0%nat calls) with (njumps calls) in L.
  rewrite !jmps_app, !kops_jmps.
  assert (TT : forall x y, total (kops cf pend x k) = total (kops cf pend y k)) by (intros; destruct k; reflexivity).
  rewrite (kops_pend cf pend pend _ (tdef (hd None ts)) k eq_refl). rewrite (TT _ (tdef (hd None ts))).
  destruct k; cbn [njump skipn] in *; cbn [app]; try (apply IH; lia);
  (destruct ts as [|t0 ts]; [cbn in L; lia|]; cbn [length] in L; cbn [hd tl upd]; destruct j as [|j]; cbn [upd hd skipn tdef app]; [reflexivity|rewrite <- IH by lia; reflexivity]).
Qed.

Lemma ends_label_units b l : ends_label b (units_ops l) = match l with [] => b | _ => false end.
Proof. destruct l as [|w l]; [reflexivity|]. unfold units_ops. cbn [map ends_label is_label]. induction l; [reflexivity|]. cbn [map ends_label is_label]. exact IHl. Qed.

Lemma orig_kops cf pend t k : Forall orig_op (kops cf pend t k).
Proof.
  assert (U : forall l, Forall orig_op (units_ops l)) by (induction l; constructor; [exact I|exact IHl]).
  destruct k; cbn [kops]; auto.
  - destruct pend; repeat constructor.
  - destruct (small_al cf al), pend; repeat constructor.
  - repeat constructor.
  - repeat constructor.
  - repeat constructor.
  - destruct (units_of (p :: l)); constructor; auto. exact I.
Qed.
Lemma oplist_orig cf calls : forall pend ts, Forall orig_op (oplist cf pend ts calls).
Proof. induction calls; intros; cbn [oplist]; [constructor|]. apply Forall_app. split; [apply orig_kops|auto]. Qed.

Lemma last_label_snoc l x : last_label (l ++ [x]) = Some x.
Proof. induction l as [|a l IH]; [reflexivity|]. cbn [app last_label]. destruct (l ++ [x]) eqn:E; [destruct l; discriminate|exact IH]. Qed.
Lemma last_label_in l x : last_label l = Some x -> In x l.
Proof. induction l as [|a l IH]; [discriminate|]. cbn [last_label]. destruct l; [intros [= ->]; left; reflexivity|]. intros H. right. auto. Qed.

(** A label at the current position: nothing was emitted after the last label. *)
Lemma last_label_pend ops : Forall orig_op ops -> 
  match last_label (labs 0 ops) with Some l => lsize l =? total ops | None => false end = ends_label false ops.
Proof.
  induction ops as [|o ops IH] using rev_ind; intros H; [reflexivity|]. apply Forall_app in H. destruct H as (H1 & H2). inversion H2 as [|? ? Ho _]; subst.
  rewrite ends_label_app, labs_app, total_app. cbn [ends_label labs total]. rewrite app_nil_r, !Z.add_0_r.
  assert (NB : forall d, 1 <= d -> match last_label (labs 0 ops) with Some l => lsize l =? total ops + d | None => false end = false).
  { intros d Hd. destruct (last_label (labs 0 ops)) as [l|] eqn:E; [|reflexivity]. apply last_label_in in E. apply labs_bounds in E; [lia|].
    eapply Forall_impl; [|exact H1]. intros. apply orig_pos; auto. }
  destruct o; cbn [olab is_label osize]; rewrite ?app_nil_r; try (apply NB).
  - lia. - lia.
  - rewrite last_label_snoc. cbn [lsize]. lia.
  - rewrite last_label_snoc. cbn [lsize]. lia.
  - cbn [orig_op] in Ho. pose proof (klen_pos k). lia.
  - cbn [orig_op] in Ho. lia.
Qed.

Lemma upd_length {A} (f : A -> A) l : forall j, length (upd j f l) = length l.
Proof. induction l; intros [|j]; cbn; auto. Qed.
Lemma ltargets ts calls : length (fold_left tstep calls ts) = (length ts + njumps calls)%nat.
Proof.
  revert ts. induction calls as [|k calls IH]; intros; [cbn; lia|]. cbn [fold_left]. rewrite IH. destruct k; cbn [tstep njumps fold_right njump]; rewrite ?app_length, ?upd_length; cbn [length]; unfold njumps; lia.
Qed.
Lemma targets_length calls : length (targets calls) = njumps calls. Proof. unfold targets. rewrite ltargets. reflexivity. Qed.

Lemma ops_snoc cf calls k t r : length t = njumps calls ->
  oplist cf false (t ++ r) (calls ++ [k]) = oplist cf false t calls ++ kops cf (ends_label false (oplist cf false t calls)) (tdef (hd None r)) k.
Proof.
  intros L. rewrite oplist_app. cbn [oplist]. rewrite app_nil_r. rewrite <- L, skipn_app, skipn_all, Nat.sub_diag. cbn [app skipn].
  assert (E : oplist cf false (t ++ r) calls = oplist cf false t calls).
  { clear -L. revert t L. generalize false as b. induction calls as [|c calls IH]; intros b t L; [reflexivity|]. cbn [oplist]. cbn [njumps fold_right] in L.
    change (fold_right (fun k n => (njump k + n)%nat) 0%nat calls) with (njumps calls) in L. 
    destruct (Nat.eq_dec (njump c) 0) as [N|N].
    - rewrite N in *. cbn [skipn]. assert (KT : forall x y, kops cf b x c = kops cf b y c) by (intros; destruct c; cbn in N; congruence || reflexivity).
      rewrite (KT _ (tdef (hd None t))). f_equal. apply IH. lia.
    - assert (njump c = 1%nat) as N1 by (destruct c; cbn in *; congruence). rewrite N1 in *. destruct t as [|t0 t]; [cbn in L; lia|]. cbn [app hd skipn]. f_equal. apply IH. cbn [length] in L. lia. }
  rewrite E. reflexivity.
Qed.

Theorem emits_ops cf calls : emits cf calls = comp_of (oplist cf false (targets calls) calls).
Proof.
  induction calls as [|k calls IH] using rev_ind; [reflexivity|].
  unfold emits, targets in *. rewrite !fold_left_app. cbn [fold_left]. rewrite IH. clear IH.
  fold (targets calls). pose proof (targets_length calls) as TL. set (ts := targets calls) in *. clearbody ts.
  set (f0 := (fun _ => 0) : Z -> Z).
  assert (PL : forall o, match last_label (labs 0 (oplist cf false ts calls)) with Some l => if lsize l =? total (oplist cf false ts calls) then comp_of (oplist cf false ts calls) else o | None => o end =
     if ends_label false (oplist cf false ts calls) then comp_of (oplist cf false ts calls) else o).
  { intros o. rewrite <- (last_label_pend (oplist cf false ts calls)) by apply oplist_orig. destruct (last_label _); reflexivity. }
  assert (LB : emit_label (comp_of (oplist cf false ts calls)) = comp_of (oplist cf false ts calls ++ if ends_label false (oplist cf false ts calls) then [] else [OLab])).
  { unfold emit_label. cbn [clabels csize comp_of]. rewrite PL. destruct (ends_label _ _); [rewrite app_nil_r; reflexivity|].
    unfold set_label, comp_of. cbn [cbuf clabels cjumps cconsts csize]. rewrite buf_app, labs_app, jmps_app, csts_app, total_app. cbn.
    rewrite !app_nil_r, !Z.add_0_r. reflexivity. }
  assert (SA : forall k, njump k = 0%nat -> tstep ts k = ts -> oplist cf false (tstep ts k) (calls ++ [k]) = oplist cf false ts calls ++ kops cf (ends_label false (oplist cf false ts calls)) (TLabel 0) k).
  { intros k0 N E. rewrite E. pose proof (ops_snoc cf calls k0 ts [] TL) as O. rewrite app_nil_r in O. exact O. }
  destruct k.
  - rewrite SA by reflexivity. cbn [emit kops]. unfold push_units, comp_of. cbn [cbuf clabels cjumps cconsts csize].
    rewrite buf_app, labs_app, jmps_app, csts_app, total_app. destruct (units_ops_lay (units_of l)) as (U1 & U2 & U3 & U4 & U5). rewrite U1, U2, U3, U4, U5, !app_nil_r. reflexivity.
  - rewrite SA by reflexivity. cbn [emit kops]. exact LB.
  - rewrite SA by reflexivity. cbn [emit kops]. unfold emit_aligned_label, small_al, nops_of, mask_of.
    assert (AL : forall n m, set_label (push_units (comp_of (oplist cf false ts calls)) n) (Some m) = comp_of (oplist cf false ts calls ++ [OAlign n m])).
    { intros. unfold set_label, push_units, comp_of. cbn [cbuf clabels cjumps cconsts csize]. rewrite buf_app, labs_app, jmps_app, csts_app, total_app. unfold buf at 3. cbn [flat_map obuf labs olab jmps ojmp csts ocst total osize app].
      rewrite !app_nil_r, !Z.add_0_r. reflexivity. }
    destruct (cC cf); [destruct (al <=? 1)|destruct (al <=? 2)]; auto; rewrite LB; destruct (ends_label _ _); reflexivity.
  - cbn [tstep]. rewrite ops_snoc by auto. cbn [emit kops hd tdef]. unfold emit_jump, push_units, comp_of. 
    destruct (jc_word x); cbn [cbuf clabels cjumps cconsts csize klen]; 
    rewrite buf_app, labs_app, jmps_app, csts_app, total_app; unfold buf at 2; cbn [flat_map obuf labs olab jmps ojmp csts ocst total osize app kunits klen jsz jrec set_sz set_jaddr_sz length];
    rewrite ?app_nil_r, ?Z.add_0_r, ?Z.add_0_l, <- ?app_assoc; cbn [app]; f_equal; unfold JUMP_MAX_SIZE; try lia; try (f_equal; unfold set_jaddr_sz, jrec, set_sz, new_jump; cbn; f_equal; f_equal; lia).
  - cbn [tstep]. rewrite ops_snoc by auto. cbn [emit kops hd tdef]. unfold emit_jump, push_units, comp_of. cbn [cbuf clabels cjumps cconsts csize klen]; 
    rewrite buf_app, labs_app, jmps_app, csts_app, total_app; unfold buf at 2; cbn [flat_map obuf labs olab jmps ojmp csts ocst total osize app kunits klen jsz jrec set_sz set_jaddr_sz length];
    rewrite ?app_nil_r, ?Z.add_0_r, ?Z.add_0_l, <- ?app_assoc; cbn [app]; f_equal; unfold JUMP_MAX_SIZE; try lia.
  - cbn [tstep]. rewrite ops_snoc by auto. cbn [emit kops hd tdef]. unfold emit_mov_addr, comp_of. cbn [cbuf clabels cjumps cconsts csize klen]; 
    rewrite buf_app, labs_app, jmps_app, csts_app, total_app; unfold buf at 2; cbn [flat_map obuf labs olab jmps ojmp csts ocst total osize app kunits klen jsz jrec set_sz set_jaddr_sz length];
    rewrite ?app_nil_r, ?Z.add_0_r, ?Z.add_0_l, <- ?app_assoc; cbn [app]; f_equal; unfold JUMP_MAX_SIZE; try lia.
  - rewrite SA by reflexivity. cbn [emit kops]. unfold emit_constant, push_units, comp_of. cbn [cbuf clabels cjumps cconsts csize].
    assert (NE : units_of (p :: l) <> []) by (destruct p; discriminate). destruct (units_of (p :: l)) as [|w u]; [congruence|].
    rewrite buf_app, labs_app, jmps_app, csts_app, total_app. destruct (units_ops_lay u) as (U1 & U2 & U3 & U4 & U5). unfold buf in *.
    cbn [flat_map obuf labs olab jmps ojmp csts ocst total osize app length]. rewrite U1, U2, U3, U4, U5, ?app_nil_r, ?Z.add_0_l. f_equal. lia.
  - cbn [tstep emit]. pose proof (ops_snoc cf calls (KSetLabel j l) (upd j (fun _ => Some (TLabel l)) ts) []) as O. rewrite !app_nil_r in O. cbn [kops] in O. rewrite ?app_nil_r in O.
    rewrite O by (rewrite <- TL; apply upd_length). clear O. unfold comp_of. cbn [cbuf clabels cjumps cconsts csize].
    destruct (oplist_ts cf calls false ts (upd j (fun _ => Some (TLabel l)) ts)) as (E1 & E2 & E3 & E4 & _). rewrite E1, E2, E3, E4, oplist_upd by auto. reflexivity.
  - cbn [tstep emit]. pose proof (ops_snoc cf calls (KSetTarget j a) (upd j (fun _ => Some (TAddr a)) ts) []) as O. rewrite !app_nil_r in O. cbn [kops] in O. rewrite ?app_nil_r in O.
    rewrite O by (rewrite <- TL; apply upd_length). clear O. unfold comp_of. cbn [cbuf clabels cjumps cconsts csize].
    destruct (oplist_ts cf calls false ts (upd j (fun _ => Some (TAddr a)) ts)) as (E1 & E2 & E3 & E4 & _). rewrite E1, E2, E3, E4, oplist_upd by auto. reflexivity.
Qed.
