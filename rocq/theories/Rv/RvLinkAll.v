(** sljit_generate_code as a whole. *)
Require Import ZArith List Bool Lia Zify ZifyBool.
From Verif Require Import Rv.RvLib Rv.RvBits Rv.RvIsa Rv.RvEnc Rv.RvImm Rv.RvAddr Rv.RvCtl Rv.RvLink Rv.RvLinkOps Rv.RvLinkReduce Rv.RvLinkEst Rv.RvLinkGen Rv.RvLinkPick Rv.RvLinkFit Rv.RvLinkLay Rv.RvLinkLoop Rv.RvLinkPatch.
Import ListNotations.
Open Scope Z_scope.

(** The program with its estimated sizes. *)
Definition sized (cf : cfg) (ops : list op) : list op := est cf (map lsize (labs 0 ops)) [] 0 0 ops.

Lemma sized_same cf ol ops : forall el p e, Forall2 (fun o o' => o' = o \/ (exists k j s, o = OJmp k j /\ o' = OJmp k (set_sz j s)) \/ (exists r j s, o = OMov r j /\ o' = OMov r (set_sz j s)))
  ops (est cf ol el p e ops).
Proof. induction ops as [|o ops IH]; intros; cbn [est]; constructor; auto. destruct o; cbn [est_op]; auto; right; [left|right]; eauto. Qed.
Lemma ends_label_est cf ol ops : forall el p e b, ends_label b (est cf ol el p e ops) = ends_label b ops.
Proof. induction ops as [|o ops IH]; intros; cbn [est ends_label]; [auto|]. rewrite IH. destruct o; reflexivity. Qed.
Lemma label_addr_nth ls l : label_addr ls l = nth l (map laddr ls) 0.
Proof. unfold label_addr. revert l. induction ls; intros [|l]; cbn; auto. Qed.

Lemma est_wf cf ol nl ops : Forall (wf_op cf nl) ops -> forall el p e, Forall (wf_op cf nl) (est cf ol el p e ops).
Proof. induction 1; intros; cbn [est]; constructor; auto. apply wf_est. auto. Qed.

(** What is true of the result of sljit_generate_code. *)
Record linked (cf : cfg) (code eo : Z) (ops : list op) (g : gen) (FL : list Z) : Prop := {
  l_lay : flay cf code eo (munit (rmem g)) FL 0 0 (sized cf ops) (rend g) (rjumps g) (rconsts g);
  l_sizes : map lsize (rlabels g) = FL;
  l_addrs : forall l, (l < length FL)%nat -> label_addr (rlabels g) l = code + 2 * nth l FL 0 + eo;
  l_len : length FL = length (labs 0 ops);
  l_range : forall l, (l < length FL)%nat -> 0 <= nth l FL 0 <= total (sized cf ops);
  l_end : 0 <= rend g <= total (sized cf ops);
  l_mem : tail_ok (sized cf ops) -> mok (rmem g) = true;
  l_size : rsize g = 4 * rend g }.

Theorem link_ok cf code eo m0 ops :
  okl false ops -> Forall orig_op ops -> Forall (wf_op cf (length (labs 0 ops))) ops ->
  code mod 2 = 0 -> 0 <= code + eo -> code + eo + 2 * total (sized cf ops) < 2 ^ 63 -> total ops < MAX_ADDRESS ->
  eo = 0 \/ ends_label false ops = false ->
  exists FL, linked cf code eo ops (generate_code cf code eo m0 (comp_of ops)) FL.
Proof.
  intros Hl Ho Hw H2 HC HS HM HE. unfold generate_code. rewrite (reduce_comp cf ops Hl Ho HM). cbv zeta. cbn [cbuf csize].
  fold (sized cf ops). set (eops := sized cf ops) in *. set (size := total eops) in *.
  set (EL := map lsize (labs 0 eops)).
  assert (ELl : length EL = length (labs 0 ops)) by (unfold EL, eops, sized; rewrite map_length; apply est_labs_length).
  assert (SP : 0 <= size <= total ops) by (apply est_total; auto).
  assert (EO : eok cf EL 0 0 eops).
  { apply (eok_est cf (map lsize (labs 0 ops)) ops Ho [] 0 0 (length (labs 0 ops))); auto; lia. }
  assert (P : pre cf code size EL None 0 0 [] eops).
  { constructor; cbn [isp plab app length np start map]; auto; try lia.
    all: try (apply est_okl; auto). all: try (intros i Hi; cbn in Hi; lia). }
  assert (B : buf eops = buf ops) by apply est_buf.
  pose proof (gen_ok cf code eo size EL H2 HC HS ltac:(lia) eops None (mkMem m0 true) 0 0 [] [] [] P) as G.
  rewrite B in G.
  change (gen_init (mkMem m0 true) {| cbuf := buf ops; clabels := labs 0 eops; cjumps := jmps (fun x => x) 0 eops; cconsts := csts 0 eops; csize := size |})
    with (st None (mkMem m0 true) 0 0 [] [] [] eops).
  set (s' := fold_left _ _ _) in *. clearbody s'.
  destruct G as (m' & q' & pend' & rl & js & cs & S & G). cbv zeta in G. destruct G as (P1 & _ & P3 & P4 & P5 & P6 & P7 & P8 & P9 & P10).
  cbn [app length np isp start] in *. rewrite !app_nil_r in S. change (0 + total eops) with size in *.
  assert (ELs : forall i, (i < length EL)%nat -> 0 <= nth i EL 0 <= size).
  { intros i Hi. assert (I : In (nth i EL 0) EL) by (apply nth_In; auto). unfold EL in I at 2. apply in_map_iff in I. destruct I as (l & E & I).
    apply labs_bounds in I; [|eapply eok_pos; eauto]. rewrite E in I. fold size in I. lia. }
  set (FL := map lsize rl ++ (if isp pend' then [start code pend' q'] else [])) in *.
  (* the last label *)
  assert (FI : gen_final_label code s' = mkG m' (start code pend' q') size
     (rl ++ match pend' with Some mk => [mkLabel (start code pend' q') mk (wrap (code + 2 * start code pend' q'))] | None => [] end)
     (length rl + np pend') (rev js) [] (rev cs) [] (gmin_of (rl ++ plab pend' size) (length rl) [] [])).
  { rewrite S. unfold gen_final_label, gs. cbn [glabels gil gcp gm ghc gjd gjr gcd gcr gmin]. destruct pend' as [mk|]; cbn [plab np isp].
    - rewrite nth_error_mid. cbn [lsize lmask]. rewrite Z.eqb_refl, upd_mid. cbn [lmask]. rewrite Nat.add_1_r. destruct mk; reflexivity.
    - rewrite app_nil_r. replace (nth_error rl (length rl)) with (@None label) by (symmetry; apply nth_error_None; lia). rewrite Nat.add_0_r. reflexivity. }
  rewrite FI. cbn [gjd gjr gm glabels gcp gcd gcr]. rewrite !rev_involutive, !app_nil_r.
  set (LS := rl ++ _).
  assert (LZ : map lsize LS = FL). { unfold LS, FL. rewrite map_app. destruct pend'; reflexivity. }
  assert (FR : forall l, (l < length FL)%nat -> 0 <= nth l FL 0 <= size).
  { intros l L. specialize (P6 l ltac:(lia)). specialize (ELs l ltac:(lia)). lia. }
  assert (HL : forall l, (l < length FL)%nat -> label_addr LS l = code + 2 * nth l FL 0 + eo).
  { intros l L. specialize (FR l L). rewrite label_addr_nth. rewrite <- LZ in *. rewrite map_length in L.
    assert (RA : laddr (nth l LS (mkLabel 0 None 0)) = wrap (code + 2 * lsize (nth l LS (mkLabel 0 None 0)) + eo)).
    { unfold LS in *. destruct (Nat.lt_ge_cases l (length rl)) as [X|X].
      - rewrite app_nth1 by auto. rewrite Forall_forall in P4. apply P4. apply nth_In; auto.
      - rewrite app_nth2 by lia. rewrite app_length in L. destruct pend' as [mk|]; cbn [length] in L; [|lia].
        assert (l = length rl) as -> by lia. rewrite Nat.sub_diag. cbn [nth laddr lsize]. f_equal.
        destruct HE as [->|HE]; [lia|]. specialize (P10 eq_refl). unfold eops, sized in P10. rewrite ends_label_est in P10. congruence. }
    pose proof (map_nth laddr LS (mkLabel 0 None 0) l) as N1. pose proof (map_nth lsize LS (mkLabel 0 None 0) l) as N2. cbn [laddr lsize] in N1, N2.
    rewrite N1, N2 in *. rewrite RA. apply wrap_small. unfold isw. lia. }
  assert (WF : Forall (wf_op cf (length FL)) eops).
  { rewrite P1, ELl. apply est_wf. auto. }
  destruct (lay_patch cf code eo size LS FL HL (munit m') eops 0 0 (start code pend' q') js cs m' P3 ltac:(lia) WF ltac:(auto)) as (Q1 & Q2 & Q3).
  assert (E0 : 0 <= start code pend' q'). { eapply lay_mono; eauto. }
  exists FL. constructor; cbn [rmem rend rlabels rjumps rconsts rsize]; auto; try lia.
Qed.
