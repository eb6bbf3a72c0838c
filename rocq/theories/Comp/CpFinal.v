(** Histories from sljit_create_compiler to sljit_generate_code and sljit_free_compiler. *)
Require Import ZArith List Bool Lia Zify ZifyBool Permutation.
From Verif Require Import Rv.RvLib Rv.RvEnc Rv.RvImm Rv.RvLink Rv.RvLinkExec Rv.RvLinkApi Rv.RvLinkPatch Comp.CpMem Comp.CpState Comp.CpCore Comp.CpRep Comp.CpCalls Comp.CpHist Comp.CpView Comp.CpErr Comp.CpPieces.
Import ListNotations.
Open Scope Z_scope.
Ltac Zify.zify_post_hook ::= idtac.

(** ** The half words of each call *)

(** The half words which one call adds to the code: the instructions, one half word for a jump or an address load (its number of
    half words is reserved by compiler->size), padding for aligned labels and buffers, nothing for the others. *)
Definition pad (cf : cfg) (n : Z) : list Z :=
  if cC cf then repeat C_NOP (Z.to_nat n) else flat_map (fun _ => [u16 NOP; u16 (Z.shiftr NOP 16)]) (repeat tt (Z.to_nat n)).
Definition call_units (cf : cfg) (k : ccall) : list Z :=
  match k with
  | CIns e => units_of (flat e)
  | CAlign al sizes =>
      (if al <=? (if cC cf then 1 else 2) then [] else pad cf (if cC cf then (2 ^ al - 2) / 2 else (2 ^ al - 4) / 4)) ++
      flat_map (fun n => pad cf (if cC cf then (n + 1) / 2 else (n + 3) / 4)) sizes
  | CJump pre x _ _ => units_of (flat pre) ++ match jc_word x with NoCond => [] | Cond16 w => [w] | Cond32 w => [u16 w; u16 (Z.shiftr w 16)] end ++ [0]
  | CIJump pre _ _ => units_of (flat pre) ++ [0]
  | CMov pre reg post => units_of (flat pre) ++ reg :: units_of (flat post)
  | CConst p e => units_of (p :: flat e)
  | _ => []
  end.
Lemma emit_label_buf c : cbuf (emit_label c) = cbuf c.
Proof. unfold emit_label. destruct (last_label (clabels c)) as [l|]; [destruct (lsize l =? csize c)|]; reflexivity. Qed.
Lemma units_repeat16 n : units_of (repeat (P16 C_NOP) n) = repeat C_NOP n.
Proof. induction n as [|n IH]; [reflexivity|]. cbn [repeat]. change (P16 C_NOP :: repeat (P16 C_NOP) n) with ([P16 C_NOP] ++ repeat (P16 C_NOP) n). unfold units_of in *. cbn [flat_map app]. rewrite IH. reflexivity. Qed.
Lemma units_repeat32 n : units_of (repeat (P32 NOP) n) = flat_map (fun _ => [u16 NOP; u16 (Z.shiftr NOP 16)]) (repeat tt n).
Proof. induction n as [|n IH]; [reflexivity|]. cbn [repeat flat_map]. unfold units_of in *. cbn [flat_map]. rewrite IH. reflexivity. Qed.
Lemma nop_area_pad cf n : units_of (nop_area cf n) = pad cf (if cC cf then (n + 1) / 2 else (n + 3) / 4).
Proof. unfold nop_area, pad. destruct (cC cf); rewrite Z.shiftr_div_pow2 by lia; [apply units_repeat16|apply units_repeat32]. Qed.
Lemma buffer_buf cf sizes : forall c, cbuf (fold_left (emit cf) (buffer_calls cf sizes) c) = cbuf c ++ flat_map (fun n => pad cf (if cC cf then (n + 1) / 2 else (n + 3) / 4)) sizes.
Proof.
  induction sizes as [|x sizes IH]; intros c; [cbn; rewrite app_nil_r; reflexivity|]. cbn [buffer_calls flat_map]. destruct sizes as [|y sizes].
  - cbn [fold_left emit push_units cbuf flat_map]. rewrite nop_area_pad, app_nil_r. reflexivity.
  - set (l := y :: sizes) in *. cbn [fold_left emit]. rewrite IH, emit_label_buf. cbn [push_units cbuf]. rewrite nop_area_pad, app_assoc. reflexivity.
Qed.
Lemma call_buf cf k c : cbuf (fold_left (emit cf) (kcalls cf k) c) = cbuf c ++ call_units cf k.
Proof.
  destruct k as [e| |al sizes|pre x rewr call|pre call a|pre reg post|p e|j l|j a|n|f|]; cbn [kcalls call_units]; rewrite ?app_nil_r; try reflexivity.
  - apply emit_label_buf.
  - unfold aligned_label_calls. cbn [fold_left]. rewrite buffer_buf, app_assoc. f_equal. cbn [emit]. unfold emit_aligned_label. destruct (cC cf) eqn:C.
    + destruct (al <=? 1); [rewrite emit_label_buf, app_nil_r; reflexivity|]. cbn [RvLink.set_label push_units cbuf]. unfold pad. rewrite C. rewrite (Z.shiftr_div_pow2 (2 ^ al - 2) 1) by lia. reflexivity.
    + destruct (al <=? 2); [rewrite emit_label_buf, app_nil_r; reflexivity|]. cbn [RvLink.set_label push_units cbuf]. unfold pad. rewrite C. rewrite (Z.shiftr_div_pow2 (2 ^ al - 4) 2) by lia. reflexivity.
  - cbn [fold_left emit]. rewrite emit_jump_eq. cbn [cbuf push_units]. rewrite <- app_assoc. reflexivity.
  - cbn [fold_left emit]. rewrite emit_jump_eq. cbn [cbuf push_units cond_units app]. rewrite <- app_assoc. reflexivity.
  - cbn [fold_left emit push_units emit_mov_addr cbuf]. rewrite <- !app_assoc. reflexivity.
Qed.
Lemma hist_buf cf ks : forall c, cbuf (fold_left (emit cf) (kall cf ks) c) = cbuf c ++ flat_map (call_units cf) ks.
Proof.
  induction ks as [|k ks IH]; intros c; [cbn; rewrite app_nil_r; reflexivity|]. unfold kall in *. cbn [flat_map]. rewrite fold_left_app, IH, call_buf, app_assoc. reflexivity.
Qed.
Lemma u16_is x : is16 (u16 x). Proof. unfold is16, u16. apply Z.mod_pos_bound. lia. Qed.
Lemma units_is16 l : Forall is16 (units_of l).
Proof. rewrite <- units_u16. apply Forall_forall. intros x I. apply in_map_iff in I. destruct I as (y & <- & _). apply u16_is. Qed.
Lemma pad_is16 cf n : Forall is16 (pad cf n).
Proof. unfold pad. destruct (cC cf); [rewrite <- units_repeat16|rewrite <- units_repeat32]; apply units_is16. Qed.
Lemma fix16 x : u16 x = x -> is16 x. Proof. intros <-. apply u16_is. Qed.
Lemma call_is16 cf n k : ccall_ok n k -> Forall is16 (call_units cf k).
Proof.
  destruct k as [e| |al sizes|pre x rewr call|pre call a|pre reg post|p e|j l|j a|m|f|]; cbn [ccall_ok call_units]; intros O; try constructor; try apply units_is16.
  - apply Forall_app. split; [destruct (al <=? (if cC cf then 1 else 2)); [constructor|apply pad_is16]|]. induction sizes as [|y sizes IH]; cbn [flat_map]; [constructor|]. apply Forall_app. split; [apply pad_is16|exact IH].
  - apply Forall_app. split; [apply units_is16|]. apply Forall_app. split; [|constructor; [unfold is16; lia|constructor]]. destruct (jc_word x); cbn [cond_ok] in O; repeat constructor; try apply u16_is. apply fix16; auto. apply fix16; auto.
  - apply Forall_app. split; [apply units_is16|]. constructor; [unfold is16; lia|constructor].
  - apply Forall_app. split; [apply units_is16|]. constructor; [apply fix16; auto|apply units_is16].
Qed.
Lemma hist_is16 cf ks : forall c, ccalls_ok cf ks c -> Forall is16 (flat_map (call_units cf) ks).
Proof.
  induction ks as [|k ks IH]; intros c O; [constructor|]. cbn [ccalls_ok flat_map] in *. destruct O as (O1 & O2). apply Forall_app. split; [eapply call_is16; eauto|eapply IH; exact O2].
Qed.

(** ** Reachable states *)

(** A compiler after a history of calls: [h] is the heap before sljit_create_compiler, [rs] the results. *)
Definition reached (cf : cfg) (h : heap) (ks : list ccall) (rs : list Z) (s : cst) : Prop :=
  heap_ok h /\ ccalls_ok cf ks empty /\ csize (emits cf (kall cf ks)) < 2 ^ 63 /\
  exists s0 h0, create_compiler h = (Some s0, h0) /\ ccalls_run cf ks s0 = (rs, s).
Lemma reached_rep cf h ks rs s : reached cf h ks rs s ->
  fr s (hlive h) /\ (cerr s = ERR_ALLOC_FAILED \/ cerr s = 0 /\ cfld s = fold_left fstep ks fields0 /\ exists L J K, rep s (emits cf (kall cf ks)) L J K (hlive h)).
Proof.
  intros (Ho & Ok & Bd & s0 & h0 & Cr & Rn). pose proof (create_ok h Ho) as X. rewrite Cr in X. destruct X as ((R0 & E0 & F0) & ->).
  pose proof (hist_rep cf ks s0 empty [] [] [] (hlive h) R0 E0 Ok Bd) as X. rewrite Rn, F0 in X. exact X.
Qed.
Lemma reached_view cf h ks rs s : reached cf h ks rs s -> cerr s = 0 -> view s = emits cf (kall cf ks) /\ cfld s = fold_left fstep ks fields0.
Proof.
  intros R E. destruct (reached_rep _ _ _ _ _ R) as (_ & [X|(_ & X & L & J & K & Rp)]); [rewrite E in X; discriminate|]. split; auto. eapply view_rep; [exact Rp|].
  unfold emits. rewrite hist_buf. cbn [cbuf app]. eapply hist_is16. apply R.
Qed.
Lemma reached_units cf h ks rs s : reached cf h ks rs s -> cerr s = 0 -> cbuf (view s) = flat_map (call_units cf) ks.
Proof. intros R E. destruct (reached_view _ _ _ _ _ R E) as (-> & _). unfold emits. rewrite hist_buf. reflexivity. Qed.
Lemma reached_generate cf h ks rs s code eo m0 : reached cf h ks rs s -> cerr s = 0 -> code <> 0 ->
  let (g, s') := api_generate cf code eo m0 s in g = Some (generate_code cf code eo m0 (emits cf (kall cf ks))) /\ cerr s' = ERR_COMPILED.
Proof.
  intros R E C. unfold api_generate. rewrite E. replace (code =? 0) with false by lia. cbn [Z.eqb negb]. destruct (reached_view _ _ _ _ _ R E) as (-> & _). auto.
Qed.
Lemma ccalls_app cf ks1 : forall ks2 s, ccalls_run cf (ks1 ++ ks2) s = let (r1, s1) := ccalls_run cf ks1 s in let (r2, s2) := ccalls_run cf ks2 s1 in (r1 ++ r2, s2).
Proof.
  induction ks1 as [|k ks1 IH]; intros ks2 s; cbn [app ccalls_run]; [destruct (ccalls_run cf ks2 s); reflexivity|].
  destruct (ccall_run cf k (jump_ptrs s) (label_ptrs s) s) as (r, s1). rewrite IH. destruct (ccalls_run cf ks1 s1) as (r1, s2). destruct (ccalls_run cf ks2 s2) as (r2, s3). reflexivity.
Qed.
Lemma ccalls_ok_app cf ks1 : forall ks2 c, ccalls_ok cf (ks1 ++ ks2) c <-> ccalls_ok cf ks1 c /\ ccalls_ok cf ks2 (fold_left (emit cf) (kall cf ks1) c).
Proof.
  induction ks1 as [|k ks1 IH]; intros ks2 c; cbn [app]; [cbn; tauto|]. cbn [ccalls_ok kall flat_map]. fold (ccalls_ok cf). rewrite IH. unfold kall. rewrite fold_left_app. tauto.
Qed.
Lemma csize_mono cf ks1 ks2 : csize (emits cf (kall cf ks1)) <= csize (emits cf (kall cf (ks1 ++ ks2))).
Proof. unfold kall. rewrite flat_map_app. unfold emits. rewrite fold_left_app. apply emits_mono. Qed.
Lemma reached_snoc cf h ks k rs r s' : reached cf h (ks ++ [k]) (rs ++ [r]) s' ->
  exists s, reached cf h ks rs s /\ ccall_run cf k (jump_ptrs s) (label_ptrs s) s = (r, s') /\ ccall_ok (length (clabels (emits cf (kall cf ks)))) k /\ csize (fold_left (emit cf) (kcalls cf k) (emits cf (kall cf ks))) < 2 ^ 63.
Proof.
  intros (Ho & Ok & Bd & s0 & h0 & Cr & Rn). rewrite ccalls_app in Rn. destruct (ccalls_run cf ks s0) as (r1, s1) eqn:E1. cbn [ccalls_run] in Rn.
  destruct (ccall_run cf k (jump_ptrs s1) (label_ptrs s1) s1) as (r2, s2) eqn:E2. injection Rn as Rn1 Rn2. apply app_inj_tail in Rn1. destruct Rn1 as (-> & ->). subst s2.
  apply ccalls_ok_app in Ok. destruct Ok as (Ok1 & Ok2 & _). exists s1. split; [|split; [exact E2|split; [exact Ok2|]]].
  - split; auto. split; auto. split; [pose proof (csize_mono cf ks [k]); lia|]. exists s0, h0. auto.
  - unfold kall in Bd. rewrite flat_map_app in Bd. unfold emits in Bd. rewrite fold_left_app in Bd. cbn [flat_map] in Bd. rewrite app_nil_r in Bd. exact Bd.
Qed.
(** A call on a compiler without error: either it fails, with the error recorded and returned, or its result is what it says. *)
Lemma reached_step cf h ks k rs r s' : reached cf h (ks ++ [k]) (rs ++ [r]) s' ->
  exists s, reached cf h ks rs s /\ ccall_run cf k (jump_ptrs s) (label_ptrs s) s = (r, s') /\
  (cerr s = 0 -> cerr s' <> 0 -> ccall_checked k -> failed k r) /\ (cerr s' = 0 -> res_ok k r s').
Proof.
  intros R. destruct (reached_snoc _ _ _ _ _ _ _ R) as (s & Rs & E & Ok & Bd). exists s. split; auto. split; auto.
  destruct (reached_rep _ _ _ _ _ Rs) as (Fr & X). destruct X as [X|(Z0 & _ & L & J & K & Rp)].
  - split; [rewrite X; discriminate|]. pose proof (step_err cf k s (hlive h) Fr ltac:(rewrite X; discriminate)) as Y. rewrite E in Y. destruct Y as (_ & Y & _). rewrite Y, X. discriminate.
  - pose proof (step_rep cf k s _ L J K (hlive h) Rp Z0 Ok Bd) as Y. rewrite E in Y. destruct Y as (_ & [(Y1 & Y2)|(Y1 & Y2 & _)]).
    + split; auto. rewrite Y1. discriminate.
    + split; auto. congruence.
Qed.

(** ** The error *)
Definition emitting (k : ccall) : Prop := match k with CSetLabel _ _ | CSetTarget _ _ | CMemError => False | _ => True end.
Lemma sticky cf k jp lp s : cerr s <> 0 -> emitting k ->
  ccall_run cf k jp lp s = (match k with CIns _ | CIJump _ _ _ | CFields _ => cerr s | _ => 0 end, s).
Proof.
  intros Er Em. assert (N : (cerr s =? 0) = false) by lia.
  destruct k as [e| |al sizes|pre x rewr call|pre call a|pre reg post|p e|j l|j a|n|f|]; cbn [emitting] in Em; try contradiction; cbn [ccall_run];
    unfold api_ins, api_label, api_align, api_jump, api_ijump, api_mov, api_const, alloc_memory, guard; rewrite ?N; cbn [negb]; reflexivity.
Qed.
Lemma sticky_hist cf ks : forall s, cerr s <> 0 -> Forall emitting ks -> snd (ccalls_run cf ks s) = s /\ Forall2 failed ks (fst (ccalls_run cf ks s)).
Proof.
  induction ks as [|k ks IH]; intros s Er Em; cbn [ccalls_run fst snd]; [split; [auto|constructor]|]. inversion Em as [|? ? E1 E2]; subst. rewrite sticky; auto.
  destruct (IH s Er E2) as (I1 & I2). destruct (ccalls_run cf ks s) as (rs, s1). cbn [fst snd] in *. split; auto. constructor; auto.
  destruct k; cbn [failed emitting] in *; auto.
Qed.
(** The jump and label pointers of the caller may still be used: the error stays, the lists and the code size stay. *)
Definition same_lists (s s' : cst) : Prop :=
  (cerr s', cself s', cbufp s', cabufp s', clab s', clastl s', cjmp s', clastj s', ccon s', clastc s', ccount s', csz s', cfld s') =
  (cerr s, cself s, cbufp s, cabufp s, clab s, clastl s, cjmp s, clastj s, ccon s, clastc s, ccount s, csz s, cfld s).
Lemma sticky_any cf ks : forall s, cerr s <> 0 -> same_lists s (snd (ccalls_run cf ks s)) /\ hlive (ch (snd (ccalls_run cf ks s))) = hlive (ch s) /\ hsched (ch (snd (ccalls_run cf ks s))) = hsched (ch s).
Proof.
  induction ks as [|k ks IH]; intros s Er; cbn [ccalls_run snd]; [repeat split|].
  assert (X : let s1 := snd (ccall_run cf k (jump_ptrs s) (label_ptrs s) s) in same_lists s s1 /\ hlive (ch s1) = hlive (ch s) /\ hsched (ch s1) = hsched (ch s)).
  { cbv zeta. destruct k as [e| |al sizes|pre x rewr call|pre call a|pre reg post|p e|j l|j a|n|f|]; try (rewrite sticky by (auto; exact Logic.I); repeat split); cbn [ccall_run snd].
    - unfold api_set_label. destruct (negb (nth j (jump_ptrs s) 0 =? 0) && negb (nth l (label_ptrs s) 0 =? 0)); repeat split.
    - unfold api_set_target. destruct (negb (nth j (jump_ptrs s) 0 =? 0)); repeat split.
    - unfold api_memory_error. replace (cerr s =? 0) with false by lia. repeat split. }
  cbv zeta in X. destruct (ccall_run cf k (jump_ptrs s) (label_ptrs s) s) as (r, s1). cbn [snd] in X. destruct X as (X1 & X2 & X3).
  assert (E1 : cerr s1 = cerr s) by (injection X1; auto). specialize (IH s1 ltac:(congruence)). destruct (ccalls_run cf ks s1) as (rs, s2). cbn [snd] in *. destruct IH as (I1 & I2 & I3).
  split; [unfold same_lists in *; congruence|]. split; congruence.
Qed.
Lemma generate_err cf code eo m0 s : cerr s <> 0 -> api_generate cf code eo m0 s = (None, s).
Proof. intros E. unfold api_generate. replace (cerr s =? 0) with false by lia. reflexivity. Qed.
Lemma generate_sets cf code eo m0 s : cerr (snd (api_generate cf code eo m0 s)) <> 0.
Proof. unfold api_generate. destruct (cerr s =? 0) eqn:E; cbn [negb]; [|cbn [snd]; lia]. destruct (code =? 0); cbn [snd]; discriminate. Qed.
(** Failed allocations during the history, and the error after it. *)
Lemma recorded cf h ks rs s : reached cf h ks rs s -> ~ In CMemError ks ->
  exists s0 h0 used, create_compiler h = (Some s0, h0) /\ hsched h0 = used ++ hsched (ch s) /\
  (In 0 used -> cerr s = ERR_ALLOC_FAILED) /\ (cerr s <> 0 -> In 0 used \/ hsched (ch s) = []).
Proof.
  intros (Ho & Ok & Bd & s0 & h0 & Cr & Rn) N. pose proof (create_ok h Ho) as X. rewrite Cr in X. destruct X as ((R0 & E0 & F0) & ->).
  pose proof (hist_tr cf ks s0 N) as T. rewrite Rn in T. cbn [snd] in T. destruct T as (used & T1 & T2 & T3). rewrite E0 in T3. exists s0, (ch s0), used. split; auto. split; auto. split.
  - intros I. specialize (T2 I). destruct T3 as [T3|(T3 & _)]; [congruence|exact T3].
  - intros E. destruct T3 as [T3|(_ & T3)]; [congruence|exact T3].
Qed.

(** ** sljit_free_compiler *)
Lemma reached_cored cf h ks rs s : reached cf h ks rs s -> cored s (hlive h).
Proof. intros R. apply fr_cored. apply (reached_rep _ _ _ _ _ R). Qed.
Lemma reached_free cf h ks rs s : reached cf h ks rs s -> Permutation (hlive (free_compiler s)) (hlive h).
Proof. intros R. apply free_ok. eapply reached_cored; eauto. Qed.
Lemma cored_generate cf code eo m0 s live : cored s live -> cored (snd (api_generate cf code eo m0 s)) live.
Proof.
  intros (F & G & R & C). unfold api_generate. destruct (negb (cerr s =? 0)); [exists F, G, R; exact C|]. destruct (code =? 0).
  - exists F, G, R. eapply core_ext; [exact C| | | |]; reflexivity.
  - exists (rev F), G, R. eapply core_ext; [apply reverse_core; exact C| | | |]; reflexivity.
Qed.
Lemma reached_generate_free cf h ks rs s code eo m0 : reached cf h ks rs s -> Permutation (hlive (free_compiler (snd (api_generate cf code eo m0 s)))) (hlive h).
Proof. intros R. apply free_ok. apply cored_generate. eapply reached_cored; eauto. Qed.
Lemma create_none h h' : heap_ok h -> create_compiler h = (None, h') -> hlive h' = hlive h.
Proof. intros H E. pose proof (create_ok h H) as X. rewrite E in X. exact X. Qed.
Lemma reached_pieces cf h ks rs s reqs : reached cf h ks rs s -> Forall req_ok reqs ->
  let (ps, s') := req_run reqs [] s in no_overlap ps /\ Forall (placed (hlive (ch s'))) ps /\ Permutation (hlive (free_compiler s')) (hlive h).
Proof. intros R Ok. apply reqs_ok; auto. eapply reached_cored; eauto. Qed.
