(** Every failed allocation is recorded; nothing else sets the error. *)
Require Import ZArith List Bool Lia Zify ZifyBool.
From Verif Require Import Rv.RvLib Rv.RvEnc Rv.RvImm Rv.RvLink Rv.RvLinkExec Rv.RvLinkApi Comp.CpMem Comp.CpState Comp.CpCore Comp.CpRep Comp.CpCalls Comp.CpHist.
Import ListNotations.
Open Scope Z_scope.
Ltac Zify.zify_post_hook ::= idtac.

(** From [s] to [s']: the allocations made, [used], and the error.  (When the list of results has ended, malloc fails without using an element.) *)
Definition tr (s s' : cst) : Prop :=
  exists used, hsched (ch s) = used ++ hsched (ch s') /\ (In 0 used -> cerr s' <> 0) /\
  (cerr s' = cerr s \/ cerr s' = ERR_ALLOC_FAILED /\ (In 0 used \/ hsched (ch s') = [])).
Lemma tr_same s s' : hsched (ch s') = hsched (ch s) -> cerr s' = cerr s -> tr s s'.
Proof. intros E1 E2. exists []. rewrite E1, E2. repeat split; auto. Qed.
Lemma tr_trans s1 s2 s3 : tr s1 s2 -> tr s2 s3 -> tr s1 s3.
Proof.
  intros (u & U1 & U2 & U3) (v & V1 & V2 & V3). exists (u ++ v). split; [rewrite U1, V1, app_assoc; reflexivity|]. split.
  - intros I. apply in_app_or in I. destruct I as [I|I]; auto. destruct V3 as [V3|(V3 & _)]; rewrite V3; auto. discriminate.
  - destruct V3 as [V3|(V3 & [V4|V4])].
    + rewrite V3. destruct U3 as [U3|(U3 & [U4|U4])]; auto; right; (split; [exact U3|]).
      * left. apply in_or_app. auto.
      * right. rewrite U4 in V1. symmetry in V1. apply app_eq_nil in V1. apply V1.
    + right. split; auto. left. apply in_or_app. auto.
    + right. auto.
Qed.
Ltac trs := apply tr_same; reflexivity.
Lemma tr_buf s n : tr s (snd (ensure_buf s n)).
Proof.
  unfold ensure_buf. destruct (wrap (ld s (cbufp s + 8) + n) <=? BUF_SIZE - MEMORY); [trs|]. unfold malloc. destruct (hsched (ch s)) as [|p r] eqn:E.
  - cbn. exists []. cbn. rewrite E. repeat split; auto.
  - destruct (p =? 0) eqn:Z0; cbn.
    + exists [p]. cbn. rewrite E. split; [reflexivity|]. split; [discriminate|]. right. split; auto. left. left. lia.
    + exists [p]. cbn. rewrite E. split; [reflexivity|]. split; [intros [H|[]]; lia|]. left. reflexivity.
Qed.
Lemma tr_abuf s n : tr s (snd (ensure_abuf s n)).
Proof.
  unfold ensure_abuf. destruct (wrap (ld s (cabufp s + 8) + n) <=? ABUF_SIZE - MEMORY); [trs|]. unfold malloc. destruct (hsched (ch s)) as [|p r] eqn:E.
  - cbn. exists []. cbn. rewrite E. repeat split; auto.
  - destruct (p =? 0) eqn:Z0; cbn.
    + exists [p]. cbn. rewrite E. split; [reflexivity|]. split; [discriminate|]. right. split; auto. left. left. lia.
    + exists [p]. cbn. rewrite E. split; [reflexivity|]. split; [intros [H|[]]; lia|]. left. reflexivity.
Qed.
(** A step [f] of a function: the state after it is related to the state before. *)
Definition keeps {A} (f : cst -> A * cst) : Prop := forall s, tr s (snd (f s)).
Lemma keeps_buf n : keeps (fun s => ensure_buf s n). Proof. intros s. apply tr_buf. Qed.
Lemma keeps_abuf n : keeps (fun s => ensure_abuf s n). Proof. intros s. apply tr_abuf. Qed.
Lemma keeps_bind {A B} (f : cst -> A * cst) (g : A -> cst -> B * cst) : keeps f -> (forall a, keeps (g a)) -> keeps (fun s => let (a, s) := f s in g a s).
Proof. intros F G s. specialize (F s). destruct (f s) as (a, s1). cbn [snd] in F. eapply tr_trans; [exact F|apply G]. Qed.
Lemma keeps_ret {A} (a : A) : keeps (fun s => (a, s)). Proof. intros s. trs. Qed.
Lemma keeps_err : keeps (fun s => (cerr s, s)). Proof. intros s. trs. Qed.
Lemma keeps_if {A} (b : cst -> bool) (f g : cst -> A * cst) : keeps f -> keeps g -> keeps (fun s => if b s then f s else g s).
Proof. intros F G s. destruct (b s); auto. Qed.
(** Pure changes which do not touch the allocator and the error. *)
Definition pure (u : cst -> cst) : Prop := forall s, hsched (ch (u s)) = hsched (ch s) /\ cerr (u s) = cerr s.
Lemma keeps_pure {A} (u : cst -> cst) (f : cst -> A * cst) : pure u -> keeps f -> keeps (fun s => f (u s)).
Proof. intros U F s. eapply tr_trans; [|apply F]. destruct (U s). apply tr_same; auto. Qed.
Lemma keeps_pure_ret {A} (a : A) u : pure u -> keeps (fun s => (a, u s)).
Proof. intros U s. destruct (U s). apply tr_same; auto. Qed.
Lemma pure_comp u v : pure u -> pure v -> pure (fun s => v (u s)).
Proof. intros U V s. destruct (U s), (V (u s)). split; congruence. Qed.
Lemma keeps_guard f b : keeps f -> keeps (fun s => guard s f b).
Proof. intros F. unfold guard. intros s. destruct (negb (cerr s =? 0)); [trs|apply F]. Qed.
Lemma keeps_push16 w : keeps (fun s => push_inst16 s w).
Proof. unfold push_inst16. apply (keeps_bind _ (fun p s => if p =? 0 then (cerr s, s) else (0, set_size (sth s p [u16 w]) (csz s + 1)))); [apply keeps_buf|]. intros p s. destruct (p =? 0); trs. Qed.
Lemma keeps_push w : keeps (fun s => push_inst s w).
Proof. unfold push_inst. apply (keeps_bind _ (fun p s => if p =? 0 then (cerr s, s) else (0, set_size (sth s p [u16 w; u16 (Z.shiftr w 16)]) (csz s + 2)))); [apply keeps_buf|]. intros p s. destruct (p =? 0); trs. Qed.
Lemma keeps_em e : keeps (run_em e).
Proof.
  induction e as [|w|w|a IHa b IHb|a IHa b IHb].
  - apply keeps_ret.
  - apply keeps_push16.
  - apply keeps_push.
  - apply (keeps_bind (run_em a) (fun r s => if r =? 0 then run_em b s else (cerr s, s))); auto. intros r s. destruct (r =? 0); [apply IHb|trs].
  - apply (keeps_bind (run_em a) (fun r s => run_em b s)); auto.
Qed.
Lemma pure_link_label q : pure (fun s => CpState.set_label s q).
Proof. intros s. unfold CpState.set_label, link. match goal with |- context[if ?b then _ else _] => destruct b end; split; reflexivity. Qed.
Lemma pure_ext q t d : pure (fun s => set_extended_label s q t d).
Proof. intros s. unfold set_extended_label, CpState.set_label, link. match goal with |- context[if ?b then _ else _] => destruct b end; split; reflexivity. Qed.
Lemma pure_jump q f : pure (fun s => set_jump s q f).
Proof. intros s. unfold set_jump, link. match goal with |- context[if ?b then _ else _] => destruct b end; split; reflexivity. Qed.
Lemma pure_mov q : pure (fun s => set_mov_addr s q).
Proof. intros s. unfold set_mov_addr, link. match goal with |- context[if ?b then _ else _] => destruct b end; split; reflexivity. Qed.
Lemma pure_const q : pure (fun s => set_const s q).
Proof. intros s. unfold set_const, link. match goal with |- context[if ?b then _ else _] => destruct b end; split; reflexivity. Qed.
Lemma keeps_label : keeps api_label.
Proof.
  apply keeps_guard. intros s. destruct (negb (clastl s =? 0) && (ld s (clastl s + 16) =? csz s)); [trs|].
  revert s. apply (keeps_bind (fun s => ensure_abuf s 24) (fun q s => if q =? 0 then (0, s) else (q, CpState.set_label s q))); [apply keeps_abuf|]. intros q s. destruct (q =? 0); [trs|]. apply (keeps_pure_ret q _ (pure_link_label q)).
Qed.
Lemma keeps_buffer cf sizes ret : keeps (buffer_loop cf sizes ret).
Proof.
  induction sizes as [|x sizes IH]; [apply keeps_ret|]. cbn [buffer_loop].
  apply (keeps_bind (run_em (em_of (nop_area cf x))) (fun r s => if negb (r =? 0) then (0, s) else match sizes with [] => (ret, s) | _ => let (q, s) := api_label s in if q =? 0 then (0, s) else buffer_loop cf sizes ret s end)); [apply keeps_em|].
  intros r s. destruct (negb (r =? 0)); [trs|]. destruct sizes as [|y sizes]; [trs|]. revert s.
  apply (keeps_bind api_label (fun q s => if q =? 0 then (0, s) else buffer_loop cf (y :: sizes) ret s)); [apply keeps_label|]. intros q s. destruct (q =? 0); [trs|apply IH].
Qed.
Lemma keeps_align cf al sizes : keeps (api_align cf al sizes).
Proof.
  apply keeps_guard.
  apply (keeps_bind (fun s => if (if cC cf then al <=? 1 else al <=? 2) then api_label s
      else let (r, s) := run_em (em_of (align_nops cf al)) s in
        if negb (r =? 0) then (0, s)
        else let (q, s) := ensure_abuf s 40 in
          if q =? 0 then (0, s) else (q, set_extended_label s q LABEL_ALIGNED (align_mask cf al))) (fun q s => if q =? 0 then (0, s) else buffer_loop cf sizes q s)).
  - intros s. destruct (if cC cf then al <=? 1 else al <=? 2); [apply keeps_label|]. revert s.
    apply (keeps_bind (run_em (em_of (align_nops cf al))) (fun r s => if negb (r =? 0) then (0, s) else let (q, s) := ensure_abuf s 40 in if q =? 0 then (0, s) else (q, set_extended_label s q LABEL_ALIGNED (align_mask cf al)))); [apply keeps_em|].
    intros r s. destruct (negb (r =? 0)); [trs|]. revert s.
    apply (keeps_bind (fun s => ensure_abuf s 40) (fun q s => if q =? 0 then (0, s) else (q, set_extended_label s q LABEL_ALIGNED (align_mask cf al)))); [apply keeps_abuf|].
    intros q s. destruct (q =? 0); [trs|]. apply (keeps_pure_ret q _ (pure_ext q _ _)).
  - intros q s. destruct (q =? 0); [trs|apply keeps_buffer].
Qed.
Lemma keeps_jump_tail k rewr call : keeps (jump_tail k rewr call).
Proof.
  unfold jump_tail.
  apply (keeps_bind (fun s => ensure_abuf s 32) (fun q s => if q =? 0 then (0, s) else
    let s := set_jump s q (if rewr then REWRITABLE_JUMP else 0) in
    let (r, s) := run_em (cond_em k) s in
    if negb (r =? 0) then (0, s) else
    let s := st s (q + 16) (ld s (q + 16) .| cond_flags k) in
    let s := st s (q + 8) (csz s) in
    let s := if call then st s (q + 16) (ld s (q + 16) .| IS_CALL) else s in
    let (r, s) := push_inst16 s 0 in
    if negb (r =? 0) then (0, s) else (q, set_size s (csz s + (JUMP_MAX_SIZE - 1))))); [apply keeps_abuf|].
  intros q s. destruct (q =? 0); [trs|]. cbv zeta. eapply tr_trans; [apply tr_same; apply (pure_jump q (if rewr then REWRITABLE_JUMP else 0) s)|].
  match goal with |- tr ?x _ => generalize x end. clear s.
  apply (keeps_bind (run_em (cond_em k)) (fun r s => if negb (r =? 0) then (0, s) else
    let s := st s (q + 16) (ld s (q + 16) .| cond_flags k) in
    let s := st s (q + 8) (csz s) in
    let s := if call then st s (q + 16) (ld s (q + 16) .| IS_CALL) else s in
    let (r, s) := push_inst16 s 0 in
    if negb (r =? 0) then (0, s) else (q, set_size s (csz s + (JUMP_MAX_SIZE - 1))))); [apply keeps_em|].
  intros r s. destruct (negb (r =? 0)); [trs|]. cbv zeta.
  eapply tr_trans; [|apply (keeps_bind (fun s => push_inst16 s 0) (fun r s => if negb (r =? 0) then (0, s) else (q, set_size s (csz s + (JUMP_MAX_SIZE - 1)))) (keeps_push16 0))].
  - destruct call; trs.
  - intros r' s'. destruct (negb (r' =? 0)); trs.
Qed.
Lemma keeps_ijump_tail call a : keeps (ijump_tail call a).
Proof.
  unfold ijump_tail.
  apply (keeps_bind (fun s => ensure_abuf s 32) (fun q s => if q =? 0 then (cerr s, s) else
    let s := set_jump s q (JUMP_ADDR .| (if call then IS_CALL else 0)) in
    let s := st s (q + 24) a in
    let s := st s (q + 8) (csz s) in
    let (r, s) := push_inst16 s 0 in
    if negb (r =? 0) then (cerr s, s) else (0, set_size s (csz s + (JUMP_MAX_SIZE - 1))))); [apply keeps_abuf|].
  intros q s. destruct (q =? 0); [trs|]. cbv zeta. eapply tr_trans; [|apply (keeps_bind (fun s => push_inst16 s 0) (fun r s => if negb (r =? 0) then (cerr s, s) else (0, set_size s (csz s + (JUMP_MAX_SIZE - 1)))) (keeps_push16 0))].
  - destruct (pure_jump q (JUMP_ADDR .| (if call then IS_CALL else 0)) s). apply tr_same; cbn [st set_h hst ch hsched cerr]; auto.
  - intros r' s'. destruct (negb (r' =? 0)); trs.
Qed.
Lemma keeps_mov_tail reg : keeps (mov_tail reg).
Proof.
  unfold mov_tail.
  apply (keeps_bind (fun s => ensure_abuf s 32) (fun q s => if q =? 0 then (0, s) else
    let s := set_mov_addr s q in
    let (r, s) := push_inst16 s reg in
    if negb (r =? 0) then (0, s) else (q, set_size s (csz s + (JUMP_MAX_SIZE - 1))))); [apply keeps_abuf|].
  intros q s. destruct (q =? 0); [trs|]. cbv zeta. eapply tr_trans; [|apply (keeps_bind (fun s => push_inst16 s reg) (fun r s => if negb (r =? 0) then (0, s) else (q, set_size s (csz s + (JUMP_MAX_SIZE - 1)))) (keeps_push16 reg))].
  - destruct (pure_mov q s). apply tr_same; auto.
  - intros r' s'. destruct (negb (r' =? 0)); trs.
Qed.
Lemma keeps_const p e : keeps (api_const p e).
Proof.
  apply keeps_guard. apply (keeps_bind (fun s => ensure_abuf s 16) (fun q s => if q =? 0 then (0, s) else
    let s := set_const s q in
    let (r, s) := run_em (EThen (match p with P16 w => E16 w | P32 w => E32 w end) e) s in
    if negb (r =? 0) then (0, s) else (q, s))); [apply keeps_abuf|].
  intros q s. destruct (q =? 0); [trs|]. cbv zeta. eapply tr_trans; [|apply (keeps_bind (run_em (EThen (match p with P16 w => E16 w | P32 w => E32 w end) e)) (fun r s => if negb (r =? 0) then (0, s) else (q, s)) (keeps_em _))].
  - destruct (pure_const q s). apply tr_same; auto.
  - intros r' s'. destruct (negb (r' =? 0)); trs.
Qed.
Lemma keeps_call cf k jp lp : k <> CMemError -> keeps (ccall_run cf k jp lp).
Proof.
  intros N. destruct k as [e| |al sizes|pre x rewr call|pre call a|pre reg post|p e|j l|j a|n|f|]; cbn [ccall_run].
  - apply keeps_guard, keeps_em.
  - apply keeps_label.
  - apply keeps_align.
  - apply keeps_guard. apply (keeps_bind (run_em pre) (fun r s => if negb (r =? 0) then (0, s) else jump_tail (jc_word x) rewr call s)); [apply keeps_em|]. intros r s. destruct (negb (r =? 0)); [trs|apply keeps_jump_tail].
  - apply keeps_guard. apply (keeps_bind (run_em pre) (fun r s => if negb (r =? 0) then (r, s) else ijump_tail call a s)); [apply keeps_em|]. intros r s. destruct (negb (r =? 0)); [trs|apply keeps_ijump_tail].
  - apply keeps_guard. apply (keeps_bind (run_em pre) (fun r s => if negb (r =? 0) then (0, s) else let (q, s) := mov_tail reg s in
    if q =? 0 then (0, s) else let (r, s) := run_em post s in if negb (r =? 0) then (0, s) else (q, s))); [apply keeps_em|]. intros r s. destruct (negb (r =? 0)); [trs|]. revert s.
    apply (keeps_bind (mov_tail reg) (fun q s => if q =? 0 then (0, s) else let (r, s) := run_em post s in if negb (r =? 0) then (0, s) else (q, s))); [apply keeps_mov_tail|]. intros q s. destruct (q =? 0); [trs|]. revert s.
    apply (keeps_bind (run_em post) (fun r s => if negb (r =? 0) then (0, s) else (q, s))); [apply keeps_em|]. intros r2 s. destruct (negb (r2 =? 0)); trs.
  - apply keeps_const.
  - intros s. cbn [ccall_run]. unfold api_set_label. destruct (negb (nth j jp 0 =? 0) && negb (nth l lp 0 =? 0)); trs.
  - intros s. cbn [ccall_run]. unfold api_set_target. destruct (negb (nth j jp 0 =? 0)); trs.
  - intros s. cbn [ccall_run]. unfold alloc_memory. destruct (negb (cerr s =? 0)); [trs|]. destruct ((n <=? 0) || (n >? 128)); [trs|]. apply tr_abuf.
  - apply keeps_guard. intros s. trs.
  - congruence.
Qed.
Lemma hist_tr cf ks : forall s, ~ In CMemError ks -> tr s (snd (ccalls_run cf ks s)).
Proof.
  induction ks as [|k ks IH]; intros s N; cbn [ccalls_run]; [trs|].
  pose proof (keeps_call cf k (jump_ptrs s) (label_ptrs s) ltac:(intros ->; apply N; left; reflexivity) s) as X. destruct (ccall_run cf k (jump_ptrs s) (label_ptrs s) s) as (r, s1). cbn [snd] in X.
  specialize (IH s1 ltac:(intros I; apply N; right; exact I)). destruct (ccalls_run cf ks s1) as (rs, s2). cbn [snd] in *. eapply tr_trans; eauto.
Qed.
