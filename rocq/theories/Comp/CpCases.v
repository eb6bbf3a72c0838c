(** Concrete histories for the compiler properties. *)
Require Import ZArith List Bool Lia Zify ZifyBool Permutation.
From Verif Require Import Rv.RvLib Rv.RvIsa Rv.RvEnc Rv.RvImm Rv.RvLink Rv.RvLinkExec Rv.RvLinkApi Comp.CpMem Comp.CpState Comp.CpCore Comp.CpRep Comp.CpCalls Comp.CpHist Comp.CpView Comp.CpErr Comp.CpPieces Comp.CpFinal.
Import ListNotations.
Open Scope Z_scope.
Ltac Zify.zify_post_hook ::= idtac.

(** Memory with some content, the results of malloc, a live block of the application. *)
Definition heap1 (sched : list Z) : heap := mkH (fun a => a mod 256) sched [0x5000].
(** Blocks which do not overlap: multiples of 4096 (and NULL), different from each other and from the live block. *)
Fixpoint nodupb (l : list Z) : bool := match l with [] => true | x :: l => negb (existsb (Z.eqb x) l) && nodupb l end.
Lemma nodupb_ok l : nodupb l = true -> NoDup l.
Proof.
  induction l as [|x l IH]; intros H; [constructor|]. cbn [nodupb] in H. apply andb_true_iff in H. destruct H as (H1 & H2). constructor; auto.
  intros I. apply negb_true_iff in H1. assert (X : existsb (Z.eqb x) l = true) by (apply existsb_exists; exists x; split; [auto|apply Z.eqb_refl]). congruence.
Qed.
Definition sched_b (l : list Z) : bool :=
  forallb (fun p => (p mod 4096 =? 0) && (0 <=? p) && (p <? 2 ^ 64 - 4096) && negb (p =? 0x5000)) l &&
  nodupb (nz l).
Lemma sched_ok l : sched_b l = true -> heap_ok (heap1 l).
Proof.
  unfold sched_b. rewrite andb_true_iff. intros (A & B). pose proof (nodupb_ok _ B) as N. clear B. rewrite forallb_forall in A.
  assert (A' : forall p, In p l -> p mod 4096 = 0 /\ 0 <= p < 2 ^ 64 - 4096 /\ p <> 0x5000). { intros p I. specialize (A p I). lia. } clear A.
  unfold heap_ok, heap1. cbn [hsched hlive]. split; [|split].
  - apply Forall_forall. intros p I. specialize (A' p I). unfold bok. lia.
  - cbn [app]. constructor; auto. intros I. apply filter_In in I. destruct I as (I & _). apply A' in I. lia.
  - induction l as [|p l IH]; [exact Logic.I|]. cbn [schedH flat_map nz filter] in *. destruct (p =? 0) eqn:Z0; cbn [negb app] in *; [apply IH; auto; intros; apply A'; right; auto|].
    inversion N; subst. split; [|apply IH; auto; intros; apply A'; right; auto].
    apply Forall_forall. intros (q, c) I. unfold schedH in I. apply in_flat_map in I. destruct I as (q' & I1 & I2). destruct (q' =? 0) eqn:Q; [contradiction|]. destruct I2 as [I2|[]]. injection I2 as <- <-.
    assert (p <> q'). { intros ->. apply H1. apply filter_In. split; auto. lia. }
    intros z (Z1 & Z2). unfold inside in *. cbn [fst snd clen] in *. destruct (A' p ltac:(left; auto)) as (M1 & _). destruct (A' q' ltac:(right; auto)) as (M2 & _).
    apply Z.mod_divide in M1; [|lia]. apply Z.mod_divide in M2; [|lia]. destruct M1 as (x & ->), M2 as (y & ->). nia.
Qed.
(** The state and results of a history. *)
Definition run_from (cf : cfg) (h : heap) (ks : list ccall) : option (list Z * cst) :=
  match create_compiler h with (Some s, _) => Some (ccalls_run cf ks s) | _ => None end.
Lemma run_reached cf l ks rs s : sched_b l = true -> ccalls_ok cf ks empty -> (csize (emits cf (kall cf ks)) <? 2 ^ 63) = true -> run_from cf (heap1 l) ks = Some (rs, s) -> reached cf (heap1 l) ks rs s.
Proof.
  intros A B C D. split; [apply sched_ok; auto|]. split; auto. split; [lia|]. unfold run_from in D. destruct (create_compiler (heap1 l)) as ([s0|], h0); [|discriminate].
  injection D as D. exists s0, h0. auto.
Qed.
(** A decision procedure for the conditions on the calls. *)
Definition is64_b (x : Z) : bool := (0 <=? x) && (x <? 2 ^ 64).
Definition ccall_okb (n : nat) (k : ccall) : bool :=
  match k with
  | CAlign al _ => (0 <=? al) && (al <? 64)
  | CJump _ x _ _ => match jc_word x with Cond16 w => u16 w =? w | _ => true end
  | CIJump _ _ a => is64_b a
  | CMov _ reg _ => u16 reg =? reg
  | CSetLabel _ l => (l <? n)%nat
  | CSetTarget _ a => is64_b a
  | _ => true
  end.
Lemma ccall_okb_ok n k : ccall_okb n k = true -> ccall_ok n k.
Proof.
  destruct k; cbn [ccall_okb ccall_ok]; unfold is64_b, is64; intros H; auto; try lia.
  destruct (jc_word x); cbn [cond_ok]; auto. lia.
Qed.
Fixpoint ccalls_okb (cf : cfg) (ks : list ccall) (c : comp) : bool :=
  match ks with [] => true | k :: ks => ccall_okb (length (clabels c)) k && ccalls_okb cf ks (fold_left (emit cf) (kcalls cf k) c) end.
Lemma ccalls_okb_ok cf ks : forall c, ccalls_okb cf ks c = true -> ccalls_ok cf ks c.
Proof.
  induction ks as [|k ks IH]; intros c H; [exact Logic.I|]. cbn [ccalls_okb ccalls_ok] in *. apply andb_true_iff in H. destruct H as (H1 & H2). split; [apply ccall_okb_ok; auto|apply IH; auto].
Qed.
Definition cf_c := mkCfg true true true.
(** A program: instructions, a branch forward, a label, an aligned label with buffers, an address, a constant. *)
Definition prog1 : list ccall :=
  [CFields (mkF 0 2 2 0 0 0 0 64);
   CIns (load_immediate cf_c 10 0x123456789 7);
   CJump (E32 NOP) (JZ true 10) true false;
   CLabel;
   CMov ENop 10 (E32 NOP);
   CAlign 3 [5; 6];
   CConst (P32 NOP) (E32 NOP);
   CSetLabel 0 0; CSetLabel 1 1;
   CAlloc 100;
   CIJump ENop true 0x123456].
Definition sched1 : list Z := [0x10000; 0x20000; 0x30000; 0x50000; 0x40000].
Definition state1 : cst := match run_from cf_c (heap1 sched1) prog1 with Some (_, s) => s | None => mkC (heap1 []) 0 0 0 0 0 0 0 0 0 0 0 0 fields0 end.
Definition results1 : list Z := match run_from cf_c (heap1 sched1) prog1 with Some (rs, _) => rs | None => [] end.
Lemma prog1_ok : ccalls_ok cf_c prog1 empty.
Proof. apply ccalls_okb_ok. vm_compute. reflexivity. Qed.
Lemma run_some cf h ks : match run_from cf h ks with Some _ => true | None => false end = true ->
  forall d, run_from cf h ks = Some (match run_from cf h ks with Some (rs, _) => rs | None => [] end, match run_from cf h ks with Some (_, s) => s | None => d end).
Proof. intros H d. destruct (run_from cf h ks) as [(rs, s)|]; [reflexivity|discriminate]. Qed.
Lemma case1 : reached cf_c (heap1 sched1) prog1 results1 state1.
Proof. apply run_reached; [vm_compute; reflexivity|apply prog1_ok|vm_compute; reflexivity|]. apply run_some. vm_compute. reflexivity. Qed.
Lemma case1_values : cerr state1 = 0 /\ hlive (ch state1) = [0x30000; 0x20000; 0x10000; 0x5000].
Proof. vm_compute. auto. Qed.
Lemma case1_units : cbuf (view state1) = flat_map (call_units cf_c) prog1 /\ length (flat_map (call_units cf_c) prog1) = 28%nat.
Proof. vm_compute. auto. Qed.
(** The fragment is full after 1020 instructions; then load_immediate needs two more, and the first allocation fails. *)
Definition nops (n : nat) : list ccall := repeat (CIns (E32 NOP)) n.
Definition cf_n := mkCfg false true true.
Definition big : ccall := CIns (load_immediate cf_n 10 (2 ^ 40) 7).
Definition sched2 : list Z := [0x10000; 0x20000; 0x30000; 0; 0x40000].
Definition state2 (ks : list ccall) : cst := match run_from cf_n (heap1 sched2) ks with Some (_, s) => s | None => mkC (heap1 []) 0 0 0 0 0 0 0 0 0 0 0 0 fields0 end.
Definition results2 (ks : list ccall) : list Z := match run_from cf_n (heap1 sched2) ks with Some (rs, _) => rs | None => [] end.
Lemma case2 : reached cf_n (heap1 sched2) (nops 1020 ++ [big]) (results2 (nops 1020 ++ [big])) (state2 (nops 1020 ++ [big])).
Proof. apply run_reached; [vm_compute; reflexivity|apply ccalls_okb_ok; vm_compute; reflexivity|vm_compute; reflexivity|]. apply run_some. vm_compute. reflexivity. Qed.
Lemma case2_values : cerr (state2 (nops 1020 ++ [big])) = ERR_ALLOC_FAILED /\ results2 (nops 1020 ++ [big]) = repeat 0 1020 ++ [0].
Proof. vm_compute. auto. Qed.
(** The same with one more instruction instead: the failure is reported. *)
Lemma case3 : reached cf_n (heap1 sched2) (nops 1020 ++ [CIns (E32 NOP)]) (results2 (nops 1020 ++ [CIns (E32 NOP)])) (state2 (nops 1020 ++ [CIns (E32 NOP)])).
Proof. apply run_reached; [vm_compute; reflexivity|apply ccalls_okb_ok; vm_compute; reflexivity|vm_compute; reflexivity|]. apply run_some. vm_compute. reflexivity. Qed.
Lemma case3_values : cerr (state2 (nops 1020 ++ [CIns (E32 NOP)])) = ERR_ALLOC_FAILED /\ results2 (nops 1020 ++ [CIns (E32 NOP)]) = repeat 0 1020 ++ [2].
Proof. vm_compute. auto. Qed.
(** Several fragments in use. *)
Lemma case4 : let ks := nops 1300 ++ prog1 in reached cf_c (heap1 sched1) ks (match run_from cf_c (heap1 sched1) ks with Some (rs, _) => rs | None => [] end) (match run_from cf_c (heap1 sched1) ks with Some (_, s) => s | None => state1 end).
Proof. apply run_reached; [vm_compute; reflexivity|apply ccalls_okb_ok; vm_compute; reflexivity|vm_compute; reflexivity|]. apply run_some. vm_compute. reflexivity. Qed.
Definition state4 : cst := match run_from cf_c (heap1 sched1) (nops 1300 ++ prog1) with Some (_, s) => s | None => state1 end.
Lemma case4_values : cerr state4 = 0 /\ hlive (ch state4) = [0x50000; 0x30000; 0x20000; 0x10000; 0x5000].
Proof. vm_compute. auto. Qed.
(** Requests with writes. *)
Definition reqs1 : list req := repeat (RBuf 200) 30 ++ repeat (RAbuf 256) 20 ++ [RWrite 3 100 (repeat 255 100); RWrite 45 0 (repeat 1 256)] ++ repeat (RBuf 256) 3.
Lemma reqs1_ok : Forall req_ok reqs1.
Proof. unfold reqs1. repeat (apply Forall_app; split); try (apply Forall_forall; intros x I; apply repeat_spec in I; subst; cbn; lia). repeat constructor. Qed.
Lemma reqs1_values : length (fst (req_run reqs1 [] state1)) = 53%nat /\ length (hlive (ch (snd (req_run reqs1 [] state1)))) = 6%nat.
Proof. vm_compute. auto. Qed.
(** The unchecked result: a call returns success although an allocation failed. *)
Lemma ignored : exists cf h ks imm rs s, reached cf h (ks ++ [CIns (load_immediate cf 10 imm 7)]) (rs ++ [0]) s /\ cerr s = ERR_ALLOC_FAILED /\ Forall (fun k => k = CIns (E32 NOP)) ks /\ Forall (fun r => r = 0) rs.
Proof.
  exists cf_n, (heap1 sched2), (nops 1020), (2 ^ 40), (repeat 0 1020), (state2 (nops 1020 ++ [big])). pose proof case2 as C. destruct case2_values as (V1 & V2). rewrite V2 in C. split; [exact C|]. split; [exact V1|].
  split; apply Forall_forall; intros x I; apply repeat_spec in I; exact I.
Qed.
Definition prog5 : list ccall := [CLabel; CIns (E32 NOP)] ++ [CJump (E32 NOP) (JZ true 10) true false].
Definition state5 : cst := match run_from cf_c (heap1 sched1) prog5 with Some (_, s) => s | None => state1 end.
Lemma case5 : exists s, reached cf_c (heap1 sched1) ([CLabel; CIns (E32 NOP)] ++ [CJump (E32 NOP) (JZ true 10) true false]) ([196624; 0] ++ [196648]) s /\ cerr s = 0 /\
  196648 = last (jump_ptrs s) 0.
Proof.
  exists state5. split; [|vm_compute; auto].
  assert (E : match run_from cf_c (heap1 sched1) prog5 with Some (rs, _) => rs | None => [] end = [196624; 0] ++ [196648]) by (vm_compute; reflexivity). rewrite <- E.
  apply run_reached; [vm_compute; reflexivity|apply ccalls_okb_ok; vm_compute; reflexivity|vm_compute; reflexivity|]. apply run_some. vm_compute. reflexivity.
Qed.
