(** The generated x86-64 code: statements for the properties C38..C41. *)
Require Import ZArith List Bool Lia.
From Verif Require Import Rv.RvLib Rv.RvIsa X86.X86Isa X86.X86Emit X86.X86Spec X86.X86OpSpec X86.X86Cond X86.X86Link X86.X86LinkSpec X86.X86LinkAll.
Import ListNotations.
Open Scope Z_scope.

(** ** Memory *)
Lemma link_memory : forall win code eo calls, prog_ok win code eo calls -> mov_label false calls = false ->
  exists g, generate win code eo (emits win calls) = Some g /\ zlen (rb g) <= ralloc g <= csize (emits win calls) /\ rtop g <= ralloc g + 5 /\ (mov_tail calls -> rtop g <= ralloc g).
Proof. intros win code eo calls P M. destruct (link_ok win code eo calls P M) as (g & G & _ & A & B & C). exists g. repeat (split; [assumption|]). exact C. Qed.

Ltac callok := match goal with
  | |- call_ok _ (KIns _) => discriminate
  | |- call_ok _ (KJump _ _ _) => split; cbn [kind_ok target_ok]; [lia || exact Logic.I|first [vm_compute; lia|unfold isw; vm_compute; intuition congruence]]
  | |- call_ok _ (KMov _ _) => split; [unfold isreg; lia|split; [discriminate|split; [discriminate|cbn [target_ok]; first [vm_compute; lia|unfold isw; vm_compute; intuition congruence]]]]
  | |- call_ok _ (KAlign _) => cbn [call_ok]; lia
  | |- call_ok _ _ => exact Logic.I end.
Ltac pok := split; [repeat (apply Forall_cons; [callok|]); apply Forall_nil|vm_compute; repeat split; congruence].
Lemma memory_wrong : exists calls1 calls2 code,
  (prog_ok false code 0 calls1 /\ match generate false code 0 (emits false calls1) with Some g => ralloc g < zlen (rb g) | None => False end)
  /\ (prog_ok false code 0 calls2 /\ mov_label false calls2 = false /\ match generate false code 0 (emits false calls2) with Some g => zlen (rb g) <= ralloc g < rtop g | None => False end).
Proof.
  exists [KMov 1 (TAddr 5); KLabel; KIns (repeat 0x90 128); KJump JAlways false (TLabel 0)], [KMov 1 (TAddr 5); KIns [0xc3]], (2 ^ 40).
  split; [split; [pok|vm_compute; reflexivity]|]. split; [pok|]. split; [reflexivity|vm_compute; split; [congruence|reflexivity]].
Qed.

(** ** Layout *)
Lemma link_laid : forall win code eo calls, prog_ok win code eo calls -> mov_label false calls = false ->
  exists g, generate win code eo (emits win calls) = Some g /\ laid win code eo g (rb g) (fun _ => None) comp0 calls 0.
Proof. intros win code eo calls P M. destruct (link_ok win code eo calls P M) as (g & G & L & _). exists g. split; [exact G|]. apply (L []), Forall_nil. Qed.
Lemma laid_app : forall win code eo g b cur calls1 k calls2 c pos, laid win code eo g b cur c (calls1 ++ k :: calls2) pos ->
  exists p p', pos <= p <= p' /\ call_laid win code eo g b cur (fold_left (emit win) calls1 c) k p p' /\ laid win code eo g b cur (fold_left (emit win) (calls1 ++ [k]) c) calls2 p'.
Proof.
  intros win code eo g b cur. induction calls1 as [|x calls1 IH]; intros k calls2 c pos L.
  - cbn [app laid] in L. destruct L as (p' & P & L1 & L2). exists pos, p'. split; [lia|]. split; [exact L1|exact L2].
  - cbn [app laid] in L. destruct L as (p' & P & L1 & L2). destruct (IH _ _ _ _ L2) as (q & q' & Q & M1 & M2). exists q, q'. split; [lia|]. split; [exact M1|exact M2].
Qed.
Lemma link_set : forall win code eo calls, prog_ok win code eo calls -> mov_label false calls = false ->
  exists g, generate win code eo (emits win calls) = Some g /\ forall h, hist_ok g h -> laid win code eo g (fold_left (set_jump code g) h (rb g)) (last_set h) comp0 calls 0.
Proof. intros win code eo calls P M. destruct (link_ok win code eo calls P M) as (g & G & L & _). exists g. split; assumption. Qed.
Lemma link_mov : forall win code eo calls1 reg t calls2, let calls := calls1 ++ KMov reg t :: calls2 in prog_ok win code eo calls -> mov_label false calls = false ->
  exists g pos pos', generate win code eo (emits win calls) = Some g /\ 0 <= pos /\ (~ bad_mov code eo t pos -> mov_runs win code eo (rb g) reg (taddr g t) pos pos')
    /\ laid win code eo g (rb g) (fun _ => None) (emits win (calls1 ++ [KMov reg t])) calls2 pos'.
Proof.
  intros win code eo calls1 reg t calls2 calls P M. destruct (link_laid win code eo calls P M) as (g & G & L). unfold calls in L. destruct (laid_app _ _ _ _ _ _ _ _ _ _ _ L) as (p & p' & Q & L1 & L2).
  exists g, p, p'. split; [exact G|]. split; [lia|]. split; [exact L1|exact L2].
Qed.

(** ** Wrong targets *)
(** The code at [base], with bytes that are not an instruction around it. *)
Definition only (base : Z) (b : list Z) (a : Z) : Z := if (base <=? a) && (a <? base + zlen b) then nth (Z.to_nat (a - base)) b (-1) else -1.
Lemma only_fetches : forall code eo b, 0 <= code + eo -> code + eo + zlen b < 2 ^ 64 -> fetches code eo b (only (code + eo) b).
Proof.
  intros code eo b H0 H1 p Hp. unfold xpos. assert (W : wrap (code + eo + p) = code + eo + p) by (apply Z.mod_small; lia). rewrite W. unfold only.
  replace (code + eo <=? code + eo + p) with true by (symmetry; apply Z.leb_le; lia). replace (code + eo + p <? code + eo + zlen b) with true by (symmetry; apply Z.ltb_lt; lia). cbn [andb]. replace (code + eo + p - (code + eo)) with p by lia. apply nth_indep. unfold zlen in Hp. lia.
Qed.
Definition st0 : xst := mkX (fun _ => 0) (Some true) (Some true) (Some true) (Some true) (fun _ => 0).
Lemma st0_wf : xwf st0. Proof. intros r. unfold isw, st0. cbn [xr]. lia. Qed.
(** All states reached from [pc], [s] in code that runs into no instruction after one step. *)
Lemma one_step : forall codef u pc s pc1 s1 pc2 s2, cstep codef u pc s = Some (pc1, s1) -> cstep codef u pc1 s1 = None -> csteps codef u pc s pc2 s2 -> (pc2 = pc /\ s2 = s) \/ (pc2 = pc1 /\ s2 = s1).
Proof.
  intros codef u pc s pc1 s1 pc2 s2 H1 H2 R. inversion R as [|pc' s' pa sa pb sb A B]; subst; [left; split; reflexivity|]. rewrite H1 in A. injection A as <- <-.
  inversion B as [|pc' s' pa sa pb sb A2 B2]; subst; [right; split; reflexivity|]. rewrite H2 in A2. discriminate.
Qed.
Definition P40 := 2 ^ 40.
Lemma jump_wrong :
  (let T := P40 + 6 + HMAX in prog_ok false P40 0 [KJump JAlways false (TAddr T)] /\
    match generate false P40 0 (emits false [KJump JAlways false (TAddr T)]) with Some g => ~ jump_runs false P40 0 (rb g) JAlways T 0 (zlen (rb g)) | None => False end)
  /\ (let T := P40 + 5 + HMIN in prog_ok false P40 0 [KJump (JCond 0) false (TAddr T)] /\
    match generate false P40 0 (emits false [KJump (JCond 0) false (TAddr T)]) with Some g => ~ jump_runs false P40 0 (rb g) (JCond 0) T 0 (zlen (rb g)) | None => False end).
Proof.
  split; intros T; (split; [pok|]).
  - match goal with |- match ?x with _ => _ end => let r := eval vm_compute in x in replace x with r by (vm_compute; reflexivity) end. cbn [rb]. intros J.
    destruct (J (only (P40 + 0) [233; 0; 0; 0; 128]) 0 st0 true) as (s' & R & _); [apply only_fetches; vm_compute; congruence|exact st0_wf|reflexivity|].
    assert (S1 : cstep (only (P40 + 0) [233; 0; 0; 0; 128]) 0 (xpos P40 0 0) st0 = Some ((P40 + 5 - 2 ^ 31), st0)) by (vm_compute; reflexivity).
    assert (S2 : cstep (only (P40 + 0) [233; 0; 0; 0; 128]) 0 (P40 + 5 - 2 ^ 31) st0 = None) by (vm_compute; reflexivity).
    destruct (one_step _ _ _ _ _ _ _ _ S1 S2 R) as [[E _]|[E _]]; vm_compute in E; discriminate.
  - match goal with |- match ?x with _ => _ end => let r := eval vm_compute in x in replace x with r by (vm_compute; reflexivity) end. cbn [rb]. intros J.
    destruct (J (only (P40 + 0) [15; 132; 255; 255; 255; 127]) 0 st0 true) as (s' & R & _); [apply only_fetches; vm_compute; congruence|exact st0_wf|reflexivity|].
    assert (S1 : cstep (only (P40 + 0) [15; 132; 255; 255; 255; 127]) 0 (xpos P40 0 0) st0 = Some ((P40 + 5 + 2 ^ 31), st0)) by (vm_compute; reflexivity).
    assert (S2 : cstep (only (P40 + 0) [15; 132; 255; 255; 255; 127]) 0 (P40 + 5 + 2 ^ 31) st0 = None) by (vm_compute; reflexivity).
    destruct (one_step _ _ _ _ _ _ _ _ S1 S2 R) as [[E _]|[E _]]; vm_compute in E; discriminate.
Qed.
Lemma mov_wrong :
  let T := P40 + 10 + HMAX - 1 in prog_ok false P40 0 [KMov 1 (TAddr T)] /\ mov_label false [KMov 1 (TAddr T)] = false /\
    match generate false P40 0 (emits false [KMov 1 (TAddr T)]) with Some g => ~ mov_runs false P40 0 (rb g) 1 T 0 (zlen (rb g)) | None => False end.
Proof.
  intros T. split; [pok|]. split; [reflexivity|].
  match goal with |- match ?x with _ => _ end => let r := eval vm_compute in x in replace x with r by (vm_compute; reflexivity) end. cbn [rb]. intros J.
  destruct (J (only (P40 + 0) [72; 141; 5; 1; 0; 0; 128]) 0 st0) as (s' & R & V & _); [apply only_fetches; vm_compute; congruence|exact st0_wf|].
  assert (S1 : cstep (only (P40 + 0) [72; 141; 5; 1; 0; 0; 128]) 0 (xpos P40 0 0) st0 = Some ((P40 + 7), (setr st0 0 (P40 + 8 - 2 ^ 31)))) by (vm_compute; reflexivity).
    assert (S2 : cstep (only (P40 + 0) [72; 141; 5; 1; 0; 0; 128]) 0 (P40 + 7) (setr st0 0 (P40 + 8 - 2 ^ 31)) = None) by (vm_compute; reflexivity).
    destruct (one_step _ _ _ _ _ _ _ _ S1 S2 R) as [[E _]|[_ E]]; [vm_compute in E; discriminate|subst s'; vm_compute in V; discriminate].
Qed.
