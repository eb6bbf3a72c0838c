(** Generated code behaves as the program: proofs for the property C42. *)
Require Import ZArith List Bool Lia.
From Verif Require Import Rv.RvLib Rv.RvIsa Rv.RvMem Rv.RvOp Rv.RvLir Rv.RvCond Rv.RvCondSpec Rv.RvShiftInto X86.X86Isa X86.X86Emit X86.X86Spec X86.X86Enc X86.X86OpSpec X86.X86Op X86.X86Cond
  X86.X86Op2 X86.X86Op2Top X86.X86Op1 X86.X86Into X86.X86C34 X86.X86C36 X86.X86C37 X86.X86Misc X86.X86Op0P X86.X86C43 X86.X86Link X86.X86LinkSpec X86.X86LinkRun X86.X86LinkAll X86.X86C38 X86.X86Fetch X86.X86Const X86.X86ConstP X86.X86Lir.
Import ListNotations.
Ltac Zify.zify_post_hook ::= idtac.
Open Scope Z_scope.

(** ** Layout of groups of calls *)
Section Layout.
Variables (win : bool) (code eo : Z) (g : gen) (b : list Z) (cur : nat -> option Z).
Notation call_laid := (call_laid win code eo g b cur).
Notation laid := (laid win code eo g b cur).
(** [laid], up to a position. *)
Fixpoint laid_to (c : comp) (calls : list call) (pos pos2 : Z) : Prop :=
  match calls with
  | [] => pos2 = pos
  | k :: calls => exists pos', pos <= pos' /\ call_laid c k pos pos' /\ laid_to (emit win c k) calls pos' pos2
  end.
Lemma laid_split : forall calls1 calls2 c pos, laid c (calls1 ++ calls2) pos -> exists pos', pos <= pos' /\ laid_to c calls1 pos pos' /\ laid (fold_left (emit win) calls1 c) calls2 pos'.
Proof.
  induction calls1 as [|k calls1 IH]; intros calls2 c pos L.
  - exists pos. split; [lia|]. split; [reflexivity|exact L].
  - destruct L as (p1 & P & A & L). destruct (IH _ _ _ L) as (p2 & Q & L1 & L2). exists p2. split; [lia|]. split; [|exact L2]. exists p1. auto.
Qed.
Lemma laid_to_app : forall calls1 calls2 c pos pos2, laid_to c (calls1 ++ calls2) pos pos2 -> exists pos', pos <= pos' /\ laid_to c calls1 pos pos' /\ laid_to (fold_left (emit win) calls1 c) calls2 pos' pos2.
Proof.
  induction calls1 as [|k calls1 IH]; intros calls2 c pos pos2 L.
  - exists pos. split; [lia|]. split; [reflexivity|exact L].
  - destruct L as (p1 & P & A & L). destruct (IH _ _ _ _ L) as (p2 & Q & L1 & L2). exists p2. split; [lia|]. split; [|exact L2]. exists p1. auto.
Qed.
Lemma laid_to_le : forall calls c pos pos2, laid_to c calls pos pos2 -> pos <= pos2.
Proof. induction calls as [|k calls IH]; intros c pos pos2 L; [cbn in L; lia|]. destruct L as (p1 & P & _ & L). apply IH in L. lia. Qed.
Lemma laid_groups : forall G c pos, laid c (concat G) pos -> exists P : nat -> Z, P 0%nat = pos /\ P (length G) = zlen b /\ (forall i, (i <= length G)%nat -> pos <= P i <= zlen b) /\
  forall i calls, nth_error G i = Some calls -> laid_to (fold_left (emit win) (concat (firstn i G)) c) calls (P i) (P (S i)).
Proof.
  induction G as [|x G IH]; intros c pos L.
  - exists (fun _ => pos). cbn in L. subst pos. repeat split; try lia. intros [|i] calls H; discriminate.
  - cbn [concat] in L. destruct (laid_split _ _ _ _ L) as (p1 & Q & L1 & L2). destruct (IH _ _ L2) as (P & P0 & PN & PR & PS).
    exists (fun i => match i with O => pos | S i => P i end). split; [reflexivity|]. split; [exact PN|]. split.
    + intros [|i] H; [specialize (PR 0%nat); cbn in *; lia|]. specialize (PR i). cbn in H. lia.
    + intros [|i] calls H.
      * injection H as <-. cbn [firstn concat fold_left]. rewrite P0. exact L1.
      * cbn [nth_error] in H. specialize (PS i calls H). cbn [firstn concat]. rewrite fold_left_app. exact PS.
Qed.
Lemma same_prefix : forall (l m r s : list Z), length l = length m -> l ++ r = m ++ s -> l = m.
Proof.
  induction l as [|h l IH]; intros [|h' m] r s N E; try discriminate; [reflexivity|]. injection E as -> E. f_equal. eapply IH; [cbn in N; lia|exact E].
Qed.
Lemma bytes_app : forall pos x y, bytes_at b pos x -> bytes_at b (pos + zlen x) y -> bytes_at b pos (x ++ y).
Proof.
  intros pos x y (l1 & l2 & E & L) (m1 & m2 & F & M). exists l1, m2. split; [|exact L].
  assert (E2 : m1 = l1 ++ x).
  { apply (same_prefix _ _ (y ++ m2) l2); [rewrite app_length; unfold zlen in *; lia|]. rewrite <- F, E, <- app_assoc. reflexivity. }
  rewrite F, E2, <- !app_assoc. reflexivity.
Qed.
Lemma bytes_nil : forall pos, 0 <= pos <= zlen b -> bytes_at b pos [].
Proof. intros pos H. exists (firstn (Z.to_nat pos) b), (skipn (Z.to_nat pos) b). split; [symmetry; apply firstn_skipn|]. unfold zlen in *. rewrite firstn_length. lia. Qed.
Lemma laid_pieces : forall parts c pos pos', laid_to c (map KIns parts) pos pos' -> 0 <= pos <= zlen b -> bytes_at b pos (concat parts) /\ pos' = pos + zlen (concat parts).
Proof.
  induction parts as [|x parts IH]; intros c pos pos' L H.
  - cbn [map laid_to] in L. subst pos'. cbn [concat]. split; [apply bytes_nil; exact H|unfold zlen; cbn; lia].
  - destruct L as (p1 & Q & (A1 & A2) & L). subst p1.
    assert (H1 : 0 <= pos + zlen x <= zlen b). { destruct A1 as (l1 & l2 & E & L1). rewrite E. unfold zlen in *. rewrite !app_length. lia. }
    destruct (IH _ _ _ L H1) as (B1 & B2). cbn [concat]. split; [apply bytes_app; assumption|]. rewrite B2. unfold zlen. rewrite app_length. lia.
Qed.
End Layout.

(** ** NOPs *)
Lemma nops : forall u n s, runs u (repeat 0x90 n) s s.
Proof.
  intros u n s rest. induction n as [|n IH]; cbn [repeat app]; [apply steps_refl|]. eapply steps_one; [|exact IH]. reflexivity.
Qed.

(** ** Agreement *)
Section Agree.
Variable w : bool.
Notation agrees := (agrees w).
Lemma agree_addr : forall a s x o i, agrees a s -> (x = 0 \/ 1 <= x <= 14) -> (o = 0 \/ 1 <= o <= 14) -> xaddr w s x o i = la a x o i.
Proof.
  intros a s x o i (A & _) X O. unfold xaddr, la. destruct (Z.eqb_spec x 0), (Z.eqb_spec o 0); rewrite ?A by lia; reflexivity.
Qed.
Lemma mem_regs : forall x o i, xmem_legal x o i -> (x = 0 \/ 1 <= x <= 14) /\ (o = 0 \/ 1 <= o <= 14).
Proof. intros x o i (H & _). unfold xureg in H. lia. Qed.
Lemma agree_val : forall n a s A Aw, agrees a s -> xsrc_legal A Aw -> xval w n s A Aw = lval n a A Aw.
Proof.
  intros n a s A Aw AG L. destruct A as [r| |x o]; cbn [xval lval].
  - destruct AG as (A & _). destruct L as [L _]. unfold xureg in L. rewrite A by lia. reflexivity.
  - reflexivity.
  - destruct (mem_regs _ _ _ L) as [X O]. rewrite (agree_addr a) by assumption. destruct AG as (_ & -> & _). reflexivity.
Qed.
(** The state of the program which the processor is in, with known conditions [f]. *)
Definition absof (s : xst) (f : Z -> option bool) : lst := mkL (fun q => xr s (reg_map w q)) (xm s) f.
Lemma agrees_absof : forall s f, xwf s -> (forall t b, ctype t -> f t = Some b -> cond_val s (jump_code t - 0x80) = Some b) -> agrees (absof s f) s.
Proof. intros s f W H. split; [reflexivity|]. split; [reflexivity|]. split; assumption. Qed.
Lemma same_regs : forall a s s' L, agrees a s -> regs_same w L s s' -> forall q, 1 <= q <= 14 -> ~ In q L -> xr s' (reg_map w q) = lr a q.
Proof. intros a s s' L (A & _) R q Q N. rewrite R by (lia || exact N). apply A. exact Q. Qed.
Lemma not_tmp : forall q, 1 <= q <= 14 -> ~ In q TMPS.
Proof. intros q Q [E|[E|[]]]; lia. Qed.
Lemma abs_wrote1 : forall n B ex a s D Dw r s' f, 0 < n -> agrees a s -> xdst_legal D Dw -> wrote1 w n B ex TMPS s D Dw r s' -> xwf s' -> lwrote n B a D Dw r (absof s' f).
Proof.
  intros n B ex a s D Dw r s' f N AG L H W. destruct D as [d| |x o]; cbn [wrote1] in H; cbn [lwrote]; [|exact H|].
  - destruct H as (E & _ & M & R). split; [exact E|]. split; [apply W|]. split.
    + intros q Q QD. cbn [absof lr]. eapply same_regs; eauto. intros [X|X]; [congruence|exact (not_tmp q Q X)].
    + cbn [absof lm]. rewrite M. apply AG.
  - destruct H as (E & R). destruct (mem_regs _ _ _ L) as [X O]. cbn [absof lm lr]. rewrite (agree_addr a) in E by assumption. split.
    + rewrite E. destruct AG as (_ & -> & _). reflexivity.
    + intros q Q. eapply same_regs; eauto. exact (not_tmp q Q).
Qed.
Lemma abs_wrote : forall m a s D Dw r s' f, agrees a s -> xdst_legal D Dw -> wrote w (nbits m) TMPS s D Dw r s' -> xwf s' -> lwrote (nbits m) (nbits m / 8) a D Dw r (absof s' f).
Proof.
  intros m a s D Dw r s' f AG L H W. apply (abs_wrote1 _ _ False _ s); auto; [destruct m; reflexivity|].
  destruct D as [d| |x o]; cbn [wrote wrote1] in *; [|exact H|].
  - destruct H as (E & M & R). rewrite E. split; [destruct m; apply Zmod_mod|]. tauto.
  - destruct H as (E & R). split; [|exact R]. rewrite E. replace (8 * (nbits m / 8)) with (nbits m) by (destruct m; reflexivity). reflexivity.
Qed.
Lemma cond_flags : forall s s' k, flags_same s s' -> cond_val s' k = cond_val s k.
Proof. intros [r c z g o m] [r' c' z' g' o' m'] k (A & B & C & D). cbn in A, B, C, D. subst. reflexivity. Qed.
End Agree.
Definition req_dec (o : op) (t : Z) : {requested o t} + {~ requested o t}.
Proof.
  unfold requested. destruct (t <? 2); [destruct (setz o); [left; reflexivity|right; discriminate]|].
  destruct (vf o), (needs t); (left; reflexivity) || (right; discriminate).
Defined.
Definition flags_of (o : op) (k : op2k) (n x y : Z) (c : bool) : Z -> option bool := fun t => if req_dec o t then Some (cond t k n x y c) else None.
Lemma new_flags_of : forall o k n x y c w s, new_flags o k n x y c (absof w s (flags_of o k n x y c)).
Proof. intros o k n x y c w s t T. cbn [absof lc]. unfold flags_of. destruct (req_dec o t); split; intros; (reflexivity || contradiction). Qed.
Lemma agrees_new : forall w o k n x y c s, xwf s -> conds (requested o) k n x y c s -> agrees w (absof w s (flags_of o k n x y c)) s.
Proof.
  intros w o k n x y c s W C. apply agrees_absof; [exact W|]. intros t v T. unfold flags_of. destruct (req_dec o t) as [R|R]; [|discriminate]. intros E. injection E as <-. exact (C t T R).
Qed.
Lemma agrees_none : forall w s, xwf s -> agrees w (absof w s (fun _ => None)) s.
Proof. intros w s W. apply agrees_absof; [exact W|]. discriminate. Qed.
Lemma agrees_keep : forall w a s s', agrees w a s -> xwf s' -> flags_same s s' -> agrees w (absof w s' (lc a)) s'.
Proof. intros w a s s' A W F. apply agrees_absof; [exact W|]. intros t v T E. rewrite (cond_flags s) by exact F. apply A; assumption. Qed.
(** Jumps change only the second temporary register. *)
Lemma agrees_tmp : forall w a s s', agrees w a s -> same_but [reg_map w TMP_REG2] s s' -> xwf s' -> agrees w a s'.
Proof.
  intros w a s s' (A & M & C & W) (R & F1 & F2 & F3 & F4 & M') W'. split.
  - intros q Q. rewrite R; [apply A; exact Q|]. intros [E|[]]. apply reg_inj in E; unfold isreg, TMP_REG2 in *; lia.
  - split; [congruence|]. split; [|exact W']. intros t v T E. rewrite (cond_flags s) by (unfold flags_same; auto). apply C; assumption.
Qed.

(** ** Labels *)
Section Labels.
Variable w : bool.
Lemma emit_label_mono : forall c, (length (clabels c) <= length (clabels (emit_label c)))%nat.
Proof.
  intros c. unfold emit_label. destruct (last_label c) as [l|]; [destruct (lsize l =? csize c)|]; cbn [clabels]; rewrite ?app_length; lia.
Qed.
Lemma emit_labels : forall k c, (length (clabels c) <= length (clabels (emit w c k)))%nat.
Proof.
  intros k c. destruct k; cbn [emit]; try exact (le_n _); [apply emit_label_mono|]. unfold emit_aligned. destruct (al <=? 0); [apply emit_label_mono|]. cbn [clabels]. rewrite app_length. lia.
Qed.
Lemma emit_label_pos : forall c, (1 <= length (clabels (emit_label c)))%nat.
Proof.
  intros c. unfold emit_label. destruct (last_label c) as [l|] eqn:E; [|cbn [clabels]; rewrite app_length; cbn; lia].
  destruct (lsize l =? csize c); [|cbn [clabels]; rewrite app_length; cbn; lia]. unfold last_label in E. destruct (rev (clabels c)) as [|x r] eqn:R; [discriminate|].
  rewrite <- rev_length, R. cbn. lia.
Qed.
Lemma emits_labels : forall calls c, (length (clabels c) <= length (clabels (fold_left (emit w) calls c)))%nat.
Proof. induction calls as [|k calls IH]; intros c; cbn [fold_left]; [lia|]. pose proof (emit_labels k c). specialize (IH (emit w c k)). lia. Qed.
Lemma firstn_S : forall (A : Type) (l : list A) i x, nth_error l i = Some x -> firstn (S i) l = firstn i l ++ [x].
Proof. intros A. induction l as [|h l IH]; intros [|i] x H; try discriminate; [injection H as ->; reflexivity|]. cbn [nth_error] in H. cbn [firstn app]. f_equal. apply IH. exact H. Qed.
(** A label of the program is one of the labels. *)
Lemma lno_lt : forall G j k, nth_error G j = Some [k] -> (k = KLabel \/ exists al, k = KAlign al) -> (lno w G j < length (clabels (emits w (concat G))))%nat.
Proof.
  intros G j k N K. unfold lno, ret_label.
  assert (L1 : (length (clabels (emits w (concat (firstn (S j) G)))) <= length (clabels (emits w (concat G))))%nat).
  { rewrite <- (firstn_skipn (S j) G) at 2. rewrite concat_app. unfold emits. rewrite fold_left_app. apply emits_labels. }
  assert (L2 : (1 <= length (clabels (emits w (concat (firstn (S j) G)))))%nat).
  { rewrite (firstn_S _ _ _ _ N), concat_app. unfold emits. rewrite fold_left_app. cbn [concat app fold_left]. destruct K as [-> |(al & ->)]; cbn [emit]; [apply emit_label_pos|].
    unfold emit_aligned. destruct (al <=? 0); [apply emit_label_pos|]. cbn [clabels]. rewrite app_length. cbn. lia. }
  lia.
Qed.
End Labels.

(** ** Programs *)
Lemma dec_goto : forall w r tl, xureg r -> decode_ctl (goto_bytes w r ++ tl) = Some (CJmpR (reg_map w r), tl).
Proof.
  intros w r tl R. unfold xureg in R. assert (H : r = 1 \/ r = 2 \/ r = 3 \/ r = 4 \/ r = 5 \/ r = 6 \/ r = 7 \/ r = 8 \/ r = 9 \/ r = 10 \/ r = 11 \/ r = 12 \/ r = 13) by lia.
  destruct w; repeat (destruct H as [-> |H]; [reflexivity|]); subst r; reflexivity.
Qed.
Lemma forall2_len : forall (A B : Type) (R : A -> B -> Prop) l m, Forall2 R l m -> length l = length m.
Proof. intros A B R l m F. induction F; cbn; congruence. Qed.
Section Prog.
Variables (w lz tz cmov : bool) (p : list lir) (G : list (list call)) (code eo : Z).
Hypothesis C : compiled w lz tz cmov p G.
Hypothesis OK : Forall (lir_ok p) p.
Lemma comp_nth : forall i x, nth_error p i = Some x -> exists calls, nth_error G i = Some calls /\ compiled1 w lz tz cmov G x calls /\ lir_ok p x.
Proof.
  intros i x N. assert (H : lir_ok p x) by (apply nth_error_In in N; rewrite Forall_forall in OK; apply OK; exact N). revert N. unfold compiled in C. clear OK.
  assert (Q : forall p' G', Forall2 (compiled1 w lz tz cmov G) p' G' -> forall i, nth_error p' i = Some x -> exists calls, nth_error G' i = Some calls /\ compiled1 w lz tz cmov G x calls).
  { intros p' G' F. induction F as [|y ys c cs Y F IH]; intros [|j] N; try discriminate; [injection N as ->; exists ys; auto|]. exact (IH j N). }
  intros N. destruct (Q _ _ C i N) as (calls & A & B). exists calls. auto.
Qed.
Lemma label_nth : forall j x, nth_error p j = Some x -> is_label x = true -> exists k, nth_error G j = Some [k] /\ (k = KLabel \/ exists al, k = KAlign al).
Proof.
  intros j x N L. destruct (comp_nth j x N) as (calls & A & B & _). destruct x; try discriminate; cbn [compiled1] in B; subst calls; eexists; (split; [exact A|]); [left; reflexivity|right; eexists; reflexivity].
Qed.
Lemma calls_ok : Forall (call_ok (length (clabels (emits w (concat G))))) (concat G).
Proof.
  set (nl := length (clabels (emits w (concat G)))).
  assert (T : forall to, (exists y, nth_error p to = Some y /\ is_label y = true) -> target_ok nl (TLabel (lno w G to))).
  { intros to (y & N & L). destruct (label_nth to y N L) as (k & A & K). exact (lno_lt w G to k A K). }
  assert (PC : forall e calls, pieces e calls -> Forall (call_ok nl) calls).
  { intros e calls (parts & -> & F & _). clear -F. induction F as [|x l X F IH]; constructor; assumption. }
  apply Forall_concat. rewrite Forall_forall. intros calls I. apply In_nth_error in I as (i & N).
  assert (exists x, nth_error p i = Some x) as (x & X).
  { assert (i < length p)%nat by (rewrite (forall2_len _ _ _ _ _ C); apply nth_error_Some; congruence). destruct (nth_error p i) eqn:E; [eexists; reflexivity|]. apply nth_error_None in E. lia. }
  destruct (comp_nth i x X) as (calls' & N' & D & L). rewrite N in N'. injection N' as <-.
  destruct x; cbn [compiled1] in D; cbn [lir_ok] in L; try (eapply PC; exact D); try (subst calls; (apply Forall_cons; [|apply Forall_nil])).
  - destruct D as (parts & x & post & -> & FN & _). apply Forall_app in FN as [F1 F2]. rewrite map_app. rewrite !Forall_app. split; [split|].
    + clear - F1. induction F1; constructor; assumption.
    + constructor; [|constructor]. cbn [call_ok]. intros E. apply app_eq_nil in E as [_ E]. destruct c; discriminate.
    + constructor; [exact Logic.I|]. clear - F2. induction F2; constructor; assumption.
  - exact Logic.I.
  - exact L.
  - destruct L as (L & LT). split; [|apply T, LT]. destruct t as [t|]; cbn [kind_ok]; [unfold ctype in L; lia|exact Logic.I].
  - destruct L as (L & LT). unfold xureg in L. cbn [call_ok]. unfold isreg, SLJIT_SP. split; [lia|]. split; [lia|]. split; [lia|]. apply T, LT.
Qed.

Variables (g : gen) (b : list Z) (P : nat -> Z).
Hypothesis PR : forall i, (i <= length G)%nat -> 0 <= P i <= zlen b.
Hypothesis PL : forall i calls, nth_error G i = Some calls -> laid_to w code eo g b (fun _ => None) (fold_left (emit w) (concat (firstn i G)) comp0) calls (P i) (P (S i)).
Hypothesis B0 : 0 <= code + eo.
Hypothesis B1 : code + eo + zlen b + 15 < 2 ^ 64.
Definition adr (j : nat) : Z := xpos code eo (P (S j)).
Lemma lens : length p = length G. Proof. exact (forall2_len _ _ _ _ _ C). Qed.
Lemma nth_le : forall i x, nth_error p i = Some x -> (S i <= length G)%nat.
Proof. intros i x N. rewrite <- lens. apply nth_error_Some. congruence. Qed.
(** The address of a label. *)
Lemma label_adr : forall j x, nth_error p j = Some x -> is_label x = true -> laddr (nth (lno w G j) (rlabels g) (mkXL 0 None 0)) = adr j.
Proof.
  intros j x N L. destruct (label_nth j x N L) as (k & A & K). pose proof (PL j [k] A) as Q. destruct Q as (p1 & _ & Q & E). cbn [laid_to] in E. subst p1.
  unfold lno. rewrite (firstn_S _ _ _ _ A), concat_app. unfold emits. rewrite fold_left_app. cbn [concat app fold_left]. destruct K as [-> |(al & ->)]; cbn [call_laid] in Q; apply Q.
Qed.
Lemma adr_word : forall j, (S j <= length G)%nat -> isw (adr j).
Proof. intros j J. specialize (PR (S j) J). unfold adr, xpos, isw. lia. Qed.
Lemma pieces_at : forall i e calls, nth_error G i = Some calls -> pieces e calls -> exists l, e = Some l /\ bytes_at b (P i) l /\ P (S i) = P i + zlen l.
Proof.
  intros i e calls N (parts & -> & _ & E). exists (concat parts). split; [exact E|]. apply (laid_pieces w code eo g b (fun _ => None) parts _ _ _ (PL _ _ N)). apply PR.
  assert (i < length G)%nat by (apply nth_error_Some; congruence). lia.
Qed.
Lemma const_at : forall i c D Dw v calls, nth_error G i = Some calls -> const_pieces w c D Dw v calls -> exists l, const_code w c D Dw v = Some l /\ bytes_at b (P i) l /\ P (S i) = P i + zlen l.
Proof.
  intros i c D Dw v calls N (parts & x & post & -> & _ & E). exists ((concat parts ++ x ++ const_bytes c v) ++ concat post). split; [unfold const_code; rewrite E; reflexivity|].
  assert (I : (i < length G)%nat) by (apply nth_error_Some; congruence). pose proof (PL _ _ N) as Q. apply laid_to_app in Q as (p1 & Q0 & Q1 & Q2). cbn [laid_to] in Q2. destruct Q2 as (p2 & _ & (_ & ->) & Q2).
  assert (PI : 0 <= P i <= zlen b) by (apply PR; lia). assert (PI1 : 0 <= P (S i) <= zlen b) by (apply PR; lia).
  pose proof (laid_to_le w code eo g b (fun _ => None) _ _ _ _ Q2) as LE.
  destruct (laid_pieces w code eo g b (fun _ => None) _ _ _ _ Q1 PI) as (BB1 & E1). rewrite concat_app in BB1, E1. cbn [concat] in BB1, E1. rewrite app_nil_r in BB1, E1.
  assert (PP : 0 <= p1 <= zlen b) by lia. destruct (laid_pieces w code eo g b (fun _ => None) _ _ _ _ Q2 PP) as (BB2 & E2). rewrite E1 in BB2. split; [apply bytes_app; assumption|]. unfold zlen in *. rewrite app_length. lia.
Qed.
Variables (codef : Z -> Z) (u : Z).
Hypothesis F : fetches code eo b codef.
Lemma does_at : forall i e calls s Q, nth_error G i = Some calls -> pieces e calls -> does u e s Q -> exists s', csteps codef u (xpos code eo (P i)) s (xpos code eo (P (S i))) s' /\ Q s' /\ xwf s'.
Proof.
  intros i e calls s Q N PC (l & E & s' & R & H & W). destruct (pieces_at i e calls N PC) as (l' & E' & BA & PE). rewrite E in E'. injection E' as <-.
  exists s'. split; [|split; assumption]. rewrite PE. apply (runs_csteps code eo b); try assumption.
  assert (S i <= length G)%nat by (apply nth_error_Some; congruence). specialize (PR (S i) H0). rewrite PE in PR. unfold xpos. lia.
Qed.
Notation agrees := (agrees w).
Notation lstep := (lstep p adr).
Lemma carry_agree : forall k a s c, agrees a s -> carry_in k a c -> carry_known k s c.
Proof.
  intros k a s c (_ & _ & A & _) H. assert (T : ctype SLJIT_CARRY) by (unfold ctype, SLJIT_CARRY; lia).
  assert (Q : lc a SLJIT_CARRY = Some c -> xcf s = Some c).
  { intros E. specialize (A _ _ T E). change (match xcf s with Some b => Some b | None => None end = Some c) in A. destruct (xcf s); [exact A|discriminate]. }
  destruct k; try exact Logic.I; apply Q; exact H.
Qed.
Lemma sim_step : forall i a s, ldef p adr i a -> agrees a s -> exists i1 a1 s1, lstep i a i1 a1 /\ csteps codef u (xpos code eo (P i)) s (xpos code eo (P i1)) s1 /\ agrees a1 s1 /\ (i1 <= length p)%nat.
Proof.
  intros i a s D A. pose proof (proj2 (proj2 (proj2 A))) as W. unfold ldef in D. unfold X86Lir.lstep. destruct (nth_error p i) as [x|] eqn:N; [|contradiction].
  pose proof (nth_le i x N) as SI. rewrite <- lens in SI. destruct (comp_nth i x N) as (calls & NG & CO & LO).
  destruct x as [is32 k D0 Dw A0 Aw|o k D0 Dw S1 S1w S2 S2w|o k S1 S1w S2 S2w|is32 d S1 S1w S2 S2w|is32 lft dst src1 src2 src3 src3w|o k D0 Dw t|is32 t d S1 S1w r2|k is32|cc D0 Dw v| |al|t rewr to|d to|r]; cbn [compiled1 lir_ok] in CO, LO.
  - destruct LO as (L1 & L2). pose proof (op1_ok u w lz tz cmov is32 k D0 Dw A0 Aw s L1 L2 W) as DO. destruct (does_at i _ _ s _ NG CO DO) as (s1 & CS & ((r & R1 & R2) & FS) & W1).
    rewrite (agree_val w _ a) in R1 by (assumption || apply L2). assert (N1 : 0 < n1 k is32) by (destruct k, is32; reflexivity).
    exists (S i). destruct (is_mov k).
    + exists (absof w s1 (lc a)), s1. split; [|split; [exact CS|split; [|exact SI]]].
      * split; [reflexivity|]. split; [|intros t _; reflexivity]. exists r. split; [exact R1|]. eapply abs_wrote1; eauto.
      * eapply agrees_keep; eauto.
    + exists (absof w s1 (fun _ => None)), s1. split; [|split; [exact CS|split; [|exact SI]]].
      * split; [reflexivity|]. split; [|intros t _; reflexivity]. exists r. split; [exact R1|]. eapply abs_wrote1; eauto.
      * apply agrees_none. exact W1.
  - destruct LO as (L1 & L2 & L3). destruct D as (c & D). pose proof (op2_user u w o k c D0 Dw S1 S1w S2 S2w s L1 L2 L3 (carry_agree _ _ _ _ A D) W) as DO.
    destruct (does_at i _ _ s _ NG CO DO) as (s1 & CS & (H1 & H2) & W1). destruct L1 as (LD & LA & LB). rewrite !(agree_val w _ a) in H1, H2 by assumption. cbv zeta.
    exists (S i), (absof w s1 (flags_of o k (nbits (f32 o)) (lval (nbits (f32 o)) a S1 S1w) (lval (nbits (f32 o)) a S2 S2w) c)), s1. split; [|split; [exact CS|split; [|exact SI]]].
    + split; [reflexivity|]. exists c. split; [exact D|]. split; [eapply abs_wrote; eauto|apply new_flags_of].
    + apply agrees_new; assumption.
  - destruct LO as (L1 & L2 & L3 & L4). destruct D as (c & D). pose proof (op2u_user u w o k c S1 S1w S2 S2w s L1 L2 L3 L4 (carry_agree _ _ _ _ A D) W) as DO.
    destruct (does_at i _ _ s _ NG CO DO) as (s1 & CS & ((H1 & H3) & H2) & W1). rewrite !(agree_val w _ a) in H2 by assumption. cbv zeta.
    exists (S i), (absof w s1 (flags_of o k (nbits (f32 o)) (lval (nbits (f32 o)) a S1 S1w) (lval (nbits (f32 o)) a S2 S2w) c)), s1. split; [|split; [exact CS|split; [|exact SI]]].
    + split; [reflexivity|]. exists c. split; [exact D|]. split; [|apply new_flags_of]. split; [|cbn [absof lm]; rewrite H1; apply A].
      intros q Q. cbn [absof lr]. eapply same_regs; eauto. apply not_tmp. exact Q.
    + apply agrees_new; assumption.
  - destruct LO as (L1 & L2 & L3). pose proof (muladd_user u w is32 d S1 S1w S2 S2w s L1 L2 L3 W) as DO. destruct (does_at i _ _ s _ NG CO DO) as (s1 & CS & H1 & W1).
    assert (LD : xdst_legal (AReg d) 0) by (split; [exact L1|reflexivity]). rewrite !(agree_val w _ a) in H1 by (assumption || exact LD). cbv zeta.
    exists (S i), (absof w s1 (fun _ => None)), s1. split; [|split; [exact CS|split; [apply agrees_none; exact W1|exact SI]]].
    split; [reflexivity|]. split; [|intros t _; reflexivity]. eapply abs_wrote; eauto.
  - destruct LO as (L1 & L2). pose proof (into_user u w is32 lft dst src1 src2 src3 src3w s L1 L2 W) as DO. cbv zeta in DO. destruct (does_at i _ _ s _ NG CO DO) as (s1 & CS & (H1 & H2 & H3) & W1).
    destruct L1 as (U1 & U2 & U3 & _ & U5). unfold xureg in U2, U3. rewrite (agree_val w _ a) in H1 by assumption. rewrite (proj1 A src1), (proj1 A src2) in H1 by lia. cbv zeta.
    exists (S i), (absof w s1 (fun _ => None)), s1. split; [|split; [exact CS|split; [apply agrees_none; exact W1|exact SI]]].
    split; [reflexivity|]. split; [|intros t _; reflexivity]. apply (abs_wrote1 w _ _ False a s); [destruct is32; reflexivity|exact A|split; [exact U1|reflexivity]| |exact W1].
    split; [exact H1|]. split; [contradiction|]. split; assumption.
  - destruct LO as (L1 & L2 & L3). destruct (lc a t) as [c|] eqn:LC; [|congruence]. pose proof (proj1 (proj2 (proj2 A)) t c L3 LC) as CV.
    pose proof (flags_user u w o k D0 Dw t s c L1 L2 L3 W CV) as DO. cbv zeta in DO. destruct (does_at i _ _ s _ NG CO DO) as (s1 & CS & (H1 & H2 & H3) & W1).
    rewrite !(agree_val w _ a) in H1, H3 by (exact A || apply X86Mov.dst_src; exact L2). set (n := nbits (f32 o)) in *. set (v := flags_val k n (lval n a D0 Dw) c) in *.
    assert (N0 : 0 < n) by (unfold n; destruct (f32 o); reflexivity). cbv zeta.
    exists (S i), (absof w s1 (match k with None => lc a | Some _ => fun t => if setz o && (t <? 2) then Some (xorb (t =? SLJIT_NOT_EQUAL) (v mod 2 ^ n =? 0)) else None end)), s1.
    split; [|split; [exact CS|split; [|exact SI]]].
    + split; [reflexivity|]. exists c. split; [reflexivity|]. split; [eapply abs_wrote1; eauto|]. destruct k; intros t' T'; reflexivity.
    + destruct k as [k|]; [|eapply agrees_keep; eauto]. apply agrees_absof; [exact W1|]. intros t' b1 T' E.
      destruct (setz o && (t' <? 2)) eqn:Z2; [|discriminate]. injection E as <-. apply andb_prop in Z2. destruct Z2 as (Z2 & Z3). apply Z.ltb_lt in Z3. apply (H3 Z2).
      unfold ctype in T'. unfold SLJIT_EQUAL, SLJIT_NOT_EQUAL. lia.
  - destruct LO as (L1 & L2 & L3 & L4). destruct (lc a t) as [c|] eqn:LC; [|congruence]. pose proof (proj1 (proj2 (proj2 A)) t c L1 LC) as CV.
    pose proof (select_user u w cmov is32 t d S1 S1w r2 s c L1 L2 L3 L4 W CV) as DO. cbv zeta in DO. destruct (does_at i _ _ s _ NG CO DO) as (s1 & CS & (H1 & H2) & W1).
    assert (LR2 : xsrc_legal (AReg r2) 0) by (split; [exact L4|reflexivity]). rewrite !(agree_val w _ a) in H1 by assumption. cbv zeta.
    exists (S i), (absof w s1 (lc a)), s1. split; [|split; [exact CS|split; [eapply agrees_keep; eauto|exact SI]]].
    split; [reflexivity|]. exists c. split; [reflexivity|]. split; [|intros t' _; reflexivity]. eapply abs_wrote1; [destruct is32; reflexivity|exact A|split; [exact L2|reflexivity]|exact H1|exact W1].
  - destruct (val0 k (nbits is32) (lr a 1) (lr a 2)) as [[q r]|] eqn:V0; [|congruence]. rewrite <- (proj1 A 1), <- (proj1 A 2) in V0 by lia.
    pose proof (op0_user u w is32 k s q r LO W V0) as DO. destruct (does_at i _ _ s _ NG CO DO) as (s1 & CS & (H1 & H2 & _ & _ & H3 & H4) & W1). cbv zeta.
    exists (S i), (absof w s1 (fun _ => None)), s1. split; [|split; [exact CS|split; [apply agrees_none; exact W1|exact SI]]].
    split; [reflexivity|]. exists q, r. split; [reflexivity|]. cbn [absof lr lm]. split; [rewrite H1; apply Z.mod_mod; destruct is32; discriminate|]. split; [exact H2|]. split; [apply W1|]. split; [apply W1|].
    split; [|split; [rewrite H3; apply A|intros t' _; reflexivity]]. intros x X. eapply same_regs; [exact A|exact H4|lia|]. intros [Y|[Y|[Y|[Y|[]]]]]; lia.
  - destruct LO as (L1 & L2). destruct (const_ok u w cc D0 Dw v s L1 L2 W) as (l & E & s1 & R & (H1 & H2) & W1). destruct (const_at i _ _ _ _ _ NG CO) as (l' & E' & BA & PE). rewrite E in E'. injection E' as <-.
    exists (S i), (absof w s1 (lc a)), s1. split; [|split; [|split; [eapply agrees_keep; eauto|exact SI]]].
    + split; [reflexivity|]. split; [|intros t' _; reflexivity]. eapply abs_wrote1; [destruct cc as [| | |[]]; reflexivity|exact A|exact L1|exact H1|exact W1].
    + rewrite PE. apply (runs_csteps code eo b); try assumption. rewrite lens in SI. specialize (PR (S i) SI). rewrite PE in PR. unfold xpos. lia.
  - subst calls. destruct (PL i _ NG) as (p1 & _ & (_ & Q) & E). cbn [laid_to] in E. exists (S i), a, s. split; [split; reflexivity|]. split; [rewrite E, Q; apply csteps_refl|]. split; [exact A|exact SI].
  - subst calls. destruct (PL i _ NG) as (p1 & LE & (_ & _ & Q) & E). cbn [laid_to] in E. subst p1. exists (S i), a, s. split; [split; reflexivity|]. split; [|split; [exact A|exact SI]].
    pose proof (runs_csteps code eo b codef u (P i) _ s s F Q (nops u _ s) B0) as H. assert (ZL : zlen (repeat 144 (Z.to_nat (P (S i) - P i))) = P (S i) - P i) by (unfold zlen; rewrite repeat_length; lia).
    rewrite ZL in H. replace (P i + (P (S i) - P i)) with (P (S i)) in H by lia. apply H. rewrite lens in SI. specialize (PR (S i) SI). unfold xpos. lia.
  - subst calls. destruct LO as (L1 & y & NY & LY). destruct (PL i _ NG) as (p1 & _ & Q & E). cbn [laid_to] in E. subst p1. cbn [call_laid] in Q.
    assert (TA : taddr g (TLabel (lno w G to)) = adr to) by (apply (label_adr to y); assumption).
    assert (Q' : jump_runs w code eo b (match t with Some t => JCond t | None => JAlways end) (adr to) (P i) (P (S i))).
    { rewrite <- TA. destruct rewr; apply Q; exact (fun f => f). }
    pose proof (nth_le to y NY) as STO. rewrite <- lens in STO. destruct t as [t|].
    + destruct (lc a t) as [c|] eqn:LC; [|congruence]. destruct (Q' codef u s c F W) as (s1 & CS & SB & W1); [cbn [holds]; apply A; assumption|].
      exists (if c then S to else S i), a, s1. split; [exists c; auto|]. split; [destruct c; exact CS|]. split; [eapply agrees_tmp; eauto|destruct c; assumption].
    + destruct (Q' codef u s true F W) as (s1 & CS & SB & W1); [reflexivity|]. exists (S to), a, s1. split; [split; reflexivity|]. split; [exact CS|]. split; [eapply agrees_tmp; eauto|exact STO].
  - subst calls. destruct LO as (L1 & y & NY & LY). destruct (PL i _ NG) as (p1 & _ & Q & E). cbn [laid_to] in E. subst p1. cbn [call_laid] in Q.
    assert (TA : taddr g (TLabel (lno w G to)) = adr to) by (apply (label_adr to y); assumption). rewrite TA in Q.
    destruct (Q (fun f => f) codef u s F W) as (s1 & CS & V & (R & F1 & F2 & F3 & F4 & M)). pose proof (adr_word to (nth_le to y NY)) as AW.
    assert (W1 : xwf s1). { intros q. destruct (Z.eq_dec q (reg_map w d)) as [-> |NE]; [rewrite V; exact AW|]. rewrite R; [apply W|]. intros [X|[]]. congruence. }
    exists (S i), (absof w s1 (lc a)), s1. split; [|split; [exact CS|split; [eapply agrees_keep; eauto; unfold flags_same; auto|exact SI]]].
    split; [reflexivity|]. split; [|intros t _; reflexivity]. cbn [lwrote absof lr lm]. split; [rewrite V; reflexivity|]. split; [rewrite V; exact AW|]. split; [|rewrite M; apply A].
    intros q Q1 Q2. rewrite R; [apply A; exact Q1|]. intros [X|[]]. unfold xureg in L1. apply reg_inj in X; unfold isreg; lia.
  - destruct D as (j & y & NY & LY & LR). destruct (pieces_at i _ _ NG CO) as (l & E & BA & PE). injection E as <-.
    destruct (step_at code eo b codef u (P i) (goto_bytes w r) s F BA) as (tl & _ & ST); [unfold goto_bytes; destruct (8 <=? _); cbn; lia|].
    rewrite dec_goto in ST by exact LO. rewrite Nat.eqb_refl in ST. cbv zeta in ST. unfold xureg in LO. rewrite (proj1 A r) in ST by lia. rewrite LR in ST.
    pose proof (nth_le j y NY) as SJ. rewrite <- lens in SJ. exists (S j), a, s. split; [exists j, y; auto|]. split; [eapply csteps_one; [exact ST|apply csteps_refl]|]. split; [exact A|exact SJ].
Qed.
Lemma sim : forall n i a s, safe p adr n i a -> agrees a s -> exists i1 a1 s1, goes p adr n i a i1 a1 /\ csteps codef u (xpos code eo (P i)) s (xpos code eo (P i1)) s1 /\ agrees a1 s1.
Proof.
  induction n as [|n IH]; intros i a s SF A.
  - exists i, a, s. split; [split; reflexivity|]. split; [apply csteps_refl|exact A].
  - destruct SF as [E|(D & SF)].
    + exists i, a, s. split; [left; auto|]. split; [apply csteps_refl|exact A].
    + destruct (sim_step i a s D A) as (i1 & a1 & s1 & L & CS & A1 & _). destruct (IH i1 a1 s1 (SF _ _ L) A1) as (i2 & a2 & s2 & GO & CS2 & A2).
      exists i2, a2, s2. split; [right; exists i1, a1; auto|]. split; [eapply csteps_trans; eassumption|exact A2].
Qed.
End Prog.
(** ** The theorem *)
Lemma program_runs : forall w lz tz cmov p G code eo, compiled w lz tz cmov p G -> Forall (lir_ok p) p -> mov_label false (concat G) = false ->
  csize (emits w (concat G)) <= 2 ^ 31 - 32 -> 0 <= code -> 0 <= code + eo -> code + eo + csize (emits w (concat G)) + 15 < 2 ^ 64 -> code + csize (emits w (concat G)) <= 2 ^ 64 ->
  exists g P, generate w code eo (emits w (concat G)) = Some g /\ P 0%nat = 0 /\ P (length p) = zlen (rb g) /\
    (forall j x, nth_error p j = Some x -> is_label x = true -> laddr (nth (lno w G j) (rlabels g) (mkXL 0 None 0)) = xpos code eo (P (S j))) /\
    forall codef u n i a s, fetches code eo (rb g) codef -> agrees w a s -> safe p (fun j => xpos code eo (P (S j))) n i a ->
      exists i' a' s', goes p (fun j => xpos code eo (P (S j))) n i a i' a' /\ csteps codef u (xpos code eo (P i)) s (xpos code eo (P i')) s' /\ agrees w a' s'.
Proof.
  intros w lz tz cmov p G code eo C OK M H1 H2 H3 H4 H5.
  assert (PO : prog_ok w code eo (concat G)). { split; [eapply calls_ok; eauto|]. split; [exact H1|]. split; [exact H2|]. split; [exact H3|]. split; [lia|exact H5]. }
  destruct (link_ok w code eo (concat G) PO M) as (g & GE & L & SZ & _). specialize (L [] (Forall_nil _)). change (fold_left (set_jump code g) [] (rb g)) with (rb g) in L. change (last_set []) with (fun _ : nat => @None Z) in L.
  destruct (laid_groups _ _ _ _ _ _ _ _ _ L) as (P & P0 & PN & PR & PS). exists g, P. split; [exact GE|]. split; [exact P0|]. split; [rewrite (forall2_len _ _ _ _ _ C); exact PN|]. split.
  - intros j x N LX. eapply label_adr with (P := P); eauto.
  - intros codef u n i a s F A SF. eapply sim with (G := G) (P := P); eauto. lia.
Qed.
