(** Sequences of code executed in memory, and the instructions which use the stack. *)
Require Import ZArith List Bool Lia.
From Verif Require Import Rv.RvLib Rv.RvIsa Rv.RvMem Rv.RvMemProofs Rv.RvFrame Rv.RvFrameSpec Rv.RvWf X86.X86Isa X86.X86Emit X86.X86Spec X86.X86Enc X86.X86EncTop X86.X86OpSpec X86.X86Op X86.X86Ins X86.X86Ins2 X86.X86Mov
  X86.X86Cond X86.X86Link X86.X86LinkSpec X86.X86LinkOps X86.X86LinkRun X86.X86Fetch X86.X86Frame X86.X86FrameSpec.
Import ListNotations.
Ltac Zify.zify_post_hook ::= idtac.
Open Scope Z_scope.

Lemma zlen_pos : forall (l : list Z), 0 <= zlen l. Proof. intros. unfold zlen. lia. Qed.
Lemma fetches_pre : forall a l1 l2 codef, fetches a 0 (l1 ++ l2) codef -> fetches a 0 l1 codef.
Proof.
  intros a l1 l2 codef F p H. rewrite F by (rewrite zlen_app; pose proof (zlen_pos l2); lia). rewrite app_nth1; [reflexivity|]. unfold zlen in H. lia.
Qed.
Lemma fetches_suf : forall a l1 l2 codef, fetches a 0 (l1 ++ l2) codef -> fetches (a + zlen l1) 0 l2 codef.
Proof.
  intros a l1 l2 codef F p H. specialize (F (zlen l1 + p)). unfold xpos in *. replace (a + zlen l1 + 0 + p) with (a + 0 + (zlen l1 + p)) by lia.
  rewrite F by (rewrite zlen_app; pose proof (zlen_pos l1); lia). unfold zlen in *. rewrite app_nth2 by lia. f_equal. lia.
Qed.
Lemma bytes_all : forall l, bytes_at l 0 l. Proof. intros l. exists [], []. rewrite app_nil_r. split; reflexivity. Qed.

Section U.
Variable u : Z.
Lemma cdoes_nil : forall s (P : xst -> Prop), xwf s -> P s -> cdoes u (Some []) s P.
Proof. intros s P W H. exists []. split; [reflexivity|]. exists s. split; [exact H|]. split; [exact W|]. intros. change (zlen []) with 0. rewrite Z.add_0_r. apply csteps_refl. Qed.
Lemma ends_seq : forall c1 c2 s (Q : xst -> Prop) P, cdoes u c1 s Q -> (forall s1, xwf s1 -> Q s1 -> ends u c2 s1 P) -> ends u (c1 +++ c2) s P.
Proof.
  intros c1 c2 s Q P (l1 & -> & s1 & H & W & C) K. destruct (K s1 W H) as (l2 & -> & D). exists (l1 ++ l2). split; [reflexivity|]. intros codef a A0 AL F.
  rewrite zlen_app in *. pose proof (zlen_pos l2). pose proof (zlen_pos l1).
  destruct (D codef (a + zlen l1) ltac:(lia) ltac:(lia) (fetches_suf _ _ _ _ F)) as (pc & s' & C2 & X & W').
  exists pc, s'. split; [|rewrite Z.add_assoc; auto]. eapply csteps_trans; [apply C; [lia|lia|eapply fetches_pre; exact F]|exact C2].
Qed.
Lemma cdoes_seq : forall c1 c2 s (Q P : xst -> Prop), cdoes u c1 s Q -> (forall s1, xwf s1 -> Q s1 -> cdoes u c2 s1 P) -> cdoes u (c1 +++ c2) s P.
Proof.
  intros c1 c2 s Q P (l1 & -> & s1 & H & W & C) K. destruct (K s1 W H) as (l2 & -> & s2 & H2 & W2 & C2). exists (l1 ++ l2). split; [reflexivity|].
  exists s2. split; [exact H2|]. split; [exact W2|]. intros codef a A0 AL F. rewrite zlen_app in *. pose proof (zlen_pos l2). pose proof (zlen_pos l1).
  rewrite Z.add_assoc. eapply csteps_trans; [apply C; [lia|lia|eapply fetches_pre; exact F]|]. apply C2; [lia|lia|]. apply fetches_suf. exact F.
Qed.
Lemma cdoes_conseq : forall c s (Q P : xst -> Prop), cdoes u c s Q -> (forall s', xwf s' -> Q s' -> P s') -> cdoes u c s P.
Proof. intros c s Q P (l & E & s' & H & W & C) K. exists l. split; [exact E|]. exists s'. auto. Qed.
Lemma ends_conseq : forall c s (Q P : Z -> Z -> xst -> Prop), ends u c s Q -> (forall n pc s', xwf s' -> Q n pc s' -> P n pc s') -> ends u c s P.
Proof.
  intros c s Q P (l & E & C) K. exists l. split; [exact E|]. intros codef a A0 AL F. destruct (C codef a A0 AL F) as (pc & s' & R & H & W). exists pc, s'. auto.
Qed.
(** Code of the other instructions. *)
Lemma does_cdoes : forall c s P, does u c s P -> cdoes u c s P.
Proof.
  intros c s P (l & E & s' & R & H & W). exists l. split; [exact E|]. exists s'. split; [exact H|]. split; [exact W|]. intros codef a A0 AL F.
  pose proof (runs_csteps a 0 l codef u 0 l s s' F (bytes_all l) R) as X. unfold xpos in X. rewrite !Z.add_0_r, Z.add_0_l in X. apply X; lia.
Qed.
(** One instruction. *)
Lemma one_stk : forall codef a bs s i r, 0 <= a -> a + zlen bs + 15 < 2 ^ 64 -> fetches a 0 bs codef -> (length bs <= 15)%nat ->
  (forall tl, decode_ctl (bs ++ tl) = None) -> (forall tl, decode (bs ++ tl) = None) -> (forall tl, decode_stk (bs ++ tl) = Some (i, tl)) ->
  sexec (a + zlen bs) s i = Some r -> csteps codef u a s (fst r) (snd r).
Proof.
  intros codef a bs s i [pc s'] A0 AL F L D1 D2 D3 E. destruct (step_at a 0 bs codef u 0 bs s F (bytes_all bs) L) as (tl & _ & ST).
  rewrite D1, D2, D3, Nat.eqb_refl in ST. cbv zeta in ST. unfold xpos in ST. rewrite !Z.add_0_r, Z.add_0_l in ST.
  rewrite wrap_small in ST by (unfold isw; pose proof (zlen_pos bs); lia). rewrite E in ST. eapply csteps_one; [exact ST|apply csteps_refl].
Qed.
Lemma stk_cdoes : forall bs s i s' (P : xst -> Prop), (length bs <= 15)%nat ->
  (forall tl, decode_ctl (bs ++ tl) = None) -> (forall tl, decode (bs ++ tl) = None) -> (forall tl, decode_stk (bs ++ tl) = Some (i, tl)) ->
  (forall next, sexec next s i = Some (next, s')) -> xwf s' -> P s' -> cdoes u (Some bs) s P.
Proof.
  intros bs s i s' P L D1 D2 D3 E W H. exists bs. split; [reflexivity|]. exists s'. split; [exact H|]. split; [exact W|]. intros codef a A0 AL F.
  exact (one_stk codef a bs s i (a + zlen bs, s') A0 AL F L D1 D2 D3 (E _)).
Qed.
Lemma stk_ends : forall bs s i pc s' (P : Z -> Z -> xst -> Prop), (length bs <= 15)%nat ->
  (forall tl, decode_ctl (bs ++ tl) = None) -> (forall tl, decode (bs ++ tl) = None) -> (forall tl, decode_stk (bs ++ tl) = Some (i, tl)) ->
  (forall next, sexec next s i = Some (pc, s' next)) -> (forall next, xwf (s' next)) -> (forall next, P next pc (s' next)) -> ends u (Some bs) s P.
Proof.
  intros bs s i pc s' P L D1 D2 D3 E W H. exists bs. split; [reflexivity|]. intros codef a A0 AL F.
  exists pc, (s' (a + zlen bs)). split; [|split; [apply H|apply W]].
  exact (one_stk codef a bs s i (pc, s' (a + zlen bs)) A0 AL F L D1 D2 D3 (E _)).
Qed.

(** ** Registers *)
Lemma push_dec : forall w r tl, 1 <= r <= 16 ->
  decode_ctl (push_reg w r ++ tl) = None /\ decode (push_reg w r ++ tl) = None /\ decode_stk (push_reg w r ++ tl) = Some (SPush (OR (reg_map w r)), tl).
Proof.
  intros w r tl R. assert (H : In r [1;2;3;4;5;6;7;8;9;10;11;12;13;14;15;16]) by (cbn [In]; lia). clear R. destruct w; incases; repeat split; try reflexivity; destruct tl as [|? [|? [|? tl]]]; reflexivity.
Qed.
Lemma pop_dec : forall w r tl, 1 <= r <= 16 ->
  decode_ctl (pop_reg w r ++ tl) = None /\ decode (pop_reg w r ++ tl) = None /\ decode_stk (pop_reg w r ++ tl) = Some (SPop (OR (reg_map w r)), tl).
Proof.
  intros w r tl R. assert (H : In r [1;2;3;4;5;6;7;8;9;10;11;12;13;14;15;16]) by (cbn [In]; lia). clear R. destruct w; incases; repeat split; try reflexivity; destruct tl as [|? [|? [|? tl]]]; reflexivity.
Qed.
Lemma push_len : forall w r, (length (push_reg w r) <= 15)%nat. Proof. intros. unfold push_reg. destruct (_ >=? _); cbn; lia. Qed.
Lemma pop_len : forall w r, (length (pop_reg w r) <= 15)%nat. Proof. intros. unfold pop_reg. destruct (_ >=? _); cbn; lia. Qed.
Lemma push_ok : forall w r s (P : xst -> Prop), 1 <= r <= 16 -> xwf s -> P (push s (xr s (reg_map w r))) -> cdoes u (Some (push_reg w r)) s P.
Proof.
  intros w r s P R W H. apply (stk_cdoes _ s (SPush (OR (reg_map w r))) (push s (xr s (reg_map w r)))); try (intros tl; apply (push_dec w r tl R)); try apply push_len; auto.
  - intros next. cbn [sexec rdo]. change (2 ^ 64) with 18446744073709551616. rewrite Z.mod_small by apply W. reflexivity.
  - apply wf_push. exact W.
Qed.
Definition popto (s : xst) (r : Z) : xst := setr (setr s 4 (wrap (xr s 4 + 8))) r (load (xm s) (xr s 4) 8).
Lemma load8_isw : forall m a, isw (load m a 8). Proof. intros m a. exact (load_isw m B8 a). Qed.
Lemma pop_ok : forall w r s (P : xst -> Prop), 1 <= r <= 16 -> xwf s -> P (popto s (reg_map w r)) -> cdoes u (Some (pop_reg w r)) s P.
Proof.
  intros w r s P R W H. apply (stk_cdoes _ s (SPop (OR (reg_map w r))) (popto s (reg_map w r))); try (intros tl; apply (pop_dec w r tl R)); try apply pop_len; auto.
  apply xwf_setr; [|apply load8_isw]. apply xwf_setr; [exact W|apply wrap_isw].
Qed.
Lemma ret_ok : forall s (P : Z -> Z -> xst -> Prop), xwf s -> (forall n, P n (load (xm s) (xr s 4) 8) (setr s 4 (wrap (xr s 4 + 8)))) -> ends u (Some [0xc3]) s P.
Proof.
  intros s P W H. eapply (stk_ends _ s SRet _ (fun _ => setr s 4 (wrap (xr s 4 + 8)))); try (intros; reflexivity); try (intros [|? [|? [|? tl]]]; reflexivity); auto.
  - cbn; lia.
  - intros _. apply xwf_setr; [exact W|apply wrap_isw].
Qed.
Lemma endbranch_ok : forall cet s (P : xst -> Prop), xwf s -> P s -> cdoes u (Some (endbranch cet)) s P.
Proof.
  intros [] s P W H; [|apply cdoes_nil; assumption]. eapply (stk_cdoes _ s SEndbr s); try (intros; reflexivity); auto. cbn; lia.
Qed.

(** ** Memory *)
Lemma get_rex_shape : forall l x op l2, get_rex l = (x, op :: l2) -> l = op :: l2 \/ exists b, l = b :: op :: l2 /\ b / 16 = 4.
Proof.
  intros l x op l2 H. unfold get_rex in H. destruct l as [|b l]; [discriminate|]. destruct (Z.eqb_spec (b / 16) 4) as [B|B]; injection H as _ E; [right; exists b; subst; auto|left; subst; auto].
Qed.
Lemma rex_not : forall b k, b / 16 = 4 -> k / 16 <> 4 -> b =? k = false. Proof. intros b k H K. apply Z.eqb_neq. intros ->. auto. Qed.
Lemma ctl_mem : forall l x op l2 r e l3, get_rex l = (x, op :: l2) -> op = 0xff \/ op = 0x8f -> modrm x l2 = Some (r, OM e, l3) -> decode_ctl l = None /\ is_endbr l = false.
Proof.
  intros l x op l2 r e l3 G O M.
  assert (X : match l2 with m :: l3 => (op =? 0xff) && (m / 64 =? 3) = false /\ (op =? 0x8d) = false | [] => True end).
  { destruct l2 as [|m l4]; [exact I|]. split; [|destruct O; subst; reflexivity]. apply andb_false_iff. right. destruct (Z.eqb_spec (m / 64) 3) as [E|]; [|reflexivity].
    exfalso. unfold modrm in M. rewrite E in M. cbn in M. discriminate. }
  assert (Y : (op =? 0xeb) = false /\ (op =? 0xe9) = false /\ (op =? 0xe8) = false /\ (op / 16 =? 7) = false /\ (op =? 0x0f) = false /\ (op =? 0xf3) = false) by (destruct O; subst; repeat split; reflexivity).
  destruct Y as (Y1 & Y2 & Y3 & Y4 & Y5 & Y6).
  destruct (get_rex_shape _ _ _ _ G) as [->|(b & -> & B)].
  - split; [|unfold is_endbr; destruct l2 as [|? [|? [|? ?]]]; rewrite ?Y6; reflexivity]. unfold decode_ctl. rewrite Y1, Y2, Y3, Y4, Y5. rewrite G.
    destruct l2 as [|m l4]; [reflexivity|]. destruct X as (X1 & X2). rewrite X1, X2. reflexivity.
  - split; [|unfold is_endbr; destruct l2 as [|? [|? ?]]; rewrite ?(rex_not b 0xf3 B ltac:(discriminate)); reflexivity].
    unfold decode_ctl. rewrite (rex_not b 0xeb), (rex_not b 0xe9), (rex_not b 0xe8), (rex_not b 0x0f) by (auto; discriminate). rewrite B. cbn [Z.eqb Pos.eqb]. rewrite G.
    destruct l2 as [|m l4]; [reflexivity|]. destruct X as (X1 & X2). rewrite X1, X2. reflexivity.
Qed.
(** The instruction [op /d] with a memory operand: code for a far displacement, then the instruction. *)
Lemma rm_dec : forall w op d b o immb, op = 0xff \/ op = 0x8f -> 0 <= d < 8 -> genop (AMem b o) immb ->
  exists x pre e, emit_x86 w true (fl 1) (AReg 0) 0 (AMem b o) immb = Some x /\ put1d op (8 * d) x = (if far (AMem b o) immb then load_imm64 w TMP_REG2 immb else []) ++ pre
    /\ same_operand w (fl 1) (AMem b o) immb (OM e) /\ (length pre <= 15)%nat
    /\ forall tl, decode_ctl (pre ++ tl) = None /\ decode (pre ++ tl) = None
       /\ decode_stk (pre ++ tl) = (if op =? 0x8f then if d =? 0 then Some (SPop (OM e), tl) else None else
            if d =? 2 then Some (SCall (OM e), tl) else if d =? 4 then Some (SJmp (OM e), tl) else if d =? 6 then Some (SPush (OM e), tl) else None).
Proof.
  intros w op d b o immb O D G.
  destruct (emit_x86_ok w true (fl 1) (AReg 0) 0 (AMem b o) immb) as (x & rx & opn & E & EN); [apply flags_ok_fl; lia|simpl; split; [unfold isreg; lia|discriminate]|exact G|].
  destruct EN. destruct opn as [q|e|v]; [destruct en_op| |destruct en_op].
  exists x, (o_head x ++ op :: or_hd (8 * d) (o_tail x)), e. split; [exact E|]. split; [unfold put1d; rewrite en_pre; reflexivity|]. split; [exact en_op|].
  assert (OB : opbyte op) by (unfold opbyte; destruct O; subst; repeat split; try lia; vm_compute; discriminate).
  assert (EQ : forall tl, (o_head x ++ op :: or_hd (8 * d) (o_tail x)) ++ tl = o_head x ++ op :: or_hd (8 * d) (o_tail x) ++ tl) by (intros; rewrite <- app_assoc; reflexivity).
  assert (GR' : forall tl, get_rex (o_head x ++ op :: or_hd (8 * d) (o_tail x) ++ tl) = (rx, op :: or_hd (8 * d) (o_tail x) ++ tl)) by (intros; apply en_rex; [exact OB|reflexivity]).
  assert (RM' : forall tl, modrm rx (or_hd (8 * d) (o_tail x) ++ tl) = Some (d, OM e, tl)).
  { intros tl. rewrite en_rm by (split; [lia|intros _ _ H; elim H; reflexivity]). unfold want_reg. cbn [f_shift f_sse1 fl imm_size lebytes app]. replace (reg_map w 0) with 0 by (destruct w; reflexivity). reflexivity. }
  split.
  { rewrite app_length. cbn [length]. destruct (loc_modrm _ _ _ _ (RM' [])) as (p & P1 & P2 & _). rewrite !app_nil_r in P1. rewrite P1.
    assert (length (o_head x) <= 1)%nat; [|lia]. specialize (GR' []). apply get_rex_shape in GR'. destruct GR' as [G1|(b1 & G1 & _)]; apply (f_equal (@length Z)) in G1; rewrite app_length in G1; cbn [length] in G1; lia. }
  intros tl. rewrite EQ. pose proof (GR' tl) as GR. pose proof (RM' tl) as RM.
  destruct (ctl_mem _ _ _ _ _ _ _ GR O RM) as (C1 & C2).
  split; [exact C1|]. split.
  - rewrite en_dec by exact OB. change (want_pfx (fl 1)) with PNone. unfold decop. destruct O; subst op; cbn [Z.eqb Pos.eqb]; reflexivity.
  - unfold decode_stk. rewrite C2, GR, RM. rewrite (Z.mod_small d 8) by lia. destruct O; subst op; cbn [Z.eqb Pos.eqb Z.div Z.div_eucl Z.pos_div_eucl]; reflexivity.
Qed.
End U.
