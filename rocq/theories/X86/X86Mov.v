(** emit_mov, and how the effects of instructions compose. *)
Require Import ZArith List Bool Lia.
From Verif Require Import Rv.RvLib Rv.RvIsa Rv.RvMem Rv.RvMemProofs Rv.RvEmitOp1 X86.X86Isa X86.X86Emit X86.X86Spec X86.X86Enc X86.X86EncTop X86.X86OpSpec X86.X86Op X86.X86Ins X86.X86Ins2.
Import ListNotations.
Ltac Zify.zify_post_hook ::= idtac.
Open Scope Z_scope.

(** ** Operands of the model: legal ones, and temporary registers *)
Definition sok (a : arg) (imm : Z) : Prop :=
  match a with AReg r => 1 <= r <= 16 | AImm => - 2 ^ 63 <= imm < 2 ^ 63 | AMem b o => xmem_legal b o imm end.
Definition uses (a : arg) : list Z := match a with AReg r => [r] | AImm => [] | AMem b o => [b; o] end.
Definition ause (a : arg) : list Z := match a with AMem b o => [b; o] | _ => [] end.
Definition apart (l L : list Z) : Prop := forall r, In r l -> r <> 0 -> ~ In r L.
Lemma xmem_regs : forall b o imm, xmem_legal b o imm -> 0 <= b <= 14 /\ 0 <= o <= 13.
Proof. unfold xmem_legal, xureg. intros. lia. Qed.
Lemma sok_gop : forall a imm, sok a imm -> is_imm a = false -> gop a imm.
Proof.
  intros a imm H I. destruct a as [r| |b o]; [|discriminate|].
  - simpl in H. split; [simpl; unfold isreg; lia|]. intros Q. injection Q. lia.
  - split; [|discriminate]. simpl in H. pose proof (xmem_regs b o imm H). unfold xmem_legal, xureg in H. cbn [genop]. unfold isreg.
    split; [lia|]. split; [lia|]. split; [lia|]. split; [lia|].
    destruct (Z.eqb_spec o 0); [split; [lia|intros _; lia]|lia].
Qed.
Lemma src_sok : forall a imm, xsrc_legal a imm -> sok a imm.
Proof. intros a imm H. destruct a; simpl in *; auto. unfold xureg in H. lia. Qed.
Lemma dst_sok : forall a imm, xdst_legal a imm -> sok a imm /\ is_imm a = false.
Proof. intros a imm H. destruct a; simpl in *; try contradiction; auto. unfold xureg in H. split; [lia|reflexivity]. Qed.
Lemma sok_far_tmp : forall a imm, sok a imm -> apart (ause a) TMPS.
Proof.
  intros a imm H r I N. destruct a as [q| |b o]; simpl in I; try contradiction. simpl in H. pose proof (xmem_regs b o imm H).
  unfold TMPS. simpl. lia.
Qed.
Lemma src_apart : forall a imm, xsrc_legal a imm -> apart (uses a) TMPS.
Proof.
  intros a imm H. destruct a as [q| |b o].
  - simpl in H. intros r I N. unfold xureg in H. unfold TMPS. simpl in *. lia.
  - intros r I. destruct I.
  - apply (sok_far_tmp (AMem b o) imm). exact H.
Qed.
Lemma dst_src : forall a imm, xdst_legal a imm -> xsrc_legal a imm. Proof. intros a imm H. destruct a; simpl in *; auto; contradiction. Qed.
Lemma apart_incl : forall l L L', apart l L -> incl L' L -> apart l L'.
Proof. intros l L L' H I r A B C. apply (H r A B). apply I. exact C. Qed.
Lemma apart_nil : forall l, apart l []. Proof. intros l r _ _ []. Qed.
Lemma ause_uses : forall a L, apart (uses a) L -> apart (ause a) L.
Proof. intros a L H. destruct a; [intros ? []|intros ? []|exact H]. Qed.
Lemma ftmp_TMPS : forall a imm, incl (ftmp a imm) TMPS.
Proof. intros a imm r H. unfold ftmp in H. destruct (far a imm); simpl in H; [|contradiction]. unfold TMPS, TMP_REG2 in *. simpl. lia. Qed.

Section W.
Variables (w : bool).
Lemma regs_weaken : forall L L' s s', regs_same w L s s' -> incl L L' -> regs_same w L' s s'.
Proof. intros L L' s s' H I r R N. apply H; auto. Qed.
Lemma regs_trans : forall L L' s s1 s2, regs_same w L s s1 -> regs_same w L' s1 s2 -> regs_same w (L ++ L') s s2.
Proof. intros L L' s s1 s2 A B r R N. rewrite in_app_iff in N. rewrite B, A by tauto. reflexivity. Qed.
Lemma regs_refl : forall L s, regs_same w L s s. Proof. intros L s r _ _. reflexivity. Qed.
Lemma only_weaken : forall L L' s s', only w L s s' -> incl L L' -> only w L' s s'.
Proof. intros L L' s s' (A & B) I. split; [exact A|]. eapply regs_weaken; eauto. Qed.
Lemma only_trans : forall L L' s s1 s2, only w L s s1 -> only w L' s1 s2 -> only w (L ++ L') s s2.
Proof. intros L L' s s1 s2 (A & B) (C & D). split; [congruence|]. eapply regs_trans; eauto. Qed.
Lemma only_refl : forall L s, only w L s s. Proof. intros. split; [reflexivity|apply regs_refl]. Qed.
Lemma wrote_reg_only : forall n L s r imm v s', wrote w n L s (AReg r) imm v s' -> only w (r :: L) s s' /\ xr s' (reg_map w r) = v mod 2 ^ n.
Proof. intros n L s r imm v s' (A & B & C). split; [split; assumption|exact A]. Qed.
Lemma wrote_weaken : forall n L L' s a imm v s', wrote w n L s a imm v s' -> incl L L' -> wrote w n L' s a imm v s'.
Proof.
  intros n L L' s a imm v s' H I. destruct a as [r| |b o]; cbn [wrote] in *; [|exact H|].
  - destruct H as (A & B & C). split; [exact A|]. split; [exact B|]. eapply regs_weaken; [exact C|].
    intros x [X|X]; [left; exact X|right; apply I; exact X].
  - destruct H as (A & B). split; [exact A|]. eapply regs_weaken; eauto.
Qed.
Lemma wrote_val : forall n L s a imm v v' s', wrote w n L s a imm v s' -> v mod 2 ^ n = v' mod 2 ^ n -> wrote w n L s a imm v' s'.
Proof. intros n L s a imm v v' s' H E. destruct a; cbn [wrote] in *; rewrite <- ?E; exact H. Qed.
Lemma xaddr_keep : forall L s s' b o imm, regs_same w L s s' -> 0 <= b <= 16 -> 0 <= o <= 16 -> apart [b; o] L -> xaddr w s' b o imm = xaddr w s b o imm.
Proof.
  intros L s s' b o imm H B O A. unfold xaddr.
  replace (if b =? 0 then 0 else xr s' (reg_map w b)) with (if b =? 0 then 0 else xr s (reg_map w b)).
  - destruct (Z.eqb_spec o 0); [reflexivity|]. rewrite (H o); [reflexivity|lia|]. apply A; [simpl; auto|assumption].
  - destruct (Z.eqb_spec b 0); [reflexivity|]. symmetry. apply H; [lia|]. apply A; [simpl; auto|assumption].
Qed.
Lemma xval_keep : forall n L s s' a imm, sok a imm -> only w L s s' -> apart (uses a) L -> xval w n s' a imm = xval w n s a imm.
Proof.
  intros n L s s' a imm K (M & R) A. destruct a as [r| |b o]; cbn [xval]; simpl in K.
  - rewrite (R r); [reflexivity|exact K|]. apply A; [simpl; auto|lia].
  - reflexivity.
  - pose proof (xmem_regs _ _ _ K). rewrite M, (xaddr_keep L s s'); auto; lia.
Qed.
Lemma reg_keep : forall L s s' r, only w L s s' -> 1 <= r <= 16 -> ~ In r L -> xr s' (reg_map w r) = xr s (reg_map w r).
Proof. intros L s s' r (_ & R) H N. apply R; auto. Qed.
Lemma wrote_trans : forall n L L' s s1 a imm v s2, sok a imm -> only w L s s1 -> apart (ause a) L -> wrote w n L' s1 a imm v s2 -> wrote w n (L ++ L') s a imm v s2.
Proof.
  intros n L L' s s1 a imm v s2 K (M & R) A H. destruct a as [r| |b o]; cbn [wrote] in *; [|exact H|].
  - destruct H as (H1 & H2 & H3). split; [exact H1|]. split; [congruence|].
    intros q Q N. simpl in N. rewrite in_app_iff in N. rewrite H3, R by (simpl; tauto || auto). reflexivity.
  - simpl in K. pose proof (xmem_regs _ _ _ K). destruct H as (H1 & H2). rewrite (xaddr_keep L s s1) in H1; auto; try lia. rewrite M in H1.
    split; [exact H1|]. eapply regs_trans; eauto.
Qed.
Lemma flags_trans : forall s s1 s2, flags_same s s1 -> flags_same s1 s2 -> flags_same s s2.
Proof. intros s s1 s2 (A & B & C & D) (E & F & G & H). repeat split; congruence. Qed.
Lemma flags_refl : forall s, flags_same s s. Proof. intros. repeat split. Qed.
Lemma only_reg_drop : forall L r s s', only w (r :: L) s s' -> 1 <= r <= 16 -> xr s' (reg_map w r) = xr s (reg_map w r) -> only w L s s'.
Proof. intros L r s s' (A & B) R E. split; [exact A|]. intros q Q N. destruct (Z.eq_dec q r) as [->|D]; [exact E|]. apply B; simpl; auto. intros [X|X]; auto. Qed.
End W.

(** ** emit_mov *)
Definition mov_tmps (D : arg) (Dw : Z) (S : arg) (Sw : Z) : list Z :=
  match D with AReg _ => ftmp S Sw | _ => match S with AReg _ => ftmp D Dw | _ => TMPS end end.
Lemma mov_tmps_TMPS : forall D Dw S Sw, incl (mov_tmps D Dw S Sw) TMPS.
Proof. intros. unfold mov_tmps. destruct D, S; try apply ftmp_TMPS; intros x H; exact H. Qed.
Lemma nothalf_immok : forall m v, negb m && not_halfword v = false -> immok m v.
Proof. intros m v H N. subst m. simpl in H. unfold not_halfword in H. rewrite orb_false_iff in H. lia. Qed.
Section U.
Variables (u : Z) (w m : bool).
Notation n := (size_of m).
Lemma mov_ok : forall D Dw S Sw s, sok D Dw -> is_imm D = false -> sok S Sw -> (far D Dw = true -> S <> AReg TMP_REG2) -> xwf s ->
  does u (emit_mov w m D Dw S Sw) s (fun s' => wrote w n (mov_tmps D Dw S Sw) s D Dw (xval w n s S Sw) s' /\ flags_same s s').
Proof.
  intros D Dw S Sw s DK DI SK FR W.
  assert (GD : gop D Dw) by (apply sok_gop; assumption).
  destruct S as [r| |b o].
  - cbn [emit_mov xval]. eapply does_conseq; [apply mov_store_ok; auto|].
    { split; [exact SK|]. intros F Q. apply (FR F). congruence. }
    intros s' _ (A & B). split; [|exact B]. cbn [mov_tmps]. destruct D; cbn [mov_tmps]; exact A.
  - cbn [emit_mov xval]. destruct D as [d| |b o]; [|discriminate|].
    + simpl in DK. destruct m eqn:EM; cbn [negb].
      * eapply does_conseq; [apply mov_b8_ok; auto|]. intros s' _ (A & B). split; [|exact B]. cbn [mov_tmps size_of].
        eapply wrote_val; [exact A|]. rewrite Z.mod_mod by (vm_compute; discriminate). reflexivity.
      * destruct (not_halfword Sw) eqn:NH.
        { eapply does_conseq; [apply load_imm_ok; auto|]. intros s' _ (A & B). split; [|exact B]. cbn [mov_tmps size_of].
          eapply wrote_val; [exact A|]. rewrite Z.mod_mod by (vm_compute; discriminate). reflexivity. }
        { eapply does_conseq; [apply (mov_imm_ok u w false); auto|].
          { apply nothalf_immok. exact NH. }
          intros s' _ (A & B). split; [exact A|exact B]. }
    + destruct (negb m && not_halfword Sw) eqn:NH.
      * eapply does_seq; [apply load_imm_ok; [unfold TMP_REG1; lia|exact W]|]. intros s1 W1 (A & B).
        destruct (wrote_reg_only _ _ _ _ _ _ _ _ A) as (A1 & A2).
        eapply does_conseq; [apply mov_store_ok; auto|].
        { split; [unfold TMP_REG1; lia|]. intros _. discriminate. }
        intros s2 _ (E & F). split; [|eapply flags_trans; eauto]. cbn [mov_tmps].
        assert (M : m = false) by (destruct m; [discriminate|reflexivity]).
        eapply wrote_weaken; [eapply wrote_trans; [exact DK|exact A1| |eapply wrote_val; [exact E|]]|].
        -- eapply apart_incl; [apply (sok_far_tmp (AMem b o) Dw DK)|]. intros x [X|[]]. left. exact X.
        -- rewrite A2. rewrite M. cbn [size_of]. rewrite !Z.mod_mod by (vm_compute; discriminate). reflexivity.
        -- intros x. simpl. intros [X|X]; [left; exact X|]. apply ftmp_TMPS in X. exact X.
      * eapply does_conseq; [apply mov_imm_ok; auto|].
        { apply nothalf_immok. exact NH. }
        intros s' _ (A & B). split; [|exact B]. cbn [mov_tmps]. eapply wrote_weaken; [exact A|apply ftmp_TMPS].
  - destruct D as [d| |b' o']; [|discriminate|].
    + cbn [emit_mov]. simpl in DK. eapply does_conseq; [apply mov_load_ok; auto|].
      { apply sok_gop; auto. }
      intros s' _ (A & B). split; [exact A|exact B].
    + cbn [emit_mov]. eapply does_seq; [apply mov_load_ok; [unfold TMP_REG1; lia| |exact W]|].
      { apply sok_gop; auto. }
      intros s1 W1 (A & B). destruct (wrote_reg_only _ _ _ _ _ _ _ _ A) as (A1 & A2).
      eapply does_conseq; [apply mov_store_ok; auto|].
      { split; [unfold TMP_REG1; lia|]. intros _. discriminate. }
      intros s2 _ (E & F). split; [|eapply flags_trans; eauto]. cbn [mov_tmps].
      assert (I : incl (TMP_REG1 :: ftmp (AMem b o) Sw) TMPS). { intros x. simpl. intros [X|X]; [left; exact X|]. apply ftmp_TMPS in X. exact X. }
      eapply wrote_weaken; [eapply wrote_trans; [exact DK|exact A1| |eapply wrote_val; [exact E|]]|].
      * eapply apart_incl; [apply (sok_far_tmp _ Dw DK)|exact I].
      * rewrite A2. rewrite !nsize_mod. reflexivity.
      * intros x. rewrite in_app_iff. intros [X|X]; [apply I; exact X|apply ftmp_TMPS in X; exact X].
Qed.
(** To a register. *)
Lemma movr_ok : forall d S Sw s, 1 <= d <= 16 -> sok S Sw -> xwf s ->
  does u (emit_mov w m (AReg d) 0 S Sw) s (fun s' => only w (d :: ftmp S Sw) s s' /\ xr s' (reg_map w d) = xval w n s S Sw /\ flags_same s s').
Proof.
  intros d S Sw s D SK W. eapply does_conseq; [apply mov_ok; auto; discriminate|].
  intros s' _ (A & B). destruct (wrote_reg_only _ _ _ _ _ _ _ _ A) as (A1 & A2). split; [exact A1|]. split; [|exact B].
  rewrite A2. apply Z.mod_small. apply xval_range. exact W.
Qed.
(** From TMP_REG1 to the destination. *)
Lemma mov_from_tmp : forall D Dw s, sok D Dw -> is_imm D = false -> xwf s ->
  does u (emit_mov w m D Dw (AReg TMP_REG1) 0) s (fun s' => wrote w n TMPS s D Dw (xr s (reg_map w TMP_REG1)) s' /\ flags_same s s').
Proof.
  intros D Dw s DK DI W. eapply does_conseq; [apply mov_ok; auto|].
  { unfold TMP_REG1; simpl; lia. } { intros _. discriminate. }
  intros s' _ (A & B). split; [|exact B]. eapply wrote_val; [eapply wrote_weaken; [exact A|apply mov_tmps_TMPS]|].
  cbn [xval]. apply nsize_mod.
Qed.
End U.
