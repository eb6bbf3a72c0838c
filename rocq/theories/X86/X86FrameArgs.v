(** Arguments of functions and calls; the frame on the stack. *)
Require Import ZArith List Bool Lia.
From Verif Require Import Rv.RvLib Rv.RvIsa Rv.RvMem Rv.RvMemProofs Rv.RvFrame Rv.RvFrameSpec Rv.RvFrameProofs Rv.RvFrameTop X86.X86Isa X86.X86Emit X86.X86Spec X86.X86Enc X86.X86EncTop X86.X86OpSpec X86.X86Op
  X86.X86Ins X86.X86Ins2 X86.X86Mov X86.X86Cond X86.X86Link X86.X86LinkSpec X86.X86LinkOps X86.X86LinkRun X86.X86Fetch X86.X86Frame X86.X86FrameSpec X86.X86FrameBase X86.X86FrameRun.
Import ListNotations.
Ltac Zify.zify_post_hook ::= idtac.
Open Scope Z_scope.

Lemma moves_app : forall w l1 l2, moves_code w (l1 ++ l2) = moves_code w l1 +++ moves_code w l2.
Proof. intros w l1 l2. induction l1 as [|p l1 IH]; [symmetry; apply cat_nil|]. cbn [app moves_code fold_right] in *. fold (moves_code w (l1 ++ l2)). rewrite IH. symmetry. apply cat_assoc. Qed.

(** ** Arguments of the function *)
Fixpoint amoves (w : bool) (l : list atype) (k n p : Z) : list (Z * Z) :=
  match l with
  | [] => []
  | AFloat _ :: l => amoves w l k n (p + 1)
  | ASaved _ :: l => (13 - k, arg_src w n p) :: amoves w l (k + 1) (n + 1) p
  | AScratch _ :: l => (if arg_src w n p =? 1 + n then [] else [(1 + n, arg_src w n p)]) ++ amoves w l k (n + 1) p
  end.
Lemma count_cons : forall P a l, count P (a :: l) = (if P a then 1 else 0) + count P l.
Proof. intros P a l. unfold count. cbn [filter]. destruct (P a); cbn [length]; lia. Qed.
Lemma count_pos : forall P l, 0 <= count P l. Proof. intros. unfold count. lia. Qed.
Lemma enter_args_moves : forall w l fuel k n p, Forall atype_ok l -> (length l <= fuel)%nat -> (w = true -> 0 <= n /\ floats_first l /\ (n <> 0 -> count is_float l = 0)) ->
  xenter_args w fuel (acodes l) k n p = moves_code w (amoves w l k n p).
Proof.
  intros w l. induction l as [|a l IH]; intros fuel k n p H F NF.
  - destruct fuel; reflexivity.
  - destruct fuel as [|fuel]; [cbn in F; lia|]. assert (HP := acodes_pos _ H). inversion H as [|? ? A H']; subst. cbn [length] in F. cbn [xenter_args]. destruct HP as (_ & ->).
    assert (R : 0 <= RvFrameSpec.acode a < 16) by (destruct a; cbn in *; lia). cbn [acodes]. destruct (args_land (RvFrameSpec.acode a) (acodes l) R) as (-> & -> & ->). unfold XR0, XS0.
    destruct a as [t|t|t]; cbn [atype_ok RvFrameSpec.acode] in A.
    + assert (T : t = 1 \/ t = 2 \/ t = 3) by lia. cbn [RvFrameSpec.acode amoves]. replace (Z.land t SLJIT_ARG_MASK <? SLJIT_ARG_TYPE_F64) with true by (destruct T as [->|[->| ->]]; reflexivity).
      replace (Z.land t SLJIT_ARG_TYPE_SCRATCH_REG =? 0) with true by (destruct T as [->|[->| ->]]; reflexivity). cbn [negb moves_code fold_right fst snd]. f_equal.
      apply IH; auto; try lia. intros E. specialize (NF E). cbn [floats_first] in NF. rewrite count_cons in NF. cbn [is_float] in NF. pose proof (count_pos is_float l).
      assert (count is_float l = 0) by lia. split; [lia|]. split; [destruct l as [|[]]; cbn [floats_first]; auto; rewrite count_cons in *; cbn [is_float] in *; pose proof (count_pos is_float l); lia|auto].
    + assert (T : t = 1 \/ t = 2 \/ t = 3) by lia. cbn [RvFrameSpec.acode amoves]. replace (Z.land (t + 8) SLJIT_ARG_MASK <? SLJIT_ARG_TYPE_F64) with true by (destruct T as [->|[->| ->]]; reflexivity).
      replace (Z.land (t + 8) SLJIT_ARG_TYPE_SCRATCH_REG =? 0) with false by (destruct T as [->|[->| ->]]; reflexivity). cbn [negb]. rewrite moves_app. f_equal.
      * destruct (_ =? _); [reflexivity|]. cbn [moves_code fold_right fst snd]. rewrite cat_nil_r. reflexivity.
      * apply IH; auto; try lia. intros E. specialize (NF E). cbn [floats_first] in NF. rewrite count_cons in NF. cbn [is_float] in NF. pose proof (count_pos is_float l).
      assert (count is_float l = 0) by lia. split; [lia|]. split; [destruct l as [|[]]; cbn [floats_first]; auto; rewrite count_cons in *; cbn [is_float] in *; pose proof (count_pos is_float l); lia|auto].
    + assert (T : t = 4 \/ t = 5) by lia. cbn [RvFrameSpec.acode amoves]. replace (Z.land t SLJIT_ARG_MASK <? SLJIT_ARG_TYPE_F64) with false by (destruct T as [->| ->]; reflexivity).
      replace (w && negb (n =? 0)) with false.
      2:{ destruct w; [|reflexivity]. specialize (NF eq_refl). rewrite count_cons in NF. cbn [is_float] in NF. pose proof (count_pos is_float l). destruct (Z.eqb_spec n 0); [reflexivity|lia]. }
      apply IH; auto; try lia. intros E. specialize (NF E). cbn [floats_first] in NF. rewrite count_cons in NF. cbn [is_float] in NF. pose proof (count_pos is_float l). split; [lia|]. split; [tauto|]. intros. lia.
Qed.
Ltac shapes l := destruct l as [|[?|?|?] [|[?|?|?] [|[?|?|?] [|[?|?|?] [|? ?]]]]].
Definition arg_moves_good (w : bool) (l : list atype) : Prop :=
  Forall move_ok (amoves w l 0 0 0) /\
  (forall s s1, (forall i, 1 <= i <= 16 -> xr s1 (reg_map w i) = xr s (reg_map w (mfind (amoves w l 0 0 0) i))) ->
     xargs_in w (xr s) s1 l 0 0 0 /\
     (forall i, words l < i <= 14 - count is_saved l - 1 \/ i = 14 -> xr s1 (reg_map w i) = xr s (reg_map w i))).
Lemma arg_moves_ok : forall w l, (length l <= 4)%nat -> (w = true -> floats_first l) -> arg_moves_good w l.
Proof.
  intros w l L FF.
  shapes l; cbn [length] in L; try (exfalso; lia); destruct w;
    try (exfalso; specialize (FF eq_refl); cbn in FF; discriminate);
    (unfold arg_moves_good; match goal with |- context [amoves ?w ?l 0 0 0] => let x := eval vm_compute in (amoves w l 0 0 0) in change (amoves w l 0 0 0) with x end;
    split; [repeat (apply Forall_cons || apply Forall_nil); unfold move_ok; cbn [fst snd]; lia|]; intros s s1 H; split;
      [cbn [xargs_in]; repeat split; (etransitivity; [apply H; cbn; lia|reflexivity])
      |unfold words; rewrite ?count_cons; cbn [is_float is_saved negb]; change (count is_saved []) with 0; change (count (fun a => negb (is_float a)) []) with 0;
       intros i I; rewrite H by lia; f_equal; f_equal; 
       let J := fresh in assert (J : In i [1;2;3;4;5;6;7;8;9;10;11;12;13;14]) by (cbn [In]; lia);
       cbn [In] in J; decompose [or] J; clear J; try contradiction; subst i; try (exfalso; lia); reflexivity]).
Qed.
