(** Correctness of the allocator's internal functions against the layout. *)
Require Import ZArith List Bool Lia Permutation.
From Verif Require Import Alloc.AllocModel Alloc.AllocLayout.
Import ListNotations.
Open Scope Z_scope.

Definition acc (cs : list (Z * Z)) (a : Z) : bool := (a mod 8 =? 0) && mapped cs a.

Lemma st_mk m cs f al t a v : acc cs a = true ->
  st_ (mkSt m cs f al t) a v = Some (mkSt (upd m a v) cs f al t).
Proof. intros H. unfold st_, acc_ok, acc in *. cbn [chunks mem free_blocks allocated total]. rewrite H. reflexivity. Qed.

Lemma ld_mk m cs f al t a : acc cs a = true -> ld (mkSt m cs f al t) a = Some (m a).
Proof. intros H. unfold ld, acc_ok, acc in *. cbn [chunks mem free_blocks allocated total]. rewrite H. reflexivity. Qed.

Lemma upd_same m a v : upd m a v a = v.
Proof. unfold upd. rewrite Z.eqb_refl. reflexivity. Qed.
Lemma upd_other m a v x : x <> a -> upd m a v x = m x.
Proof. intros H. unfold upd. destruct (Z.eqb_spec x a); congruence. Qed.

Lemma upd_eq m a v x : x = a -> upd m a v x = v.
Proof. intros ->. apply upd_same. Qed.

Ltac usimp := repeat first [ rewrite upd_same | rewrite upd_other by lia | rewrite upd_eq by lia ].

(** ** Doubly linked list *)

Fixpoint dseg (m : Z -> Z) (p c : Z) (l : list Z) (e : Z) : Prop :=
  match l with
  | [] => c = e
  | a :: l' => c = a /\ a <> 0 /\ m (a + 24) = p /\ dseg m a (m (a + 16)) l' e
  end.

Lemma last_def (l : list Z) d d' : l <> [] -> last l d = last l d'.
Proof. induction l as [|a l IH]; [easy|]. intros _. destruct l; auto. simpl. apply IH. easy. Qed.

Lemma dll_app m l1 l2 p c :
  dll m p c (l1 ++ l2) <-> exists e, dseg m p c l1 e /\ dll m (last l1 p) e l2.
Proof.
  revert p c; induction l1 as [|a l1 IH]; intros p c.
  - simpl. split; [eauto|]. intros (e&<-&H); auto.
  - simpl app. cbn [dll dseg]. rewrite IH. split.
    + intros (->&H0&H1&e&H2&H3). exists e; repeat split; auto.
      destruct l1; [exact H3|]. change (last (a :: z :: l1) p) with (last (z :: l1) p).
      rewrite (last_def (z :: l1) p a) by easy. exact H3.
    + intros (e&(->&H0&H1&H2)&H3). repeat split; auto. exists e; split; auto.
      destruct l1; [exact H3|]. rewrite (last_def (z :: l1) a p) by easy. exact H3.
Qed.

Lemma dseg_snoc m l a p c e :
  dseg m p c (l ++ [a]) e <-> dseg m p c l a /\ a <> 0 /\ m (a + 24) = last l p /\ m (a + 16) = e.
Proof.
  revert p c; induction l as [|b l IH]; intros p c.
  - simpl. intuition.
  - simpl app. cbn [dseg]. rewrite IH. destruct l as [|b' l].
    + simpl. tauto.
    + change (last (b :: b' :: l) p) with (last (b' :: l) p).
      rewrite (last_def (b' :: l) b p) by easy. tauto.
Qed.

Lemma dll_frame m m' l p c :
  (forall y, In y l -> m' (y + 16) = m (y + 16) /\ m' (y + 24) = m (y + 24)) ->
  dll m p c l -> dll m' p c l.
Proof.
  revert p c; induction l as [|a l IH]; intros p c H; simpl; auto.
  intros (->&H0&H1&H2). destruct (H a (or_introl eq_refl)) as [E1 E2].
  rewrite E1, E2. repeat split; auto. apply IH; auto. intros y Hy; apply H; right; auto.
Qed.

Lemma dseg_frame m m' l p c e :
  (forall y, In y l -> m' (y + 16) = m (y + 16) /\ m' (y + 24) = m (y + 24)) ->
  dseg m p c l e -> dseg m' p c l e.
Proof.
  revert p c; induction l as [|a l IH]; intros p c H; simpl; auto.
  intros (->&H0&H1&H2). destruct (H a (or_introl eq_refl)) as [E1 E2].
  rewrite E1, E2. repeat split; auto. apply IH; auto. intros y Hy; apply H; right; auto.
Qed.

(** The nodes of a list are accessible and do not overlap. *)
Definition nodes_ok (cs : list (Z * Z)) (l : list Z) : Prop :=
  NoDup l /\
  (forall y o, In y l -> In o [0; 8; 16; 24; 32] -> acc cs (y + o) = true) /\
  (forall y y', In y l -> In y' l -> y = y' \/ y + 64 <= y' \/ y' + 64 <= y).

Definition links_only (F : list Z) (m m' : Z -> Z) : Prop :=
  forall x, (forall y, In y F -> x <> y + 16 /\ x <> y + 24) -> m' x = m x.

Lemma dll_head_nonzero m l p c : dll m p c l -> (c = 0 <-> l = []).
Proof. destruct l; simpl; [easy|]. intros (->&H&_). split; [congruence|easy]. Qed.

Lemma remove_ok m cs f al t fl1 fb fl2 :
  nodes_ok cs (fl1 ++ fb :: fl2) -> dll m 0 f (fl1 ++ fb :: fl2) ->
  exists m' f', remove_free_block (mkSt m cs f al t) fb = Some (mkSt m' cs f' al t) /\
    links_only (fl1 ++ fb :: fl2) m m' /\ dll m' 0 f' (fl1 ++ fl2).
Proof.
  intros (ND&AC&SP) D.
  apply dll_app in D. destruct D as (e&D1&D2). cbn [dll] in D2. destruct D2 as (->&Hfb&Hpv&D2).
  assert (Ifb : In fb (fl1 ++ fb :: fl2)) by (apply in_or_app; right; left; auto).
  assert (A16 : acc cs (fb + 16) = true) by (apply AC; cbn; tauto).
  assert (A24 : acc cs (fb + 24) = true) by (apply AC; cbn; tauto).
  (* distances *)
  assert (NE : forall y, In y fl1 \/ In y fl2 -> y <> fb).
  { intros y Hy ->. apply NoDup_remove_2 in ND. apply ND. apply in_or_app; auto. }
  assert (FAR : forall y, In y fl1 \/ In y fl2 -> y + 64 <= fb \/ fb + 64 <= y).
  { intros y Hy. destruct (SP y fb) as [H|H]; auto.
    - apply in_or_app; simpl; tauto.
    - exfalso; eapply NE; eauto. }
  assert (FAR12 : forall y z, In y fl1 -> In z fl2 -> y + 64 <= z \/ z + 64 <= y).
  { intros y z Hy Hz. destruct (SP y z) as [H|H]; auto; try (apply in_or_app; simpl; tauto).
    exfalso. subst. apply NoDup_remove_1 in ND.
    clear -ND Hy Hz. induction fl1 as [|a k IH]; [easy|]. inversion ND; subst.
    destruct Hy as [->|Hy]; [apply H1; apply in_or_app; auto|auto]. }
  assert (FAR11 : forall y z, In y fl1 -> In z fl1 -> y = z \/ y + 64 <= z \/ z + 64 <= y).
  { intros; apply SP; apply in_or_app; auto. }
  assert (FAR22 : forall y z, In y fl2 -> In z fl2 -> y = z \/ y + 64 <= z \/ z + 64 <= y).
  { intros; apply SP; apply in_or_app; simpl; auto. }
  unfold remove_free_block, o_next, o_prev.
  rewrite ld_mk by auto. cbn [bind].
  (* first part: the next block *)
  set (pv := last fl1 0) in *.
  assert (P1 : exists m1,
     (if m (fb + 16) =? 0 then Some (mkSt m cs f al t)
      else pv <- ld (mkSt m cs f al t) (fb + 24);; st_ (mkSt m cs f al t) (m (fb + 16) + 24) pv)
       = Some (mkSt m1 cs f al t) /\
     links_only fl2 m m1 /\ dll m1 pv (m (fb + 16)) fl2 /\ (forall y, In y fl2 -> m1 (y + 16) = m (y + 16))).
  { destruct fl2 as [|nx fl2'].
    - cbn [dll] in D2. rewrite D2. cbn [Z.eqb]. exists m. unfold links_only. repeat split; auto.
    - cbn [dll] in D2. destruct D2 as (En&Hn&Hnp&D2). rewrite En.
      destruct (Z.eqb_spec nx 0); [congruence|].
      rewrite ld_mk by auto. cbn [bind].
      assert (Inx : In nx (fl1 ++ fb :: nx :: fl2')) by (apply in_or_app; simpl; auto).
      rewrite st_mk by (apply AC; cbn; tauto).
      eexists; split; [reflexivity|]. rewrite Hpv. repeat split.
      + intros x Hx. apply upd_other. apply (Hx nx). left; auto.
      + auto.
      + apply upd_same.
      + rewrite upd_other by lia.
        eapply dll_frame; [|exact D2]. intros y Hy. split; apply upd_other.
        * destruct (FAR22 y nx) as [H|H]; simpl; auto; lia.
        * intros E. assert (y = nx) by lia. subst.
          apply NoDup_remove_1 in ND. apply NoDup_remove_2 in ND. apply ND, in_or_app; auto.
      + intros y Hy. apply upd_other. destruct (FAR22 y nx) as [H|H]; simpl; auto; lia. }
  destruct P1 as (m1&P1&L1&D2'&K16). rewrite P1. cbn [bind].
  assert (Efb16 : m1 (fb + 16) = m (fb + 16)).
  { apply L1. intros y Hy. pose proof (FAR y (or_intror Hy)). lia. }
  assert (Efb24 : m1 (fb + 24) = m (fb + 24)).
  { apply L1. intros y Hy. pose proof (FAR y (or_intror Hy)). lia. }
  assert (D1' : dseg m1 0 f fl1 fb).
  { eapply dseg_frame; [|exact D1]. intros y Hy.
    split; apply L1; intros z Hz; pose proof (FAR12 y z Hy Hz); lia. }
  rewrite ld_mk by auto. cbn [bind]. rewrite Efb24, Hpv. cbn [free_blocks].
  destruct (Z.eqb_spec pv 0) as [Z0|NZ].
  - (* first in the list *)
    assert (fl1 = []).
    { destruct fl1 as [|a k] using rev_ind; auto. exfalso. unfold pv in Z0. rewrite last_last in Z0.
      apply dseg_snoc in D1. destruct D1 as (_&Ha&_). congruence. }
    subst fl1. cbn [dseg] in D1. subst f. rewrite Z.eqb_refl.
    rewrite ld_mk by auto. cbn [bind].
    exists m1, (m (fb + 16)). rewrite Efb16. repeat split.
    + intros x Hx. apply L1. intros y Hy. apply Hx. right; auto.
    + simpl app. unfold pv in D2'. simpl in D2'. exact D2'.
  - destruct fl1 as [|a k _] using rev_ind; [unfold pv in NZ; simpl in NZ; congruence|].
    unfold pv in *. rewrite last_last in *. clear NZ.
    rewrite ld_mk by auto. cbn [bind]. rewrite Efb16.
    assert (Ia : In a ((k ++ [a]) ++ fb :: fl2)) by (apply in_or_app; left; apply in_or_app; simpl; auto).
    rewrite st_mk by (apply AC; cbn; tauto).
    eexists _, f. split; [reflexivity|]. split.
    + intros x Hx. rewrite upd_other by (apply (Hx a); auto). apply L1.
      intros y Hy. apply Hx. apply in_or_app; simpl; auto.
    + apply dll_app. exists (m (fb + 16)). rewrite last_last. split.
      * apply dseg_snoc in D1'. destruct D1' as (S1&S2&S3&S4).
        apply dseg_snoc. repeat split; auto.
        -- eapply dseg_frame; [|exact S1]. intros y Hy. split; apply upd_other.
           ++ intros E. assert (y = a) by lia. subst.
              apply NoDup_remove_1 in ND. rewrite <- app_assoc in ND. simpl in ND.
              apply NoDup_remove_2 in ND. apply ND, in_or_app; auto.
           ++ destruct (FAR11 y a); try (apply in_or_app; simpl; auto); lia.
        -- rewrite upd_other by lia. auto.
        -- apply upd_same.
      * eapply dll_frame; [|exact D2']. intros y Hy.
        assert (In a (k ++ [a])) by (apply in_or_app; simpl; auto).
        pose proof (FAR12 a y H Hy). split; apply upd_other; lia.
Qed.

Lemma insert_ok m cs f al t fl fb size :
  nodes_ok cs (fb :: fl) -> fb <> 0 -> dll m 0 f fl ->
  exists m', insert_free_block (mkSt m cs f al t) fb size = Some (mkSt m' cs fb al t) /\
    links_only (fb :: fl) (upd (upd m (fb + 0) 0) (fb + 32) size) m' /\ dll m' 0 fb (fb :: fl).
Proof.
  intros (ND&AC&SP) Hfb D.
  unfold insert_free_block, o_size, o_fsize, o_next, o_prev.
  rewrite st_mk by (apply AC; cbn; tauto). cbn [bind].
  rewrite st_mk by (apply AC; cbn; tauto). cbn [bind free_blocks].
  rewrite st_mk by (apply AC; cbn; tauto). cbn [bind free_blocks].
  rewrite st_mk by (apply AC; cbn; tauto). cbn [bind free_blocks].
  assert (FAR : forall y, In y fl -> y + 64 <= fb \/ fb + 64 <= y).
  { intros y Hy. destruct (SP fb y) as [H|H]; simpl; auto; try lia.
    exfalso; subst. inversion ND; auto. }
  destruct fl as [|a fl].
  - cbn [dll] in D. subst f. unfold set_free_blocks. cbn [Z.eqb bind mem chunks allocated total].
    eexists; split; [reflexivity|]. split.
    + intros x Hx. destruct (Hx fb (or_introl eq_refl)).
      rewrite (upd_other _ (fb + 24)), (upd_other _ (fb + 16)) by auto. auto.
    + cbn [dll]. repeat split; usimp; auto.
  - cbn [dll] in D. destruct D as (->&Ha&Hap&D).
    destruct (Z.eqb_spec a 0); [congruence|].
    rewrite st_mk by (apply AC; cbn; tauto). unfold set_free_blocks. cbn [bind mem chunks allocated total].
    eexists; split; [reflexivity|]. split.
    + intros x Hx. destruct (Hx fb (or_introl eq_refl)).
      destruct (Hx a) as [_ H1]; [simpl; auto|].
      rewrite (upd_other _ (a + 24)), (upd_other _ (fb + 24)), (upd_other _ (fb + 16)) by auto. auto.
    + assert (Fa := FAR a (or_introl eq_refl)).
      cbn [dll]. repeat split; usimp; auto.
      eapply dll_frame; [|exact D]. intros y Hy.
      assert (Fy := FAR y (or_intror Hy)).
      assert (Fya : y + 64 <= a \/ a + 64 <= y).
      { destruct (SP y a) as [H|H]; simpl; auto. exfalso; subst.
        inversion ND; subst. inversion H2; auto. }
      split; usimp; auto.
Qed.

(** ** The search loop *)
Lemma find_free_ok m cs f al t size : forall fl p c fuel,
  (length fl < fuel)%nat -> dll m p c fl ->
  (forall y, In y fl -> acc cs (y + 16) = true /\ acc cs (y + 32) = true) ->
  exists r, find_free fuel (mkSt m cs f al t) c size = Some r /\
    match r with
    | Some fb => exists f1 f2, fl = f1 ++ fb :: f2 /\ size <= m (fb + 32)
    | None => forall y, In y fl -> m (y + 32) < size
    end.
Proof.
  induction fl as [|a fl IH]; intros p c fuel Hf D AC; destruct fuel as [|fuel]; try (simpl in Hf; lia).
  - cbn [dll] in D. subst. exists None. split; auto. intros y [].
  - cbn [dll] in D. destruct D as (->&Ha&Hp&D). cbn [find_free].
    destruct (Z.eqb_spec a 0); [congruence|].
    destruct (AC a (or_introl eq_refl)) as [A1 A2].
    unfold o_fsize, o_next. rewrite ld_mk by auto. cbn [bind].
    destruct (Z.leb_spec size (m (a + 32))).
    + exists (Some a). split; auto. exists [], fl. auto.
    + rewrite ld_mk by auto. cbn [bind].
      destruct (IH a (m (a + 16)) fuel) as (r&Hr&Hr'); auto.
      { simpl in Hf; lia. }
      { intros; apply AC; right; auto. }
      exists r. split; auto. destruct r as [fb|].
      * destruct Hr' as (f1&f2&->&Hs). exists (a :: f1), f2. auto.
      * intros y [<-|Hy]; auto.
Qed.
