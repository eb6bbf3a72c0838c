(** From code executed as a list of bytes (X86Isa.runs) to code executed in memory with an instruction pointer (X86LinkSpec.csteps). *)
Require Import ZArith List Bool Lia.
From Verif Require Import Rv.RvLib Rv.RvIsa X86.X86Isa X86.X86Emit X86.X86Spec X86.X86Cond X86.X86Link X86.X86LinkSpec.
Import ListNotations.
Ltac Zify.zify_post_hook ::= idtac.
Open Scope Z_scope.

(** ** Decoding looks at the bytes of the instruction only, at most 15 *)
Section Loc.
Context {A : Type}.
(** [f] consumes at most [k] bytes and does not look at the rest. *)
Definition Loc (k : nat) (f : list Z -> option (A * list Z)) : Prop :=
  forall l v l', f l = Some (v, l') -> exists p, l = p ++ l' /\ (length p <= k)%nat /\ forall t, f (p ++ t) = Some (v, t).
Lemma loc_ret : forall v, Loc 0 (fun l => Some (v, l)).
Proof. intros v l w l' H. injection H as -> ->. exists []. repeat split; cbn; lia. Qed.
Lemma loc_none : forall k, Loc k (fun _ => None).
Proof. intros k l v l' H. discriminate. Qed.
Lemma loc_mono : forall k k' f, Loc k f -> (k <= k')%nat -> Loc k' f.
Proof. intros k k' f H K l v l' E. destruct (H l v l' E) as (p & P1 & P2 & P3). exists p. repeat split; try assumption. lia. Qed.
End Loc.
Lemma loc_bind : forall (A B : Type) k k' (f : list Z -> option (A * list Z)) (g : A -> list Z -> option (B * list Z)), Loc k f -> (forall v, Loc k' (g v)) ->
  Loc (k + k') (fun l => match f l with Some (v, l) => g v l | None => None end).
Proof.
  intros A B k k' f g F G l v l' E. destruct (f l) as [[w l1]|] eqn:FE; [|discriminate]. destruct (F _ _ _ FE) as (p & -> & P2 & P3). destruct (G w _ _ _ E) as (q & -> & Q2 & Q3).
  exists (p ++ q). split; [apply app_assoc|]. split; [rewrite app_length; lia|]. intros t. rewrite <- app_assoc, P3. apply Q3.
Qed.
Lemma loc_if : forall (A : Type) k (b : bool) (f g : list Z -> option (A * list Z)), Loc k f -> Loc k g -> Loc k (fun l => if b then f l else g l).
Proof. intros A k b f g F G. destruct b; assumption. Qed.
Lemma loc_le : forall k, Loc k (le k).
Proof.
  induction k as [|k IH]; [exact (loc_ret 0)|]. intros l v l' E. cbn [le] in E. destruct l as [|b l]; [discriminate|]. destruct (le k l) as [[w l1]|] eqn:LE; [|discriminate]. injection E as <- <-.
  destruct (IH _ _ _ LE) as (p & -> & P2 & P3). exists (b :: p). split; [reflexivity|]. split; [cbn; lia|]. intros t. cbn [app le]. rewrite P3. reflexivity.
Qed.
Lemma loc_sle : forall k, Loc k (sle k).
Proof.
  intros k. unfold sle. change k with (k + 0)%nat at 1 || idtac. replace k with (k + 0)%nat at 1 by lia. apply loc_bind; [apply loc_le|]. intros v. apply loc_ret.
Qed.
Lemma loc_imm_of : forall n, Loc 4 (imm_of n).
Proof. intros n. unfold imm_of. destruct (n =? 16); [apply loc_mono with 2%nat; [apply loc_sle|lia]|apply loc_sle]. Qed.
Lemma loc_byte : forall (A : Type) k (f : Z -> list Z -> option (A * list Z)), (forall b, Loc k (f b)) -> Loc (S k) (fun l => match l with [] => None | b :: l => f b l end).
Proof.
  intros A k f F l v l' E. destruct l as [|b l]; [discriminate|]. destruct (F b _ _ _ E) as (p & -> & P2 & P3). exists (b :: p). split; [reflexivity|]. split; [cbn; lia|exact P3].
Qed.
Lemma loc_modrm : forall x, Loc 6 (modrm x).
Proof.
  intros x. unfold modrm. apply loc_byte. intros b. cbv zeta. apply loc_if; [apply loc_mono with 0%nat; [apply loc_ret|lia]|].
  assert (D : forall base index sc, Loc 4 (fun l => if b / 64 =? 0 then match base with Some _ => Some (ext (rR x) (b / 8 mod 8), OM (mkEA base index sc 0), l) | None => match sle 4 l with Some (d, l) => Some (ext (rR x) (b / 8 mod 8), OM (mkEA None index sc d), l) | None => None end end
     else match sle (if b / 64 =? 1 then 1%nat else 4%nat) l with Some (d, l) => Some (ext (rR x) (b / 8 mod 8), OM (mkEA base index sc d), l) | None => None end)).
  { intros base index sc. apply loc_if.
    - destruct base; [apply loc_mono with 0%nat; [apply loc_ret|lia]|]. apply loc_mono with (4 + 0)%nat; [|lia]. apply (loc_bind _ _ 4 0 (sle 4) (fun d l => Some (ext (rR x) (b / 8 mod 8), OM (mkEA None index sc d), l))); [apply loc_sle|]. intros v. apply loc_ret.
    - apply loc_mono with (4 + 0)%nat; [|lia]. apply (loc_bind _ _ 4 0 (sle _) (fun d l => Some (ext (rR x) (b / 8 mod 8), OM (mkEA base index sc d), l))); [destruct (b / 64 =? 1); [apply loc_mono with 1%nat; [apply loc_sle|lia]|apply loc_sle]|]. intros v. apply loc_ret. }
  apply loc_if; [|apply loc_if; [apply loc_none|apply loc_mono with 4%nat; [exact (D (Some (ext (rB x) (b mod 8))) None 0)|lia]]].
  apply (loc_byte _ 4). intros sb. exact (D _ _ _).
Qed.
Lemma loc_rm : forall (A : Type) k x (f : Z -> opd -> list Z -> option (A * list Z)), (forall r o, Loc k (f r o)) -> Loc (6 + k) (fun l => match modrm x l with Some (r, o, l) => f r o l | None => None end).
Proof.
  intros A k x f F. apply (loc_bind _ _ 6 k (modrm x) (fun v l => let (r, o) := v in f r o l)); [apply loc_modrm|]. intros [r o]. apply F.
Qed.
Ltac loc := lazymatch goal with
  | |- Loc _ (fun l => if ?b then _ else _) => apply loc_if; loc
  | |- Loc _ (fun l => Some (_, l)) => eapply loc_mono; [apply loc_ret|lia]
  | |- Loc _ (fun l => None) => apply loc_none
  | |- Loc _ (fun l => match modrm _ l with _ => _ end) => eapply loc_mono; [apply (loc_rm _ 4); intros; loc|lia]
  | |- Loc _ (fun l => match sle ?k l with _ => _ end) => eapply loc_mono; [eapply (loc_bind _ _ k 0 (sle k)); [apply loc_sle|intros; apply loc_ret]|lia]
  | |- Loc _ (fun l => match le ?k l with _ => _ end) => eapply loc_mono; [eapply (loc_bind _ _ k 0 (le k)); [apply loc_le|intros; apply loc_ret]|lia]
  | |- Loc _ (fun l => match imm_of ?n l with _ => _ end) => eapply loc_mono; [eapply (loc_bind _ _ 4 0 (imm_of n)); [apply loc_imm_of|intros; apply loc_ret]|lia]
  | |- Loc _ (fun l => match ?o with OM _ => _ | _ => _ end) => destruct o; loc
  | |- Loc _ (fun l => match ?o with Some _ => _ | None => _ end) => destruct o; loc
  | _ => idtac end.
Lemma loc_decode1 : forall p x op, Loc 10 (decode1 p x op).
Proof.
  intros p x op. unfold decode1. cbv zeta. destruct p; try apply loc_none; loc.
Qed.
Lemma loc_decode2 : forall p x op, Loc 10 (decode2 p x op).
Proof.
  intros p x op. unfold decode2. cbv zeta. destruct p; try apply loc_none; loc.
Qed.
Lemma get_pfx_cons : forall b, exists p, (forall t, get_pfx (b :: t) = (p, t)) \/ (p = PNone /\ forall t, get_pfx (b :: t) = (PNone, b :: t)).
Proof. intros b. unfold get_pfx. destruct (b =? 102); [exists P66; left; reflexivity|]. destruct (b =? 242); [exists PF2; left; reflexivity|]. destruct (b =? 243); [exists PF3; left; reflexivity|]. exists PNone. right. split; reflexivity. Qed.
Lemma get_rex_cons : forall b, exists x, (forall t, get_rex (b :: t) = (x, t)) \/ (forall t, get_rex (b :: t) = (x, b :: t)).
Proof. intros b. unfold get_rex. destruct (b / 16 =? 4); eexists; [left|right]; intros t; reflexivity. Qed.
Lemma loc_op : forall p x, Loc 12 (fun l => match l with [] => None | op :: l => if op =? 0x0f then match l with op :: l => decode2 p x op l | [] => None end else decode1 p x op l end).
Proof.
  intros p x. apply loc_byte. intros b. apply loc_if; [|apply loc_mono with 10%nat; [apply loc_decode1|lia]].
  apply loc_byte with (f := decode2 p x). intros c. apply loc_decode2.
Qed.
Lemma loc_rexop : forall p, Loc 13 (fun l => let (x, l) := get_rex l in match l with [] => None | op :: l => if op =? 0x0f then match l with op :: l => decode2 p x op l | [] => None end else decode1 p x op l end).
Proof.
  intros p l v l' E. destruct l as [|b l]; [discriminate|]. destruct (get_rex_cons b) as (x & [R|R]); rewrite R in E.
  - destruct (loc_op p x _ _ _ E) as (q & -> & Q2 & Q3). exists (b :: q). split; [reflexivity|]. split; [cbn; lia|]. intros t. cbn [app]. rewrite R. apply Q3.
  - destruct (loc_op p x (b :: l) v l' E) as (q & Q1 & Q2 & Q3). exists q. split; [exact Q1|]. split; [lia|]. destruct q as [|c q]; [specialize (Q3 []); discriminate|]. intros t. injection Q1 as -> _. cbn [app]. rewrite R. apply (Q3 t).
Qed.
Lemma loc_decode : Loc 14 decode.
Proof.
  intros l v l' E. unfold decode in E |- *. destruct l as [|b l]; [discriminate|]. destruct (get_pfx_cons b) as (p & [R|(-> & R)]); rewrite R in E.
  - destruct (loc_rexop p _ _ _ E) as (q & -> & Q2 & Q3). exists (b :: q). split; [reflexivity|]. split; [cbn; lia|]. intros t. cbn [app]. rewrite R. apply Q3.
  - destruct (loc_rexop PNone (b :: l) v l' E) as (q & Q1 & Q2 & Q3). exists q. split; [exact Q1|]. split; [lia|]. destruct q as [|c q]; [specialize (Q3 []); discriminate|]. intros t. injection Q1 as -> _. cbn [app]. rewrite R. apply (Q3 t).
Qed.
Lemma decode_pos : forall l i l', decode l = Some (i, l') -> (length l' < length l)%nat.
Proof.
  intros l i l' E. destruct (loc_decode _ _ _ E) as (p & -> & _ & P). destruct p as [|b p]; [specialize (P []); discriminate|]. rewrite app_length. cbn. lia.
Qed.

(** ** Control transfer instructions are not in X86Isa, except for the short conditional jump *)
Lemma ctl_none : forall l i l', decode l = Some (i, l') -> decode_ctl l = None \/ exists cc d, i = XJcc cc d /\ decode_ctl l = Some (CJcc cc d, l').
Proof.
  intros l i l' E. destruct l as [|b l]; [discriminate|].
  destruct (Z.eqb_spec (b / 16) 7) as [B7|B7].
  { right. assert (B : 112 <= b < 128) by (pose proof (Z.div_mod b 16 ltac:(lia)); pose proof (Z.mod_pos_bound b 16 ltac:(lia)); lia).
    assert (D : decode (b :: l) = match sle 1 l with Some (v, l) => Some (XJcc (b mod 16) v, l) | None => None end /\ decode_ctl (b :: l) = match sle 1 l with Some (v, l) => Some (CJcc (b mod 16) v, l) | None => None end).
    { clear E B7. assert (H : In b (map (fun n => 112 + Z.of_nat n) (seq 0 16))) by (apply in_map_iff; exists (Z.to_nat (b - 112)); split; [lia|apply in_seq; lia]). cbn [map seq] in H.
      repeat (destruct H as [<-|H]; [split; reflexivity|]). destruct H. }
    destruct D as [D1 D2]. rewrite D1 in E. rewrite D2. destruct (sle 1 l) as [[v l1]|]; [|discriminate]. injection E as <- <-. eauto. }
  left.
  destruct (Z.eqb_spec b 0xeb) as [->|N1]; [discriminate|]. destruct (Z.eqb_spec b 0xe9) as [->|N2]; [discriminate|]. destruct (Z.eqb_spec b 0xe8) as [->|N3]; [discriminate|].
  unfold decode_ctl. cbv zeta. apply Z.eqb_neq in B7, N1, N2, N3. rewrite B7, N1, N2, N3.
  destruct (Z.eqb_spec b 0x0f) as [->|N4].
  - destruct l as [|c l]; [reflexivity|]. destruct (Z.eqb_spec (c / 16) 8) as [C8|C8]; [|reflexivity]. exfalso.
    assert (B : 128 <= c < 144) by (pose proof (Z.div_mod c 16 ltac:(lia)); pose proof (Z.mod_pos_bound c 16 ltac:(lia)); lia).
    assert (H : In c (map (fun n => 128 + Z.of_nat n) (seq 0 16))) by (apply in_map_iff; exists (Z.to_nat (c - 128)); split; [lia|apply in_seq; lia]). cbn [map seq] in H. clear B C8.
    repeat (destruct H as [<-|H]; [discriminate|]). destruct H.
  - unfold decode in E. destruct (get_pfx_cons b) as (p & [R|(-> & R)]).
    + assert (X : get_rex (b :: l) = (mkRex false false false false false, b :: l) /\ (b =? 255) = false /\ (b =? 141) = false).
      { clear - R. unfold get_pfx in R. specialize (R []). destruct (Z.eqb_spec b 102) as [->|]; [repeat split|]. destruct (Z.eqb_spec b 242) as [->|]; [repeat split|]. destruct (Z.eqb_spec b 243) as [->|]; [repeat split|]. discriminate. }
      destruct X as (-> & X1 & X2). destruct l as [|m l]; [reflexivity|]. rewrite X1, X2. reflexivity.
    + rewrite R in E. destruct (get_rex (b :: l)) as [x l1]. destruct l1 as [|op l1]; [reflexivity|]. destruct l1 as [|m l2]; [reflexivity|].
      destruct (Z.eqb_spec op 255) as [->|O1]; [discriminate|]. cbn [andb]. destruct (Z.eqb_spec op 141) as [->|O2]; [|reflexivity]. cbn [andb].
      destruct (Z.eqb_spec (m / 64) 0) as [M0|M0]; [|reflexivity]. destruct (Z.eqb_spec (m mod 8) 5) as [M5|M5]; [|reflexivity]. exfalso.
      change (match modrm x (m :: l2) with Some (r, o, l) => match o with OM e => Some (XLea (osize PNone x) r e, l) | _ => None end | None => None end = Some (i, l')) in E.
      unfold modrm in E. rewrite M0, M5 in E. discriminate.
Qed.

(** ** Execution in memory *)
Lemma steps_len : forall u l s l' s', steps u l s l' s' -> (length l' <= length l)%nat.
Proof.
  intros u l s l' s' H. induction H as [|l s l1 s1 l2 s2 S _ IH]; [lia|]. assert (length l1 <= length l)%nat; [|lia]. unfold step in S. destruct (decode l) as [[i l3]|] eqn:D; [|discriminate]. apply decode_pos in D.
  assert (G : forall o, (match o with Some s => Some (l3, s) | None => None end) = Some (l1, s1) -> l1 = l3) by (intros [t|] H; congruence).
  destruct i; try (apply G in S; subst l1; lia). destruct (cond_val s cc) as [[]|]; [|injection S as <- _; lia|discriminate]. destruct ((0 <=? disp) && _); [|discriminate]. injection S as <- _. rewrite skipn_length. lia.
Qed.
Section Mem.
Variables (codef : Z -> Z) (u base : Z).
Definition memory (n : nat) : list Z := map (fun i => codef (wrap (base + Z.of_nat i))) (seq 0 n).
Lemma skipn_skipn : forall (A : Type) x y (l : list A), skipn x (skipn y l) = skipn (x + y) l.
Proof. intros A x y. induction y as [|y IH]; intros l; [rewrite Nat.add_0_r; reflexivity|]. destruct l as [|a l]; [rewrite !skipn_nil; reflexivity|]. rewrite Nat.add_succ_r. cbn [skipn]. apply IH. Qed.
Lemma map_seq_add : forall m a k, map (fun i => (k + i)%nat) (seq a m) = seq (k + a) m.
Proof. induction m as [|m IH]; intros a k; [reflexivity|]. cbn [seq map]. f_equal. rewrite IH. f_equal. lia. Qed.
Lemma memory_fetch : forall n k, (k + 15 <= n)%nat -> fetch codef (base + Z.of_nat k) = firstn 15 (skipn k (memory n)).
Proof.
  intros n k H. unfold fetch, memory. rewrite skipn_map, firstn_map. assert (E : firstn 15 (skipn k (seq 0 n)) = seq k 15).
  { replace n with (k + (15 + (n - k - 15)))%nat by lia. rewrite seq_app, skipn_app, seq_length, Nat.sub_diag, skipn_all2 by (rewrite seq_length; lia). cbn [app skipn]. rewrite seq_app, firstn_app, seq_length, Nat.sub_diag, firstn_all2 by (rewrite seq_length; lia). cbn [firstn]. apply app_nil_r. }
  rewrite E. replace (seq k 15) with (map (fun i => (k + i)%nat) (seq 0 15)).
  - rewrite map_map. apply map_ext. intros i. f_equal. f_equal. lia.
  - rewrite map_seq_add. f_equal. lia.
Qed.
Lemma memory_len : forall n, length (memory n) = n.
Proof. intros n. unfold memory. rewrite map_length, seq_length. reflexivity. Qed.
Lemma csteps_trans : forall pc s pc1 s1 pc2 s2, csteps codef u pc s pc1 s1 -> csteps codef u pc1 s1 pc2 s2 -> csteps codef u pc s pc2 s2.
Proof. intros pc s pc1 s1 pc2 s2 A. induction A; intros B; [exact B|]. eapply csteps_one; [eassumption|]. auto. Qed.
(** A step of the list is a step in memory. *)
Lemma step_mem : forall n k x s x1 s1, (k + 15 <= n)%nat -> x = skipn k (memory n) -> step u x s = Some (x1, s1) -> (15 <= length x1)%nat -> 0 <= base -> base + Z.of_nat n < 2 ^ 64 ->
  exists k1, x1 = skipn k1 (memory n) /\ (k1 + 15 <= n)%nat /\ cstep codef u (base + Z.of_nat k) s = Some (base + Z.of_nat k1, s1).
Proof.
  intros n k x s x1 s1 K X ST L1 B0 BN. unfold step in ST. destruct (decode x) as [[i x']|] eqn:D; [|discriminate].
  destruct (loc_decode _ _ _ D) as (p & XE & PL & PD).
  assert (F : fetch codef (base + Z.of_nat k) = p ++ firstn (15 - length p) x').
  { rewrite (memory_fetch n) by exact K. rewrite <- X, XE, firstn_app, firstn_all2 by lia. reflexivity. }
  set (t := firstn (15 - length p) x') in *. assert (D' : decode (p ++ t) = Some (i, t)) by apply PD.
  assert (LX : length x = (n - k)%nat) by (rewrite X, skipn_length, memory_len; reflexivity).
  assert (X' : x' = skipn (k + length p) (memory n)).
  { rewrite Nat.add_comm, <- skipn_skipn, <- X, XE, skipn_app, Nat.sub_diag, skipn_all2 by lia. reflexivity. }
  assert (LX' : (length p + length x' = n - k)%nat) by (rewrite <- LX, XE, app_length; reflexivity).
  assert (NX : wrap (base + Z.of_nat k + (zlen (p ++ t) - zlen t)) = base + Z.of_nat (k + length p)).
  { unfold zlen. rewrite app_length. replace (base + Z.of_nat k + (Z.of_nat (length p + length t) - Z.of_nat (length t))) with (base + Z.of_nat (k + length p)) by lia. apply Z.mod_small. lia. }
  unfold cstep. rewrite F. cbv zeta. destruct (ctl_none _ _ _ D') as [C|(cc & d & -> & C)]; rewrite C.
  - rewrite D', NX. destruct i; try (match type of ST with (match ?e with _ => _ end) = _ => destruct e as [s2|] eqn:EX; [|discriminate] end; injection ST as <- <-; exists (k + length p)%nat; split; [exact X'|]; split; [lia|reflexivity]).
    destruct (cond_val s cc) as [[]|] eqn:CV; [|injection ST as <- <-; exists (k + length p)%nat; split; [exact X'|]; split; [lia|reflexivity]|discriminate].
    destruct ((0 <=? disp) && (disp <=? Z.of_nat (length x'))) eqn:Q; [|discriminate]. apply andb_prop in Q as [Q1 Q2]. apply Z.leb_le in Q1, Q2. injection ST as <- <-. exists (k + length p + Z.to_nat disp)%nat.
    rewrite skipn_length in L1. split; [rewrite X', skipn_skipn; f_equal; lia|]. split; [lia|]. f_equal. f_equal. replace (base + Z.of_nat (k + length p) + disp) with (base + Z.of_nat (k + length p + Z.to_nat disp)) by lia. apply Z.mod_small. lia.
  - rewrite NX. destruct (cond_val s cc) as [[]|] eqn:CV; [|injection ST as <- <-; exists (k + length p)%nat; split; [exact X'|]; split; [lia|reflexivity]|discriminate].
    destruct ((0 <=? d) && (d <=? Z.of_nat (length x'))) eqn:Q; [|discriminate]. apply andb_prop in Q as [Q1 Q2]. apply Z.leb_le in Q1, Q2. injection ST as <- <-. exists (k + length p + Z.to_nat d)%nat.
    rewrite skipn_length in L1. split; [rewrite X', skipn_skipn; f_equal; lia|]. split; [lia|]. f_equal. f_equal. replace (base + Z.of_nat (k + length p) + d) with (base + Z.of_nat (k + length p + Z.to_nat d)) by lia. apply Z.mod_small. lia.
Qed.
Lemma steps_mem : forall n x s x1 s1, steps u x s x1 s1 -> forall k, (k + 15 <= n)%nat -> x = skipn k (memory n) -> (15 <= length x1)%nat -> 0 <= base -> base + Z.of_nat n < 2 ^ 64 ->
  exists k1, x1 = skipn k1 (memory n) /\ (k1 + 15 <= n)%nat /\ csteps codef u (base + Z.of_nat k) s (base + Z.of_nat k1) s1.
Proof.
  intros n x s x1 s1 H. induction H as [x s|x s x1 s1 x2 s2 ST A IH]; intros k K X L B0 BN.
  - exists k. split; [exact X|]. split; [exact K|apply csteps_refl].
  - pose proof (steps_len _ _ _ _ _ A) as LA. destruct (step_mem n k x s x1 s1 K X ST ltac:(lia) B0 BN) as (k1 & X1 & K1 & C). destruct (IH k1 K1 X1 L B0 BN) as (k2 & X2 & K2 & C2).
    exists k2. split; [exact X2|]. split; [exact K2|]. eapply csteps_one; eassumption.
Qed.
End Mem.
(** Code placed at [pos] and executed from there. *)
Lemma runs_csteps : forall code eo b codef u pos l s s', fetches code eo b codef -> bytes_at b pos l -> runs u l s s' -> 0 <= code + eo -> xpos code eo (pos + zlen l) + 15 < 2 ^ 64 ->
  csteps codef u (xpos code eo pos) s (xpos code eo (pos + zlen l)) s'.
Proof.
  intros code eo b codef u pos l s s' F (l1 & l2 & BE & LE) R C0 CT.
  assert (P : 0 <= pos) by (rewrite <- LE; unfold zlen; lia). unfold xpos, zlen in CT.
  set (base := xpos code eo pos). set (n := (length l + 15)%nat).
  assert (M : memory codef base n = l ++ skipn (length l) (memory codef base n)).
  { rewrite <- (firstn_skipn (length l) (memory codef base n)) at 1. f_equal. apply nth_ext with (d := 0) (d' := 0).
    - rewrite firstn_length, memory_len. unfold n. lia.
    - intros i Hi. rewrite firstn_length, memory_len in Hi. assert (I : (i < length l)%nat) by lia. unfold memory. rewrite firstn_map.
      rewrite nth_indep with (d' := codef (wrap (base + Z.of_nat 0))) by (rewrite map_length, firstn_length, seq_length; lia). rewrite (map_nth (fun i => codef (wrap (base + Z.of_nat i)))).
      replace (firstn (length l) (seq 0 n)) with (seq 0 (length l)) by (unfold n; rewrite seq_app, firstn_app, seq_length, Nat.sub_diag, firstn_all2 by (rewrite seq_length; lia); cbn [firstn]; rewrite app_nil_r; reflexivity).
      rewrite seq_nth by exact I. cbn [plus]. unfold base. replace (xpos code eo pos + Z.of_nat i) with (xpos code eo (pos + Z.of_nat i)) by (unfold xpos; lia).
      rewrite F by (rewrite BE; unfold zlen in *; rewrite !app_length; lia). rewrite BE. unfold zlen in LE. rewrite app_nth2 by lia. rewrite app_nth1 by lia. f_equal. lia. }
  set (rest := skipn (length l) (memory codef base n)) in *.
  assert (LR : length rest = 15%nat) by (unfold rest; rewrite skipn_length, memory_len; unfold n; lia).
  pose proof (R rest) as ST. rewrite <- M in ST.
  destruct (steps_mem codef u base n _ _ _ _ ST 0%nat) as (k1 & X1 & K1 & C); [unfold n; lia|reflexivity|lia|unfold base, xpos; lia|unfold base, n, xpos; lia|].
  assert (KE : k1 = length l). { apply (f_equal (@length Z)) in X1. rewrite LR, skipn_length, memory_len in X1. unfold n in *. lia. }
  subst k1. replace (base + Z.of_nat 0) with (xpos code eo pos) in C by (unfold base; lia). replace (base + Z.of_nat (length l)) with (xpos code eo (pos + zlen l)) in C by (unfold base, xpos, zlen; lia). exact C.
Qed.
