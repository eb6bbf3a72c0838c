(** ARM64: what saving and restoring does to memory and registers. *)
Require Import ZArith List Bool Lia Zify ZifyBool Permutation FinFun.
From Verif Require Import Rv.RvLib Rv.RvBits Imm.ImmLib Imm.MsProofs Imm.PpProofs Arm.ArmIsa Arm.ArmBr Arm.ArmEnc Arm.ArmBits Arm.ArmImm Arm.ArmImmProofs Arm.ArmLogImm Arm.ArmLoadImm
  Arm.ArmJump Arm.ArmJumpSpec Arm.ArmJumpProofs Arm.ArmCondProofs Arm.ArmOp Arm.ArmOpSpec Arm.ArmOpDec Arm.ArmOpProofs Arm.ArmOpImm Arm.ArmOp1 Arm.ArmMem Arm.ArmMemSpec Arm.ArmMemProofs Arm.ArmPair Arm.ArmFrame Arm.ArmFrameSpec Arm.ArmFrameDec Arm.ArmFrameRun Arm.ArmMemOp2.
Import ListNotations.
Open Scope Z_scope.
Ltac Zify.zify_post_hook ::= idtac.

(** ** Places of memory *)
Definition away (A lo hi x : Z) : Prop := forall i, lo <= i < hi -> x <> (A + i) mod 2 ^ 64.
Definition same_out (A lo hi : Z) (s s' : fstate) : Prop := forall x, away A lo hi x -> mem s' x = mem s x.
Lemma mod_inj A i j : - 2 ^ 63 < i - j < 2 ^ 63 -> (A + i) mod 2 ^ 64 = (A + j) mod 2 ^ 64 -> i = j.
Proof. intros B E. Z.to_euclidean_division_equations; lia. Qed.
Lemma away_at A lo hi o : - 2 ^ 62 < lo -> hi < 2 ^ 62 -> - 2 ^ 62 < o < 2 ^ 62 -> o < lo \/ hi <= o -> away A lo hi ((A + o) mod 2 ^ 64).
Proof. intros L H O D i I E. apply mod_inj in E; lia. Qed.
Lemma same_out_refl A lo hi s : same_out A lo hi s s.
Proof. intros x X. reflexivity. Qed.
Lemma same_out_trans A lo hi s s1 s2 : same_out A lo hi s s1 -> same_out A lo hi s1 s2 -> same_out A lo hi s s2.
Proof. intros H1 H2 x X. rewrite H2, H1 by exact X. reflexivity. Qed.
Lemma same_out_mono A lo hi lo' hi' s s' : lo' <= lo -> hi <= hi' -> same_out A lo hi s s' -> same_out A lo' hi' s s'.
Proof. intros L H S x X. apply S. intros i I. apply X. lia. Qed.
Lemma value_ext m m' a n : (forall i, 0 <= i < Z.of_nat n -> m ((a + i) mod 2 ^ 64) = m' ((a + i) mod 2 ^ 64)) -> value m a n = value m' a n.
Proof. induction n as [|n IH]; intros H; [reflexivity|]. cbn [value]. rewrite IH by (intros; apply H; lia). rewrite H by lia. reflexivity. Qed.
Lemma ld8_ext s s' a b : a mod 2 ^ 64 = b mod 2 ^ 64 -> (forall i, 0 <= i < 8 -> mem s' ((b + i) mod 2 ^ 64) = mem s ((b + i) mod 2 ^ 64)) -> ld8 s' a = ld8 s b.
Proof. intros E H. rewrite (ld_cong s' a b E). unfold ld8. rewrite !le_value. apply value_ext. intros i I. apply H. lia. Qed.
Lemma ld8_out A lo hi s s' o : - 2 ^ 61 < lo -> hi < 2 ^ 61 -> - 2 ^ 61 < o < 2 ^ 61 -> o + 8 <= lo \/ hi <= o -> same_out A lo hi s s' -> ld8 s' (A + o) = ld8 s (A + o).
Proof. intros L H O D S. apply ld8_ext; [reflexivity|]. intros i I. rewrite <- Z.add_assoc. apply S. apply away_at; lia. Qed.
Lemma value_of_bytes m a v n : (forall i, 0 <= i < Z.of_nat n -> m ((a + i) mod 2 ^ 64) = byte v i) -> value m a n = v mod 2 ^ (8 * Z.of_nat n).
Proof.
  induction n as [|n IH]; intros H; cbn [value]; [cbn; rewrite Z.mod_1_r; reflexivity|]. rewrite IH by (intros; apply H; lia). rewrite H by lia. unfold byte.
  replace (8 * Z.of_nat (S n)) with (8 * Z.of_nat n + 8) by lia. rewrite Z.pow_add_r by lia. assert (P : 0 < 2 ^ (8 * Z.of_nat n)) by (apply pow_pos; lia).
  rewrite (Z.rem_mul_r v (2 ^ (8 * Z.of_nat n)) (2 ^ 8)) by lia. change (2 ^ 8) with 256. ring.
Qed.
Lemma ld8_st8 s a v : 0 <= v < 2 ^ 64 -> ld8 (st8 s a v) a = v.
Proof.
  intros V. unfold ld8, st8. cbn [gs mm wMem]. rewrite le_value. destruct (st_stored 8 (mm (gs s)) a v ltac:(lia)) as (B & _).
  rewrite (value_of_bytes _ a v 8 B). apply Z.mod_small. exact V.
Qed.
Lemma st8_out s A o v : same_out A o (o + 8) s (st8 s (A + o) v).
Proof.
  intros x X. unfold mem, st8. cbn [gs mm wMem]. destruct (st_stored 8 (mm (gs s)) (A + o) v ltac:(lia)) as (_ & B). apply B. intros i I. rewrite <- Z.add_assoc. apply X. lia.
Qed.
Lemma st8_bytes s a v : byte_mem (mem s) -> byte_mem (mem (st8 s a v)).
Proof.
  unfold mem, st8. cbn [gs mm wMem]. assert (F : forall n m a v, byte_mem m -> byte_mem (st_bytes n m a v)).
  { induction n as [|n IH]; intros m b w H; [exact H|]. cbn [st_bytes]. apply IH. intros x. unfold upd. destruct (x =? wrap b); [apply Z.mod_pos_bound; lia|apply H]. }
  apply F.
Qed.
Lemma ld8_b s a : byte_mem (mem s) -> 0 <= ld8 s a < 2 ^ 64.
Proof. intros B. unfold ld8. rewrite le_value. apply (value_b _ a 8 B). Qed.

(** ** Saving *)
Definition regs_eq (s s' : fstate) : Prop := (forall k, gr s' k = gr s k) /\ vd s' = vd s.
Lemma reg_eq s s' v k : regs_eq s s' -> reg s' v k = reg s v k.
Proof. intros (G & V). destruct v; cbn [reg]; [rewrite V; reflexivity|]. unfold rX. destruct (k =? 31); [reflexivity|apply G]. Qed.
Lemma reg_b s v k : wf s -> 0 <= reg s v k < 2 ^ 64.
Proof. intros (G & V & _). destruct v; cbn [reg]; [apply V|]. unfold rX. destruct (k =? 31); [lia|apply G]. Qed.
Lemma wf_mem s s' : regs_eq s s' -> wf s -> byte_mem (mem s') -> wf s'.
Proof. intros (G & V) (A & B & C) M. split; [intros k; rewrite G; apply A|]. split; [rewrite V; exact B|exact M]. Qed.
Lemma put_ok A s v r o : wf s -> let s' := put A s (v, r, o) in regs_eq s s' /\ wf s' /\ ld8 s' (A + o) = reg s v (num v r) /\ same_out A o (o + 8) s s'.
Proof.
  intros W. cbv zeta. cbn [put]. assert (R : regs_eq s (st8 s (A + o) (reg s v (num v r)))) by (split; reflexivity). split; [exact R|]. split; [apply (wf_mem s); [exact R|exact W|apply st8_bytes; exact (proj2 (proj2 W))]|].
  split; [apply ld8_st8; apply reg_b; exact W|apply st8_out].
Qed.
Lemma regs_trans s s1 s2 : regs_eq s s1 -> regs_eq s1 s2 -> regs_eq s s2.
Proof. intros (A & B) (A' & B'). split; [intros k; rewrite A', A; reflexivity|congruence]. Qed.
Lemma puts_ok A lo sl : - 2 ^ 60 < lo -> forall s, wf s -> Forall (within lo 0) sl -> ForallOrdPairs apart sl -> let s' := fold_left (put A) sl s in
  regs_eq s s' /\ wf s' /\ (forall v r o, In (v, r, o) sl -> ld8 s' (A + o) = reg s v (num v r)) /\ same_out A lo 0 s s' /\
  (forall o, - 2 ^ 60 < o < 2 ^ 60 -> Forall (fun x => apart x (true, 0, o)) sl -> ld8 s' (A + o) = ld8 s (A + o)).
Proof.
  intros LO. induction sl as [|[[v r] o] sl IH]; intros s W WI AP; cbv zeta; cbn [fold_left].
  - split; [split; reflexivity|]. split; [exact W|]. split; [intros ? ? ? []|]. split; [intros x X; reflexivity|reflexivity].
  - inversion WI as [|? ? W1 W2]; subst. inversion AP as [|? ? A1 A2]; subst. destruct (put_ok A s v r o W) as (R & W' & L & S). set (s1 := put A s (v, r, o)) in *.
    destruct (IH s1 W' W2 A2) as (R2 & W3 & L2 & S2 & K2). unfold within in W1. cbn [snd] in W1. split; [exact (regs_trans _ _ _ R R2)|]. split; [exact W3|]. split; [|split].
    + intros v' r' o' [E | I].
      * injection E as <- <- <-. rewrite K2; [exact L|lia|]. eapply Forall_impl; [|exact A1]. intros [[a b] d]. unfold apart. cbn. lia.
      * rewrite (L2 v' r' o' I). apply reg_eq. exact R.
    + apply (same_out_trans _ _ _ _ s1); [|exact S2]. apply (same_out_mono A o (o + 8)); [lia|lia|exact S].
    + intros o' O' F. inversion F as [|? ? F1 F2]; subst. rewrite (K2 o' O' F2). apply (ld8_out A o (o + 8)); try lia; [|exact S]. unfold apart in F1. cbn in F1. lia.
Qed.

(** ** Restoring *)
Definition key (x : slot) : bool * Z := let '(v, r, o) := x in (v, num v r).
Lemma get_ok A s v r o : num v r <> 31 \/ v = true -> wf s -> let s' := get A s (v, r, o) in
  mem s' = mem s /\ wf s' /\ reg s' v (num v r) = ld8 s (A + o) /\ sp s' = sp s /\ (forall v' k, (v', k) <> (v, num v r) -> reg s' v' k = reg s v' k).
Proof.
  intros N W. cbv zeta. cbn [get]. pose proof (ld8_b s (A + o) (proj2 (proj2 W))) as LB. set (w := ld8 s (A + o)) in *. destruct v; cbn [wreg num] in *.
  - split; [reflexivity|]. split; [destruct W as (WA & WB & WC); split; [exact WA|split; [|exact WC]]; intros k; cbn [wV vd]; unfold upd; destruct (k =? freg_map r); [exact LB|apply WB]|].
    split; [cbn [reg wV vd]; unfold upd; rewrite Z.eqb_refl; reflexivity|]. split; [reflexivity|]. intros [|] k D; cbn [reg wV vd gs]; [|reflexivity]. unfold upd. destruct (k =? freg_map r) eqn:E; [|reflexivity]. exfalso. apply D. f_equal. lia.
  - assert (N1 : reg_map r <> 31) by (destruct N as [N | N]; [exact N|discriminate N]). split; [unfold mem, wG; cbn [gs]; apply mm_wX|].
    split; [destruct W as (WA & WB & WC); split; [|split; [exact WB|intros a; unfold mem, wG; cbn [gs]; rewrite mm_wX; apply WC]]; intros k; unfold gr, wG; cbn [gs]; destruct (Z.eq_dec k (reg_map r)) as [-> | D]; [rewrite xr_wX_eq by exact N1; exact LB|rewrite xr_wX_ne by exact D; apply WA]|].
    split; [cbn [reg wG gs]; apply rX_wX_eq; exact N1|]. split; [apply sp_wG|]. intros [|] k D; cbn [reg wG vd gs]; [reflexivity|]. apply rX_wX_ne. intros ->. apply D. reflexivity.
Qed.
Lemma ld8_mem s s' a : mem s' = mem s -> ld8 s' a = ld8 s a.
Proof. unfold mem, ld8. intros ->. reflexivity. Qed.
Lemma gets_ok A sl : forall s, wf s -> Forall (fun x => snd (key x) <> 31 \/ fst (key x) = true) sl -> NoDup (map key sl) -> let s' := fold_left (get A) sl s in
  mem s' = mem s /\ wf s' /\ (forall v r o, In (v, r, o) sl -> reg s' v (num v r) = ld8 s (A + o)) /\ sp s' = sp s /\ (forall v k, ~ In (v, k) (map key sl) -> reg s' v k = reg s v k).
Proof.
  induction sl as [|[[v r] o] sl IH]; intros s W NF ND; cbv zeta; cbn [fold_left map].
  - split; [reflexivity|]. split; [exact W|]. split; [intros ? ? ? []|]. split; reflexivity.
  - inversion NF as [|? ? F1 F2]; subst. inversion ND as [|? ? D1 D2]; subst. destruct (get_ok A s v r o F1 W) as (M & W' & L & S & K). set (s1 := get A s (v, r, o)) in *.
    destruct (IH s1 W' F2 D2) as (M2 & W2 & L2 & S2 & K2). split; [congruence|]. split; [exact W2|]. split; [|split; [congruence|]].
    + intros v' r' o' [E | I].
      * injection E as <- <- <-. rewrite K2; [exact L|exact D1].
      * rewrite (L2 v' r' o' I). apply ld8_mem. exact M.
    + intros v' k D. rewrite K2 by (intros I; apply D; right; exact I). apply K. intros E. apply D. left. symmetry. exact E.
Qed.
