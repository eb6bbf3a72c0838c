(** sljit_emit_op0. *)
Require Import ZArith List Bool Lia Zify ZifyBool.
From Verif Require Import Rv.RvLib Rv.RvBits Rv.RvIsa Rv.RvEnc Rv.RvImm Rv.RvRun Rv.RvImmProofs Rv.RvCtl Rv.RvWf Rv.RvMem Rv.RvRunMem Rv.RvOp Rv.RvLir Rv.RvCanon Rv.RvOpLib Rv.RvSx Rv.RvMemProofs Rv.RvEmitOp Rv.RvCond Rv.RvCondSpec.
Import ListNotations.
Open Scope Z_scope.
Ltac Zify.zify_post_hook ::= idtac.

Lemma sext_zero f y : (sext (nbits f) y =? 0) = (y mod 2 ^ nbits f =? 0).
Proof.
  destruct (y mod 2 ^ nbits f =? 0) eqn:E.
  - apply Z.eqb_eq. apply Z.eqb_eq in E. rewrite <- (sext_canon f y), <- canon_of_mod, E, canon_0. destruct f; reflexivity.
  - apply Z.eqb_neq. intros H. apply Z.eqb_neq in E. apply E. replace (y mod 2 ^ nbits f) with (0 mod 2 ^ nbits f) by (apply sext_inj; rewrite H; destruct f; reflexivity). apply Z.mod_0_l. pose proof (nb_pos f). lia.
Qed.

Section D.
Variables (f : bool) (s : mst) (P : mst -> Prop) (d a b : Z).
Hypothesis (Hd : vreg d) (Ha : vreg a) (Hb : vreg b) (W : wf s).
Let x := rd s a.
Let y := rd s b.
Lemma x_DIVU : y mod 2 ^ nbits f <> 0 -> P (wr s d (canon (nbits f) (x mod 2 ^ nbits f / (y mod 2 ^ nbits f)))) -> ok (E32 (DIVU .| (if f then 8 else 0) .| RD d .| RS1 a .| RS2 b)) s P.
Proof.
  intros N H. destruct f; cbn [nbits] in *.
  - apply (x_RW _ _ (DIVU .| 8) Divuw); auto. unfold aluw. cbv zeta. fold x y. unfold zext. replace (y mod 2 ^ 32 =? 0) with false by lia. exact H.
  - apply (x_R _ _ DIVU Divu); auto. unfold alu. fold x y. assert (isw x /\ isw y) as (Ix & Iy) by (split; apply W). unfold isw in *.
    rewrite (Z.mod_small x), (Z.mod_small y) in * by lia. replace (y =? 0) with false by lia. rewrite canon64, wrap_small in H; auto.
    unfold isw. split; [apply Z.div_pos; lia|]. apply Z.div_lt_upper_bound; nia.
Qed.
Lemma x_REMU : y mod 2 ^ nbits f <> 0 -> P (wr s d (canon (nbits f) ((x mod 2 ^ nbits f) mod (y mod 2 ^ nbits f)))) -> ok (E32 (REMU .| (if f then 8 else 0) .| RD d .| RS1 a .| RS2 b)) s P.
Proof.
  intros N H. destruct f; cbn [nbits] in *.
  - apply (x_RW _ _ (REMU .| 8) Remuw); auto. unfold aluw. cbv zeta. fold x y. unfold zext. replace (y mod 2 ^ 32 =? 0) with false by lia. exact H.
  - apply (x_R _ _ REMU Remu); auto. unfold alu. fold x y. assert (isw x /\ isw y) as (Ix & Iy) by (split; apply W). unfold isw in *.
    rewrite (Z.mod_small x (2 ^ 64)), (Z.mod_small y) in * by lia. replace (y =? 0) with false by lia. rewrite canon64, wrap_small in H; auto.
    unfold isw. pose proof (Z.mod_pos_bound x y ltac:(lia)). lia.
Qed.
Lemma x_DIV : sext (nbits f) y <> 0 -> P (wr s d (canon (nbits f) (Z.quot (sext (nbits f) x) (sext (nbits f) y)))) -> ok (E32 (DIV .| (if f then 8 else 0) .| RD d .| RS1 a .| RS2 b)) s P.
Proof.
  intros N H. pose proof (sext_zero f y) as Z0. destruct f; cbn [nbits] in *.
  - apply (x_RW _ _ (DIV .| 8) Divw); auto. unfold aluw. cbv zeta. fold x y. unfold zext. replace (y mod 2 ^ 32 =? 0) with false by lia. exact H.
  - apply (x_R _ _ DIV Div); auto. unfold alu. fold x y. assert (isw y) as Iy by apply W. unfold isw in *.
    rewrite (Z.mod_small y) in * by lia. replace (y =? 0) with false by lia. rewrite canon64 in H. exact H.
Qed.
Lemma x_REM : sext (nbits f) y <> 0 -> P (wr s d (canon (nbits f) (Z.rem (sext (nbits f) x) (sext (nbits f) y)))) -> ok (E32 (REM .| (if f then 8 else 0) .| RD d .| RS1 a .| RS2 b)) s P.
Proof.
  intros N H. pose proof (sext_zero f y) as Z0. destruct f; cbn [nbits] in *.
  - apply (x_RW _ _ (REM .| 8) Remw); auto. unfold aluw. cbv zeta. fold x y. unfold zext. replace (y mod 2 ^ 32 =? 0) with false by lia. exact H.
  - apply (x_R _ _ REM Rem); auto. unfold alu. fold x y. assert (isw y) as Iy by apply W. unfold isw in *.
    rewrite (Z.mod_small y) in * by lia. replace (y =? 0) with false by lia. rewrite canon64 in H. exact H.
Qed.
End D.

Lemma x_copy r s (P : mst -> Prop) : vreg r -> wf s -> P (wr s 25 (rd s r)) -> ok (E32 (ADDI .| RD TMP_REG1 .| RS1 r .| IMM_I 0)) s P.
Proof. intros. unfold TMP_REG1. apply (x_I _ _ ADDI Addi); try vl; auto. cbn [alui]. change (sext 12 0) with 0. rewrite Z.add_0_r, wrap_small; auto. apply H0. Qed.
Lemma smul_low x y : (sgn x * sgn y) mod 2 ^ 64 = wrap (x * y).
Proof.
  unfold sgn. destruct (sext_mod 64 x ltac:(lia)) as (k & Kx). destruct (sext_mod 64 y ltac:(lia)) as (l & Ky). fold (wrap (sext 64 x * sext 64 y)).
  set (p := sext 64 x) in *. set (q := sext 64 y) in *. clearbody p q. subst x y. unfold wrap. replace ((p + k * 2 ^ 64) * (q + l * 2 ^ 64)) with (p * q + (p * l + k * q + k * l * 2 ^ 64) * 2 ^ 64) by ring.
  rewrite Z.mod_add by lia. reflexivity.
Qed.
Ltac kw := repeat (apply keeps_wr; [vl|cbn; tauto|]); apply keeps_refl.

Lemma op0_ok c k is32 s x' y' : wf s -> res0 k (nbits is32) (rd s 1) (rd s 2) = Some (x', y') ->
  ok (emit_op0 c k is32) s (fun s' => rd s' 1 = x' /\ rd s' 2 = y' /\ keeps s s' [1; 2; 25]).
Proof.
  intros W R.
  assert (I1 : isw (rd s 1)) by apply W. assert (I2 : isw (rd s 2)) by apply W.
  assert (W1 : forall q r, vreg q -> q <> 0 -> isw (rd s r) -> wf (wr s q (rd s r))) by (intros; apply wf_wr; auto; vl).
  pose proof (sext_zero is32 (rd s 2)) as Z0.
  destruct k; unfold res0, emit_op0, SLJIT_R0, SLJIT_R1 in *; cbv zeta in *.
  - injection R as <- <-. assert (ok (if cC c then E16 C_NOP else E32 NOP) s (fun s' => s' = s)).
    { destruct (cC c); apply ok_run with s; auto; unfold flat, run; cbn; unfold setr; destruct s; cbn; auto. }
    eapply ok_mono; [exact H|]. intros s' ->. split; [reflexivity|]. split; [reflexivity|apply keeps_refl].
  - injection R as <- <-. apply ok_then. apply x_copy; auto; try vl. apply ok_then. apply (x_R _ _ MULHU Mulhu); try vl; auto. unfold TMP_REG1. apply (x_R _ _ MUL Mul); try vl; auto. cbn [alu]. rdw. split; [reflexivity|]. split; [reflexivity|kw].
  - injection R as <- <-. apply ok_then. apply x_copy; auto; try vl. apply ok_then. apply (x_R _ _ MULH Mulh); try vl; auto. unfold TMP_REG1. apply (x_R _ _ MUL Mul); try vl; auto. cbn [alu]. rdw. split; [symmetry; apply smul_low|]. split; [reflexivity|kw].
  - destruct (rd s 2 mod 2 ^ nbits is32 =? 0) eqn:E; [discriminate|]. injection R as <- <-. apply ok_then. apply x_copy; auto; try vl. apply ok_then.
    apply x_DIVU; try vl; auto. { apply wf_wr; auto. } { rdw. lia. } rdw. unfold TMP_REG1. apply x_REMU; try vl. { repeat apply wf_wr; auto; apply canon_isw. } { rdw. lia. } rdw. split; [reflexivity|]. split; [reflexivity|kw].
  - destruct (_ || _) eqn:E in R; [discriminate|]. injection R as <- <-. apply ok_then. apply x_copy; auto; try vl. apply ok_then.
    apply x_DIV; try vl; auto. { apply wf_wr; auto. } { rdw. lia. } rdw. unfold TMP_REG1. apply x_REM; try vl. { repeat apply wf_wr; auto; apply canon_isw. } { rdw. lia. } rdw. split; [reflexivity|]. split; [reflexivity|kw].
  - destruct (rd s 2 mod 2 ^ nbits is32 =? 0) eqn:E; [discriminate|]. injection R as <- <-. apply x_DIVU; try vl; auto. rdw. split; [reflexivity|]. split; [reflexivity|kw].
  - destruct (_ || _) eqn:E in R; [discriminate|]. injection R as <- <-. apply x_DIV; try vl; auto. rdw. split; [reflexivity|]. split; [reflexivity|kw].
  - injection R as <- <-. apply ok_run with s; auto. split; [reflexivity|]. split; [reflexivity|apply keeps_refl].
  - injection R as <- <-. apply ok_nop. split; [reflexivity|]. split; [reflexivity|apply keeps_refl].
  - injection R as <- <-. apply ok_nop. split; [reflexivity|]. split; [reflexivity|apply keeps_refl].
Qed.

Lemma lmul_ok c (sg is32 : bool) s : wf s ->
  let v x := if sg then sgn x else x in
  ok (emit_op0 c (if sg then O_LMUL_SW else O_LMUL_UW) is32) s (fun s' => v (rd s' 2) * 2 ^ 64 + rd s' 1 = v (rd s 1) * v (rd s 2)).
Proof.
  intros W v. assert (I1 : isw (rd s 1)) by apply W. assert (I2 : isw (rd s 2)) by apply W.
  destruct sg.
  - eapply ok_mono; [apply op0_ok; auto; reflexivity|]. cbv beta. intros s' (A & B & _). rewrite A, B. unfold v.
    set (p := sgn (rd s 1) * sgn (rd s 2)).
    assert (Hp : - 2 ^ 63 <= p / 2 ^ 64 < 2 ^ 63).
    { pose proof (sext_range 64 (rd s 1) ltac:(lia)) as X. pose proof (sext_range 64 (rd s 2) ltac:(lia)) as Y. fold (sgn (rd s 1)) in X. fold (sgn (rd s 2)) in Y. change (64 - 1) with 63 in *.
      assert (- (2 ^ 63 * 2 ^ 63) <= p <= 2 ^ 63 * 2 ^ 63) by (unfold p; nia). split; [apply Z.div_le_lower_bound; lia|apply Z.div_lt_upper_bound; lia]. }
    assert (sgn ((p / 2 ^ 64) mod 2 ^ 64) = p / 2 ^ 64) as ->. { fold (wrap (p / 2 ^ 64)). apply sgn_wrap. exact Hp. }
    pose proof (Z.div_mod p (2 ^ 64) ltac:(lia)). lia.
  - eapply ok_mono; [apply op0_ok; auto; reflexivity|]. cbv beta. intros s' (A & B & _). rewrite A, B. unfold v.
    pose proof (Z.div_mod (rd s 1 * rd s 2) (2 ^ 64) ltac:(lia)). lia.
Qed.
Lemma divmod_ok c (sg is32 : bool) s : wf s ->
  let n := nbits is32 in
  let v x := if sg then sext n x else x mod 2 ^ n in
  let a := v (rd s 1) in let b := v (rd s 2) in
  b <> 0 -> ~ (sg = true /\ b = -1 /\ a = - 2 ^ (n - 1)) ->
  ok (emit_op0 c (if sg then O_DIVMOD_SW else O_DIVMOD_UW) is32) s (fun s' => let q := v (rd s' 1) in let r := v (rd s' 2) in
    a = q * b + r /\ Z.abs r < Z.abs b /\ (r = 0 \/ Z.sgn r = Z.sgn a)).
Proof.
  intros W n v a b N O. assert (Pn := nb_pos is32). fold n in Pn. destruct sg; cbv beta iota in *.
  - eapply ok_mono; [apply op0_ok; auto|].
    + unfold res0. fold n. change (sext n (rd s 1)) with a. change (sext n (rd s 2)) with b. cbv zeta. replace ((b =? 0) || (b =? -1) && (a =? - 2 ^ (n - 1))) with false; [reflexivity|].
      destruct (b =? 0) eqn:?; [lia|]. destruct (b =? -1) eqn:?; [|reflexivity]. destruct (a =? - 2 ^ (n - 1)) eqn:?; [|reflexivity]. exfalso. apply O. repeat split; lia.
    + cbv beta zeta. intros s' (A & B & _). unfold v. rewrite A, B. unfold n. rewrite !sext_canon. fold n.
      assert (Rn : 1 <= n <= 64) by (unfold n; destruct is32; cbn; lia).
      pose proof (sext_range n (rd s 1) ltac:(lia)) as Ra. pose proof (sext_range n (rd s 2) ltac:(lia)) as Rb. fold a in Ra. fold b in Rb.
      change (sext n (rd s 1)) with a in *. change (sext n (rd s 2)) with b in *.
      pose proof (Z.quot_rem' a b) as QR. pose proof (Z.rem_bound_abs a b N) as RB.
      assert (Sr : Z.rem a b = 0 \/ Z.sgn (Z.rem a b) = Z.sgn a). { destruct (Z.eq_dec (Z.rem a b) 0); auto. right. apply Z.rem_sign_nz; auto. }
      assert (Qr : - 2 ^ (n - 1) <= Z.quot a b < 2 ^ (n - 1)).
      { set (M := 2 ^ (n - 1)) in *. assert (0 < M) by (apply Z.pow_pos_nonneg; lia). 
        assert (Qa : Z.abs (Z.quot a b) <= Z.abs a). { rewrite <- Z.quot_abs by auto. apply Z.quot_le_upper_bound; nia. }
        assert (Qb : b <> 1 -> b <> -1 -> Z.abs (Z.quot a b) * 2 <= Z.abs a).
        { intros. rewrite <- Z.quot_abs by auto. assert (2 <= Z.abs b) by lia. pose proof (Z.mul_quot_le (Z.abs a) (Z.abs b) ltac:(lia) ltac:(lia)). pose proof (Z.quot_pos (Z.abs a) (Z.abs b) ltac:(lia) ltac:(lia)). nia. }
        clearbody a b M. destruct (Z.eq_dec b 1) as [->|]. { rewrite Z.quot_1_r. lia. }
        destruct (Z.eq_dec b (-1)) as [->|]. { replace (Z.quot a (-1)) with (- a) by (change (-1) with (- (1)); rewrite Z.quot_opp_r, Z.quot_1_r by lia; reflexivity). assert (a <> - M) by (intros Ha; apply O; auto). lia. }
        specialize (Qb ltac:(auto) ltac:(auto)). lia. }
      assert (Rr : - 2 ^ (n - 1) <= Z.rem a b < 2 ^ (n - 1)) by lia.
      rewrite !sext_small by lia. split; [lia|]. split; [lia|]. exact Sr.
  - eapply ok_mono; [apply op0_ok; auto|].
    + unfold res0. fold n. change (rd s 2 mod 2 ^ n) with b. change (rd s 1 mod 2 ^ n) with a. replace (b =? 0) with false by lia. reflexivity.
    + cbv beta zeta. intros s' (A & B & _). unfold v. rewrite A, B. unfold n. rewrite !canon_mod. fold n.
      assert (Ra : 0 <= a < 2 ^ n) by (apply Z.mod_pos_bound; auto). assert (Rb : 0 <= b < 2 ^ n) by (apply Z.mod_pos_bound; auto).
      pose proof (Z.div_mod a b N) as DM. pose proof (Z.mod_pos_bound a b ltac:(lia)) as MB. pose proof (Z.div_pos a b ltac:(lia) ltac:(lia)).
      assert (a / b <= a) by (apply Z.div_le_upper_bound; nia).
      rewrite !Z.mod_small by lia. split; [lia|]. split; [lia|].
      destruct (Z.eq_dec (a mod b) 0); auto. right. rewrite !Z.sgn_pos; lia.
Qed.
