(** ARM64: the words of the operators with two operands compute the result and the flags. *)
Require Import ZArith List Bool Lia Zify ZifyBool.
From Verif Require Import Rv.RvLib Rv.RvBits Imm.ImmLib Imm.MsProofs Imm.PpProofs Arm.ArmIsa Arm.ArmBr Arm.ArmEnc Arm.ArmBits Arm.ArmImm Arm.ArmImmProofs Arm.ArmLogImm Arm.ArmLoadImm
  Arm.ArmJump Arm.ArmJumpSpec Arm.ArmJumpProofs Arm.ArmCondProofs Arm.ArmOp Arm.ArmOpSpec Arm.ArmOpDec.
Import ListNotations.
Open Scope Z_scope.
Ltac Zify.zify_post_hook ::= idtac.

Lemma run1 w i s s' : decode w = Some i -> exec i s = Some s' -> run [w] s = Some s'.
Proof. intros D E. cbn [run]. rewrite D, E. reflexivity. Qed.
Lemma run2 w1 w2 s s1 s' : run [w1] s = Some s1 -> run [w2] s1 = Some s' -> run [w1; w2] s = Some s'.
Proof. intros A B. change [w1; w2] with ([w1] ++ [w2]). rewrite run_app, A. exact B. Qed.
Lemma run3 w1 w2 w3 s s1 s2 s' : run [w1] s = Some s1 -> run [w2] s1 = Some s2 -> run [w3] s2 = Some s' -> run [w1; w2; w3] s = Some s'.
Proof. intros A B C. change [w1; w2; w3] with ([w1] ++ [w2; w3]). rewrite run_app, A. apply (run2 w2 w3 s1 s2); assumption. Qed.
Lemma dsz_len w32 : dsz (negb w32) = len w32.
Proof. destruct w32; reflexivity. Qed.
Lemma len_cases w32 : len w32 = 32 \/ len w32 = 64.
Proof. destruct w32; auto. Qed.
Lemma len1 w32 : 1 <= len w32.
Proof. destruct w32; cbn; lia. Qed.
Lemma len_pow w32 : 2 ^ 32 <= 2 ^ len w32.
Proof. destruct w32; cbn; lia. Qed.

Definition rv (n : Z) (s : st) (r : Z) : Z := lo n (rX s (reg_map r)).
Lemma lo_b n x : 0 <= n -> 0 <= lo n x < 2 ^ n.
Proof. intros H. apply mod_b. exact H. Qed.
Lemma rv_b w32 s r : 0 <= rv (len w32) s r < 2 ^ len w32.
Proof. apply lo_b. destruct w32; cbn; lia. Qed.
Lemma lo_lo n x : 0 <= n -> lo n (lo n x) = lo n x.
Proof. intros H. apply Z.mod_mod. pose proof (pow_pos n H). lia. Qed.
Lemma lo_small n x : 0 <= x < 2 ^ n -> lo n x = x.
Proof. apply Z.mod_small. Qed.

Lemma sext_low_mod n x : 1 <= n -> sext n x mod 2 ^ n = x mod 2 ^ n.
Proof. intros H. destruct (sext_mod n x H) as (k & E). rewrite E at 2. rewrite Z_mod_plus_full. reflexivity. Qed.

(** ** States *)
Definition after (s : st) (d r : Z) (fl : option (bool * bool * bool * bool)) : st :=
  match fl with None => wX s d r | Some (n, z, c, v) => wFl (wX s d r) n z c v end.
Lemma xr_wX_eq s d r : d <> 31 -> xr (wX s d r) d = r.
Proof. intros H. unfold wX. replace (d =? 31) with false by lia. cbn. unfold upd. rewrite Z.eqb_refl. reflexivity. Qed.
Lemma xr_wX_ne s d r k : k <> d -> xr (wX s d r) k = xr s k.
Proof. intros H. unfold wX. destruct (d =? 31); [reflexivity|]. cbn. unfold upd. replace (k =? d) with false by lia. reflexivity. Qed.
Lemma rX_wX_eq s d r : d <> 31 -> rX (wX s d r) d = r.
Proof. intros H. unfold rX. replace (d =? 31) with false by lia. apply xr_wX_eq. exact H. Qed.
Lemma rX_wX_ne s d r k : k <> d -> rX (wX s d r) k = rX s k.
Proof. intros H. unfold rX. destruct (k =? 31); [reflexivity|]. apply xr_wX_ne. exact H. Qed.
Lemma mm_wX s d r : mm (wX s d r) = mm s.
Proof. unfold wX. destruct (d =? 31); reflexivity. Qed.
Lemma flags_wX s d r : same_flags s (wX s d r).
Proof. unfold wX, same_flags. destruct (d =? 31); cbn; auto. Qed.
Lemma cf_wX s d r : cf (wX s d r) = cf s.
Proof. apply flags_wX. Qed.
Lemma wSP_wX s d r : d <> 31 -> wSP s d r = wX s d r.
Proof. intros H. unfold wX. replace (d =? 31) with false by lia. reflexivity. Qed.
Lemma xr_after s d r fl k : xr (after s d r fl) k = xr (wX s d r) k.
Proof. destruct fl as [[[[a b] c] e]|]; reflexivity. Qed.
Lemma mm_after s d r fl : mm (after s d r fl) = mm s.
Proof. destruct fl as [[[[a b] c] e]|]; cbn; apply mm_wX. Qed.
Lemma flags_after s d r F : flags_are (after s d r (Some F)) F.
Proof. destruct F as [[[a b] c] e]. cbn. auto. Qed.

(** ** One instruction *)
Definition AB (add : bool) (n x y : Z) := if add then awc n x y false else awc n x (lo n (Z.lnot y)) true.
Definition fl_of (setf : bool) (p : Z * (bool * bool * bool * bool)) := if setf then Some (snd p) else None.
Lemma shreg0 n ty x : ty <> 3 -> 0 < n -> 0 <= x < 2 ^ n -> shreg n ty x 0 = x.
Proof.
  intros T N X. unfold shreg. destruct (ty =? 0); [rewrite Z.shiftl_0_r; apply lo_small; exact X|]. destruct (ty =? 1); [apply Z.shiftr_0_r|].
  destruct (ty =? 2).
  - rewrite Z.shiftr_0_r. unfold lo. rewrite sext_low_mod by lia. apply Z.mod_small. exact X.
  - unfold ror. rewrite Z.mod_0_l by lia. rewrite Z.shiftr_0_r, Z.sub_0_r, Z.shiftl_mul_pow2 by lia. unfold lo. rewrite Z.mod_mul by lia. apply Z.lor_0_r.
Qed.
Lemma ex_addr w32 add fl sh rm rn rd s : sh <> 3 -> exec (IAddR (negb w32) (negb add) fl sh rm 0 rn rd) s =
  let p := AB add (len w32) (lo (len w32) (rX s rn)) (lo (len w32) (rX s rm)) in Some (after s rd (fst p) (fl_of fl p)).
Proof.
  intros H. unfold exec. rewrite dsz_len. pose proof (len1 w32) as L. replace ((sh =? 3) || (len w32 <=? 0)) with false by lia. cbv zeta.
  rewrite shreg0 by (auto; try lia; apply lo_b; lia). unfold AB, fl_of. destruct add; cbn [negb].
  - destruct (awc _ _ _ _) as [r [[[a b] c] e]]. destruct fl; reflexivity.
  - destruct (awc _ _ _ _) as [r [[[a b] c] e]]. destruct fl; reflexivity.
Qed.
Lemma ex_adc w32 add fl rm rn rd s : exec (IAdc (negb w32) (negb add) fl rm rn rd) s =
  let n := len w32 in let y := lo n (rX s rm) in
  let p := awc n (lo n (rX s rn)) (if add then y else lo n (Z.lnot y)) (cf s) in Some (after s rd (fst p) (fl_of fl p)).
Proof.
  unfold exec. rewrite dsz_len. cbv zeta. unfold fl_of. destruct add; cbn [negb]; destruct (awc _ _ _ _) as [r [[[a b] c] e]]; destruct fl; reflexivity.
Qed.
Lemma ex_addi w32 add fl sh imm rn rd s : rd <> 31 \/ fl = true -> rn <> 31 -> 0 <= imm -> (if sh =? 1 then imm * 4096 else imm) < 2 ^ 32 ->
  exec (IAddI (negb w32) (negb add) fl sh imm rn rd) s =
  let p := AB add (len w32) (lo (len w32) (rX s rn)) (if sh =? 1 then imm * 4096 else imm) in Some (after s rd (fst p) (fl_of fl p)).
Proof.
  intros H Hn Hi Hb. unfold exec. rewrite dsz_len. cbv zeta. unfold AB, fl_of. replace (rX s rn) with (rSP s rn) by (unfold rX, rSP; replace (rn =? 31) with false by lia; reflexivity).
  destruct add; cbn [negb]; destruct (awc _ _ _ _) as [r [[[a b] c] e]]; destruct fl; try reflexivity; cbn [after fst]; f_equal; apply wSP_wX; destruct H as [H|H]; [exact H|discriminate H|exact H|discriminate H].
Qed.

(** ** Results of additions and subtractions *)
Lemma AB_result (add : bool) n x y c d : 1 <= n -> 0 <= x < 2 ^ n -> 0 <= y < 2 ^ n -> fst (AB add n x y) = result (if add then OAdd else OSub) n x y c d.
Proof.
  intros N X Y. unfold AB. destruct add; cbn [result].
  - rewrite add_flags by assumption. cbn [fst Z.b2z]. rewrite Z.add_0_r. reflexivity.
  - rewrite sub_flags by assumption. reflexivity.
Qed.
Lemma AB_flags (add : bool) n x y c s f ty v : 1 <= n -> 0 <= x < 2 ^ n -> 0 <= y < 2 ^ n -> flags_are s (snd (AB add n x y)) ->
  meaning (if add then OAdd else OSub) n x y c ty = Some v -> flag_holds (state_after (if add then OAdd else OSub) f) ty s = v.
Proof.
  intros N X Y F M. unfold AB in F. destruct add; cbn [meaning state_after] in *.
  - apply (add_cond_ok n x y false); assumption.
  - apply (sub_cond_ok n x y); assumption.
Qed.
(** The addition of the negated number is a subtraction, with the same flags, unless the number is zero (or the smallest one). *)
Lemma AB_neg (add : bool) n x y : 2 <= n -> 0 <= x < 2 ^ n -> 0 < y < 2 ^ (n - 1) -> AB (negb add) n x y = AB add n x ((- y) mod 2 ^ n).
Proof.
  intros N X Y. assert (P : 2 ^ n = 2 * 2 ^ (n - 1)) by (rewrite <- Z.pow_succ_r by lia; f_equal; lia).
  assert (E : (- y) mod 2 ^ n = 2 ^ n - y) by (symmetry; apply Z.mod_unique with (-1); lia). rewrite E. unfold AB. destruct add; cbn [negb].
  - rewrite lo_lnot by lia. unfold awc. cbn [Z.b2z]. replace (x + (2 ^ n - 1 - y) + 1) with (x + (2 ^ n - y) + 0) by lia.
    assert (S1 : sext n (2 ^ n - 1 - y) = - 1 - y) by (apply (sext_unique n _ _ 1); lia). assert (S2 : sext n (2 ^ n - y) = - y) by (apply (sext_unique n _ _ 1); lia).
    rewrite S1, S2. replace (sext n x + (-1 - y) + 1) with (sext n x + - y + 0) by lia. reflexivity.
  - rewrite lo_lnot by lia. replace (2 ^ n - 1 - (2 ^ n - y)) with (y - 1) by lia. unfold awc. cbn [Z.b2z]. replace (x + (y - 1) + 1) with (x + y + 0) by lia.
    rewrite (sext_small n (y - 1)), (sext_small n y) by lia. replace (sext n x + (y - 1) + 1) with (sext n x + y + 0) by lia. reflexivity.
Qed.

(** ** The effect of an operation *)
Lemma did_flagged op w32 setf unused dst a b s r F : reg_map dst <> 31 ->
  r mod 2 ^ len w32 = result op (len w32) a b (cf s) (xr s (reg_map dst) mod 2 ^ len w32) ->
  (setf = true -> forall f ty v s', flags_are s' F -> meaning op (len w32) a b (cf s) ty = Some v -> flag_holds (state_after op f) ty s' = v) ->
  did_op2 op w32 setf unused dst a b s (after s (reg_map (flag_dst setf unused dst)) r (if setf then Some F else None)).
Proof.
  intros D R FL. unfold did_op2. cbv zeta. unfold flag_dst. split; [|split; [|split; [|split]]].
  - intros E. rewrite E, xr_after, xr_wX_eq by exact D. exact R.
  - intros k K _ _ _. rewrite xr_after. destruct (setf && unused); [unfold wX; reflexivity|apply xr_wX_ne; exact K].
  - apply mm_after.
  - intros ->. apply flags_wX.
  - intros ->. intros f ty v M. apply (FL eq_refl f ty v); [apply flags_after|exact M].
Qed.
(** Operations followed by a comparison with zero. *)
Lemma run_set_flags w32 setf inv d s : inv_ok w32 inv -> reg_map d <> 31 -> exists s', run (set_flags setf inv d) s = Some s' /\ xr s' = xr s /\ mm s' = mm s /\
  (setf = false -> same_flags s s') /\ (setf = true -> zf s' = (xr s (reg_map d) mod 2 ^ len w32 =? 0)).
Proof.
  intros I D. unfold set_flags. destruct setf; [|exists s; cbn; unfold same_flags; repeat split; intros; congruence].
  destruct (dec_zero w32 inv d I) as (sub & sh & Hs & E).
  assert (X : exec (IAddR (negb w32) (negb (negb sub)) true sh 31 0 (reg_map d) 31) s = Some (let p := AB (negb sub) (len w32) (lo (len w32) (xr s (reg_map d))) 0 in after s 31 (fst p) (Some (snd p)))).
  { rewrite ex_addr by exact Hs. cbv zeta. unfold fl_of, rX. replace (reg_map d =? 31) with false by lia. cbn [Z.eqb Pos.eqb]. unfold lo at 2. rewrite Z.mod_0_l by (pose proof (len_pow w32); lia). reflexivity. }
  rewrite negb_involutive in X. eexists. split; [apply (run1 _ _ _ _ E X)|]. cbv zeta. pose proof (len1 w32) as L. pose proof (len_pow w32) as LP.
  pose proof (lo_b (len w32) (xr s (reg_map d)) ltac:(lia)) as B.
  assert (ZF : snd (fst (fst (snd (AB (negb sub) (len w32) (lo (len w32) (xr s (reg_map d))) 0)))) = (xr s (reg_map d) mod 2 ^ len w32 =? 0)).
  { unfold AB. destruct sub; cbn [negb]; [rewrite sub_flags by lia; reflexivity|]. rewrite add_flags by lia. cbn [fst snd Z.b2z]. rewrite !Z.add_0_r. rewrite Z.mod_small by exact B. reflexivity. }
  destruct (AB _ _ _ _) as [r [[[n z] c] v]]. cbn [fst snd after] in *. split; [reflexivity|]. split; [reflexivity|]. split; [intros E1; discriminate E1|]. intros _. exact ZF.
Qed.
Definition zero_op (op : op2) : bool := match op with OAnd | OOr | OXor | OShl | OMshl | OLshr | OMlshr | OAshr | OMashr => true | _ => false end.
Lemma zero_flags op n a b c ty v r f s : zero_op op = true -> r = result op n a b c 0 -> zf s = (r =? 0) -> meaning op n a b c ty = Some v -> flag_holds f ty s = v.
Proof.
  intros Z0 R Zf M. assert (M' : zero_meaning r ty = Some v) by (subst r; destruct op; try discriminate Z0; exact M).
  destruct ty; try discriminate M'; injection M' as <-; cbn [flag_holds]; rewrite Zf; reflexivity.
Qed.
Lemma zero_result op n a b c d : zero_op op = true -> result op n a b c d = result op n a b c 0.
Proof. destruct op; intros H; try discriminate H; reflexivity. Qed.
Lemma did_zero op w32 setf unused inv dst a b s w r : zero_op op = true -> inv_ok w32 inv -> reg_map dst <> 31 ->
  run [w] s = Some (wX s (reg_map dst) r) -> r mod 2 ^ len w32 = result op (len w32) a b (cf s) 0 ->
  exists s', run ([w] ++ set_flags setf inv dst) s = Some s' /\ did_op2 op w32 setf unused dst a b s s'.
Proof.
  intros Z0 I D R V. destruct (run_set_flags w32 setf inv dst (wX s (reg_map dst) r) I D) as (s' & R' & X & M & F0 & F1). exists s'. split; [rewrite run_app, R; exact R'|].
  unfold did_op2. cbv zeta. rewrite X, M, mm_wX, (xr_wX_eq s (reg_map dst) r D) in *. split; [|split; [|split; [|split]]].
  - intros _. rewrite zero_result by exact Z0. exact V.
  - intros k K _ _ _. apply xr_wX_ne. exact K.
  - reflexivity.
  - intros E. specialize (F0 E). pose proof (flags_wX s (reg_map dst) r) as (A1 & A2 & A3 & A4). destruct F0 as (B1 & B2 & B3 & B4). unfold same_flags. repeat split; congruence.
  - intros E f ty v Me. specialize (F1 E). apply (zero_flags op (len w32) a b (cf s) ty v _ _ s' Z0 V F1 Me).
Qed.

(** ** Rotations *)
Lemma ror_eq n x k : 0 < n -> 0 <= k < n -> 0 <= x < 2 ^ n -> ror n x k = (x * 2 ^ (n - k) + x / 2 ^ k) mod 2 ^ n.
Proof.
  intros N K X. unfold ror. rewrite (Z.mod_small k n) by lia. rewrite Z.shiftr_div_pow2, Z.shiftl_mul_pow2 by lia. unfold lo.
  assert (P : 2 ^ n = 2 ^ k * 2 ^ (n - k)) by (rewrite <- Z.pow_add_r by lia; f_equal; lia).
  pose proof (pow_pos k ltac:(lia)) as P1. pose proof (pow_pos (n - k) ltac:(lia)) as P2.
  assert (Q : 0 <= x / 2 ^ k < 2 ^ (n - k)) by (split; [apply Z.div_pos; lia|apply Z.div_lt_upper_bound; lia]).
  assert (E : (x * 2 ^ (n - k)) mod 2 ^ n = (x mod 2 ^ k) * 2 ^ (n - k)) by (rewrite P; apply Z.mul_mod_distr_r; lia).
  rewrite Z.lor_comm, E. rewrite <- (add_lor (n - k)) by lia. rewrite <- Z.add_mod_idemp_l by lia. rewrite E. symmetry. apply Z.mod_small.
  pose proof (Z.mod_pos_bound x (2 ^ k) P1). nia.
Qed.
Lemma lo_mod w32 b : lo (len w32) b mod len w32 = b mod len w32.
Proof. unfold lo. destruct w32; cbn [len]; [change (2 ^ 32) with (32 * 2 ^ 27)|change (2 ^ 64) with (64 * 2 ^ 58)]; rewrite Z.rem_mul_r by lia; rewrite Z.mul_comm, Z_mod_plus_full, Z.mod_mod by lia; reflexivity. Qed.
Lemma rotl_eq w32 a b c d : 0 <= a < 2 ^ len w32 -> result ORotr (len w32) a ((- b) mod len w32) c d = result ORotl (len w32) a b c d.
Proof.
  intros A. cbn [result]. cbv zeta. pose proof (len1 w32) as L. set (n := len w32) in *. rewrite Z.mod_mod by lia. pose proof (Z.mod_pos_bound b n ltac:(lia)) as B.
  destruct (Z.eq_dec (b mod n) 0) as [E|E].
  - rewrite (Z_mod_zero_opp_full b n E), E, Z.sub_0_r, !Z.pow_0_r, Z.div_1_r, Z.mul_1_r. rewrite (Z.div_small a) by lia. rewrite Z.add_0_r, Z.add_comm. apply Z_mod_plus_full.
  - rewrite (Z_mod_nz_opp_full b n E). replace (n - (n - b mod n)) with (b mod n) by lia. reflexivity.
Qed.

(** ** Multiplication *)
Lemma prod_eq w32 x y : (lo (len w32) x * lo (len w32) y) mod 2 ^ len w32 = (x * y) mod 2 ^ len w32.
Proof. unfold lo. symmetry. apply Z.mul_mod. pose proof (len_pow w32). lia. Qed.
Lemma sext_prod n x y : 1 <= n -> exists k, x * y = sext n x * sext n y + k * 2 ^ n.
Proof. intros N. destruct (sext_mod n x N) as (i & E1). destruct (sext_mod n y N) as (j & E2). exists (sext n x * j + i * sext n y + i * j * 2 ^ n). rewrite E1 at 1. rewrite E2 at 1. ring. Qed.
Lemma fits_iff n x y : 1 <= n -> (sext n (x * y) =? sext n x * sext n y) = ((- 2 ^ (n - 1) <=? sext n x * sext n y) && (sext n x * sext n y <? 2 ^ (n - 1))).
Proof.
  intros N. destruct (sext_prod n x y N) as (k & E). pose proof (sext_range n (x * y) N) as R.
  destruct ((- 2 ^ (n - 1) <=? sext n x * sext n y) && (sext n x * sext n y <? 2 ^ (n - 1))) eqn:C; [|lia].
  rewrite (sext_unique n (x * y) (sext n x * sext n y) k N ltac:(lia) E). apply Z.eqb_refl.
Qed.
(** The arithmetic shift of a word by 63 bits. *)
Lemma asr63 x : 0 <= x < 2 ^ 64 -> shreg 64 2 x 63 = if x <? 2 ^ 63 then 0 else 2 ^ 64 - 1.
Proof.
  intros X. unfold shreg. cbn [Z.eqb Pos.eqb]. rewrite Z.shiftr_div_pow2 by lia. destruct (sext_cases 64 x ltac:(lia) X) as [(A & B) | (A & B)]; rewrite B; change (64 - 1) with 63 in A.
  - replace (x <? 2 ^ 63) with true by lia. rewrite Z.div_small by lia. reflexivity.
  - replace (x <? 2 ^ 63) with false by lia. replace ((x - 2 ^ 64) / 2 ^ 63) with (-1) by (apply Z.div_unique with (x - 2 ^ 63); lia). reflexivity.
Qed.
Lemma ex_asr fl sub rm rn rd k s : 0 <= k < 64 -> exec (IAddR true sub fl 2 rm k rn rd) s =
  let p := AB (negb sub) 64 (lo 64 (rX s rn)) (shreg 64 2 (lo 64 (rX s rm)) k) in Some (after s rd (fst p) (fl_of fl p)).
Proof.
  intros H. unfold exec. cbn [dsz]. replace ((2 =? 3) || (64 <=? k)) with false by lia. cbv zeta. unfold AB, fl_of.
  destruct sub; cbn [negb]; destruct (awc _ _ _ _) as [r [[[a b] c] e]]; destruct fl; reflexivity.
Qed.
Lemma mul_overflow op32 P H L z : (op32 = true -> - 2 ^ 62 <= P <= 2 ^ 62) -> - 2 ^ 126 <= P <= 2 ^ 126 -> L = P mod 2 ^ 64 ->
  H = (if op32 : bool then P / 2 ^ 31 else P / 2 ^ 64) mod 2 ^ 64 -> z = (H =? if L <? 2 ^ 63 then 0 else 2 ^ 64 - 1) ->
  z = ((- 2 ^ (if op32 then 31 else 63) <=? P) && (P <? 2 ^ (if op32 then 31 else 63))).
Proof.
  intros B32 B EL EH ->. destruct op32.
  - specialize (B32 eq_refl). pose proof (Z.div_mod P (2 ^ 31) ltac:(lia)) as D. pose proof (Z.mod_pos_bound P (2 ^ 31) ltac:(lia)) as M. set (q := P / 2 ^ 31) in *. clearbody q.
    assert (EL' : L = if P <? 0 then P + 2 ^ 64 else P).
    { subst L. destruct (P <? 0) eqn:C; symmetry; [apply Z.mod_unique with (-1)|apply Z.mod_unique with 0]; lia. }
    assert (EH' : H = if q <? 0 then q + 2 ^ 64 else q).
    { subst H. destruct (q <? 0) eqn:C; symmetry; [apply Z.mod_unique with (-1)|apply Z.mod_unique with 0]; lia. }
    clear EL EH. destruct (P <? 0) eqn:C1, (q <? 0) eqn:C2, (L <? 2 ^ 63) eqn:C3; lia.
  - pose proof (Z.div_mod P (2 ^ 64) ltac:(lia)) as D. pose proof (Z.mod_pos_bound P (2 ^ 64) ltac:(lia)) as M. rewrite <- EL in *. set (q := P / 2 ^ 64) in *. clearbody q.
    assert (EH' : H = if q <? 0 then q + 2 ^ 64 else q).
    { subst H. destruct (q <? 0) eqn:C; symmetry; [apply Z.mod_unique with (-1)|apply Z.mod_unique with 0]; lia. }
    clear EH. destruct (q <? 0) eqn:C2, (L <? 2 ^ 63) eqn:C3; lia.
Qed.

(** ** Both operands are registers *)
Lemma dst_31 op dst : legal_dst op dst -> reg_map dst <> 31 /\ reg_map dst <> 30.
Proof.
  intros H. assert (F : forallb (fun d => negb (reg_map d =? 31) && negb (reg_map d =? 30)) (zseq 1 26) = true) by (vm_compute; reflexivity).
  destruct H as [H|H].
  - rewrite forallb_forall in F. specialize (F dst (in_zseq 1 26 dst ltac:(lia))). lia.
  - destruct op; try contradiction; destruct H as [-> | ->]; vm_compute; split; discriminate.
Qed.
Lemma ex_logr w32 opc rm rn rd s : In opc [0; 1; 2] -> exec (ILogR (negb w32) opc 0 false rm 0 rn rd) s =
  let x := lo (len w32) (rX s rn) in let y := lo (len w32) (rX s rm) in
  Some (wX s rd (if opc =? 1 then Z.lor x y else if opc =? 2 then Z.lxor x y else Z.land x y)).
Proof.
  intros H. unfold exec. rewrite dsz_len. pose proof (len1 w32) as L. replace (len w32 <=? 0) with false by lia. cbv zeta. rewrite shreg0 by (try lia; apply lo_b; lia).
  cbn [In] in H. destruct H as [<- | [<- | [<- | []]]]; reflexivity.
Qed.
Lemma ex_ands w32 rm rn rd s : exec (ILogR (negb w32) 3 0 false rm 0 rn rd) s =
  let r := Z.land (lo (len w32) (rX s rn)) (lo (len w32) (rX s rm)) in
  Some (after s rd r (Some (Z.testbit r (len w32 - 1), r =? 0, false, false))).
Proof. unfold exec. rewrite dsz_len. pose proof (len1 w32) as L. replace (len w32 <=? 0) with false by lia. cbv zeta. rewrite shreg0 by (try lia; apply lo_b; lia). reflexivity. Qed.
Lemma bits_b n x : 0 <= n -> 0 <= x -> (forall i, n <= i -> Z.testbit x i = false) -> 0 <= x < 2 ^ n.
Proof.
  intros N X H. split; [exact X|]. destruct (Z.lt_ge_cases x (2 ^ n)) as [C|C]; [exact C|exfalso].
  pose proof (pow_pos n N). assert (L : n <= Z.log2 x) by (apply Z.log2_le_pow2; lia). specialize (H (Z.log2 x) L). rewrite Z.bit_log2 in H by lia. discriminate H.
Qed.
Lemma log_b (f : Z -> Z -> Z) (g : bool -> bool -> bool) n a b : (forall x y i, Z.testbit (f x y) i = g (Z.testbit x i) (Z.testbit y i)) -> g false false = false ->
  (0 <= f a b) -> 0 <= n -> 0 <= a < 2 ^ n -> 0 <= b < 2 ^ n -> 0 <= f a b < 2 ^ n.
Proof. intros S G P N A B. apply bits_b; [exact N|exact P|]. intros i Hi. rewrite S, (small_bits_high a n), (small_bits_high b n) by lia. exact G. Qed.
Lemma land_b n a b : 0 <= n -> 0 <= a < 2 ^ n -> 0 <= b < 2 ^ n -> 0 <= Z.land a b < 2 ^ n.
Proof. intros. apply (log_b Z.land andb); auto; [intros; apply Z.land_spec|apply Z.land_nonneg; lia]. Qed.
Lemma lor_b n a b : 0 <= n -> 0 <= a < 2 ^ n -> 0 <= b < 2 ^ n -> 0 <= Z.lor a b < 2 ^ n.
Proof. intros. apply (log_b Z.lor orb); auto; [intros; apply Z.lor_spec|apply Z.lor_nonneg; lia]. Qed.
Lemma lxor_b n a b : 0 <= n -> 0 <= a < 2 ^ n -> 0 <= b < 2 ^ n -> 0 <= Z.lxor a b < 2 ^ n.
Proof. intros. apply (log_b Z.lxor xorb); auto; [intros; apply Z.lxor_spec|apply Z.lxor_nonneg; lia]. Qed.

Lemma ex_shv w32 k rm rn rd s : In k [0; 1; 2; 3] -> exec (IDp2 (negb w32) (8 + k) rm rn rd) s =
  Some (wX s rd (shreg (len w32) k (lo (len w32) (rX s rn)) (lo (len w32) (rX s rm) mod len w32))).
Proof. intros H. unfold exec. rewrite dsz_len. cbn [In] in H. destruct H as [<- | [<- | [<- | [<- | []]]]]; reflexivity. Qed.
Definition shift_ty (op : op2) : Z := match op with OShl | OMshl => 0 | OLshr | OMlshr => 1 | OAshr | OMashr => 2 | _ => 3 end.
Definition is_shift (op : op2) : bool := match op with OShl | OMshl | OLshr | OMlshr | OAshr | OMashr | ORotr => true | _ => false end.
Lemma shreg_result op w32 a b c d : is_shift op = true -> 0 <= a < 2 ^ len w32 -> shreg (len w32) (shift_ty op) a (b mod len w32) = result op (len w32) a b c d.
Proof.
  intros H A. pose proof (len1 w32) as L. pose proof (Z.mod_pos_bound b (len w32) ltac:(lia)) as B.
  destruct op; try discriminate H; cbn [shift_ty result]; cbv zeta; unfold shreg; cbn [Z.eqb Pos.eqb]; rewrite ?Z.shiftl_mul_pow2, ?Z.shiftr_div_pow2 by lia; try reflexivity.
  apply ror_eq; lia.
Qed.
Lemma result_b op w32 a b c d : 0 <= a < 2 ^ len w32 -> 0 <= b < 2 ^ len w32 -> 0 <= result op (len w32) a b c d < 2 ^ len w32.
Proof.
  intros A B. pose proof (len1 w32) as L. pose proof (Z.mod_pos_bound b (len w32) ltac:(lia)) as K. destruct op; cbn [result]; cbv zeta; try (apply mod_b; lia).
  - apply land_b; lia.
  - apply lor_b; lia.
  - apply lxor_b; lia.
  - pose proof (pow_pos (b mod len w32) ltac:(lia)). split; [apply Z.div_pos; lia|apply Z.div_lt_upper_bound; nia].
  - pose proof (pow_pos (b mod len w32) ltac:(lia)). split; [apply Z.div_pos; lia|apply Z.div_lt_upper_bound; nia].
Qed.
Lemma shift_run op w32 dst r1 r2 s d : is_shift op = true -> run [Z.lxor (shv (shift_ty op)) (inv_bits w32) .| RD dst .| RN r1 .| RM r2] s =
  Some (wX s (reg_map dst) (result op (len w32) (rv (len w32) s r1) (rv (len w32) s r2) (cf s) d)).
Proof.
  intros H. assert (I : In (shift_ty op) [0; 1; 2; 3]) by (destruct op; cbn; auto). eapply run1; [apply dec_shv; exact I|]. rewrite ex_shv by exact I.
  rewrite (shreg_result op w32 _ _ (cf s) d H) by (apply rv_b). reflexivity.
Qed.

(** A register which is not changed by the words before its use. *)
Definition src_ok (r : Z) : Prop := reg_map r <> 30.
Lemma reg_form_ok op w32 setf unused dst r1 r2 s : legal_dst op dst -> src_ok r1 -> reg_map r1 <> 10 \/ op <> ORotl -> src_ok r2 -> (setf = true -> has_flags op = true) ->
  exists s', run (reg_form op w32 setf unused dst r1 r2) s = Some s' /\ did_op2 op w32 setf unused dst (rv (len w32) s r1) (rv (len w32) s r2) s s'.
Proof.
  intros LD S1 S10 S2 HF. destruct (dst_31 op dst LD) as (D31 & D30). pose proof (len1 w32) as L. pose proof (len_pow w32) as LP.
  pose proof (rv_b w32 s r1) as B1. pose proof (rv_b w32 s r2) as B2. set (a := rv (len w32) s r1) in *. set (b := rv (len w32) s r2) in *.
  assert (LM : forall x, 0 <= x < 2 ^ len w32 -> x mod 2 ^ len w32 = x) by (intros; apply Z.mod_small; assumption).
  assert (SH : forall setf', setf' = setf -> is_shift op = true -> zero_op op = true ->
    exists s', run ([Z.lxor (shv (shift_ty op)) (inv_bits w32) .| RD dst .| RN r1 .| RM r2] ++ set_flags setf' (inv_bits w32) dst) s = Some s' /\ did_op2 op w32 setf' unused dst a b s s').
  { intros setf' _ H1 H2. eapply did_zero; [exact H2|left; reflexivity|exact D31|apply (shift_run op w32 dst r1 r2 s 0 H1)|]. apply LM. apply result_b; assumption. }
  assert (LO : forall x : bool, op = (if x then OXor else OOr) ->
    exists s', run ([Z.lxor (if x then EOR else ORR) (inv_bits w32) .| RD dst .| RN r1 .| RM r2] ++ set_flags setf (inv_bits w32) dst) s = Some s' /\ did_op2 op w32 setf unused dst a b s s').
  { intros x Hop. eapply did_zero; [destruct x; subst op; reflexivity|left; reflexivity|exact D31| |].
    - eapply run1; [apply dec_or|]. apply ex_logr. destruct x; cbn; auto.
    - cbv zeta. fold (rv (len w32) s r1). fold (rv (len w32) s r2). fold a b. destruct x; subst op; cbn [Z.eqb Pos.eqb result]; apply LM; [apply lxor_b|apply lor_b]; lia. }
  destruct op; try (apply (SH setf eq_refl eq_refl eq_refl)).
  - (* ADD *)
    eexists. split; [eapply run1; [apply (dec_add false)|apply (ex_addr w32 true); lia]|]. cbv zeta. fold (rv (len w32) s r1). fold (rv (len w32) s r2). fold a b.
    replace (fl_of setf (AB true (len w32) a b)) with (if setf then Some (snd (AB true (len w32) a b)) else None) by reflexivity.
    apply did_flagged; [exact D31| |].
    + rewrite (AB_result true (len w32) a b (cf s) (xr s (reg_map dst) mod 2 ^ len w32)) by assumption. apply LM. apply result_b; assumption.
    + intros _ f ty v s' F M. apply (AB_flags true (len w32) a b (cf s) s' f ty v); assumption.
  - (* ADDC *)
    eexists. split; [eapply run1; [apply (dec_adc false)|apply (ex_adc w32 true)]|]. cbv zeta. fold (rv (len w32) s r1). fold (rv (len w32) s r2). fold a b.
    unfold fl_of. apply did_flagged; [exact D31| |].
    + rewrite add_flags by assumption. cbn [fst result]. apply Z.mod_mod. lia.
    + intros _ f ty v s' F M. apply (add_cond_ok (len w32) a b (cf s) ty s' v); try assumption. cbn [meaning] in M. destruct ty; try discriminate M; exact M.
  - (* SUB *)
    eexists. split; [eapply run1; [apply (dec_add true)|apply (ex_addr w32 false); lia]|]. cbv zeta. fold (rv (len w32) s r1). fold (rv (len w32) s r2). fold a b.
    replace (fl_of setf (AB false (len w32) a b)) with (if setf then Some (snd (AB false (len w32) a b)) else None) by reflexivity.
    apply did_flagged; [exact D31| |].
    + rewrite (AB_result false (len w32) a b (cf s) (xr s (reg_map dst) mod 2 ^ len w32)) by assumption. apply LM. apply result_b; assumption.
    + intros _ f ty v s' F M. apply (AB_flags false (len w32) a b (cf s) s' f ty v); assumption.
  - (* SUBC *)
    eexists. split; [eapply run1; [apply (dec_adc true)|apply (ex_adc w32 false)]|]. cbv zeta. fold (rv (len w32) s r1). fold (rv (len w32) s r2). fold a b.
    unfold fl_of. rewrite lo_lnot by assumption. rewrite add_flags by lia. apply did_flagged; [exact D31| |].
    + cbn [fst result]. rewrite Z.mod_mod by lia. replace (a + (2 ^ len w32 - 1 - b) + Z.b2z (cf s)) with (a - b - Z.b2z (negb (cf s)) + 1 * 2 ^ len w32) by (destruct (cf s); cbn [negb Z.b2z]; lia).
      apply Z_mod_plus_full.
    + intros _ f ty v s' F M. cbn [snd flags_are] in F. destruct F as (_ & _ & C & _). cbn [meaning] in M. destruct ty; try discriminate M; injection M as <-; cbn [flag_holds state_after]; rewrite C; destruct (cf s); cbn [negb Z.b2z]; lia.
  - (* MUL *)
    cbn [reg_form]. destruct setf; cbn [negb].
    + assert (PB : forall x y, - 2 ^ (len w32 - 1) <= x < 2 ^ (len w32 - 1) -> - 2 ^ (len w32 - 1) <= y < 2 ^ (len w32 - 1) -> - (2 ^ (len w32 - 1) * 2 ^ (len w32 - 1)) <= x * y <= 2 ^ (len w32 - 1) * 2 ^ (len w32 - 1)).
      { intros x y X Y. pose proof (pow_pos (len w32 - 1) ltac:(lia)) as Q. set (q := 2 ^ (len w32 - 1)) in *. clearbody q. nia. }
      pose proof (sext_range (len w32) a L) as SA. pose proof (sext_range (len w32) b L) as SB. specialize (PB _ _ SA SB). set (P := sext (len w32) a * sext (len w32) b) in *.
      assert (DID : forall s', (forall k, k <> reg_map dst -> k <> 9 -> k <> 10 -> k <> 30 -> xr s' k = xr s k) -> mm s' = mm s -> xr s' (reg_map dst) mod 2 ^ len w32 = (a * b) mod 2 ^ len w32 ->
        zf s' = ((- 2 ^ (len w32 - 1) <=? P) && (P <? 2 ^ (len w32 - 1))) -> did_op2 OMul w32 true unused dst a b s s').
      { intros s' X M V Zf. split; [intros _; exact V|]. split; [exact X|]. split; [exact M|]. split; [intros E; discriminate E|]. intros _ f ty v Me. cbn [meaning] in Me. cbv zeta in Me.
        rewrite (fits_iff (len w32) a b L) in Me. fold P in Me. rewrite <- Zf in Me. destruct ty; try discriminate Me; injection Me as <-; reflexivity. }
      change (reg_map TMP_LR) with 30 in *.
      destruct w32; cbn [len] in *.
      * assert (E1 : run [SMADDL .| RD dst .| RN r1 .| RM r2 .| Z.shiftl 31 10] s = Some (wX s (reg_map dst) (wrap P))).
        { eapply run1; [apply dec_smaddl|]. cbn [exec negb dsz Z.eqb Pos.eqb andb]. do 2 f_equal. unfold P, a, b, rv, lo. rewrite !sext_low by lia. reflexivity. }
        set (s1 := wX s (reg_map dst) (wrap P)) in *. assert (XD : rX s1 (reg_map dst) = wrap P) by (apply rX_wX_eq; exact D31).
        assert (WP : 0 <= wrap P < 2 ^ 64) by apply wrap_isw.
        assert (E2 : run [ADD .| RD TMP_LR .| RN TMP_ZERO .| RM dst .| Z.shiftl 2 22 .| Z.shiftl 31 10] s1 = Some (wX s1 30 ((P / 2 ^ 31) mod 2 ^ 64))).
        { eapply run1; [apply dec_asr31|]. rewrite ex_asr by lia. cbv zeta. cbn [negb AB]. change (reg_map TMP_ZERO) with 31. change (reg_map TMP_LR) with 30. rewrite XD.
          change (lo 64 (rX s1 31)) with 0. unfold fl_of. cbn [after]. do 2 f_equal. unfold shreg. cbn [Z.eqb Pos.eqb]. rewrite (lo_small 64 (wrap P)) by exact WP. rewrite Z.shiftr_div_pow2 by lia.
          replace (sext 64 (wrap P)) with P by (unfold wrap; rewrite sext_low by lia; symmetry; apply sext_small; lia).
          rewrite add_flags by (try lia; apply lo_b; lia). cbn [fst Z.b2z]. rewrite Z.add_0_l, Z.add_0_r. apply (lo_lo 64). lia. }
        set (H := (P / 2 ^ 31) mod 2 ^ 64) in *. set (s2 := wX s1 30 H) in *. assert (HB : 0 <= H < 2 ^ 64) by (apply mod_b; lia).
        assert (X2 : rX s2 (reg_map dst) = wrap P) by (unfold s2; rewrite rX_wX_ne by auto; exact XD). assert (X3 : rX s2 30 = H) by (apply rX_wX_eq; lia).
        eexists. split.
        { eapply run3; [exact E1|exact E2|]. eapply run1; [apply dec_asr63|]. apply ex_asr. lia. }
        cbv zeta. cbn [negb AB fl_of]. change (reg_map TMP_ZERO) with 31. change (reg_map TMP_LR) with 30. rewrite X2, X3, (lo_small 64 H HB), (lo_small 64 (wrap P) WP). rewrite (asr63 (wrap P) WP).
        assert (YB : 0 <= (if wrap P <? 2 ^ 63 then 0 else 2 ^ 64 - 1) < 2 ^ 64) by (destruct (wrap P <? 2 ^ 63); lia).
        assert (F := sub_flags 64 H _ ltac:(lia) HB YB). rewrite F. cbn [fst snd after]. apply DID.
        -- intros k K _ _ K30. change (xr s2 k = xr s k). unfold s2, s1. rewrite !xr_wX_ne by auto. reflexivity.
        -- change (mm s2 = mm s). unfold s2, s1. rewrite !mm_wX. reflexivity.
        -- change (xr s2 (reg_map dst) mod 2 ^ 32 = (a * b) mod 2 ^ 32). unfold s2, s1. rewrite xr_wX_ne by auto. rewrite xr_wX_eq by auto. unfold wrap. rewrite (mod_mod_low 32 64) by lia.
           destruct (sext_prod 32 a b ltac:(lia)) as (k & ->). rewrite Z_mod_plus_full. reflexivity.
        -- cbn [zf wFl]. apply (mul_overflow true P H (wrap P)); try reflexivity; try lia.
      * assert (E1 : run [SMULH .| RD TMP_LR .| RN r1 .| RM r2] s = Some (wX s 30 ((P / 2 ^ 64) mod 2 ^ 64))).
        { eapply run1; [apply (dec_mulh true)|]. change (reg_map TMP_LR) with 30. cbn [exec negb dsz Z.eqb Pos.eqb andb]. do 2 f_equal. unfold wrap. f_equal. rewrite Z.shiftr_div_pow2 by lia. f_equal.
          unfold P, a, b, rv, lo, sgn. rewrite !sext_low by lia. reflexivity. }
        set (H := (P / 2 ^ 64) mod 2 ^ 64) in *. set (s1 := wX s 30 H) in *. assert (HB : 0 <= H < 2 ^ 64) by (apply mod_b; lia).
        assert (E2 : run [MADD .| RD dst .| RN r1 .| RM r2 .| RT2 TMP_ZERO] s1 = Some (wX s1 (reg_map dst) (P mod 2 ^ 64))).
        { eapply run1; [apply dec_madd64|]. cbn [exec dsz Z.eqb Pos.eqb]. change (reg_map TMP_ZERO) with 31. change (lo 64 (rX s1 31)) with 0. rewrite Z.add_0_l. do 2 f_equal.
          unfold s1. rewrite !rX_wX_ne by auto. fold (rv 64 s r1). fold (rv 64 s r2). fold a b. unfold lo. destruct (sext_prod 64 a b ltac:(lia)) as (k & ->). rewrite Z_mod_plus_full. reflexivity. }
        set (Lw := P mod 2 ^ 64) in *. set (s2 := wX s1 (reg_map dst) Lw) in *. assert (LB : 0 <= Lw < 2 ^ 64) by (apply mod_b; lia).
        assert (X2 : rX s2 (reg_map dst) = Lw) by (apply rX_wX_eq; exact D31).
        assert (X3 : rX s2 30 = H) by (unfold s2; rewrite rX_wX_ne by auto; apply rX_wX_eq; lia).
        eexists. split.
        { eapply run3; [exact E1|exact E2|]. eapply run1; [apply dec_asr63|]. apply ex_asr. lia. }
        cbv zeta. cbn [negb AB fl_of]. change (reg_map TMP_ZERO) with 31. change (reg_map TMP_LR) with 30. rewrite X2, X3, (lo_small 64 H HB), (lo_small 64 Lw LB). rewrite (asr63 Lw LB).
        assert (YB : 0 <= (if Lw <? 2 ^ 63 then 0 else 2 ^ 64 - 1) < 2 ^ 64) by (destruct (Lw <? 2 ^ 63); lia).
        assert (F := sub_flags 64 H _ ltac:(lia) HB YB). rewrite F. cbn [fst snd after]. apply DID.
        -- intros k K _ _ K30. change (xr s2 k = xr s k). unfold s2, s1. rewrite !xr_wX_ne by auto. reflexivity.
        -- change (mm s2 = mm s). unfold s2, s1. rewrite !mm_wX. reflexivity.
        -- change (xr s2 (reg_map dst) mod 2 ^ 64 = (a * b) mod 2 ^ 64). unfold s2. rewrite xr_wX_eq by auto. unfold Lw. rewrite Z.mod_mod by lia.
           destruct (sext_prod 64 a b ltac:(lia)) as (k & ->). rewrite Z_mod_plus_full. reflexivity.
        -- cbn [zf wFl]. apply (mul_overflow false P H Lw); try reflexivity; try lia.
    + assert (R : run [Z.lxor MADD (inv_bits w32) .| RD dst .| RN r1 .| RM r2 .| RT2 TMP_ZERO] s = Some (wX s (reg_map dst) ((a * b) mod 2 ^ len w32))).
      { eapply run1; [apply dec_madd|]. cbn [exec]. rewrite dsz_len. cbn [Z.eqb Pos.eqb]. change (reg_map TMP_ZERO) with 31. change (rX s 31) with 0. unfold lo at 2. rewrite Z.mod_0_l by lia. rewrite Z.add_0_l. reflexivity. }
      eexists. split; [exact R|]. apply (did_flagged OMul w32 false unused dst a b s ((a * b) mod 2 ^ len w32) (false, false, false, false) D31); [apply Z.mod_mod; lia|intros E; discriminate E].
  - (* AND *)
    cbn [reg_form]. assert (AB2 := land_b (len w32) a b ltac:(lia) B1 B2). destruct setf.
    + eexists. split; [eapply run1; [apply dec_and|apply ex_ands]|]. cbv zeta. fold (rv (len w32) s r1). fold (rv (len w32) s r2). fold a b.
      apply (did_flagged OAnd w32 true); [exact D31|apply LM; exact AB2|]. intros _ f ty v s' (_ & Zf & _) M. apply (zero_flags OAnd (len w32) a b (cf s) ty v (Z.land a b) _ s' eq_refl eq_refl Zf M).
    + eexists. split; [eapply run1; [apply dec_and|apply ex_logr; cbn; auto]|]. cbv zeta. fold (rv (len w32) s r1). fold (rv (len w32) s r2). fold a b. cbn [Z.eqb Pos.eqb].
      apply (did_flagged OAnd w32 false unused dst a b s (Z.land a b) (false, false, false, false)); [exact D31|apply LM; exact AB2|intros E; discriminate E].
  - apply (LO false eq_refl).
  - apply (LO true eq_refl).
  - (* ROTL *)
    destruct setf; [specialize (HF eq_refl); discriminate HF|]. cbn [reg_form]. destruct S10 as [S10|S10]; [|contradiction].
    assert (R1 : run [Z.lxor SUB (inv_bits w32) .| RD TMP_REG2 .| RN TMP_ZERO .| RM r2] s = Some (wX s 10 ((- b) mod 2 ^ len w32))).
    { eapply run1; [apply (dec_add true w32 false)|]. change (IAddR (negb w32) true) with (IAddR (negb w32) (negb false)). rewrite ex_addr by lia. cbv zeta. change (reg_map TMP_ZERO) with 31. change (reg_map TMP_REG2) with 10.
      change (rX s 31) with 0. fold (rv (len w32) s r2). fold b. unfold fl_of. cbn [after]. do 2 f_equal. unfold lo. rewrite Z.mod_0_l by lia.
      rewrite (AB_result false (len w32) 0 b true 0) by lia. reflexivity. }
    set (s1 := wX s 10 ((- b) mod 2 ^ len w32)) in *.
    assert (R2 := shift_run ORotr w32 dst r1 TMP_REG2 s1 0 eq_refl). cbn [shift_ty] in R2.
    eexists. split; [eapply run2; [exact R1|exact R2]|].
    assert (EA : rv (len w32) s1 r1 = a) by (unfold rv, s1; rewrite rX_wX_ne by auto; reflexivity).
    assert (EB : rv (len w32) s1 TMP_REG2 = (- b) mod 2 ^ len w32) by (unfold rv, s1; change (reg_map TMP_REG2) with 10; rewrite rX_wX_eq by lia; unfold lo; apply Z.mod_mod; lia).
    rewrite EA, EB. set (r := result ORotr (len w32) a ((- b) mod 2 ^ len w32) (cf s1) 0).
    assert (ER : r = result ORotl (len w32) a b (cf s) 0).
    { unfold r. rewrite <- (rotl_eq w32 a b (cf s) 0 B1). cbn [result]. cbv zeta. fold (lo (len w32) (- b)). rewrite lo_mod, Z.mod_mod by lia. reflexivity. }
    split; [|split; [|split; [|split]]].
    + intros _. rewrite xr_wX_eq by exact D31. rewrite ER. rewrite LM by (apply result_b; assumption). reflexivity.
    + intros k K _ K10 _. rewrite xr_wX_ne by exact K. unfold s1. apply xr_wX_ne. exact K10.
    + rewrite mm_wX. unfold s1. apply mm_wX.
    + intros _. pose proof (flags_wX s1 (reg_map dst) r) as (A1 & A2 & A3 & A4). pose proof (flags_wX s 10 ((- b) mod 2 ^ len w32)) as (C1 & C2 & C3 & C4). unfold same_flags, s1 in *. repeat split; congruence.
    + intros E; discriminate E.
  - (* ROTR *)
    destruct setf; [specialize (HF eq_refl); discriminate HF|]. cbn [reg_form]. assert (R2 := shift_run ORotr w32 dst r1 r2 s (xr s (reg_map dst) mod 2 ^ len w32) eq_refl). cbn [shift_ty] in R2. fold a b in R2.
    eexists. split; [exact R2|]. apply (did_flagged ORotr w32 false unused dst a b s _ (false, false, false, false) D31); [apply LM; apply result_b; assumption|intros E; discriminate E].
  - (* MULADD *)
    destruct setf; [specialize (HF eq_refl); discriminate HF|]. cbn [reg_form].
    assert (R : run [Z.lxor MADD (inv_bits w32) .| RD dst .| RN r1 .| RM r2 .| RT2 dst] s = Some (wX s (reg_map dst) ((xr s (reg_map dst) mod 2 ^ len w32 + a * b) mod 2 ^ len w32))).
    { eapply run1; [apply dec_madd|]. cbn [exec]. rewrite dsz_len. cbn [Z.eqb Pos.eqb]. unfold rX at 1. replace (reg_map dst =? 31) with false by lia. reflexivity. }
    eexists. split; [exact R|]. apply (did_flagged OMuladd w32 false unused dst a b s _ (false, false, false, false) D31); [apply Z.mod_mod; lia|intros E; discriminate E].
Qed.
