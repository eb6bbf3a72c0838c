(** ARM64: emit_op_mem for every form of an address, and the operators with operands in memory. *)
Require Import ZArith List Bool Lia Zify ZifyBool.
From Verif Require Import Rv.RvLib Rv.RvBits Imm.ImmLib Imm.MsProofs Imm.PpProofs Arm.ArmIsa Arm.ArmBr Arm.ArmEnc Arm.ArmBits Arm.ArmImm Arm.ArmImmProofs Arm.ArmLogImm Arm.ArmLoadImm
  Arm.ArmJump Arm.ArmJumpSpec Arm.ArmJumpProofs Arm.ArmCondProofs Arm.ArmOp Arm.ArmOpSpec Arm.ArmOpDec Arm.ArmOpProofs Arm.ArmOpImm Arm.ArmOp1 Arm.ArmMem Arm.ArmMemSpec Arm.ArmMemProofs.
Import ListNotations.
Open Scope Z_scope.
Ltac Zify.zify_post_hook ::= idtac.
Ltac ediv := Z.to_euclidean_division_equations; lia.

(** ** Offsets *)
Lemma land_k x : (x .& 0xfff = x mod 4096) /\ (x .& 0x1ff = x mod 512) /\ (x .& 3 = x mod 4).
Proof. rewrite (land_low x 12 0xfff), (land_low x 9 0x1ff), (land_low x 2 3) by lia. auto. Qed.
Lemma land_100 x : (x .& 0x100 =? 0) = ((x / 256) mod 2 =? 0).
Proof.
  assert (E : x .& 0x100 = (x / 2 ^ 8) mod 2 ^ 1 * 2 ^ 8) by (apply land_mask; [lia|lia|reflexivity]). rewrite E. change (2 ^ 8) with 256. change (2 ^ 1) with 2.
  destruct ((x / 256) mod 2 =? 0) eqn:C; lia.
Qed.
Lemma aligned_eq sh w : 0 <= sh <= 3 -> (w .& (Z.shiftl 1 sh - 1) =? 0) = (w mod 2 ^ sh =? 0).
Proof. intros H. rewrite (land_low w sh) by (try lia; rewrite Z.shiftl_mul_pow2 by lia; lia). reflexivity. Qed.
Lemma sext9 w k : - 256 <= k < 256 -> (exists q, w = k + q * 512) -> sext 9 (u32 w .& 0x1ff) = k.
Proof.
  intros K (q & E). rewrite (proj1 (proj2 (land_k _))). unfold u32. change 512 with (2 ^ 9). rewrite mod_mod_low by lia. rewrite sext_low by lia.
  apply (sext_unique 9 w k q); lia.
Qed.
Lemma low9_b w : 0 <= u32 w .& 0x1ff < 512.
Proof. rewrite (proj1 (proj2 (land_k _))). apply Z.mod_pos_bound. lia. Qed.

Section MEM.
Variables (sh : Z) (sg store : bool) (reg tmp : Z).
Hypothesis SH : 0 <= sh <= 3.
Hypothesis SG : sg = true -> sh <= 2.
Hypothesis LR : legal_reg reg.
Hypothesis LT : legal_tmp tmp.
Hypothesis ST : store = true -> reg <> tmp.
Local Notation t := (mem_type sh sg store).
Let R31 : reg_map reg <> 31 := legal_31 reg LR.
Let T31 : reg_map tmp <> 31 := tmp_31 tmp LT.
Let NE : store = true -> reg_map reg <> reg_map tmp := fun E => reg_ne reg tmp LR LT (ST E).

Let tmp_rng : 1 <= tmp <= 26 \/ 28 <= tmp <= 31.
Proof. right. destruct LT as [E | E]; rewrite E; unfold TMP_REG1, TMP_REG2; lia. Qed.

(** A word which puts the address in the temporary register, and the access. *)
Lemma two_words w1 w2 m s v a : run [w1] s = Some (wX s (reg_map tmp) v) -> (forall s1, exists s', run [w2] s1 = Some s' /\ acc sh sg store reg (xr s1 (reg_map tmp) + a) s1 s') ->
  (v + a) mod 2 ^ 64 = addr s m mod 2 ^ 64 -> exists ws s', Some [w1; w2] = Some ws /\ run ws s = Some s' /\ did_mem sh sg store reg m tmp s s'.
Proof.
  intros R1 R2 E. destruct (R2 (wX s (reg_map tmp) v)) as (s' & R & A). exists [w1; w2], s'. split; [reflexivity|]. split; [apply (run2 w1 w2 s _ s' R1 R)|].
  rewrite xr_wX_eq in A by exact T31. apply (did_acc2 sh sg store reg m tmp v _ s _ s' NE (only_wX s (reg_map tmp) v T31) E A).
Qed.
Lemma one_word w m s a : (exists s', run [w] s = Some s' /\ acc sh sg store reg a s s') -> a mod 2 ^ 64 = addr s m mod 2 ^ 64 ->
  exists ws s', Some [w] = Some ws /\ run ws s = Some s' /\ did_mem sh sg store reg m tmp s s'.
Proof. intros (s' & R & A) E. exists [w], s'. split; [reflexivity|]. split; [exact R|]. apply (did_acc sh sg store reg m tmp a); assumption. Qed.
Lemma load_then_ok i w m s (f : st -> Z) : sword i -> (forall s1, exists s', run [w] s1 = Some s' /\ acc sh sg store reg (f s1) s1 s') ->
  (forall s1, only s s1 (reg_map tmp) (wrap i) -> f s1 mod 2 ^ 64 = addr s m mod 2 ^ 64) -> exists ws s', load_then tmp i w = Some ws /\ run ws s = Some s' /\ did_mem sh sg store reg m tmp s s'.
Proof.
  intros I R2 E. destruct (load_immediate_ok tmp i s tmp_rng I) as (ws & s1 & L & R & O). unfold load_then. rewrite L.
  destruct (R2 s1) as (s' & R' & A). exists (ws ++ [w]), s'. split; [reflexivity|]. split; [rewrite run_app, R; exact R'|].
  apply (did_acc2 sh sg store reg m tmp (wrap i) (f s1) s s1 s' NE O (E s1 O) A).
Qed.
Lemma base_ne r : 1 <= r <= 26 \/ r = SLJIT_SP -> reg_map r <> reg_map tmp.
Proof. intros H. destruct LT as [-> | ->]; (destruct H as [H | ->]; [apply (reg_ok r H)|discriminate]). Qed.

Lemma mem_base_ok r w s : (1 <= r <= 26 \/ r = SLJIT_SP) -> - 2 ^ 63 <= w < 2 ^ 63 -> exists ws s', mem_base t sh reg r w tmp = Some ws /\ run ws s = Some s' /\ did_mem sh sg store reg (MBase r w) tmp s s'.
Proof.
  intros B W. pose proof (base_ne r B) as BN. unfold mem_base. cbv zeta. rewrite aligned_eq by exact SH. rewrite (proj1 (land_k (w + 0x100))), land_100. rewrite !Z.shiftr_div_pow2 by lia. change (2 ^ 12) with 4096.
  match goal with |- context [if w mod 2 ^ sh =? 0 then _ else ?f] => set (far := f) end.
  assert (FAR : (w mod 2 ^ sh <> 0 \/ 0xffffff < w \/ - 256 <= w < 0 \/ w < - 0xfff000) -> exists ws s', far = Some ws /\ run ws s = Some s' /\ did_mem sh sg store reg (MBase r w) tmp s s').
  { intros G. unfold far. clear far. destruct ((w <=? 0xff) && (-0x100 <=? w)) eqn:C1.
    { apply (one_word _ _ s (xr s (reg_map r) + sext 9 (u32 w .& 0x1ff))); [apply ldu_word; try assumption; apply low9_b|]. rewrite (sext9 w w) by (try lia; exists 0; lia). reflexivity. }
    destruct (((w + 0x100) mod 4096 <=? 0x1ff) && (w <=? 0xfff0ff) && (-0xfff100 <=? w)) eqn:C2.
    2: { apply load_then_ok with (f := fun s1 => xr s1 (reg_map r) + rX s1 (reg_map tmp) * 2 ^ 0); [exact W| |].
         - intros s1. assert (X := ldr_word sh sg store reg SH SG R31 false r tmp s1). cbv iota in X. rewrite Z.lor_0_r in X. exact X.
         - intros s1 (V & O & _). rewrite rX_xr, V, (O (reg_map r) BN) by exact T31. rewrite Z.pow_0_r, Z.mul_1_r. unfold wrap. rewrite Z.add_mod_idemp_r by lia. reflexivity. }
    destruct (0 <=? w) eqn:C3.
    - set (w' := if (w / 256) mod 2 =? 0 then w else w + 0x1000).
      assert (F : exists k, - 256 <= k < 256 /\ (exists q, w' = k + q * 512) /\ w = w' / 4096 * 4096 + k /\ 0 <= w' / 4096 < 4096).
      { unfold w'. exists (if (w / 256) mod 2 =? 0 then w mod 4096 else w mod 4096 - 4096). destruct ((w / 256) mod 2 =? 0) eqn:C4.
        - split; [ediv|]. split; [exists (8 * (w / 4096)); ediv|]. split; ediv.
        - split; [ediv|]. split; [exists (8 * ((w / 4096) + 2)); ediv|]. split; ediv. }
      destruct F as (k & K1 & K2 & K3 & K4).
      apply two_words with (v := (xr s (reg_map r) + w' / 4096 * 4096) mod 2 ^ 64) (a := k).
      + apply (add22_word false tmp r (w' / 4096) s K4 T31).
      + intros s1. assert (X := ldu_word sh sg store reg SH SG R31 tmp (u32 w' .& 0x1ff) s1 (low9_b w')). rewrite (sext9 w' k K1 K2) in X. exact X.
      + rewrite Z.add_mod_idemp_l by lia. cbn [addr]. f_equal. lia.
    - set (w' := if (w / 256) mod 2 =? 0 then w - 0x1000 else w).
      assert (F : exists k, - 256 <= k < 256 /\ (exists q, w' = k + q * 512) /\ w = - ((- w') / 4096 * 4096) + k /\ 0 <= (- w') / 4096 < 4096).
      { unfold w'. destruct ((w / 256) mod 2 =? 0) eqn:C4.
        - assert (NZ : w mod 4096 <> 0).
          { intros E0. destruct G as [G | G]; [|ediv]. apply G. apply Z.mod_divide in E0; [|lia]. destruct E0 as (q & ->). destruct (size_cases sh SH) as [-> | [-> | [-> | ->]]]; ediv. }
          exists (w mod 4096). split; [ediv|]. split; [exists (8 * (w / 4096) - 8); ediv|]. split; ediv.
        - exists (w mod 4096 - 4096). split; [ediv|]. split; [exists (8 * (w / 4096) + 8); ediv|]. split; ediv. }
      destruct F as (k & K1 & K2 & K3 & K4).
      apply two_words with (v := (xr s (reg_map r) + - ((- w') / 4096 * 4096)) mod 2 ^ 64) (a := k).
      + apply (add22_word true tmp r ((- w') / 4096) s K4 T31).
      + intros s1. assert (X := ldu_word sh sg store reg SH SG R31 tmp (u32 w' .& 0x1ff) s1 (low9_b w')). rewrite (sext9 w' k K1 K2) in X. exact X.
      + rewrite Z.add_mod_idemp_l by lia. cbn [addr]. f_equal. lia. }
  clearbody far. destruct (w mod 2 ^ sh =? 0) eqn:A; [|apply FAR; left; lia]. destruct (0 <=? w) eqn:C1.
  - destruct (w / 2 ^ sh <=? 0xfff) eqn:C2.
    + assert (E : w = w / 2 ^ sh * 2 ^ sh) by (pose proof (Z.div_mod w (2 ^ sh) ltac:(pose proof (pow_pos sh ltac:(lia)); lia)); lia).
      replace (Z.shiftl w (10 - sh)) with (Z.shiftl (w / 2 ^ sh) 10).
      2: { rewrite E at 2. rewrite !Z.shiftl_mul_pow2 by lia. rewrite <- Z.mul_assoc, <- Z.pow_add_r by lia. do 2 f_equal. lia. }
      apply one_word with (a := xr s (reg_map r) + w / 2 ^ sh * 2 ^ sh); [apply ldi_word; try assumption; split; [apply Z.div_pos; [lia|apply pow_pos; lia]|lia]|]. cbn [addr]. do 2 f_equal. lia.
    + destruct (w <=? 0xffffff) eqn:C3; [|apply FAR; lia]. rewrite (proj1 (land_k w)).
      assert (E : (w mod 4096) / 2 ^ sh * 2 ^ sh = w mod 4096 /\ 0 <= (w mod 4096) / 2 ^ sh < 4096) by (destruct (size_cases sh SH) as [-> | [-> | [-> | ->]]]; ediv).
      destruct E as (E & E2). apply two_words with (v := (xr s (reg_map r) + w / 4096 * 4096) mod 2 ^ 64) (a := (w mod 4096) / 2 ^ sh * 2 ^ sh).
      * apply (add22_word false tmp r (w / 4096) s); [ediv|exact T31].
      * intros s1. apply ldi_word; assumption.
      * rewrite Z.add_mod_idemp_l by lia. rewrite E. cbn [addr]. f_equal. ediv.
  - destruct ((w <? -256) && (-0xfff000 <=? w)) eqn:C2; [|apply FAR; lia]. rewrite (proj1 (land_k (0x1000 + w))).
    assert (E : ((0x1000 + w) mod 4096) / 2 ^ sh * 2 ^ sh = w mod 4096 /\ 0 <= ((0x1000 + w) mod 4096) / 2 ^ sh < 4096) by (destruct (size_cases sh SH) as [-> | [-> | [-> | ->]]]; ediv).
    destruct E as (E & E2). apply two_words with (v := (xr s (reg_map r) + - ((- w + 0xfff) / 4096 * 4096)) mod 2 ^ 64) (a := ((0x1000 + w) mod 4096) / 2 ^ sh * 2 ^ sh).
    * apply (add22_word true tmp r ((- w + 0xfff) / 4096) s); [ediv|exact T31].
    * intros s1. apply ldi_word; assumption.
    * rewrite Z.add_mod_idemp_l by lia. rewrite E. cbn [addr]. f_equal. ediv.
Qed.
Lemma land_lnot w m : w .& Z.lnot m = w - (w .& m).
Proof.
  assert (E : (w .& Z.lnot m) + (w .& m) = w); [|lia]. rewrite Z.add_nocarry_lxor.
  - apply Z.bits_inj'. intros i I. rewrite Z.lxor_spec, !Z.land_spec, Z.lnot_spec by exact I. destruct (Z.testbit w i), (Z.testbit m i); reflexivity.
  - apply Z.bits_inj'. intros i I. rewrite !Z.land_spec, Z.lnot_spec, Z.bits_0 by exact I. destruct (Z.testbit w i), (Z.testbit m i); reflexivity.
Qed.
Theorem emit_op_mem_ok m s : legal_mem m -> exists ws s', emit_op_mem sh sg store reg m tmp = Some ws /\ run ws s = Some s' /\ did_mem sh sg store reg m tmp s s'.
Proof.
  intros L. destruct m as [r w|r o k|w]; cbn [emit_op_mem legal_mem] in *.
  - apply mem_base_ok; apply L.
  - destruct L as (L1 & L2 & K). cbv zeta. rewrite (proj2 (proj2 (land_k k))). rewrite (Z.mod_small k 4) by lia. destruct (reg_ok r L1) as (A31 & _). destruct (reg_ok o L2) as (B31 & _).
    destruct ((k =? 0) || (k =? sh)) eqn:C.
    + replace (if k =? 0 then 0 else Z.shiftl 1 12) with (if negb (k =? 0) then Z.shiftl 1 12 else 0) by (destruct (k =? 0); reflexivity).
      eapply one_word; [apply ldr_word; assumption|]. cbn [addr]. rewrite rX_xr by exact B31. do 4 f_equal. destruct (k =? 0) eqn:C0; cbn [negb]; lia.
    + apply two_words with (v := (xr s (reg_map r) + xr s (reg_map o) * 2 ^ k) mod 2 ^ 64) (a := 0).
      * apply adds_word; try assumption. lia.
      * intros s1. assert (X := ldi0_word sh sg store reg SH SG R31 tmp s1). rewrite Z.add_0_r. exact X.
      * rewrite Z.add_0_r. apply Z.mod_mod. lia.
  - rewrite land_lnot. assert (E : w .& Z.shiftl 0xfff sh = (w / 2 ^ sh) mod 4096 * 2 ^ sh) by (apply (land_mask w sh 12); [lia|lia|rewrite Z.shiftl_mul_pow2 by lia; reflexivity]). rewrite E.
    rewrite Z.shiftr_div_pow2 by lia. rewrite (proj1 (land_k _)).
    apply load_then_ok with (f := fun s1 => xr s1 (reg_map tmp) + (w / 2 ^ sh) mod 4096 * 2 ^ sh).
    + unfold sword. destruct (size_cases sh SH) as [-> | [-> | [-> | ->]]]; ediv.
    + intros s1. apply ldi_word; try assumption. apply Z.mod_pos_bound. lia.
    + intros s1 (V & _). rewrite V. unfold wrap. rewrite Z.add_mod_idemp_l by lia. cbn [addr]. f_equal. lia.
Qed.
End MEM.
