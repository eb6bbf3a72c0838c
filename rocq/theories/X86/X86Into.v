(** sljit_emit_shift_into on x86-64. *)
Require Import ZArith List Bool Lia.
From Verif Require Import Rv.RvLib Rv.RvIsa Rv.RvMem Rv.RvMemProofs Rv.RvOp Rv.RvLir Rv.RvEmitOp1 Rv.RvShiftInto X86.X86Isa X86.X86Emit X86.X86Spec X86.X86Enc X86.X86EncTop X86.X86OpSpec
  X86.X86Op X86.X86Ins X86.X86Ins2 X86.X86Mov X86.X86Bin X86.X86Mul X86.X86Shift X86.X86Op1.
Import ListNotations.
Ltac Zify.zify_post_hook ::= idtac.
Open Scope Z_scope.

(** The value of SHLD and SHRD. *)
Definition dsh (left : bool) (n a b c : Z) : Z := if left then Z.lor (a * 2 ^ c) (b / 2 ^ (n - c)) else Z.lor (a / 2 ^ c) (b * 2 ^ (n - c)).
Lemma dsh_0 : forall left n a b, 0 <= n -> 0 <= a < 2 ^ n -> 0 <= b < 2 ^ n -> dsh left n a b 0 mod 2 ^ n = a mod 2 ^ n.
Proof.
  intros left n a b N A B. unfold dsh. rewrite Z.sub_0_r, Z.pow_0_r, Z.mul_1_r, Z.div_1_r. destruct left.
  - rewrite Z.div_small by exact B. rewrite Z.lor_0_r. reflexivity.
  - rewrite <- !Z.land_ones by exact N. rewrite Z.land_lor_distr_l. rewrite (Z.land_ones (b * 2 ^ n)) by exact N. rewrite Z.mod_mul by lia. apply Z.lor_0_r.
Qed.
Section U.
Variables (u : Z) (w m : bool).
Notation n := (size_of m).
Notation rv s r := (xr s (reg_map w r)).
Notation P := PREF_SHIFT_REG.
Notation T := TMP_REG1.
Definition shd_code (left : bool) (src2 dst : Z) (src3 : arg) (src3w : Z) : option (list Z) :=
  if is_imm src3 then option_map (put2 0x0f (if left then 0xa4 else 0xac)) (emit_x86 w m (fl 2) (AReg src2) 0 (AReg dst) 0) +++ Some [u8 src3w]
  else option_map (put2 0x0f (if left then 0xa5 else 0xad)) (emit_x86 w m (fl 2) (AReg src2) 0 (AReg dst) 0).
Lemma shd_exec : forall (left : bool) d r cnt c s, 1 <= d <= 16 -> 1 <= r <= 16 -> xwf s -> rdo 8 s cnt mod n = c ->
  exists s', exec u s (XShiftd left n (OR (reg_map w d)) (reg_map w r) cnt) = Some s' /\ only w [d] s s' /\ rv s' d = dsh left n (rv s d mod 2 ^ n) (rv s r mod 2 ^ n) c mod 2 ^ n /\ xwf s'.
Proof.
  intros left d r cnt c s D R W C. cbn [exec]. replace (if n =? 64 then 64 else 32) with n by (destruct m; reflexivity). rewrite C.
  assert (CR : 0 <= c < n) by (rewrite <- C; apply Z.mod_pos_bound; destruct m; reflexivity).
  replace (n <=? c) with false by lia. cbn [rdo]. set (a := rv s d mod 2 ^ n). set (b := rv s r mod 2 ^ n).
  assert (AR : 0 <= a < 2 ^ n) by (apply Z.mod_pos_bound; destruct m; reflexivity). assert (BR : 0 <= b < 2 ^ n) by (apply Z.mod_pos_bound; destruct m; reflexivity).
  fold (dsh left n a b c).
  assert (WR : forall v, exists s', wro n s (OR (reg_map w d)) v = Some s' /\ only w [d] s s' /\ rv s' d = v mod 2 ^ n /\ xwf s').
  { intros v. cbn [wro]. replace (n <? 32) with false by (destruct m; reflexivity). eexists. split; [reflexivity|]. split; [split; [reflexivity|]|split; [apply setr_same|]].
    - intros q Q I. apply setr_reg; auto. intros ->. apply I. left. reflexivity.
    - apply xwf_setr; [exact W|apply isw_mod; apply size_of_cases]. }
  destruct (Z.eqb_spec c 0) as [Z0|Z0].
  - destruct (WR a) as (s' & E1 & E2 & E3 & E4). exists s'. split; [exact E1|]. split; [exact E2|]. split; [|exact E4]. rewrite E3, Z0. symmetry. apply dsh_0; try assumption. destruct m; cbn; lia.
  - destruct (WR (dsh left n a b c)) as (s' & E1 & E2 & E3 & E4). rewrite E1. eexists. split; [reflexivity|]. split; [exact E2|]. split; [exact E3|]. apply xwf_setfl. exact E4.
Qed.
Lemma shd_ok : forall left d r src3 src3w s, 1 <= d <= 16 -> 1 <= r <= 16 -> cntok m src3 src3w -> xwf s ->
  does u (shd_code left r d src3 src3w) s (fun s' =>
    only w [d] s s' /\ rv s' d = dsh left n (rv s d mod 2 ^ n) (rv s r mod 2 ^ n) (cntval m s src3 src3w) mod 2 ^ n).
Proof.
  intros left d r src3 src3w s D R CO W. unfold shd_code.
  assert (FO : flags_ok (fl 2)) by (apply flags_ok_fl; lia). assert (G : genop (AReg d) 0) by (apply (sok_gop (AReg d) 0); [simpl; lia|reflexivity]).
  destruct src3 as [q| |? ?]; cbn [cntok] in CO; [|cbn [is_imm]|contradiction].
  - cbn [is_imm]. subst q.
    destruct (ins_run u w m (fl 2) (AReg r) 0 (AReg d) 0 true (if left then 0xa5 else 0xad) 0 [] (fun r o l => Some (XShiftd left n o r (OR 1), l))) as (o & opn & E & S & F & RUN); auto.
    { simpl. split; [unfold isreg; lia|discriminate]. } { split; [lia|auto]. } { discriminate. }
    { intros x H _. destruct left; [apply (dec_shd 0xa5)|apply (dec_shd 0xad)]; auto; rewrite H; cbn; apply andb_true_r. }
    destruct opn as [q|?|? ? ? ?]; try contradiction. cbn in S.
    exists (put2 0x0f (if left then 0xa5 else 0xad) o). split; [rewrite E; reflexivity|].
    destruct (shd_exec left d r (OR 1) (xr s 1 mod n) s) as (s' & E1 & E2 & E3 & E4); auto.
    { cbn [rdo]. destruct m; cbn [size_of]; [change (2 ^ 8) with (32 * 8)|change (2 ^ 8) with (64 * 4)]; rewrite Z.rem_mul_r by lia; rewrite Z.mul_comm, Z.mod_add, Z.mod_mod by lia; reflexivity. }
    exists s'. split; [|auto]. rewrite <- bytes_put2. eapply RUN; [intros rest; reflexivity|exact Logic.I|].
    change (after_pre w (AReg d) 0 s) with s. replace (want_reg w (fl 2) (AReg r) + 0) with (reg_map w r) by (cbn; lia). rewrite S. exact E1.
  - destruct (ins_run u w m (fl 2) (AReg r) 0 (AReg d) 0 true (if left then 0xa4 else 0xac) 0 [u8 src3w] (fun r o l =>
      match le 1 l with Some (v, l) => Some (XShiftd left n o r (OI v), l) | None => None end)) as (o & opn & E & S & F & RUN); auto.
    { simpl. split; [unfold isreg; lia|discriminate]. } { split; [lia|auto]. } { discriminate. }
    { intros x H _. destruct left; [apply (dec_shdi 0xa4)|apply (dec_shdi 0xac)]; auto; rewrite H; cbn; apply andb_true_r. }
    destruct opn as [q|?|? ? ? ?]; try contradiction. cbn in S.
    exists (put2 0x0f (if left then 0xa4 else 0xac) o ++ [u8 src3w]). split; [rewrite E; reflexivity|].
    assert (U : u8 src3w = src3w). { unfold u8. apply Z.mod_small. destruct m; cbn in CO; lia. }
    destruct (shd_exec left d r (OI src3w) (src3w mod n) s) as (s' & E1 & E2 & E3 & E4); auto.
    { cbn [rdo]. f_equal. apply Z.mod_small. destruct m; cbn in CO; lia. }
    exists s'. split; [|auto]. rewrite <- bytes_put2_ex. eapply RUN with (i := XShiftd left n (OR q) (want_reg w (fl 2) (AReg r) + 0) (OI src3w)).
    + intros rest. cbn [lebytes imm_size app le]. rewrite U. replace (src3w + 256 * 0) with src3w by lia. reflexivity.
    + exact Logic.I.
    + change (after_pre w (AReg d) 0 s) with s. replace (want_reg w (fl 2) (AReg r) + 0) with (reg_map w r) by (cbn; lia). rewrite S. exact E1.
Qed.
Lemma res_dsh : forall left x y t, 0 <= t < n -> res_into left n x y t mod 2 ^ n = dsh left n (x mod 2 ^ n) (y mod 2 ^ n) t mod 2 ^ n.
Proof.
  intros left x y t H. pose proof (into_alt m left x y t H) as E. cbv zeta in E. change (nbits m) with n in E.
  assert (N : 1 <= n <= 64) by (destruct m; cbn; lia).
  apply (f_equal (fun z => z mod 2 ^ n)) in E. unfold canon in E. rewrite !sext_lift in E by exact N. exact E.
Qed.
(** Immediate zero: nothing is emitted (X86C:2861-2862). *)
Definition into_zero (src3 : arg) (src3w : Z) : bool := is_imm src3 && (src3w mod n =? 0).
(** The operands for which the code is wrong. *)
Definition into_bad (dst src1 src2 : Z) (src3 : arg) (src3w : Z) : bool :=
  if into_zero src3 src3w then negb (dst =? src1)
  else if src1 =? src2 then shift_bad (AReg dst) src3 src3w
  else negb (dst =? P) && negb (dst =? src1) && (depends src3 dst || (arg_eqb (AReg dst) src3 && (src1 =? P))).
Definition into_post (left : bool) (dst src1 src2 : Z) (src3 : arg) (src3w : Z) (s s' : xst) : Prop :=
  rv s' dst mod 2 ^ n = res_into left n (rv s src1) (rv s src2) (xval w n s src3 src3w mod n) mod 2 ^ n
  /\ (into_zero src3 src3w = false -> rv s' dst < 2 ^ n) /\ only w (dst :: TMPS) s s'.
Lemma into_fin : forall left dst src1 src2 src3 src3w s s1, let t := xval w n s src3 src3w mod n in
  rv s1 dst = dsh left n (rv s src1 mod 2 ^ n) (rv s src2 mod 2 ^ n) t mod 2 ^ n -> only w (dst :: TMPS) s s1 -> into_post left dst src1 src2 src3 src3w s s1.
Proof.
  intros left dst src1 src2 src3 src3w s s1 t E O. assert (TR : 0 <= t < n) by (apply Z.mod_pos_bound; destruct m; reflexivity).
  split; [|split; [|exact O]].
  - rewrite E, nsize_mod. symmetry. apply res_dsh. exact TR.
  - intros _. rewrite E. apply Z.mod_pos_bound. destruct m; reflexivity.
Qed.
Lemma movP_ok : forall S Sw s, sok S Sw -> xwf s -> does u (emit_mov w m (AReg P) 0 S Sw) s (fun s' => only w [P; TMP_REG2] s s' /\ rv s' P = xval w n s S Sw).
Proof.
  intros S Sw s K W. eapply does_conseq; [apply movr_ok; [unfold PREF_SHIFT_REG, R3; lia|exact K|exact W]|]. intros s' _ (A & B & _). split; [|exact B].
  eapply only_weaken; [exact A|]. intros x [X|X]; [left; exact X|]. right. unfold ftmp in X. destruct (far S Sw); [exact X|destruct X].
Qed.
Lemma movrr_ok : forall d e s, 1 <= d <= 16 -> 1 <= e <= 16 -> xwf s -> does u (emit_mov w m (AReg d) 0 (AReg e) 0) s (fun s' => only w [d] s s' /\ rv s' d = rv s e mod 2 ^ n).
Proof.
  intros d e s D E W. eapply does_conseq; [apply movr_ok; [exact D|exact E|exact W]|]. intros s' _ (A & B & _). split; [exact A|exact B].
Qed.
Lemma cntP' : forall s, cntval m s (AReg P) 0 = rv s P mod n. Proof. intros s. cbn [cntval]. rewrite pref_rcx. reflexivity. Qed.
Lemma only2 : forall L1 L2 L s s1 s2, only w L1 s s1 -> only w L2 s1 s2 -> incl L1 L -> incl L2 L -> only w L s s2.
Proof. intros. eapply X86Op1.only_trans; eauto. Qed.
Lemma two_tmps : forall d, incl [d] (d :: TMPS). Proof. intros d x [X|[]]. left. exact X. Qed.
Ltac num := unfold PREF_SHIFT_REG, R3, TMP_REG1, TMP_REG2, TMPS, xureg in *.
Ltac inl := let x := fresh in let H := fresh in intros x H; simpl in H |- *; num; simpl in *; intuition.
(** The case of SLJIT_R3 as destination, X86C:2884-2907. *)
Lemma into_p : forall left src1 src2 src3 src3w s, xureg src1 -> xureg src2 -> src2 <> P -> xsrc_legal src3 src3w -> is_imm src3 = false -> xwf s ->
  does u ((emit_mov w m (AReg T) 0 (AReg src1) 0 +++ (if arg_eqb src3 (AReg P) then Some [] else emit_mov w m (AReg P) 0 src3 src3w))
    +++ shd_code left src2 T (if is_imm src3 then AImm else AReg P) src3w +++ Some [] +++ emit_mov w m (AReg P) 0 (AReg T) 0) s (into_post left P src1 src2 src3 src3w s).
Proof.
  intros left src1 src2 src3 src3w s R1 R2 N2 L3 I3 W. pose proof (src_sok _ _ L3) as K3. pose proof (src_apart _ _ L3) as AP. rewrite I3.
  assert (PN : P = 4) by reflexivity. assert (TN : T = 15) by reflexivity. unfold xureg in R1, R2.
  apply does_assoc.
  eapply does_seq; [apply movrr_ok; [lia|lia|exact W]|]. intros s1 W1 (O1 & V1).
  eapply does_seq with (P := fun s2 => only w [P; TMP_REG2] s1 s2 /\ rv s2 P mod n = xval w n s src3 src3w mod n).
  { destruct (arg_eqb src3 (AReg P)) eqn:E.
    - apply arg_eqb_eq in E. subst src3. apply does_nil; [exact W1|]. split; [apply only_refl|]. cbn [xval]. rewrite cnt_mod. rewrite (reg_keep w _ _ _ P O1); [reflexivity|lia|simpl; lia].
    - eapply does_conseq; [apply movP_ok; [exact K3|exact W1]|]. intros s2 _ (A & B). split; [exact A|]. rewrite B. f_equal.
      apply (xval_keep w n [T] s s1 src3 src3w K3 O1). eapply apart_incl; [exact AP|]. inl. }
  intros s2 W2 (O2 & V2).
  eapply does_seq; [apply (shd_ok left T src2 (AReg P) 0); [lia|lia|reflexivity|exact W2]|]. intros s3 W3 (O3 & V3). rewrite cntP', V2 in V3.
  rewrite (reg_keep w _ _ _ T O2), V1, nsize_mod in V3 by (try lia; simpl; num; lia).
  rewrite (reg_keep w _ _ _ src2 O2), (reg_keep w _ _ _ src2 O1) in V3 by (try lia; simpl; num; lia).
  eapply does_seq with (P := fun s' => s' = s3); [apply does_nil; auto|]. intros s4 W4 ->.
  eapply does_conseq; [apply movrr_ok; [lia|lia|exact W3]|]. intros s5 _ (O5 & V5). apply into_fin.
  - rewrite V5, V3, nsize_mod. reflexivity.
  - pose proof (only2 _ _ (P :: TMPS) _ _ _ O1 O2 ltac:(inl) ltac:(inl)) as O12. pose proof (only2 _ _ (P :: TMPS) _ _ _ O12 O3 ltac:(inl) ltac:(inl)) as O13.
    exact (only2 _ _ (P :: TMPS) _ _ _ O13 O5 ltac:(inl) ltac:(inl)).
Qed.
(** The other destinations, X86C:2908-2975. *)
Lemma into_d : forall left dst src1 src2 src3 src3w s, xureg dst -> xureg src1 -> xureg src2 -> dst <> src2 -> src1 <> src2 -> xsrc_legal src3 src3w -> shcnt m src3 src3w ->
  (dst <> P \/ is_imm src3 = true \/ src3 = AReg P /\ src1 = P) -> (dst <> P -> dst <> src1 -> ~ In dst (uses src3) \/ src3 = AReg dst /\ src1 <> P) -> xwf s ->
  let save := (src2 =? P) && negb (is_imm src3) && negb (arg_eqb src3 (AReg P)) in
  let move0 := negb (dst =? src1) && negb (arg_eqb (AReg dst) src3) in
  let move1 := negb (dst =? src1) && arg_eqb (AReg dst) src3 in
  let cnt := negb (is_imm src3) && negb (arg_eqb src3 (AReg P)) in
  does u (((if save then emit_mov w false (AReg T) 0 (AReg P) 0 else Some []) +++ (if move0 then emit_mov w m (AReg dst) 0 (AReg src1) 0 else Some [])
      +++ (if cnt then (if save then Some [] else emit_mov w false (AReg T) 0 (AReg P) 0) +++ emit_mov w m (AReg P) 0 src3 src3w else Some [])
      +++ (if move1 then emit_mov w m (AReg dst) 0 (AReg src1) 0 else Some []))
    +++ shd_code left (if save then T else src2) dst src3 src3w
    +++ (if cnt then emit_mov w false (AReg P) 0 (AReg T) 0 else Some []) +++ Some []) s (into_post left dst src1 src2 src3 src3w s).
Proof.
  intros left dst src1 src2 src3 src3w s RD R1 R2 ND N12 L3 SC CS SB W save move0 move1 cnt. pose proof (src_sok _ _ L3) as K3. pose proof (src_apart _ _ L3) as AP.
  assert (PN : P = 4) by reflexivity. assert (TN : T = 15) by reflexivity. unfold xureg in RD, R1, R2.
  assert (MV : forall (b : bool) t, xwf t -> does u (if b then emit_mov w m (AReg dst) 0 (AReg src1) 0 else Some []) t (fun t' => only w [dst] t t' /\ (b = false -> t' = t) /\ (b = true -> rv t' dst = rv t src1 mod 2 ^ n))).
  { intros [|] t Wt; [|apply does_nil; [exact Wt|split; [apply only_refl|split; [reflexivity|discriminate]]]].
    eapply does_conseq; [apply movrr_ok; [lia|lia|exact Wt]|]. intros t' _ (A & B). split; [exact A|]. split; [discriminate|auto]. }
  assert (SV : forall (b : bool) t, xwf t -> does u (if b then emit_mov w false (AReg T) 0 (AReg P) 0 else Some []) t (fun t' => only w [T] t t' /\ (b = false -> t' = t) /\ (b = true -> rv t' T = rv t P))).
  { intros [|] t Wt; [|apply does_nil; [exact Wt|split; [apply only_refl|split; [reflexivity|discriminate]]]].
    eapply does_conseq; [apply mov64; [lia|lia|exact Wt]|]. intros t' _ (A & B & _). split; [exact A|]. split; [discriminate|auto]. }
  destruct cnt eqn:CN.
  - (* the amount is moved to rcx *)
    unfold cnt in CN. apply andb_prop in CN. destruct CN as (C1 & C2). apply negb_true_iff in C1. apply negb_true_iff in C2.
    assert (DP : dst <> P). { destruct CS as [X|[X|(X & _)]]; [exact X|congruence|]. subst src3. rewrite arg_eqb_refl in C2. discriminate. }
    assert (SVE : save = (src2 =? P)) by (unfold save; rewrite C1, C2; cbn [negb]; rewrite !andb_true_r; reflexivity).
    apply does_assoc. eapply does_seq; [apply (SV save); exact W|]. intros s1 W1 (O1 & V1a & V1b).
    apply does_assoc. eapply does_seq; [apply (MV move0); exact W1|]. intros s2 W2 (O2 & V2a & V2b).
    apply does_assoc. 
    eapply does_seq with (P := fun s4 => only w [T; P; TMP_REG2] s2 s4 /\ rv s4 T = rv s P /\ rv s4 P = xval w n s src3 src3w).
    { eapply does_seq with (P := fun s3 => only w [T] s2 s3 /\ rv s3 T = rv s P).
      { destruct save eqn:SE.
        - apply does_nil; [exact W2|]. split; [apply only_refl|]. rewrite (reg_keep w _ _ _ T O2) by (try lia; simpl; lia). auto.
        - eapply does_conseq; [apply mov64; [lia|lia|exact W2]|]. intros s3 _ (A & B & _). split; [exact A|]. rewrite B, (reg_keep w _ _ _ P O2) by (try lia; simpl; lia). rewrite (V1a eq_refl). reflexivity. }
      intros s3 W3 (O3 & V3). eapply does_conseq; [apply movP_ok; [exact K3|exact W3]|]. intros s4 _ (O4 & V4). split; [|split].
      - eapply only2; [exact O3|exact O4|inl|inl].
      - rewrite (reg_keep w _ _ _ T O4) by (try lia; simpl; num; lia). exact V3.
      - rewrite V4. rewrite (xval_keep w n [T] s2 s3 src3 src3w K3 O3) by (eapply apart_incl; [exact AP|inl]).
        destruct move0 eqn:M0.
        + rewrite (xval_keep w n [dst] s1 s2 src3 src3w K3 O2).
          * apply (xval_keep w n [T] s s1 src3 src3w K3 O1). eapply apart_incl; [exact AP|inl].
          * unfold move0 in M0. apply andb_prop in M0. destruct M0 as (M1 & M2). apply negb_true_iff in M1, M2. apply Z.eqb_neq in M1.
            intros q Q Q0 [X|[]]. subst q. destruct (SB DP M1) as [Y|(Y & _)]; [contradiction|]. subst src3. rewrite arg_eqb_refl in M2. discriminate.
        + rewrite (V2a eq_refl). apply (xval_keep w n [T] s s1 src3 src3w K3 O1). eapply apart_incl; [exact AP|inl]. }
    intros s4 W4 (O4 & V4 & V4p).
    eapply does_seq; [apply (MV move1); exact W4|]. intros s5 W5 (O5 & V5a & V5b).
    assert (D5 : rv s5 dst mod 2 ^ n = rv s src1 mod 2 ^ n).
    { destruct (Z.eq_dec dst src1) as [E|E].
      - assert (M0 : move0 = false) by (unfold move0; rewrite E, Z.eqb_refl; reflexivity). assert (M1 : move1 = false) by (unfold move1; rewrite E, Z.eqb_refl; reflexivity).
        rewrite (V5a M1). rewrite (reg_keep w _ _ _ dst O4), (V2a M0), (reg_keep w _ _ _ dst O1) by (try lia; simpl; num; lia). rewrite E. reflexivity.
      - destruct (Sumbool.sumbool_of_bool (arg_eqb (AReg dst) src3)) as [Q|Q].
        + assert (M0 : move0 = false) by (unfold move0; rewrite Q; apply andb_false_r).
          assert (M1 : move1 = true) by (unfold move1; rewrite Q; rewrite (proj2 (Z.eqb_neq dst src1) E); reflexivity).
          apply arg_eqb_eq in Q. destruct (SB DP E) as [Y|(_ & Y)]; [exfalso; apply Y; rewrite <- Q; left; reflexivity|].
          rewrite (V5b M1), nsize_mod. rewrite (reg_keep w _ _ _ src1 O4), (V2a M0), (reg_keep w _ _ _ src1 O1) by (try lia; simpl; num; lia). reflexivity.
        + assert (M0 : move0 = true) by (unfold move0; rewrite Q; rewrite (proj2 (Z.eqb_neq dst src1) E); reflexivity).
          assert (M1 : move1 = false) by (unfold move1; rewrite Q; apply andb_false_r).
          rewrite (V5a M1), (reg_keep w _ _ _ dst O4), (V2b M0), nsize_mod, (reg_keep w _ _ _ src1 O1) by (try lia; simpl; num; lia). reflexivity. }
    assert (Y5 : rv s5 (if save then T else src2) = rv s src2).
    { destruct save eqn:SE.
      - symmetry in SVE. apply Z.eqb_eq in SVE. rewrite (reg_keep w _ _ _ T O5) by (try lia; simpl; lia). rewrite V4, SVE. reflexivity.
      - symmetry in SVE. apply Z.eqb_neq in SVE. rewrite (reg_keep w _ _ _ src2 O5), (reg_keep w _ _ _ src2 O4), (reg_keep w _ _ _ src2 O2), (reg_keep w _ _ _ src2 O1) by (try lia; simpl; num; lia). reflexivity. }
    assert (T5 : rv s5 T = rv s P) by (rewrite (reg_keep w _ _ _ T O5) by (try lia; simpl; lia); exact V4).
    assert (P5 : rv s5 P = xval w n s src3 src3w) by (rewrite (reg_keep w _ _ _ P O5) by (try lia; simpl; lia); exact V4p).
    replace (shd_code left (if save then T else src2) dst src3 src3w) with (shd_code left (if save then T else src2) dst (AReg P) 0) by (unfold shd_code; rewrite C1; reflexivity).
    eapply does_seq; [apply (shd_ok left dst _ (AReg P) 0); [lia|destruct save; lia|reflexivity|exact W5]|]. intros s6 W6 (O6 & V6). rewrite cntP', P5, D5, Y5 in V6.
    apply does_nil_r. eapply does_conseq; [apply mov64; [lia|lia|exact W6]|]. intros s7 _ (O7 & V7 & _). apply into_fin.
    + rewrite (reg_keep w _ _ _ dst O7) by (try lia; simpl; lia). exact V6.
    + assert (RP : rv s7 P = rv s P). { rewrite V7, (reg_keep w _ _ _ T O6) by (try lia; simpl; lia). exact T5. }
      apply only_reg_drop with (r := P); [|lia|exact RP].
      pose proof (only2 _ _ (P :: dst :: TMPS) _ _ _ O1 O2 ltac:(inl) ltac:(inl)) as O12. pose proof (only2 _ _ (P :: dst :: TMPS) _ _ _ O12 O4 ltac:(inl) ltac:(inl)) as O14.
      pose proof (only2 _ _ (P :: dst :: TMPS) _ _ _ O14 O5 ltac:(inl) ltac:(inl)) as O15. pose proof (only2 _ _ (P :: dst :: TMPS) _ _ _ O15 O6 ltac:(inl) ltac:(inl)) as O16.
      exact (only2 _ _ (P :: dst :: TMPS) _ _ _ O16 O7 ltac:(inl) ltac:(inl)).
  - (* immediate, or already in rcx *)
    assert (IP : is_imm src3 || arg_eqb src3 (AReg P) = true) by (unfold cnt in CN; destruct (is_imm src3), (arg_eqb src3 (AReg P)); try reflexivity; discriminate).
    assert (SE : save = false) by (unfold save; destruct (is_imm src3), (arg_eqb src3 (AReg P)); try discriminate; rewrite ?andb_false_r; reflexivity). rewrite SE.
    assert (CO : cntok m src3 src3w /\ cntval m s src3 src3w = xval w n s src3 src3w mod n).
    { destruct src3 as [q| |? ?]; try discriminate.
      - cbn [is_imm orb] in IP. apply arg_eqb_eq in IP. injection IP as ->. split; [reflexivity|]. cbn [cntval xval]. rewrite pref_rcx, cnt_mod. reflexivity.
      - split; [exact SC|]. cbn [cntval xval]. rewrite cnt_mod. reflexivity. }
    assert (M1 : move1 = false).
    { unfold move1. destruct (Sumbool.sumbool_of_bool (arg_eqb (AReg dst) src3)) as [Q|Q]; [|rewrite Q; apply andb_false_r]. apply arg_eqb_eq in Q. subst src3. cbn [is_imm orb] in IP. apply arg_eqb_eq in IP. injection IP as IP.
      destruct CS as [X|[X|(_ & X)]]; [congruence|discriminate|]. rewrite IP, X, Z.eqb_refl. reflexivity. }
    assert (DC : dst <> src1 -> src3 = AReg P -> dst <> P). { intros A B C. destruct CS as [X|[X|(_ & X)]]; [congruence|subst src3; discriminate|congruence]. }
    rewrite M1. apply does_assoc. eapply does_seq with (P := fun s' => s' = s); [apply does_nil; auto|]. intros s0 W0 ->.
    apply does_assoc. eapply does_seq; [apply (MV move0); exact W|]. intros s2 W2 (O2 & V2a & V2b).
    eapply does_seq with (P := fun s' => s' = s2).
    { eapply does_seq with (P := fun s' => s' = s2); [apply does_nil; auto|]. intros s3 W3 ->. apply does_nil; auto. }
    intros s3 W3 ->.
    assert (D2 : rv s2 dst mod 2 ^ n = rv s src1 mod 2 ^ n).
    { destruct (Z.eq_dec dst src1) as [E|E].
      - rewrite V2a; [rewrite E; reflexivity|]. unfold move0. rewrite E, Z.eqb_refl. reflexivity.
      - assert (M0 : move0 = true). { unfold move0 in *. unfold move1 in M1. rewrite (proj2 (Z.eqb_neq dst src1) E) in *. cbn [negb andb] in *. rewrite M1. reflexivity. }
        rewrite (V2b M0). apply nsize_mod. }
    assert (Y2 : rv s2 src2 = rv s src2) by (apply (reg_keep w _ _ _ src2 O2); [lia|simpl; lia]).
    assert (C2 : cntval m s2 src3 src3w = xval w n s src3 src3w mod n).
    { rewrite <- (proj2 CO). destruct src3 as [q| |? ?]; try discriminate; [|reflexivity]. cbn [is_imm orb] in IP. apply arg_eqb_eq in IP. injection IP as ->.
      cbn [cntval]. f_equal. rewrite <- (pref_rcx w). destruct (Z.eq_dec dst src1) as [E|E].
      - rewrite V2a; [reflexivity|]. unfold move0. rewrite E, Z.eqb_refl. reflexivity.
      - apply (reg_keep w _ _ _ P O2); [lia|]. specialize (DC E eq_refl). simpl. lia. }
    eapply does_seq; [apply (shd_ok left dst src2 src3 src3w); [lia|lia|apply CO|exact W2]|]. intros s6 W6 (O6 & V6). rewrite C2, D2, Y2 in V6.
    apply does_nil_r. apply does_nil; [exact W6|]. apply into_fin; [exact V6|].
    exact (only2 _ _ (dst :: TMPS) _ _ _ O2 O6 ltac:(inl) ltac:(inl)).
Qed.
Definition masked (src3 : arg) (src3w : Z) : Z := if is_imm src3 then src3w mod n else src3w.
Lemma masked_land : forall v, Z.land v (if m then 0x1f else 0x3f) = v mod n.
Proof. intros v. destruct m; [exact (Z.land_ones v 5 ltac:(lia))|exact (Z.land_ones v 6 ltac:(lia))]. Qed.
Lemma masked_val : forall s src3 src3w, xval w n s src3 (masked src3 src3w) mod n = xval w n s src3 src3w mod n.
Proof. intros s src3 src3w. unfold masked. destruct src3; cbn [is_imm xval]; try reflexivity. rewrite !cnt_mod. apply Z.mod_mod. destruct m; discriminate. Qed.
Lemma masked_legal : forall src3 src3w, xsrc_legal src3 src3w -> xsrc_legal src3 (masked src3 src3w) /\ shcnt m src3 (masked src3 src3w).
Proof.
  intros src3 src3w L. unfold masked. destruct src3 as [q| |b o]; cbn [is_imm]; try (split; [exact L|exact Logic.I]).
  assert (0 <= src3w mod n < n) by (apply Z.mod_pos_bound; destruct m; reflexivity). simpl. destruct m; cbn in *; lia.
Qed.
Lemma post_masked : forall left dst src1 src2 src3 src3w s s', into_zero src3 src3w = false -> into_post left dst src1 src2 src3 (masked src3 src3w) s s' -> into_post left dst src1 src2 src3 src3w s s'.
Proof.
  intros left dst src1 src2 src3 src3w s s' Z0 (A & B & C). rewrite masked_val in A. split; [exact A|]. split; [|exact C]. intros _. apply B.
  unfold into_zero in *. unfold masked. destruct (is_imm src3); [|reflexivity]. cbn [andb] in *. rewrite Z.mod_mod by (destruct m; discriminate). exact Z0.
Qed.
Theorem into_ok : forall left dst src1 src2 src3 src3w s, xureg dst -> xureg src1 -> xureg src2 -> dst <> src2 -> xsrc_legal src3 src3w ->
  into_bad dst src1 src2 src3 src3w = false -> xwf s ->
  does u (emit_shift_into w m left dst src1 src2 src3 src3w) s (into_post left dst src1 src2 src3 src3w s).
Proof.
  intros left dst src1 src2 src3 src3w s RD R1 R2 ND L3 NB W. unfold emit_shift_into. rewrite masked_land.
  change (if is_imm src3 then src3w mod n else src3w) with (masked src3 src3w). unfold into_bad in NB.
  assert (Z0 : is_imm src3 && (masked src3 src3w =? 0) = into_zero src3 src3w) by (unfold masked, into_zero; destruct (is_imm src3); reflexivity).
  cbv zeta. rewrite Z0. destruct (into_zero src3 src3w) eqn:ZE.
  - apply negb_false_iff, Z.eqb_eq in NB. subst src1. apply does_nil; [exact W|].
    split; [|split; [congruence|apply only_refl]]. unfold into_zero in ZE. apply andb_prop in ZE. destruct ZE as (I & E). apply Z.eqb_eq in E.
    assert (T0 : xval w n s src3 src3w mod n = 0). { destruct src3; try discriminate. cbn [xval]. rewrite cnt_mod. exact E. }
    assert (PB : forall z, 0 <= z mod 2 ^ n < 2 ^ n) by (intros; apply Z.mod_pos_bound; destruct m; reflexivity).
    rewrite T0, res_dsh by (destruct m; cbn; lia). rewrite dsh_0; [symmetry; apply nsize_mod|destruct m; cbn; lia|apply PB|apply PB].
  - destruct (masked_legal _ _ L3) as (L3' & SC).
    destruct (Z.eqb_spec src1 src2) as [E|E].
    + subst src2. assert (X1 : xsrc_legal (AReg src1) 0) by (split; [exact R1|reflexivity]).
      replace (if left then 0 else 8) with (8 * smode (if left then Rol else Ror)) by (destruct left; reflexivity).
      eapply does_conseq; [apply (shifts_ok u w m (if left then Rol else Ror) (AReg dst) 0 (AReg src1) 0 src3 (masked src3 src3w)); auto|].
      { left. split; [exact RD|reflexivity]. } { unfold shift_bad in *. unfold masked. destruct src3; cbn [is_imm]; [exact NB|reflexivity|exact NB]. }
      intros s' _ (A & _). destruct (wrote_reg_only _ _ _ _ _ _ _ _ A) as (A1 & A2). rewrite masked_val in A2. cbn [xval] in A2.
      apply into_fin; [|exact A1]. rewrite A2. destruct left; reflexivity.
    + eapply does_conseq with (P := into_post left dst src1 src2 src3 (masked src3 src3w) s); [|intros s' _ H; apply post_masked; assumption].
      destruct ((dst =? P) && negb (is_imm src3) && (negb (arg_eqb src3 (AReg P)) || negb (src1 =? P))) eqn:C.
      * apply andb_prop in C. destruct C as (C & C3). apply andb_prop in C. destruct C as (C1 & C2). apply Z.eqb_eq in C1. apply negb_true_iff in C2.
        subst dst. pose proof (into_p left src1 src2 src3 (masked src3 src3w) s R1 R2 ltac:(congruence) L3' C2 W) as H.
        unfold shd_code in H. rewrite C2 in *. cbn [is_imm] in H. change (T =? P) with false. cbv iota. exact H.
      * assert (CS : dst <> P \/ is_imm src3 = true \/ src3 = AReg P /\ src1 = P).
        { destruct (Z.eqb_spec dst P) as [Q|Q]; [|auto]. cbn [andb] in C. destruct (is_imm src3); [auto|]. cbn [negb andb] in C. apply orb_false_elim in C. destruct C as (C1 & C2).
          apply negb_false_iff in C1, C2. apply arg_eqb_eq in C1. apply Z.eqb_eq in C2. auto. }
        assert (SB : dst <> P -> dst <> src1 -> ~ In dst (uses src3) \/ src3 = AReg dst /\ src1 <> P).
        { intros DP D1. rewrite (proj2 (Z.eqb_neq dst P) DP), (proj2 (Z.eqb_neq dst src1) D1) in NB. cbn [negb andb] in NB. apply orb_false_elim in NB. destruct NB as (NB1 & NB2).
          destruct (arg_eqb (AReg dst) src3) eqn:Q.
          - right. apply arg_eqb_eq in Q. split; [auto|]. cbn [andb] in NB2. apply Z.eqb_neq. exact NB2.
          - left. apply depends_uses; [exact NB1|]. intros ->. rewrite arg_eqb_refl in Q. discriminate. }
        pose proof (into_d left dst src1 src2 src3 (masked src3 src3w) s RD R1 R2 ND E L3' SC CS SB W) as H. cbv zeta in H. unfold shd_code in H.
        assert (F : (if negb (dst =? src1) && negb (arg_eqb (AReg dst) src3) || negb (dst =? src1) && arg_eqb (AReg dst) src3 then dst else src1) = dst).
        { destruct (Z.eqb_spec dst src1) as [Q|Q]; cbn [negb andb orb]; [auto|]. destruct (arg_eqb (AReg dst) src3); reflexivity. }
        rewrite F, Z.eqb_refl. exact H.
Qed.
End U.
