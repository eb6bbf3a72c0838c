(** Straight-line execution of pushed instructions, its relation to the machine, and one execution rule
    per instruction form used by the backend. *)
Require Import ZArith List Bool Lia Zify ZifyBool.
From Verif Require Import Rv.RvLib Rv.RvIsa Rv.RvEnc.
Import ListNotations.
Open Scope Z_scope.

(** Registers seen through [reg_map]. *)
Definition vreg (r : Z) : Prop := 0 <= r <= 31.
Definition rd (s : mst) (r : Z) : Z := getr s (reg_map r).
Definition wr (s : mst) (r v : Z) : mst := setr s (reg_map r) v.

Definition decode_piece (p : piece) : option instr :=
  match p with
  | P16 w => if fld (u16 w) 0 2 =? 3 then None else decode16 (u16 w)
  | P32 w => if fld w 0 2 =? 3 then decode32 (u32 w) else None
  end.

(** The effect of an instruction that is not a jump, without the pc. *)
Definition exec_s (i : instr) (s : mst) : option mst :=
  match i with
  | IBin o rd rs1 rs2 => Some (setr s rd (alu o (getr s rs1) (getr s rs2)))
  | IBinW o rd rs1 rs2 => Some (setr s rd (aluw o (getr s rs1) (getr s rs2)))
  | IImm o rd rs1 imm => Some (setr s rd (alui o (getr s rs1) imm))
  | ISh o rd rs1 sh => Some (setr s rd (alush o (getr s rs1) sh))
  | IUn o rd rs1 => Some (setr s rd (aluun o (getr s rs1)))
  | ILui rd imm => Some (setr s rd (wrap imm))
  | ILoad sz sg rd rs1 imm =>
    let v := load (mem s) (getr s rs1 + imm) (bytes sz) in
    Some (setr s rd (if sg then wrap (sext (bits sz) v) else v))
  | IStore sz rs2 rs1 imm => Some (setm s (store (mem s) (getr s rs1 + imm) (getr s rs2) (bytes sz)))
  | IFld frd rs1 imm => Some (setf s frd (load (mem s) (getr s rs1 + imm) 8))
  | IFsd frs2 rs1 imm => Some (setm s (store (mem s) (getr s rs1 + imm) (fregs s frs2) 8))
  | IFence => Some s
  | _ => None
  end.
Fixpoint run (l : list piece) (s : mst) : option mst :=
  match l with
  | [] => Some s
  | p :: l =>
    match decode_piece p with
    | Some i => match exec_s i s with Some s' => run l s' | None => None end
    | None => None
    end
  end.

Lemma setr_pc s r v : pc (setr s r v) = pc s.
Proof. unfold setr. destruct (r =? 0); reflexivity. Qed.
Lemma exec_s_exec i s s' len : exec_s i s = Some s' -> exec i len s = Some (setpc s' (wrap (pc s + len))) /\ pc s' = pc s.
Proof.
  destruct i; cbn; intros H; inversion H; subst; clear H; rewrite ?setr_pc; auto.
Qed.

(** [units] placed in the instruction memory at [a]. *)
Definition code_at (code : Z -> Z) (a : Z) (l : list Z) : Prop :=
  forall n v, nth_error l n = Some v -> code (wrap (a + 2 * Z.of_nat n)) = v.

Lemma code_at_app code a l1 l2 :
  code_at code a (l1 ++ l2) <-> code_at code a l1 /\ code_at code (a + 2 * Z.of_nat (length l1)) l2.
Proof.
  split.
  - intros H. split; intros n v E.
    + apply H. rewrite nth_error_app1; auto. apply nth_error_Some. congruence.
    + replace (a + 2 * Z.of_nat (length l1) + 2 * Z.of_nat n) with (a + 2 * Z.of_nat (length l1 + n)) by lia.
      apply H. rewrite nth_error_app2 by lia. replace (length l1 + n - length l1)%nat with n by lia. auto.
  - intros (H1 & H2) n v E. destruct (Nat.lt_ge_cases n (length l1)).
    + rewrite nth_error_app1 in E by auto. auto.
    + rewrite nth_error_app2 in E by auto. specialize (H2 _ _ E).
      replace (a + 2 * Z.of_nat n) with (a + 2 * Z.of_nat (length l1) + 2 * Z.of_nat (n - length l1)) by lia. auto.
Qed.
Lemma code_at_wrap code a l : code_at code (wrap a) l <-> code_at code a l.
Proof.
  unfold code_at. split; intros H n v E; specialize (H n v E).
  - rewrite wrap_add_l in H. auto.
  - rewrite wrap_add_l. auto.
Qed.

Lemma u16_isw x : u16 x mod 2 ^ 16 = u16 x.
Proof. unfold u16. apply Zmod_mod. Qed.
Lemma split32 w : u16 w + u16 (Z.shiftr w 16) * 2 ^ 16 = u32 w.
Proof. unfold u16, u32. rewrite Z.shiftr_div_pow2 by lia. change (2 ^ 32) with (2 ^ 16 * 2 ^ 16).
  rewrite Z.rem_mul_r by lia. lia. Qed.
Lemma fld_u16 w n : 0 <= n <= 16 -> fld (u16 w) 0 n = fld w 0 n.
Proof.
  intros. rewrite !fld_div by lia. rewrite !Z.pow_0_r, !Z.div_1_r. unfold u16.
  replace (2 ^ 16) with (2 ^ n * 2 ^ (16 - n)). 2:{ rewrite <- Z.pow_add_r by lia. f_equal. lia. }
  assert (0 < 2 ^ n) by (apply Z.pow_pos_nonneg; lia). assert (0 < 2 ^ (16 - n)) by (apply Z.pow_pos_nonneg; lia).
  rewrite Z.rem_mul_r by lia.
  rewrite (Z.mul_comm (2 ^ n)), Z_mod_plus_full, Zmod_mod. reflexivity.
Qed.

Lemma fetch_piece code a p i :
  decode_piece p = Some i -> isw a -> code_at code a (units p) ->
  fetch code a = Some (i, 2 * Z.of_nat (length (units p))).
Proof.
  intros D Wa H. unfold fetch.
  assert (H0 := H 0%nat). assert (H1 := H 1%nat).
  rewrite Z.mul_0_r, Z.add_0_r, wrap_small in H0 by auto. change (2 * Z.of_nat 1) with 2 in H1.
  destruct p as [w|w]; unfold units in *; cbn [nth_error decode_piece length] in *.
  - rewrite (H0 _ eq_refl). destruct (fld (u16 w) 0 2 =? 3); [discriminate|].
    rewrite u16_isw, D. reflexivity.
  - rewrite (H0 _ eq_refl), (H1 _ eq_refl). rewrite fld_u16 by lia. destruct (fld w 0 2 =? 3); [|discriminate].
    rewrite !u16_isw, split32, D. reflexivity.
Qed.

Lemma run_steps code l : forall s s',
  run l s = Some s' -> isw (pc s) -> code_at code (pc s) (units_of l) ->
  steps code s (setpc s' (wrap (pc s + 2 * Z.of_nat (length (units_of l))))) /\ pc s' = pc s.
Proof.
  induction l as [|p l IH]; intros s s' R Wp H; cbn in R.
  - inversion R; subst. split; auto. cbn. rewrite Z.add_0_r, wrap_small by auto.
    replace (setpc s' (pc s')) with s' by (destruct s'; reflexivity). constructor.
  - destruct (decode_piece p) as [i|] eqn:D; [|discriminate].
    destruct (exec_s i s) as [s1|] eqn:E; [|discriminate].
    cbn [units_of flat_map] in H. fold (units_of l) in H. apply code_at_app in H. destruct H as (Ha & Hb).
    pose proof (fetch_piece code (pc s) p i D Wp Ha) as F.
    destruct (exec_s_exec i s s1 (2 * Z.of_nat (length (units p))) E) as (X & P1).
    assert (Gen : forall l s s' q, run l s = Some s' -> run l (setpc s q) = Some (setpc s' q)).
    { clear. intros l. induction l as [|a l IH]; intros s s' q R; cbn in *.
      - inversion R; reflexivity.
      - destruct (decode_piece a) as [i|]; [|discriminate].
        destruct (exec_s i s) as [s1|] eqn:E; [|discriminate].
        assert (E' : exec_s i (setpc s q) = Some (setpc s1 q)).
        { clear - E. destruct i; cbn in *; inversion E; subst; clear E; unfold setr, getr, setpc, setm, setf;
            cbn; try (destruct (rd0 =? 0)); try reflexivity. }
        rewrite E'. auto. }
    specialize (Gen l s1 s' (wrap (pc s + 2 * Z.of_nat (length (units p)))) R).
    destruct (IH _ _ Gen) as (S1 & P2).
    + cbn. apply wrap_isw.
    + cbn. rewrite code_at_wrap. exact Hb.
    + cbn [pc setpc] in S1. split.
      * eapply steps_step. { unfold step. rewrite F. exact X. }
        replace (setpc (setpc s' _) _) with (setpc s' (wrap (pc s + 2 * Z.of_nat (length (units_of (p :: l)))))) in S1.
        { exact S1. }
        unfold setpc; cbn [regs fregs mem pc]. f_equal. rewrite wrap_add_l. f_equal.
        change (units_of (p :: l)) with (units p ++ units_of l).
        rewrite app_length. lia.
      * clear - R P1. revert s1 R P1. induction l as [|a l IH]; intros s1 R P1; cbn in R.
        { inversion R; subst; auto. }
        destruct (decode_piece a) as [i|]; [|discriminate].
        destruct (exec_s i s1) as [s2|] eqn:E; [|discriminate].
        destruct (exec_s_exec i s1 s2 0 E) as (_ & P). apply (IH s2); congruence.
Qed.

Lemma run_app l1 : forall l2 s s1, run l1 s = Some s1 -> run (l1 ++ l2) s = run l2 s1.
Proof.
  induction l1 as [|p l1 IH]; intros l2 s s1 H; cbn in *.
  - inversion H; reflexivity.
  - destruct (decode_piece p); [|discriminate]. destruct (exec_s i s); [|discriminate]. auto.
Qed.

(** ** Registers *)

Definition vregs : list Z := map Z.of_nat (seq 0 32).
Lemma vregs_in r : vreg r -> In r vregs.
Proof.
  unfold vreg, vregs. intros H. apply in_map_iff. exists (Z.to_nat r). split; [lia|]. apply in_seq. lia.
Qed.
Lemma reg_map_range r : vreg r -> 0 <= reg_map r < 32.
Proof.
  intros H. assert (B : forallb (fun r => (0 <=? reg_map r) && (reg_map r <? 32)) vregs = true) by (vm_compute; reflexivity).
  rewrite forallb_forall in B. specialize (B r (vregs_in r H)). lia.
Qed.
Lemma reg_map_eqb a b : vreg a -> vreg b -> (reg_map a =? reg_map b) = (a =? b).
Proof.
  intros Ha Hb.
  assert (B : forallb (fun a => forallb (fun b => Bool.eqb (reg_map a =? reg_map b) (a =? b)) vregs) vregs = true)
    by (vm_compute; reflexivity).
  rewrite forallb_forall in B. specialize (B a (vregs_in a Ha)). rewrite forallb_forall in B.
  specialize (B b (vregs_in b Hb)). apply Bool.eqb_prop in B. exact B.
Qed.
Lemma reg_map_all x : 0 <= x < 32 -> exists r, vreg r /\ reg_map r = x.
Proof.
  intros H. assert (B : forallb (fun x => existsb (fun r => reg_map r =? x) vregs) vregs = true) by (vm_compute; reflexivity).
  rewrite forallb_forall in B. specialize (B x (vregs_in x ltac:(unfold vreg; lia))). apply existsb_exists in B.
  destruct B as (r & I & E). exists r. split; [|lia]. unfold vregs in I. apply in_map_iff in I.
  destruct I as (n & <- & I). apply in_seq in I. unfold vreg. lia.
Qed.
Lemma vreg_0 : vreg 0. Proof. unfold vreg; lia. Qed.
Lemma rd_wr s r v q : vreg r -> vreg q -> rd (wr s r v) q = if (q =? r) && negb (q =? 0) then v else rd s q.
Proof.
  intros Hr Hq. unfold rd, wr, getr, setr. change 0 with (reg_map 0).
  rewrite !reg_map_eqb by auto using vreg_0. change (reg_map 0) with 0.
  destruct (r =? 0) eqn:E0.
  - destruct (q =? 0) eqn:E1; [rewrite andb_false_r; auto|]. destruct (q =? r) eqn:E; [lia|]. reflexivity.
  - cbn [regs]. unfold updf. rewrite reg_map_eqb by auto.
    destruct (q =? 0) eqn:E1; [rewrite andb_false_r; auto|]. destruct (q =? r); reflexivity.
Qed.
Lemma rd_wr_same s r v : vreg r -> r <> 0 -> rd (wr s r v) r = v.
Proof. intros H N. rewrite rd_wr by auto. rewrite Z.eqb_refl. destruct (r =? 0) eqn:E; [lia|reflexivity]. Qed.
Lemma rd_wr_other s r v q : vreg r -> vreg q -> q <> r -> rd (wr s r v) q = rd s q.
Proof. intros H Hq N. rewrite rd_wr by auto. destruct (q =? r) eqn:E; [lia|reflexivity]. Qed.
Lemma rd_0 s : rd s 0 = 0. Proof. reflexivity. Qed.
Lemma mem_wr s r v : mem (wr s r v) = mem s. Proof. unfold wr, setr. destruct (_ =? 0); reflexivity. Qed.
Lemma fregs_wr s r v : fregs (wr s r v) = fregs s. Proof. unfold wr, setr. destruct (_ =? 0); reflexivity. Qed.
Lemma pc_wr s r v : pc (wr s r v) = pc s. Proof. apply setr_pc. Qed.
Lemma rd_setm s m r : rd (setm s m) r = rd s r. Proof. reflexivity. Qed.

(** ** Fields of the operands *)

Lemma fld_shl_in x k m : 0 <= k -> 0 <= m -> 0 <= x < 2 ^ m -> fld (Z.shiftl x k) k m = x.
Proof.
  intros. rewrite fld_div, Z.shiftl_mul_pow2 by lia.
  rewrite Z.div_mul by (apply Z.pow_nonzero; lia). apply Z.mod_small. lia.
Qed.
Lemma fld_shl_low x k lo n : 0 <= lo -> 0 <= n -> lo + n <= k -> fld (Z.shiftl x k) lo n = 0.
Proof.
  intros. rewrite fld_div, Z.shiftl_mul_pow2 by lia.
  replace k with (lo + (n + (k - lo - n))) by lia. rewrite !Z.pow_add_r by lia.
  replace (x * (2 ^ lo * (2 ^ n * 2 ^ (k - lo - n)))) with (x * 2 ^ (k - lo - n) * 2 ^ n * 2 ^ lo) by ring.
  rewrite Z.div_mul by (apply Z.pow_nonzero; lia). apply Z_mod_mult.
Qed.
Lemma fld_shl_high x k m lo n : 0 <= k -> 0 <= m -> 0 <= n -> 0 <= x < 2 ^ m -> k + m <= lo -> fld (Z.shiftl x k) lo n = 0.
Proof.
  intros. rewrite fld_div, Z.shiftl_mul_pow2 by lia. rewrite Z.div_small. { apply Zmod_0_l. }
  assert (0 < 2 ^ k) by (apply Z.pow_pos_nonneg; lia). assert (0 < 2 ^ (lo - k - m)) by (apply Z.pow_pos_nonneg; lia).
  split. { nia. }
  replace lo with (k + m + (lo - k - m)) by lia. rewrite !Z.pow_add_r by lia.
  apply Z.lt_le_trans with (2 ^ k * 2 ^ m); nia.
Qed.

Lemma fld_RD_in r : vreg r -> fld (RD r) 7 5 = reg_map r.
Proof. intros. apply fld_shl_in; try lia. apply (reg_map_range r H). Qed.
Lemma fld_RD_lo r lo n : 0 <= lo -> 0 <= n -> lo + n <= 7 -> fld (RD r) lo n = 0.
Proof. intros. apply fld_shl_low; lia. Qed.
Lemma fld_RD_hi r lo n : vreg r -> 0 <= n -> 12 <= lo -> fld (RD r) lo n = 0.
Proof. intros. apply fld_shl_high with 5; try lia. apply (reg_map_range r H). Qed.
Lemma fld_RS1_in r : vreg r -> fld (RS1 r) 15 5 = reg_map r.
Proof. intros. apply fld_shl_in; try lia. apply (reg_map_range r H). Qed.
Lemma fld_RS1_lo r lo n : 0 <= lo -> 0 <= n -> lo + n <= 15 -> fld (RS1 r) lo n = 0.
Proof. intros. apply fld_shl_low; lia. Qed.
Lemma fld_RS1_hi r lo n : vreg r -> 0 <= n -> 20 <= lo -> fld (RS1 r) lo n = 0.
Proof. intros. apply fld_shl_high with 5; try lia. apply (reg_map_range r H). Qed.
Lemma fld_RS2_in r : vreg r -> fld (RS2 r) 20 5 = reg_map r.
Proof. intros. apply fld_shl_in; try lia. apply (reg_map_range r H). Qed.
Lemma fld_RS2_lo r lo n : 0 <= lo -> 0 <= n -> lo + n <= 20 -> fld (RS2 r) lo n = 0.
Proof. intros. apply fld_shl_low; lia. Qed.
Lemma fld_RS2_hi r lo n : vreg r -> 0 <= n -> 25 <= lo -> fld (RS2 r) lo n = 0.
Proof. intros. apply fld_shl_high with 5; try lia. apply (reg_map_range r H). Qed.

Lemma IMM_I_eq imm : IMM_I imm = Z.shiftl (imm mod 2 ^ 12) 20.
Proof.
  unfold IMM_I, u32. rewrite !Z.shiftl_mul_pow2 by lia. change (2 ^ 32) with (2 ^ 12 * 2 ^ 20).
  rewrite Zmult_mod_distr_r. reflexivity.
Qed.
Lemma fld_IMM_I_in imm : fld (IMM_I imm) 20 12 = imm mod 2 ^ 12.
Proof. rewrite IMM_I_eq. apply fld_shl_in; try lia. apply Z.mod_pos_bound. lia. Qed.
Lemma fld_IMM_I_lo imm lo n : 0 <= lo -> 0 <= n -> lo + n <= 20 -> fld (IMM_I imm) lo n = 0.
Proof. intros. rewrite IMM_I_eq. apply fld_shl_low; lia. Qed.
Lemma fld_IMM_I_sh6 imm : 0 <= imm < 64 -> fld (IMM_I imm) 20 6 = imm /\ fld (IMM_I imm) 26 6 = 0.
Proof.
  intros. rewrite IMM_I_eq. rewrite Z.mod_small by lia. split.
  - apply fld_shl_in; lia. - apply fld_shl_high with 6; lia.
Qed.
Lemma fld_IMM_I_sh5 imm : 0 <= imm < 32 -> fld (IMM_I imm) 20 5 = imm /\ fld (IMM_I imm) 25 7 = 0.
Proof.
  intros. rewrite IMM_I_eq. rewrite Z.mod_small by lia. split.
  - apply fld_shl_in; lia. - apply fld_shl_high with 5; lia.
Qed.

(** Words are below 2^32. *)
Lemma lor_lt a b n : 0 <= n -> 0 <= a < 2 ^ n -> 0 <= b < 2 ^ n -> 0 <= Z.lor a b < 2 ^ n.
Proof.
  intros Hn Ha Hb. split. { apply Z.lor_nonneg. lia. }
  destruct (Z.eq_dec (Z.lor a b) 0) as [->|N]; [lia|].
  apply Z.log2_lt_pow2. { assert (0 <= Z.lor a b) by (apply Z.lor_nonneg; lia). lia. }
  rewrite Z.log2_lor by lia.
  assert (L : forall x, 0 <= x < 2 ^ n -> x = 0 \/ Z.log2 x < n).
  { intros x Hx. destruct (Z.eq_dec x 0); auto. right. apply Z.log2_lt_pow2; lia. }
  destruct (L a Ha) as [->|La], (L b Hb) as [->|Lb].
  - exfalso. apply N. reflexivity.
  - rewrite Z.log2_nonpos by lia. pose proof (Z.log2_nonneg b). lia.
  - rewrite (Z.log2_nonpos 0) by lia. pose proof (Z.log2_nonneg a). lia.
  - lia.
Qed.
Lemma RD_lt r : vreg r -> 0 <= RD r < 2 ^ 32.
Proof. intros H. pose proof (reg_map_range r H). unfold RD. rewrite Z.shiftl_mul_pow2 by lia. lia. Qed.
Lemma RS1_lt r : vreg r -> 0 <= RS1 r < 2 ^ 32.
Proof. intros H. pose proof (reg_map_range r H). unfold RS1. rewrite Z.shiftl_mul_pow2 by lia. lia. Qed.
Lemma RS2_lt r : vreg r -> 0 <= RS2 r < 2 ^ 32.
Proof. intros H. pose proof (reg_map_range r H). unfold RS2. rewrite Z.shiftl_mul_pow2 by lia. lia. Qed.
Lemma IMM_I_lt i : 0 <= IMM_I i < 2 ^ 32.
Proof. unfold IMM_I, u32. apply Z.mod_pos_bound. lia. Qed.
Lemma u32_lt i : 0 <= u32 i < 2 ^ 32.
Proof. unfold u32. apply Z.mod_pos_bound. lia. Qed.
Lemma u32_small x : 0 <= x < 2 ^ 32 -> u32 x = x.
Proof. apply Z.mod_small. Qed.

Ltac wlt :=
  lazymatch goal with
  | |- 0 <= Z.lor _ _ < _ => apply lor_lt; [lia|wlt|wlt]
  | |- 0 <= RD _ < _ => apply RD_lt; assumption
  | |- 0 <= RS1 _ < _ => apply RS1_lt; assumption
  | |- 0 <= RS2 _ < _ => apply RS2_lt; assumption
  | |- 0 <= IMM_I _ < _ => apply IMM_I_lt
  | |- 0 <= u32 _ < _ => apply u32_lt
  | |- _ => assumption
  end.

(** The constant part of an instruction. *)
Definition cst (c : Z) : bool := (0 <=? c) && (c <? 2 ^ 32).
Lemma cst_lt c : cst c = true -> 0 <= c < 2 ^ 32. Proof. unfold cst. lia. Qed.

Ltac fld1 :=
  match goal with
  | |- context [fld (Z.lor ?a ?b) ?lo ?n] => rewrite (fld_lor a b lo n)
  | |- context [fld (RD ?r) ?lo ?n] =>
    first [ rewrite (fld_RD_in r) by assumption | rewrite (fld_RD_lo r lo n) by lia
          | rewrite (fld_RD_hi r lo n) by (assumption || lia) ]
  | |- context [fld (RS1 ?r) ?lo ?n] =>
    first [ rewrite (fld_RS1_in r) by assumption | rewrite (fld_RS1_lo r lo n) by lia
          | rewrite (fld_RS1_hi r lo n) by (assumption || lia) ]
  | |- context [fld (RS2 ?r) ?lo ?n] =>
    first [ rewrite (fld_RS2_in r) by assumption | rewrite (fld_RS2_lo r lo n) by lia
          | rewrite (fld_RS2_hi r lo n) by (assumption || lia) ]
  | |- context [fld (IMM_I ?i) 20 12] => rewrite (fld_IMM_I_in i)
  | |- context [fld (IMM_I ?i) ?lo ?n] => rewrite (fld_IMM_I_lo i lo n) by lia
  end.
Ltac flds := repeat fld1; rewrite ?Z.lor_0_r, ?Z.lor_0_l.

Lemma fld_sub w lo n lo' n' : 0 <= lo -> 0 <= n -> 0 <= n' -> lo <= lo' -> lo' + n' <= lo + n -> fld w lo n = 0 -> fld w lo' n' = 0.
Proof.
  unfold fld. intros ? ? ? ? ? E. apply Z.bits_inj'. intros k Hk. rewrite Z.bits_0, Z.land_spec, Z.shiftr_spec by lia.
  destruct (Z.lt_ge_cases k n').
  - assert (T : Z.testbit (Z.land (Z.shiftr w lo) (Z.ones n)) (k + lo' - lo) = false) by (rewrite E; apply Z.bits_0).
    rewrite Z.land_spec, Z.shiftr_spec, Z.ones_spec_low, andb_true_r in T by lia.
    replace (k + lo' - lo + lo) with (k + lo') in T by lia. rewrite T. reflexivity.
  - rewrite Z.ones_spec_high by lia. apply andb_false_r.
Qed.

(** R format: c | rd | rs1 | rs2 *)
Definition dec_R (c : Z) : option binop :=
  if cst c && (fld c 7 5 =? 0) && (fld c 15 10 =? 0) && (fld c 0 2 =? 3) && (fld c 0 7 =? 0x33)
  then dec_op (fld c 25 7) (fld c 12 3) else None.
Definition dec_RW (c : Z) : option binopw :=
  if cst c && (fld c 7 5 =? 0) && (fld c 15 10 =? 0) && (fld c 0 2 =? 3) && (fld c 0 7 =? 0x3b) && negb (fld c 25 7 =? 4)
  then dec_opw (fld c 25 7) (fld c 12 3) else None.

Lemma run_R c o d a b ps s : dec_R c = Some o -> vreg d -> vreg a -> vreg b ->
  run (P32 (c .| RD d .| RS1 a .| RS2 b) :: ps) s = run ps (wr s d (alu o (rd s a) (rd s b))).
Proof.
  intros D Hd Ha Hb. unfold dec_R in D.
  destruct (cst c && (fld c 7 5 =? 0) && (fld c 15 10 =? 0) && (fld c 0 2 =? 3) && (fld c 0 7 =? 0x33)) eqn:E; [|discriminate].
  apply andb_prop in E as (E & EO). apply andb_prop in E as (E & E0). apply andb_prop in E as (E & E15). apply andb_prop in E as (C & E7).
  apply cst_lt in C. apply Z.eqb_eq in E0, E15, E7, EO.
  assert (E1 : fld c 15 5 = 0) by (apply (fld_sub c 15 10); auto; lia).
  assert (E2 : fld c 20 5 = 0) by (apply (fld_sub c 15 10); auto; lia).
  cbn [run decode_piece]. flds. rewrite E0. change (3 =? 3) with true. cbv iota.
  rewrite u32_small by wlt. unfold decode32. flds. rewrite E7, E1, E2, EO. rewrite ?Z.lor_0_l.
  unfold decode_fields. change (0x33 =? 0x33) with true. cbv iota. rewrite D. reflexivity.
Qed.
Lemma run_RW c o d a b ps s : dec_RW c = Some o -> vreg d -> vreg a -> vreg b ->
  run (P32 (c .| RD d .| RS1 a .| RS2 b) :: ps) s = run ps (wr s d (aluw o (rd s a) (rd s b))).
Proof.
  intros D Hd Ha Hb. unfold dec_RW in D.
  destruct (cst c && (fld c 7 5 =? 0) && (fld c 15 10 =? 0) && (fld c 0 2 =? 3) && (fld c 0 7 =? 0x3b) && negb (fld c 25 7 =? 4)) eqn:E; [|discriminate].
  apply andb_prop in E as (E & E4). apply negb_true_iff in E4.
  apply andb_prop in E as (E & EO). apply andb_prop in E as (E & E0). apply andb_prop in E as (E & E15). apply andb_prop in E as (C & E7).
  apply cst_lt in C. apply Z.eqb_eq in E0, E15, E7, EO.
  assert (E1 : fld c 15 5 = 0) by (apply (fld_sub c 15 10); auto; lia).
  assert (E2 : fld c 20 5 = 0) by (apply (fld_sub c 15 10); auto; lia).
  cbn [run decode_piece]. flds. rewrite E0. change (3 =? 3) with true. cbv iota.
  rewrite u32_small by wlt. unfold decode32. flds. rewrite E7, E1, E2, EO. rewrite ?Z.lor_0_l.
  unfold decode_fields. change (0x3b =? 0x33) with false. change (0x3b =? 0x3b) with true. cbv iota. rewrite E4, D. reflexivity.
Qed.

(** I format: c | rd | rs1 | imm *)
Definition dec_I (c : Z) : option immop :=
  if cst c && (fld c 7 5 =? 0) && (fld c 15 17 =? 0) && (fld c 0 2 =? 3) then
    if fld c 0 7 =? 0x13 then
      (if fld c 12 3 =? 0 then Some Addi else if fld c 12 3 =? 2 then Some Slti
       else if fld c 12 3 =? 3 then Some Sltiu else if fld c 12 3 =? 4 then Some Xori
       else if fld c 12 3 =? 6 then Some Ori else if fld c 12 3 =? 7 then Some Andi else None)
    else if fld c 0 7 =? 0x1b then (if fld c 12 3 =? 0 then Some Addiw else None)
    else None
  else None.

Lemma sext_mod_id n x : 1 <= n -> sext n (x mod 2 ^ n) = sext n x.
Proof. intros. pose proof (Z.div_mod x (2 ^ n)). assert (0 < 2 ^ n) by (apply Z.pow_pos_nonneg; lia).
  apply sext_eq with (- (x / 2 ^ n)); lia. Qed.

Lemma run_I c o d a imm ps s : dec_I c = Some o -> vreg d -> vreg a ->
  run (P32 (c .| RD d .| RS1 a .| IMM_I imm) :: ps) s = run ps (wr s d (alui o (rd s a) (sext 12 imm))).
Proof.
  intros D Hd Ha. unfold dec_I in D.
  destruct (cst c && (fld c 7 5 =? 0) && (fld c 15 17 =? 0) && (fld c 0 2 =? 3)) eqn:E; [|discriminate].
  apply andb_prop in E as (E & E0). apply andb_prop in E as (E & E15). apply andb_prop in E as (C & E7).
  apply cst_lt in C. apply Z.eqb_eq in E0, E15, E7.
  assert (E1 : fld c 15 5 = 0) by (apply (fld_sub c 15 17); auto; lia).
  assert (E2 : fld c 20 12 = 0) by (apply (fld_sub c 15 17); auto; lia).
  cbn [run decode_piece]. flds. rewrite E0. change (3 =? 3) with true. cbv iota.
  rewrite u32_small by wlt.
  assert (I : imm_i (c .| RD d .| RS1 a .| IMM_I imm) = sext 12 imm).
  { unfold imm_i. flds. rewrite E2, Z.lor_0_l. apply sext_mod_id. lia. }
  unfold decode32. flds. rewrite E7, E1. rewrite ?Z.lor_0_l. unfold decode_fields.
  destruct (fld c 0 7 =? 0x13) eqn:O1.
  - apply Z.eqb_eq in O1. rewrite O1. change (19 =? 0x33) with false. change (19 =? 0x3b) with false. change (19 =? 0x13) with true.
    cbv iota. unfold dec_imm. rewrite I.
    repeat (match type of D with (if ?b then _ else _) = _ =>
      let X := fresh in destruct b eqn:X; [injection D as <-; rewrite ?X; cbv iota; try reflexivity|]; try rewrite X end); [..|discriminate].
    all: repeat match goal with X : (_ =? _) = false |- _ => rewrite X end; reflexivity.
  - destruct (fld c 0 7 =? 0x1b) eqn:O2; [|discriminate]. apply Z.eqb_eq in O2. rewrite O2.
    change (27 =? 0x33) with false. change (27 =? 0x3b) with false. change (27 =? 0x13) with false.
    change (27 =? 27) with true. cbv iota. unfold dec_immw. rewrite I.
    destruct (fld c 12 3 =? 0); [|discriminate]. injection D as <-. reflexivity.
Qed.

(** Shift by a constant: c | rd | rs1 | shamt *)
Definition dec_Sh (c : Z) : option shop :=
  if cst c && (fld c 7 5 =? 0) && (fld c 15 11 =? 0) && (fld c 0 2 =? 3) && (fld c 0 7 =? 0x13) then
    if fld c 12 3 =? 1 then (if fld c 26 6 =? 0 then Some Slli else None)
    else if fld c 12 3 =? 5 then
      (if fld c 26 6 =? 0 then Some Srli else if fld c 26 6 =? 16 then Some Srai
       else if fld c 26 6 =? 24 then Some Rori else None)
    else None
  else None.
Lemma run_Sh c o d a sh ps s : dec_Sh c = Some o -> vreg d -> vreg a -> 0 <= sh < 64 ->
  run (P32 (c .| RD d .| RS1 a .| IMM_I sh) :: ps) s = run ps (wr s d (alush o (rd s a) sh)).
Proof.
  intros D Hd Ha Hs. unfold dec_Sh in D.
  destruct (cst c && (fld c 7 5 =? 0) && (fld c 15 11 =? 0) && (fld c 0 2 =? 3) && (fld c 0 7 =? 0x13)) eqn:E; [|discriminate].
  apply andb_prop in E as (E & EO). apply andb_prop in E as (E & E0). apply andb_prop in E as (E & E15). apply andb_prop in E as (C & E7).
  apply cst_lt in C. apply Z.eqb_eq in E0, E15, E7, EO.
  assert (E1 : fld c 15 5 = 0) by (apply (fld_sub c 15 11); auto; lia).
  assert (E2 : fld c 20 6 = 0) by (apply (fld_sub c 15 11); auto; lia).
  destruct (fld_IMM_I_sh6 sh Hs) as (F1 & F2).
  cbn [run decode_piece]. flds. rewrite E0. change (3 =? 3) with true. cbv iota.
  rewrite u32_small by wlt.
  assert (I1 : fld (c .| RD d .| RS1 a .| IMM_I sh) 20 6 = sh).
  { flds. rewrite E2, F1. apply Z.lor_0_l. }
  assert (I2 : fld (c .| RD d .| RS1 a .| IMM_I sh) 26 6 = fld c 26 6).
  { flds. rewrite F2. apply Z.lor_0_r. }
  unfold decode32. flds. rewrite E7, E1, EO. rewrite ?Z.lor_0_l. unfold decode_fields.
  change (19 =? 0x33) with false. change (19 =? 0x3b) with false. change (19 =? 0x13) with true. cbv iota.
  unfold dec_imm. rewrite I1, I2.
  destruct (fld c 12 3 =? 1) eqn:X1.
  - apply Z.eqb_eq in X1. rewrite X1. cbn [Z.eqb Pos.eqb]. destruct (fld c 26 6 =? 0); [|discriminate]. injection D as <-. reflexivity.
  - destruct (fld c 12 3 =? 5) eqn:X5; [|discriminate]. apply Z.eqb_eq in X5. rewrite X5. cbn [Z.eqb Pos.eqb].
    destruct (fld c 26 6 =? 0). { injection D as <-. reflexivity. }
    destruct (fld c 26 6 =? 16). { injection D as <-. reflexivity. }
    destruct (fld c 26 6 =? 24); [|discriminate]. injection D as <-. reflexivity.
Qed.
Definition dec_ShW (c : Z) : option shop :=
  if cst c && (fld c 7 5 =? 0) && (fld c 15 10 =? 0) && (fld c 0 2 =? 3) && (fld c 0 7 =? 0x1b) then
    if fld c 12 3 =? 1 then (if fld c 25 7 =? 0 then Some Slliw else None)
    else if fld c 12 3 =? 5 then
      (if fld c 25 7 =? 0 then Some Srliw else if fld c 25 7 =? 32 then Some Sraiw
       else if fld c 25 7 =? 48 then Some Roriw else None)
    else None
  else None.
Lemma run_ShW c o d a sh ps s : dec_ShW c = Some o -> vreg d -> vreg a -> 0 <= sh < 32 ->
  run (P32 (c .| RD d .| RS1 a .| IMM_I sh) :: ps) s = run ps (wr s d (alush o (rd s a) sh)).
Proof.
  intros D Hd Ha Hs. unfold dec_ShW in D.
  destruct (cst c && (fld c 7 5 =? 0) && (fld c 15 10 =? 0) && (fld c 0 2 =? 3) && (fld c 0 7 =? 0x1b)) eqn:E; [|discriminate].
  apply andb_prop in E as (E & EO). apply andb_prop in E as (E & E0). apply andb_prop in E as (E & E15). apply andb_prop in E as (C & E7).
  apply cst_lt in C. apply Z.eqb_eq in E0, E15, E7, EO.
  assert (E1 : fld c 15 5 = 0) by (apply (fld_sub c 15 10); auto; lia).
  assert (E2 : fld c 20 5 = 0) by (apply (fld_sub c 15 10); auto; lia).
  destruct (fld_IMM_I_sh5 sh Hs) as (F1 & F2).
  cbn [run decode_piece]. flds. rewrite E0. change (3 =? 3) with true. cbv iota.
  rewrite u32_small by wlt.
  unfold decode32. flds. rewrite E7, E1, E2, EO, F1, F2. rewrite ?Z.lor_0_l, ?Z.lor_0_r. unfold decode_fields.
  change (27 =? 0x33) with false. change (27 =? 0x3b) with false. change (27 =? 0x13) with false. change (27 =? 0x1b) with true. cbv iota.
  unfold dec_immw.
  destruct (fld c 12 3 =? 1) eqn:X1.
  - apply Z.eqb_eq in X1. rewrite X1. cbn [Z.eqb Pos.eqb]. destruct (fld c 25 7 =? 0); [|discriminate]. injection D as <-. reflexivity.
  - destruct (fld c 12 3 =? 5) eqn:X5; [|discriminate]. apply Z.eqb_eq in X5. rewrite X5. cbn [Z.eqb Pos.eqb].
    destruct (fld c 25 7 =? 0). { injection D as <-. reflexivity. }
    destruct (fld c 25 7 =? 32). { injection D as <-. reflexivity. }
    destruct (fld c 25 7 =? 48); [|discriminate]. injection D as <-. reflexivity.
Qed.

(** Zbb unary operations: c | rd | rs1 *)
Definition dec_Un (c : Z) : option unop :=
  if cst c && (fld c 7 5 =? 0) && (fld c 15 5 =? 0) && (fld c 0 2 =? 3) then
    match decode32 c with
    | Some (IUn o _ _) => Some o
    | _ => None
    end
  else None.
Lemma run_Un c o d a ps s : dec_Un c = Some o -> vreg d -> vreg a ->
  run (P32 (c .| RD d .| RS1 a) :: ps) s = run ps (wr s d (aluun o (rd s a))).
Proof.
  intros D Hd Ha. unfold dec_Un in D.
  destruct (cst c && (fld c 7 5 =? 0) && (fld c 15 5 =? 0) && (fld c 0 2 =? 3)) eqn:E; [|discriminate].
  apply andb_prop in E as (E & E0). apply andb_prop in E as (E & E15). apply andb_prop in E as (C & E7).
  apply cst_lt in C. apply Z.eqb_eq in E0, E15, E7.
  cbn [run decode_piece]. flds. rewrite E0. change (3 =? 3) with true. cbv iota.
  rewrite u32_small by wlt.
  unfold decode32 in *. flds. rewrite E7, E15 in *. rewrite ?Z.lor_0_l.
  assert (I1 : fld (c .| RD d .| RS1 a) 20 6 = fld c 20 6) by (flds; reflexivity).
  assert (I2 : fld (c .| RD d .| RS1 a) 26 6 = fld c 26 6) by (flds; reflexivity).
  assert (I3 : fld (c .| RD d .| RS1 a) 20 12 = fld c 20 12) by (flds; reflexivity).
  unfold decode_fields, dec_imm, dec_immw in *. rewrite I1, I2, I3.
  repeat match type of D with
  | context [if ?b then _ else _] => destruct b; try discriminate
  | context [match dec_op ?x ?y with _ => _ end] => destruct (dec_op x y); try discriminate
  | context [match dec_opw ?x ?y with _ => _ end] => destruct (dec_opw x y); try discriminate
  | context [match dec_load ?x with _ => _ end] => destruct (dec_load x) as [[? ?]|]; try discriminate
  | context [match dec_store ?x with _ => _ end] => destruct (dec_store x); try discriminate
  | context [match dec_branch ?x with _ => _ end] => destruct (dec_branch x); try discriminate
  end; injection D as <-; reflexivity.
Qed.

(** LUI: c | rd | imm20 *)
Lemma fld_mult u lo n : 0 <= lo -> 0 <= n -> lo + n <= 12 -> u mod 2 ^ 12 = 0 -> fld u lo n = 0.
Proof.
  intros ? ? ? E. rewrite fld_div by lia. pose proof (Z.div_mod u (2 ^ 12)).
  replace u with (Z.shiftl (u / 2 ^ 12) 12) by (rewrite Z.shiftl_mul_pow2 by lia; lia).
  rewrite <- fld_div by lia. apply fld_shl_low; lia.
Qed.
Lemma run_LUI d u ps s : vreg d -> 0 <= u < 2 ^ 32 -> u mod 2 ^ 12 = 0 ->
  run (P32 (LUI .| RD d .| u) :: ps) s = run ps (wr s d (sx32 u)).
Proof.
  intros Hd Hu Mu. cbn [run decode_piece].
  assert (U0 : fld u 0 2 = 0) by (apply fld_mult; lia). assert (U1 : fld u 0 7 = 0) by (apply fld_mult; lia).
  assert (U2 : fld u 7 5 = 0) by (apply fld_mult; lia).
  flds. rewrite U0. change (fld LUI 0 2 .| 0 =? 3) with true. cbv iota.
  rewrite u32_small. 2:{ apply lor_lt; [lia| |auto]. apply lor_lt; [lia|unfold LUI; lia|apply RD_lt; auto]. }
  assert (I : imm_u (LUI .| RD d .| u) = sext 32 u).
  { unfold imm_u. flds. change (fld LUI 12 20) with 0. rewrite ?Z.lor_0_l. rewrite fld_div by lia.
    rewrite Z.mod_small. 2:{ split. apply Z.div_pos; lia. apply Z.div_lt_upper_bound; lia. }
    symmetry. destruct (sext_mod 20 (u / 2 ^ 12) ltac:(lia)) as (k & K).
    pose proof (sext_range 20 (u / 2 ^ 12) ltac:(lia)). pose proof (Z.div_mod u (2 ^ 12)).
    apply sext_unique with k; lia. }
  unfold decode32. flds. rewrite U1, U2. change (fld LUI 0 7 .| 0) with 0x37. change (fld LUI 7 5) with 0.
  rewrite ?Z.lor_0_l, ?Z.lor_0_r. unfold decode_fields. cbn [Z.eqb Pos.eqb]. rewrite I. reflexivity.
Qed.

(** ** Compressed instructions, by exhaustive evaluation over registers and immediates *)
Definition instr_eq_dec (a b : instr) : {a = b} + {a <> b}.
Proof. repeat decide equality. Defined.
Definition dec_is (w : Z) (i : instr) : bool :=
  match decode_piece (P16 w) with
  | Some j => if instr_eq_dec j i then true else false
  | None => false
  end.
Lemma dec_is_ok w i : dec_is w i = true -> decode_piece (P16 w) = Some i.
Proof. unfold dec_is. destruct (decode_piece (P16 w)) as [j|]; [|discriminate]. destruct (instr_eq_dec j i); [congruence|discriminate]. Qed.
Definition upto (n : nat) : list Z := map Z.of_nat (seq 0 n).
Lemma upto_in n x : 0 <= x < Z.of_nat n -> In x (upto n).
Proof. intros H. apply in_map_iff. exists (Z.to_nat x). split; [lia|]. apply in_seq. lia. Qed.

Lemma C_IMM_I_mod imm : C_IMM_I imm = C_IMM_I (imm mod 64).
Proof.
  unfold C_IMM_I. f_equal. change 64 with (2 ^ 6). rewrite <- Z.land_ones by lia. change (Z.ones 6) with 0x3f.
  rewrite <- !Z.land_assoc. change (Z.land 0x3f 0x1f) with 0x1f. change (Z.land 0x3f 0x20) with 0x20. reflexivity.
Qed.
Lemma c_imm_check (f : Z -> Z -> bool) :
  forallb (fun d => forallb (fun i => f d i) (upto 64)) vregs = true ->
  forall d imm, vreg d -> f d (imm mod 64) = true.
Proof.
  intros B d imm Hd. rewrite forallb_forall in B. specialize (B d (vregs_in d Hd)).
  rewrite forallb_forall in B. apply B. apply upto_in. pose proof (Z.mod_pos_bound imm 64). lia.
Qed.
Lemma sext6_mod imm : sext 6 (imm mod 64) = sext 6 imm.
Proof. apply (sext_mod_id 6). lia. Qed.

Lemma run16 w i ps s s' : dec_is w i = true -> exec_s i s = Some s' -> run (P16 w :: ps) s = run ps s'.
Proof. intros D E. cbn [run]. rewrite (dec_is_ok _ _ D), E. reflexivity. Qed.

Lemma run_C_LI d imm ps s : vreg d ->
  run (P16 (C_LI .| C_RD d .| C_IMM_I imm) :: ps) s = run ps (wr s d (wrap (sext 6 imm))).
Proof.
  intros Hd. rewrite C_IMM_I_mod, <- sext6_mod.
  assert (B := c_imm_check (fun d i => dec_is (C_LI .| C_RD d .| C_IMM_I i) (IImm Addi (reg_map d) 0 (sext 6 i)))
    ltac:(vm_compute; reflexivity) d imm Hd). cbv beta in B. exact (run16 _ _ ps s _ B eq_refl).
Qed.
Lemma run_C_ADDI d imm ps s : vreg d ->
  run (P16 (C_ADDI .| C_RD d .| C_IMM_I imm) :: ps) s = run ps (wr s d (wrap (rd s d + sext 6 imm))).
Proof.
  intros Hd. rewrite C_IMM_I_mod, <- sext6_mod.
  assert (B := c_imm_check (fun d i => dec_is (C_ADDI .| C_RD d .| C_IMM_I i) (IImm Addi (reg_map d) (reg_map d) (sext 6 i)))
    ltac:(vm_compute; reflexivity) d imm Hd). cbv beta in B. exact (run16 _ _ ps s _ B eq_refl).
Qed.
Lemma run_C_ADDIW d imm ps s : vreg d -> d <> 0 ->
  run (P16 (C_ADDI .| 0x2000 .| C_RD d .| C_IMM_I imm) :: ps) s = run ps (wr s d (sx32 (rd s d + sext 6 imm))).
Proof.
  intros Hd Nd. rewrite C_IMM_I_mod, <- sext6_mod.
  assert (B := c_imm_check (fun d i => (d =? 0) || dec_is (C_ADDI .| 0x2000 .| C_RD d .| C_IMM_I i) (IImm Addiw (reg_map d) (reg_map d) (sext 6 i)))
    ltac:(vm_compute; reflexivity) d imm Hd). cbv beta in B. destruct (d =? 0) eqn:E; [lia|]. exact (run16 _ _ ps s _ B eq_refl).
Qed.
Lemma run_C_SLLI d sh ps s : vreg d -> 0 <= sh < 64 ->
  run (P16 (C_SLLI .| C_RD d .| C_IMM_I sh) :: ps) s = run ps (wr s d (wrap (rd s d * 2 ^ sh))).
Proof.
  intros Hd Hs. replace sh with (sh mod 64) by (apply Z.mod_small; lia).
  assert (B := c_imm_check (fun d i => dec_is (C_SLLI .| C_RD d .| C_IMM_I i) (ISh Slli (reg_map d) (reg_map d) i))
    ltac:(vm_compute; reflexivity) d sh Hd). cbv beta in B. exact (run16 _ _ ps s _ B eq_refl).
Qed.
Lemma run_C_SRLI d sh ps s : vreg d -> C_IS_R3 d = true -> 0 <= sh < 64 ->
  run (P16 (C_SRLI .| C_RS1_R3 d .| C_IMM_I sh) :: ps) s = run ps (wr s d (rd s d / 2 ^ sh)).
Proof.
  intros Hd Rd Hs. replace sh with (sh mod 64) by (apply Z.mod_small; lia).
  assert (B := c_imm_check (fun d i => negb (C_IS_R3 d) || dec_is (C_SRLI .| C_RS1_R3 d .| C_IMM_I i) (ISh Srli (reg_map d) (reg_map d) i))
    ltac:(vm_compute; reflexivity) d sh Hd). cbv beta in B. rewrite Rd in B. exact (run16 _ _ ps s _ B eq_refl).
Qed.
Lemma run_C_SRAI d sh ps s : vreg d -> C_IS_R3 d = true -> 0 <= sh < 64 ->
  run (P16 (C_SRAI .| C_RS1_R3 d .| C_IMM_I sh) :: ps) s = run ps (wr s d (wrap (sgn (rd s d) / 2 ^ sh))).
Proof.
  intros Hd Rd Hs. replace sh with (sh mod 64) by (apply Z.mod_small; lia).
  assert (B := c_imm_check (fun d i => negb (C_IS_R3 d) || dec_is (C_SRAI .| C_RS1_R3 d .| C_IMM_I i) (ISh Srai (reg_map d) (reg_map d) i))
    ltac:(vm_compute; reflexivity) d sh Hd). cbv beta in B. rewrite Rd in B. exact (run16 _ _ ps s _ B eq_refl).
Qed.
Lemma run_C_ANDI d imm ps s : vreg d -> C_IS_R3 d = true ->
  run (P16 (C_ANDI .| C_RS1_R3 d .| C_IMM_I imm) :: ps) s = run ps (wr s d (Z.land (rd s d) (wrap (sext 6 imm)))).
Proof.
  intros Hd Rd. rewrite C_IMM_I_mod, <- sext6_mod.
  assert (B := c_imm_check (fun d i => negb (C_IS_R3 d) || dec_is (C_ANDI .| C_RS1_R3 d .| C_IMM_I i) (IImm Andi (reg_map d) (reg_map d) (sext 6 i)))
    ltac:(vm_compute; reflexivity) d imm Hd). cbv beta in B. rewrite Rd in B. exact (run16 _ _ ps s _ B eq_refl).
Qed.
(** C_LUI with a 6 bit operand: rd must not be x0 or x2. *)
Lemma run_C_LUI d imm ps s : vreg d -> d <> SLJIT_SP -> sext 6 imm <> 0 ->
  run (P16 (C_LUI .| C_RD d .| C_IMM_I imm) :: ps) s = run ps (wr s d (wrap (sext 6 imm * 2 ^ 12))).
Proof.
  intros Hd Nd Ni. rewrite C_IMM_I_mod. rewrite <- sext6_mod in Ni |- *.
  assert (B := c_imm_check (fun d i => (d =? SLJIT_SP) || (sext 6 i =? 0) || dec_is (C_LUI .| C_RD d .| C_IMM_I i) (ILui (reg_map d) (sext 6 i * 2 ^ 12)))
    ltac:(vm_compute; reflexivity) d imm Hd). cbv beta in B.
  destruct (d =? SLJIT_SP) eqn:E; [lia|]. destruct (sext 6 (imm mod 64) =? 0) eqn:E1; [lia|]. exact (run16 _ _ ps s _ B eq_refl).
Qed.

Lemma c_reg_check (f : Z -> Z -> bool) :
  forallb (fun d => forallb (fun i => f d i) vregs) vregs = true ->
  forall d a, vreg d -> vreg a -> f d a = true.
Proof.
  intros B d a Hd Ha. rewrite forallb_forall in B. specialize (B d (vregs_in d Hd)).
  rewrite forallb_forall in B. apply B. apply vregs_in. auto.
Qed.
Lemma run_C_MV d a ps s : vreg d -> vreg a -> a <> 0 -> isw (rd s a) ->
  run (P16 (C_MV .| C_RD d .| C_RS2 a) :: ps) s = run ps (wr s d (rd s a)).
Proof.
  intros Hd Ha Na Wa.
  assert (B := c_reg_check (fun d a => (a =? 0) || dec_is (C_MV .| C_RD d .| C_RS2 a) (IBin Add (reg_map d) 0 (reg_map a)))
    ltac:(vm_compute; reflexivity) d a Hd Ha). cbv beta in B. destruct (a =? 0) eqn:E; [lia|].
  rewrite (run16 _ _ ps s _ B eq_refl). f_equal. unfold wr. f_equal. cbn [alu]. change (getr s 0) with 0.
  rewrite Z.add_0_l. apply wrap_small. exact Wa.
Qed.
Lemma run_C_ADD d a ps s : vreg d -> vreg a -> a <> 0 ->
  run (P16 (C_ADD .| C_RD d .| C_RS2 a) :: ps) s = run ps (wr s d (wrap (rd s d + rd s a))).
Proof.
  intros Hd Ha Na.
  assert (B := c_reg_check (fun d a => (a =? 0) || dec_is (C_ADD .| C_RD d .| C_RS2 a) (IBin Add (reg_map d) (reg_map d) (reg_map a)))
    ltac:(vm_compute; reflexivity) d a Hd Ha). cbv beta in B. destruct (a =? 0) eqn:E; [lia|].
  apply (run16 _ _ ps s _ B eq_refl).
Qed.
Definition c_r3_dec (c : Z) (i : Z -> Z -> instr) : bool :=
  forallb (fun d => forallb (fun a => negb (C_IS_R3 d) || negb (C_IS_R3 a)
     || dec_is (c .| C_RS1_R3 d .| C_RS2_R3 a) (i (reg_map d) (reg_map a))) vregs) vregs.
Lemma run_C_R3 c i f d a ps s : c_r3_dec c i = true ->
  (forall s, exec_s (i (reg_map d) (reg_map a)) s = Some (wr s d (f (rd s d) (rd s a)))) ->
  vreg d -> vreg a -> C_IS_R3 d = true -> C_IS_R3 a = true ->
  run (P16 (c .| C_RS1_R3 d .| C_RS2_R3 a) :: ps) s = run ps (wr s d (f (rd s d) (rd s a))).
Proof.
  intros D X Hd Ha Rd Ra. unfold c_r3_dec in D. assert (B := c_reg_check (fun d a => _) D d a Hd Ha). cbv beta in B. rewrite Rd, Ra in B. cbn in B.
  apply (run16 _ _ ps s _ B). apply X.
Qed.
Lemma run_C_AND d a ps s : vreg d -> vreg a -> C_IS_R3 d = true -> C_IS_R3 a = true ->
  run (P16 (C_AND .| C_RS1_R3 d .| C_RS2_R3 a) :: ps) s = run ps (wr s d (Z.land (rd s d) (rd s a))).
Proof. intros. apply (run_C_R3 C_AND (fun d a => IBin And d d a) Z.land); [vm_compute; reflexivity|auto..]. Qed.
Lemma run_C_OR d a ps s : vreg d -> vreg a -> C_IS_R3 d = true -> C_IS_R3 a = true ->
  run (P16 (C_OR .| C_RS1_R3 d .| C_RS2_R3 a) :: ps) s = run ps (wr s d (Z.lor (rd s d) (rd s a))).
Proof. intros. apply (run_C_R3 C_OR (fun d a => IBin Or d d a) Z.lor); [vm_compute; reflexivity|auto..]. Qed.
Lemma run_C_XOR d a ps s : vreg d -> vreg a -> C_IS_R3 d = true -> C_IS_R3 a = true ->
  run (P16 (C_XOR .| C_RS1_R3 d .| C_RS2_R3 a) :: ps) s = run ps (wr s d (Z.lxor (rd s d) (rd s a))).
Proof. intros. apply (run_C_R3 C_XOR (fun d a => IBin Xor d d a) Z.lxor); [vm_compute; reflexivity|auto..]. Qed.
Lemma run_C_SUB d a ps s : vreg d -> vreg a -> C_IS_R3 d = true -> C_IS_R3 a = true ->
  run (P16 (C_SUB_W 0 .| C_RS1_R3 d .| C_RS2_R3 a) :: ps) s = run ps (wr s d (wrap (rd s d - rd s a))).
Proof. intros. apply (run_C_R3 (C_SUB_W 0) (fun d a => IBin Sub d d a) (fun a b => wrap (a - b))); [vm_compute; reflexivity|auto..]. Qed.
Lemma run_C_SUBW d a ps s : vreg d -> vreg a -> C_IS_R3 d = true -> C_IS_R3 a = true ->
  run (P16 (C_SUB_W 8 .| C_RS1_R3 d .| C_RS2_R3 a) :: ps) s = run ps (wr s d (sx32 (rd s d - rd s a))).
Proof. intros. apply (run_C_R3 (C_SUB_W 8) (fun d a => IBinW Subw d d a) (fun a b => sx32 (a - b))); [vm_compute; reflexivity|auto..]. Qed.
Lemma run_C_ADDW d a ps s : vreg d -> vreg a -> C_IS_R3 d = true -> C_IS_R3 a = true ->
  run (P16 (C_ADDW .| C_RS1_R3 d .| C_RS2_R3 a) :: ps) s = run ps (wr s d (sx32 (rd s d + rd s a))).
Proof. intros. apply (run_C_R3 C_ADDW (fun d a => IBinW Addw d d a) (fun a b => sx32 (a + b))); [vm_compute; reflexivity|auto..]. Qed.

(** ** Automation *)
Ltac vr := first [ assumption | unfold vreg, RETURN_ADDR_REG, TMP_REG1, TMP_REG2, TMP_REG3, EQUAL_FLAG, OTHER_FLAG, TMP_ZERO, SLJIT_SP, RETURN_ADDR_REG in *; lia ].
Ltac st_reg c d a b ps s :=
  let x := eval vm_compute in (dec_R c) in
  lazymatch x with
  | Some ?o => rewrite (run_R c o d a b ps s eq_refl) by vr
  | None =>
    let y := eval vm_compute in (dec_RW c) in
    lazymatch y with Some ?o => rewrite (run_RW c o d a b ps s eq_refl) by vr end
  end.
Ltac st_imm c d a i ps s :=
  let x := eval vm_compute in (dec_I c) in
  lazymatch x with
  | Some ?o => rewrite (run_I c o d a i ps s eq_refl) by vr
  | None =>
    let y := eval vm_compute in (dec_Sh c) in
    lazymatch y with
    | Some ?o => rewrite (run_Sh c o d a i ps s eq_refl) by vr
    | None =>
      let z := eval vm_compute in (dec_ShW c) in
      lazymatch z with Some ?o => rewrite (run_ShW c o d a i ps s eq_refl) by vr end
    end
  end.
Ltac st_un c d a ps s :=
  let x := eval vm_compute in (dec_Un c) in
  lazymatch x with Some ?o => rewrite (run_Un c o d a ps s eq_refl) by vr end.
(** One instruction at the head of the goal's [run]. *)
Ltac st :=
  lazymatch goal with
  | |- context [run (P32 (?c .| RD ?d .| RS1 ?a .| RS2 ?b) :: ?ps) ?s] => st_reg c d a b ps s
  | |- context [run (P32 (?c .| RD ?d .| RS1 ?a .| IMM_I ?i) :: ?ps) ?s] => st_imm c d a i ps s
  | |- context [run (P32 (?c .| RD ?d .| RS1 ?a) :: ?ps) ?s] => st_un c d a ps s
  | |- context [run (P32 (LUI .| RD ?d .| ?u) :: ?ps) ?s] => rewrite (run_LUI d u ps s)
  | |- context [run (P16 (C_LI .| C_RD ?d .| C_IMM_I ?i) :: ?ps) ?s] => rewrite (run_C_LI d i ps s) by vr
  | |- context [run (P16 (C_ADDI .| C_RD ?d .| C_IMM_I ?i) :: ?ps) ?s] => rewrite (run_C_ADDI d i ps s) by vr
  | |- context [run (P16 (C_SLLI .| C_RD ?d .| C_IMM_I ?i) :: ?ps) ?s] => rewrite (run_C_SLLI d i ps s) by vr
  | |- context [run (P16 (C_LUI .| C_RD ?d .| C_IMM_I ?i) :: ?ps) ?s] => rewrite (run_C_LUI d i ps s)
  | |- context [run (P16 (C_MV .| C_RD ?d .| C_RS2 ?a) :: ?ps) ?s] => rewrite (run_C_MV d a ps s)
  | |- context [run (P16 (C_ADD .| C_RD ?d .| C_RS2 ?a) :: ?ps) ?s] => rewrite (run_C_ADD d a ps s)
  end.
