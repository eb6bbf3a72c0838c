(** Execution rules for loads and stores, and the composition of code fragments that contain jumps. *)
Require Import ZArith List Bool Lia Zify ZifyBool.
From Verif Require Import Rv.RvLib Rv.RvBits Rv.RvIsa Rv.RvEnc Rv.RvImm Rv.RvRun Rv.RvImmProofs Rv.RvCtl Rv.RvWf Rv.RvMem.
Import ListNotations.
Open Scope Z_scope.
Ltac Zify.zify_post_hook ::= idtac.

(** ** Fragments *)

(** The fragment [l], wherever it is placed, takes the machine from [s] to [s'] and falls through. *)
Definition does (l : list piece) (s s' : mst) : Prop :=
  (wf s -> wf s') /\
  forall code p, isw p -> code_at code p (units_of l) ->
    steps code (setpc s p) (setpc s' (wrap (p + 2 * Z.of_nat (length (units_of l))))).
Definition ok (e : em) (s : mst) (P : mst -> Prop) : Prop := exists s', does (flat e) s s' /\ P s'.

Lemma setpc_setpc s p q : setpc (setpc s p) q = setpc s q. Proof. reflexivity. Qed.
Lemma run_setpc l : forall s s' q, run l s = Some s' -> run l (setpc s q) = Some (setpc s' q).
Proof.
  induction l as [|a l IH]; intros s s' q R; cbn in *.
  - inversion R; reflexivity.
  - destruct (decode_piece a) as [i|]; [|discriminate].
    destruct (exec_s i s) as [s1|] eqn:E; [|discriminate].
    assert (E' : exec_s i (setpc s q) = Some (setpc s1 q)).
    { clear - E. destruct i; cbn in *; inversion E; subst; clear E; unfold setr, getr, setpc, setm, setf;
        cbn; try match goal with |- context [if ?b then _ else _] => destruct b end; reflexivity. }
    rewrite E'. auto.
Qed.
Lemma does_run l s s' : run l s = Some s' -> does l s s'.
Proof.
  intros R. split. { eapply run_wf; eauto. }
  intros code p Hp C. destruct (run_steps code l (setpc s p) (setpc s' p) (run_setpc _ _ _ p R)) as (S & _); auto.
Qed.
Lemma does_nil s : does [] s s.
Proof. apply does_run. reflexivity. Qed.
Lemma units_of_app l1 l2 : units_of (l1 ++ l2) = units_of l1 ++ units_of l2.
Proof. unfold units_of. apply flat_map_app. Qed.
Lemma does_app l1 l2 s s1 s2 : does l1 s s1 -> does l2 s1 s2 -> does (l1 ++ l2) s s2.
Proof.
  intros (WA & A) (WB & B). split; [auto|]. intros code p Hp C. rewrite units_of_app in C. apply code_at_app in C. destruct C as (C1 & C2).
  eapply steps_trans. { apply A; auto. }
  rewrite <- code_at_wrap in C2.
  specialize (B code (wrap (p + 2 * Z.of_nat (length (units_of l1)))) (wrap_isw _) C2).
  rewrite wrap_add_l in B. rewrite units_of_app, app_length.
  replace (p + 2 * Z.of_nat (length (units_of l1) + length (units_of l2)))
    with (p + 2 * Z.of_nat (length (units_of l1)) + 2 * Z.of_nat (length (units_of l2))) by lia. exact B.
Qed.

Lemma ok_run e s s' (P : mst -> Prop) : run (flat e) s = Some s' -> P s' -> ok e s P.
Proof. intros R H. exists s'. split; auto. apply does_run; auto. Qed.
Lemma ok_ex e s (P : mst -> Prop) : (exists s', run (flat e) s = Some s' /\ P s') -> ok e s P.
Proof. intros (s' & R & H). eapply ok_run; eauto. Qed.
Lemma ok_then e1 e2 s (P : mst -> Prop) : ok e1 s (fun s1 => ok e2 s1 P) -> ok (e1 ;; e2) s P.
Proof.
  intros (s1 & D1 & s2 & D2 & H). exists s2. split; auto. cbn [flat]. eapply does_app; eauto.
Qed.
Lemma ok_ign e1 e2 s (P : mst -> Prop) : ok e1 s (fun s1 => ok e2 s1 P) -> ok (e1 ;? e2) s P.
Proof. apply (ok_then e1 e2). Qed.
Lemma ok_nop s (P : mst -> Prop) : P s -> ok ENop s P.
Proof. intros H. exists s. split; auto. apply does_nil. Qed.
Lemma ok_mono e s (P Q : mst -> Prop) : ok e s P -> (forall s', P s' -> Q s') -> ok e s Q.
Proof. intros (s' & D & H) I. exists s'. auto. Qed.
Lemma ok_wf e s (P : mst -> Prop) : wf s -> ok e s P -> ok e s (fun s' => wf s' /\ P s').
Proof. intros W (s' & D & H). exists s'. split; auto. split; auto. apply D; auto. Qed.
(** Running some instructions first. *)
Lemma ok_head p e s s1 (P : mst -> Prop) : run [p] s = Some s1 -> flat e = [p] -> P s1 -> ok e s P.
Proof. intros R F H. apply ok_run with s1; auto. rewrite F. auto. Qed.

(** ** Loads and stores *)

Definition ldval (sz : msize) (sg : bool) (m : Z -> Z) (a : Z) : Z :=
  if sg then wrap (sext (bits sz) (load m a (bytes sz))) else load m a (bytes sz).

Definition dec_L (c : Z) : option (msize * bool) :=
  if cst c && (fld c 7 5 =? 0) && (fld c 15 17 =? 0) && (fld c 0 2 =? 3) && (fld c 0 7 =? 0x3)
  then dec_load (fld c 12 3) else None.
Definition dec_S (c : Z) : option msize :=
  if cst c && (fld c 7 5 =? 0) && (fld c 15 17 =? 0) && (fld c 0 2 =? 3) && (fld c 0 7 =? 0x23)
  then dec_store (fld c 12 3) else None.

Lemma run_L c sz sg d a imm ps s : dec_L c = Some (sz, sg) -> vreg d -> vreg a ->
  run (P32 (c .| RS1 a .| (RD d .| IMM_I imm)) :: ps) s = run ps (wr s d (ldval sz sg (mem s) (rd s a + sext 12 imm))).
Proof.
  intros D Hd Ha. unfold dec_L in D.
  destruct (cst c && (fld c 7 5 =? 0) && (fld c 15 17 =? 0) && (fld c 0 2 =? 3) && (fld c 0 7 =? 0x3)) eqn:E; [|discriminate].
  apply andb_prop in E as (E & EO). apply andb_prop in E as (E & E0). apply andb_prop in E as (E & E15). apply andb_prop in E as (C & E7).
  apply cst_lt in C. apply Z.eqb_eq in E0, E15, E7, EO.
  assert (E1 : fld c 15 5 = 0) by (apply (fld_sub c 15 17); auto; lia).
  assert (E2 : fld c 20 12 = 0) by (apply (fld_sub c 15 17); auto; lia).
  cbn [run decode_piece]. flds. rewrite E0. change (3 =? 3) with true. cbv iota.
  rewrite u32_small by wlt.
  assert (I : imm_i (c .| RS1 a .| (RD d .| IMM_I imm)) = sext 12 imm).
  { unfold imm_i. flds. rewrite E2, Z.lor_0_l. apply sext_mod_id. lia. }
  unfold decode32. flds. rewrite E7, E1, EO. rewrite ?Z.lor_0_l. unfold decode_fields.
  change (3 =? 0x33) with false. change (3 =? 0x3b) with false. change (3 =? 0x13) with false. change (3 =? 0x1b) with false.
  change (3 =? 0x37) with false. change (3 =? 0x17) with false. change (3 =? 3) with true.
  cbv iota. rewrite I, D. reflexivity.
Qed.

Lemma IMM_S_eq imm : IMM_S imm = Z.shiftl ((imm / 32) mod 128) 25 .| Z.shiftl (imm mod 32) 7.
Proof.
  unfold IMM_S. f_equal.
  - rewrite (land_mask imm 5 7 0xfe0) by (reflexivity || lia). change (2 ^ 5) with 32. change (2 ^ 7) with 128.
    pose proof (Z.mod_pos_bound (imm / 32) 128 ltac:(lia)). rewrite !Z.shiftl_mul_pow2 by lia.
    unfold u32. rewrite Z.mod_small by lia. change (2 ^ 25) with (32 * 2 ^ 20). ring.
  - rewrite (land_low imm 5 0x1f) by (reflexivity || lia). reflexivity.
Qed.
Lemma fld_IMM_S_lo imm lo n : 0 <= lo -> 0 <= n -> lo + n <= 7 -> fld (IMM_S imm) lo n = 0.
Proof.
  intros. rewrite IMM_S_eq, fld_lor. rewrite !fld_shl_low by lia. reflexivity.
Qed.
Lemma fld_IMM_S_mid imm lo n : 12 <= lo -> 0 <= n -> lo + n <= 25 -> fld (IMM_S imm) lo n = 0.
Proof.
  intros. pose proof (Z.mod_pos_bound imm 32 ltac:(lia)).
  rewrite IMM_S_eq, fld_lor. rewrite fld_shl_low by lia. rewrite (fld_shl_high _ 7 5) by lia. reflexivity.
Qed.
Lemma fld_IMM_S_7 imm : fld (IMM_S imm) 7 5 = imm mod 32.
Proof.
  pose proof (Z.mod_pos_bound imm 32 ltac:(lia)).
  rewrite IMM_S_eq, fld_lor. rewrite fld_shl_low by lia. rewrite fld_shl_in by lia. reflexivity.
Qed.
Lemma fld_IMM_S_25 imm : fld (IMM_S imm) 25 7 = (imm / 32) mod 128.
Proof.
  pose proof (Z.mod_pos_bound imm 32 ltac:(lia)). pose proof (Z.mod_pos_bound (imm / 32) 128 ltac:(lia)).
  rewrite IMM_S_eq, fld_lor. rewrite fld_shl_in by lia. rewrite (fld_shl_high _ 7 5) by lia. apply Z.lor_0_r.
Qed.
Lemma IMM_S_lt imm : 0 <= IMM_S imm < 2 ^ 32.
Proof.
  pose proof (Z.mod_pos_bound imm 32 ltac:(lia)). pose proof (Z.mod_pos_bound (imm / 32) 128 ltac:(lia)).
  rewrite IMM_S_eq. apply lor_lt; [lia|rewrite Z.shiftl_mul_pow2 by lia; lia..].
Qed.

Lemma run_S c sz d a imm ps s : dec_S c = Some sz -> vreg d -> vreg a ->
  run (P32 (c .| RS1 a .| (RS2 d .| IMM_S imm)) :: ps) s
  = run ps (setm s (store (mem s) (rd s a + sext 12 imm) (rd s d) (bytes sz))).
Proof.
  intros D Hd Ha. unfold dec_S in D.
  destruct (cst c && (fld c 7 5 =? 0) && (fld c 15 17 =? 0) && (fld c 0 2 =? 3) && (fld c 0 7 =? 0x23)) eqn:E; [|discriminate].
  apply andb_prop in E as (E & EO). apply andb_prop in E as (E & E0). apply andb_prop in E as (E & E15). apply andb_prop in E as (C & E7).
  apply cst_lt in C. apply Z.eqb_eq in E0, E15, E7, EO.
  assert (E1 : fld c 15 5 = 0) by (apply (fld_sub c 15 17); auto; lia).
  assert (E2 : fld c 20 5 = 0) by (apply (fld_sub c 15 17); auto; lia).
  assert (E3 : fld c 25 7 = 0) by (apply (fld_sub c 15 17); auto; lia).
  assert (Ib := IMM_S_lt imm). assert (I0 := fld_IMM_S_lo imm 0 2 ltac:(lia) ltac:(lia) ltac:(lia)).
  assert (I1 := fld_IMM_S_lo imm 0 7 ltac:(lia) ltac:(lia) ltac:(lia)).
  assert (I2 := fld_IMM_S_mid imm 12 3 ltac:(lia) ltac:(lia) ltac:(lia)).
  assert (I3 := fld_IMM_S_mid imm 15 5 ltac:(lia) ltac:(lia) ltac:(lia)).
  assert (I4 := fld_IMM_S_mid imm 20 5 ltac:(lia) ltac:(lia) ltac:(lia)).
  cbn [run decode_piece]. flds. rewrite E0, I0. change (3 .| 0 =? 3) with true. cbv iota.
  rewrite u32_small by wlt.
  assert (I : imm_s (c .| RS1 a .| (RS2 d .| IMM_S imm)) = sext 12 imm).
  { unfold imm_s. flds. rewrite E3, E7, fld_IMM_S_7, fld_IMM_S_25, ?Z.lor_0_l.
    rewrite <- (sext_mod_id 12 imm) by lia. f_equal. change (2 ^ 12) with (32 * 128). rewrite Z.rem_mul_r by lia. lia. }
  unfold decode32. flds. rewrite E1, E2, EO, I1, I2, I3, I4. rewrite ?Z.lor_0_l, ?Z.lor_0_r. unfold decode_fields.
  change (35 =? 0x33) with false. change (35 =? 0x3b) with false. change (35 =? 0x13) with false. change (35 =? 0x1b) with false.
  change (35 =? 0x37) with false. change (35 =? 0x17) with false. change (35 =? 3) with false. change (35 =? 35) with true.
  cbv iota. rewrite I, D. reflexivity.
Qed.

Definition fsize (flags : Z) : msize :=
  let k := flags .& 6 in if k =? 0 then B8 else if k =? 2 then B1 else if k =? 4 then B2 else B4.
Definition fsigned (flags : Z) : bool := negb (flags .& 8 =? 0) || (flags .& 6 =? 0).

Lemma c_off_check (n : nat) (f : Z -> Z -> bool) :
  forallb (fun d => forallb (fun i => f d i) (upto n)) vregs = true ->
  forall d i, vreg d -> 0 <= i < Z.of_nat n -> f d i = true.
Proof.
  intros B d i Hd Hi. rewrite forallb_forall in B. specialize (B d (vregs_in d Hd)).
  rewrite forallb_forall in B. apply B. apply upto_in. auto.
Qed.
Definition r3regs : list Z := filter C_IS_R3 vregs.
Lemma c_off3_check (n : nat) (f : Z -> Z -> Z -> bool) :
  forallb (fun d => forallb (fun a => forallb (fun i => f d a i) (upto n)) r3regs) r3regs = true ->
  forall d a i, vreg d -> C_IS_R3 d = true -> vreg a -> C_IS_R3 a = true -> 0 <= i < Z.of_nat n -> f d a i = true.
Proof.
  intros B d a i Hd Rd Ha Ra Hi. rewrite forallb_forall in B.
  assert (I : forall x, vreg x -> C_IS_R3 x = true -> In x r3regs). { intros. apply filter_In. split; auto. apply vregs_in. auto. }
  specialize (B d (I d Hd Rd)). rewrite forallb_forall in B. specialize (B a (I a Ha Ra)).
  rewrite forallb_forall in B. apply B. apply upto_in. auto.
Qed.
Lemma flags_cases f : 0 <= f < 16 -> In f (upto 16).
Proof. intros. apply upto_in. lia. Qed.

Section M.
Variable c : cfg.

(** The state after the access. *)
Definition access (flags reg a : Z) (s : mst) : mst :=
  if negb (flags .& LOAD_DATA =? 0) then wr s reg (ldval (fsize flags) (fsigned flags) (mem s) a)
  else setm s (store (mem s) a (rd s reg) (bytes (fsize flags))).

Lemma lwsp_ok reg q ps s : vreg reg -> reg <> 0 -> 0 <= q < 64 ->
  run (P16 (C_LWSP .| C_RD reg .| C_LD32_SP (4 * q)) :: ps) s = run ps (wr s reg (ldval B4 true (mem s) (rd s SLJIT_SP + 4 * q))).
Proof.
  intros Hr Nr Hq. assert (B := c_off_check 64 (fun d i => (d =? 0) || dec_is (C_LWSP .| C_RD d .| C_LD32_SP (4 * i)) (ILoad B4 true (reg_map d) 2 (4 * i)))
    ltac:(vm_compute; reflexivity) reg q Hr ltac:(lia)). cbv beta in B. destruct (reg =? 0) eqn:E; [lia|]. exact (run16 _ _ ps s _ B eq_refl).
Qed.
Lemma ldsp_ok reg q ps s : vreg reg -> reg <> 0 -> 0 <= q < 64 ->
  run (P16 (C_LDSP .| C_RD reg .| C_LD64_SP (8 * q)) :: ps) s = run ps (wr s reg (ldval B8 true (mem s) (rd s SLJIT_SP + 8 * q))).
Proof.
  intros Hr Nr Hq. assert (B := c_off_check 64 (fun d i => (d =? 0) || dec_is (C_LDSP .| C_RD d .| C_LD64_SP (8 * i)) (ILoad B8 true (reg_map d) 2 (8 * i)))
    ltac:(vm_compute; reflexivity) reg q Hr ltac:(lia)). cbv beta in B. destruct (reg =? 0) eqn:E; [lia|]. exact (run16 _ _ ps s _ B eq_refl).
Qed.
Lemma swsp_ok reg q ps s : vreg reg -> 0 <= q < 64 ->
  run (P16 (C_SWSP .| C_RS2 reg .| C_ST32_SP (4 * q)) :: ps) s = run ps (setm s (store (mem s) (rd s SLJIT_SP + 4 * q) (rd s reg) 4)).
Proof.
  intros Hr Hq. assert (B := c_off_check 64 (fun d i => dec_is (C_SWSP .| C_RS2 d .| C_ST32_SP (4 * i)) (IStore B4 (reg_map d) 2 (4 * i)))
    ltac:(vm_compute; reflexivity) reg q Hr ltac:(lia)). cbv beta in B. exact (run16 _ _ ps s _ B eq_refl).
Qed.
Lemma sdsp_ok reg q ps s : vreg reg -> 0 <= q < 64 ->
  run (P16 (C_SDSP .| C_RS2 reg .| C_ST64_SP (8 * q)) :: ps) s = run ps (setm s (store (mem s) (rd s SLJIT_SP + 8 * q) (rd s reg) 8)).
Proof.
  intros Hr Hq. assert (B := c_off_check 64 (fun d i => dec_is (C_SDSP .| C_RS2 d .| C_ST64_SP (8 * i)) (IStore B8 (reg_map d) 2 (8 * i)))
    ltac:(vm_compute; reflexivity) reg q Hr ltac:(lia)). cbv beta in B. exact (run16 _ _ ps s _ B eq_refl).
Qed.
Definition m3_chk (cst8 : Z) (eight : bool) (i : Z -> Z -> Z -> instr) (d a q : Z) : bool :=
  dec_is (cst8 .| C_RS1_R3 d .| C_RS2_R3 a .| (if eight then C_MEM64 (8 * q) else C_MEM32 (4 * q)))
      (i (reg_map d) (reg_map a) (if eight then 8 * q else 4 * q)).
Lemma m3_ok cst8 eight i :
  forallb (fun d => forallb (fun a => forallb (fun q => m3_chk cst8 eight i d a q) (upto 32)) r3regs) r3regs = true ->
  forall base reg q ps s s1,
  vreg base -> C_IS_R3 base = true -> vreg reg -> C_IS_R3 reg = true -> 0 <= q < 32 ->
  exec_s (i (reg_map base) (reg_map reg) (if eight then 8 * q else 4 * q)) s = Some s1 ->
  run (P16 (cst8 .| C_RS1_R3 base .| C_RS2_R3 reg .| (if eight then C_MEM64 (8 * q) else C_MEM32 (4 * q))) :: ps) s = run ps s1.
Proof.
  intros B base reg q ps s s1 Hb Rb Hr Rr Hq X.
  assert (B' := c_off3_check 32 (m3_chk cst8 eight i) B base reg q Hb Rb Hr Rr ltac:(lia)). unfold m3_chk in B'.
  eapply run16; eauto.
Qed.

Lemma R3_nz r : C_IS_R3 r = true -> r <> 0.
Proof. intros H ->. vm_compute in H. discriminate. Qed.

Lemma fl_check (g : Z -> bool) f : 0 <= f < 16 -> forallb g (upto 16) = true -> g f = true.
Proof. intros H B. rewrite forallb_forall in B. apply B. apply flags_cases. auto. Qed.
Lemma off_mult x k m n : 0 <= x -> 0 <= k -> m = 2 ^ k - 1 -> (x .& m =? 0) && (x <=? 2 ^ k * n) = true ->
  exists q, x = 2 ^ k * q /\ 0 <= q <= n.
Proof.
  intros Hx Hk -> T. assert (P : 0 < 2 ^ k) by (apply Z.pow_pos_nonneg; lia).
  rewrite (land_low x k) in T by auto. exists (x / 2 ^ k). assert (D := Z.div_mod x (2 ^ k)).
  assert (x mod 2 ^ k = 0) by lia. split; [lia|]. split; [apply Z.div_pos; lia|]. assert (2 ^ k * (x / 2 ^ k) = x) by lia.
  assert (x <= 2 ^ k * n) by lia. nia.
Qed.

Lemma ldst_table flags reg base offset ps s : 0 <= flags < 16 -> vreg reg -> vreg base ->
  run (flat (let ins := nth (Z.to_nat flags) data_transfer_insts 0 .| RS1 base in
    if negb (flags .& LOAD_DATA =? 0) then E32 (ins .| (RD reg .| IMM_I offset))
    else E32 (ins .| (RS2 reg .| IMM_S offset))) ++ ps) s = run ps (access flags reg (rd s base + sext 12 offset) s).
Proof.
  intros Hf Hr Hb. cbv zeta.
  assert (T := fl_check (fun f => if negb (f .& LOAD_DATA =? 0)
     then match dec_L (nth (Z.to_nat f) data_transfer_insts 0) with
       Some (sz, sg) => (match sz, fsize f with B1, B1 | B2, B2 | B4, B4 | B8, B8 => true | _, _ => false end) && eqb sg (fsigned f) | None => false end
     else match dec_S (nth (Z.to_nat f) data_transfer_insts 0) with
       Some sz => (match sz, fsize f with B1, B1 | B2, B2 | B4, B4 | B8, B8 => true | _, _ => false end) | None => false end) flags Hf ltac:(vm_compute; reflexivity)).
  cbv beta in T. unfold access. destruct (negb (flags .& LOAD_DATA =? 0)).
  - destruct (dec_L (nth (Z.to_nat flags) data_transfer_insts 0)) as [[sz sg]|] eqn:E; [|discriminate].
    apply andb_prop in T as (T1 & T2). apply eqb_prop in T2. cbn [flat app]. rewrite (run_L _ sz sg) by auto.
    assert (sz = fsize flags) by (destruct sz, (fsize flags); discriminate || reflexivity). subst. reflexivity.
  - destruct (dec_S (nth (Z.to_nat flags) data_transfer_insts 0)) as [sz|] eqn:E; [|discriminate].
    cbn [flat app]. rewrite (run_S _ sz) by auto.
    assert (sz = fsize flags) by (destruct sz, (fsize flags); discriminate || reflexivity). subst. reflexivity.
Qed.

Lemma push_mem_ok flags reg base offset ps s :
  0 <= flags < 16 -> vreg reg -> (flags .& LOAD_DATA <> 0 -> reg <> 0) -> vreg base -> SIMM_MIN <= offset <= 0xfff ->
  run (flat (push_mem_inst c flags reg base offset) ++ ps) s = run ps (access flags reg (rd s base + sext 12 offset) s).
Proof.
  intros Hf Hr Nr Hb Ho. unfold SIMM_MIN in Ho.
  assert (Off : forall x, 0 <= x < 2048 -> sext 12 x = x). { intros. apply sext12_small. lia. }
  assert (Tab := ldst_table flags reg base offset ps s Hf Hr Hb).
  unfold push_mem_inst. set (ELSE := if negb (flags .& LOAD_DATA =? 0) then _ else _) in *. clearbody ELSE. cbv zeta in Tab |- *.
  destruct (cC c && (0 <=? offset) && (base =? SLJIT_SP) && (offset .& 3 =? 0) && (offset <=? 252)) eqn:S4; cbn [andb].
  { assert (Eb : base = SLJIT_SP) by lia. subst base. destruct (off_mult offset 2 3 63 ltac:(lia) ltac:(lia) eq_refl ltac:(change (2 ^ 2 * 63) with 252; lia)) as (q & -> & Hq).
    change (2 ^ 2) with 4 in *.
    destruct (flags =? INT_DATA .| SIGNED_DATA .| LOAD_DATA) eqn:F1.
    { apply Z.eqb_eq in F1. change (INT_DATA .| SIGNED_DATA .| LOAD_DATA) with 15 in F1. subst flags. cbn [flat app]. rewrite lwsp_ok by (auto; try lia; apply Nr; discriminate).
      rewrite Off by lia. reflexivity. }
    destruct (flags .| SIGNED_DATA =? INT_DATA .| SIGNED_DATA) eqn:F2.
    { assert (T := fl_check (fun f => negb (f .| SIGNED_DATA =? INT_DATA .| SIGNED_DATA) || (f =? 6) || (f =? 14)) flags Hf ltac:(vm_compute; reflexivity)). cbv beta in T. rewrite F2 in T. cbn [negb orb] in T.
      cbn [flat app]. rewrite swsp_ok by (auto; lia). rewrite Off by lia.
      assert (D : flags = 6 \/ flags = 14) by lia. destruct D as [-> | ->]; reflexivity. }
    destruct (cC c && (0 <=? 4 * q) && (SLJIT_SP =? SLJIT_SP) && (4 * q .& 7 =? 0) && (4 * q <=? 504)) eqn:S8; cbn [andb].
    { destruct (off_mult (4 * q) 3 7 63 ltac:(lia) ltac:(lia) eq_refl ltac:(change (2 ^ 3 * 63) with 504; lia)) as (q8 & Eq & Hq8).
      rewrite Eq in *. change (2 ^ 3) with 8 in *.
      destruct (flags .| SIGNED_DATA =? SIGNED_DATA .| LOAD_DATA) eqn:F3.
      { assert (T := fl_check (fun f => negb (f .| SIGNED_DATA =? SIGNED_DATA .| LOAD_DATA) || (f =? 1) || (f =? 9)) flags Hf ltac:(vm_compute; reflexivity)). cbv beta in T. rewrite F3 in T. cbn [negb orb] in T.
        assert (D : flags = 1 \/ flags = 9) by lia. cbn [flat app].
        rewrite ldsp_ok by (auto; try lia; apply Nr; destruct D as [-> | ->]; discriminate). rewrite Off by lia.
        destruct D as [-> | ->]; reflexivity. }
      destruct (flags .| SIGNED_DATA =? SIGNED_DATA) eqn:F4.
      { assert (T := fl_check (fun f => negb (f .| SIGNED_DATA =? SIGNED_DATA) || (f =? 0) || (f =? 8)) flags Hf ltac:(vm_compute; reflexivity)). cbv beta in T. rewrite F4 in T. cbn [negb orb] in T.
        assert (D : flags = 0 \/ flags = 8) by lia. cbn [flat app].
        rewrite sdsp_ok by (auto; lia). rewrite Off by lia. destruct D as [-> | ->]; reflexivity. }
      rewrite Z.eqb_refl. cbn [negb]. rewrite !andb_false_r. cbn [andb]. exact Tab. }
    rewrite Z.eqb_refl. cbn [negb]. rewrite !andb_false_r. cbn [andb]. exact Tab. }
  destruct (cC c && (0 <=? offset) && (base =? SLJIT_SP) && (offset .& 7 =? 0) && (offset <=? 504)) eqn:S8; cbn [andb].
  { assert (Eb : base = SLJIT_SP) by lia. subst base. destruct (off_mult offset 3 7 63 ltac:(lia) ltac:(lia) eq_refl ltac:(change (2 ^ 3 * 63) with 504; lia)) as (q8 & Eq & Hq8).
      rewrite Eq in *. change (2 ^ 3) with 8 in *.
      destruct (flags .| SIGNED_DATA =? SIGNED_DATA .| LOAD_DATA) eqn:F3.
      { assert (T := fl_check (fun f => negb (f .| SIGNED_DATA =? SIGNED_DATA .| LOAD_DATA) || (f =? 1) || (f =? 9)) flags Hf ltac:(vm_compute; reflexivity)). cbv beta in T. rewrite F3 in T. cbn [negb orb] in T.
        assert (D : flags = 1 \/ flags = 9) by lia. cbn [flat app].
        rewrite ldsp_ok by (auto; try lia; apply Nr; destruct D as [-> | ->]; discriminate). rewrite Off by lia.
        destruct D as [-> | ->]; reflexivity. }
      destruct (flags .| SIGNED_DATA =? SIGNED_DATA) eqn:F4.
      { assert (T := fl_check (fun f => negb (f .| SIGNED_DATA =? SIGNED_DATA) || (f =? 0) || (f =? 8)) flags Hf ltac:(vm_compute; reflexivity)). cbv beta in T. rewrite F4 in T. cbn [negb orb] in T.
        assert (D : flags = 0 \/ flags = 8) by lia. cbn [flat app].
        rewrite sdsp_ok by (auto; lia). rewrite Off by lia. destruct D as [-> | ->]; reflexivity. }
      rewrite Z.eqb_refl. cbn [negb]. rewrite !andb_false_r. cbn [andb]. exact Tab. }
  destruct (cC c && (0 <=? offset) && negb (base =? SLJIT_SP) && C_IS_R3 base && C_IS_R3 reg) eqn:R3; cbn [andb]; [|exact Tab].
  assert (Rb : C_IS_R3 base = true) by (destruct (C_IS_R3 base); auto; rewrite andb_false_r in R3; discriminate).
  assert (Rr : C_IS_R3 reg = true) by (destruct (C_IS_R3 reg); auto; rewrite andb_false_r in R3; discriminate).
  assert (O0 : 0 <= offset) by lia. clear S4 S8 R3.
  destruct ((offset .& 3 =? 0) && (offset <=? 124) && (flags .| LOAD_DATA =? INT_DATA .| SIGNED_DATA .| LOAD_DATA)) eqn:F1.
  { destruct (off_mult offset 2 3 31 ltac:(lia) ltac:(lia) eq_refl ltac:(change (2 ^ 2 * 31) with 124; lia)) as (q & -> & Hq).
    change (2 ^ 2) with 4 in *. apply andb_prop in F1 as (_ & F1).
    assert (T := fl_check (fun f => negb (f .| LOAD_DATA =? INT_DATA .| SIGNED_DATA .| LOAD_DATA) || (f =? 14) || (f =? 15)) flags Hf ltac:(vm_compute; reflexivity)). cbv beta in T. rewrite F1 in T. cbn [negb orb] in T.
    assert (D : flags = 14 \/ flags = 15) by lia. cbn [flat app]. rewrite Off by lia. destruct D as [-> | ->].
    - apply (m3_ok _ false (fun b r o => IStore B4 r b o)); [vm_compute; reflexivity|assumption|assumption|assumption|assumption|lia|reflexivity].
    - apply (m3_ok _ false (fun b r o => ILoad B4 true r b o)); [vm_compute; reflexivity|assumption|assumption|assumption|assumption|lia|reflexivity]. }
  destruct ((offset .& 7 =? 0) && (offset <=? 248) && (flags .| LOAD_DATA .| SIGNED_DATA =? SIGNED_DATA .| LOAD_DATA)) eqn:F2; [|exact Tab].
  destruct (off_mult offset 3 7 31 ltac:(lia) ltac:(lia) eq_refl ltac:(change (2 ^ 3 * 31) with 248; lia)) as (q & -> & Hq).
  change (2 ^ 3) with 8 in *. apply andb_prop in F2 as (_ & F2).
  assert (T := fl_check (fun f => negb (f .| LOAD_DATA .| SIGNED_DATA =? SIGNED_DATA .| LOAD_DATA) || (f =? 0) || (f =? 1) || (f =? 8) || (f =? 9)) flags Hf ltac:(vm_compute; reflexivity)). cbv beta in T. rewrite F2 in T. cbn [negb orb] in T.
  assert (D : flags = 0 \/ flags = 1 \/ flags = 8 \/ flags = 9) by lia. cbn [flat app]. rewrite Off by lia.
  destruct D as [-> | [-> | [-> | ->]]].
  - apply (m3_ok _ true (fun b r o => IStore B8 r b o)); [vm_compute; reflexivity|assumption|assumption|assumption|assumption|lia|reflexivity].
  - apply (m3_ok _ true (fun b r o => ILoad B8 true r b o)); [vm_compute; reflexivity|assumption|assumption|assumption|assumption|lia|reflexivity].
  - apply (m3_ok _ true (fun b r o => IStore B8 r b o)); [vm_compute; reflexivity|assumption|assumption|assumption|assumption|lia|reflexivity].
  - apply (m3_ok _ true (fun b r o => ILoad B8 true r b o)); [vm_compute; reflexivity|assumption|assumption|assumption|assumption|lia|reflexivity].
Qed.
End M.
