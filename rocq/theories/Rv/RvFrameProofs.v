(** Proofs about function entry and return. *)
Require Import ZArith List Bool Lia Zify ZifyBool.
From Verif Require Import Rv.RvLib Rv.RvBits Rv.RvIsa Rv.RvEnc Rv.RvImm Rv.RvRun Rv.RvImmProofs Rv.RvCtl Rv.RvWf Rv.RvMem Rv.RvRunMem Rv.RvOp Rv.RvLir Rv.RvOpLib Rv.RvSx Rv.RvMemProofs Rv.RvEmitOp1 Rv.RvOpTop Rv.RvFrame Rv.RvFrameSpec.
Import ListNotations.
Open Scope Z_scope.
Ltac Zify.zify_post_hook ::= idtac.

(** ** The instructions *)
Definition em_is (e : em) (i : instr) : bool :=
  match flat e with
  | [p] => match decode_piece p with Some j => if instr_eq_dec j i then true else false | None => false end
  | _ => false
  end.
Lemma em_is_ok e i s s' (P : mst -> Prop) : em_is e i = true -> exec_s i s = Some s' -> P s' -> ok e s P.
Proof.
  unfold em_is. intros E X H. destruct (flat e) as [|p [|]] eqn:F; try discriminate.
  destruct (decode_piece p) as [j|] eqn:D; [|discriminate]. destruct (instr_eq_dec j i); [subst j|discriminate].
  apply ok_run with s'; auto. rewrite F. cbn [run]. rewrite D, X. reflexivity.
Qed.
(** Every register and every multiple of 8 below 2048. *)
Lemma slot_check (g : bool -> Z -> Z -> bool) (l : list Z) :
  forallb (fun b => forallb (fun r => forallb (fun q => g b r q) (upto 256)) l) [true; false] = true ->
  forall b r q, In r l -> 0 <= q < 256 -> g b r q = true.
Proof.
  intros B b r q Hr Hq. rewrite forallb_forall in B.
  assert (Hb : In b [true; false]) by (destruct b; cbn; auto).
  specialize (B b Hb). rewrite forallb_forall in B. specialize (B r Hr). rewrite forallb_forall in B. apply B. apply upto_in. lia.
Qed.
Definition cb (b : bool) : cfg := mkCfg b false false.
Definition ifregs : list Z := map Z.of_nat (seq 1 30).
Lemma ifregs_in r : 1 <= r <= 30 -> In r ifregs.
Proof. intros H. apply in_map_iff. exists (Z.to_nat r). split; [lia|]. apply in_seq. lia. Qed.

Section X.
Variable c : cfg.
Variables (s : mst) (P : mst -> Prop).
Lemma x_st_reg r q : vreg r -> 0 <= q < 256 -> P (setm s (store (mem s) (rd s SLJIT_SP + 8 * q) (rd s r) 8)) -> ok (st_reg c (8 * q) r) s P.
Proof.
  intros Hr Hq H. change (st_reg c (8 * q) r) with (st_reg (cb (cC c)) (8 * q) r).
  eapply em_is_ok with (i := IStore B8 (reg_map r) (reg_map SLJIT_SP) (8 * q)); [|reflexivity|exact H].
  refine (slot_check (fun b r q => em_is (st_reg (cb b) (8 * q) r) (IStore B8 (reg_map r) (reg_map SLJIT_SP) (8 * q))) vregs _ (cC c) r q (vregs_in r Hr) Hq). vm_compute. reflexivity.
Qed.
Lemma x_ld_reg r q : vreg r -> r <> 0 -> 0 <= q < 256 -> P (wr s r (wrap (sext 64 (load (mem s) (rd s SLJIT_SP + 8 * q) 8)))) -> ok (ld_reg c (8 * q) r) s P.
Proof.
  intros Hr Nr Hq H. change (ld_reg c (8 * q) r) with (ld_reg (cb (cC c)) (8 * q) r).
  eapply em_is_ok with (i := ILoad B8 true (reg_map r) (reg_map SLJIT_SP) (8 * q)); [|reflexivity|exact H].
  assert (T := slot_check (fun b r q => (r =? 0) || em_is (ld_reg (cb b) (8 * q) r) (ILoad B8 true (reg_map r) (reg_map SLJIT_SP) (8 * q))) vregs
    ltac:(vm_compute; reflexivity) (cC c) r q (vregs_in r Hr) Hq). cbv beta in T. destruct (r =? 0) eqn:E; [lia|exact T].
Qed.
Lemma x_st_freg r q : 1 <= r <= 30 -> 0 <= q < 256 -> P (setm s (store (mem s) (rd s SLJIT_SP + 8 * q) (fregs s (freg_map r)) 8)) -> ok (st_freg c (8 * q) r) s P.
Proof.
  intros Hr Hq H. change (st_freg c (8 * q) r) with (st_freg (cb (cC c)) (8 * q) r).
  eapply em_is_ok with (i := IFsd (freg_map r) (reg_map SLJIT_SP) (8 * q)); [|reflexivity|exact H].
  refine (slot_check (fun b r q => em_is (st_freg (cb b) (8 * q) r) (IFsd (freg_map r) (reg_map SLJIT_SP) (8 * q))) ifregs _ (cC c) r q (ifregs_in r Hr) Hq). vm_compute. reflexivity.
Qed.
Lemma x_ld_freg r q : 1 <= r <= 30 -> 0 <= q < 256 -> P (setf s (freg_map r) (load (mem s) (rd s SLJIT_SP + 8 * q) 8)) -> ok (ld_freg c (8 * q) r) s P.
Proof.
  intros Hr Hq H. change (ld_freg c (8 * q) r) with (ld_freg (cb (cC c)) (8 * q) r).
  eapply em_is_ok with (i := IFld (freg_map r) (reg_map SLJIT_SP) (8 * q)); [|reflexivity|exact H].
  refine (slot_check (fun b r q => em_is (ld_freg (cb b) (8 * q) r) (IFld (freg_map r) (reg_map SLJIT_SP) (8 * q))) ifregs _ (cC c) r q (ifregs_in r Hr) Hq). vm_compute. reflexivity.
Qed.
Lemma x_addi16sp_neg q : 1 <= q <= 32 -> P (wr s SLJIT_SP (wrap (rd s SLJIT_SP - 16 * q))) ->
  ok (E16 (C_ADDI16SP .| u16 (c_addi16sp (- (16 * q)) .| 0x1000))) s P.
Proof.
  intros Hq H. eapply em_is_ok with (i := IImm Addi 2 2 (- (16 * q))); [|reflexivity|exact H].
  assert (B : forallb (fun q => em_is (E16 (C_ADDI16SP .| u16 (c_addi16sp (- (16 * (q + 1))) .| 0x1000))) (IImm Addi 2 2 (- (16 * (q + 1))))) (upto 32) = true) by (vm_compute; reflexivity).
  rewrite forallb_forall in B. specialize (B (q - 1) (upto_in 32 (q - 1) ltac:(lia))). cbv beta in B. replace (q - 1 + 1) with q in B by lia. exact B.
Qed.
Lemma x_addi16sp_pos q : 1 <= q <= 31 -> P (wr s SLJIT_SP (wrap (rd s SLJIT_SP + 16 * q))) ->
  ok (E16 (C_ADDI16SP .| u16 (c_addi16sp (16 * q)))) s P.
Proof.
  intros Hq H. eapply em_is_ok with (i := IImm Addi 2 2 (16 * q)); [|reflexivity|exact H].
  assert (B : forallb (fun q => em_is (E16 (C_ADDI16SP .| u16 (c_addi16sp (16 * (q + 1))))) (IImm Addi 2 2 (16 * (q + 1)))) (upto 31) = true) by (vm_compute; reflexivity).
  rewrite forallb_forall in B. specialize (B (q - 1) (upto_in 31 (q - 1) ltac:(lia))). cbv beta in B. replace (q - 1 + 1) with q in B by lia. exact B.
Qed.
End X.

(** ** The saved registers in memory *)
(** The values [vs] pushed below [a]. *)
Fixpoint push (m : Z -> Z) (a : Z) (vs : list Z) : Z -> Z :=
  match vs with [] => m | v :: vs => push (store m (a - 8) v 8) (a - 8) vs end.
Lemma push_app m a l1 l2 : push m a (l1 ++ l2) = push (push m a l1) (a - 8 * Z.of_nat (length l1)) l2.
Proof.
  revert m a. induction l1; intros m a0; cbn [app push length]. { f_equal; lia. }
  rewrite IHl1. f_equal. lia.
Qed.
Lemma push_cong l : forall m a b, wrap a = wrap b -> push m a l = push m b l.
Proof.
  induction l; intros m x y H; cbn [push]; auto. assert (H8 : wrap (x - 8) = wrap (y - 8)).
  { rewrite <- (wrap_sub_l x), <- (wrap_sub_l y), H. reflexivity. }
  rewrite (store_cong 8 m (x - 8) (y - 8)) by auto. apply IHl. auto.
Qed.
(** Bytes outside. *)
Lemma push_out l : forall m a x, isw x -> 8 * Z.of_nat (length l) < 2 ^ 32 ->
  8 * Z.of_nat (length l) <= wrap (x - (a - 8 * Z.of_nat (length l))) -> push m a l x = m x.
Proof.
  induction l; intros m b x X L H; cbn [push length] in *; auto.
  assert (W := wrap_isw (x - (b - 8 * Z.of_nat (S (length l))))). unfold isw in W.
  set (w := wrap (x - (b - 8 * Z.of_nat (S (length l))))) in *.
  assert (E1 : wrap (x - (b - 8 - 8 * Z.of_nat (length l))) = w). { unfold w. f_equal. lia. }
  rewrite IHl by (auto; lia). rewrite store_at by (auto; cbn; lia). cbv zeta. 
  assert (E2 : wrap (x - (b - 8)) = w - 8 * Z.of_nat (length l)).
  { replace (x - (b - 8)) with (x - (b - 8 * Z.of_nat (S (length l))) - 8 * Z.of_nat (length l)) by lia.
    rewrite <- wrap_sub_l. fold w. apply wrap_small. unfold isw. lia. }
  rewrite E2. change (Z.of_nat 8) with 8. destruct (_ <? 8) eqn:?; [lia|reflexivity].
Qed.
Lemma load_ext m m' n : forall a, (forall i, 0 <= i < Z.of_nat n -> m' (wrap (a + i)) = m (wrap (a + i))) -> load m' a n = load m a n.
Proof.
  induction n; intros a H; cbn [load]; auto. rewrite (IHn (a + 1)).
  - specialize (H 0 ltac:(lia)). rewrite Z.add_0_r in H. rewrite H. reflexivity.
  - intros i Hi. specialize (H (i + 1) ltac:(lia)). replace (a + 1 + i) with (a + (i + 1)) by lia. auto.
Qed.
Lemma load_store m a v n : Z.of_nat n < 2 ^ 32 -> load (store m a v n) a n = v mod 2 ^ (8 * Z.of_nat n).
Proof.
  intros N.
  assert (G : forall k j, Z.of_nat j + Z.of_nat k = Z.of_nat n -> load (store m a v n) (a + Z.of_nat j) k = (v / 256 ^ Z.of_nat j) mod 2 ^ (8 * Z.of_nat k)).
  { induction k; intros j J; cbn [load]. { change (2 ^ (8 * Z.of_nat 0)) with 1. rewrite Z.mod_1_r. reflexivity. }
    replace (a + Z.of_nat j + 1) with (a + Z.of_nat (S j)) by lia. rewrite IHk by lia.
    rewrite store_at by (auto using wrap_isw; lia). cbv zeta. rewrite wrap_sub_l.
    replace (a + Z.of_nat j - a) with (Z.of_nat j) by lia. rewrite (wrap_small (Z.of_nat j)) by (unfold isw; lia).
    destruct (Z.of_nat j <? Z.of_nat n) eqn:?; [|lia]. rewrite Zmod_mod.
    replace (8 * Z.of_nat (S k)) with (8 + 8 * Z.of_nat k) by lia. rewrite Z.pow_add_r by lia. change (2 ^ 8) with 256.
    rewrite Z.rem_mul_r by (try apply Z.pow_pos_nonneg; lia). f_equal. f_equal. f_equal.
    rewrite Nat2Z.inj_succ, Z.pow_succ_r by lia. rewrite Z.mul_comm, <- Z.div_div by (try apply Z.pow_pos_nonneg; lia). reflexivity. }
  specialize (G n 0%nat ltac:(lia)). cbn [Z.of_nat] in G. change (256 ^ 0) with 1 in G. rewrite Z.div_1_r, Z.add_0_r in G. exact G.
Qed.
Lemma load_push l : forall m a k v, 8 * Z.of_nat (length l) < 2 ^ 32 -> nth_error l k = Some v -> isw v ->
  load (push m a l) (a - 8 * Z.of_nat k - 8) 8 = v.
Proof.
  induction l; intros m b k v L N V; cbn [push length] in *. { destruct k; discriminate. }
  destruct k; cbn [nth_error] in N.
  - injection N as ->. rewrite Z.mul_0_r, Z.sub_0_r. transitivity (load (store m (b - 8) v 8) (b - 8) 8).
    + apply load_ext. intros i Hi. apply push_out; auto using wrap_isw; try lia. cbn in Hi. rewrite wrap_sub_l.
      replace (b - 8 + i - (b - 8 - 8 * Z.of_nat (length l))) with (8 * Z.of_nat (length l) + i) by lia.
      rewrite wrap_small; unfold isw; lia.
    + rewrite load_store by (cbn; lia). cbn. apply Z.mod_small. exact V.
  - rewrite <- (IHl (store m (b - 8) a 8) (b - 8) k v) by (auto; lia). apply load_cong. f_equal. lia.
Qed.

(** ** The loops *)
Section S.
Variable c : cfg.
Lemma slots_st k (P : mst -> Prop) l : forall q s, Forall vreg l -> Z.of_nat (length l) <= q <= 256 ->
  ok (k (8 * q - 8 * Z.of_nat (length l))) (setm s (push (mem s) (rd s SLJIT_SP + 8 * q) (map (rd s) l))) P ->
  ok (slots (st_reg c) l (8 * q) k) s P.
Proof.
  induction l; intros q s V L H; cbn [slots map push length] in *.
  - change (Z.of_nat 0) with 0 in H. replace (8 * q - 8 * 0) with (8 * q) in H by lia. destruct s. exact H.
  - inversion V; subst. apply ok_then. replace (8 * q - 8) with (8 * (q - 1)) by lia. apply x_st_reg; auto; try lia.
    apply IHl; auto; try lia. cbn [mem setm]. rewrite rd_setm.
    replace (8 * (q - 1) - 8 * Z.of_nat (length l)) with (8 * q - 8 * Z.of_nat (S (length l))) by lia.
    replace (rd s SLJIT_SP + 8 * (q - 1)) with (rd s SLJIT_SP + 8 * q - 8) by lia. exact H.
Qed.
Lemma slots_fst k (P : mst -> Prop) l : forall q s, Forall (fun r => 1 <= r <= 30) l -> Z.of_nat (length l) <= q <= 256 ->
  ok (k (8 * q - 8 * Z.of_nat (length l))) (setm s (push (mem s) (rd s SLJIT_SP + 8 * q) (map (fun r => fregs s (freg_map r)) l))) P ->
  ok (slots (st_freg c) l (8 * q) k) s P.
Proof.
  induction l; intros q s V L H; cbn [slots map push length] in *.
  - change (Z.of_nat 0) with 0 in H. replace (8 * q - 8 * 0) with (8 * q) in H by lia. destruct s. exact H.
  - inversion V; subst. apply ok_then. replace (8 * q - 8) with (8 * (q - 1)) by lia. apply x_st_freg; auto; try lia.
    apply IHl; auto; try lia. cbn [mem setm]. rewrite rd_setm.
    replace (8 * (q - 1) - 8 * Z.of_nat (length l)) with (8 * q - 8 * Z.of_nat (S (length l))) by lia.
    replace (rd s SLJIT_SP + 8 * (q - 1)) with (rd s SLJIT_SP + 8 * q - 8) by lia. exact H.
Qed.
(** [a]: the address above the first slot. *)
Fixpoint pops (s : mst) (l : list Z) (a : Z) : mst :=
  match l with [] => s | r :: l => pops (wr s r (load (mem s) (a - 8) 8)) l (a - 8) end.
Fixpoint fpops (s : mst) (l : list Z) (a : Z) : mst :=
  match l with [] => s | r :: l => fpops (setf s (freg_map r) (load (mem s) (a - 8) 8)) l (a - 8) end.
Definition ireg (r : Z) : Prop := 1 <= r <= 31 /\ r <> SLJIT_SP.
Lemma load8_wrap m a : wrap (sext 64 (load m a 8)) = load m a 8.
Proof. change (sext 64 ?x) with (sgn x). apply wrap_sgn. exact (load_isw m B8 a). Qed.
Lemma slots_ld k (P : mst -> Prop) l : forall q s, Forall ireg l -> Z.of_nat (length l) <= q <= 256 ->
  ok (k (8 * q - 8 * Z.of_nat (length l))) (pops s l (rd s SLJIT_SP + 8 * q)) P ->
  ok (slots (ld_reg c) l (8 * q) k) s P.
Proof.
  induction l; intros q s V L H; cbn [slots pops length] in *.
  - change (Z.of_nat 0) with 0 in H. replace (8 * q - 8 * 0) with (8 * q) in H by lia. exact H.
  - inversion V; subst. unfold ireg, SLJIT_SP in *. apply ok_then. replace (8 * q - 8) with (8 * (q - 1)) by lia. apply x_ld_reg; try vl.
    rewrite load8_wrap. apply IHl; auto; try lia. rewrite rd_wr_other by (unfold SLJIT_SP; vl). unfold SLJIT_SP.
    replace (8 * (q - 1) - 8 * Z.of_nat (length l)) with (8 * q - 8 * Z.of_nat (S (length l))) by lia.
    replace (rd s 24 + 8 * (q - 1)) with (rd s 24 + 8 * q - 8) by lia. exact H.
Qed.
Lemma slots_fld k (P : mst -> Prop) l : forall q s, Forall (fun r => 1 <= r <= 30) l -> Z.of_nat (length l) <= q <= 256 ->
  ok (k (8 * q - 8 * Z.of_nat (length l))) (fpops s l (rd s SLJIT_SP + 8 * q)) P ->
  ok (slots (ld_freg c) l (8 * q) k) s P.
Proof.
  induction l; intros q s V L H; cbn [slots fpops length] in *.
  - change (Z.of_nat 0) with 0 in H. replace (8 * q - 8 * 0) with (8 * q) in H by lia. exact H.
  - inversion V; subst. apply ok_then. replace (8 * q - 8) with (8 * (q - 1)) by lia. apply x_ld_freg; auto; try lia.
    apply IHl; auto; try lia. change (rd (setf s ?a ?b) SLJIT_SP) with (rd s SLJIT_SP).
    replace (8 * (q - 1) - 8 * Z.of_nat (length l)) with (8 * q - 8 * Z.of_nat (S (length l))) by lia.
    replace (rd s SLJIT_SP + 8 * (q - 1)) with (rd s SLJIT_SP + 8 * q - 8) by lia. exact H.
Qed.
End S.

(** ** Restored values *)
Lemma pops_mem l : forall s a, mem (pops s l a) = mem s. Proof. induction l; intros; cbn [pops]; auto. rewrite IHl. apply mem_wr. Qed.
Lemma pops_fregs l : forall s a, fregs (pops s l a) = fregs s. Proof. induction l; intros; cbn [pops]; auto. rewrite IHl. apply fregs_wr. Qed.
Lemma fpops_mem l : forall s a, mem (fpops s l a) = mem s. Proof. induction l; intros; cbn [fpops]; auto. rewrite IHl. reflexivity. Qed.
Lemma fpops_regs l : forall s a, regs (fpops s l a) = regs s. Proof. induction l; intros; cbn [fpops]; auto. rewrite IHl. reflexivity. Qed.
Lemma fpops_rd l s a q : rd (fpops s l a) q = rd s q. Proof. unfold rd, getr. rewrite fpops_regs. reflexivity. Qed.
Lemma pops_other l : forall s a q, Forall ireg l -> vreg q -> ~ In q l -> rd (pops s l a) q = rd s q.
Proof.
  induction l; intros s b q V Q N; cbn [pops]; auto. inversion V; subst. unfold ireg in *. rewrite IHl; auto.
  - apply rd_wr_other; auto; [vl|]. intros ->. apply N. left. reflexivity.
  - intros I. apply N. right. auto.
Qed.
Lemma pops_nth l : forall s a k r, Forall ireg l -> NoDup l -> nth_error l k = Some r ->
  rd (pops s l a) r = load (mem s) (a - 8 * Z.of_nat k - 8) 8.
Proof.
  induction l; intros s b k r V D N; cbn [pops]; [destruct k; discriminate|]. inversion V; subst. inversion D; subst.
  destruct k; cbn [nth_error] in N.
  - injection N as ->. rewrite pops_other by (auto; unfold ireg in *; vl). rewrite rd_wr_same by (unfold ireg in *; vl).
    f_equal. lia.
  - rewrite (IHl _ _ k r) by auto. rewrite mem_wr. f_equal. lia.
Qed.
Lemma freg_map_inj a b : 1 <= a <= 30 -> 1 <= b <= 30 -> freg_map a = freg_map b -> a = b.
Proof.
  intros A B E. assert (T : forallb (fun a => forallb (fun b => implb (freg_map a =? freg_map b) (a =? b)) ifregs) ifregs = true) by (vm_compute; reflexivity).
  rewrite forallb_forall in T. specialize (T a (ifregs_in a A)). rewrite forallb_forall in T. specialize (T b (ifregs_in b B)).
  rewrite E, Z.eqb_refl in T. cbn in T. lia.
Qed.
Lemma fpops_other l : forall s a x, ~ In x (map freg_map l) -> fregs (fpops s l a) x = fregs s x.
Proof.
  induction l; intros s b q N; cbn [fpops map] in *; auto. rewrite IHl by (intros I; apply N; right; auto).
  cbn [fregs setf]. unfold updf. destruct (q =? freg_map a) eqn:E; auto. exfalso. apply N. left. lia.
Qed.
Lemma fpops_nth l : forall s a k r, Forall (fun r => 1 <= r <= 30) l -> NoDup l -> nth_error l k = Some r ->
  fregs (fpops s l a) (freg_map r) = load (mem s) (a - 8 * Z.of_nat k - 8) 8.
Proof.
  induction l; intros s b k r V D N; cbn [fpops]; [destruct k; discriminate|]. inversion V; subst. inversion D; subst.
  destruct k; cbn [nth_error] in N.
  - injection N as ->. rewrite fpops_other.
    + cbn [fregs setf]. unfold updf. rewrite Z.eqb_refl. f_equal. lia.
    + intros I. apply in_map_iff in I. destruct I as (y & E & I). rewrite Forall_forall in H2.
      assert (y = r) by (apply freg_map_inj; auto). subst. auto.
  - rewrite (IHl _ _ k r) by auto. cbn [mem setf]. f_equal. lia.
Qed.
