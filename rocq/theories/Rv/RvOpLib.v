(** Execution rules of the instructions of the integer operations. *)
Require Import ZArith List Bool Lia Zify ZifyBool.
From Verif Require Import Rv.RvLib Rv.RvBits Rv.RvIsa Rv.RvEnc Rv.RvImm Rv.RvRun Rv.RvImmProofs Rv.RvCtl Rv.RvWf Rv.RvMem Rv.RvRunMem Rv.RvOp Rv.RvLir Rv.RvCanon.
Import ListNotations.
Open Scope Z_scope.
Ltac Zify.zify_post_hook ::= idtac.

Lemma ok_step e p s s1 (P : mst -> Prop) : flat e = [p] -> (forall ps, run (p :: ps) s = run ps s1) -> P s1 -> ok e s P.
Proof. intros F R H. apply ok_run with s1; auto. rewrite F, R. reflexivity. Qed.
Lemma ok_step' e s s1 (P : mst -> Prop) : (forall ps, run (flat e ++ ps) s = run ps s1) -> P s1 -> ok e s P.
Proof. intros R H. apply ok_run with s1; auto. rewrite <- (app_nil_r (flat e)), R. reflexivity. Qed.
Lemma ok_if b e s (P : mst -> Prop) : (b = true -> ok e s P) -> (b = false -> P s) -> ok (ifE b e) s P.
Proof. destruct b; cbn [ifE]; intros A B; auto. apply ok_nop; auto. Qed.

(** ** 32 bit instructions *)
Section X.
Variables (s : mst) (P : mst -> Prop).
Lemma x_R k o d a b : dec_R k = Some o -> vreg d -> vreg a -> vreg b ->
  P (wr s d (alu o (rd s a) (rd s b))) -> ok (E32 (k .| RD d .| RS1 a .| RS2 b)) s P.
Proof. intros. eapply ok_step; [reflexivity| |eauto]. intros. apply run_R; auto. Qed.
Lemma x_RW k o d a b : dec_RW k = Some o -> vreg d -> vreg a -> vreg b ->
  P (wr s d (aluw o (rd s a) (rd s b))) -> ok (E32 (k .| RD d .| RS1 a .| RS2 b)) s P.
Proof. intros. eapply ok_step; [reflexivity| |eauto]. intros. apply run_RW; auto. Qed.
Lemma x_I k o d a i : dec_I k = Some o -> vreg d -> vreg a ->
  P (wr s d (alui o (rd s a) (sext 12 i))) -> ok (E32 (k .| RD d .| RS1 a .| IMM_I i)) s P.
Proof. intros. eapply ok_step; [reflexivity| |eauto]. intros. apply run_I; auto. Qed.
Lemma x_Sh k o d a i : dec_Sh k = Some o -> vreg d -> vreg a -> 0 <= i < 64 ->
  P (wr s d (alush o (rd s a) i)) -> ok (E32 (k .| RD d .| RS1 a .| IMM_I i)) s P.
Proof. intros. eapply ok_step; [reflexivity| |eauto]. intros. apply run_Sh; auto. Qed.
Lemma x_ShW k o d a i : dec_ShW k = Some o -> vreg d -> vreg a -> 0 <= i < 32 ->
  P (wr s d (alush o (rd s a) i)) -> ok (E32 (k .| RD d .| RS1 a .| IMM_I i)) s P.
Proof. intros. eapply ok_step; [reflexivity| |eauto]. intros. apply run_ShW; auto. Qed.
Lemma x_Un k o d a : dec_Un k = Some o -> vreg d -> vreg a ->
  P (wr s d (aluun o (rd s a))) -> ok (E32 (k .| RD d .| RS1 a)) s P.
Proof. intros. eapply ok_step; [reflexivity| |eauto]. intros. apply run_Un; auto. Qed.
Lemma x_LUI d u : vreg d -> 0 <= u < 2 ^ 32 -> u mod 2 ^ 12 = 0 ->
  P (wr s d (sx32 u)) -> ok (E32 (LUI .| RD d .| u)) s P.
Proof.
  intros. eapply ok_step; [reflexivity| |eauto]. intros. rewrite run_LUI by auto. reflexivity.
Qed.

(** Instructions that exist for both operation lengths: the [word] bit selects the length. *)
Definition wd (f : bool) : Z := if f then 8 else 0.
Variable f : bool.
Notation n := (nbits f).
Lemma x_ADD d a b : vreg d -> vreg a -> vreg b -> P (wr s d (canon n (rd s a + rd s b))) -> ok (E32 (ADD .| wd f .| RD d .| RS1 a .| RS2 b)) s P.
Proof.
  intros Hd Ha Hb H. destruct f; cbn [wd nbits] in *.
  - apply (x_RW (ADD .| 8) Addw); auto.
  - apply (x_R (ADD .| 0) Add); auto. cbn [alu]. rewrite <- canon64. auto.
Qed.
Lemma x_SUB d a b : vreg d -> vreg a -> vreg b -> P (wr s d (canon n (rd s a - rd s b))) -> ok (E32 (SUB .| wd f .| RD d .| RS1 a .| RS2 b)) s P.
Proof.
  intros Hd Ha Hb H. destruct f; cbn [wd nbits] in *.
  - apply (x_RW (SUB .| 8) Subw); auto.
  - apply (x_R (SUB .| 0) Sub); auto. cbn [alu]. rewrite <- canon64. auto.
Qed.
Lemma x_MUL d a b : vreg d -> vreg a -> vreg b -> P (wr s d (canon n (rd s a * rd s b))) -> ok (E32 (MUL .| wd f .| RD d .| RS1 a .| RS2 b)) s P.
Proof.
  intros Hd Ha Hb H. destruct f; cbn [wd nbits] in *.
  - apply (x_RW (MUL .| 8) Mulw); auto.
  - apply (x_R (MUL .| 0) Mul); auto. cbn [alu]. rewrite <- canon64. auto.
Qed.
Lemma x_ADDI d a i : vreg d -> vreg a -> P (wr s d (canon n (rd s a + sext 12 i))) -> ok (E32 (ADDI .| wd f .| RD d .| RS1 a .| IMM_I i)) s P.
Proof.
  intros Hd Ha H. destruct f; cbn [wd nbits] in *.
  - apply (x_I (ADDI .| 8) Addiw); auto.
  - apply (x_I (ADDI .| 0) Addi); auto. cbn [alui]. rewrite <- canon64. auto.
Qed.
Lemma x_SLL d a b : vreg d -> vreg a -> vreg b -> P (wr s d (canon n (rd s a * 2 ^ (rd s b mod n)))) -> ok (E32 (SLL .| wd f .| RD d .| RS1 a .| RS2 b)) s P.
Proof.
  intros Hd Ha Hb H. destruct f; cbn [wd nbits] in *.
  - apply (x_RW (SLL .| 8) Sllw); auto. cbn [aluw].
    match goal with |- P (wr s d ?v) => replace v with (canon 32 (rd s a * 2 ^ (rd s b mod 32))); auto end.
    unfold zext. apply (canon_cong true). cbn [nbits]. rewrite (Zmult_mod (_ mod _)), Zmod_mod, <- Zmult_mod. reflexivity.
  - apply (x_R (SLL .| 0) Sll); auto. cbn [alu]. rewrite <- canon64. auto.
Qed.
Lemma x_SRL d a b : vreg d -> vreg a -> vreg b -> isw (rd s a) -> P (wr s d (canon n ((rd s a mod 2 ^ n) / 2 ^ (rd s b mod n)))) ->
  ok (E32 (SRL .| wd f .| RD d .| RS1 a .| RS2 b)) s P.
Proof.
  intros Hd Ha Hb I H. destruct f; cbn [wd nbits] in *.
  - apply (x_RW (SRL .| 8) Srlw); auto.
  - apply (x_R (SRL .| 0) Srl); auto. cbn [alu]. rewrite Z.mod_small, canon64, wrap_small in H; auto.
    apply div_isw'; auto. apply Z.pow_pos_nonneg; lia || apply Z.mod_pos_bound; lia.
Qed.
Lemma x_SRA d a b : vreg d -> vreg a -> vreg b -> P (wr s d (canon n (sext n (rd s a) / 2 ^ (rd s b mod n)))) ->
  ok (E32 (SRA .| wd f .| RD d .| RS1 a .| RS2 b)) s P.
Proof.
  intros Hd Ha Hb H. destruct f; cbn [wd nbits] in *.
  - apply (x_RW (SRA .| 8) Sraw); auto.
  - apply (x_R (SRA .| 0) Sra); auto. cbn [alu]. rewrite <- canon64. auto.
Qed.
Lemma x_SLLI d a i : vreg d -> vreg a -> 0 <= i < n -> P (wr s d (canon n (rd s a * 2 ^ i))) ->
  ok (E32 (SLLI .| wd f .| RD d .| RS1 a .| IMM_I i)) s P.
Proof.
  intros Hd Ha Hi H. destruct f; cbn [wd nbits] in *.
  - apply (x_ShW (SLLI .| 8) Slliw); auto. cbn [alush].
    match goal with |- P (wr s d ?v) => replace v with (canon 32 (rd s a * 2 ^ i)); auto end.
    unfold zext. apply (canon_cong true). cbn [nbits]. rewrite (Zmult_mod (_ mod _)), Zmod_mod, <- Zmult_mod. reflexivity.
  - apply (x_Sh (SLLI .| 0) Slli); auto. cbn [alush]. rewrite <- canon64. auto.
Qed.
Lemma x_SRLI d a i : vreg d -> vreg a -> 0 <= i < n -> isw (rd s a) -> P (wr s d (canon n ((rd s a mod 2 ^ n) / 2 ^ i))) ->
  ok (E32 (SRLI .| wd f .| RD d .| RS1 a .| IMM_I i)) s P.
Proof.
  intros Hd Ha Hi I H. destruct f; cbn [wd nbits] in *.
  - apply (x_ShW (SRLI .| 8) Srliw); auto.
  - apply (x_Sh (SRLI .| 0) Srli); auto. cbn [alush]. rewrite Z.mod_small, canon64, wrap_small in H; auto.
    apply div_isw'; auto. apply Z.pow_pos_nonneg; lia.
Qed.
Lemma x_SRAI d a i : vreg d -> vreg a -> 0 <= i < n -> P (wr s d (canon n (sext n (rd s a) / 2 ^ i))) ->
  ok (E32 (SRAI .| wd f .| RD d .| RS1 a .| IMM_I i)) s P.
Proof.
  intros Hd Ha Hi H. destruct f; cbn [wd nbits] in *.
  - apply (x_ShW (SRAI .| 8) Sraiw); auto.
  - apply (x_Sh (SRAI .| 0) Srai); auto. cbn [alush]. rewrite <- canon64. auto.
Qed.

(** ** 16 bit instructions *)
Lemma x_C_MV d a : vreg d -> vreg a -> a <> 0 -> isw (rd s a) -> P (wr s d (rd s a)) -> ok (E16 (C_MV .| C_RD d .| C_RS2 a)) s P.
Proof. intros. eapply ok_step; [reflexivity| |eauto]. intros. apply run_C_MV; auto. Qed.
Lemma x_C_ADD d a : vreg d -> vreg a -> a <> 0 -> P (wr s d (wrap (rd s d + rd s a))) -> ok (E16 (C_ADD .| C_RD d .| C_RS2 a)) s P.
Proof. intros. eapply ok_step; [reflexivity| |eauto]. intros. apply run_C_ADD; auto. Qed.
Lemma x_C_LI d i : vreg d -> P (wr s d (wrap (sext 6 i))) -> ok (E16 (C_LI .| C_RD d .| C_IMM_I i)) s P.
Proof. intros. eapply ok_step; [reflexivity| |eauto]. intros. apply run_C_LI; auto. Qed.
Lemma x_C_LI0 d : vreg d -> P (wr s d 0) -> ok (E16 (C_LI .| C_RD d)) s P.
Proof. intros Hd H. replace (C_LI .| C_RD d) with (C_LI .| C_RD d .| C_IMM_I 0) by apply Z.lor_0_r. apply x_C_LI; auto. Qed.
Lemma x_C_ADDI d i : vreg d -> d <> 0 -> P (wr s d (canon n (rd s d + sext 6 i))) -> ok (E16 (C_ADDI_W (wd f) .| C_RD d .| C_IMM_I i)) s P.
Proof.
  intros Hd Nd H. destruct f; cbn [wd nbits] in *.
  - change (C_ADDI_W 8) with (C_ADDI .| 0x2000). eapply ok_step; [reflexivity| |eauto]. intros. apply run_C_ADDIW; auto.
  - change (C_ADDI_W 0) with C_ADDI. eapply ok_step; [reflexivity| |eauto]. intros. rewrite canon64. apply run_C_ADDI; auto.
Qed.
Lemma x_C_ADDIW0 d : vreg d -> d <> 0 -> P (wr s d (sx32 (rd s d))) -> ok (E16 (C_ADDIW .| C_RD d)) s P.
Proof.
  intros Hd Nd H. replace (C_ADDIW .| C_RD d) with (C_ADDI .| 0x2000 .| C_RD d .| C_IMM_I 0) by (apply Z.lor_0_r).
  eapply ok_step; [reflexivity| |eauto]. intros. rewrite run_C_ADDIW by auto. change (sext 6 0) with 0. rewrite Z.add_0_r. reflexivity.
Qed.
Lemma x_C_SUB d a : vreg d -> vreg a -> C_IS_R3 d = true -> C_IS_R3 a = true -> P (wr s d (canon n (rd s d - rd s a))) ->
  ok (E16 (C_SUB_W (wd f) .| C_RS1_R3 d .| C_RS2_R3 a)) s P.
Proof.
  intros Hd Ha Rd Ra H. destruct f; cbn [wd nbits] in *.
  - eapply ok_step; [reflexivity| |eauto]. intros. apply run_C_SUBW; auto.
  - eapply ok_step; [reflexivity| |eauto]. intros. rewrite canon64. apply run_C_SUB; auto.
Qed.
Lemma x_C_ADDW d a : vreg d -> vreg a -> C_IS_R3 d = true -> C_IS_R3 a = true -> P (wr s d (sx32 (rd s d + rd s a))) ->
  ok (E16 (C_ADDW .| C_RS1_R3 d .| C_RS2_R3 a)) s P.
Proof. intros. eapply ok_step; [reflexivity| |eauto]. intros. apply run_C_ADDW; auto. Qed.
Lemma x_C_AND d a : vreg d -> vreg a -> C_IS_R3 d = true -> C_IS_R3 a = true -> P (wr s d (Z.land (rd s d) (rd s a))) ->
  ok (E16 (C_AND .| C_RS1_R3 d .| C_RS2_R3 a)) s P.
Proof. intros. eapply ok_step; [reflexivity| |eauto]. intros. apply run_C_AND; auto. Qed.
Lemma x_C_OR d a : vreg d -> vreg a -> C_IS_R3 d = true -> C_IS_R3 a = true -> P (wr s d (Z.lor (rd s d) (rd s a))) ->
  ok (E16 (C_OR .| C_RS1_R3 d .| C_RS2_R3 a)) s P.
Proof. intros. eapply ok_step; [reflexivity| |eauto]. intros. apply run_C_OR; auto. Qed.
Lemma x_C_XOR d a : vreg d -> vreg a -> C_IS_R3 d = true -> C_IS_R3 a = true -> P (wr s d (Z.lxor (rd s d) (rd s a))) ->
  ok (E16 (C_XOR .| C_RS1_R3 d .| C_RS2_R3 a)) s P.
Proof. intros. eapply ok_step; [reflexivity| |eauto]. intros. apply run_C_XOR; auto. Qed.
Lemma x_C_ANDI d i : vreg d -> C_IS_R3 d = true -> P (wr s d (Z.land (rd s d) (wrap (sext 6 i)))) ->
  ok (E16 (C_ANDI .| C_RS1_R3 d .| C_IMM_I i)) s P.
Proof. intros. eapply ok_step; [reflexivity| |eauto]. intros. apply run_C_ANDI; auto. Qed.
Lemma x_C_SLLI d i : vreg d -> 0 <= i < 64 -> P (wr s d (wrap (rd s d * 2 ^ i))) -> ok (E16 (C_SLLI .| C_RD d .| C_IMM_I i)) s P.
Proof. intros. eapply ok_step; [reflexivity| |eauto]. intros. apply run_C_SLLI; auto. Qed.
Lemma x_C_SRLI d i : vreg d -> C_IS_R3 d = true -> 0 <= i < 64 -> P (wr s d (rd s d / 2 ^ i)) -> ok (E16 (C_SRLI .| C_RS1_R3 d .| C_IMM_I i)) s P.
Proof. intros. eapply ok_step; [reflexivity| |eauto]. intros. apply run_C_SRLI; auto. Qed.
Lemma x_C_SRAI d i : vreg d -> C_IS_R3 d = true -> 0 <= i < 64 -> P (wr s d (wrap (sgn (rd s d) / 2 ^ i))) -> ok (E16 (C_SRAI .| C_RS1_R3 d .| C_IMM_I i)) s P.
Proof. intros. eapply ok_step; [reflexivity| |eauto]. intros. apply run_C_SRAI; auto. Qed.

(** ** Fragments *)
Variable c : cfg.
Lemma x_mv d a : vreg d -> vreg a -> (cC c = true -> a <> 0) -> isw (rd s a) -> P (wr s d (rd s a)) -> ok (mv_reg c d a) s P.
Proof.
  intros Hd Ha Na I H. unfold mv_reg. destruct (cC c). { apply x_C_MV; auto. }
  apply (x_I ADDI Addi); auto. cbn [alui]. change (sext 12 0) with 0. rewrite Z.add_0_r, wrap_small by auto. auto.
Qed.
Lemma x_add_imm d a i : vreg d -> d <> 0 -> vreg a -> -2048 <= i <= 2047 -> P (wr s d (canon n (rd s a + i))) -> ok (add_imm c (wd f) d a i) s P.
Proof.
  intros Hd Nd Ha Hi H. unfold add_imm, SIMM16_MAX, SIMM16_MIN. destruct (cC c && (d =? a) && (i <=? 31) && (i >=? -32)) eqn:E.
  - assert (d = a) by lia. subst a. apply x_C_ADDI; auto. rewrite sext6_small by lia. auto.
  - apply x_ADDI; auto. rewrite sext12_small by lia. auto.
Qed.
Lemma x_sub_reg d a b : vreg d -> vreg a -> vreg b -> P (wr s d (canon n (rd s a - rd s b))) -> ok (sub_reg c (wd f) d a b) s P.
Proof.
  intros Hd Ha Hb H. unfold sub_reg. destruct (cC c && (d =? a) && C_IS_R3 d && C_IS_R3 b) eqn:E.
  - apply andb_prop in E as (E & Rb). apply andb_prop in E as (E & Rd). assert (d = a) by lia. subst a. apply x_C_SUB; auto.
  - apply x_SUB; auto.
Qed.
Lemma x_emit_add d a b : vreg d -> vreg a -> vreg b -> P (wr s d (canon n (rd s a + rd s b))) -> ok (emit_add c (wd f) d a b) s P.
Proof.
  intros Hd Ha Hb H. unfold emit_add.
  assert (G : forall a b, vreg a -> vreg b -> P (wr s d (canon n (rd s a + rd s b))) ->
    ok (if cC c && (d =? a) && (wd f =? 0) && negb (b =? 0) then E16 (C_ADD .| C_RD d .| C_RS2 b)
        else if cC c && (d =? a) && (wd f =? 8) && C_IS_R3 d && C_IS_R3 b then E16 (C_ADDW .| C_RS1_R3 d .| C_RS2_R3 b)
        else E32 (ADD .| wd f .| RD d .| RS1 a .| RS2 b)) s P).
  { clear a b Ha Hb H. intros a b Ha Hb H.
    destruct (cC c && (d =? a) && (wd f =? 0) && negb (b =? 0)) eqn:E.
    { assert (d = a) by lia. subst a. assert (f = false) as F by (destruct f; auto; cbn in E; lia). rewrite F in H. cbn [nbits] in H. rewrite canon64 in H.
      apply x_C_ADD; auto. lia. }
    destruct (cC c && (d =? a) && (wd f =? 8) && C_IS_R3 d && C_IS_R3 b) eqn:E2.
    { apply andb_prop in E2 as (E2 & Rb). apply andb_prop in E2 as (E2 & Rd). assert (d = a) by lia. subst a.
      assert (f = true) as F by (destruct f; auto; cbn in E2; lia). rewrite F in H. apply x_C_ADDW; auto. }
    apply x_ADD; auto. }
  destruct (d =? b) eqn:E; apply G; auto. assert (d = b) by lia. subst. rewrite Z.add_comm. auto.
Qed.
End X.

(** ** Reading registers of a symbolic state *)
Lemma keeps_wr s s1 d v w : vreg d -> In d w -> keeps s s1 w -> keeps s (wr s1 d v) w.
Proof.
  intros Hd I (A & B & C & D). unfold keeps. rewrite mem_wr, fregs_wr, pc_wr. split; [auto|]. split; [auto|]. split; [auto|].
  intros q Hq N. rewrite rd_wr_other; auto. intros ->. auto.
Qed.
Lemma keeps_incl s s1 w w' : incl w w' -> keeps s s1 w -> keeps s s1 w'.
Proof. intros I (A & B & C & D). repeat split; auto. Qed.
Lemma isw_wrap x : isw (wrap x). Proof. apply wrap_isw. Qed.
