(** The patch loop of sljit_generate_code: the final units of every jump. *)
Require Import ZArith List Bool Lia Zify ZifyBool.
From Verif Require Import Rv.RvLib Rv.RvBits Rv.RvIsa Rv.RvEnc Rv.RvImm Rv.RvAddr Rv.RvCtl Rv.RvLink Rv.RvLinkOps Rv.RvLinkReduce Rv.RvLinkEst Rv.RvLinkGen Rv.RvLinkPick Rv.RvLinkFit Rv.RvLinkLay.
Import ListNotations.
Open Scope Z_scope.

Lemma puts_ok size l : forall m i,
  atm (munit (puts size m i l)) i (map u16 l) /\
  (forall x, x < i \/ i + Z.of_nat (length l) <= x -> munit (puts size m i l) x = munit m x) /\
  (mok m = true -> 0 <= i -> i + Z.of_nat (length l) <= size -> mok (puts size m i l) = true).
Proof.
  induction l as [|v l IH]; intros m i; cbn [puts length map].
  - split; [apply atm_nil|auto].
  - destruct (IH (put size m i v) (i + 1)) as (A & B & C). split; [|split].
    + apply atm_cons. split; [|exact A]. rewrite B by lia. apply put_same.
    + intros x Hx. rewrite B by lia. apply put_other. lia.
    + intros Hm H1 H2. apply C; [apply put_ok; auto|lia|lia]; lia.
Qed.
Lemma units_u16 l : map u16 (units_of l) = units_of l.
Proof.
  unfold units_of. induction l as [|p l IH]; [reflexivity|]. cbn [flat_map]. rewrite map_app, IH. f_equal.
  destruct p; cbn [units map]; rewrite ?u16_u16; reflexivity.
Qed.
Lemma load_addr_plen p mov call reg a b : movp p -> Z.of_nat (length (units_of (map P32 (load_addr p mov call reg a b)))) = plen p.
Proof.
  intros M. assert (U : forall l, length (units_of (map P32 l)) = (2 * length l)%nat).
  { induction l as [|x l IH]; [reflexivity|]. cbn [map]. unfold units_of in *. cbn [flat_map units app length]. rewrite IH. lia. }
  rewrite U. destruct p; try destruct M; unfold load_addr; cbv zeta; try (cbn [app length plen]; lia).
  rewrite app_length. destruct (_ >? S32_MAX); cbn [length plen]; lia.
Qed.

Section P.
Variables (cf : cfg) (code eo size : Z).
(** The final units of a jump at [r] with its branch, for the target address [T]. *)
Definition jcode (k : jcnd) (p : patch) (call : bool) (r T : Z) : list Z :=
  let here := code + 2 * paddr k p r + eo in
  let a := wrap (T - here) in
  match p with
  | PB16 => [u16 (nth 0 (kfix k p) 0 .| C_BRN16 a)]
  | PB => [u16 (nth 0 (kfix k p) 0 .| u16 (brn_lo a)); u16 (nth 1 (kfix k p) 0 .| u16 (brn_hi a))]
  | PJ16 => [u16 (C_J .| C_JMP16 a)]
  | PJ => kfix k p ++ units (P32 (JAL .| RD (if call then RETURN_ADDR_REG else TMP_ZERO) .| u32 (jal_imm a)))
  | _ => kfix k p ++ units_of (map P32 (load_addr p false call TMP_REG1 (sw T) (sw here)))
  end.
Definition mcode (p : patch) (reg : Z) (call : bool) (r T : Z) : list Z :=
  units_of (map P32 (load_addr p true call reg (sw T) (sw (code + 2 * r + eo)))).

(** As [item], after the patch loop. *)
Definition fitem (m : Z -> Z) (FL : list Z) (n : nat) (r : Z) (o : op) (r2 : Z) (js : list jump) (cs : list Z) : Prop :=
  match o with
  | OUnit w => m r = u16 w /\ r2 = r + 1 /\ js = [] /\ cs = []
  | OConst w => m r = u16 w /\ r2 = r + 1 /\ js = [] /\ cs = [r]
  | OLab => r2 = r /\ nth n FL 0 = r /\ js = [] /\ cs = []
  | OAlign nops mask => r <= r2 <= r + Z.of_nat (length nops) /\ atm m r (map u16 (firstn (Z.to_nat (r2 - r)) nops)) /\
      nth n FL 0 = r2 /\ ((code + 2 * r2) .& mask = 0 /\ r2 = process_extended_label code (r + Z.of_nat (length nops)) mask) /\ js = [] /\ cs = []
  | OJmp k j => exists p, js = [set_jpatch (set_jaddr_sz j (paddr k p r) (jsz j)) (paddr k p r) p] /\ cs = [] /\ r2 = r + klen k + dsz p k /\
      atm m r (jcode k p (jcall j) r (tgt_of code eo FL j)) /\ kp_ok k p /\
      jfit (jisaddr j) k p (sw (tgt_of code eo FL j - (code + 2 * (r + klen k) + eo))) (tgt_of code eo FL j) /\
      (jrewr j = true -> p = PNone) /\ (jcall j = true -> p <> PJ16) /\ (p = PJ16 -> cC cf = true)
  | OMov reg j => exists p, js = [set_jpatch (set_jaddr_sz j r (jsz j)) r p] /\ cs = [] /\ r2 = r + plen p /\
      atm m r (mcode p (u16 reg) (jcall j) r (tgt_of code eo FL j)) /\ movp p /\
      jfit (jisaddr j) NoCond p (sw (tgt_of code eo FL j - (code + 2 * r + eo))) (tgt_of code eo FL j)
  end.
Fixpoint flay (m : Z -> Z) (FL : list Z) (n : nat) (r : Z) (ops : list op) (r2 : Z) (js : list jump) (cs : list Z) : Prop :=
  match ops with
  | [] => r2 = r /\ js = [] /\ cs = []
  | o :: ops => exists r1 js1 js2 cs1 cs2, fitem m FL n r o r1 js1 cs1 /\ flay m FL (n + nlab o) r1 ops r2 js2 cs2 /\ js = js1 ++ js2 /\ cs = cs1 ++ cs2
  end.

Lemma kfix_len k p : kp_ok k p -> p <> PB -> p <> PB16 -> Z.of_nat (length (kfix k p)) = klen k.
Proof. intros K N1 N2. destruct k, p; cbn in *; congruence || reflexivity. Qed.
Lemma jcode_len k p call r T : kp_ok k p -> Z.of_nat (length (jcode k p call r T)) = klen k + dsz p k.
Proof.
  intros K. destruct p; unfold jcode; cbv zeta.
  - rewrite app_length, Nat2Z.inj_add, kfix_len, load_addr_plen by (auto; discriminate || exact I). reflexivity.
  - cbn [kp_ok dsz length] in *. destruct k; cbn [klen]; congruence || lia.
  - destruct K as (w & ->). reflexivity.
  - rewrite app_length, Nat2Z.inj_add, kfix_len by (auto; discriminate). reflexivity.
  - cbn [kp_ok] in K. subst k. reflexivity.
  - rewrite app_length, Nat2Z.inj_add, kfix_len, load_addr_plen by (auto; discriminate || exact I). reflexivity.
  - rewrite app_length, Nat2Z.inj_add, kfix_len, load_addr_plen by (auto; discriminate || exact I). reflexivity.
  - rewrite app_length, Nat2Z.inj_add, kfix_len, load_addr_plen by (auto; discriminate || exact I). reflexivity.
  - rewrite app_length, Nat2Z.inj_add, kfix_len, load_addr_plen by (auto; discriminate || exact I). reflexivity.
Qed.
Lemma fitem_ext m m' FL n r o r2 js cs : (forall i, r <= i < r2 -> m' i = m i) -> fitem m FL n r o r2 js cs -> fitem m' FL n r o r2 js cs.
Proof.
  intros E. destruct o; cbn [fitem]; auto.
  - intros (A & -> & B). rewrite E by lia. auto.
  - intros (A & -> & B). rewrite E by lia. auto.
  - intros (A & B & C). split; [exact A|]. split; [|exact C]. eapply atm_ext; [|exact B]. intros i Hi. apply E.
    rewrite map_length, firstn_length in Hi. lia.
  - intros (p & A1 & A2 & -> & A3 & A4 & A5). exists p. do 3 (split; [auto|]). split; [|auto].
    eapply atm_ext; [|exact A3]. intros i Hi. apply E. rewrite jcode_len in Hi by auto. lia.
  - intros (p & A1 & A2 & -> & A3 & A4 & A5). exists p. do 3 (split; [auto|]). split; [|auto].
    eapply atm_ext; [|exact A3]. intros i Hi. apply E. unfold mcode in Hi. rewrite load_addr_plen in Hi by auto. lia.
Qed.
Lemma flay_ext m m' FL ops : forall n r r2 js cs, (forall i, r <= i < r2 -> m' i = m i) -> flay m FL n r ops r2 js cs -> flay m' FL n r ops r2 js cs.
Proof.
  assert (FM : forall FL n r o r2 js cs, fitem m FL n r o r2 js cs -> r <= r2).
  { intros. destruct o; cbn [fitem] in H; try lia.
    - destruct H as (p & _ & _ & -> & _). pose proof (klen_pos k). pose proof (dsz_range p k). lia.
    - destruct H as (p & _ & _ & -> & _). destruct p; cbn; lia. }
  assert (LM : forall FL ops n r r2 js cs, flay m FL n r ops r2 js cs -> r <= r2).
  { intros FL0. induction ops0 as [|o l IH]; intros n r r2 js cs H; cbn [flay] in H; [lia|].
    destruct H as (r1 & a & b & c & d & I & L & _). apply FM in I. apply IH in L. lia. }
  induction ops as [|o ops IH]; intros n r r2 js cs E H; [exact H|]. cbn [flay] in *.
  destruct H as (r1 & a & b & c & d & I & L & J1 & J2). exists r1, a, b, c, d. pose proof (FM _ _ _ _ _ _ _ I). pose proof (LM _ _ _ _ _ _ _ L).
  split; [|split; auto].
  - eapply fitem_ext; [|exact I]. intros. apply E. lia.
  - apply IH; auto. intros. apply E. lia.
Qed.

Section Labels.
Variables (labels : list label) (FL : list Z).
Hypothesis HL : forall l, (l < length FL)%nat -> label_addr labels l = code + 2 * nth l FL 0 + eo.

Lemma patch_item n r o r2 js cs m M : item cf code eo m FL n r o r2 js cs -> 0 <= r -> wf_op cf (length FL) o ->
  (forall i, r <= i < r2 -> munit M i = m i) ->
  let M' := fold_left (patch_jump code eo size labels) js M in
  fitem (munit M') FL n r o r2 js cs /\ (forall i, i < r \/ r2 <= i -> munit M' i = munit M i) /\
  (mok M = true -> r2 <= size -> mok M' = true).
Proof.
  intros I R0 W A. cbv zeta. destruct o; cbn [item] in I.
  - destruct I as (I1 & I2 & -> & ->). cbn [fold_left fitem]. rewrite A by lia. auto.
  - destruct I as (I1 & I2 & -> & ->). cbn [fold_left fitem]. rewrite A by lia. auto.
  - destruct I as (I1 & I2 & -> & ->). cbn [fold_left fitem]. auto.
  - destruct I as (I1 & I2 & I3 & I4 & -> & ->). cbn [fold_left fitem]. split; [|auto]. split; [auto|]. split; [|auto].
    eapply atm_ext; [|exact I2]. intros i Hi. apply A. rewrite map_length, firstn_length in Hi. lia.
  - destruct I as (p & -> & -> & -> & I1 & I2 & I3 & I4). cbn [wf_op] in W. destruct W as ((W1 & W2) & W3 & W4 & W5 & W6).
    cbn [fold_left fitem]. set (jj := set_jpatch _ _ _).
    assert (TG : (if jisaddr jj then jtarget jj else label_addr labels (jlabel jj)) = tgt_of code eo FL j).
    { unfold tgt_of, jj. cbn [jisaddr jtarget jlabel set_jpatch set_jaddr_sz]. destruct (jisaddr j); [reflexivity|]. apply HL. auto. }
    set (T := tgt_of code eo FL j) in *.
    pose proof (klen_pos k) as KP. pose proof (dsz_range p k) as DR.
    assert (KF : forall m1, (forall i, r <= i < r + klen k + dsz p k -> m1 i = m i) -> atm m1 r (kfix k p)).
    { intros m1 E. eapply atm_ext; [|exact I1]. intros i Hi. apply E. destruct k, p; cbn in *; try lia; try congruence; destruct I2; congruence. }
    assert (PE : forall mm, (atm (munit mm) r (jcode k p (jcall j) r T) /\ (forall i, i < r \/ r + klen k + dsz p k <= i -> munit mm i = munit M i) /\
       (mok M = true -> r + klen k + dsz p k <= size -> mok mm = true)) -> patch_jump code eo size labels M jj = mm ->
       (exists p0, [jj] = [set_jpatch (set_jaddr_sz j (paddr k p0 r) (jsz j)) (paddr k p0 r) p0] /\ ([] : list Z) = [] /\ r + klen k + dsz p k = r + klen k + dsz p0 k /\
          atm (munit (patch_jump code eo size labels M jj)) r (jcode k p0 (jcall j) r T) /\ kp_ok k p0 /\
          jfit (jisaddr j) k p0 (sw (T - (code + 2 * (r + klen k) + eo))) T /\ (jrewr j = true -> p0 = PNone) /\ (jcall j = true -> p0 <> PJ16) /\ (p0 = PJ16 -> cC cf = true)) /\
       (forall i, i < r \/ r + klen k + dsz p k <= i -> munit (patch_jump code eo size labels M jj) i = munit M i) /\
       (mok M = true -> r + klen k + dsz p k <= size -> mok (patch_jump code eo size labels M jj) = true)).
    { intros mm (Q1 & Q2 & Q3) ->. split; [|auto]. exists p. split; [reflexivity|]. auto 10. }
    eapply PE; [|reflexivity]. clear PE. unfold patch_jump. rewrite TG.
    assert (JM : jmov jj = false) by exact W1. rewrite JM. change (jaddr jj) with (paddr k p r). change (jpatch jj) with p. change (jcall jj) with (jcall j).
    clear JM TG. clearbody jj. cbv zeta.
    (* the far forms *)
    assert (FAR : movp p -> atm (munit (puts size M (paddr k p r) (units_of (map P32 (load_addr p false (jcall j) TMP_REG1 (sw T) (sw (code + 2 * paddr k p r + eo))))))) r (jcode k p (jcall j) r T) /\
       (forall i, i < r \/ r + klen k + dsz p k <= i -> munit (puts size M (paddr k p r) (units_of (map P32 (load_addr p false (jcall j) TMP_REG1 (sw T) (sw (code + 2 * paddr k p r + eo)))))) i = munit M i) /\
       (mok M = true -> r + klen k + dsz p k <= size -> mok (puts size M (paddr k p r) (units_of (map P32 (load_addr p false (jcall j) TMP_REG1 (sw T) (sw (code + 2 * paddr k p r + eo)))))) = true)).
    { intros Mp. set (L := units_of _). destruct (puts_ok size L M (paddr k p r)) as (Q1 & Q2 & Q3).
      assert (LL : Z.of_nat (length L) = plen p) by (apply load_addr_plen; auto).
      assert (PA : paddr k p r = r + klen k) by (destruct p; destruct Mp; reflexivity).
      assert (DZ : dsz p k = plen p) by (destruct p; destruct Mp; reflexivity).
      assert (KL : Z.of_nat (length (kfix k p)) = klen k) by (apply kfix_len; auto; intros ->; destruct Mp).
      split; [|split].
      - replace (jcode k p (jcall j) r T) with (kfix k p ++ map u16 L).
        2:{ unfold L. rewrite units_u16. destruct p; destruct Mp; reflexivity. }
        apply atm_app. rewrite KL, <- PA. split; [|exact Q1].
        eapply atm_ext; [|apply (KF (munit M)); exact A]. intros i Hi. apply Q2. lia.
      - intros i Hi. apply Q2. lia.
      - intros. apply Q3; auto; lia. }
    assert (JB : forall x, jal_imm x = (x .& 0xff000) .| Z.shiftl (x .& 0x800) 9 .| Z.shiftl (x .& 0x7fe) 20 .| Z.shiftl (x .& 0x100000) 11) by reflexivity.
    destruct p; try (apply FAR; exact Logic.I); clear FAR.
    + (* PB *)
      cbn [kp_ok paddr] in *. specialize (KF (munit M) A).
      destruct (kfix k PB) as [|k0 [|k1 [|? ?]]] eqn:KE; try (destruct k; cbn in KE; discriminate || congruence).
      apply atm_cons in KF. destruct KF as (K0 & KF). apply atm_cons in KF. destruct KF as (K1 & _).
      unfold jcode. rewrite KE. cbn [nth paddr].
      assert (B2 : 2 <= klen k + dsz PB k) by (destruct k; cbn; congruence || lia).
      split; [|split].
      * apply atm_cons. split; [|apply atm_cons; split; [|apply atm_nil]].
        -- rewrite put_other by lia. rewrite put_same, K0. reflexivity.
        -- rewrite put_same, put_other by lia. rewrite K1. reflexivity.
      * intros i Hi. rewrite !put_other by lia. reflexivity.
      * intros. repeat apply put_ok; auto; lia.
    + (* PB16 *)
      destruct I2 as (w & ->). cbn [paddr klen dsz] in *. specialize (KF (munit M) A). cbn [kfix] in KF. apply atm_cons in KF. destruct KF as (K0 & _).
      unfold jcode. cbn [kfix nth paddr]. split; [|split].
      * apply atm_cons. split; [|apply atm_nil]. rewrite put_same, K0. reflexivity.
      * intros i Hi. rewrite put_other by lia. reflexivity.
      * intros. apply put_ok; auto; lia.
    + (* PJ *)
      cbn [paddr dsz plen] in *. unfold jcode. cbn [paddr]. rewrite <- JB.
      set (w := JAL .| _ .| _). cbv zeta.
      assert (KL : Z.of_nat (length (kfix k PJ)) = klen k) by (apply kfix_len; auto; discriminate).
      split; [|split].
      * apply atm_app. split.
        -- eapply atm_ext; [|apply (KF (munit M)); exact A]. intros i Hi. rewrite !put_other by lia. reflexivity.
        -- rewrite KL. cbn [units]. apply atm_cons. split; [|apply atm_cons; split; [|apply atm_nil]].
           ++ rewrite put_other by lia. apply put_same.
           ++ apply put_same.
      * intros i Hi. rewrite !put_other by lia. reflexivity.
      * intros. repeat apply put_ok; auto; lia.
    + (* PJ16 *)
      cbn [kp_ok] in I2. subst k. cbn [paddr klen dsz] in *. unfold jcode. cbn [paddr klen]. rewrite Z.add_0_r. split; [|split].
      * apply atm_cons. split; [|apply atm_nil]. apply put_same.
      * intros i Hi. rewrite put_other by lia. reflexivity.
      * intros. apply put_ok; auto; lia.
  - destruct I as (p & -> & -> & -> & I1 & I2 & I3). cbn [wf_op] in W. destruct W as (W1 & W6).
    cbn [fold_left fitem]. set (jj := set_jpatch _ _ _).
    assert (TG : (if jisaddr jj then jtarget jj else label_addr labels (jlabel jj)) = tgt_of code eo FL j).
    { unfold tgt_of, jj. cbn [jisaddr jtarget jlabel set_jpatch set_jaddr_sz]. destruct (jisaddr j); [reflexivity|]. apply HL. tauto. }
    set (T := tgt_of code eo FL j) in *.
    assert (PP : 2 <= plen p) by (destruct p; cbn; lia).
    assert (E : patch_jump code eo size labels M jj = puts size M r (mcode p (u16 reg) (jcall j) r T)).
    { unfold patch_jump. rewrite TG. assert (JM : jmov jj = true) by exact W1. rewrite JM. change (jaddr jj) with r. rewrite A by lia. rewrite I1. reflexivity. }
    rewrite E. destruct (puts_ok size (mcode p (u16 reg) (jcall j) r T) M r) as (Q1 & Q2 & Q3).
    assert (LL : Z.of_nat (length (mcode p (u16 reg) (jcall j) r T)) = plen p) by (apply load_addr_plen; auto).
    rewrite LL in *. split; [|split].
    + exists p. do 3 (split; [reflexivity|]). split; [|auto]. unfold mcode in Q1 at 2. rewrite units_u16 in Q1. exact Q1.
    + intros. apply Q2. lia.
    + intros. apply Q3; auto; lia.
Qed.

Lemma lay_patch m ops : forall n r r2 js cs M, lay cf code eo m FL n r ops r2 js cs -> 0 <= r -> Forall (wf_op cf (length FL)) ops ->
  (forall i, r <= i < r2 -> munit M i = m i) ->
  let M' := fold_left (patch_jump code eo size labels) js M in
  flay (munit M') FL n r ops r2 js cs /\ (forall i, i < r \/ r2 <= i -> munit M' i = munit M i) /\
  (mok M = true -> r2 <= size -> mok M' = true).
Proof.
  induction ops as [|o ops IH]; intros n r r2 js cs M L R0 W A; cbv zeta; cbn [lay flay] in *.
  - destruct L as (-> & -> & ->). cbn [fold_left]. auto.
  - destruct L as (r1 & js1 & js2 & cs1 & cs2 & I & L & -> & ->). inversion W; subst. pose proof (item_mono _ _ _ _ _ _ _ _ _ _ _ I). pose proof (lay_mono _ _ _ _ _ _ _ _ _ _ _ L).
    destruct (patch_item n r o r1 js1 cs1 m M I R0 H1) as (B1 & B2 & B3). { intros. apply A. lia. }
    rewrite fold_left_app. set (M1 := fold_left _ js1 M) in *.
    destruct (IH (n + nlab o)%nat r1 r2 js2 cs2 M1 L ltac:(lia) H2) as (C1 & C2 & C3). { intros. rewrite B2 by lia. apply A. lia. }
    split; [|split].
    + exists r1, js1, js2, cs1, cs2. split; [|auto]. eapply fitem_ext; [|exact B1]. intros. apply C2. lia.
    + intros. rewrite C2, B2 by lia. reflexivity.
    + intros. apply C3; auto. apply B3; auto. lia.
Qed.
End Labels.
End P.
