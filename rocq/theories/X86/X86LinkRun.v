(** Proofs about the x86-64 code generator: running the final code of jumps and address loads. *)
Require Import ZArith List Bool Lia.
From Verif Require Import Rv.RvLib Rv.RvIsa X86.X86Isa X86.X86Emit X86.X86Spec X86.X86OpSpec X86.X86Cond X86.X86Enc X86.X86EncTop X86.X86Link X86.X86LinkSpec X86.X86LinkOps X86.X86LinkRed X86.X86LinkGen X86.X86LinkFit.
Import ListNotations.
Ltac Zify.zify_post_hook ::= idtac.
Open Scope Z_scope.

Lemma reg_cases : forall (P : Z -> Prop), (forall r, In r [0;1;2;3;4;5;6;7;8;9;10;11;12;13;14;15;16] -> P r) -> forall r, isreg r -> P r.
Proof. intros P H r R. apply H. unfold isreg in R. cbn [In]. lia. Qed.
Lemma cond_cases : forall (P : Z -> Prop), (forall r, In r [0;1;2;3;4;5;6;7;8;9;10;11;12;13] -> P r) -> forall r, 0 <= r <= 13 -> P r.
Proof. intros P H r R. apply H. cbn [In]. lia. Qed.
Ltac incases := match goal with H : In _ _ |- _ => cbn [In] in H; decompose [or] H; clear H; try contradiction; subst end.

(** ** Decoding *)
Lemma dec_near : forall k short V tl, kind_ok k -> (short = true -> k <> JCall) ->
  decode_ctl (nins k short ++ lebytes (nsz short) V ++ tl) =
  Some (match k with JCond t => CJcc (jump_code t - 0x80) (sext (8 * Z.of_nat (nsz short)) V) | JAlways => CJmp (sext (8 * Z.of_nat (nsz short)) V) | JCall => CCall (sext (8 * Z.of_nat (nsz short)) V) end, tl).
Proof.
  intros k short V tl K S. set (l := lebytes (nsz short) V ++ tl).
  assert (E : sle (nsz short) l = Some (sext (8 * Z.of_nat (nsz short)) V, tl)) by (apply sle_app; destruct short; cbn; lia). clearbody l.
  destruct k as [t| |]; destruct short; try (elim (S eq_refl); reflexivity); cbn [nins app nsz] in *.
  - clear S. revert t K. apply cond_cases. intros t H. incases; cbn -[sle sext]; rewrite E; reflexivity.
  - clear S. revert t K. apply cond_cases. intros t H. incases; cbn -[sle sext]; rewrite E; reflexivity.
  - cbn -[sle sext]. rewrite E. reflexivity.
  - cbn -[sle sext]. rewrite E. reflexivity.
  - cbn -[sle sext]. rewrite E. reflexivity.
Qed.
Lemma dec_inv : forall t short tl, 0 <= t <= 13 -> decode_ctl (jinv (JCond t) short ++ tl) = Some (CJcc (jump_code (Z.lxor t 1) - 0x80) (if short then 9 else 13), tl).
Proof. intros t short tl. revert t. apply cond_cases. intros t H. destruct short; incases; reflexivity. Qed.
Lemma cond_inv : forall s t c, 0 <= t <= 13 -> cond_val s (jump_code t - 0x80) = Some c -> cond_val s (jump_code (Z.lxor t 1) - 0x80) = Some (negb c).
Proof.
  intros s t c H E. assert (A : cond_val s (jump_code (Z.lxor t 1) - 128) = match cond_val s (jump_code t - 128) with Some b => Some (negb b) | None => None end).
  { clear E. revert t H. apply cond_cases. intros t H. unfold cond_val.
    incases; cbv -[cond_base]; match goal with |- context [cond_base s ?a] => destruct (cond_base s a) as [[]|]; reflexivity end. }
  rewrite A, E. reflexivity.
Qed.
Lemma dec_jjmp : forall win k tl, decode_ctl (jjmp win k ++ tl) = Some (match k with JCall => CCallR (reg_map win TMP_REG2) | _ => CJmpR (reg_map win TMP_REG2) end, tl).
Proof. intros win k tl. destruct win, k; reflexivity. Qed.
Lemma jmovb64 : forall win T, jmovb win false ++ lebytes 8 T = load_imm64 win TMP_REG2 T.
Proof. intros win T. destruct win; reflexivity. Qed.
Lemma jmovb32 : forall win, jmovb win true = (if 8 <=? reg_map win TMP_REG2 then [0x41] else []) ++ [0xb8 + reg_lmap win TMP_REG2].
Proof. intros win. destruct win; reflexivity. Qed.
Lemma noctl64 : forall win reg T tl, isreg reg -> decode_ctl (load_imm64 win reg T ++ tl) = None.
Proof.
  intros win reg T tl. unfold load_imm64. set (l := lebytes 8 T ++ tl). revert reg. apply reg_cases. intros reg H. rewrite <- !app_comm_cons. fold l.
  assert (L : l <> []) by (subst l; discriminate). clearbody l. destruct l as [|b l]; [congruence|]. destruct win; incases; reflexivity.
Qed.
Definition imm32 (win : bool) (reg T : Z) : list Z := (if 8 <=? reg_map win reg then [0x41] else []) ++ [0xb8 + reg_lmap win reg] ++ lebytes 4 T.
Lemma noctl32 : forall win reg T tl, isreg reg -> decode_ctl (imm32 win reg T ++ tl) = None.
Proof.
  intros win reg T tl. unfold imm32. rewrite <- !app_assoc. set (l := lebytes 4 T ++ tl).
  assert (L : exists b b' l', l = b :: b' :: l') by (subst l; cbn; eauto). clearbody l. destruct L as (b & b' & l' & ->). revert reg. apply reg_cases. intros reg H.
  destruct win; incases; reflexivity.
Qed.
Lemma dec32 : forall win reg T tl, isreg reg -> decode (imm32 win reg T ++ tl) = Some (XMov 32 (OR (reg_map win reg)) (OI (sext 32 T)), tl).
Proof.
  intros win reg T tl. unfold imm32. rewrite <- !app_assoc. set (l := lebytes 4 T ++ tl).
  assert (E : sle 4 l = Some (sext 32 T, tl)) by (apply sle_app; lia). clearbody l. revert reg. apply reg_cases. intros reg H.
  destruct win; incases; match goal with |- decode ?x = Some (XMov 32 (OR ?r) _, _) =>
    change (decode x) with (match sle 4 l with Some (v, l) => Some (XMov 32 (OR r) (OI v), l) | None => None end); rewrite E; reflexivity end.
Qed.
Definition leab (win : bool) (reg : Z) : list Z := [if 8 <=? reg_map win reg then 0x4c else 0x48; 0x8d; 8 * reg_lmap win reg + 5].
Lemma dec_lea : forall win reg V tl, isreg reg -> decode_ctl (leab win reg ++ lebytes 4 V ++ tl) = Some (CLea 64 (reg_map win reg) (sext 32 V), tl).
Proof.
  intros win reg V tl. set (l := lebytes 4 V ++ tl). assert (E : sle 4 l = Some (sext 32 V, tl)) by (apply sle_app; lia). clearbody l. revert reg. apply reg_cases. intros reg H.
  destruct win; incases; match goal with |- decode_ctl ?x = Some (CLea 64 ?r _, _) =>
    change (decode_ctl x) with (match sle 4 l with Some (v, l) => Some (CLea 64 r v, l) | None => None end); rewrite E; reflexivity end.
Qed.

(** ** Fetching *)
Section Run.
Variables (code eo : Z).
Notation xpos := (xpos code eo).
Lemma fetch_at : forall b codef pos bs, fetches code eo b codef -> bytes_at b pos bs -> (length bs <= 15)%nat ->
  exists tl, fetch codef (xpos pos) = bs ++ tl /\ zlen (fetch codef (xpos pos)) = 15.
Proof.
  intros b codef pos bs F (l1 & l2 & -> & L) H. unfold fetch. exists (map (fun i => codef (wrap (xpos pos + Z.of_nat i))) (seq (length bs) (15 - length bs))). split; [|unfold zlen; rewrite map_length, seq_length; reflexivity].
  replace 15%nat with (length bs + (15 - length bs))%nat at 1 by lia. rewrite seq_app, map_app. f_equal.
  apply nth_ext with (d := 0) (d' := 0); [rewrite map_length, seq_length; reflexivity|]. intros n Hn. rewrite map_length, seq_length in Hn.
  rewrite nth_indep with (d' := codef (wrap (xpos pos + Z.of_nat 0))) by (rewrite map_length, seq_length; exact Hn).
  rewrite (map_nth (fun i => codef (wrap (xpos pos + Z.of_nat i)))). rewrite seq_nth by exact Hn. cbn [plus].
  replace (xpos pos + Z.of_nat n) with (xpos (pos + Z.of_nat n)) by (unfold X86LinkSpec.xpos; lia). subst pos. rewrite F.
  - rewrite app_nth2 by (unfold zlen; lia). rewrite app_nth1 by (unfold zlen; lia). f_equal. unfold zlen. lia.
  - unfold zlen in *. rewrite !app_length. lia.
Qed.
Lemma bytes_sub : forall b pos a m c, bytes_at b pos (a ++ m ++ c) -> bytes_at b (pos + zlen a) m.
Proof.
  intros b pos a m c (l1 & l2 & -> & L). exists (l1 ++ a), (c ++ l2). split; [rewrite <- !app_assoc; reflexivity|]. rewrite zlen_app. lia.
Qed.
Lemma bytes_pre : forall b pos a c, bytes_at b pos (a ++ c) -> bytes_at b pos a.
Proof. intros b pos a c (l1 & l2 & -> & L). exists l1, (c ++ l2). split; [rewrite <- !app_assoc; reflexivity|exact L]. Qed.
Lemma step_at : forall b codef u pos bs s, fetches code eo b codef -> bytes_at b pos bs -> (length bs <= 15)%nat ->
  exists tl, fetch codef (xpos pos) = bs ++ tl /\ cstep codef u (xpos pos) s =
    let next := wrap (xpos (pos + zlen bs)) in
    match decode_ctl (bs ++ tl) with
    | Some (c, l') => if Nat.eqb (length l') (length tl) then
        match c with
        | CJmp d => Some (wrap (next + d), s)
        | CCall d => Some (wrap (next + d), push s next)
        | CJcc cc d => match cond_val s cc with Some b => Some (if b then wrap (next + d) else next, s) | None => None end
        | CJmpR r => Some (xr s r, s)
        | CCallR r => Some (xr s r, push s next)
        | CLea n r d => Some (next, setr s r (wrap (next + d) mod 2 ^ n))
        end else cstep codef u (xpos pos) s
    | None => match decode (bs ++ tl) with
              | Some (XJcc _ _, _) => cstep codef u (xpos pos) s
              | Some (i, l') => if Nat.eqb (length l') (length tl) then match exec u s i with Some s' => Some (next, s') | None => None end else cstep codef u (xpos pos) s
              | None => match decode_stk (bs ++ tl) with
                        | Some (i, l') => if Nat.eqb (length l') (length tl) then sexec next s i else cstep codef u (xpos pos) s
                        | None => None end
              end
    end.
Proof.
  intros b codef u pos bs s F B H. destruct (fetch_at b codef pos bs F B H) as (tl & E & L). exists tl. split; [exact E|]. cbv zeta.
  assert (N : forall l' : list Z, (length l' =? length tl)%nat = true -> wrap (xpos pos + (zlen (bs ++ tl) - zlen l')) = wrap (xpos (pos + zlen bs))).
  { intros l' Hl. apply Nat.eqb_eq in Hl. rewrite zlen_app. f_equal. unfold X86LinkSpec.xpos, zlen. rewrite Hl. lia. }
  unfold cstep at 1. rewrite E.
  destruct (decode_ctl (bs ++ tl)) as [[c l']|] eqn:D.
  - destruct (length l' =? length tl)%nat eqn:Q; [|unfold cstep; rewrite E, D; reflexivity]. rewrite N by exact Q. destruct c; reflexivity.
  - destruct (decode (bs ++ tl)) as [[i l']|] eqn:D2.
    2:{ destruct (decode_stk (bs ++ tl)) as [[i l']|] eqn:D3; [|reflexivity]. destruct (length l' =? length tl)%nat eqn:Q; [|unfold cstep; rewrite E, D, D2, D3; reflexivity]. rewrite N by exact Q. reflexivity. }
    destruct (length l' =? length tl)%nat eqn:Q; [|unfold cstep; rewrite E, D, D2; destruct i; reflexivity]. rewrite !N by exact Q. unfold cstep. rewrite E, D, D2. rewrite !N by exact Q. destruct i; reflexivity.
Qed.
Lemma xpos_wrap : forall p, 0 <= code + eo -> 0 <= p -> xpos p < 2 ^ 64 -> wrap (xpos p) = xpos p.
Proof. intros p H1 H2 H3. apply wrap_small. unfold isw. unfold X86LinkSpec.xpos in *. lia. Qed.
Lemma same_refl : forall R s, same_but R s s.
Proof. intros. repeat split; reflexivity. Qed.
Lemma same_setr : forall r s v, same_but [r] s (setr s r v).
Proof.
  intros r s v. split; [|repeat split; reflexivity]. intros x H. cbn [setr xr]. destruct (x =? r) eqn:E; [|reflexivity]. apply Z.eqb_eq in E. subst. elim H. left. reflexivity.
Qed.
Lemma same_push : forall r s v a, r <> 4 -> same_but [r] (push s a) (push (setr s r v) a).
Proof.
  intros r s v a R. unfold push. cbn [setr setmem xr xm]. replace (4 =? r) with false by (symmetry; apply Z.eqb_neq; congruence). split; [|repeat split; reflexivity].
  intros x H. cbn [setr setmem xr]. destruct (x =? 4); [reflexivity|]. destruct (x =? r) eqn:E; [|reflexivity]. apply Z.eqb_eq in E. subst. elim H. left. reflexivity.
Qed.
Lemma reach : forall k T next, 1 <= k <= 64 -> isw T -> - 2 ^ (k - 1) <= sdiff T next < 2 ^ (k - 1) -> wrap (next + sext k (T - next)) = T.
Proof.
  intros k T next K W D. unfold sdiff in D. destruct (sext_mod 64 (T - next) ltac:(lia)) as (q & E).
  assert (S : sext k (T - next) = sext 64 (T - next)).
  { apply sext_unique with (q * 2 ^ (64 - k)); [lia|exact D|]. rewrite <- Z.mul_assoc, <- Z.pow_add_r by lia. replace (64 - k + k) with 64 by lia. exact E. }
  rewrite S. rewrite <- (wrap_small T W) at 2. apply wrap_eq with (- q). lia.
Qed.

(** ** Running *)
Variable win : bool.
Lemma wf_setr : forall s r v, xwf s -> isw v -> xwf (setr s r v).
Proof. intros s r v H V q. cbn [setr xr]. destruct (q =? r); [exact V|apply H]. Qed.
Lemma wf_push : forall s v, xwf s -> xwf (push s v).
Proof. intros s v H. unfold push. apply wf_setr; [exact H|]. apply Z.mod_pos_bound. reflexivity. Qed.
Lemma run_mov : forall b codef u pos bs s reg T, fetches code eo b codef -> isreg reg -> isw T -> bytes_at b pos bs ->
  (bs = load_imm64 win reg T \/ T <= 0xffffffff /\ bs = imm32 win reg T) -> cstep codef u (xpos pos) s = Some (wrap (xpos (pos + zlen bs)), setr s (reg_map win reg) T).
Proof.
  intros b codef u pos bs s reg T F R W B [-> |[T32 ->]].
  - destruct (step_at b codef u pos (load_imm64 win reg T) s F B ltac:(cbn; lia)) as (tl & _ & ->). rewrite noctl64, decode_load_imm64 by exact R. rewrite Nat.eqb_refl.
    cbn [exec wro rdo]. change (64 <? 32) with false. cbv iota. rewrite !sext64_wrap. rewrite mod_wrap, wrap_wrap, (wrap_small T W). reflexivity.
  - destruct (step_at b codef u pos (imm32 win reg T) s F B) as (tl & _ & ->); [unfold imm32; destruct (8 <=? _); cbn; lia|]. rewrite noctl32, dec32 by exact R. rewrite Nat.eqb_refl.
    cbn [exec wro rdo]. change (32 <? 32) with false. cbv iota. replace ((sext 32 T mod 2 ^ 32) mod 2 ^ 32) with T; [reflexivity|]. unfold isw in W.
    destruct (sext_mod 32 T ltac:(lia)) as (q & E). rewrite Z.mod_mod by lia. rewrite <- (Z.mod_small T (2 ^ 32)) at 1 by lia. rewrite E at 1. rewrite Z.mod_add by lia. reflexivity.
Qed.
Lemma run_jump : forall b k T pos fin, kind_ok k -> isw T -> jfinal win code eo k T pos fin -> bytes_at b pos fin -> 0 <= code + eo -> 0 <= pos -> xpos (pos + zlen fin) < 2 ^ 64 ->
  jump_runs win code eo b k T pos (pos + zlen fin).
Proof.
  intros b k T pos fin K W J B P0 P1 P2 codef u s c F X H.
  assert (WN : wrap (xpos (pos + zlen fin)) = xpos (pos + zlen fin)) by (apply xpos_wrap; try assumption; pose proof (zlen_nonneg fin); lia).
  inversion J as [short next SH NE R E|short ST E]; subst fin.
  - destruct (step_at b codef u pos (nins k short ++ lebytes (nsz short) (T - next)) s F B) as (tl & _ & ST); [destruct k, short; cbn; lia|].
    rewrite <- app_assoc in ST. rewrite dec_near in ST by assumption. rewrite Nat.eqb_refl, WN in ST. cbv zeta in ST.
    assert (NX : xpos (pos + zlen (nins k short ++ lebytes (nsz short) (T - next))) = next).
    { rewrite NE, zlen_app. unfold zlen at 2. rewrite lebytes_length. unfold X86LinkSpec.xpos. lia. }
    rewrite NX in *.
    assert (RE : wrap (next + sext (8 * Z.of_nat (nsz short)) (T - next)) = T) by (apply reach; try assumption; destruct short; cbn [nsz]; lia).
    destruct k as [t| |]; cbn [holds] in H; rewrite RE in ST; [rewrite H in ST|subst c|subst c]; eexists; (split; [eapply csteps_one; [exact ST|apply csteps_refl]|split; [apply same_refl|try apply wf_push; exact X]]).
  - assert (R4 : reg_map win TMP_REG2 <> 4) by (destruct win; discriminate). assert (RT : isreg TMP_REG2) by (unfold isreg, TMP_REG2; lia).
    set (tail := jmovb win short ++ lebytes (if short then 4 else 8) T ++ jjmp win k).
    assert (LT : zlen (jinv k short ++ tail) = zlen (jinv k short) + zlen tail) by apply zlen_app.
    (* the jump itself *)
    assert (TL : forall p, bytes_at b p tail -> 0 <= p -> p + zlen tail = pos + zlen (farb win k short T) ->
      exists s', csteps codef u (xpos p) s T s' /\ same_but [reg_map win TMP_REG2] (match k with JCall => push s (xpos (pos + zlen (farb win k short T))) | _ => s end) s' /\ xwf s').
    { intros p BT PP PE. subst tail. set (mv := jmovb win short ++ lebytes (if short then 4 else 8) T).
      assert (TE : jmovb win short ++ lebytes (if short then 4 else 8) T ++ jjmp win k = mv ++ jjmp win k) by (unfold mv; rewrite <- app_assoc; reflexivity). rewrite TE in *.
      assert (MV : cstep codef u (xpos p) s = Some (wrap (xpos (p + zlen mv)), setr s (reg_map win TMP_REG2) T)).
      { apply (run_mov b); try assumption; [eapply bytes_pre, BT|]. unfold mv. destruct short; [right|left].
        - split; [apply ST; reflexivity|]. rewrite jmovb32. unfold imm32. rewrite <- app_assoc. reflexivity.
        - apply jmovb64. }
      rewrite zlen_app in PE. pose proof (zlen_nonneg mv). pose proof (zlen_nonneg (jjmp win k)).
      assert (WM : wrap (xpos (p + zlen mv)) = xpos (p + zlen mv)) by (apply xpos_wrap; unfold X86LinkSpec.xpos in *; lia). rewrite WM in MV.
      assert (BJ : bytes_at b (p + zlen mv) (jjmp win k)) by (apply bytes_sub with (c := []); rewrite app_nil_r; exact BT).
      destruct (step_at b codef u (p + zlen mv) (jjmp win k) (setr s (reg_map win TMP_REG2) T) F BJ ltac:(cbn; lia)) as (tl & _ & SJ). rewrite dec_jjmp, Nat.eqb_refl in SJ. cbv zeta in SJ.
      replace (p + zlen mv + zlen (jjmp win k)) with (pos + zlen (farb win k short T)) in SJ by lia. rewrite WN in SJ.
      assert (XR : xr (setr s (reg_map win TMP_REG2) T) (reg_map win TMP_REG2) = T) by (cbn [setr xr]; rewrite Z.eqb_refl; reflexivity).
      destruct k as [t| |]; rewrite XR in SJ; eexists; (split; [eapply csteps_one; [exact MV|]; eapply csteps_one; [exact SJ|apply csteps_refl]|]); (split; [apply same_setr || apply same_push, R4|try apply wf_push; apply wf_setr; assumption]). }
    change (farb win k short T) with (jinv k short ++ tail) in *.
    assert (BT : bytes_at b (pos + zlen (jinv k short)) tail) by (apply bytes_sub with (c := []); rewrite app_nil_r; exact B).
    specialize (TL _ BT ltac:(pose proof (zlen_nonneg (jinv k short)); lia) ltac:(lia)).
    destruct k as [t| |]; cbn [holds] in H.
    + destruct (step_at b codef u pos (jinv (JCond t) short) s F (bytes_pre _ _ _ _ B) ltac:(cbn; lia)) as (tl & _ & SI). rewrite dec_inv in SI by exact K. rewrite Nat.eqb_refl in SI. cbv zeta in SI.
      rewrite (cond_inv s t c K H) in SI.
      assert (WI : wrap (xpos (pos + zlen (jinv (JCond t) short))) = xpos (pos + zlen (jinv (JCond t) short))).
      { apply xpos_wrap; [assumption|pose proof (zlen_nonneg (jinv (JCond t) short)); lia|]. pose proof (zlen_nonneg tail). unfold X86LinkSpec.xpos in *. lia. }
      rewrite WI in SI. destruct c; cbn [negb] in SI.
      * destruct TL as (s' & T1 & T2). exists s'. split; [eapply csteps_one; [exact SI|exact T1]|exact T2].
      * exists s. split; [|split; [apply same_refl|exact X]]. eapply csteps_one; [exact SI|].
        replace (wrap (xpos (pos + zlen (jinv (JCond t) short)) + (if short then 9 else 13))) with (xpos (pos + zlen (jinv (JCond t) short ++ tail))); [apply csteps_refl|].
        rewrite <- WN. f_equal. rewrite LT. unfold X86LinkSpec.xpos. assert (zlen tail = if short then 9 else 13) as -> by (subst tail; destruct short; reflexivity). lia.
    + subst c. change (jinv JAlways short) with (@nil Z) in *. replace (pos + zlen (@nil Z)) with pos in TL by (cbn; lia). exact TL.
    + subst c. change (jinv JCall short) with (@nil Z) in *. replace (pos + zlen (@nil Z)) with pos in TL by (cbn; lia). exact TL.
Qed.
Lemma run_addr : forall b reg T pos fin, isreg reg -> isw T -> mfinal win code eo reg T pos fin -> bytes_at b pos fin -> 0 <= code + eo -> 0 <= pos -> xpos (pos + zlen fin) < 2 ^ 64 ->
  mov_runs win code eo b reg T pos (pos + zlen fin).
Proof.
  intros b reg T pos fin R W J B P0 P1 P2 codef u s F X.
  assert (WN : wrap (xpos (pos + zlen fin)) = xpos (pos + zlen fin)) by (apply xpos_wrap; try assumption; pose proof (zlen_nonneg fin); lia).
  exists (setr s (reg_map win reg) T). split; [|split; [cbn [setr xr]; rewrite Z.eqb_refl; reflexivity|apply same_setr]].
  eapply csteps_one; [|apply csteps_refl]. rewrite <- WN. inversion J as [next NE D E|E|T32 E]; subst fin.
  - fold (leab win reg) in *. destruct (step_at b codef u pos (leab win reg ++ lebytes 4 (T - next)) s F B ltac:(cbn; lia)) as (tl & _ & ST). rewrite <- app_assoc, dec_lea, Nat.eqb_refl, WN in ST by exact R.
    cbv zeta in ST. rewrite WN. rewrite ST. do 2 f_equal. f_equal.
    replace (xpos (pos + zlen (leab win reg ++ lebytes 4 (T - next)))) with next by (rewrite NE; reflexivity).
    rewrite reach by (try assumption; lia). apply Z.mod_small, W.
  - apply (run_mov b); try assumption. left. reflexivity.
  - apply (run_mov b); try assumption. right. split; [exact T32|reflexivity].
Qed.
End Run.
