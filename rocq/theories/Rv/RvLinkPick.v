(** detect_jump_type and mov_addr_get_length: which form is chosen, what it does to the branch. *)
Require Import ZArith List Bool Lia Zify ZifyBool.
From Verif Require Import Rv.RvLib Rv.RvBits Rv.RvIsa Rv.RvEnc Rv.RvImm Rv.RvAddr Rv.RvLink Rv.RvLinkOps Rv.RvLinkReduce Rv.RvLinkEst Rv.RvLinkGen.
Import ListNotations.
Open Scope Z_scope.

(** The form chosen by detect_jump_type for a distance (in bytes) and target. *)
Definition dpick (cf : cfg) (j : jump) (diff target : Z) : patch :=
  let c16 := cC cf && jcond16 j in
  let cond_diff := if c16 then diff + 2 else diff + 4 in
  if jcond j && c16 && (diff >=? BRANCH16_MIN) && (diff <=? BRANCH16_MAX) then PB16
  else if jcond j && (cond_diff >=? BRANCH_MIN) && (cond_diff <=? BRANCH_MAX) then PB
  else if cC cf && negb (jcall j) && (diff >=? JUMP16_MIN) && (diff <=? JUMP16_MAX) then PJ16
  else if (diff >=? JUMP_MIN) && (diff <=? JUMP_MAX) then PJ
  else if (diff >=? S32_MIN) && (diff <=? S32_MAX) then PRel32
  else if target <=? S32_MAX then PAbs32
  else if target <=? S44_MAX then PAbs44
  else if target <=? S52_MAX then PAbs52
  else PNone.
Definition mpick (diff target : Z) : patch :=
  if (diff >=? S32_MIN) && (diff <=? S32_MAX) then PRel32
  else if target <=? S32_MAX then PAbs32
  else if target <=? S44_MAX then PAbs44
  else if target <=? S52_MAX then PAbs52
  else PNone.
(** Units of the jump itself. *)
Definition plen (p : patch) : Z := match p with PJ => 2 | PRel32 | PAbs32 => 4 | PAbs44 => 8 | PAbs52 => 10 | _ => 12 end.
(** Units after the branch. *)
Definition dsz (p : patch) (k : jcnd) : Z :=
  match p with
  | PB16 => 0
  | PB => match k with Cond16 _ => 1 | _ => 0 end
  | PJ16 => 1
  | _ => plen p
  end.
(** The units of the branch after detect_jump_type. *)
Definition kfix (k : jcnd) (p : patch) : list Z :=
  match k with
  | NoCond => []
  | Cond16 w =>
    match p with
    | PB16 => [u16 (Z.lxor (u16 w .& 0xe383) 0x2000)]
    | PB => [u16 (Z.lxor BNE (Z.shiftr (u16 w .& 0x2000) 1) .| Z.shiftl (u16 w .& 0x80) 8); u16 (Z.shiftr (u16 w .& 0x300) 8 .| 0x4)]
    | PNone | PJ16 => [u16 w]
    | _ => [u16 (Z.lxor (u16 w) (u16 (Z.lxor BRANCH16_LENGTH (C_BRN16 ((plen p + 1) * 2)))))]
    end
  | Cond32 w =>
    match p with
    | PB | PB16 => [u16 (Z.lxor (u16 w .& 0xf07f) 0x1000); u16 (u16 (Z.shiftr w 16) .& 0x1ff)]
    | PNone | PJ16 => [u16 w; u16 (Z.shiftr w 16)]
    | _ => [u16 (Z.lxor (u16 w) (u16 (Z.lxor BRANCH_LENGTH (Z.shiftl ((plen p / 2 + 1) * 4) 7)))); u16 (Z.shiftr w 16)]
    end
  end.
Definition kp_ok (k : jcnd) (p : patch) : Prop :=
  match p with PB16 => (exists w, k = Cond16 w) | PB => k <> NoCond | PJ16 => k = NoCond | _ => True end.
Definition paddr (k : jcnd) (p : patch) (r : Z) : Z := match p with PB | PB16 => r | _ => r + klen k end.

Lemma u16_u16 x : u16 (u16 x) = u16 x. Proof. unfold u16. apply Z.mod_mod. lia. Qed.

Section P.
Variables (cf : cfg) (code eo size : Z).
Definition djump (labels : list label) (j : jump) (cp : Z) : Z * Z :=
  let lsz := label_size labels (jlabel j) in
  let target_addr := if jisaddr j then jtarget j else wrap (code + 2 * lsz + eo) in
  let ja := if jisaddr j then cp else if lsz >? jaddr j then jaddr j else cp in
  (sw (target_addr - (code + 2 * ja + eo)), target_addr).
Definition pickof (labels : list label) (j : jump) (cp : Z) : patch :=
  if jrewr j then PNone else let '(diff, t) := djump labels j cp in dpick cf j diff t.

Lemma dpick_kp k j diff t : jcond j = match k with NoCond => false | _ => true end ->
  jcond16 j = match k with Cond16 _ => true | _ => false end -> kp_ok k (dpick cf j diff t).
Proof.
  intros H1 H2. unfold dpick. rewrite H1, H2. unfold BRANCH16_MIN, BRANCH16_MAX, BRANCH_MIN, BRANCH_MAX, JUMP16_MIN, JUMP16_MAX, SIMM_MIN, SIMM_MAX.
  destruct k; cbn [andb]; rewrite ?andb_false_r, ?andb_true_r; cbn [andb];
  repeat match goal with |- kp_ok _ (if ?b then _ else _) => destruct b eqn:? end; cbn [kp_ok]; eauto; try congruence; exfalso; lia.
Qed.

Lemma detect_ok labels k j m cp :
  jcond j = match k with NoCond => false | _ => true end -> jcond16 j = match k with Cond16 _ => true | _ => false end ->
  (jcond16 j = true -> cC cf = true) ->
  atm (munit m) (cp - klen k) (map u16 (kunits k)) ->
  let p := pickof labels j cp in
  exists m', detect_jump_type cf code eo size labels j m cp = (set_jpatch j (paddr k p (cp - klen k)) p, m', cp + dsz p k - 1) /\
    atm (munit m') (cp - klen k) (kfix k p) /\ kp_ok k p /\
    (forall i, i < cp - klen k -> munit m' i = munit m i) /\
    (mok m = true -> klen k <= cp -> cp + dsz p k <= size -> mok m' = true).
Proof.
  intros H1 H2 H3 A. cbv zeta.
  assert (KP : kp_ok k (pickof labels j cp)).
  { unfold pickof. destruct (jrewr j); [exact I|]. destruct (djump labels j cp). apply dpick_kp; auto. }
  (* the far forms *)
  assert (FAR : forall p off m1, plen p = off + 1 -> paddr k p (cp - klen k) = cp -> dsz p k = plen p -> 3 <= off ->
    atm (munit m1) (cp - klen k) (kfix k p) -> (length (kfix k p) = Z.to_nat (klen k)) ->
    (forall i, i < cp - klen k -> munit m1 i = munit m i) -> (mok m = true -> klen k <= cp -> cp <= size -> mok m1 = true) ->
    exists m', (let '(m, cp') := detect_exit size j m1 cp off in (set_jpatch j cp p, m, cp')) = (set_jpatch j (paddr k p (cp - klen k)) p, m', cp + dsz p k - 1) /\
    atm (munit m') (cp - klen k) (kfix k p) /\ (forall i, i < cp - klen k -> munit m' i = munit m i) /\
    (mok m = true -> klen k <= cp -> cp + dsz p k <= size -> mok m' = true)).
  { intros p off m1 L PA DS O3 Am Lk B Ok. unfold detect_exit. eexists. split; [rewrite PA, DS, L; f_equal; lia|]. pose proof (klen_pos k). split; [|split].
    - eapply atm_ext; [|exact Am]. intros i Hi. rewrite Lk in Hi. rewrite !put_other by lia. reflexivity.
    - intros. rewrite !put_other by lia. auto.
    - intros. rewrite DS in *. apply put_ok; [apply put_ok; [apply Ok; auto|]|]; lia. }
  (* the branch length *)
  assert (LEN : forall p l16 l32, match p with PJ | PRel32 | PAbs32 | PAbs44 | PAbs52 => True | _ => False end ->
    l16 = plen p + 1 -> l32 = plen p / 2 + 1 ->
    atm (munit (set_branch_len cf size j m cp l16 l32)) (cp - klen k) (kfix k p) /\
    (forall i, i < cp - klen k -> munit (set_branch_len cf size j m cp l16 l32) i = munit m i) /\
    (mok m = true -> klen k <= cp -> cp <= size -> mok (set_branch_len cf size j m cp l16 l32) = true)).
  { intros p l16 l32 Hp -> ->. unfold set_branch_len. rewrite H1, H2. rewrite H2 in H3.
    destruct k as [|w|w]; cbn [klen kunits map kfix] in *.
    - split; [apply atm_nil|]. split; auto.
    - rewrite H3 by auto. cbn [andb]. apply atm_cons in A. destruct A as (A & _). rewrite A. split; [|split].
      + destruct p; try tauto; apply atm_cons; split; try apply atm_nil; rewrite put_same; f_equal; reflexivity.
      + intros. apply put_other. lia.
      + intros. apply put_ok; auto. lia.
    - rewrite andb_false_r. apply atm_cons in A. destruct A as (A & A2). apply atm_cons in A2. destruct A2 as (A2 & _). rewrite A. split; [|split].
      + destruct p; try tauto; apply atm_cons; (split; [rewrite put_same, ?u16_u16; f_equal; reflexivity|apply atm_cons; split; [|apply atm_nil]; rewrite put_other by lia; rewrite A2, u16_u16; reflexivity]).
      + intros. apply put_other. lia.
      + intros. apply put_ok; auto. lia. }
  assert (A0 : forall p, p = PNone \/ p = PJ16 -> atm (munit m) (cp - klen k) (kfix k p)).
  { intros p Hp. destruct k as [|w|w]; [apply atm_nil| |]; destruct Hp as [-> | ->]; cbn [kfix kunits map] in *; try exact A;
    rewrite !u16_u16 in A; exact A. }
  assert (LK : forall p, match p with PB => False | PB16 => False | _ => True end -> length (kfix k p) = Z.to_nat (klen k)).
  { intros p Hp. destruct k, p; cbn in *; try tauto; reflexivity. }
  unfold pickof, djump in *. unfold detect_jump_type. cbv zeta in *.
  destruct (jrewr j) eqn:R.
  { destruct (FAR PNone (JUMP_MAX_SIZE - 1) m) as (m' & F); try reflexivity; auto; try (apply A0; auto); try (apply LK; exact I); try (cbn [paddr]; lia); try (unfold JUMP_MAX_SIZE; lia).
    exists m'. intuition auto. }
  set (diff := sw _) in *. set (t := if jisaddr j then _ else _) in *. clearbody diff t.
  unfold dpick in *. cbv zeta in *.
  destruct (jcond j && (cC cf && jcond16 j) && (diff >=? BRANCH16_MIN) && (diff <=? BRANCH16_MAX)) eqn:C1.
  { destruct KP as (w & ->). cbn [klen kunits map] in *. apply atm_cons in A. destruct A as (A & _). eexists. split; [|split; [|split; [|split]]].
    - cbn [paddr dsz]. f_equal. lia.
    - cbn [kfix]. apply atm_cons. split; [|apply atm_nil]. rewrite put_same, A. f_equal.
    - cbn [kp_ok]. eauto.
    - intros. apply put_other. lia.
    - intros. apply put_ok; auto. cbn [dsz] in *. lia. }
  destruct (jcond j && ((if cC cf && jcond16 j then diff + 2 else diff + 4) >=? BRANCH_MIN) && ((if cC cf && jcond16 j then diff + 2 else diff + 4) <=? BRANCH_MAX)) eqn:C2.
  { destruct k as [|w|w]; [cbn [kp_ok] in KP; congruence| |].
    - rewrite H2 in *. rewrite H3 in * by auto. cbn [andb klen kunits map] in *. apply atm_cons in A. destruct A as (A & _). eexists. split; [|split; [|split; [|split]]].
      + cbn [paddr dsz]. f_equal. lia.
      + cbn [kfix]. apply atm_cons. split; [|apply atm_cons; split; [|apply atm_nil]].
        * rewrite put_same, put_other, A by lia. f_equal.
        * rewrite put_other by lia. replace (cp - 1 + 1) with cp by lia. rewrite put_same, A. f_equal.
      + cbn [kp_ok]. congruence.
      + intros. rewrite !put_other by lia. reflexivity.
      + intros. cbn [dsz] in *. repeat apply put_ok; auto; lia.
    - rewrite H2 in *. rewrite andb_false_r in *. cbn [klen kunits map] in *. apply atm_cons in A. destruct A as (A & A2). apply atm_cons in A2. destruct A2 as (A2 & _).
      replace (cp - 2 + 1) with (cp - 1) in * by lia. eexists. split; [|split; [|split; [|split]]].
      + cbn [paddr dsz]. f_equal. lia.
      + cbn [kfix]. apply atm_cons. split; [|apply atm_cons; split; [|apply atm_nil]].
        * rewrite put_other, put_same, A by lia. rewrite ?u16_u16. f_equal.
        * replace (cp - 2 + 1) with (cp - 1) by lia. rewrite put_same, put_other, A2 by lia. rewrite ?u16_u16. f_equal.
      + cbn [kp_ok]. congruence.
      + intros. rewrite !put_other by lia. reflexivity.
      + intros. cbn [dsz] in *. repeat apply put_ok; auto; lia. }
  destruct (cC cf && negb (jcall j) && (diff >=? JUMP16_MIN) && (diff <=? JUMP16_MAX)) eqn:C3.
  { cbn [kp_ok] in KP. subst k. exists m. cbn [klen paddr dsz kfix]. split; [f_equal; [f_equal; f_equal; lia|lia]|]. split; [apply atm_nil|]. cbn. auto. }
  destruct ((diff >=? JUMP_MIN) && (diff <=? JUMP_MAX)) eqn:C4.
  { destruct (LEN PJ 3 2) as (L1 & L2 & L3); try reflexivity. eexists. split; [cbn [paddr dsz plen]; f_equal; [f_equal; f_equal; lia|lia]|].
    split; [exact L1|]. split; [exact I|]. split; [exact L2|]. intros. apply L3; auto. cbn [dsz plen] in *. lia. }
  assert (PA : forall p, match p with PB => False | PB16 => False | _ => True end -> paddr k p (cp - klen k) = cp).
  { intros p Hp. destruct p; cbn [paddr]; try tauto; lia. }
  destruct ((diff >=? S32_MIN) && (diff <=? S32_MAX)) eqn:C5.
  { destruct (LEN PRel32 5 3) as (L1 & L2 & L3); try reflexivity.
    destruct (FAR PRel32 3 (set_branch_len cf size j m cp 5 3)) as (m' & F); try reflexivity; auto; try (apply LK; exact I); try (cbn [paddr]; lia). exists m'. intuition auto. }
  destruct (t <=? S32_MAX) eqn:C6.
  { destruct (LEN PAbs32 5 3) as (L1 & L2 & L3); try reflexivity.
    destruct (FAR PAbs32 3 (set_branch_len cf size j m cp 5 3)) as (m' & F); try reflexivity; auto; try (apply LK; exact I); try (cbn [paddr]; lia). exists m'. intuition auto. }
  destruct (t <=? S44_MAX) eqn:C7.
  { destruct (LEN PAbs44 9 5) as (L1 & L2 & L3); try reflexivity.
    destruct (FAR PAbs44 7 (set_branch_len cf size j m cp 9 5)) as (m' & F); try reflexivity; auto; try (apply LK; exact I); try (cbn [paddr]; lia). exists m'. intuition auto. }
  destruct (t <=? S52_MAX) eqn:C8.
  { destruct (LEN PAbs52 11 6) as (L1 & L2 & L3); try reflexivity.
    destruct (FAR PAbs52 9 (set_branch_len cf size j m cp 11 6)) as (m' & F); try reflexivity; auto; try (apply LK; exact I); try (cbn [paddr]; lia). exists m'. intuition auto. }
  destruct (FAR PNone (JUMP_MAX_SIZE - 1) m) as (m' & F); try reflexivity; auto; try (apply A0; auto); try (apply LK; exact I); try (cbn [paddr]; lia); try (unfold JUMP_MAX_SIZE; lia).
  exists m'. intuition auto.
Qed.
Lemma mov_length_ok labels j cp : jmov j = true ->
  mov_addr_get_length code eo labels j cp = (let p := (let '(diff, t) := djump labels j cp in mpick diff t) in (p, plen p - 1)).
Proof.
  intros Hm. unfold mov_addr_get_length, djump, mpick. cbv zeta.
  set (diff := sw _) in *. set (t := if jisaddr j then _ else _) in *. clearbody diff t.
  repeat match goal with |- context [if ?b then _ else _] => destruct b; try reflexivity end.
Qed.
End P.
