(** Proofs about the x86-64 code generator: the code of each operation has at most the reserved size, and its final form after patching. *)
Require Import ZArith List Bool Lia.
From Verif Require Import Rv.RvLib Rv.RvIsa X86.X86Isa X86.X86Emit X86.X86Spec X86.X86OpSpec X86.X86Cond X86.X86Enc X86.X86Link X86.X86LinkSpec X86.X86LinkOps X86.X86LinkRed X86.X86LinkGen.
Import ListNotations.
Ltac Zify.zify_post_hook ::= idtac.
Open Scope Z_scope.

Lemma sdiff_small : forall a b, - 2 ^ 63 <= a - b < 2 ^ 63 -> sdiff a b = a - b.
Proof. intros a b H. unfold sdiff. apply sext_small; [lia|exact H]. Qed.
(** Differences which are not near the ends behave like integers. *)
Lemma sdiff_shift : forall a b k, - 2 ^ 63 <= sdiff a b - k < 2 ^ 63 -> sdiff a (b + k) = sdiff a b - k.
Proof.
  intros a b k H. unfold sdiff in *. destruct (sext_mod 64 (a - b) ltac:(lia)) as (q & E). apply sext_unique with q; [lia|exact H|]. lia.
Qed.
Lemma sdiff_range : forall a b, - 2 ^ 63 <= sdiff a b < 2 ^ 63.
Proof. intros. apply (sext_range 64 (a - b)). lia. Qed.

Section Fit.
Variables (win : bool) (code eo : Z).

(** ** Jumps *)
Definition nins (k : jkind) (short : bool) : list Z :=
  match k with
  | JAlways => [if short then 0xeb else 0xe9]
  | JCall => [0xe8]
  | JCond t => if short then [u8 (jump_code t - 0x10)] else [0x0f; jump_code t]
  end.
Definition nsz (short : bool) : nat := if short then 1%nat else 4%nat.
Definition isshort (k : jkind) (d : Z) : bool := match k with JCall => false | _ => (-0x80 <=? d) && (d <=? 0x7f) end.
Definition neargen (k : jkind) (t : target) (short : bool) (pos : Z) : list Z * xjump :=
  (nins k short ++ zeros (nsz short), mkXJ (code + pos + zlen (nins k short)) k false false false t (if short then PMB else PMW)).
Lemma near_eq : forall L e k t pos,
  near_jump win code eo L (mkXJ e k false false false t PNo) pos =
  let la := match t with TLabel n => code + lsz L n | TAddr a => a - eo end in
  let ja := match t with TLabel n => if e <? lsz L n then code + e else code + pos | TAddr _ => code + pos end in
  if (HMAX <? sdiff la (ja + 6)) || (sdiff la (ja + 5) <? HMIN) then far_jump win code (mkXJ e k false false false t PNo) pos
  else neargen k t (isshort k (sdiff la (ja + 2))) pos.
Proof.
  intros L e k t pos. unfold near_jump, neargen, isshort, nins. cbn [jt jaddr jk jrewr jmov jhi jp]. cbv zeta.
  destruct t as [n|a]; (match goal with |- context [if ?b || ?c then _ else _] => destruct (b || c); [reflexivity|] end);
    (destruct k as [t| |]; [| |reflexivity]); match goal with |- context [?b && ?c] => destruct (b && c) end; reflexivity.
Qed.
Definition jinv (k : jkind) (short : bool) : list Z :=
  match k with JCond t => [u8 (jump_code (Z.lxor t 1) - 0x10); if short then 9 else 13] | _ => [] end.
Definition jmovb (short : bool) : list Z := [if short then REX_B else Z.lor REX_W REX_B; Z.lor 0xb8 (reg_lmap win TMP_REG2)].
Definition jjmp (k : jkind) : list Z := [REX_B; 0xff; u8 (Z.lor (Z.lor 0xc0 (match k with JCall => 0x10 | _ => 0x20 end)) (reg_lmap win TMP_REG2))].
Definition farb (k : jkind) (short : bool) (T : Z) : list Z := jinv k short ++ jmovb short ++ lebytes (if short then 4 else 8) T ++ jjmp k.
Definition farshort (rewr : bool) (t : target) : bool := negb rewr && match t with TAddr a => a <=? 0xffffffff | TLabel _ => false end.
Lemma far_eq : forall e k rewr t pos,
  far_jump win code (mkXJ e k rewr false false t PNo) pos =
  (farb k (farshort rewr t) (match t with TAddr a => a | TLabel _ => 0 end),
   mkXJ (code + pos + zlen (jinv k (farshort rewr t)) + 2) k rewr false false t (match t with TLabel _ => PMD | TAddr _ => PNo end)).
Proof.
  intros e k rewr t pos. unfold far_jump, farb, farshort, jinv, jmovb, jjmp. cbn [jt jaddr jk jrewr jmov jhi jp]. destruct rewr, t as [n|a]; cbn [negb andb]; try destruct (a <=? 0xffffffff); reflexivity.
Qed.
Lemma farb_len : forall k short T, zlen (farb k short T) = (match k with JCond _ => 15 | _ => 13 end) - (if short then 4 else 0).
Proof. intros k short T. destruct k, short; reflexivity. Qed.
Lemma near_len : forall k short, zlen (nins k short ++ zeros (nsz short)) = if short then (match k with JCall => 2 | _ => 2 end) else nearsz k.
Proof. intros k short. destruct k, short; reflexivity. Qed.

(** What is known about the label [n] when the operation at [pos], reserved [z] bytes from [e] on, is written. *)
Definition labf (L labs : list xlabel) (e z pos : Z) (n : nat) : Prop :=
  (0 <= lsz L n <= pos /\ pos - lsz L n <= e - lsz labs n) \/ (lsz L n = lsz labs n /\ e + z <= lsz labs n <= 2 ^ 31 - 32).
(** The targets of an operation. *)
Definition tgt (o : op) : option target := match o with OJmp _ _ t | OMov _ t => Some t | _ => None end.
Definition labfs (P : nat -> Prop) (o : op) : Prop := match tgt o with Some (TLabel n) => P n | _ => True end.

Lemma label_near : forall L labs e z pos n, 0 <= pos <= e -> e <= 2 ^ 31 - 32 -> 2 <= z -> labf L labs e z pos n ->
  let ja := if e <? lsz L n then code + e else code + pos in
  exists d, (forall k, 0 <= k <= 10 -> sdiff (code + lsz L n) (ja + k) = d - k) /\ - 2 ^ 31 + 32 <= d <= 2 ^ 31 - 32 /\
    (-126 <= lsz labs n - e <= 129 -> -126 <= d <= 129) /\ (d = lsz L n - pos /\ lsz L n <= pos \/ d = lsz L n - e /\ e < lsz L n).
Proof.
  intros L labs e z pos n P E Z0 [[A B]|[A B]] ja; subst ja.
  - replace (e <? lsz L n) with false by (symmetry; apply Z.ltb_ge; lia). exists (lsz L n - pos). split; [|split; [lia|split; lia]].
    intros k K. rewrite sdiff_small; lia.
  - replace (e <? lsz L n) with true by (symmetry; apply Z.ltb_lt; lia). exists (lsz L n - e). split; [|split; [lia|split; lia]].
    intros k K. rewrite sdiff_small; lia.
Qed.
Lemma align_ok : forall al pos, 0 < al <= 4 -> zlen (align_pad code (2 ^ al - 1) pos) = (- (code + pos)) mod 2 ^ al.
Proof.
  intros al pos H. unfold align_pad, zlen. rewrite repeat_length. pose proof (pow_al al H) as PA.
  set (x := code + pos + (2 ^ al - 1)).
  assert (E : Z.land x (Z.lnot (2 ^ al - 1)) = x - x mod 2 ^ al).
  { rewrite <- Z.ldiff_land. replace (2 ^ al - 1) with (Z.ones al) by (rewrite Z.ones_equiv; lia).
    rewrite Z.ldiff_ones_r by lia. rewrite Z.shiftr_div_pow2, Z.shiftl_mul_pow2 by lia. pose proof (Z.div_mod x (2 ^ al) ltac:(lia)). lia. }
  rewrite E. pose proof (Z.mod_pos_bound x (2 ^ al) ltac:(lia)) as M1. pose proof (Z.div_mod x (2 ^ al) ltac:(lia)) as M2.
  assert ((- (code + pos)) mod 2 ^ al = x - x mod 2 ^ al - (code + pos)) as ->; [|rewrite Z2Nat.id; subst x; lia].
  symmetry. apply Z.mod_unique with (- (x / 2 ^ al)); subst x; [left; lia|lia].
Qed.

(** ** Sizes *)
Lemma mov_fit : forall L labs reg t e z pos, 0 <= pos <= e -> e <= 2 ^ 31 - 32 -> est_ok win labs e (OMov reg t) z -> labfs (labf L labs e z pos) (OMov reg t) ->
  zlen (fst (mov_gen win code eo L reg t pos)) <= z.
Proof.
  intros L labs reg t e z pos P E Es Lf. unfold mov_gen. cbn [est_ok labfs tgt] in *. unfold labfs in Lf. cbn [tgt] in Lf. destruct t as [n|a].
  - subst z. assert (D : exists d, sdiff (code + eo + lsz L n) (code + (pos + 10) + eo) = d /\ HMIN <= d <= HMAX).
    { exists (lsz L n - pos - 10). unfold HMIN, HMAX. destruct Lf as [[A B]|[A B]]; (split; [rewrite sdiff_small|]; lia). }
    destruct D as (d & -> & D1 & D2). apply Z.leb_le in D1, D2. rewrite D1, D2. cbn [andb]. destruct (_ <? _); destruct (8 <=? _); cbn; lia.
  - subst z. destruct (Z.leb_spec a 0xffffffff).
    + replace (0xffffffff <? a) with false by (symmetry; apply Z.ltb_ge; lia). destruct (8 <=? _); cbn; lia.
    + replace (0xffffffff <? a) with true by (symmetry; apply Z.ltb_lt; lia). destruct (_ && _); [destruct (8 <=? _)|]; cbn; lia.
Qed.
Lemma op_fit : forall nl L labs e z pos o, opok nl o -> 0 <= pos <= e -> e <= 2 ^ 31 - 32 -> est_ok win labs e o z -> labfs (labf L labs e z pos) o ->
  zlen (fst (opgen win code eo L e pos o)) <= z.
Proof.
  intros nl L labs e z pos o O P E Es Lf. destruct o as [bs| |m|k rw t|reg t|]; cbn [opgen est_ok] in *.
  - subst z. cbn [fst]. lia.
  - subst z. cbn. lia.
  - subst z. destruct O as (al & A & ->). cbn [fst]. rewrite align_ok by exact A. pose proof (pow_al al A). pose proof (Z.mod_pos_bound (- (code + pos)) (2 ^ al) ltac:(lia)). lia.
  - unfold gen_jump. cbn [jrewr]. destruct rw.
    + rewrite far_eq. cbn [fst]. rewrite farb_len. subst z. unfold farshort. cbn [negb andb]. destruct k; cbv [jump_max CJUMP_MAX JUMP_MAX]; lia.
    + rewrite near_eq. cbv zeta. destruct t as [n|a].
      * unfold labfs in Lf. cbn [tgt] in Lf. assert (Z0 : 2 <= z) by (destruct Es as [-> |(-> & _)]; [destruct k; cbn; lia|lia]).
        destruct (label_near L labs e z pos n P E Z0 Lf) as (d & D & D1 & D2 & _). rewrite !D by lia. unfold HMAX, HMIN.
        replace (0x7fffffff <? d - 6) with false by (symmetry; apply Z.ltb_ge; lia). replace (d - 5 <? -0x80000000) with false by (symmetry; apply Z.ltb_ge; lia). cbn [orb].
        unfold neargen. cbn [fst]. rewrite near_len. unfold isshort.
        destruct Es as [-> |(-> & K & Es)].
        { destruct k; cbn [nearsz]; try (destruct (_ && _)); lia. }
        specialize (D2 Es). replace (-128 <=? d - 2) with true by (symmetry; apply Z.leb_le; lia). replace (d - 2 <=? 127) with true by (symmetry; apply Z.leb_le; lia).
        destruct k; cbn [andb]; try lia; congruence.
      * match goal with |- context [if ?b then _ else _] => destruct b end.
        { rewrite far_eq. cbn [fst]. rewrite farb_len. subst z. unfold farshort. cbn [negb andb]. destruct k, (a <=? 0xffffffff); cbv [jump_max CJUMP_MAX JUMP_MAX]; lia. }
        unfold neargen. cbn [fst]. rewrite near_len. subst z. destruct (isshort _ _), k, (a <=? 0xffffffff); cbv [jump_max CJUMP_MAX JUMP_MAX nearsz]; lia.
  - pose proof (mov_fit L labs reg t e z pos P E Es Lf) as H. destruct (mov_gen win code eo L reg t pos) as [b p]. exact H.
  - subst z. cbn. lia.
Qed.

(** ** Final forms *)
Definition tadr (AL : list xlabel) (t : target) : Z := match t with TLabel n => laddr (nth n AL (mkXL 0 None 0)) | TAddr a => a end.
Inductive jfinal (k : jkind) (T pos : Z) : list Z -> Prop :=
| JNear : forall short next, (short = true -> k <> JCall) -> next = xpos code eo (pos + zlen (nins k short) + Z.of_nat (nsz short)) ->
    - 2 ^ (8 * Z.of_nat (nsz short) - 1) <= sdiff T next < 2 ^ (8 * Z.of_nat (nsz short) - 1) -> jfinal k T pos (nins k short ++ lebytes (nsz short) (T - next))
| JFar : forall short, (short = true -> T <= 0xffffffff) -> jfinal k T pos (farb k short T).
Inductive mfinal (reg T pos : Z) : list Z -> Prop :=
| MLea : forall next, next = xpos code eo (pos + 7) -> - 2 ^ 31 <= sdiff T next < 2 ^ 31 ->
    mfinal reg T pos ([if 8 <=? reg_map win reg then 0x4c else 0x48; 0x8d; 8 * reg_lmap win reg + 5] ++ lebytes 4 (T - next))
| MImm64 : mfinal reg T pos (load_imm64 win reg T)
| MImm32 : T <= 0xffffffff -> mfinal reg T pos ((if 8 <=? reg_map win reg then [0x41] else []) ++ [0xb8 + reg_lmap win reg] ++ lebytes 4 T).
(** The bytes written when the jump is patched are inside of its code. *)
Definition inside (pos : Z) (chunk : list Z) (j : xjump) : Prop :=
  let at_ := jaddr j - code - pos in
  if jmov j then (match jp j with PMD => 8 | _ => 4 end) <= at_ <= zlen chunk
  else match jp j with PNo => True | p => 0 <= at_ /\ at_ + (match p with PMD => 8 | PMB => 1 | _ => 4 end) <= zlen chunk end.
Lemma patch_local : forall AL j B chunk S, inside (zlen B) chunk j ->
  patch_jump code eo AL (B ++ chunk ++ S) j = B ++ patch_jump (code + zlen B) eo AL chunk j ++ S /\ length (patch_jump (code + zlen B) eo AL chunk j) = length chunk.
Proof.
  intros AL j B chunk S H. unfold inside in H. unfold patch_jump. cbv zeta. set (T := match jt j with TLabel n => _ | TAddr a => _ end). cbv zeta in H.
  assert (G : forall i bs, 0 <= i - zlen B -> i - zlen B + zlen bs <= zlen chunk ->
    putb (B ++ chunk ++ S) i bs = B ++ putb chunk (i - zlen B) bs ++ S /\ length (putb chunk (i - zlen B) bs) = length chunk).
  { intros i bs H1 H2. split; [|apply putb_len; assumption]. replace i with (zlen B + (i - zlen B)) at 1 by lia. rewrite putb_app by exact H1. f_equal. apply putb_pre; assumption. }
  assert (Z8 : forall v, zlen (lebytes 8 v) = 8) by reflexivity. assert (Z4 : forall v, zlen (lebytes 4 v) = 4) by reflexivity. assert (Z1 : forall v, zlen (lebytes 1 v) = 1) by reflexivity.
  destruct (jmov j).
  - destruct (jp j); [replace (jaddr j - (code + zlen B) - 4) with (jaddr j - code - 4 - zlen B) by lia|replace (jaddr j - (code + zlen B) - 4) with (jaddr j - code - 4 - zlen B) by lia
      |replace (jaddr j - (code + zlen B) - 4) with (jaddr j - code - 4 - zlen B) by lia|replace (jaddr j - (code + zlen B) - 8) with (jaddr j - code - 8 - zlen B) by lia];
      apply G; rewrite ?Z8, ?Z4, ?Z1; lia.
  - destruct (jp j); [split; reflexivity| | |]; replace (jaddr j - (code + zlen B)) with (jaddr j - code - zlen B) by lia; apply G; rewrite ?Z8, ?Z4, ?Z1; lia.
Qed.

(** What is known about the label [n] at the end. *)
Definition labf2 (L AL labs : list xlabel) (e z pos : Z) (n : nat) : Prop :=
  laddr (nth n AL (mkXL 0 None 0)) = code + lsz AL n + eo /\
  ((lsz L n = lsz AL n /\ 0 <= lsz AL n <= pos /\ pos - lsz AL n <= e - lsz labs n) \/
   (lsz L n = lsz labs n /\ e + z <= lsz labs n <= 2 ^ 31 - 32 /\ pos <= lsz AL n /\ lsz AL n - pos <= lsz labs n - e)).
Lemma labf2_labf : forall L AL labs e z pos n, labf2 L AL labs e z pos n -> labf L labs e z pos n.
Proof. intros L AL labs e z pos n [_ [(A & B & C)|(A & B & C & D)]]; [left|right]; lia. Qed.

Lemma near_final : forall AL k t short pos, (short = true -> k <> JCall) -> let T := tadr AL t in let next := xpos code eo (pos + zlen (nins k short) + Z.of_nat (nsz short)) in
  inside pos (fst (neargen k t short pos)) (snd (neargen k t short pos)) /\
  patch_jump (code + pos) eo AL (fst (neargen k t short pos)) (snd (neargen k t short pos)) = nins k short ++ lebytes (nsz short) (T - next).
Proof.
  intros AL k t short pos K T next. unfold neargen, inside, patch_jump. cbn [fst snd jaddr jmov jp jt]. fold (tadr AL t). fold T. split.
  - rewrite zlen_app. pose proof (zlen_nonneg (nins k short)). destruct short; cbn [nsz zeros repeat]; [change (zlen [0]) with 1|change (zlen [0; 0; 0; 0]) with 4]; lia.
  - replace (code + pos + zlen (nins k short) - (code + pos)) with (zlen (nins k short)) by lia. subst next. unfold xpos.
    rewrite <- (app_nil_r (zeros (nsz short))). destruct short; cbn [nsz].
    + rewrite putb_mid by reflexivity. rewrite app_nil_r. do 2 f_equal. lia.
    + rewrite putb_mid by reflexivity. rewrite app_nil_r. do 2 f_equal. lia.
Qed.
Lemma far_final : forall AL e k rewr t pos, let r := far_jump win code (mkXJ e k rewr false false t PNo) pos in
  inside pos (fst r) (snd r) /\ patch_jump (code + pos) eo AL (fst r) (snd r) = farb k (farshort rewr t) (tadr AL t).
Proof.
  intros AL e k rewr t pos r. subst r. rewrite far_eq. unfold inside, patch_jump. cbn [fst snd jaddr jmov jp jt]. destruct t as [n|a]; [|split; [exact I|reflexivity]].
  assert (SH : farshort rewr (TLabel n) = false) by (unfold farshort; apply andb_false_r). rewrite SH. split.
  - rewrite farb_len. destruct k; cbn; lia.
  - replace (code + pos + zlen (jinv k false) + 2 - (code + pos)) with (zlen (jinv k false ++ jmovb false)) by (rewrite zlen_app; change (zlen (jmovb false)) with 2; lia).
    unfold farb. rewrite !app_assoc. rewrite <- (app_assoc (jinv k false ++ jmovb false)). rewrite putb_mid by reflexivity. rewrite <- !app_assoc. reflexivity.
Qed.
Lemma jump_final : forall nl L AL labs e z pos k rewr t, opok nl (OJmp k rewr t) -> 0 <= pos <= e -> e <= 2 ^ 31 - 32 -> est_ok win labs e (OJmp k rewr t) z ->
  labfs (labf2 L AL labs e z pos) (OJmp k rewr t) ->
  let r := gen_jump win code eo L (mkXJ e k rewr false false t PNo) pos in
  let fin := patch_jump (code + pos) eo AL (fst r) (snd r) in
  inside pos (fst r) (snd r) /\ (~ bad_jump code eo k rewr t pos -> jfinal k (tadr AL t) pos fin)
  /\ (rewr = true -> fin = farb k false (tadr AL t) /\ jaddr (snd r) = code + pos + zlen (jinv k false) + 2).
Proof.
  intros nl L AL labs e z pos k rewr t O P E Es Lf r fin. subst fin r. unfold gen_jump. cbn [jrewr]. destruct rewr.
  - destruct (far_final AL e k true t pos) as [A B]. split; [exact A|]. rewrite B. split; [intros _; apply JFar; discriminate|].
    intros _. split; [reflexivity|]. rewrite far_eq. reflexivity.
  - rewrite near_eq. cbv zeta. destruct t as [n|a].
    + unfold labfs in Lf. cbn [tgt] in Lf. assert (Z0 : 2 <= z) by (destruct Es as [-> |(-> & _)]; [destruct k; cbn; lia|lia]).
      destruct (label_near L labs e z pos n P E Z0 (labf2_labf _ _ _ _ _ _ _ Lf)) as (d & D & D1 & D2 & D3). rewrite !D by lia. unfold HMAX, HMIN.
      replace (0x7fffffff <? d - 6) with false by (symmetry; apply Z.ltb_ge; lia). replace (d - 5 <? -0x80000000) with false by (symmetry; apply Z.ltb_ge; lia). cbn [orb].
      assert (K : isshort k (d - 2) = true -> k <> JCall) by (intros H ->; discriminate).
      destruct (near_final AL k (TLabel n) (isshort k (d - 2)) pos K) as [A B]. split; [exact A|]. split; [|discriminate]. intros _. rewrite B.
      apply JNear; [exact K|reflexivity|].
      destruct Lf as [La Lf]. cbn [tadr]. rewrite La. unfold xpos.
      assert (NB : zlen (nins k (isshort k (d - 2))) + Z.of_nat (nsz (isshort k (d - 2))) = if isshort k (d - 2) then 2 else nearsz k) by (destruct k, (isshort _ _); reflexivity).
      assert (N5 : 5 <= nearsz k <= 6) by (destruct k; cbn; lia).
      assert (Q : - 2 ^ 31 + 32 <= lsz AL n - pos <= 2 ^ 31 - 32 /\ (isshort k (d - 2) = true -> -126 <= lsz AL n - pos <= 129)).
      { split; [lia|]. intros H. assert (-126 <= d <= 129) by (unfold isshort in H; destruct k; try discriminate; apply andb_prop in H as [H1 H2]; apply Z.leb_le in H1, H2; lia). lia. }
      destruct Q as [Q1 Q2]. rewrite sdiff_small; destruct (isshort k (d - 2)); cbn [nsz] in *; change (Z.of_nat 1) with 1 in *; change (Z.of_nat 4) with 4 in *;
        change (2 ^ (8 * 1 - 1)) with 128; change (2 ^ (8 * 4 - 1)) with (2 ^ 31); try specialize (Q2 eq_refl); lia.
    + unfold bad_jump. match goal with |- context [if ?b then _ else _] => destruct b eqn:FB end.
      { destruct (far_final AL e k false (TAddr a) pos) as [A B]. split; [exact A|]. rewrite B. split; [|discriminate]. intros _. apply JFar. unfold farshort. cbn [negb andb tadr]. lia. }
      apply orb_false_iff in FB as [F6 F5]. apply Z.ltb_ge in F6, F5.
      assert (XX : forall i, sdiff (a - eo) (code + pos + i) = sdiff a (xpos code eo pos + i)) by (intros i; unfold sdiff, xpos; f_equal; lia).
      rewrite XX in *. set (short := isshort k (sdiff a (xpos code eo pos + 2))).
      assert (K : short = true -> k <> JCall) by (intros H ->; discriminate).
      destruct (near_final AL k (TAddr a) short pos K) as [A B]. split; [exact A|]. split; [|discriminate]. intros NB. rewrite B. apply JNear; [exact K|reflexivity|]. cbn [tadr].
      unfold HMAX, HMIN in *.
      destruct (Sumbool.sumbool_of_bool short) as [SH|SH]; rewrite SH; cbn [nsz].
      { change (Z.of_nat 1) with 1. change (2 ^ (8 * 1 - 1)) with 128. replace (zlen (nins k true)) with 1 by (destruct k; reflexivity).
        replace (xpos code eo (pos + 1 + 1)) with (xpos code eo pos + 2) by (unfold xpos; lia). unfold short, isshort in SH.
        destruct k; try discriminate; apply andb_prop in SH as [H1 H2]; apply Z.leb_le in H1, H2; lia. }
      change (Z.of_nat 4) with 4. change (2 ^ (8 * 4 - 1)) with (2 ^ 31).
      replace (xpos code eo (pos + zlen (nins k false) + 4)) with (xpos code eo pos + nearsz k) by (unfold xpos; destruct k; cbn; lia).
      pose proof (sdiff_range a (xpos code eo pos + 5)) as R5. pose proof (sdiff_range a (xpos code eo pos + 6)) as R6.
      assert (S6 : sdiff a (xpos code eo pos + 6) = sdiff a (xpos code eo pos + 5) - 1).
      { replace (xpos code eo pos + 6) with (xpos code eo pos + 5 + 1) by lia. apply sdiff_shift. lia. }
      destruct k; cbn [nearsz].
      * assert (sdiff a (xpos code eo pos + 5) <> -2147483648) by (intros H; apply NB; split; [reflexivity|exact H]). lia.
      * assert (sdiff a (xpos code eo pos + 6) <> 2147483647) by (intros H; apply NB; split; [reflexivity|exact H]). lia.
      * assert (sdiff a (xpos code eo pos + 6) <> 2147483647) by (intros H; apply NB; split; [reflexivity|exact H]). lia.
Qed.

(** ** Addresses *)
Lemma mov_final : forall nl L AL labs e z pos reg t, opok nl (OMov reg t) -> 0 <= pos <= e -> e <= 2 ^ 31 - 32 ->
  labfs (labf2 L AL labs e z pos) (OMov reg t) -> 0 <= z ->
  let r := mov_gen win code eo L reg t pos in
  let j := mkXJ (code + (pos + zlen (fst r))) JAlways false true (8 <=? reg_map win reg) t (snd r) in
  let fin := patch_jump (code + pos) eo AL (fst r) j in
  inside pos (fst r) j /\ (~ bad_mov code eo t pos -> mfinal reg (tadr AL t) pos fin).
Proof.
  intros nl L AL labs e z pos reg t O P E Lf Z0 r j fin. subst fin j r. unfold mov_gen, bad_mov. unfold inside, patch_jump. cbn [jaddr jmov jp jt]. fold (tadr AL t). set (T := tadr AL t).
  set (addr := match t with TLabel n => _ | TAddr a => _ end). set (diff := sdiff addr (code + (pos + 10) + eo)).
  assert (PB : forall (pre b : list Z) v k, length b = k -> putb (pre ++ b) (code + (pos + zlen (pre ++ b)) - (code + pos) - Z.of_nat k) (lebytes k v) = pre ++ lebytes k v).
  { intros pre b v k H. replace (code + (pos + zlen (pre ++ b)) - (code + pos) - Z.of_nat k) with (zlen pre) by (rewrite zlen_app; unfold zlen; lia).
    rewrite <- (app_nil_r b) at 1. rewrite putb_mid by (rewrite lebytes_length; exact H). rewrite app_nil_r. reflexivity. }
  assert (PB4 : forall (pre b : list Z) v, length b = 4%nat -> putb (pre ++ b) (code + (pos + zlen (pre ++ b)) - (code + pos) - 4) (lebytes 4 v) = pre ++ lebytes 4 v) by (intros; apply (PB pre b v 4%nat); assumption).
  assert (PB8 : forall (pre b : list Z) v, length b = 8%nat -> putb (pre ++ b) (code + (pos + zlen (pre ++ b)) - (code + pos) - 8) (lebytes 8 v) = pre ++ lebytes 8 v) by (intros; apply (PB pre b v 8%nat); assumption).
  clear PB. destruct (0xffffffff <? addr) eqn:BA.
  - apply Z.ltb_lt in BA. destruct ((diff <=? HMAX) && (HMIN <=? diff)) eqn:DD; cbn [fst snd].
    + apply andb_prop in DD as [D1 D2]. apply Z.leb_le in D1, D2. split.
      { rewrite zlen_app. change (zlen (zeros 4)) with 4. change (zlen [if 8 <=? reg_map win reg then 76 else 72; 141; 8 * reg_lmap win reg + 5]) with 3. lia. }
      intros NB. rewrite PB4 by reflexivity. rewrite zlen_app. change (zlen (zeros 4)) with 4. change (zlen [if 8 <=? reg_map win reg then 76 else 72; 141; 8 * reg_lmap win reg + 5]) with 3.
      replace (T - (code + (pos + (3 + 4)) + eo)) with (T - xpos code eo (pos + 7)) by (unfold xpos; lia). apply MLea; [reflexivity|].
      unfold HMAX, HMIN in *. destruct t as [n|a].
      * unfold labfs in Lf. cbn [tgt] in Lf. destruct Lf as [La Lf]. subst T. cbn [tadr]. rewrite La. unfold xpos. rewrite sdiff_small; lia.
      * subst T addr. cbn [tadr]. subst diff. replace (code + (pos + 10) + eo) with (xpos code eo pos + 10) in * by (unfold xpos; lia).
        assert (~ (2147483647 - 3 < sdiff a (xpos code eo pos + 10))) by (intros H; apply NB; lia).
        replace (xpos code eo (pos + 7)) with (xpos code eo pos + 10 + (-3)) by (unfold xpos; lia). rewrite sdiff_shift; lia.
    + split; [change (zlen (load_imm64 win reg 0)) with 10; lia|]. intros _. unfold load_imm64 at 1 2.
      set (pre := [if reg_map win reg <=? 7 then REX_W else Z.lor REX_W REX_B; u8 (Z.lor 184 (reg_lmap win reg))]).
      change ((if reg_map win reg <=? 7 then REX_W else Z.lor REX_W REX_B) :: u8 (Z.lor 184 (reg_lmap win reg)) :: lebytes 8 0) with (pre ++ lebytes 8 0).
      rewrite PB8 by reflexivity. apply MImm64.
  - apply Z.ltb_ge in BA. cbn [fst snd].
    assert (TB : T <= 0xffffffff).
    { destruct t as [n|a]; [|exact BA]. unfold labfs in Lf. cbn [tgt] in Lf. destruct Lf as [La Lf]. subst T addr. cbn [tadr]. rewrite La. lia. }
    split.
    { destruct (8 <=? reg_map win reg); rewrite !zlen_app, ?zlen_cons, ?zlen_nil; change (zlen (zeros 4)) with 4; lia. }
    intros _. pose proof (MImm32 reg T pos TB) as M. destruct (8 <=? reg_map win reg); rewrite PB4 by reflexivity; exact M.
Qed.
End Fit.
