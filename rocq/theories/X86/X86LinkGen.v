(** Proofs about the x86-64 code generator: the loop over the buffer, operation by operation. *)
Require Import ZArith List Bool Lia.
From Verif Require Import Rv.RvLib Rv.RvIsa X86.X86Isa X86.X86Emit X86.X86Spec X86.X86OpSpec X86.X86Cond X86.X86Enc X86.X86Link X86.X86LinkSpec X86.X86LinkOps X86.X86LinkRed.
Import ListNotations.
Ltac Zify.zify_post_hook ::= idtac.
Open Scope Z_scope.

(** ** Byte lists *)
Lemma to_nat_zlen {A} (l : list A) : Z.to_nat (zlen l) = length l.
Proof. unfold zlen. apply Nat2Z.id. Qed.
Lemma getb_app : forall B l i, 0 <= i -> getb (B ++ l) (zlen B + i) = getb l i.
Proof.
  intros B l i H. unfold getb. rewrite Z2Nat.inj_add, to_nat_zlen by (try apply zlen_nonneg; lia).
  rewrite app_nth2 by lia. f_equal. lia.
Qed.
Lemma firstn_zapp : forall (B l : list Z) i, 0 <= i -> firstn (Z.to_nat (zlen B + i)) (B ++ l) = B ++ firstn (Z.to_nat i) l.
Proof.
  intros B l i H. rewrite Z2Nat.inj_add, to_nat_zlen by (try apply zlen_nonneg; lia). rewrite firstn_app_2. reflexivity.
Qed.
Lemma putb_app : forall B l i bs, 0 <= i -> putb (B ++ l) (zlen B + i) bs = B ++ putb l i bs.
Proof.
  intros B l i bs H. unfold putb. rewrite firstn_zapp by lia. rewrite <- app_assoc. do 3 f_equal.
  rewrite Z2Nat.inj_add, to_nat_zlen by (try apply zlen_nonneg; lia). rewrite skipn_app. rewrite skipn_all2 by lia. cbn [app]. f_equal. lia.
Qed.
Lemma putb_pre : forall l S i bs, 0 <= i -> i + zlen bs <= zlen l -> putb (l ++ S) i bs = putb l i bs ++ S.
Proof.
  intros l S i bs H1 H2. unfold zlen in *. unfold putb. rewrite firstn_app. replace (Z.to_nat i - length l)%nat with 0%nat by lia. cbn [firstn]. rewrite app_nil_r.
  rewrite skipn_app. replace (Z.to_nat i + length bs - length l)%nat with 0%nat by lia. cbn [skipn]. rewrite <- !app_assoc. reflexivity.
Qed.
Lemma putb_len : forall l i bs, 0 <= i -> i + zlen bs <= zlen l -> length (putb l i bs) = length l.
Proof. intros l i bs H1 H2. unfold zlen in *. unfold putb. rewrite !app_length, firstn_length, skipn_length. lia. Qed.
Lemma putb_mid : forall a b c bs, length b = length bs -> putb (a ++ b ++ c) (zlen a) bs = a ++ bs ++ c.
Proof.
  intros a b c bs H. pose proof (putb_app a (b ++ c) 0 bs ltac:(lia)) as E. rewrite Z.add_0_r in E. rewrite E. f_equal. unfold putb. cbn [Z.to_nat firstn app plus].
  rewrite <- H. rewrite skipn_app, skipn_all, Nat.sub_diag. reflexivity.
Qed.

Section Gen.
Variables (win : bool) (code eo : Z).
Notation jmps_at := (jmps_at win).

(** ** The code of an operation *)
Definition zeros (k : nat) : list Z := repeat 0 k.
Definition mov_gen (L : list xlabel) (reg : Z) (t : target) (pos : Z) : list Z * patch :=
  let addr := match t with TAddr a => a | TLabel n => code + eo + lsz L n end in
  let hi := 8 <=? reg_map win reg in
  if 0xffffffff <? addr then
    let diff := sdiff addr (code + (pos + 10) + eo) in
    if (diff <=? HMAX) && (HMIN <=? diff) then ([if hi then 0x4c else 0x48; 0x8d; 8 * reg_lmap win reg + 5] ++ zeros 4, PMW)
    else (load_imm64 win reg 0, PMD)
  else (if hi then [0x41; 0xb8 + reg_lmap win reg] ++ zeros 4 else [0xb8 + reg_lmap win reg] ++ [0xb8 + reg_lmap win reg; 0; 0; 0], PNo).
Definition opgen (L : list xlabel) (e pos : Z) (o : op) : list Z * list xjump :=
  match o with
  | OIns bs => (bs, [])
  | OLab | OConst => ([], [])
  | OAl m => (align_pad code m pos, [])
  | OJmp k rewr t => let (b, j) := gen_jump win code eo L (mkXJ e k rewr false false t PNo) pos in (b, [j])
  | OMov reg t => let (b, p) := mov_gen L reg t pos in (b, [mkXJ (code + (pos + zlen b)) JAlways false true (8 <=? reg_map win reg) t p])
  end.
Definition alab (pos : Z) (o : op) (chunk : list Z) : list xlabel :=
  match o with
  | OLab => [mkXL pos None (code + pos + eo)]
  | OAl m => [mkXL (pos + zlen chunk) (Some m) (code + (pos + zlen chunk) + eo)]
  | _ => []
  end.
Definition aconst (pos : Z) (o : op) : list Z := match o with OConst => [code + pos] | _ => [] end.
(** The rest of the code: for each operation its code and jump. *)
Fixpoint lay (gld : list xlabel) (e pos : Z) (ops : list op) (szs : list Z) : list (list Z * list xjump) :=
  match ops, szs with
  | o :: ops', z :: szs' =>
    let r := opgen (gld ++ labs_at e (o :: ops') (z :: szs')) e pos o in
    r :: lay (gld ++ alab pos o (fst r)) (e + z) (pos + zlen (fst r)) ops' szs'
  | _, _ => []
  end.
Fixpoint alabs (pos : Z) (ops : list op) (ly : list (list Z * list xjump)) : list xlabel :=
  match ops, ly with o :: ops, r :: ly => alab pos o (fst r) ++ alabs (pos + zlen (fst r)) ops ly | _, _ => [] end.
Fixpoint aconsts (pos : Z) (ops : list op) (ly : list (list Z * list xjump)) : list Z :=
  match ops, ly with o :: ops, r :: ly => aconst pos o ++ aconsts (pos + zlen (fst r)) ops ly | _, _ => [] end.
Fixpoint atop (top pos : Z) (ops : list op) (ly : list (list Z * list xjump)) : Z :=
  match ops, ly with
  | o :: ops, r :: ly =>
    atop (match o with OConst => top | OMov _ _ => Z.max top (pos + 10) | _ => Z.max top (pos + zlen (fst r)) end) (pos + zlen (fst r)) ops ly
  | _, _ => top
  end.
Definition bytes (ly : list (list Z * list xjump)) : list Z := concat (map fst ly).
Definition jumps (ly : list (list Z * list xjump)) : list xjump := concat (map snd ly).

(** ** The loop *)
Lemma mov_code : forall L reg t j B, isreg reg -> reg <> 0 -> jt j = t ->
  mov_addr_code code eo L j (B ++ load_imm64 win reg 0) = (B ++ fst (mov_gen L reg t (zlen B)), snd (mov_gen L reg t (zlen B))).
Proof.
  intros L reg t j B R R0 J. unfold mov_addr_code, mov_gen. rewrite J. set (addr := match t with TLabel n => _ | TAddr a => _ end).
  assert (LL : zlen (load_imm64 win reg 0) = 10) by reflexivity. rewrite zlen_app, LL.
  destruct (0xffffffff <? addr).
  - destruct ((sdiff addr (code + (zlen B + 10) + eo) <=? HMAX) && (HMIN <=? sdiff addr (code + (zlen B + 10) + eo))); [|reflexivity].
    cbn [fst snd]. f_equal. replace (zlen B + 10 - 3 - 7) with (zlen B + 0) by lia. replace (zlen B + 10 - 3 - 6) with (zlen B + 1) by lia.
    replace (zlen B + 10 - 3) with (zlen B + 7) by lia. rewrite !getb_app by lia. rewrite putb_app by lia. rewrite firstn_zapp by lia. f_equal.
    clear - R R0. destruct win; unfold isreg in R;
      assert (reg = 1 \/ reg = 2 \/ reg = 3 \/ reg = 4 \/ reg = 5 \/ reg = 6 \/ reg = 7 \/ reg = 8 \/ reg = 9 \/ reg = 10 \/ reg = 11 \/ reg = 12 \/ reg = 13 \/ reg = 14 \/ reg = 15 \/ reg = 16) as H by lia;
      decompose [or] H; subst reg; vm_compute; reflexivity.
  - replace (zlen B + 10 - 10) with (zlen B + 0) by lia. rewrite getb_app by lia. replace (zlen B + 0 + 1) with (zlen B + 1) by lia. rewrite getb_app by lia.
    replace (zlen B + 0 + 6) with (zlen B + 6) by lia. replace (zlen B + 0 + 5) with (zlen B + 5) by lia. rewrite !putb_app by lia. rewrite !firstn_zapp by lia. cbn [fst snd].
    match goal with |- (if ?b then (B ++ ?x, PNo) else (B ++ ?y, PNo)) = (B ++ ?z, PNo) => assert (H : (if b then x else y) = z); [|rewrite <- H; destruct b; reflexivity] end.
    clear - R R0. destruct win; unfold isreg in R;
      assert (reg = 1 \/ reg = 2 \/ reg = 3 \/ reg = 4 \/ reg = 5 \/ reg = 6 \/ reg = 7 \/ reg = 8 \/ reg = 9 \/ reg = 10 \/ reg = 11 \/ reg = 12 \/ reg = 13 \/ reg = 14 \/ reg = 15 \/ reg = 16) as H by lia;
      decompose [or] H; subst reg; vm_compute; reflexivity.
Qed.
Lemma gen_app : forall a g b, gen_items win code eo g (a ++ b) = match gen_items win code eo g a with Some g' => gen_items win code eo g' b | None => None end.
Proof. induction a as [|i a IH]; intros g b; [reflexivity|]. cbn [app gen_items]. destruct (gen_item win code eo g i); [apply IH|reflexivity]. Qed.
Lemma gen_walk : forall nl ops szs e B top gld gjd gc, Forall (opok nl) ops -> length ops = length szs ->
  gen_items win code eo (mkG B top gld (labs_at e ops szs) gjd (jmps_at e ops szs) gc) (flat_map (item_of win) ops) =
  let ly := lay gld e (zlen B) ops szs in
  Some (mkG (B ++ bytes ly) (atop top (zlen B) ops ly) (gld ++ alabs (zlen B) ops ly) [] (gjd ++ jumps ly) [] (gc ++ aconsts (zlen B) ops ly)).
Proof.
  intros nl ops. induction ops as [|o ops IH]; intros szs e B top gld gjd gc F L.
  - cbn. rewrite !app_nil_r. destruct szs; [|discriminate]. reflexivity.
  - destruct szs as [|z szs]; [discriminate|]. apply Forall_cons_iff in F as [Fo F]. cbn [flat_map]. rewrite gen_app. cbv zeta.
    cbn [lay]. set (r := opgen (gld ++ labs_at e (o :: ops) (z :: szs)) e (zlen B) o).
    assert (G : gen_items win code eo (mkG B top gld (labs_at e (o :: ops) (z :: szs)) gjd (jmps_at e (o :: ops) (z :: szs)) gc) (item_of win o) =
      Some (mkG (B ++ fst r) (match o with OConst => top | OMov _ _ => Z.max top (zlen B + 10) | _ => Z.max top (zlen B + zlen (fst r)) end)
        (gld ++ alab (zlen B) o (fst r)) (labs_at (e + z) ops szs) (gjd ++ snd r) (jmps_at (e + z) ops szs) (gc ++ aconst (zlen B) o))).
    { destruct o as [bs| |m|k rw t|reg t|]; cbn [item_of]; subst r.
      - cbn [opgen fst snd alab aconst gen_items gen_item gb gtop X86Link.gld glt X86Link.gjd gjt X86Link.gc X86LinkOps.labs_at lab_of X86LinkOps.jmps_at jmp_of app]. rewrite !app_nil_r. reflexivity.
      - cbn [opgen fst snd alab aconst gen_items gen_item gb gtop X86Link.gld glt X86Link.gjd gjt X86Link.gc X86LinkOps.labs_at lab_of X86LinkOps.jmps_at jmp_of app lmask]. rewrite !app_nil_r.
        replace (zlen []) with 0 by reflexivity. rewrite Z.add_0_r. reflexivity.
      - cbn [opgen fst snd alab aconst gen_items gen_item gb gtop X86Link.gld glt X86Link.gjd gjt X86Link.gc X86LinkOps.labs_at lab_of X86LinkOps.jmps_at jmp_of app lmask]. rewrite !app_nil_r.
        rewrite zlen_app. reflexivity.
      - set (L0 := gld ++ labs_at e (OJmp k rw t :: ops) (z :: szs)). cbn [gen_items gen_item gb gtop X86Link.gld glt X86Link.gjd gjt X86Link.gc X86LinkOps.jmps_at jmp_of app]. fold L0.
        cbn [opgen alab aconst]. destruct (gen_jump win code eo L0 _ (zlen B)) as [b j]. cbn [fst snd]. rewrite !app_nil_r. reflexivity.
      - set (L0 := gld ++ labs_at e (OMov reg t :: ops) (z :: szs)). cbn [gen_items gen_item gb gtop X86Link.gld glt X86Link.gjd gjt X86Link.gc X86LinkOps.jmps_at jmp_of app]. fold L0.
        destruct Fo as (R & R0 & _). rewrite (mov_code L0 reg t) by (try exact R; try exact R0; reflexivity).
        cbn [opgen alab aconst]. destruct (mov_gen L0 reg t (zlen B)) as [b p]. cbn [fst snd jk jrewr jmov jhi jt]. rewrite !app_nil_r, zlen_app. reflexivity.
      - cbn [opgen fst snd alab aconst gen_items gen_item gb gtop X86Link.gld glt X86Link.gjd gjt X86Link.gc X86LinkOps.labs_at lab_of X86LinkOps.jmps_at jmp_of app]. rewrite !app_nil_r. reflexivity. }
    rewrite G. rewrite IH by (try exact F; cbn in L; lia). cbv zeta. cbn [alabs atop aconsts]. unfold bytes, jumps. cbn [map concat].
    rewrite zlen_app, <- !app_assoc. reflexivity.
Qed.
End Gen.
