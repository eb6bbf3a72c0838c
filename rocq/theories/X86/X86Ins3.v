(** The effect of each emitted instruction, continued: moves of 8, 16 and 32 bits, bit counts, conditional moves, byte swaps, double shifts. *)
Require Import ZArith List Bool Lia.
From Verif Require Import Rv.RvLib Rv.RvIsa Rv.RvMem Rv.RvMemProofs Rv.RvEmitOp1 X86.X86Isa X86.X86Emit X86.X86Spec X86.X86Enc X86.X86EncTop X86.X86OpSpec X86.X86Op X86.X86Ins X86.X86Ins2.
Import ListNotations.
Ltac Zify.zify_post_hook ::= idtac.
Open Scope Z_scope.

(** ** Decoding *)
Lemma byte_ok_P : forall x o, rP x = true -> byte_ok x o = true. Proof. intros x o H. unfold byte_ok. rewrite H. destruct o; reflexivity. Qed.
Definition mx_op (sg : bool) (from : Z) : Z := if from =? 8 then (if sg then 0xbe else 0xb6) else (if sg then 0xbf else 0xb7).
Lemma dec_movx : forall sg from x, from = 8 \/ from = 16 -> rW x = true -> rP x = true ->
  dec_as PNone true (mx_op sg from) x (fun r o l => Some (XMovx sg from 64 r o, l)).
Proof.
  intros sg from x F H P l. destruct F as [F|F]; subst from; unfold mx_op; cbn [Z.eqb Pos.eqb]; destruct sg;
    cbv beta iota zeta delta [decode1 decode2]; unfold osize; rewrite H; destruct (modrm x l) as [((?, ?), ?)|]; cbn; rewrite ?byte_ok_P by exact P; reflexivity.
Qed.
Lemma dec_88 : forall x, rP x = true -> dec_as PNone false 0x88 x (fun r o l => Some (XMov 8 o (OR r), l)).
Proof.
  intros x P l. cbv beta iota zeta delta [decode1 decode2]. destruct (modrm x l) as [((?, ?), ?)|]; cbn; rewrite ?byte_ok_P by exact P; rewrite ?P; reflexivity.
Qed.
Lemma dec_c6 : forall x, dec_as PNone false 0xc6 x (fun r o l =>
  if (r mod 8 =? 0) && byte_ok x o then match sle 1 l with Some (v, l) => Some (XMov 8 o (OI v), l) | None => None end else None).
Proof. intros x l. cbv beta iota zeta delta [decode1 decode2]. destruct (modrm x l) as [((?, ?), ?)|]; reflexivity. Qed.
Lemma dec_66_89 : forall x, rW x = false -> dec_as P66 false 0x89 x (fun r o l => Some (XMov 16 o (OR r), l)).
Proof. intros x H l. cbv beta iota zeta delta [decode1 decode2]. unfold osize. rewrite H. destruct (modrm x l) as [((?, ?), ?)|]; reflexivity. Qed.
Lemma dec_66_c7 : forall x, rW x = false -> dec_as P66 false 0xc7 x (fun r o l =>
  if r mod 8 =? 0 then match sle 2 l with Some (v, l) => Some (XMov 16 o (OI v), l) | None => None end else None).
Proof. intros x H l. cbv beta iota zeta delta [decode1 decode2]. unfold osize. rewrite H. destruct (modrm x l) as [((?, ?), ?)|]; reflexivity. Qed.
Lemma dec_bs : forall (f3 : bool) (clz : bool) m x, rW x = negb m -> dec_as (if f3 then PF3 else PNone) true (if clz then 0xbd else 0xbc) x (fun r o l =>
  Some ((if f3 then (if clz then XLzcnt (size_of m) r o else XTzcnt (size_of m) r o) else (if clz then XBsr (size_of m) r o else XBsf (size_of m) r o)), l)).
Proof. intros f3 clz m x H. destruct f3, clz; dec_tac. Qed.
Lemma dec_cmov : forall cc m x, 0 <= cc < 16 -> rW x = negb m -> dec_as PNone true (0x40 + cc) x (fun r o l => Some (XCmov cc (size_of m) r o, l)).
Proof.
  intros cc m x C H l. cbv beta iota zeta delta [decode2]. rewrite (osize_of _ x m H) by auto.
  replace ((0x40 + cc) / 16) with 4 by (apply Z.div_unique with cc; lia). replace ((0x40 + cc) mod 16) with cc by (apply Z.mod_unique with 4; lia).
  destruct (modrm x l) as [((?, ?), ?)|]; reflexivity.
Qed.

(** ** Memory destinations of any size *)
Lemma mem_wr : forall w f base offs immb opn n s v, same_operand w f (AMem base offs) immb opn -> xwf s ->
  exists s', wro n (after_pre w (AMem base offs) immb s) opn v = Some s' /\ wrote w n (ftmp (AMem base offs) immb) s (AMem base offs) immb v s' /\ flags_same s s' /\ xwf s'.
Proof.
  intros w f base offs immb opn n s v H W. set (b := AMem base offs) in *. destruct (after_pre_same w b immb s) as (M & F1 & F2 & F3 & F4).
  destruct opn as [r'|e|v']; simpl in H; try contradiction.
  cbn [wro]. eexists. split; [reflexivity|]. split; [|split].
  - unfold b. cbn [wrote setmem xm]. fold b. split.
    + rewrite M. apply store_cong. specialize (H s). rewrite H, wrap_wrap. reflexivity.
    + intros q Q I. cbn [setmem xr]. apply after_pre_reg; auto.
  - repeat split; assumption.
  - apply xwf_setmem. apply after_pre_wf. exact W.
Qed.

Section U.
Variables (u : Z) (w : bool).
Lemma movx_ok : forall sg from r b immb s, from = 8 \/ from = 16 -> 1 <= r <= 16 -> gop b immb -> xwf s ->
  does u (groupf w false false (mx_op sg from) r b immb) s (fun s' =>
    wrote w 64 (ftmp b immb) s (AReg r) 0 (if sg then sext from (xval w from s b immb) else xval w from s b immb) s' /\ flags_same s s').
Proof.
  intros sg from r b immb s F R (G & G0) W.
  destruct (ins_groupf u w false false (mx_op sg from) r b immb (fun r o l => Some (XMovx sg from 64 r o, l))) as (l & opn & E & S & RUN); auto.
  { unfold isreg; lia. } { intros x H P. apply dec_movx; auto. }
  pose proof (same_rd w _ b immb opn from s S eq_refl) as V.
  destruct (reg_wrote' w false b immb s r (if sg then sext from (xval w from s b immb) else xval w from s b immb) R W) as (s1 & W1 & W2 & W3 & W4).
  exists l. split; [exact E|]. exists s1. split; [|auto]. eapply RUN; [intros; reflexivity|exact Logic.I|]. cbn [exec]. rewrite V. exact W1.
Qed.
Lemma movsxd_ok : forall r b immb s, 1 <= r <= 16 -> gop b immb -> xwf s ->
  does u (ins w false (fl 1) 0x63 (AReg r) 0 b immb) s (fun s' =>
    wrote w 64 (ftmp b immb) s (AReg r) 0 (sext 32 (xval w 32 s b immb)) s' /\ flags_same s s').
Proof.
  intros r b immb s R (G & G0) W.
  destruct (ins_reg u w false 0x63 r b immb _ ltac:(unfold isreg; lia) G ltac:(opb) ltac:(discriminate) (dec_movsxd false)) as (l & opn & E & S & RUN).
  pose proof (same_rd w _ b immb opn 32 s S eq_refl) as V.
  destruct (reg_wrote' w false b immb s r (sext 32 (xval w 32 s b immb)) R W) as (s1 & W1 & W2 & W3 & W4).
  exists l. split; [exact E|]. exists s1. split; [|auto]. eapply RUN; [intros; reflexivity|exact Logic.I|]. cbn [exec]. rewrite V. exact W1.
Qed.
(** Stores of 8 and 16 bits *)
Lemma store8_ok : forall r base offs immb s, okr (AMem base offs) immb r -> genop (AMem base offs) immb -> xwf s ->
  does u (ins w false (with_norexw (with_rex (fl 1))) 0x88 (AReg r) 0 (AMem base offs) immb) s (fun s' =>
    wrote w 8 (ftmp (AMem base offs) immb) s (AMem base offs) immb (xr s (reg_map w r) mod 2 ^ 8) s' /\ flags_same s s').
Proof.
  intros r base offs immb s K G W. set (f := with_norexw (with_rex (fl 1))).
  destruct (ins_run u w false f (AReg r) 0 (AMem base offs) immb false 0x88 0 [] (fun r o l => Some (XMov 8 o (OR r), l))) as (o & opn & E & S & F & RUN).
  - unfold flags_ok, f. cbn. repeat split; auto; try lia; try (intros (A & B); discriminate); intros [A|A]; discriminate.
  - simpl. split; [eapply okr_isreg; eauto|discriminate].
  - exact G.
  - split; [lia|auto].
  - intros _. split; [opb|discriminate].
  - intros x H P. apply dec_88. apply P. unfold f. cbn. apply orb_true_r.
  - exists (put1 0x88 o). split. { unfold ins. rewrite E. reflexivity. }
    destruct (mem_wr w f base offs immb opn 8 s (xr s (reg_map w r) mod 2 ^ 8) S W) as (s1 & W1 & W2 & W3 & W4).
    exists s1. split; [|auto]. rewrite <- bytes_put1. eapply RUN; [intros rest; reflexivity|exact Logic.I|].
    cbn [exec]. replace (want_reg w f (AReg r) + 0) with (reg_map w r) by (unfold f; cbn; lia). rewrite rd_reg by exact K. exact W1.
Qed.
Lemma store16_ok : forall r base offs immb s, okr (AMem base offs) immb r -> genop (AMem base offs) immb -> xwf s ->
  does u (ins w false (with_66 (with_norexw (fl 1))) 0x89 (AReg r) 0 (AMem base offs) immb) s (fun s' =>
    wrote w 16 (ftmp (AMem base offs) immb) s (AMem base offs) immb (xr s (reg_map w r) mod 2 ^ 16) s' /\ flags_same s s').
Proof.
  intros r base offs immb s K G W. set (f := with_66 (with_norexw (fl 1))).
  destruct (ins_run u w false f (AReg r) 0 (AMem base offs) immb false 0x89 0 [] (fun r o l => Some (XMov 16 o (OR r), l))) as (o & opn & E & S & F & RUN).
  - unfold flags_ok, f. cbn. repeat split; auto; try lia; try (intros (A & B); discriminate); intros [A|A]; discriminate.
  - simpl. split; [eapply okr_isreg; eauto|discriminate].
  - exact G.
  - split; [lia|auto].
  - intros _. split; [opb|discriminate].
  - intros x H P. apply dec_66_89. exact H.
  - exists (put1 0x89 o). split. { unfold ins. rewrite E. reflexivity. }
    destruct (mem_wr w f base offs immb opn 16 s (xr s (reg_map w r) mod 2 ^ 16) S W) as (s1 & W1 & W2 & W3 & W4).
    exists s1. split; [|auto]. rewrite <- bytes_put1. eapply RUN; [intros rest; reflexivity|exact Logic.I|].
    cbn [exec]. replace (want_reg w f (AReg r) + 0) with (reg_map w r) by (unfold f; cbn; lia). rewrite rd_reg by exact K. exact W1.
Qed.
(** ins_run, when the decoding depends on the REX prefix (byte operands). *)
Lemma ins_run_x : forall m f a imma b immb op (mk : X86Isa.rex -> Z -> opd -> list Z -> option (instr * list Z)),
  flags_ok f -> firstop m f a imma -> genop b immb -> opbyte op -> op <> 0x0f -> (forall x, dec_as (want_pfx f) false op x (mk x)) ->
  exists o opn, emit_x86 w m f a imma b immb = Some o /\ same_operand w f b immb opn
    /\ forall s s' i, (forall x rest, mk x (want_reg w f a) opn (lebytes (imm_size f a imma) imma ++ rest) = Some (i, rest)) -> notj i ->
         exec u (after_pre w b immb s) i = Some s' -> runs u (put1 op o) s s'.
Proof.
  intros m f a imma b immb op mk FO AO G O1 O2 DE.
  destruct (emit_x86_ok w m f a imma b immb FO AO G) as (o & x & opn & E & EN). destruct EN.
  exists o, opn. split; [exact E|]. split; [exact en_op|].
  intros s s' i MK NJ EX. rewrite <- bytes_put1. unfold bytes_of. rewrite en_pre.
  eapply runs_app; [apply pre_runs|].
  eapply runs_instr; [|apply notj_ok; exact NJ|exact EX].
  intros rest. rewrite <- !app_assoc. change (decode (o_head o ++ (op :: or_hd (8 * 0) (o_tail o) ++ ([] ++ rest))) = Some (i, rest)).
  rewrite en_dec by exact O1. unfold decop. destruct (Z.eqb_spec op 15); [contradiction|].
  rewrite (DE x). rewrite en_rm by (split; [lia|auto]). rewrite Z.add_0_r. apply MK.
Qed.
Lemma storei8_ok : forall imm base offs immb s, - 2 ^ 31 <= imm < 2 ^ 31 -> genop (AMem base offs) immb -> xwf s ->
  does u (ins w false (with_norexw (with_byte (fl 1))) 0xc6 AImm imm (AMem base offs) immb) s (fun s' =>
    wrote w 8 (ftmp (AMem base offs) immb) s (AMem base offs) immb imm s' /\ flags_same s s').
Proof.
  intros imm base offs immb s K G W. set (f := with_norexw (with_byte (fl 1))).
  destruct (ins_run_x false f AImm imm (AMem base offs) immb 0xc6 (fun x r o l =>
    if (r mod 8 =? 0) && byte_ok x o then match sle 1 l with Some (v, l) => Some (XMov 8 o (OI v), l) | None => None end else None)) as (o & opn & E & S & RUN).
  - unfold flags_ok, f. cbn. repeat split; auto; try lia; try (intros (A & B); discriminate); intros [A|A]; discriminate.
  - simpl. auto.
  - exact G.
  - opb.
  - discriminate.
  - intros x. apply dec_c6.
  - exists (put1 0xc6 o). split. { unfold ins. rewrite E. reflexivity. }
    destruct (mem_wr w f base offs immb opn 8 s imm S W) as (s1 & W1 & W2 & W3 & W4).
    exists s1. split; [|auto]. eapply RUN with (i := XMov 8 opn (OI (sext 8 imm))); [|exact Logic.I|].
    + intros x rest. change (want_reg w f AImm mod 8 =? 0) with true. change (imm_size f AImm imm) with 1%nat. rewrite sle_app by lia.
      destruct opn; try contradiction. reflexivity.
    + cbn [exec rdo]. rewrite sext_mod_le by lia. rewrite <- W1. destruct opn; try contradiction. cbn [wro]. rewrite Z.mod_mod by (vm_compute; discriminate). reflexivity.
Qed.
Lemma storei16_ok : forall imm base offs immb s, - 2 ^ 31 <= imm < 2 ^ 31 -> genop (AMem base offs) immb -> xwf s ->
  does u (ins w false (with_66 (with_norexw (with_half (fl 1)))) 0xc7 AImm imm (AMem base offs) immb) s (fun s' =>
    wrote w 16 (ftmp (AMem base offs) immb) s (AMem base offs) immb imm s' /\ flags_same s s').
Proof.
  intros imm base offs immb s K G W. set (f := with_66 (with_norexw (with_half (fl 1)))).
  destruct (ins_run u w false f AImm imm (AMem base offs) immb false 0xc7 0 [] (fun r o l =>
    if r mod 8 =? 0 then match sle 2 l with Some (v, l) => Some (XMov 16 o (OI v), l) | None => None end else None)) as (o & opn & E & S & F & RUN).
  - unfold flags_ok, f. cbn. repeat split; auto; try lia; try (intros (A & B); discriminate); intros [A|A]; discriminate.
  - simpl. auto.
  - exact G.
  - split; [lia|auto].
  - intros _. split; [opb|discriminate].
  - intros x H P. apply dec_66_c7. exact H.
  - exists (put1 0xc7 o). split. { unfold ins. rewrite E. reflexivity. }
    destruct (mem_wr w f base offs immb opn 16 s imm S W) as (s1 & W1 & W2 & W3 & W4).
    exists s1. split; [|auto]. rewrite <- bytes_put1. eapply RUN with (i := XMov 16 opn (OI (sext 16 imm))); [|exact Logic.I|].
    + intros rest. change ((want_reg w f AImm + 0) mod 8 =? 0) with true. change (imm_size f AImm imm) with 2%nat. cbn [app]. rewrite sle_app by lia. reflexivity.
    + cbn [exec rdo]. rewrite sext_mod_le by lia. rewrite <- W1. destruct opn; try contradiction. cbn [wro]. rewrite Z.mod_mod by (vm_compute; discriminate). reflexivity.
Qed.
End U.

(** The bytes of BSWAP, X86C:1834-1851 *)
Definition bswap_bytes (w m : bool) (r : Z) : list Z :=
  let rex := if 8 <=? reg_map w r then Z.lor (if m then 0 else REX_W) REX_B else if m then 0 else REX_W in
  (if rex =? 0 then [] else [rex]) ++ [0x0f; Z.lor 0xc8 (reg_lmap w r)].
Section M.
Variables (u : Z) (w m : bool).
Notation n := (size_of m).
(** LZCNT and TZCNT *)
Lemma cnt_ok : forall (clz : bool) r b immb s, 1 <= r <= 16 -> gop b immb -> xwf s ->
  does u (groupf w m true (if clz then 0xbd else 0xbc) r b immb) s (fun s' =>
    let a := xval w n s b immb in
    wrote w n (ftmp b immb) s (AReg r) 0 (if a =? 0 then n else if clz then n - 1 - Z.log2 a else tz (Z.to_nat n) a) s').
Proof.
  intros clz r b immb s R (G & G0) W. cbv zeta.
  destruct (ins_groupf u w m true (if clz then 0xbd else 0xbc) r b immb (fun r o l => Some ((if clz then XLzcnt n r o else XTzcnt n r o), l))) as (l & opn & E & S & RUN); auto.
  { unfold isreg; lia. } { intros x H _. apply (dec_bs true). exact H. }
  pose proof (same_rd w _ b immb opn n s S eq_refl) as V. set (a := xval w n s b immb) in *.
  destruct (reg_wrote' w m b immb s r (if a =? 0 then n else if clz then n - 1 - Z.log2 a else tz (Z.to_nat n) a) R W) as (s1 & W1 & W2 & W3 & W4).
  exists l. split; [exact E|]. exists (setfl s1 (Some (a =? 0)) (Some ((if a =? 0 then n else if clz then n - 1 - Z.log2 a else tz (Z.to_nat n) a) =? 0)) None None). split.
  { eapply RUN; [intros; reflexivity|destruct clz; exact Logic.I|]. destruct clz; cbn [exec]; rewrite V; cbv zeta; cbv iota in W1; rewrite W1; reflexivity. }
  split; [apply wrote_setfl; exact W2|apply xwf_setfl; exact W4].
Qed.
(** BSR and BSF *)
Lemma bs_ok : forall (clz : bool) r b immb s, 1 <= r <= 16 -> gop b immb -> xwf s ->
  does u (groupf w m false (if clz then 0xbd else 0xbc) r b immb) s (fun s' =>
    let a := xval w n s b immb in
    xm s' = xm s /\ regs_same w (r :: ftmp b immb) s s' /\ xzf s' = Some (a =? 0)
    /\ (a <> 0 -> xr s' (reg_map w r) = (if clz then Z.log2 a else tz (Z.to_nat n) a) mod 2 ^ n)).
Proof.
  intros clz r b immb s R (G & G0) W. cbv zeta.
  destruct (ins_groupf u w m false (if clz then 0xbd else 0xbc) r b immb (fun r o l => Some ((if clz then XBsr n r o else XBsf n r o), l))) as (l & opn & E & S & RUN); auto.
  { unfold isreg; lia. } { intros x H _. apply (dec_bs false). exact H. }
  pose proof (same_rd w _ b immb opn n s S eq_refl) as V. set (a := xval w n s b immb) in *.
  destruct (after_pre_same w b immb s) as (M & F1 & F2 & F3 & F4).
  destruct (Z.eqb_spec a 0) as [A|A].
  - exists l. split; [exact E|]. eexists. split.
    { eapply RUN; [intros; reflexivity|destruct clz; exact Logic.I|]. destruct clz; cbn [exec]; rewrite V, A; cbn [Z.eqb]; reflexivity. }
    split; [|apply xwf_setfl; apply xwf_setr; [apply after_pre_wf; exact W|apply wrap_isw]].
    split; [exact M|]. split; [|split; [reflexivity|intros Q; contradiction]].
    intros q Q I. simpl in I. cbn [xr setfl].
    rewrite setr_reg by (auto; intros ->; tauto). apply after_pre_reg; tauto.
  - destruct (reg_wrote' w m b immb s r (if clz then Z.log2 a else tz (Z.to_nat n) a) R W) as (s1 & W1 & W2 & W3 & W4).
    exists l. split; [exact E|]. eexists. split.
    { eapply RUN; [intros; reflexivity|destruct clz; exact Logic.I|]. destruct clz; cbn [exec]; rewrite V; cbv zeta; destruct (Z.eqb_spec a 0); try contradiction; rewrite W1; reflexivity. }
    split; [|apply xwf_setfl; exact W4]. destruct W2 as (X1 & X2 & X3). split; [exact X2|]. split; [exact X3|]. split; [reflexivity|]. intros _. exact X1.
Qed.
(** CMOVcc *)
Lemma cmov_ok : forall cc r b immb s c, 0 <= cc < 16 -> okr b immb r -> gop b immb -> xwf s -> cond_val s cc = Some c ->
  does u (groupf w m false (0x40 + cc) r b immb) s (fun s' =>
    wrote w n (ftmp b immb) s (AReg r) 0 (if c : bool then xval w n s b immb else xr s (reg_map w r)) s' /\ flags_same s s').
Proof.
  intros cc r b immb s c C K (G & G0) W CV. destruct K as (R & K).
  destruct (ins_groupf u w m false (0x40 + cc) r b immb (fun r o l => Some (XCmov cc n r o, l))) as (l & opn & E & S & RUN); auto.
  { unfold isreg; lia. } { intros x H _. apply dec_cmov; auto. }
  pose proof (same_rd w _ b immb opn n s S eq_refl) as V. pose proof (rd_reg w b immb n s r (conj R K)) as V2.
  destruct (reg_wrote' w m b immb s r (if c : bool then xval w n s b immb else xr s (reg_map w r)) R W) as (s1 & W1 & W2 & W3 & W4).
  exists l. split; [exact E|]. exists s1. split; [|auto]. eapply RUN; [intros; reflexivity|exact Logic.I|]. cbn [exec].
  replace (cond_val (after_pre w b immb s) cc) with (Some c).
  2: { rewrite <- CV. unfold cond_val, cond_base. destruct (after_pre_same w b immb s) as (M & F1 & F2 & F3 & F4). rewrite F1, F2, F3, F4. reflexivity. }
  rewrite V, V2, <- W1. cbn [wro]. replace (n <? 32) with false by (destruct m; reflexivity). destruct c; [reflexivity|]. rewrite nsize_mod. reflexivity.
Qed.
(** A conditional branch over code. *)
Lemma skip_ok : forall cc l s s' c, 0 <= cc < 16 -> Z.of_nat (length l) < 128 -> cond_val s cc = Some c -> (if c : bool then s' = s else runs u l s s') ->
  runs u (0x70 + cc :: u8 (Z.of_nat (length l)) :: l) s s'.
Proof.
  intros cc l s s' c C L CV H rest.
  assert (D : decode ((0x70 + cc :: u8 (Z.of_nat (length l)) :: l) ++ rest) = Some (XJcc cc (Z.of_nat (length l)), l ++ rest)).
  { assert (SL : sle 1 (u8 (Z.of_nat (length l)) :: l ++ rest) = Some (Z.of_nat (length l), l ++ rest)).
    { unfold sle. cbn [le]. rewrite Z.mul_0_r, Z.add_0_r. change (8 * Z.of_nat 1) with 8. do 2 f_equal. unfold u8.
      rewrite Z.mod_small by lia. apply sext_small; lia. }
    change ((0x70 + cc :: u8 (Z.of_nat (length l)) :: l) ++ rest) with (0x70 + cc :: (u8 (Z.of_nat (length l)) :: l ++ rest)).
    set (t := u8 (Z.of_nat (length l)) :: l ++ rest) in *. clearbody t. set (d := Z.of_nat (length l)) in *. clearbody d.
    assert (cc = 0 \/ cc = 1 \/ cc = 2 \/ cc = 3 \/ cc = 4 \/ cc = 5 \/ cc = 6 \/ cc = 7 \/ cc = 8 \/ cc = 9 \/ cc = 10 \/ cc = 11 \/ cc = 12 \/ cc = 13 \/ cc = 14 \/ cc = 15) as K by lia.
    repeat destruct K as [K|K]; subst cc;
      match goal with |- ?L = Some (XJcc ?q _, _) => change L with (match sle 1 t with Some (v, l) => Some (XJcc q v, l) | None => None end) end;
      rewrite SL; reflexivity. }
  destruct c.
  - eapply steps_one.
    + unfold step. rewrite D, CV.
      replace ((0 <=? Z.of_nat (length l)) && (Z.of_nat (length l) <=? Z.of_nat (length (l ++ rest)))) with true; [reflexivity|].
      symmetry. rewrite app_length. apply andb_true_intro. split; apply Z.leb_le; lia.
    + rewrite Nat2Z.id. rewrite skipn_app, skipn_all, Nat.sub_diag. cbn [app skipn]. subst s'. apply steps_refl.
  - eapply steps_one; [unfold step; rewrite D, CV; reflexivity|]. apply H.
Qed.
(** BSWAP *)
Lemma bswap_ok : forall r s, 1 <= r <= 16 -> xwf s ->
  does u (Some (bswap_bytes w m r)) s (fun s' => wrote w n [] s (AReg r) 0 (revb (Z.to_nat (n / 8)) (xr s (reg_map w r) mod 2 ^ n)) s' /\ flags_same s s').
Proof.
  intros r s R W.
  assert (D : forall rest, decode (bswap_bytes w m r ++ rest) = Some (XBswap n (reg_map w r), rest)).
  { intros rest.
    assert (r = 1 \/ r = 2 \/ r = 3 \/ r = 4 \/ r = 5 \/ r = 6 \/ r = 7 \/ r = 8 \/ r = 9 \/ r = 10 \/ r = 11 \/ r = 12 \/ r = 13 \/ r = 14 \/ r = 15 \/ r = 16) as K by lia.
    repeat destruct K as [K|K]; subst r; destruct w, m; reflexivity. }
  destruct (reg_wrote' w m (AReg r) 0 s r (revb (Z.to_nat (n / 8)) (xr s (reg_map w r) mod 2 ^ n)) R W) as (s1 & W1 & W2 & W3 & W4).
  eexists. split; [reflexivity|]. exists s1. split; [|auto].
  eapply runs_instr; [exact D|discriminate|]. cbn [exec rdo]. exact W1.
Qed.
End M.
