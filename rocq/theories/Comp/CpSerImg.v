(** The format of a serialized compiler, and reading it: a parser without memory. *)
Require Import ZArith List Bool Lia Zify ZifyBool.
From Verif Require Import Rv.RvLib Rv.RvEnc Comp.CpMem Comp.CpState Comp.CpCore Comp.CpSer.
Import ListNotations.
Open Scope Z_scope.
Ltac Zify.zify_post_hook ::= idtac.

(** A label: its size, and type and data of an aligned one.  A jump: address, flags, value. *)
Definition lrec : Type := Z * option (Z * Z).
Definition jrec : Type := Z * Z * Z.
Record image := mkI { i_frags : list (list Z); i_labs : list lrec; i_jmps : list jrec; i_cons : list Z; i_fld : fields; i_size : Z; i_count : Z }.

(** The bytes: each fragment comes with its padding. *)
Definition frag_b (f : list Z * list Z) : list Z := enc 8 (zlen (fst f)) ++ fst f ++ snd f.
Definition lab_b (l : lrec) : list Z := match snd l with None => enc 8 (fst l) | Some (t, d) => enc 8 t ++ enc 8 (fst l) ++ enc 8 d end.
Definition jmp_b (j : jrec) : list Z := let '(a, f, v) := j in enc 8 a ++ enc 8 f ++ enc 8 v.
Definition dbg_b (d : option debug) : list Z := match d with Some d => enc 8 (d_flags d) ++ enc 4 (d_return d) ++ enc 4 (d_local d) | None => [] end.
Definition aligned (l : lrec) : bool := match snd l with Some _ => true | None => false end.
Definition n_aligned (ls : list lrec) : Z := zlen (filter aligned ls).
Definition head_b (d : option debug) (nf nl na nj nc : Z) (f : fields) (size : Z) : list Z :=
  enc 4 SIGNATURE ++ enc 2 VERSION ++ enc 2 (match d with Some _ => DEBUG_BIT | None => 0 end) ++
  enc 8 nf ++ enc 8 nl ++ enc 8 na ++ enc 8 nj ++ enc 8 nc ++
  enc 4 (f_options f) ++ enc 4 (f_scratches f) ++ enc 4 (f_saveds f) ++ enc 4 (f_fscratches f) ++ enc 4 (f_fsaveds f) ++ enc 4 (f_local f) ++ enc 8 size.
Definition bytes (d : option debug) (fs : list (list Z * list Z)) (x : image) : list Z :=
  head_b d (zlen fs) (i_count x) (n_aligned (i_labs x)) (zlen (i_jmps x)) (zlen (i_cons x)) (i_fld x) (i_size x) ++
  flat_map frag_b fs ++ flat_map lab_b (i_labs x) ++ flat_map jmp_b (i_jmps x) ++ flat_map (enc 8) (i_cons x) ++ dbg_b d.

(** ** The parser *)
Inductive pres (A : Type) := PRet (a : A) | PErr | PBad.
Arguments PRet {A}. Arguments PErr {A}. Arguments PBad {A}.
Definition pbind {A B} (p : pres A) (f : A -> pres B) : pres B := match p with PRet a => f a | PErr => PErr | PBad => PBad end.
Section Parse.
Variable b : list Z.
Fixpoint psegs (fuel : nat) (i off : Z) : pres (Z * list (list Z)) :=
  if i =? 0 then PRet (off, []) else
  match fuel with
  | O => PBad
  | S fuel =>
      if left b off <? 8 then PErr else
      match rdw b off with
      | None => PBad
      | Some u =>
          if left b (off + 8) <? align8 u then PErr else
          if (u >? BUF_SIZE - MEMORY) || (off + 8 + u >? bsize b) then PBad else
          pbind (psegs fuel (i - 1) (off + 8 + align8 u)) (fun r => PRet (fst r, sub b (off + 8) u :: snd r))
      end
  end.
Fixpoint plabs (fuel : nat) (i n al off : Z) : pres (Z * Z * list lrec) :=
  if negb (i <? n) then PRet (off, al, []) else
  match fuel with
  | O => PBad
  | S fuel =>
      match rdw b off with
      | None => PBad
      | Some type =>
          if 8 * (i + 1) >? wrap (8 * n) then PBad else
          if type <? LABEL_ALIGNED then pbind (plabs fuel (i + 1) n al (off + 8)) (fun r => PRet (fst r, (type, None) :: snd r))
          else if al =? 0 then PErr
          else match rdw b (off + 8), rdw b (off + 8 + 8) with
            | Some size, Some data => pbind (plabs fuel (i + 1) n (al - 1) (off + 8 + 16)) (fun r => PRet (fst r, (size, Some (type, data)) :: snd r))
            | _, _ => PBad
            end
      end
  end.
Definition jbad (n flags value : Z) : bool := negb (Z.testbit flags 0) && negb (value =? 2 ^ 64 - 1) && negb (value <? n).
Fixpoint pjmps (fuel : nat) (i n off : Z) : pres (Z * list jrec) :=
  if i =? 0 then PRet (off, []) else
  match fuel with
  | O => PBad
  | S fuel =>
      match rdw b off, rdw b (off + 8), rdw b (off + 16) with
      | Some addr, Some flags, Some value =>
          if jbad n flags value then PErr else pbind (pjmps fuel (i - 1) n (off + 24)) (fun r => PRet (fst r, (addr, flags, value) :: snd r))
      | _, _, _ => PBad
      end
  end.
Fixpoint pcons (fuel : nat) (i off : Z) : pres (Z * list Z) :=
  if i =? 0 then PRet (off, []) else
  match fuel with
  | O => PBad
  | S fuel => match rdw b off with Some a => pbind (pcons fuel (i - 1) (off + 8)) (fun r => PRet (fst r, a :: snd r)) | None => PBad end
  end.
Definition pdebug (dbg : bool) (off : Z) : pres (option debug) :=
  if dbg then
    if left b off <? 16 then PErr else if off + 16 >? bsize b then PBad
    else PRet (Some (mkD (sub32 b off) (sub32 b (off + 8)) (sub32 b (off + 12))))
  else PRet None.
Definition parse (dbg : bool) : pres (image * option debug) :=
  if (bsize b <? HEADER) || negb (bsize b mod 8 =? 0) then PErr
  else if negb (dec (sub b 0 4) =? SIGNATURE) || negb (dec (sub b 4 2) =? VERSION) then PErr
  else if dbg && negb (Z.testbit (dec (sub b 6 2)) 0) then PErr
  else
    let n := subw b 16 in
    let f := mkF (sub32 b 48) (sub32 b 52) (sub32 b 56) (sub32 b 60) (sub32 b 64) (sub32 b 68) (-1) (-1) in
    pbind (psegs (S (length b)) (subw b 8) HEADER) (fun '(off, fs) =>
      if left b off <? wrap (wrap (n * 8) + wrap (subw b 24 * 16)) then PErr else
      pbind (plabs (S (length b)) 0 n (subw b 24) off) (fun '(off, al, ls) =>
        if negb (al =? 0) then PErr else
        if left b off <? wrap (subw b 32 * 24) then PErr else
        pbind (pjmps (S (length b)) (subw b 32) n off) (fun '(off, js) =>
          if left b off <? wrap (subw b 40 * 8) then PErr else
          pbind (pcons (S (length b)) (subw b 40) off) (fun '(off, cs) =>
            pbind (pdebug dbg off) (fun d => PRet (mkI fs ls js cs f (subw b 72) n, d)))))).
End Parse.
