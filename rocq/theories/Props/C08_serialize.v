(** C08: serialization round trip. *)
Require Import ZArith List Bool Lia Permutation.
From Verif Require Import Rv.RvLib Rv.RvIsa Rv.RvEnc Rv.RvImm Rv.RvLink Rv.RvLinkExec Rv.RvLinkApi Comp.CpMem Comp.CpState Comp.CpCore Comp.CpRep Comp.CpCalls Comp.CpHist Comp.CpView Comp.CpErr Comp.CpPieces Comp.CpFinal Comp.CpCases
  Comp.CpSer Comp.CpSerParse Comp.CpSerW Comp.CpSerR Comp.CpSerT Comp.CpSerA Comp.CpSerCases.
Import ListNotations.
Open Scope Z_scope.

(** In all theorems: [s] is the compiler after any history of calls [ks] (members being 32 bit integers: [fields32], [debug32]), [buf] what
    sljit_serialize_compiler wrote to its block with [g] being the bytes which were in that block before; [h2] is any heap in which the buffer is
    deserialized (the block contents, the addresses and the failures of all allocations are arbitrary). *)

(** Never undefined behaviour; and NULL only when an allocation failed (then nothing is leaked), or when a build with argument checks reads a
    buffer which was written without its debug information. *)
Theorem C08_accepted : forall cf h ks rs s d p n buf s1 g dbg h2, reached cf h ks rs s -> fields32 (cfld s) -> debug32 d -> serialize d s = SOk p n buf s1 -> (forall i, isb (g i)) -> heap_ok h2 ->
  match deserialize (fill buf g 0) dbg h2 with
  | DUB => False
  | DNull h' => Permutation (hlive h') (hlive h2) /\
      (dbg = true /\ d = None \/ ~ (Forall (fun q => q <> 0) (hsched h2) /\ (length (fill buf g 0) <= length (hsched h2))%nat))
  | DOk _ _ => True
  end.
Proof.
  intros cf h ks rs s d p n buf s1 g dbg h2 A B C D E F. pose proof (trip cf h ks rs s d p n buf s1 g dbg h2 A B C D E F) as X.
  destruct (deserialize (fill buf g 0) dbg h2); [exact X|exact Logic.I|exact X].
Qed.
Print Assumptions C08_accepted.
Example C08_accepted_case : reached cf_c (heap1 sched1) prog1 results1 state1 /\ fields32 (cfld state1) /\ debug32 dbg6 /\ serialize dbg6 state1 = SOk (ser_p ser6) (ser_n ser6) (ser_buf ser6) (ser_s state1 ser6) /\
  (forall i, isb (junk i)) /\ heap_ok (heap1 sched6) /\
  Forall (fun q => q <> 0) (hsched (heap1 sched6)) /\ length (fill (ser_buf ser6) junk 0) = 280%nat /\ length (hsched (heap1 sched6)) = 600%nat.
Proof.
  refine (conj case1 (conj (proj1 fields6) (conj (proj2 fields6) (conj ser6_eq (conj junk_ok (conj heap6_ok (conj _ (conj (proj1 (proj2 values6)) eq_refl)))))))).
  apply Forall_forall. intros q I. apply in_map_iff in I. destruct I as (i & <- & _). lia.
Qed.

(** The new compiler: everything which code generation uses ([view]: the half words of the code in order, the labels with size and alignment
    data, the jumps with flags and label or target, the constants, the size), everything which the application can ask ([observe]: indexes of
    the labels, destinations and kinds of the jumps, number of constants, all in the order of the enumeration functions), the members set by
    sljit_emit_enter except the number of vector registers ([img_fld]), and the debug members are the same. *)
Theorem C08_roundtrip_partial : forall cf h ks rs s d p n buf s1 g dbg h2, reached cf h ks rs s -> fields32 (cfld s) -> debug32 d -> serialize d s = SOk p n buf s1 -> (forall i, isb (g i)) -> heap_ok h2 ->
  forall s' d', deserialize (fill buf g 0) dbg h2 = DOk s' d' ->
  view s' = view s /\ observe s' = observe s /\
  cfld s' = mkF (f_options (cfld s)) (f_scratches (cfld s)) (f_saveds (cfld s)) (f_fscratches (cfld s)) (f_fsaveds (cfld s)) (f_local (cfld s)) (-1) (-1) /\
  cerr s' = 0 /\ d' = (if dbg then d else None) /\ Permutation (hlive (free_compiler s')) (hlive h2).
Proof. exact trip_same. Qed.
Print Assumptions C08_roundtrip_partial.
Example C08_roundtrip_case : reached cf_c (heap1 sched1) prog1 results1 state1 /\ fields32 (cfld state1) /\ debug32 dbg6 /\ serialize dbg6 state1 = SOk (ser_p ser6) (ser_n ser6) (ser_buf ser6) (ser_s state1 ser6) /\
  (forall i, isb (junk i)) /\ heap_ok (heap1 sched6) /\
  deserialize (fill (ser_buf ser6) junk 0) true (heap1 sched6) = DOk (des_s state1 des6) (des_d des6) /\
  observe state1 = ([0; 1; 2], [(DLabel 0, false); (DLabel 1, true); (DAddr 0x123456, false)], 1%nat).
Proof. exact (conj case1 (conj (proj1 fields6) (conj (proj2 fields6) (conj ser6_eq (conj junk_ok (conj heap6_ok (conj des6_eq (proj1 (proj2 (proj2 values6)))))))))). Qed.

(** The missing part of the full statement: the number of vector registers is not in the buffer. *)
Theorem C08_vector_refuted : exists cf h ks rs s d p n buf s1 g dbg h2 s' d', reached cf h ks rs s /\ fields32 (cfld s) /\ debug32 d /\
  serialize d s = SOk p n buf s1 /\ (forall i, isb (g i)) /\ heap_ok h2 /\ deserialize (fill buf g 0) dbg h2 = DOk s' d' /\ f_vsaveds (cfld s') <> f_vsaveds (cfld s).
Proof.
  exists cf_c, (heap1 sched1), prog1, results1, state1, dbg6, (ser_p ser6), (ser_n ser6), (ser_buf ser6), (ser_s state1 ser6), junk, true, (heap1 sched6), (des_s state1 des6), (des_d des6).
  repeat (split; [first [exact case1|exact (proj1 fields6)|exact (proj2 fields6)|exact ser6_eq|exact junk_ok|exact heap6_ok|exact des6_eq]|]).
  destruct vector_lost as (-> & ->). discriminate.
Qed.
Print Assumptions C08_vector_refuted.

(** Continuing: any further calls on the new compiler end in an allocation failure, or in the compiler state of the whole history without
    serialization (compare C06_program); nothing is leaked either way. *)
Theorem C08_continue : forall cf h ks rs s d p n buf s1 g dbg h2, reached cf h ks rs s -> fields32 (cfld s) -> debug32 d -> serialize d s = SOk p n buf s1 -> (forall i, isb (g i)) -> heap_ok h2 ->
  forall s' d' ks2 rs2 s2, deserialize (fill buf g 0) dbg h2 = DOk s' d' -> ccalls_ok cf (ks ++ ks2) empty -> csize (emits cf (kall cf (ks ++ ks2))) < 2 ^ 63 ->
  ccalls_run cf ks2 s' = (rs2, s2) ->
  Permutation (hlive (free_compiler s2)) (hlive h2) /\
  (cerr s2 = ERR_ALLOC_FAILED \/ cerr s2 = 0 /\ view s2 = emits cf (kall cf (ks ++ ks2)) /\ cfld s2 = fold_left fstep ks2 (img_fld (cfld s))).
Proof. exact trip_continue. Qed.
Print Assumptions C08_continue.
Example C08_continue_case : reached cf_c (heap1 sched1) prog1 results1 state1 /\ fields32 (cfld state1) /\ debug32 dbg6 /\ serialize dbg6 state1 = SOk (ser_p ser6) (ser_n ser6) (ser_buf ser6) (ser_s state1 ser6) /\
  (forall i, isb (junk i)) /\ heap_ok (heap1 sched6) /\
  deserialize (fill (ser_buf ser6) junk 0) true (heap1 sched6) = DOk (des_s state1 des6) (des_d des6) /\
  ccalls_ok cf_c (prog1 ++ more) empty /\ csize (emits cf_c (kall cf_c (prog1 ++ more))) < 2 ^ 63 /\ ccalls_run cf_c more (des_s state1 des6) = (fst cont6, snd cont6) /\ cerr (snd cont6) = 0.
Proof. exact (conj case1 (conj (proj1 fields6) (conj (proj2 fields6) (conj ser6_eq (conj junk_ok (conj heap6_ok (conj des6_eq cont6_ok))))))). Qed.

(** The generated code is the code of the history without serialization (C06_generate). *)
Theorem C08_generate : forall cf h ks rs s d p n buf s1 g dbg h2, reached cf h ks rs s -> fields32 (cfld s) -> debug32 d -> serialize d s = SOk p n buf s1 -> (forall i, isb (g i)) -> heap_ok h2 ->
  forall s' d' ks2 rs2 s2 code eo m0, deserialize (fill buf g 0) dbg h2 = DOk s' d' -> ccalls_ok cf (ks ++ ks2) empty -> csize (emits cf (kall cf (ks ++ ks2))) < 2 ^ 63 ->
  ccalls_run cf ks2 s' = (rs2, s2) -> cerr s2 = 0 -> code <> 0 ->
  fst (api_generate cf code eo m0 s2) = Some (generate_code cf code eo m0 (emits cf (kall cf (ks ++ ks2)))).
Proof. exact trip_generate. Qed.
Print Assumptions C08_generate.
Example C08_generate_case : fst (api_generate cf_c 0x100000 0 (fun _ => 0) (snd cont6)) = Some (generate_code cf_c 0x100000 0 (fun _ => 0) (emits cf_c (kall cf_c (prog1 ++ more)))).
Proof.
  destruct cont6_ok as (A & B & C & D).
  exact (C08_generate cf_c (heap1 sched1) prog1 results1 state1 dbg6 _ _ _ _ junk true (heap1 sched6) case1 (proj1 fields6) (proj2 fields6) ser6_eq junk_ok heap6_ok _ _ more _ _ 0x100000 0 (fun _ => 0) des6_eq A B C D ltac:(discriminate)).
Qed.

(** Serializing the new compiler gives the same buffer. *)
Theorem C08_again : forall cf h ks rs s d p n buf s1 g dbg h2, reached cf h ks rs s -> fields32 (cfld s) -> debug32 d -> serialize d s = SOk p n buf s1 -> (forall i, isb (g i)) -> heap_ok h2 ->
  forall s' d' p2 n2 buf2 s2, deserialize (fill buf g 0) dbg h2 = DOk s' d' -> serialize d s' = SOk p2 n2 buf2 s2 -> n2 = n /\ buf2 = buf.
Proof. exact trip_again. Qed.
Print Assumptions C08_again.
Example C08_again_case : reached cf_c (heap1 sched1) prog1 results1 state1 /\ fields32 (cfld state1) /\ debug32 dbg6 /\ serialize dbg6 state1 = SOk (ser_p ser6) (ser_n ser6) (ser_buf ser6) (ser_s state1 ser6) /\
  (forall i, isb (junk i)) /\ heap_ok (heap1 sched6) /\
  deserialize (fill (ser_buf ser6) junk 0) true (heap1 sched6) = DOk (des_s state1 des6) (des_d des6) /\
  serialize dbg6 (des_s state1 des6) = SOk (ser_p ser7) (ser_n ser7) (ser_buf ser7) (ser_s state1 ser7).
Proof. exact (conj case1 (conj (proj1 fields6) (conj (proj2 fields6) (conj ser6_eq (conj junk_ok (conj heap6_ok (conj des6_eq ser7_eq))))))). Qed.
