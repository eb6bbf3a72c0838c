(** Concrete cases for serialization. *)
Require Import ZArith List Bool Lia Zify ZifyBool Permutation.
From Verif Require Import Rv.RvLib Rv.RvIsa Rv.RvEnc Rv.RvImm Rv.RvLink Rv.RvLinkExec Rv.RvLinkApi Comp.CpMem Comp.CpState Comp.CpCore Comp.CpRep Comp.CpCalls Comp.CpHist Comp.CpView Comp.CpErr Comp.CpPieces Comp.CpFinal Comp.CpCases
  Comp.CpSer Comp.CpSerParse Comp.CpSerR Comp.CpSerT Comp.CpSerA.
Import ListNotations.
Open Scope Z_scope.
Ltac Zify.zify_post_hook ::= idtac.

(** Serializing a compiler: the parts of the result. *)
Definition ser_p (r : sres) : Z := match r with SOk p _ _ _ => p | _ => 0 end.
Definition ser_n (r : sres) : Z := match r with SOk _ n _ _ => n | _ => 0 end.
Definition ser_buf (r : sres) : list (option Z) := match r with SOk _ _ b _ => b | _ => [] end.
Definition ser_s (d : cst) (r : sres) : cst := match r with SOk _ _ _ s => s | _ => d end.
Lemma ser_eq d r : match r with SOk _ _ _ _ => true | _ => false end = true -> r = SOk (ser_p r) (ser_n r) (ser_buf r) (ser_s d r).
Proof. destruct r; [discriminate|reflexivity|discriminate]. Qed.
Definition des_s (d : cst) (r : dres) : cst := match r with DOk s _ => s | _ => d end.
Definition des_d (r : dres) : option debug := match r with DOk _ d => d | _ => None end.
Lemma des_eq d r : match r with DOk _ _ => true | _ => false end = true -> r = DOk (des_s d r) (des_d r).
Proof. destruct r; [discriminate|reflexivity|discriminate]. Qed.
(** A heap with 600 blocks for the new compiler. *)
Definition sched6 : list Z := map (fun i => 0x100000 + 4096 * Z.of_nat i) (seq 0 600).
Lemma heap6_ok : heap_ok (heap1 sched6).
Proof. apply sched_ok. vm_compute. reflexivity. Qed.
Definition dbg6 : option debug := Some (mkD 5 (-1) 64).
Definition junk (i : Z) : Z := i mod 256.
Lemma junk_ok : forall i, isb (junk i). Proof. intros i. unfold isb, junk. apply Z.mod_pos_bound. lia. Qed.
Definition ser6 : sres := serialize dbg6 state1.
Strategy expand [ser6].
Definition bytes6 : list Z := fill (ser_buf ser6) junk 0.
Strategy expand [bytes6].
Definition des6 : dres := deserialize bytes6 true (heap1 sched6).
Strategy expand [des6].
Lemma ser6_eq : serialize dbg6 state1 = SOk (ser_p ser6) (ser_n ser6) (ser_buf ser6) (ser_s state1 ser6).
Proof. apply (ser_eq state1 ser6). vm_compute. reflexivity. Qed.
Lemma des6_eq : deserialize bytes6 true (heap1 sched6) = DOk (des_s state1 des6) (des_d des6).
Proof. apply (des_eq state1 des6). vm_compute. reflexivity. Qed.
Lemma fields6 : fields32 (cfld state1) /\ debug32 dbg6.
Proof. vm_compute. intuition discriminate. Qed.
Lemma values6 : ser_n ser6 = 280 /\ length bytes6 = 280%nat /\ observe state1 = ([0; 1; 2], [(DLabel 0, false); (DLabel 1, true); (DAddr 0x123456, false)], 1%nat) /\
  observe (des_s state1 des6) = observe state1 /\ des_d des6 = dbg6 /\ length (cbuf (view (des_s state1 des6))) = 28%nat.
Proof. vm_compute. auto 10. Qed.
(** More calls on the new compiler. *)
Definition more : list ccall := [CIns (load_immediate cf_c 11 0x7654321 7); CJump ENop JAlways false false; CSetLabel 3 2; CLabel].
Definition cont6 : list Z * cst := ccalls_run cf_c more (des_s state1 des6).
Lemma cont6_ok : ccalls_ok cf_c (prog1 ++ more) empty /\ csize (emits cf_c (kall cf_c (prog1 ++ more))) < 2 ^ 63 /\ ccalls_run cf_c more (des_s state1 des6) = (fst cont6, snd cont6) /\ cerr (snd cont6) = 0.
Proof.
  split; [apply ccalls_okb_ok; vm_compute; reflexivity|]. split; [assert (X : (csize (emits cf_c (kall cf_c (prog1 ++ more))) <? 2 ^ 63) = true) by (vm_compute; reflexivity); lia|].
  split; [unfold cont6; destruct (ccalls_run cf_c more (des_s state1 des6)); reflexivity|]. vm_compute. reflexivity.
Qed.
(** Serializing the new compiler again, and the old one twice. *)
Definition ser7 : sres := serialize dbg6 (des_s state1 des6).
Strategy expand [ser7].
Lemma ser7_eq : serialize dbg6 (des_s state1 des6) = SOk (ser_p ser7) (ser_n ser7) (ser_buf ser7) (ser_s state1 ser7).
Proof. apply (ser_eq state1 ser7). vm_compute. reflexivity. Qed.
Definition ser8 : sres := serialize dbg6 (ser_s state1 ser6).
Strategy expand [ser8].
Lemma ser8_eq : serialize dbg6 (ser_s state1 ser6) = SOk (ser_p ser8) (ser_n ser8) (ser_buf ser8) (ser_s state1 ser8).
Proof. apply (ser_eq state1 ser8). vm_compute. reflexivity. Qed.
Lemma cont_old : cerr (snd (ccalls_run cf_c more (ser_s state1 ser6))) = 0.
Proof. vm_compute. reflexivity. Qed.
Lemma ser68 : ser_p ser6 = 0x50000 /\ ser_p ser8 = 0x40000.
Proof. vm_compute. auto. Qed.
(** The vector registers are lost. *)
Lemma vector_lost : f_vsaveds (cfld state1) = 64 /\ f_vsaveds (cfld (des_s state1 des6)) = -1.
Proof. vm_compute. auto. Qed.
(** A compiler whose code ends inside of a word: five half words. *)
Definition prog9 : list ccall := [CIns (E32 NOP); CIns (E32 NOP); CIns (E16 C_NOP)].
Definition state9 : cst := match run_from cf_c (heap1 sched1) prog9 with Some (_, s) => s | None => state1 end.
Lemma case9 : reached cf_c (heap1 sched1) prog9 [0; 0; 0] state9.
Proof.
  assert (E : match run_from cf_c (heap1 sched1) prog9 with Some (rs, _) => rs | None => [] end = [0; 0; 0]) by (vm_compute; reflexivity). rewrite <- E.
  apply run_reached; [vm_compute; reflexivity|apply ccalls_okb_ok; vm_compute; reflexivity|vm_compute; reflexivity|]. apply run_some. vm_compute. reflexivity.
Qed.
Definition ser9 : sres := serialize None state9.
Strategy expand [ser9].
Lemma ser9_eq : serialize None state9 = SOk (ser_p ser9) (ser_n ser9) (ser_buf ser9) (ser_s state9 ser9).
Proof. apply (ser_eq state9 ser9). vm_compute. reflexivity. Qed.
Lemma ser9_pad : fill (ser_buf ser9) (fun _ => 0) 0 <> fill (ser_buf ser9) (fun _ => 255) 0.
Proof. vm_compute. discriminate. Qed.
(** Buffers made by hand. *)
Definition hdr (cpu nf nl na nj nc : Z) : list Z := enc 4 0x534c4a54 ++ enc 2 1 ++ enc 2 cpu ++ enc 8 nf ++ enc 8 nl ++ enc 8 na ++ enc 8 nj ++ enc 8 nc ++ repeat 0 32%nat.
Definition isb_b (l : list Z) : bool := forallb (fun x => (0 <=? x) && (x <? 256)) l.
Lemma isb_ok l : isb_b l = true -> Forall isb l.
Proof. unfold isb_b. rewrite forallb_forall, Forall_forall. intros H x I. apply H in I. unfold isb. lia. Qed.
Definition bad_fragment : list Z := hdr 0 1 0 0 0 0 ++ enc 8 5000 ++ repeat 0 5000%nat.
Definition bad_size : list Z := hdr 0 1 0 0 0 0 ++ enc 8 (2 ^ 64 - 1).
Definition bad_labels : list Z := hdr 0 0 (2 ^ 61) 0 0 0.
Definition bad_jumps : list Z := hdr 0 0 0 0 (2 ^ 61) 0.
Definition bad_consts : list Z := hdr 0 0 0 0 0 (2 ^ 61).
Lemma bad_values : Forall (fun b => Forall isb b /\ deserialize b false (heap1 sched1) = DUB) [bad_fragment; bad_size; bad_labels; bad_jumps; bad_consts].
Proof.
  repeat (apply Forall_cons; [split; [apply isb_ok; vm_compute; reflexivity|]|]); [vm_compute; reflexivity..|constructor].
Qed.
Definition other_cpu : list Z := hdr 0xfffe 0 0 0 0 0.
Definition des10 : dres := deserialize other_cpu false (heap1 sched1).
Strategy expand [des10].
Lemma other_value : Forall isb other_cpu /\ deserialize other_cpu false (heap1 sched1) = DOk (des_s state1 des10) (des_d des10) /\ firstn 2 (skipn 6 other_cpu) = [0xfe; 0xff].
Proof. split; [apply isb_ok; vm_compute; reflexivity|]. split; [|reflexivity]. apply (des_eq state1 des10). vm_compute. reflexivity. Qed.
(** Truncated: all but the last word; for a reader without debug information, its two words. *)
Lemma trunc6 : bytes6 = firstn 272 bytes6 ++ skipn 272 bytes6 /\ Z.of_nat (length (firstn 272 bytes6)) < ser_n ser6 - 0.
Proof. split; [symmetry; apply firstn_skipn|]. vm_compute. reflexivity. Qed.
Definition des11 : dres := deserialize (firstn 272 bytes6) false (heap1 sched6).
Strategy expand [des11].
Lemma trunc6_debug : bytes6 = firstn 272 bytes6 ++ skipn 272 bytes6 /\ deserialize (firstn 272 bytes6) false (heap1 sched6) = DOk (des_s state1 des11) (des_d des11).
Proof. split; [symmetry; apply firstn_skipn|]. apply (des_eq state1 des11). vm_compute. reflexivity. Qed.
(** A buffer which is not the image of any compiler: no undefined behaviour, and rejected. *)
Definition odd_buffer : list Z := hdr 0 1 1 1 0 0 ++ enc 8 8 ++ repeat 7 8%nat ++ repeat 0 24%nat.
Lemma odd_start k o : frag_start odd_buffer k o -> k < 1 -> o = 80.
Proof. intros H L. assert (P : 0 <= k /\ (k = 0 -> o = 80)); [|lia]. induction H; [lia|]. lia. Qed.
Lemma odd_values : Forall isb odd_buffer /\ Z.of_nat (length odd_buffer) < 2 ^ 64 /\ (forall k o, frag_start odd_buffer k o -> k < word odd_buffer 8 -> o + 8 <= Z.of_nat (length odd_buffer) -> word odd_buffer o <= 4080) /\
  8 * word odd_buffer 16 + 16 * word odd_buffer 24 < 2 ^ 64 /\ 24 * word odd_buffer 32 < 2 ^ 64 /\ 8 * word odd_buffer 40 < 2 ^ 64.
Proof.
  split; [apply isb_ok; vm_compute; reflexivity|]. split; [vm_compute; reflexivity|]. split; [|repeat split; vm_compute; reflexivity].
  intros k o H L _. change (word odd_buffer 8) with 1 in L. rewrite (odd_start k o H L). vm_compute. discriminate.
Qed.
