(** C29: deserialization rejects foreign data. *)
Require Import ZArith List Bool Lia Permutation.
From Verif Require Import Rv.RvLib Rv.RvIsa Rv.RvEnc Rv.RvImm Rv.RvLink Rv.RvLinkExec Rv.RvLinkApi Comp.CpMem Comp.CpState Comp.CpCore Comp.CpRep Comp.CpCalls Comp.CpHist Comp.CpView Comp.CpErr Comp.CpPieces Comp.CpFinal Comp.CpCases
  Comp.CpSer Comp.CpSerParse Comp.CpSerW Comp.CpSerR Comp.CpSerT Comp.CpSerA Comp.CpSerCases.
Import ListNotations.
Open Scope Z_scope.

(** For all byte strings: what is accepted starts with the signature and the version and consists of complete words; a build with argument checks
    accepts only buffers which are marked to contain its debug information. *)
Theorem C29_signature_partial : forall b dbg h s d, Forall isb b -> deserialize b dbg h = DOk s d ->
  firstn 4 b = [0x54; 0x4a; 0x4c; 0x53] /\ firstn 2 (skipn 4 b) = [1; 0] /\ 80 <= Z.of_nat (length b) /\ Z.of_nat (length b) mod 8 = 0 /\ (dbg = true -> Z.testbit (nth 6 b 0) 0 = true).
Proof. exact accepted. Qed.
Print Assumptions C29_signature_partial.
Example C29_signature_case : deserialize bytes6 true (heap1 sched6) = DOk (des_s state1 des6) (des_d des6) /\ length bytes6 = 280%nat.
Proof. exact (conj des6_eq (proj1 (proj2 values6))). Qed.

(** The missing part: the field for the CPU is not compared (and always written as zero, apart from the bit for the debug information), the word size
    is not in the buffer. *)
Theorem C29_cpu_refuted : exists b h s d, Forall isb b /\ heap_ok h /\ firstn 2 (skipn 6 b) = [0xfe; 0xff] /\ deserialize b false h = DOk s d.
Proof.
  exists other_cpu, (heap1 sched1), (des_s state1 des10), (des_d des10). destruct other_value as (A & B & C). split; [exact A|]. split; [apply case1|]. split; [exact C|exact B].
Qed.
Print Assumptions C29_cpu_refuted.

(** For all byte strings and all allocation failures: when NULL is returned everything is released again, and freeing the new compiler releases everything
    otherwise. *)
Theorem C29_leak : forall b dbg h, Forall isb b -> heap_ok h ->
  match deserialize b dbg h with DNull h' => Permutation (hlive h') (hlive h) | DOk s _ => Permutation (hlive (free_compiler s)) (hlive h) | DUB => True end.
Proof. exact no_leak. Qed.
Print Assumptions C29_leak.
Example C29_leak_case : Forall isb odd_buffer /\ heap_ok (heap1 sched6) /\ match deserialize odd_buffer false (heap1 sched6) with DNull h' => hlive h' = [0x5000] | _ => False end /\ deserialize bytes6 true (heap1 sched6) = DOk (des_s state1 des6) (des_d des6).
Proof. split; [exact (proj1 odd_values)|]. split; [exact heap6_ok|]. split; [vm_compute; reflexivity|exact des6_eq]. Qed.

(** Every truncated part of a serialized compiler is rejected without reading past its end.  (A build without argument checks does not read the
    16 bytes of debug information.) *)
Theorem C29_truncated : forall cf h ks rs s d p n buf s1 g b tail (dbg : bool) h2, reached cf h ks rs s -> fields32 (cfld s) -> debug32 d -> serialize d s = SOk p n buf s1 -> (forall i, isb (g i)) -> heap_ok h2 ->
  fill buf g 0 = b ++ tail -> Z.of_nat (length b) < n - (if dbg then 0 else match d with Some _ => 16 | None => 0 end) ->
  exists h', deserialize b dbg h2 = DNull h' /\ Permutation (hlive h') (hlive h2).
Proof. exact truncated. Qed.
Print Assumptions C29_truncated.
Example C29_truncated_case : reached cf_c (heap1 sched1) prog1 results1 state1 /\ fields32 (cfld state1) /\ debug32 dbg6 /\ serialize dbg6 state1 = SOk (ser_p ser6) (ser_n ser6) (ser_buf ser6) (ser_s state1 ser6) /\
  (forall i, isb (junk i)) /\ heap_ok (heap1 sched6) /\
  fill (ser_buf ser6) junk 0 = firstn 272 bytes6 ++ skipn 272 bytes6 /\ Z.of_nat (length (firstn 272 bytes6)) < ser_n ser6 - 0.
Proof. exact (conj case1 (conj (proj1 fields6) (conj (proj2 fields6) (conj ser6_eq (conj junk_ok (conj heap6_ok trunc6)))))). Qed.

(** Without the last condition it is false: truncated inside of the debug information, a build without argument checks accepts. *)
Theorem C29_truncated_debug_refuted : exists cf h ks rs s d p n buf s1 g b tail h2 s' d', reached cf h ks rs s /\ serialize d s = SOk p n buf s1 /\ (forall i, isb (g i)) /\ heap_ok h2 /\
  fill buf g 0 = b ++ tail /\ Z.of_nat (length b) < n /\ deserialize b false h2 = DOk s' d'.
Proof.
  exists cf_c, (heap1 sched1), prog1, results1, state1, dbg6, (ser_p ser6), (ser_n ser6), (ser_buf ser6), (ser_s state1 ser6), junk, (firstn 272 bytes6), (skipn 272 bytes6), (heap1 sched6), (des_s state1 des11), (des_d des11).
  destruct trunc6_debug as (A & B). destruct trunc6 as (_ & C). rewrite Z.sub_0_r in C. exact (conj case1 (conj ser6_eq (conj junk_ok (conj heap6_ok (conj A (conj C B)))))).
Qed.
Print Assumptions C29_truncated_debug_refuted.

(** All byte strings: reading is in bounds, unless a fragment is longer than the memory of a fragment, or the number of labels, jumps or constants is so
    large that its size in bytes wraps around. *)
Theorem C29_bounds_partial : forall b dbg h, Forall isb b -> Z.of_nat (length b) < 2 ^ 64 -> heap_ok h ->
  (forall k o, frag_start b k o -> k < word b 8 -> o + 8 <= Z.of_nat (length b) -> word b o <= 4080) ->
  8 * word b 16 + 16 * word b 24 < 2 ^ 64 -> 24 * word b 32 < 2 ^ 64 -> 8 * word b 40 < 2 ^ 64 ->
  deserialize b dbg h <> DUB.
Proof. exact read_safe. Qed.
Print Assumptions C29_bounds_partial.
Example C29_bounds_case : Forall isb odd_buffer /\ Z.of_nat (length odd_buffer) < 2 ^ 64 /\
  (forall k o, frag_start odd_buffer k o -> k < word odd_buffer 8 -> o + 8 <= Z.of_nat (length odd_buffer) -> word odd_buffer o <= 4080) /\
  8 * word odd_buffer 16 + 16 * word odd_buffer 24 < 2 ^ 64 /\ 24 * word odd_buffer 32 < 2 ^ 64 /\ 8 * word odd_buffer 40 < 2 ^ 64.
Proof. exact odd_values. Qed.

(** In these cases it is undefined behaviour: a fragment of 5000 bytes is copied to the 4080 bytes of a new fragment; a size of 2^64 - 1 is rounded up
    to zero, passes the check, and 2^64 - 1 bytes are copied; 2^61 labels, jumps or constants need "0" bytes and are read past the end. *)
Theorem C29_bounds_refuted : exists h, heap_ok h /\
  Forall (fun b => Forall isb b /\ deserialize b false h = DUB) [bad_fragment; bad_size; bad_labels; bad_jumps; bad_consts].
Proof. exists (heap1 sched1). split; [apply case1|exact bad_values]. Qed.
Print Assumptions C29_bounds_refuted.
