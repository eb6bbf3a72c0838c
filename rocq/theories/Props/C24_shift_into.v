(** C24: double width shift (RISC-V 64). *)
Require Import ZArith List Bool Lia.
From Verif Require Import Rv.RvLib Rv.RvIsa Rv.RvEnc Rv.RvImm Rv.RvRun Rv.RvWf Rv.RvMem Rv.RvRunMem Rv.RvOp Rv.RvLir Rv.RvCanon Rv.RvEmitOp2 Rv.RvShiftInto Rv.RvOpTop Rv.RvOpBad.
Import ListNotations.
Open Scope Z_scope.

(** The destination gets the upper (left) or lower (right) part of the shifted double word made of r1 and r2, for every shift amount
    [t] modulo the length.  SLJIT_SHIFT_INTO_NON_ZERO ([nz]) promises a non-zero amount; the checker of the API refuses d = r2.  The last
    condition excludes an immediate amount of zero unless the destination is r1 (see below). *)
Theorem C24_shift_into_partial : forall c left (is32 nz : bool) d r1 r2 src3 w3 s, let n := if is32 then 32 else 64 in let m := if is32 then 4%nat else 8%nat in
  wf s -> ureg d -> ureg r1 -> ureg r2 -> d <> r2 -> src_legal src3 w3 -> in_format s n (AReg r1) -> in_format s n (AReg r2) -> in_format s n src3 ->
  let t := argval s m src3 w3 mod n in
  (nz = true -> t <> 0) -> (src3 = AImm -> r1 <> r2 -> t = 0 -> d = r1) ->
  let x := rd s r1 mod 2 ^ n in let y := rd s r2 mod 2 ^ n in
  ok (emit_shift_into c left is32 nz d r1 r2 src3 w3) s (fun s' =>
    dest s s' m (AReg d) 0 (canon n (if left then (x * 2 ^ n + y) * 2 ^ t / 2 ^ n else (y * 2 ^ n + x) / 2 ^ t))).
Proof. exact shift_into_double. Qed.
Print Assumptions C24_shift_into_partial.

(** The documented formula (sljitLir.h:1424-1456). *)
Theorem C24_formula : forall c left (is32 nz : bool) d r1 r2 src3 w3 s, let n := if is32 then 32 else 64 in let m := if is32 then 4%nat else 8%nat in
  wf s -> ureg d -> ureg r1 -> ureg r2 -> d <> r2 -> src_legal src3 w3 -> in_format s n (AReg r1) -> in_format s n (AReg r2) -> in_format s n src3 ->
  let t := argval s m src3 w3 mod n in
  (nz = true -> t <> 0) -> (src3 = AImm -> r1 <> r2 -> t = 0 -> d = r1) ->
  let x := rd s r1 mod 2 ^ n in let y := rd s r2 mod 2 ^ n in let k := Z.lxor t (n - 1) in
  ok (emit_shift_into c left is32 nz d r1 r2 src3 w3) s (fun s' =>
    dest s s' m (AReg d) 0 (canon n (if left then Z.lor ((x * 2 ^ t) mod 2 ^ n) ((y / 2) / 2 ^ k)
                                     else Z.lor (x / 2 ^ t) (((y * 2) mod 2 ^ n * 2 ^ k) mod 2 ^ n)))).
Proof. intros. apply (shift_into_ok c left is32 nz d r1 r2 s); auto. Qed.
Print Assumptions C24_formula.

(** With the immediate amount 0 nothing is emitted: the destination is not changed at all. *)
Theorem C24_zero_refuted : exists c s, wf s /\ rd s 1 <> rd s 2 /\
  ok (emit_shift_into c true false false 1 2 3 AImm 64) s (fun s' => rd s' 1 = rd s 1).
Proof.
  exists c_n, (st [(1, 5); (2, 9)]). split; [apply st_wf|]. split; [vm_compute; discriminate|]. exact into_wrong.
Qed.
Print Assumptions C24_zero_refuted.

(** R1 := R2 : R3 << R1 (the amount is in the destination), 32 bit, amounts 0 and 33. *)
Example C24_case : forall a, a = 0 \/ a = 33 -> let s := st [(1, a); (2, 0x12345678); (3, -1)] in
  wf s /\ in_format s 32 (AReg 2) /\ in_format s 32 (AReg 3) /\ in_format s 32 (AReg 1) /\
  match run (flat (emit_shift_into c_n true true false 1 2 3 (AReg 1) 0)) s with
  | Some s' => rd s' 1 = if a =? 0 then 0x12345678 else 0x2468acf1 | None => False end.
Proof. intros a [->| ->]; (split; [apply st_wf|]); repeat split; vm_compute; reflexivity. Qed.
