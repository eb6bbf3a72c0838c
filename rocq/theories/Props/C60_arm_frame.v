(** C60: ARM64: function entry and return. *)
Require Import ZArith List Bool Lia.
From Verif Require Import Rv.RvLib Arm.ArmIsa Arm.ArmEnc Arm.ArmPair Arm.ArmFrame Arm.ArmFrameSpec Arm.ArmFrameProofs.
Import ListNotations.
Open Scope Z_scope.

(** For every function and every state at its call: its entry runs, gives it a frame and its arguments, and whatever its body does within the rules, a return
    continues at the return address of the caller with the registers and the stack of the caller; the release of the frame used by sljit_emit_return_to restores the same. *)
Theorem C60_enter_return : forall c s, ctx_ok c -> wf s -> exists F s1, run_f (emit_enter c) s = Some s1 /\ entered c F s s1 /\
  forall s2, body c F s1 s2 ->
    (exists s3, ret_f (emit_return_void c) s2 = Some (gr s 30, s3) /\ left_frame c s s2 s3) /\
    (exists s3, run_f (release true c) s2 = Some s3 /\ left_frame c s s2 s3).
Proof. intros c s O W. exists (frame_size c). exact (frame_round c s O W). Qed.
Print Assumptions C60_enter_return.

(** Cases. Every register has its own value. *)
Definition s0 : fstate := mkF (mkSt (fun k => if k =? 31 then 0x10000 else if (0 <=? k) && (k <? 31) then 0xa000 + k else 0) false false false false (fun _ => 0)) (fun k => if (0 <=? k) && (k <? 32) then 0xf000 + k else 0).
(** Three arguments (saved, scratch, saved), 18 scratch and 3 saved registers, 5 saved floating point registers. *)
Definition c1 (n : Z) : ctx := mkC 0 false 18 3 23 5 n [1; 4; 9; 2].
Lemma c1_ok n : 0 <= n <= 1048576 -> ctx_ok (c1 n).
Proof. intros N. unfold ctx_ok, c1, arg_ok. cbn. repeat split; try lia; try (repeat (apply Forall_cons; [lia|]); apply Forall_nil). Qed.
Lemma s0_wf : wf s0.
Proof. split; [|split]; intros k; unfold gr, mem, s0; cbn [gs xr vd mm]; [destruct (Z.eqb_spec k 31); [lia|destruct (Z.leb_spec 0 k), (Z.ltb_spec k 31); cbn [andb]; lia]|destruct (Z.leb_spec 0 k), (Z.ltb_spec k 32); cbn [andb]; lia|lia]. Qed.
(** The hypotheses of the theorem hold for them. *)
Example C60_met : exists F s1, run_f (emit_enter (c1 5000)) s0 = Some s1 /\ entered (c1 5000) F s0 s1.
Proof. destruct (C60_enter_return (c1 5000) s0 (c1_ok 5000 ltac:(lia)) s0_wf) as (F & s1 & R & E & _). exists F, s1. split; assumption. Qed.
(** A body: every register it may change is overwritten, and the local area is filled. *)
Definition body1 (n : Z) (s : fstate) : fstate :=
  let a := xr (gs s) 31 in
  mkF (mkSt (fun k => if (k =? 31) || (k =? 26) || (k =? 25) || (k =? 24) || (k =? 23) || (k =? 22) then xr (gs s) k else 0xbad) true true true true
         (fun x => if (a + 16 <=? x) && (x <? a + 16 + n) then 0xcc else mm (gs s) x))
      (fun k => if (k =? 13) || (k =? 14) then vd s k else 0xbad).
Fixpoint from (x : Z) (m : nat) : list Z := match m with O => [] | S m => x :: from (x + 1) m end.
(** What the caller finds: x19 .. x30, the stack pointer, v8 .. v15. *)
Definition view (s : fstate) : list Z := map (gr s) (from 19 13) ++ map (vd s) (from 8 8).
Definition round (n : Z) : option (Z * list Z) :=
  match run_f (emit_enter (c1 n)) s0 with
  | None => None
  | Some s1 => match ret_f (emit_return_void (c1 n)) (body1 n s1) with None => None | Some (pc, s3) => Some (pc, view s3) end
  end.
Example C60_rounds : map round [0; 100; 400; 500; 900; 5000; 1048576] = repeat (Some (0xa01e, view s0)) 7.
Proof. vm_compute. reflexivity. Qed.
(** The arguments: the first in S0 (x19), the second integer stays in R1 (x1), the third in S1 (x20); the floating point argument is in FR0 (v0). *)
Example C60_args : match run_f (emit_enter (c1 5000)) s0 with None => None | Some s1 => Some (gr s1 19, gr s1 1, gr s1 20, vd s1 (freg_map 1)) end = Some (0xa000, 0xa001, 0xa002, 0xf000).
Proof. vm_compute. reflexivity. Qed.
(** Words: 600 bytes of local area, no saved registers but S0, and SLJIT_ENTER_KEEP(1). *)
Example C60_words : emit_enter (mkC 0 false 3 1 0 0 600 [1]) = [0xd10043ff; 0xf90007f3; 0xaa0003f3; 0xd10983ff; 0xa9007bfd; 0x910003fd] /\
  emit_return_void (mkC 1 true 3 1 0 0 16 []) = [0xa9407bfd; 0x910083ff; 0xd65f03c0].
Proof. vm_compute. repeat split. Qed.
