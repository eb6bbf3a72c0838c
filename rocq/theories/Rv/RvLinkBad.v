(** Concrete programs: the cases where generated code is wrong, and examples for the properties. *)
Require Import ZArith List Bool Lia.
From Verif Require Import Rv.RvLib Rv.RvBits Rv.RvIsa Rv.RvEnc Rv.RvImm Rv.RvRun Rv.RvImmProofs Rv.RvConst Rv.RvAddr Rv.RvCtl Rv.RvAddrProofs Rv.RvLink Rv.RvLinkExec Rv.RvLinkApi Rv.RvLinkSpec Rv.RvLinkTop Rv.RvTop1.
Import ListNotations.
Open Scope Z_scope.
Ltac Zify.zify_post_hook ::= idtac.

Ltac prog :=
  split; [cbn [calls_ok call_ok jc_ok]; repeat split;
          try (vm_compute; solve [reflexivity | congruence | intros; discriminate]);
          try (apply Nat.ltb_lt; vm_compute; reflexivity);
          try (intros; discriminate);
          try (intros; solve [reflexivity | repeat constructor])
         |repeat constructor; discriminate].
Ltac load := unfold loadable; repeat split; try (vm_compute; reflexivity); try (vm_compute; intros; congruence).

Definition cf_c : cfg := mkCfg true false false.
Definition cf_n : cfg := mkCfg false false false.
Definition zero_mem : Z -> Z := fun _ => 0.

(** A compressed conditional branch to an absolute address 256 bytes away. *)
Definition b16_calls : list call := [KJump (JZ false 3) false false; KIns [P16 C_NOP]; KSetTarget 0 0x10100].
(** The load of an address just below the 52 bit limit. *)
Definition abs52_calls : list call := [KMov 1; KSetTarget 0 0x7fffffffff800].
Definition last_label_calls : list call := [KIns [P32 NOP]; KLabel].
Definition last_branch_calls : list call := [KLabel; KJump (JZ false 3) false false; KSetLabel 0 0].
Definition gen_of (cf : cfg) (code eo : Z) (calls : list call) : gen := generate_code cf code eo zero_mem (emits cf calls).

Lemma b16_wrong : 
  let g := gen_of cf_c 0x10000 0 b16_calls in
  let s := st0 0x10000 in
  prog_ok cf_c b16_calls /\ loadable cf_c b16_calls 0x10000 0 /\
  fetches 0x10000 0 g (view 0x10000 0 g) /\
  pc s = xaddr 0x10000 0 0 /\ jc_holds (JZ false 3) s = true /\
  taddr g (nth 0 (targets b16_calls) None) = 0x10100 /\
  ~ exists s', steps (view 0x10000 0 g) s s' /\ pc s' = 0x10100.
Proof.
  intros g s. split; [prog|]. split; [load|]. split; [apply view_fetches; [lia|vm_compute; reflexivity]|].
  split; [reflexivity|]. split; [vm_compute; reflexivity|]. split; [vm_compute; reflexivity|].
  intros (s' & S & P). apply (never (view 0x10000 0 g) 3 s (fun s => pc s =? 0x10100)); [vm_compute; reflexivity|vm_compute; reflexivity|].
  exists s'. split; [exact S|]. apply Z.eqb_eq. exact P.
Qed.
Lemma abs52_wrong :
  let g := gen_of cf_n 0x10000 0 abs52_calls in
  let s := st0 0x10000 in
  prog_ok cf_n abs52_calls /\ loadable cf_n abs52_calls 0x10000 0 /\
  fetches 0x10000 0 g (view 0x10000 0 g) /\
  pc s = xaddr 0x10000 0 0 /\
  taddr g (nth 0 (targets abs52_calls) None) = 0x7fffffffff800 /\
  ~ exists s', steps (view 0x10000 0 g) s s' /\ pc s' = xaddr 0x10000 0 (rend g) /\ rd s' 1 = 0x7fffffffff800.
Proof.
  intros g s. split; [prog|]. split; [load|]. split; [apply view_fetches; [lia|vm_compute; reflexivity]|].
  split; [reflexivity|]. split; [vm_compute; reflexivity|].
  intros (s' & S & P & V). apply (never (view 0x10000 0 g) 7 s (fun s => (pc s =? xaddr 0x10000 0 (rend g)) && (rd s 1 =? 0x7fffffffff800))); [vm_compute; reflexivity|vm_compute; reflexivity|].
  exists s'. split; [exact S|]. rewrite P, V, !Z.eqb_refl. reflexivity.
Qed.
Lemma last_label_wrong :
  let g := gen_of cf_n 0x10000 0x1000 last_label_calls in
  prog_ok cf_n last_label_calls /\ loadable cf_n last_label_calls 0x10000 0x1000 /\
  rend g = 2 /\ ret_label (emits cf_n last_label_calls) = 0%nat /\
  label_addr (rlabels g) 0 = 0x10004 /\ xaddr 0x10000 0x1000 (rend g) = 0x11004.
Proof. intros g. split; [prog|]. split; [load|]. repeat split; vm_compute; reflexivity. Qed.
Lemma last_branch_wrong :
  let g := gen_of cf_c 0x10000 0 last_branch_calls in
  prog_ok cf_c last_branch_calls /\ loadable cf_c last_branch_calls 0x10000 0 /\ mok (rmem g) = false.
Proof. intros g. split; [prog|]. split; [load|]. vm_compute; reflexivity. Qed.

(** An example program: a loop with a forward branch, an address load, an aligned label, a rewritable jump, a call and a constant. *)
Definition ex_calls : list call :=
  [KLabel; KIns [P32 NOP]; KJump (JBr Blt 1 2) false false; KMov 3; KIns [P32 NOP; P32 NOP]; KAlign 4; KJump JAlways true false;
   KIJump true 0x123456789abc; KConst (P32 NOP) [P32 NOP]; KSetLabel 0 1; KSetLabel 1 0; KSetLabel 2 0].
Lemma ex_ok cf : cf = cf_c \/ cf = cf_n -> prog_ok cf ex_calls /\ loadable cf ex_calls 0x10000 0x1000 /\
  ends_with_label false ex_calls = false /\ ends_with_jump false ex_calls = false.
Proof. intros [->| ->]; (split; [prog|]); (split; [load|]); split; reflexivity. Qed.

(** In the form of the properties. *)
Lemma b16_refuted : exists cf calls code eo m0 codef x T s,
  prog_ok cf calls /\ loadable cf calls code eo /\ eo = 0 /\
  let g := generate_code cf code eo m0 (emits cf calls) in
  fetches code eo g codef /\ nth_error calls 0 = Some (KJump x false false) /\ targets calls = [Some (TAddr T)] /\ T mod 2 = 0 /\
  pc s = code + eo /\ jc_holds x s = true /\ ~ exists s', steps codef s s' /\ pc s' = T.
Proof.
  destruct b16_wrong as (A & B & C & D & E & F & G).
  exists cf_c, b16_calls, 0x10000, 0, zero_mem, (view 0x10000 0 (gen_of cf_c 0x10000 0 b16_calls)), (JZ false 3), 0x10100, (st0 0x10000).
  split; [exact A|]. split; [exact B|]. split; [reflexivity|]. split; [exact C|]. split; [reflexivity|]. split; [reflexivity|]. split; [reflexivity|].
  split; [reflexivity|]. split; [exact E|exact G].
Qed.
Lemma abs52_refuted : exists cf calls code eo m0 codef T s,
  prog_ok cf calls /\ loadable cf calls code eo /\ eo = 0 /\
  let g := generate_code cf code eo m0 (emits cf calls) in
  fetches code eo g codef /\ nth_error calls 0 = Some (KMov 1) /\ targets calls = [Some (TAddr T)] /\
  pc s = code + eo /\ ~ exists s', steps codef s s' /\ pc s' = code + 2 * rend g + eo /\ rd s' 1 = T.
Proof.
  destruct abs52_wrong as (A & B & C & D & E & G).
  exists cf_n, abs52_calls, 0x10000, 0, zero_mem, (view 0x10000 0 (gen_of cf_n 0x10000 0 abs52_calls)), 0x7fffffffff800, (st0 0x10000).
  split; [exact A|]. split; [exact B|]. split; [reflexivity|]. split; [exact C|]. split; [reflexivity|]. split; [reflexivity|].
  split; [reflexivity|exact G].
Qed.
Lemma last_label_refuted : exists cf calls code eo m0, prog_ok cf calls /\ loadable cf calls code eo /\
  let g := generate_code cf code eo m0 (emits cf calls) in
  last calls (KIns []) = KLabel /\ label_addr (rlabels g) (ret_label (emits cf calls)) <> code + 2 * rend g + eo.
Proof.
  destruct last_label_wrong as (A & B & C & D & E & F). exists cf_n, last_label_calls, 0x10000, 0x1000, zero_mem. split; [exact A|]. split; [exact B|].
  split; [reflexivity|]. rewrite D. unfold gen_of in *. rewrite E, C. discriminate.
Qed.
Lemma last_branch_refuted : exists cf calls code eo m0, prog_ok cf calls /\ loadable cf calls code eo /\ eo = 0 /\
  mok (rmem (generate_code cf code eo m0 (emits cf calls))) = false.
Proof. destruct last_branch_wrong as (A & B & C). exists cf_c, last_branch_calls, 0x10000, 0, zero_mem. auto. Qed.
Lemma size_refuted : exists cf calls code eo m0, prog_ok cf calls /\ loadable cf calls code eo /\ eo = 0 /\
  let g := generate_code cf code eo m0 (emits cf calls) in rsize g <> 2 * rend g.
Proof. exists cf_n, [KIns [P32 NOP]], 0x10000, 0, zero_mem. split; [prog|]. split; [load|]. split; [reflexivity|]. vm_compute. discriminate. Qed.
