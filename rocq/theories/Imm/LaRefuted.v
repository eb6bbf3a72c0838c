(** LoongArch64: runs which show that two statements about jumps and addresses are false. *)
Require Import ZArith List Bool Lia Zify ZifyBool.
From Verif Require Import Rv.RvLib Imm.ImmLib Imm.LaIsa Imm.LaModel Imm.LaSpec.
Import ListNotations.
Open Scope Z_scope.

Lemma runs_inv {C} (f : C -> option C) c e : runs f c e -> c = e \/ exists d, f c = Some d /\ runs f d e.
Proof. destruct 1; [left; reflexivity|right; eauto]. Qed.

(** Two words at [p], and nothing else which can be executed. *)
Definition two (p w0 w1 : Z) : Z -> Z := fun x => if x =? p then w0 else if x =? p + 4 then w1 else 0.

(** An unconditional jump from 0x10000000, 256 MB and 2 KB forward. *)
Definition p0 : Z := 0x10000000.
Definition t0 : Z := 0x20000800.
Definition words0 : list Z := link_jump false None false p0 t0.
Definition code0 : Z -> Z := two p0 (nth 0 words0 0) (nth 1 words0 0).
Lemma code0_at : code_at 4 (link_jump false (jcond_word JAlways) false (p0 + 4 * jcond_size JAlways) t0) p0 code0.
Proof. vm_compute. tauto. Qed.
Lemma legal0 : isw t0 /\ t0 mod 4 = 0 /\ p0 mod 4 = 0.
Proof. vm_compute. repeat split; discriminate. Qed.
Lemma jump_wrong : ~ exists s', goes code0 p0 (fun _ => 0) t0 s'.
Proof.
  intros (s' & G). unfold goes in G. apply runs_inv in G. destruct G as [G | (d & E & G)]; [apply (f_equal fst) in G; vm_compute in G; discriminate G|].
  assert (D1 : decode (code0 (wrap p0)) = Some (Pcaddu12i 13 0x10001)) by (vm_compute; reflexivity).
  unfold step in E. cbn [fst snd] in E. rewrite D1 in E. apply (f_equal (fun o => match o with Some x => x | None => d end)) in E.
  cbv beta iota in E. subst d. cbn [exec] in G.
  set (pc1 := wrap (wrap p0 + 4)) in G. set (s1 := wG (fun _ => 0) 13 (wrap (wrap p0 + sext 32 (Z.shiftl 65537 12)))) in G.
  assert (F1 : s1 13 = 0x20001000) by (vm_compute; reflexivity). clearbody s1.
  apply runs_inv in G. destruct G as [G | (d & E & G)]; [apply (f_equal fst) in G; vm_compute in G; discriminate G|].
  assert (D2 : decode (code0 pc1) = Some (Jirl 0 13 512)) by (vm_compute; reflexivity).
  unfold step in E. cbn [fst snd] in E. rewrite D2 in E. apply (f_equal (fun o => match o with Some x => x | None => d end)) in E.
  cbv beta iota in E. subst d. cbn [exec] in G. change (rG s1 13) with (s1 13) in G. rewrite F1 in G.
  apply runs_inv in G. destruct G as [G | (d & E & G)]; [apply (f_equal fst) in G; vm_compute in G; discriminate G|].
  assert (D3 : decode (code0 (wrap (0x20001000 + sext 18 (Z.shiftl 512 2)))) = None) by (vm_compute; reflexivity).
  unfold step in E. cbn [fst snd] in E. rewrite D3 in E. discriminate E.
Qed.

(** The address 2 GB - 2 KB after the instruction. *)
Definition t1 : Z := 0x8ffff800.
Definition words1 : list Z := link_addr 2 p0 t1.
Definition code1 : Z -> Z := two p0 (nth 0 words1 0) (nth 1 words1 0).
Lemma code1_at : code_at 4 (link_addr 2 p0 t1) p0 code1.
Proof. vm_compute. tauto. Qed.
Lemma legal1 : isw t1 /\ p0 + 4 * Z.of_nat (length (link_addr 2 p0 t1)) = p0 + 8.
Proof. vm_compute. repeat split; discriminate. Qed.
Lemma addr_wrong : ~ exists s', goes code1 p0 (fun _ => 0) (p0 + 8) s' /\ s' (reg_map 2) = t1.
Proof.
  intros (s' & G & V). unfold goes in G. apply runs_inv in G. destruct G as [G | (d & E & G)]; [apply (f_equal fst) in G; vm_compute in G; discriminate G|].
  assert (D1 : decode (code1 (wrap p0)) = Some (Pcaddu12i 5 0x80000)) by (vm_compute; reflexivity).
  unfold step in E. cbn [fst snd] in E. rewrite D1 in E. apply (f_equal (fun o => match o with Some x => x | None => d end)) in E.
  cbv beta iota in E. subst d. cbn [exec] in G.
  set (pc1 := wrap (wrap p0 + 4)) in G. set (s1 := wG (fun _ => 0) 5 (wrap (wrap p0 + sext 32 (Z.shiftl 524288 12)))) in G.
  assert (F1 : s1 5 = wrap (0x10000000 - 0x80000000)) by (vm_compute; reflexivity). clearbody s1.
  apply runs_inv in G. destruct G as [G | (d & E & G)]; [apply (f_equal fst) in G; vm_compute in G; discriminate G|].
  assert (D2 : decode (code1 pc1) = Some (AddiD 5 5 2048)) by (vm_compute; reflexivity).
  unfold step in E. cbn [fst snd] in E. rewrite D2 in E. apply (f_equal (fun o => match o with Some x => x | None => d end)) in E.
  cbv beta iota in E. subst d. cbn [exec] in G. change (rG s1 5) with (s1 5) in G. rewrite F1 in G.
  apply runs_inv in G. destruct G as [G | (d & E & G)].
  - apply (f_equal (fun c => snd c 5)) in G. change (s' (reg_map 2)) with (s' 5) in V. cbn [snd] in G. rewrite V in G. vm_compute in G. discriminate G.
  - assert (D3 : decode (code1 (wrap (pc1 + 4))) = None) by (vm_compute; reflexivity).
    unfold step in E. cbn [fst snd] in E. rewrite D3 in E. discriminate E.
Qed.

Lemma jump_reaches_false : ~ jump_reaches.
Proof.
  intros H. destruct legal0 as (A & B & C).
  destruct (H code0 p0 (fun _ => 0) false JAlways false t0 I A B C code0_at eq_refl) as (s' & G & _).
  apply jump_wrong. exists s'. exact G.
Qed.
Lemma address_exact_false : ~ address_exact.
Proof.
  intros H. destruct legal1 as (A & B).
  destruct (H code1 p0 (fun _ => 0) 2 t1 ltac:(lia) A code1_at) as (s' & G & V & _).
  rewrite B in G. apply addr_wrong. exists s'. auto.
Qed.
