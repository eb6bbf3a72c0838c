(** C26: load_immediate (ARM64) loads every 64 bit value. *)
Require Import ZArith List Bool Lia.
From Verif Require Import Rv.RvLib Arm.ArmIsa Arm.ArmEnc Arm.ArmImm Arm.ArmLogImm Arm.ArmLoadImm.
Import ListNotations.
Open Scope Z_scope.

(** For every word and every destination register (the 26 general registers of sljit, and the two
    temporary, the link and the frame pointer registers), load_immediate fails no assertion, and
    executing its words from any state leaves the value in the destination, with the other
    registers, the condition flags and the memory unchanged. *)
Theorem C26_immediate_exact : forall dst imm s,
  1 <= dst <= 26 \/ 28 <= dst <= 31 -> - 2 ^ 63 <= imm < 2 ^ 63 ->
  exists words s', load_immediate dst imm = Some words /\ run words s = Some s' /\
    xr s' (reg_map dst) = imm mod 2 ^ 64 /\
    (forall k, k <> reg_map dst -> xr s' k = xr s k) /\
    nf s' = nf s /\ zf s' = zf s /\ cf s' = cf s /\ vf s' = vf s /\ mm s' = mm s.
Proof. exact (fun dst imm s => load_immediate_ok dst imm s). Qed.
Print Assumptions C26_immediate_exact.

(** Cases: one, two, three and four words; a move wide, an inverted move wide, 32 bit forms, a bitmask. *)
Definition st7 : st := mkSt (fun _ => 77) true false true false (fun _ => 0).
Definition result (imm : Z) : option (nat * Z * Z) :=
  match load_immediate 5 imm with
  | Some ws => match run ws st7 with Some s => Some (length ws, xr s (reg_map 5), xr s (reg_map 6)) | None => None end
  | None => None
  end.
Example C26_cases : map result [0; 0x1234; -0x1234; 0xffff1234; 0x12340000; 0x00ff00ff00ff00ff; 0x12345678; -0x12345678;
    0x1234ffff5678ffff; 0x0000123456789abc; 0x123456789abcdef0; 0x100000001] =
  [Some (1%nat, 0, 77); Some (1%nat, 0x1234, 77); Some (1%nat, 0xffffffffffffedcc, 77); Some (1%nat, 0xffff1234, 77);
   Some (1%nat, 0x12340000, 77); Some (1%nat, 0x00ff00ff00ff00ff, 77); Some (2%nat, 0x12345678, 77); Some (2%nat, 0xffffffffedcba988, 77);
   Some (2%nat, 0x1234ffff5678ffff, 77); Some (3%nat, 0x123456789abc, 77); Some (4%nat, 0x123456789abcdef0, 77);
   Some (2%nat, 0x100000001, 77)].
Proof. vm_compute. reflexivity. Qed.
