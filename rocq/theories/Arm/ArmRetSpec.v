(** ARM64: what sljit_emit_return_to, SLJIT_GET_RETURN_ADDRESS, SLJIT_FAST_ENTER and SLJIT_FAST_RETURN should do, from the API (sljitLir.h:970-976, 1473-1517, 1695-1715). *)
Require Import ZArith List Bool Lia.
From Verif Require Import Rv.RvLib Arm.ArmIsa Arm.ArmBr Arm.ArmEnc Arm.ArmOp Arm.ArmOpSpec Arm.ArmMem Arm.ArmMemSpec Arm.ArmCselSpec Arm.ArmPair Arm.ArmFrame Arm.ArmFrameSpec.
Import ListNotations.
Open Scope Z_scope.

(** Straight code and a BR: the address continued at and the state. *)
Fixpoint br_f (ws : list Z) (s : fstate) : option (Z * fstate) :=
  match ws with
  | [] => None
  | w :: ws' =>
      match ws' with
      | [] => match decode_br w with Some (IBr false rn) => Some (rX (gs s) rn, s) | _ => None end
      | _ => match step_f w s with None => None | Some s' => br_f ws' s' end
      end
  end.
(** As after a return, but x9 (no register of the API) may have any value. *)
Definition left_to (c : ctx) (s s2 s3 : fstate) : Prop := left_frame c s (mkF (wX (gs s2) 9 (gr s3 9)) (vd s2)) s3.
(** The destination gets the word [v]; nothing else but the registers which are not of the API changes. *)
Definition did_move (d : opd) (v : Z) (s s' : fstate) : Prop :=
  match d with
  | DReg r => gr s' (reg_map r) = v /\ mem s' = mem s
  | DMem m => stored (mem s) (mem s') (place (gs s) m) 8 v
  | DImm _ => False
  end /\ same_flags (gs s) (gs s') /\ vd s' = vd s /\ (forall k, DReg k <> d -> 1 <= k <= 27 -> gr s' (reg_map k) = gr s (reg_map k)).
(** Nothing but the registers which are not of the API changes. *)
Definition same_api (s s' : fstate) : Prop :=
  mem s' = mem s /\ same_flags (gs s) (gs s') /\ vd s' = vd s /\ (forall k, 1 <= k <= 27 -> gr s' (reg_map k) = gr s (reg_map k)).
