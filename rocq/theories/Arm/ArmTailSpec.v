(** ARM64: straight code which ends in a call. *)
Require Import ZArith List Bool Lia.
From Verif Require Import Rv.RvLib Arm.ArmIsa Arm.ArmBr Arm.ArmPair Arm.ArmFrameSpec.
Import ListNotations.
Open Scope Z_scope.

(** Straight code at the address [pc] which ends in a BLR: the address continued at and the state, in which x30 is the address after the BLR. *)
Fixpoint blr_f (ws : list Z) (pc : Z) (s : fstate) : option (Z * fstate) :=
  match ws with
  | [] => None
  | w :: ws' =>
      match ws' with
      | [] => match decode_br w with Some (IBr true rn) => Some (rX (gs s) rn, wG s 30 (wrap (pc + 4))) | _ => None end
      | _ => match step_f w s with None => None | Some s' => blr_f ws' (pc + 4) s' end
      end
  end.
