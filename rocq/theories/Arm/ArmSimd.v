(** ARM64 backend: sljit_emit_simd_replicate of integers (from a register or an immediate); sljitNativeARM_64.c, A64 below. *)
Require Import ZArith List Bool Lia.
From Verif Require Import Rv.RvLib Arm.ArmEnc Arm.ArmImm Arm.ArmJump Arm.ArmOp Arm.ArmMem Arm.ArmFrame.
Import ListNotations.
Open Scope Z_scope.

(** A64:96 *)
Definition DUP_g := 0x0e000c00.
(** A64:133 *)
Definition MOVI := 0x0f000400.
(** A64:60 VD *)
Definition VD (r : Z) : Z := freg_map r.
(** A64:2936-2939: the elements are made smaller if their halves are equal. *)
Definition halve32 (e : Z * Z) : Z * Z := let (es, v) := e in if (2 <? es) && (u32 v =? Z.shiftr v 32) then (2, u32 v) else e.
(** A64:2941-2944 *)
Definition halve16 (e : Z * Z) : Z * Z := let (es, v) := e in if (es =? 2) && (v .& 0xffff =? Z.shiftr v 16) then (1, v .& 0xffff) else e.
(** A64:2946-2949 *)
Definition halve8 (e : Z * Z) : Z * Z := let (es, v) := e in if (es =? 1) && (v .& 0xff =? Z.shiftr v 8) then (0, v .& 0xff) else e.
(** A64:2961-2970, one pass of the loop: the value and the result; [None]: no form. *)
Definition try16 (v r : Z) : option (Z * Z) :=
  if v <=? 0xff then Some (v, r .| 0x8000)
  else if v .& 0xff =? 0 then Some (Z.shiftr v 8, r .| 0xa000)
  else None.
(** A64:2984-3019, one pass of the loop. *)
Definition try32 (v r : Z) : option (Z * Z) :=
  if v <=? 0xff then Some (v, r .| 0x0000)
  else if v .& (2 ^ 64 - 1 - 0xff00) =? 0 then Some (Z.shiftr v 8, r .| 0x2000)
  else if v .& (2 ^ 64 - 1 - 0xff0000) =? 0 then Some (Z.shiftr v 16, r .| 0x4000)
  else if v .& (2 ^ 64 - 1 - 0xff000000) =? 0 then Some (Z.shiftr v 24, r .| 0x6000)
  else if (v .& 0xff =? 0xff) && (Z.shiftr v 16 =? 0) then Some (Z.shiftr v 8, r .| 0xc000)
  else if (v .& 0xffff =? 0xffff) && (Z.shiftr v 24 =? 0) then Some (Z.shiftr v 16, r .| 0xd000)
  else None.
(** A64:2972-2977, 3021-3026: the second pass has the inverted value. *)
Definition twice (f : Z -> Z -> option (Z * Z)) (mask v : Z) : option (Z * Z) :=
  match f v 0 with Some e => Some e | None => f (Z.lxor v mask) (Z.shiftl 1 29) end.
(** A64:2932-3034 simd_get_imm; [None] is ~0. *)
Definition simd_get_imm (es v : Z) : option Z :=
  let (es, v) := halve8 (halve16 (halve32 (es, v))) in
  match (if es =? 0 then Some (v, 0xe000) else if es =? 1 then twice try16 0xffff v else if es =? 2 then twice try32 0xffffffff v else None) with
  | None => None
  | Some (v, r) => Some (Z.shiftl (u32 v .& 0x1f) 5 .| Z.shiftl (u32 v .& 0xe0) 11 .| r)
  end.
(** A64:3036-3096 sljit_emit_simd_replicate without SLJIT_SIMD_FLOAT, the source not in memory; [q]: a register of 128 bits. *)
Definition emit_simd_replicate (q : bool) (es vreg : Z) (src : arg) : option (list Z) :=
  let ins := Z.shiftl 1 (16 + es) .| (if q then Z.shiftl 1 30 else 0) in
  match src with
  | AReg r => Some [DUP_g .| ins .| VD vreg .| RN r]
  | AImm i =>
      let i := if es <? 3 then i .& (Z.shiftl 1 (Z.shiftl (Z.shiftl 1 es) 3) - 1) else i in
      match simd_get_imm es (wrap i) with
      | Some imm => Some [MOVI .| (imm .| (ins .& Z.shiftl 1 30)) .| VD vreg]
      | None => match load_immediate TMP_REG2 i with None => None | Some ws => Some (ws ++ [DUP_g .| ins .| VD vreg .| RN TMP_REG2]) end
      end
  end.
