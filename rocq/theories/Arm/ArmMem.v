(** ARM64 backend: operands in memory (emit_op_mem and the operators around it) and double shifts; sljitNativeARM_64.c, A64 below. *)
Require Import ZArith List Bool Lia.
From Verif Require Import Rv.RvLib Arm.ArmEnc Arm.ArmImm Arm.ArmJump Arm.ArmOp.
Import ListNotations.
Open Scope Z_scope.

(** SLJIT_MEM1, SLJIT_MEM2 and SLJIT_MEM0 (sljitLir.h:1115-1132). *)
Inductive maddr := MBase (r w : Z) | MIndex (r o k : Z) | MAbs (w : Z).
(** ADJUST_LOCAL_OFFSET (sljitLir.c:341-343), SLJIT_LOCALS_OFFSET is two words (sljitConfigInternal.h:663). *)
Definition adjust (m : maddr) : maddr := match m with MBase r w => if r =? SLJIT_SP then MBase r (w + 16) else m | _ => m end.

(** A64:56 *)
Definition RT (r : Z) := reg_map r.
(** A64:1171-1175: the bits for the size and the direction; [sh] is MEM_SIZE_SHIFT, [sg] SIGNED, [st] STORE. *)
Definition mem_type (sh : Z) (sg st : bool) : Z := Z.shiftl sh 30 .| (if st then 0 else if sg then 0x00800000 else 0x00400000).
(** load_immediate and one more word. *)
Definition load_then (tmp i w : Z) : option (list Z) := match load_immediate tmp i with None => None | Some ws => Some (ws ++ [w]) end.
(** A64:1200-1239: a base register and an offset. *)
Definition mem_base (t sh reg arg argw tmp : Z) : option (list Z) :=
  let far :=
    if (argw <=? 0xff) && (-0x100 <=? argw) then Some [STURBI .| t .| RT reg .| RN arg .| Z.shiftl (u32 argw .& 0x1ff) 12]
    else if (((argw + 0x100) .& 0xfff) <=? 0x1ff) && (argw <=? 0xfff0ff) && (-0xfff100 <=? argw) then
      if 0 <=? argw then
        let argw := if argw .& 0x100 =? 0 then argw else argw + 0x1000 in
        Some [ADDI .| Z.shiftl 1 22 .| RD tmp .| RN arg .| Z.shiftl (Z.shiftr argw 12) 10; STURBI .| t .| RT reg .| RN tmp .| Z.shiftl (u32 argw .& 0x1ff) 12]
      else
        let argw := if argw .& 0x100 =? 0 then argw - 0x1000 else argw in
        Some [SUBI .| Z.shiftl 1 22 .| RD tmp .| RN arg .| Z.shiftl (Z.shiftr (- argw) 12) 10; STURBI .| t .| RT reg .| RN tmp .| Z.shiftl (u32 argw .& 0x1ff) 12]
    else load_then tmp argw (STRB .| t .| RT reg .| RN arg .| RM tmp) in
  if argw .& (Z.shiftl 1 sh - 1) =? 0 then
    if 0 <=? argw then
      if Z.shiftr argw sh <=? 0xfff then Some [STRBI .| t .| RT reg .| RN arg .| Z.shiftl argw (10 - sh)]
      else if argw <=? 0xffffff then
        Some [ADDI .| Z.shiftl 1 22 .| RD tmp .| RN arg .| Z.shiftl (Z.shiftr argw 12) 10;
              STRBI .| t .| RT reg .| RN tmp .| Z.shiftl (Z.shiftr (argw .& 0xfff) sh) 10]
      else far
    else if (argw <? -256) && (-0xfff000 <=? argw) then
      Some [SUBI .| Z.shiftl 1 22 .| RD tmp .| RN arg .| Z.shiftl (Z.shiftr (- argw + 0xfff) 12) 10;
            STRBI .| t .| RT reg .| RN tmp .| Z.shiftl (Z.shiftr ((0x1000 + argw) .& 0xfff) sh) 10]
    else far
  else far.
(** A64:1168-1240 emit_op_mem; [None]: a failed assertion of load_immediate. *)
Definition emit_op_mem (sh : Z) (sg st : bool) (reg : Z) (m : maddr) (tmp : Z) : option (list Z) :=
  let t := mem_type sh sg st in
  match m with
  | MIndex r o k =>
      let k := k .& 3 in
      if (k =? 0) || (k =? sh) then Some [STRB .| t .| RT reg .| RN r .| RM o .| (if k =? 0 then 0 else Z.shiftl 1 12)]
      else Some [ADD .| RD tmp .| RN r .| RM o .| Z.shiftl k 10; STRBI .| t .| RT reg .| RN tmp]
  | MAbs w => load_then tmp (w .& Z.lnot (Z.shiftl 0xfff sh)) (STRBI .| t .| RT reg .| RN tmp .| Z.shiftl (Z.shiftr w sh .& 0xfff) 10)
  | MBase r w => mem_base t sh reg r w tmp
  end.

(** ** The operators *)
Inductive opd := DReg (r : Z) | DImm (i : Z) | DMem (m : maddr).
(** Sequences one after the other. *)
Definition both (a b : option (list Z)) : option (list Z) := match a, b with Some x, Some y => Some (x ++ y) | _, _ => None end.
(** A source in memory is loaded into [tmp] (A64:1747-1755), [sh] is the size; the words and the operand afterwards. *)
Definition load_opd (sh tmp : Z) (a : opd) : option (list Z) * arg :=
  match a with DReg r => (Some [], AReg r) | DImm i => (Some [], AImm i) | DMem m => (emit_op_mem sh false false tmp (adjust m) tmp, AReg tmp) end.
(** A destination in memory is stored from [reg] (A64:1770-1771). *)
Definition store_opd (sh reg : Z) (d : opd) : option (list Z) := match d with DMem m => emit_op_mem sh false true reg (adjust m) TMP_REG2 | _ => Some [] end.
(** A64:1736: dst_r. *)
Definition dst_reg (d : opd) : Z := match d with DReg r => r | _ => TMP_REG1 end.
(** A64:1738-1743: the size of the operands. *)
Definition size2 (w32 : bool) : Z := if w32 then 2 else 3.
(** A64:1723-1773 sljit_emit_op2 (and, by A64:1775-1801, sljit_emit_op2u, whose destination is TMP_REG2, and sljit_emit_op2r). *)
Definition emit_op2 (op : op2) (w32 setf : bool) (d a1 a2 : opd) : option (list Z) :=
  let (l1, x1) := load_opd (size2 w32) TMP_REG1 a1 in
  let (l2, x2) := load_opd (size2 w32) TMP_REG2 a2 in
  both l1 (both l2 (both (emit_op_imm op w32 setf (dst_reg d =? TMP_REG2) (dst_reg d) x1 x2) (store_opd (size2 w32) (dst_reg d) d))).

(** A64:1636-1676: the size and the sign of a move. *)
Definition mov_size (op : op1) : Z * bool :=
  match op with
  | OMovU8 => (0, false) | OMovS8 => (0, true) | OMovU16 => (1, false) | OMovS16 => (1, true)
  | OMovU32 => (2, false) | OMovS32 | OMov32 => (2, true)
  | _ => (3, false)
  end.
(** A64:1692-1709: the size of the other operations. *)
Definition size1 (op : op1) (w32 : bool) : Z := match op with ORevU16 | ORevS16 => 1 | ORevU32 | ORevS32 => 2 | _ => size2 w32 end.
(** A64:1616-1721 sljit_emit_op1 (A64:1633-1634: two registers). *)
Definition emit_op1 (op : op1) (w32 : bool) (d a : opd) : option (list Z) :=
  if is_mov op then
    let (sh, sg) := mov_size op in
    match d, a with
    | DReg rd, DReg rs => Some (reg1_form op w32 rd rs)
    | _, _ =>
        let store r := match d with DMem m => emit_op_mem sh sg true r (adjust m) TMP_REG2 | _ => Some [] end in
        match a with
        | DImm i => both (load_immediate (dst_reg d) (conv1 op i)) (store (dst_reg d))
        | DReg rs => store rs
        | DMem m => both (emit_op_mem sh sg false (dst_reg d) (adjust m) TMP_REG2) (store (dst_reg d))
        end
    end
  else
    let (l, x) := load_opd (size1 op w32) TMP_REG2 a in
    match x with
    | AImm _ => None
    | AReg src => both l (both (Some (reg1_form op (op1_w32 op w32) (dst_reg d) src)) (store_opd (size1 op w32) (dst_reg d) d))
    end.

(** ** Double shifts *)
(** A64:1827-1839: the count is an immediate. *)
Definition shift_into_imm (left w32 : bool) (dst src1 src2 k : Z) : list Z :=
  let inv := inv_bits w32 in
  let mask := if w32 then 0x1f else 0x3f in
  let k := k .& mask in
  if k =? 0 then []
  else
    let k := if left then Z.lxor k mask + 1 else k in
    [Z.lxor EXTR (inv .| Z.shiftr inv 9) .| RD dst .| RN (if left then src1 else src2) .| RM (if left then src2 else src1) .| Z.shiftl k 10].
(** A64:1849-1869: the count is in the register [src3]; [nz]: SLJIT_SHIFT_INTO_NON_ZERO. *)
Definition shift_into_reg (left w32 nz : bool) (dst src1 src2 src3 : Z) : list Z :=
  let inv := inv_bits w32 in
  [Z.lxor (if left then LSLV else LSRV) inv .| RD dst .| RN src1 .| RM src3] ++
  (if nz then [Z.lxor SUB inv .| RD TMP_REG2 .| RN TMP_ZERO .| RM src3]
   else
     [Z.lxor UBFM (inv .| Z.shiftr inv 9) .| RD TMP_REG1 .| RN src2 .|
        (if left then (if w32 then Z.shiftl 1 16 .| Z.shiftl 31 10 else Z.shiftl 1 16 .| Z.shiftl 63 10 .| Z.shiftl 1 22)
         else (if w32 then Z.shiftl 31 16 .| Z.shiftl 30 10 else Z.shiftl 63 16 .| Z.shiftl 62 10 .| Z.shiftl 1 22));
      Z.lxor EORI inv .| RD TMP_REG2 .| RN src3 .| (if w32 then Z.shiftl 4 10 else Z.shiftl 5 10 .| Z.shiftl 1 22)]) ++
  [Z.lxor (if left then LSRV else LSLV) inv .| RD TMP_REG1 .| RN (if nz then src2 else TMP_REG1) .| RM TMP_REG2;
   Z.lxor ORR inv .| RD dst .| RN dst .| RM TMP_REG1].
(** A64:1803-1870 sljit_emit_shift_into *)
Definition emit_shift_into (left w32 nz : bool) (dst src1 src2 : Z) (src3 : opd) : option (list Z) :=
  if src1 =? src2 then emit_op2 (if left then ORotl else ORotr) w32 false (DReg dst) (DReg src1) src3
  else
    match src3 with
    | DImm k => Some (shift_into_imm left w32 dst src1 src2 k)
    | DMem m => both (emit_op_mem (size2 w32) false false TMP_REG2 (adjust m) TMP_REG2) (Some (shift_into_reg left w32 nz dst src1 src2 TMP_REG2))
    | DReg r => if dst =? r then Some ([MOV .| RD TMP_REG2 .| RM r] ++ shift_into_reg left w32 nz dst src1 src2 TMP_REG2)
        else Some (shift_into_reg left w32 nz dst src1 src2 r)
    end.
