(** ARM64 backend: operators on registers and immediates (emit_op_imm, sljit_emit_op0, sljit_emit_op1, sljit_emit_op2, sljit_emit_op2u; sljitNativeARM_64.c, A64 below).
    Operands in memory are loaded and stored by emit_op_mem around these words and are not part of this file. *)
Require Import ZArith List Bool Lia.
From Verif Require Import Rv.RvLib Arm.ArmEnc Arm.ArmImm Arm.ArmJump.
Import ListNotations.
Open Scope Z_scope.

(** The operations with two operands (sljitLir.h:1325-1416). *)
Inductive op2 := OAdd | OAddc | OSub | OSubc | OMul | OAnd | OOr | OXor | OShl | OMshl | OLshr | OMlshr | OAshr | OMashr | ORotl | ORotr | OMuladd.
(** An operand: a register or an immediate (ARG1_IMM, ARG2_IMM, A64:839-840). *)
Inductive arg := AReg (r : Z) | AImm (i : Z).

(** A64:857: INT_OP. *)
Definition inv_bits (w32 : bool) : Z := if w32 then W_OP else 0.
(** A64:845-850 CHECK_FLAGS: the bits and the destination. *)
Definition flag_bits (w32 setf : bool) (b : Z) : Z := if setf then inv_bits w32 .| b else inv_bits w32.
Definition flag_dst (setf unused : bool) (dst : Z) : Z := if setf && unused then TMP_ZERO else dst.
(** A64:1152-1155: set_flags; [inv] is inv_bits at this point. *)
Definition set_flags (setf : bool) (inv dst : Z) : list Z := if setf then [Z.lxor SUBS inv .| RD TMP_ZERO .| RN dst .| RM TMP_ZERO] else [].

(** A64:1089-1155: both operands are registers. *)
Definition reg_form (op : op2) (w32 setf unused : bool) (dst arg1 arg2 : Z) : list Z :=
  let inv := inv_bits w32 in
  let fl := flag_bits w32 setf (Z.shiftl 1 29) in
  let d := flag_dst setf unused dst in
  match op with
  | OAdd => [Z.lxor ADD fl .| RD d .| RN arg1 .| RM arg2]
  | OAddc => [Z.lxor ADC fl .| RD d .| RN arg1 .| RM arg2]
  | OSub => [Z.lxor SUB fl .| RD d .| RN arg1 .| RM arg2]
  | OSubc => [Z.lxor SBC fl .| RD d .| RN arg1 .| RM arg2]
  | OMul =>
      if negb setf then [Z.lxor MADD inv .| RD dst .| RN arg1 .| RM arg2 .| RT2 TMP_ZERO]
      else if w32 then
        [SMADDL .| RD dst .| RN arg1 .| RM arg2 .| Z.shiftl 31 10;
         ADD .| RD TMP_LR .| RN TMP_ZERO .| RM dst .| Z.shiftl 2 22 .| Z.shiftl 31 10;
         SUBS .| RD TMP_ZERO .| RN TMP_LR .| RM dst .| Z.shiftl 2 22 .| Z.shiftl 63 10]
      else
        [SMULH .| RD TMP_LR .| RN arg1 .| RM arg2;
         MADD .| RD dst .| RN arg1 .| RM arg2 .| RT2 TMP_ZERO;
         SUBS .| RD TMP_ZERO .| RN TMP_LR .| RM dst .| Z.shiftl 2 22 .| Z.shiftl 63 10]
  | OAnd => [Z.lxor AND (flag_bits w32 setf (Z.shiftl 3 29)) .| RD d .| RN arg1 .| RM arg2]
  | OOr => [Z.lxor ORR inv .| RD dst .| RN arg1 .| RM arg2] ++ set_flags setf inv dst
  | OXor => [Z.lxor EOR inv .| RD dst .| RN arg1 .| RM arg2] ++ set_flags setf inv dst
  | OShl | OMshl => [Z.lxor LSLV inv .| RD dst .| RN arg1 .| RM arg2] ++ set_flags setf inv dst
  | OLshr | OMlshr => [Z.lxor LSRV inv .| RD dst .| RN arg1 .| RM arg2] ++ set_flags setf inv dst
  | OAshr | OMashr => [Z.lxor ASRV inv .| RD dst .| RN arg1 .| RM arg2] ++ set_flags setf inv dst
  | ORotl => [Z.lxor SUB inv .| RD TMP_REG2 .| RN TMP_ZERO .| RM arg2; Z.lxor RORV inv .| RD dst .| RN arg1 .| RM TMP_REG2]
  | ORotr => [Z.lxor RORV inv .| RD dst .| RN arg1 .| RM arg2]
  | OMuladd => [Z.lxor MADD inv .| RD dst .| RN arg1 .| RM arg2 .| RT2 dst]
  end.

(** The result of the part for immediates: a failed assertion, no form (break), the words. *)
Inductive iform := IFail | IBreak | IDone (ws : list Z).
(** A64:896-935: ADD and SUB with the immediate [imm] (negated for SUB). *)
Definition add_form (add : bool) (w32 setf unused : bool) (dst reg imm : Z) : iform :=
  let fl := flag_bits w32 setf (Z.shiftl 1 29) in
  let d := flag_dst setf unused dst in
  let nimm := sw (- imm) in
  if imm =? 0 then IDone [Z.lxor (if add then ADDI else SUBI) fl .| RD d .| RN reg]
  else if (0 <? imm) && (imm <=? 0xfff) then IDone [Z.lxor ADDI fl .| RD d .| RN reg .| Z.shiftl imm 10]
  else if (0 <? nimm) && (nimm <=? 0xfff) then IDone [Z.lxor SUBI fl .| RD d .| RN reg .| Z.shiftl nimm 10]
  else if (0 <? imm) && (imm <=? 0xffffff) && (imm .& 0xfff =? 0) then
    IDone [Z.lxor ADDI fl .| RD d .| RN reg .| Z.shiftl (Z.shiftr imm 12) 10 .| Z.shiftl 1 22]
  else if (0 <? nimm) && (nimm <=? 0xffffff) && (nimm .& 0xfff =? 0) then
    IDone [Z.lxor SUBI fl .| RD d .| RN reg .| Z.shiftl (Z.shiftr nimm 12) 10 .| Z.shiftl 1 22]
  else if (0 <? imm) && (imm <=? 0xffffff) && negb setf then
    IDone [Z.lxor ADDI (inv_bits w32) .| RD dst .| RN reg .| Z.shiftl (Z.shiftr imm 12) 10 .| Z.shiftl 1 22;
           Z.lxor ADDI (inv_bits w32) .| RD dst .| RN dst .| Z.shiftl (imm .& 0xfff) 10]
  else if (0 <? nimm) && (nimm <=? 0xffffff) && negb setf then
    IDone [Z.lxor SUBI (inv_bits w32) .| RD dst .| RN reg .| Z.shiftl (Z.shiftr nimm 12) 10 .| Z.shiftl 1 22;
           Z.lxor SUBI (inv_bits w32) .| RD dst .| RN dst .| Z.shiftl (nimm .& 0xfff) 10]
  else IBreak.
(** The second argument of logical_imm (A64:937, 949). *)
Definition li_arg (w32 : bool) : Z := LOGICAL_IMM_CHECK .| (if w32 then 16 else 32).
(** A64:963-969 (SHL), 985-991 (LSHR, ASHR): the immediates. *)
Definition shl_bits (w32 : bool) (imm : Z) : Z :=
  if w32 then let imm := imm .& 0x1f in Z.shiftl (- imm .& 0x1f) 16 .| Z.shiftl (31 - imm) 10
  else let imm := imm .& 0x3f in Z.shiftl 1 22 .| Z.shiftl (- imm .& 0x3f) 16 .| Z.shiftl (63 - imm) 10.
Definition shr_bits (w32 : bool) (imm : Z) : Z :=
  if w32 then Z.shiftl (imm .& 0x1f) 16 .| Z.shiftl 31 10 else Z.shiftl 1 22 .| Z.shiftl (imm .& 0x3f) 16 .| Z.shiftl 63 10.
(** A64:874-1008: one operand is an immediate; [a1i]: it is the first one; [reg] is the other. *)
Definition imm_form (op : op2) (w32 setf unused a1i : bool) (dst reg imm : Z) : iform :=
  let inv := inv_bits w32 in
  let sinv := inv .| Z.shiftr inv 9 in
  match op with
  | OAddc | OSubc | OMul | OMuladd => IBreak
  | OSub => if a1i then IBreak else add_form false w32 setf unused dst reg (sw (- imm))
  | OAdd => add_form true w32 setf unused dst reg imm
  | OAnd =>
      match logical_imm imm (li_arg w32) with
      | None => IFail
      | Some b => if b =? 0 then IBreak
          else IDone [Z.lxor ANDI (flag_bits w32 setf (Z.shiftl 3 29)) .| RD (flag_dst setf unused dst) .| RN reg .| b]
      end
  | OXor =>
      if imm =? -1 then IDone ([Z.lxor ORN inv .| RD dst .| RN TMP_ZERO .| RM reg] ++ set_flags setf inv dst)
      else match logical_imm imm (li_arg w32) with
        | None => IFail
        | Some b => if b =? 0 then IBreak else IDone ([Z.lxor (b .| EORI) inv .| RD dst .| RN reg] ++ set_flags setf inv dst)
        end
  | OOr =>
      match logical_imm imm (li_arg w32) with
      | None => IFail
      | Some b => if b =? 0 then IBreak else IDone ([Z.lxor (b .| ORRI) inv .| RD dst .| RN reg] ++ set_flags setf inv dst)
      end
  | OShl | OMshl => if a1i then IBreak else IDone ([Z.lxor UBFM sinv .| RD dst .| RN reg .| shl_bits w32 imm] ++ set_flags setf sinv dst)
  | OLshr | OMlshr => if a1i then IBreak else IDone ([Z.lxor UBFM sinv .| RD dst .| RN reg .| shr_bits w32 imm] ++ set_flags setf sinv dst)
  | OAshr | OMashr =>
      let sinv := sinv .| Z.shiftl 1 30 in
      if a1i then IBreak else IDone ([Z.lxor UBFM sinv .| RD dst .| RN reg .| shr_bits w32 imm] ++ set_flags setf sinv dst)
  | ORotl | ORotr =>
      if a1i then IBreak
      else
        let imm := match op with ORotl => sw (- imm) | _ => imm end in
        let imm := imm .& (if w32 then 0x1f else 0x3f) in
        IDone [Z.lxor EXTR sinv .| RD dst .| RN reg .| RM reg .| Z.shiftl imm 10]
  end.
(** A64:1010-1025: an immediate without a form in a temporary register; zero is the zero register. *)
Definition imm_reg (tmp imm : Z) : option (list Z * Z) :=
  if imm =? 0 then Some ([], TMP_ZERO) else match load_immediate tmp imm with None => None | Some ws => Some (ws, tmp) end.
(** A64:874-1155: emit_op_imm when the second operand is an immediate and the first one a register. *)
Definition one_imm (op : op2) (w32 setf unused : bool) (dst r1 imm : Z) : option (list Z) :=
  match imm_form op w32 setf unused false dst r1 imm with
  | IFail => None
  | IDone ws => Some ws
  | IBreak => match imm_reg TMP_REG2 imm with None => None | Some (ws, r2) => Some (ws ++ reg_form op w32 setf unused dst r1 r2) end
  end.
(** A64:866 *)
Definition is_add_sub (op : op2) : bool := match op with OAdd | OSub => true | _ => false end.
(** A64:852-1156 emit_op_imm for the operations with two operands. *)
Definition emit_op_imm (op : op2) (w32 setf unused : bool) (dst : Z) (a1 a2 : arg) : option (list Z) :=
  match a1, a2 with
  | AReg r1, AReg r2 => Some (reg_form op w32 setf unused dst r1 r2)
  | AReg r1, AImm i => one_imm op w32 setf unused dst r1 i
  | AImm i, AReg r2 =>
      match imm_form op w32 setf unused true dst r2 i with
      | IFail => None
      | IDone ws => Some ws
      | IBreak => match imm_reg TMP_REG1 i with None => None | Some (ws, r1) => Some (ws ++ reg_form op w32 setf unused dst r1 r2) end
      end
  | AImm i1, AImm i2 =>
      if (i1 =? 0) && negb (is_add_sub op) then one_imm op w32 setf unused dst TMP_ZERO i2
      else match load_immediate TMP_REG1 i1, one_imm op w32 setf unused dst TMP_REG1 i2 with
        | Some ws1, Some ws2 => Some (ws1 ++ ws2)
        | _, _ => None
        end
  end.
(** A64:1723-1773 sljit_emit_op2 and (MULADD, A64:1786-1801) sljit_emit_op2r with a register destination and operands which are registers or immediates. *)
Definition sljit_emit_op2 (op : op2) (w32 setf : bool) (dst : Z) (a1 a2 : arg) : option (list Z) := emit_op_imm op w32 setf (dst =? TMP_REG2) dst a1 a2.
(** A64:1775-1784 sljit_emit_op2u *)
Definition sljit_emit_op2u (op : op2) (w32 : bool) (a1 a2 : arg) : option (list Z) := sljit_emit_op2 op w32 true TMP_REG2 a1 a2.

(** What the compiler remembers about the flags (status_flags_state) after an operation which sets it (A64:897-904, 1090-1106); [f]: before. *)
Definition state_after (op : op2) (f : fstate) : fstate :=
  match op with OAdd | OAddc => SAdd | OSub | OSubc => SSub | OMul | OMuladd => SOther | _ => f end.

(** ** One operand (sljitLir.h:1247-1310) *)
Inductive op1 := OMov | OMovU8 | OMovS8 | OMovU16 | OMovS16 | OMovU32 | OMovS32 | OMov32 | OMovP | OClz | OCtz | ORev | ORevU16 | ORevS16 | ORevU32 | ORevS32.
(** A64:1029-1088, [src] and [dst] are registers. *)
Definition reg1_form (op : op1) (w32 : bool) (dst src : Z) : list Z :=
  let inv := inv_bits w32 in
  let sinv := inv .| Z.shiftr inv 9 in
  match op with
  | OMov | OMovP => if dst =? src then [] else [MOV .| RD dst .| RM src]
  | OMovU8 => [Z.lxor UBFM sinv .| RD dst .| RN src .| Z.shiftl 7 10]
  | OMovS8 => [Z.lxor SBFM sinv .| RD dst .| RN src .| Z.shiftl 7 10]
  | OMovU16 => [Z.lxor UBFM sinv .| RD dst .| RN src .| Z.shiftl 15 10]
  | OMovS16 => [Z.lxor SBFM sinv .| RD dst .| RN src .| Z.shiftl 15 10]
  | OMov32 => if dst =? src then [] else [Z.lxor MOV W_OP .| RD dst .| RM src]
  | OMovU32 => [Z.lxor MOV W_OP .| RD dst .| RM src]
  | OMovS32 => [SBFM .| Z.shiftl 1 22 .| RD dst .| RN src .| Z.shiftl 31 10]
  | OClz => [Z.lxor CLZ inv .| RD dst .| RN src]
  | OCtz => [Z.lxor RBIT inv .| RD dst .| RN src; Z.lxor CLZ inv .| RD dst .| RN dst]
  | ORev => [Z.lxor REV (inv .| Z.shiftr inv 21) .| RD dst .| RN src]
  | ORevU16 | ORevS16 =>
      (Z.lxor REV16 0x80000000 .| RD dst .| RN src) ::
      (if (dst =? TMP_REG1) || ((src =? TMP_REG2) && match op with ORevU16 => true | _ => false end) then []
       else [Z.lxor (match op with ORevU16 => UBFM | _ => SBFM end) sinv .| RD dst .| RN dst .| Z.shiftl 15 10])
  | ORevU32 => [Z.lxor REV 0x80000400 .| RD dst .| RN src]
  | ORevS32 => (Z.lxor REV 0x80000400 .| RD dst .| RN src) ::
      (if dst =? TMP_REG1 then [] else [SBFM .| Z.shiftl 1 22 .| RD dst .| RN dst .| Z.shiftl 31 10])
  end.
(** A64:1636-1676: the conversion of an immediate. *)
Definition conv1 (op : op1) (i : Z) : Z :=
  match op with
  | OMovU8 => i mod 2 ^ 8 | OMovS8 => sext 8 i | OMovU16 => i mod 2 ^ 16 | OMovS16 => sext 16 i
  | OMovU32 => i mod 2 ^ 32 | OMovS32 | OMov32 => sext 32 i
  | _ => i
  end.
(** A64:1631 *)
Definition is_mov (op : op1) : bool := match op with OClz | OCtz | ORev | ORevU16 | ORevS16 | ORevU32 | ORevS32 => false | _ => true end.
(** A64:1616-1721 sljit_emit_op1 with a register destination; an immediate source is allowed for moves only (sljitLir.h:1273-1310), there
    emit_op_imm is load_immediate (A64:893-895). REV_U16 and the like ignore SLJIT_32 (A64:1692-1709). *)
Definition op1_w32 (op : op1) (w32 : bool) : bool := match op with ORevU16 | ORevS16 | ORevU32 | ORevS32 => false | _ => w32 end.
(** A64:1616-1721 *)
Definition sljit_emit_op1 (op : op1) (w32 : bool) (dst : Z) (a : arg) : option (list Z) :=
  match a with
  | AReg src => Some (reg1_form op (op1_w32 op w32) dst src)
  | AImm i => if is_mov op then load_immediate dst (conv1 op i) else None
  end.

(** ** No operand (sljitLir.h:1177-1212) *)
Inductive op0 := OLmulU | OLmulS | ODivmodU | ODivmodS | ODivU | ODivS.
(** A64:1579-1614 sljit_emit_op0 (multiplications and divisions); SLJIT_R0 and SLJIT_R1 are 1 and 2. *)
Definition sljit_emit_op0 (op : op0) (w32 : bool) : list Z :=
  let inv := inv_bits w32 in
  match op with
  | OLmulU | OLmulS =>
      [MOV .| RD TMP_REG1 .| RM 1; MADD .| RD 1 .| RN 1 .| RM 2 .| RT2 TMP_ZERO;
       (match op with OLmulU => UMULH | _ => SMULH end) .| RD 2 .| RN TMP_REG1 .| RM 2]
  | ODivmodU | ODivmodS =>
      [Z.lxor MOV inv .| RD TMP_REG1 .| RM 1; Z.lxor (match op with ODivmodU => UDIV | _ => SDIV end) inv .| RD 1 .| RN 1 .| RM 2;
       Z.lxor MADD inv .| RD 2 .| RN 1 .| RM 2 .| RT2 TMP_ZERO; Z.lxor SUB inv .| RD 2 .| RN TMP_REG1 .| RM 2]
  | ODivU | ODivS => [Z.lxor (match op with ODivU => UDIV | _ => SDIV end) inv .| RD 1 .| RN 1 .| RM 2]
  end.
