(** ARM64 backend: function entry and return (sljitNativeARM_64.c, A64 below; not for _WIN32). *)
Require Import ZArith List Bool Lia.
From Verif Require Import Rv.RvLib Arm.ArmEnc.
Import ListNotations.
Open Scope Z_scope.

(** A64:50-52 *)
Definition freg_map_list : list Z :=
  [0; 0; 1; 2; 3; 4; 5; 6; 7; 16; 17; 18; 19; 20; 21; 22; 23; 24; 25; 26; 27; 28; 29; 15; 14; 13; 12; 11; 10; 9; 8; 30; 31].
Definition freg_map (r : Z) : Z := nth (Z.to_nat r) freg_map_list 0.
(** A64:120-125, 143, 157-163 *)
Definition LDRI := 0xf9400000.
Definition LDRI_F64 := 0xfd400000.
Definition LDRI_POST := 0xf8400400.
Definition LDP := 0xa9400000.
Definition LDP_F64 := 0x6d400000.
Definition LDP_POST := 0xa8c00000.
Definition RET := 0xd65f0000.
Definition STP := 0xa9000000.
Definition STP_F64 := 0x6d000000.
Definition STP_PRE := 0xa9800000.
Definition STRI := 0xf9000000.
Definition STRI_F64 := 0xfd000000.
(** sljitConfigInternal.h:654-658; SLJIT_S0, SLJIT_FIRST_SAVED_REG - 1, SLJIT_FS0, SLJIT_FIRST_SAVED_FLOAT_REG - 1 (sljitLir.h). *)
Definition S0 := 26.
Definition NSCRATCH := 16.
Definition FS0 := 30.
Definition NFSCRATCH := 22.

(** A function, as known to the backend: the members of struct sljit_compiler set by set_emit_enter (sljitLir.c:826-857; the counts of
    floating point registers are those after update_float_register_count), local_size and the arguments. *)
Record ctx := mkC { c_kept : Z; c_reg_arg : bool; c_scratches : Z; c_saveds : Z; c_fscratches : Z; c_fsaveds : Z; c_local : Z; c_args : list Z }.

(** GET_SAVED_REGISTERS_SIZE and GET_SAVED_FLOAT_REGISTERS_SIZE (sljitLir.c:333-339); A64:1265-1266. *)
Definition saved_regs_size (c : ctx) : Z :=
  ((if c_scratches c <? NSCRATCH then 0 else c_scratches c - NSCRATCH) + (c_saveds c - c_kept c) + 2) * 8 +
  ((if c_fscratches c <? NFSCRATCH then 0 else c_fscratches c - NFSCRATCH) + c_fsaveds c) * 8.
(** A64:1268-1269, compiler->local_size; also set by sljit_set_context (A64:1428-1449). *)
Definition frame_size (c : ctx) : Z := (c_local c + saved_regs_size c + 0xf) .& Z.lnot 0xf.

(** for (i = hi; i > lo; i--): the values of i. *)
Fixpoint down_n (hi : Z) (n : nat) : list Z := match n with O => [] | S n => hi :: down_n (hi - 1) n end.
Definition down (hi lo : Z) : list Z := down_n hi (Z.to_nat (hi - lo)).
(** The registers visited by the two loops over integer registers (A64:1287-1306, 1488-1507), and by those over floating point registers (1310-1329, 1511-1530). *)
Definition ints (c : ctx) : list Z := down (S0 - c_kept c) (S0 - c_saveds c) ++ down (c_scratches c) NSCRATCH.
Definition floats (c : ctx) : list Z := down FS0 (FS0 - c_fsaveds c) ++ down (c_fscratches c) NFSCRATCH.

(** RT, VT: the number of a register (A64:56, 61); [v]: floating point. *)
Definition num (v : bool) (r : Z) : Z := if v then freg_map r else reg_map r.
(** STP, LDP, STP_F64, LDP_F64 (A64:1293, 1316, 1494, 1517). The variable offs of the code is [x << 12], where [x] is an offset in bytes. *)
Definition pair_word (ld v : bool) (p i x : Z) : Z :=
  (if ld then (if v then LDP_F64 else LDP) else if v then STP_F64 else STP) .| num v p .| Z.shiftl (num v i) 10 .| RN SLJIT_SP .| Z.shiftl x 12.
(** STRI, LDRI and the floating point ones (A64:1332, 1335, 1533, 1536): (offs >> 5) | (one ? 1 << 10 : 0). *)
Definition one_word (ld v : bool) (p x : Z) (one : bool) : Z :=
  (if ld then (if v then LDRI_F64 else LDRI) else if v then STRI_F64 else STRI) .| num v p .| RN SLJIT_SP .| Z.shiftr (Z.shiftl x 12) 5 .| (if one then Z.shiftl 1 10 else 0).
(** The loops: a register waits in prev for the next one; words, prev and offs at the end. *)
Fixpoint pairs (ld v : bool) (l : list Z) (prev : option Z) (x : Z) : list Z * option Z * Z :=
  match l with
  | [] => ([], prev, x)
  | i :: l =>
      match prev with
      | None => pairs ld v l (Some i) x
      | Some p => let '(ws, q, x') := pairs ld v l None (x - 16) in (pair_word ld v p i x :: ws, q, x')
      end
  end.
(** A64:1285-1335 (saving) and 1485-1536 (restoring). *)
Definition save_words (ld : bool) (c : ctx) (x : Z) : list Z :=
  let '(w1, prev, x1) := pairs ld false (ints c) None x in
  let '(w2, fprev, x2) := pairs ld true (floats c) None x1 in
  w1 ++ w2 ++
  (match fprev with Some f => [one_word ld true f x2 true] | None => [] end) ++
  (match prev with Some r => [one_word ld false r x2 (match fprev with None => true | _ => false end)] | None => [] end).

(** A64:1343-1357: arguments to saved registers; an item of arg_types has four bits. *)
Fixpoint arg_words (l : list Z) (saved tmp : Z) : list Z :=
  match l with
  | [] => []
  | t :: l =>
      if t .& 0x7 <? 4 then
        if t .& 0x8 =? 0 then (MOV .| RD (S0 - saved) .| RM tmp) :: arg_words l (saved + 1) (tmp + 1) else arg_words l saved (tmp + 1)
      else arg_words l saved tmp
  end.

(** A64:1272, 1419: STP_PRE of the frame pointer and the return address. *)
Definition stp_pre (n : Z) : Z := STP_PRE .| reg_map TMP_FP .| RT2 TMP_LR .| RN SLJIT_SP .| Z.shiftl (- (Z.shiftr n 3) .& 0x7f) 15.
Definition stp_fp : Z := STP .| reg_map TMP_FP .| RT2 TMP_LR .| RN SLJIT_SP.
(** A64:1407-1421: the rest of the frame. *)
Definition rest_words (n : Z) : list Z :=
  if n =? 0 then []
  else
    let big := 0xfff <? n in
    let m := if big then n .& 0xfff else n in
    (if big then [SUBI .| RD SLJIT_SP .| RN SLJIT_SP .| Z.shiftl (Z.shiftr n 12) 10 .| Z.shiftl 1 22] else []) ++
    (if (512 <? m) || (m =? 0) then (if m =? 0 then [] else [SUBI .| RD SLJIT_SP .| RN SLJIT_SP .| Z.shiftl m 10]) ++ [stp_fp] else [stp_pre m]).
(** A64:1246-1426 sljit_emit_enter *)
Definition emit_enter (c : ctx) : list Z :=
  let n := frame_size c in
  let small := n <=? 512 in
  let r := (saved_regs_size c - 16 + 0xf) .& Z.lnot 0xf in
  [if small then stp_pre n else SUBI .| RD SLJIT_SP .| RN SLJIT_SP .| Z.shiftl r 10] ++
  save_words false c (if small then n - 16 else r - 16) ++
  (if c_reg_arg c then [] else arg_words (c_args c) 0 1) ++
  rest_words (if small then 0 else n - r) ++
  [ADDI .| RD TMP_FP .| RN SLJIT_SP .| Z.shiftl 0 10].

(** A64:1451-1540 emit_stack_frame_release *)
Definition release (to : bool) (c : ctx) : list Z :=
  let n := frame_size c in
  let fit := (512 <? n) && (n <=? 512 + (if to then 248 else 496)) in
  let n1 := if fit then 512 else n in
  [if to then
     if fit then LDRI_POST .| reg_map TMP_FP .| RN SLJIT_SP .| Z.shiftl (n - 512) 12 else LDRI .| reg_map TMP_FP .| RN SLJIT_SP .| 0
   else
     if fit then LDP_POST .| reg_map TMP_FP .| RT2 TMP_LR .| RN SLJIT_SP .| Z.shiftl (n - 512) 12 else LDP .| reg_map TMP_FP .| RT2 TMP_LR .| RN SLJIT_SP] ++
  (if 512 <? n1 then
     let m := n1 - 512 in
     (if 0xfff <? m then [ADDI .| RD SLJIT_SP .| RN SLJIT_SP .| Z.shiftl (Z.shiftr m 12) 10 .| Z.shiftl 1 22] else []) ++
     [ADDI .| RD SLJIT_SP .| RN SLJIT_SP .| Z.shiftl (if 0xfff <? m then m .& 0xfff else m) 10]
   else []) ++
  let n2 := if 512 <? n1 then 512 else n1 in
  save_words true c (n2 - 16) ++
  [ADDI .| RD SLJIT_SP .| RN SLJIT_SP .| Z.shiftl n2 10].
(** A64:1542-1550 sljit_emit_return_void *)
Definition emit_return_void (c : ctx) : list Z := release false c ++ [RET .| RN TMP_LR].
