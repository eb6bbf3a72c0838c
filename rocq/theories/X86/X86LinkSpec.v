(** What generated x86-64 code has to do: specification used by the properties C38, C39 and C40.

    The processor with an instruction pointer: control transfer instructions and LEA relative to the instruction pointer, from the Intel 64 manual, volume 2
    (JMP, Jcc, CALL, LEA, PUSH, POP, RET; chapter 2.2.1.6 "RIP-relative addressing"); the other instructions are those of X86Isa.v. *)
Require Import ZArith List Bool Lia.
From Verif Require Import Rv.RvLib Rv.RvIsa X86.X86Isa X86.X86Emit X86.X86Spec X86.X86OpSpec X86.X86Cond X86.X86Link.
Import ListNotations.
Open Scope Z_scope.

Inductive ctl := CJmp (d : Z) | CCall (d : Z) | CJcc (cc d : Z) | CJmpR (r : Z) | CCallR (r : Z) | CLea (n r d : Z).
(** Decoding: the instruction and the code after it. *)
Definition decode_ctl (l : list Z) : option (ctl * list Z) :=
  let imm (k : nat) (l : list Z) (f : Z -> ctl) := match sle k l with Some (v, l) => Some (f v, l) | None => None end in
  match l with
  | [] => None
  | b :: l1 =>
    if b =? 0xeb then imm 1%nat l1 CJmp
    else if b =? 0xe9 then imm 4%nat l1 CJmp
    else if b =? 0xe8 then imm 4%nat l1 CCall
    else if b / 16 =? 7 then imm 1%nat l1 (CJcc (b mod 16))
    else if b =? 0x0f then match l1 with op :: l2 => if op / 16 =? 8 then imm 4%nat l2 (CJcc (op mod 16)) else None | [] => None end
    else
      let (x, l1) := get_rex l in
      match l1 with
      | op :: m :: l2 =>
        if (op =? 0xff) && (m / 64 =? 3) then
          if (m / 8) mod 8 =? 4 then Some (CJmpR (ext (rB x) (m mod 8)), l2)
          else if (m / 8) mod 8 =? 2 then Some (CCallR (ext (rB x) (m mod 8)), l2)
          else None
        else if (op =? 0x8d) && (m / 64 =? 0) && (m mod 8 =? 5) then imm 4%nat l2 (CLea (osize PNone x) (ext (rR x) ((m / 8) mod 8)))
        else None
      | _ => None
      end
  end.
(** Instructions which use the stack, and indirect jumps through memory (PUSH, POP, RET, JMP, CALL in volume 2; ENDBR64, of which nothing is seen outside of
    the indirect branch tracking of volume 1, chapter 17). *)
Inductive stk := SPush (o : opd) | SPop (o : opd) | SRet | SJmp (o : opd) | SCall (o : opd) | SEndbr.
Definition is_endbr (l : list Z) : bool := match l with a :: b :: c :: d :: _ => (a =? 0xf3) && (b =? 0x0f) && (c =? 0x1e) && (d =? 0xfa) | _ => false end.
Definition decode_stk (l : list Z) : option (stk * list Z) :=
  if is_endbr l then Some (SEndbr, skipn 4 l)
  else
    let (x, l) := get_rex l in
    match l with
    | [] => None
    | op :: l =>
      if op / 8 =? 10 then Some (SPush (OR (ext (rB x) (op mod 8))), l)
      else if op / 8 =? 11 then Some (SPop (OR (ext (rB x) (op mod 8))), l)
      else if op =? 0xc3 then Some (SRet, l)
      else if op =? 0x8f then match modrm x l with Some (r, o, l) => if r mod 8 =? 0 then Some (SPop o, l) else None | None => None end
      else if op =? 0xff then match modrm x l with
        | Some (r, o, l) => if r mod 8 =? 2 then Some (SCall o, l) else if r mod 8 =? 4 then Some (SJmp o, l) else if r mod 8 =? 6 then Some (SPush o, l) else None
        | None => None end
      else None
    end.
(** The return address is pushed. *)
Definition push (s : xst) (v : Z) : xst := let a := wrap (xr s 4 - 8) in setr (setmem s (store (xm s) a v 8)) 4 a.
(** The instruction pointer and the state after such an instruction, [next] being the address of the next one. The address of the operand of POP is computed
    after the stack pointer is changed. *)
Definition sexec (next : Z) (s : xst) (i : stk) : option (Z * xst) :=
  let top := load (xm s) (xr s 4) 8 in
  let up := setr s 4 (wrap (xr s 4 + 8)) in
  match i with
  | SPush o => Some (next, push s (rdo 64 s o))
  | SPop (OR r) => Some (next, setr up r top)
  | SPop (OM e) => Some (next, setmem up (store (xm s) (eaddr up e) top 8))
  | SPop (OI _) => None
  | SRet => Some (top, up)
  | SJmp o => Some (rdo 64 s o, s)
  | SCall o => Some (rdo 64 s o, push s next)
  | SEndbr => Some (next, s)
  end.
Section Machine.
(** The memory seen by the instruction fetch; what the processor leaves where the manual says "undefined". *)
Variables (codef : Z -> Z) (u : Z).
(** An instruction has at most 15 bytes. *)
Definition fetch (pc : Z) : list Z := map (fun i => codef (wrap (pc + Z.of_nat i))) (seq 0 15).
Definition cstep (pc : Z) (s : xst) : option (Z * xst) :=
  let l := fetch pc in
  let next (l' : list Z) := wrap (pc + (zlen l - zlen l')) in
  match decode_ctl l with
  | Some (CJmp d, l') => Some (wrap (next l' + d), s)
  | Some (CCall d, l') => Some (wrap (next l' + d), push s (next l'))
  | Some (CJcc cc d, l') => match cond_val s cc with Some b => Some (if b then wrap (next l' + d) else next l', s) | None => None end
  | Some (CJmpR r, l') => Some (xr s r, s)
  | Some (CCallR r, l') => Some (xr s r, push s (next l'))
  | Some (CLea n r d, l') => Some (next l', setr s r (wrap (next l' + d) mod 2 ^ n))
  | None =>
    match decode l with
    | Some (XJcc cc d, l') => match cond_val s cc with Some b => Some (if b then wrap (next l' + d) else next l', s) | None => None end
    | Some (i, l') => match exec u s i with Some s' => Some (next l', s') | None => None end
    | None => match decode_stk l with Some (i, l') => sexec (next l') s i | None => None end
    end
  end.
Inductive csteps : Z -> xst -> Z -> xst -> Prop :=
| csteps_refl : forall pc s, csteps pc s pc s
| csteps_one : forall pc s pc1 s1 pc2 s2, cstep pc s = Some (pc1, s1) -> csteps pc1 s1 pc2 s2 -> csteps pc s pc2 s2.
End Machine.

(** The same state, except for the registers in [R]. *)
Definition same_but (R : list Z) (s s' : xst) : Prop :=
  (forall r, ~ In r R -> xr s' r = xr s r) /\ xcf s' = xcf s /\ xzf s' = xzf s /\ xsf s' = xsf s /\ xof s' = xof s /\ xm s' = xm s.

Section Spec.
Variables (win : bool) (code eo : Z) (g : gen).
(** The executable address of a position. *)
Definition xpos (pos : Z) : Z := code + eo + pos.
(** The memory contains the code [b]. *)
Definition fetches (b : list Z) (codef : Z -> Z) : Prop := forall p, 0 <= p < zlen b -> codef (wrap (xpos p)) = nth (Z.to_nat p) b 0.
(** The address a jump has to reach: the address of the label reported by sljit_get_label_addr, or the absolute target. *)
Definition taddr (t : target) : Z := match t with TLabel n => laddr (nth n (rlabels g) (mkXL 0 None 0)) | TAddr a => a end.
(** The condition of a jump. *)
Definition holds (k : jkind) (s : xst) (b : bool) : Prop := match k with JCond t => cond_val s (jump_code t - 0x80) = Some b | _ => b = true end.
(** The code [b] contains, from [pos] to [pos'], a jump of kind [k] to [T]: it goes there if the condition holds and to [pos'] otherwise, calls push the address
    of [pos'], and nothing but the second temporary register changes. *)
Definition jump_runs (b : list Z) (k : jkind) (T pos pos' : Z) : Prop :=
  forall codef u s c, fetches b codef -> xwf s -> holds k s c ->
  exists s', csteps codef u (xpos pos) s (if c then T else xpos pos') s' /\
    same_but [reg_map win TMP_REG2] (match k with JCall => push s (xpos pos') | _ => s end) s' /\ xwf s'.
(** The code [b] contains, from [pos] to [pos'], an instruction which sets the register [reg] to [T]. *)
Definition mov_runs (b : list Z) (reg T pos pos' : Z) : Prop :=
  forall codef u s, fetches b codef -> xwf s ->
  exists s', csteps codef u (xpos pos) s (xpos pos') s' /\ xr s' (reg_map win reg) = T /\ same_but [reg_map win reg] s s'.
(** The bytes [bs] are in the code at [pos]. *)
Definition bytes_at (b : list Z) (pos : Z) (bs : list Z) : Prop := exists l1 l2, b = l1 ++ bs ++ l2 /\ zlen l1 = pos.
(** The number of the label which a call returned, [c] being the state after it (compiler->last_label). *)
Definition ret_label (c : comp) : nat := pred (length (clabels c)).
(** The targets for which the code is wrong: a distance which fits in 32 bits only for an instruction of another length. *)
Definition bad_jump (k : jkind) (rewr : bool) (t : target) (pos : Z) : Prop :=
  match t with
  | TAddr a => rewr = false /\ match k with JCond _ => sdiff a (xpos pos + 5) = HMIN | _ => sdiff a (xpos pos + 6) = HMAX end
  | TLabel _ => False
  end.
Definition bad_mov (t : target) (pos : Z) : Prop :=
  match t with TAddr a => 0xffffffff < a /\ HMAX - 3 < sdiff a (xpos pos + 10) <= HMAX | TLabel _ => False end.
(** The code [b], and the new targets of rewritable jumps given by number. *)
Variables (b : list Z) (cur : nat -> option Z).
(** The call [k], made in the state [c], has led to the code from [pos] to [pos']. *)
Definition call_laid (c : comp) (k : call) (pos pos' : Z) : Prop :=
  match k with
  | KIns bs => bytes_at b pos bs /\ pos' = pos + zlen bs
  | KLabel => laddr (nth (ret_label (emit win c k)) (rlabels g) (mkXL 0 None 0)) = xpos pos' /\ pos' = pos
  | KAlign al =>
    laddr (nth (ret_label (emit win c k)) (rlabels g) (mkXL 0 None 0)) = xpos pos' /\ (0 <= al -> (code + pos') mod 2 ^ al = 0 /\ pos <= pos' < pos + 2 ^ al)
    /\ bytes_at b pos (repeat 0x90 (Z.to_nat (pos' - pos)))
  | KJump kd rewr t =>
    let T := if rewr then match cur (length (cjumps c)) with Some T => T | None => taddr t end else taddr t in
    ~ bad_jump kd rewr t pos -> jump_runs b kd T pos pos'
  | KMov reg t => ~ bad_mov t pos -> mov_runs b reg (taddr t) pos pos'
  | KConst => nth (length (cconsts c)) (rconsts g) 0 = code + pos /\ pos' = pos
  end.
(** The calls, from the state [c] and the position [pos] on, have led to the rest of the code. *)
Fixpoint laid (c : comp) (calls : list call) (pos : Z) : Prop :=
  match calls with
  | [] => pos = zlen b
  | k :: calls => exists pos', pos <= pos' /\ call_laid c k pos pos' /\ laid (emit win c k) calls pos'
  end.
End Spec.

(** The history of sljit_set_jump_addr calls: numbers of rewritable jumps, with new targets; the target of the last one. *)
Definition hist_ok (g : gen) (h : list (nat * Z)) : Prop :=
  Forall (fun x => (fst x < length (rjumps g))%nat /\ jrewr (nth (fst x) (rjumps g) (mkXJ 0 JAlways false false false (TAddr 0) PNo)) = true /\ isw (snd x)) h.
Definition last_set (h : list (nat * Z)) (n : nat) : option Z :=
  fold_left (fun r x => if Nat.eqb (fst x) n then Some (snd x) else r) h None.

(** What the API demands of each call; [nl]: the number of labels of the program. *)
Definition kind_ok (k : jkind) : Prop := match k with JCond t => 0 <= t <= 13 | _ => True end.
Definition target_ok (nl : nat) (t : target) : Prop := match t with TLabel n => (n < nl)%nat | TAddr a => isw a end.
Definition call_ok (nl : nat) (k : call) : Prop :=
  match k with
  | KIns bs => bs <> []
  | KLabel | KConst => True
  | KAlign al => al <= 4
  | KJump k _ t => kind_ok k /\ target_ok nl t
  | KMov reg t => isreg reg /\ reg <> 0 /\ reg <> SLJIT_SP /\ target_ok nl t
  end.
(** A label directly after sljit_emit_op_addr. *)
Fixpoint mov_label (after : bool) (calls : list call) : bool :=
  match calls with
  | [] => false
  | KMov _ _ :: calls => mov_label true calls
  | KConst :: calls => mov_label after calls
  | KLabel :: calls => after || mov_label false calls
  | KAlign al :: calls => (after && (al <=? 0)) || mov_label false calls
  | _ :: calls => mov_label false calls
  end.
(** At least 5 bytes of instructions follow each sljit_emit_op_addr. *)
Fixpoint ins_bytes (calls : list call) : Z := match calls with [] => 0 | KIns bs :: calls => zlen bs + ins_bytes calls | _ :: calls => ins_bytes calls end.
Fixpoint mov_tail (calls : list call) : Prop :=
  match calls with [] => True | KMov _ _ :: calls => 5 <= ins_bytes calls /\ mov_tail calls | _ :: calls => mov_tail calls end.
(** A program of less than 2 GB, placed in the address space. *)
Definition prog_ok (win : bool) (code eo : Z) (calls : list call) : Prop :=
  Forall (call_ok (length (clabels (emits win calls)))) calls /\ csize (emits win calls) <= 2 ^ 31 - 32
  /\ 0 <= code /\ 0 <= code + eo /\ code + eo + csize (emits win calls) < 2 ^ 64 /\ code + csize (emits win calls) <= 2 ^ 64.
