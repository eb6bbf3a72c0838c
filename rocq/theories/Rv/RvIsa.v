(** Independent specification of the RISC-V instruction set (RV64IM, C, Zba, Zbb; the subset the
    backend can emit), transcribed from the RISC-V unprivileged manual.  Nothing here depends on sljit. *)
Require Import ZArith List Bool Lia.
From Verif Require Import Rv.RvLib.
Import ListNotations.
Open Scope Z_scope.

Inductive binop := Add | Sub | And | Or | Xor | Sll | Srl | Sra | Slt | Sltu
  | Mul | Mulh | Mulhu | Div | Divu | Rem | Remu | Rol | Ror | Sh1add | Sh2add | Sh3add.
Inductive binopw := Addw | Subw | Sllw | Srlw | Sraw | Mulw | Divw | Divuw | Remw | Remuw | Rolw | Rorw.
Inductive immop := Addi | Andi | Ori | Xori | Slti | Sltiu | Addiw.
Inductive shop := Slli | Srli | Srai | Rori | Slliw | Srliw | Sraiw | Roriw.
Inductive unop := Clz | Ctz | Clzw | Ctzw | Sextb | Sexth | Zexth | Rev8.
Inductive cond := Beq | Bne | Blt | Bge | Bltu | Bgeu.
Inductive msize := B1 | B2 | B4 | B8.

Inductive instr :=
| IBin (o : binop) (rd rs1 rs2 : Z)
| IBinW (o : binopw) (rd rs1 rs2 : Z)
| IImm (o : immop) (rd rs1 imm : Z)          (* imm: signed *)
| ISh (o : shop) (rd rs1 shamt : Z)
| IUn (o : unop) (rd rs1 : Z)
| ILui (rd imm : Z)                          (* imm: signed, multiple of 4096 *)
| IAuipc (rd imm : Z)
| ILoad (sz : msize) (signed : bool) (rd rs1 imm : Z)
| IStore (sz : msize) (rs2 rs1 imm : Z)
| IFld (frd rs1 imm : Z)                     (* 64 bit float load *)
| IFsd (frs2 rs1 imm : Z)
| IJal (rd off : Z)
| IJalr (rd rs1 imm : Z)
| IBranch (c : cond) (rs1 rs2 off : Z)
| IFence
| IEbreak.

(** ** Decoding *)

Definition imm_i (w : Z) : Z := sext 12 (fld w 20 12).
Definition imm_s (w : Z) : Z := sext 12 (fld w 25 7 * 32 + fld w 7 5).
Definition imm_b (w : Z) : Z :=
  sext 13 (fld w 31 1 * 2 ^ 12 + fld w 7 1 * 2 ^ 11 + fld w 25 6 * 2 ^ 5 + fld w 8 4 * 2).
Definition imm_u (w : Z) : Z := sext 20 (fld w 12 20) * 2 ^ 12.
Definition imm_j (w : Z) : Z :=
  sext 21 (fld w 31 1 * 2 ^ 20 + fld w 12 8 * 2 ^ 12 + fld w 20 1 * 2 ^ 11 + fld w 21 10 * 2).

Definition dec_op (f7 f3 : Z) : option binop :=
  if f7 =? 0 then
    (if f3 =? 0 then Some Add else if f3 =? 1 then Some Sll else if f3 =? 2 then Some Slt
     else if f3 =? 3 then Some Sltu else if f3 =? 4 then Some Xor else if f3 =? 5 then Some Srl
     else if f3 =? 6 then Some Or else if f3 =? 7 then Some And else None)
  else if f7 =? 32 then
    (if f3 =? 0 then Some Sub else if f3 =? 5 then Some Sra else None)
  else if f7 =? 1 then
    (if f3 =? 0 then Some Mul else if f3 =? 1 then Some Mulh else if f3 =? 3 then Some Mulhu
     else if f3 =? 4 then Some Div else if f3 =? 5 then Some Divu else if f3 =? 6 then Some Rem
     else if f3 =? 7 then Some Remu else None)
  else if f7 =? 48 then
    (if f3 =? 1 then Some Rol else if f3 =? 5 then Some Ror else None)
  else if f7 =? 16 then
    (if f3 =? 2 then Some Sh1add else if f3 =? 4 then Some Sh2add else if f3 =? 6 then Some Sh3add else None)
  else None.
Definition dec_opw (f7 f3 : Z) : option binopw :=
  if f7 =? 0 then
    (if f3 =? 0 then Some Addw else if f3 =? 1 then Some Sllw else if f3 =? 5 then Some Srlw else None)
  else if f7 =? 32 then
    (if f3 =? 0 then Some Subw else if f3 =? 5 then Some Sraw else None)
  else if f7 =? 1 then
    (if f3 =? 0 then Some Mulw else if f3 =? 4 then Some Divw else if f3 =? 5 then Some Divuw
     else if f3 =? 6 then Some Remw else if f3 =? 7 then Some Remuw else None)
  else if f7 =? 48 then
    (if f3 =? 1 then Some Rolw else if f3 =? 5 then Some Rorw else None)
  else None.

Definition dec_imm (w rd f3 rs1 : Z) : option instr :=   (* OP-IMM *)
  if f3 =? 0 then Some (IImm Addi rd rs1 (imm_i w))
  else if f3 =? 2 then Some (IImm Slti rd rs1 (imm_i w))
  else if f3 =? 3 then Some (IImm Sltiu rd rs1 (imm_i w))
  else if f3 =? 4 then Some (IImm Xori rd rs1 (imm_i w))
  else if f3 =? 6 then Some (IImm Ori rd rs1 (imm_i w))
  else if f3 =? 7 then Some (IImm Andi rd rs1 (imm_i w))
  else if f3 =? 1 then
    (if fld w 26 6 =? 0 then Some (ISh Slli rd rs1 (fld w 20 6))
     else if fld w 26 6 =? 24 then
       (if fld w 20 6 =? 0 then Some (IUn Clz rd rs1)
        else if fld w 20 6 =? 1 then Some (IUn Ctz rd rs1)
        else if fld w 20 6 =? 4 then Some (IUn Sextb rd rs1)
        else if fld w 20 6 =? 5 then Some (IUn Sexth rd rs1)
        else None)
     else None)
  else if f3 =? 5 then
    (if fld w 26 6 =? 0 then Some (ISh Srli rd rs1 (fld w 20 6))
     else if fld w 26 6 =? 16 then Some (ISh Srai rd rs1 (fld w 20 6))
     else if fld w 26 6 =? 24 then Some (ISh Rori rd rs1 (fld w 20 6))
     else if fld w 20 12 =? 0x6b8 then Some (IUn Rev8 rd rs1)
     else None)
  else None.
Definition dec_immw (w rd f3 rs1 rs2 f7 : Z) : option instr :=   (* OP-IMM-32 *)
  if f3 =? 0 then Some (IImm Addiw rd rs1 (imm_i w))
  else if f3 =? 1 then
    (if f7 =? 0 then Some (ISh Slliw rd rs1 rs2)
     else if f7 =? 48 then
       (if rs2 =? 0 then Some (IUn Clzw rd rs1) else if rs2 =? 1 then Some (IUn Ctzw rd rs1) else None)
     else None)
  else if f3 =? 5 then
    (if f7 =? 0 then Some (ISh Srliw rd rs1 rs2)
     else if f7 =? 32 then Some (ISh Sraiw rd rs1 rs2)
     else if f7 =? 48 then Some (ISh Roriw rd rs1 rs2)
     else None)
  else None.
Definition dec_load (f3 : Z) : option (msize * bool) :=
  if f3 =? 0 then Some (B1, true) else if f3 =? 1 then Some (B2, true)
  else if f3 =? 2 then Some (B4, true) else if f3 =? 3 then Some (B8, true)
  else if f3 =? 4 then Some (B1, false) else if f3 =? 5 then Some (B2, false)
  else if f3 =? 6 then Some (B4, false) else None.
Definition dec_store (f3 : Z) : option msize :=
  if f3 =? 0 then Some B1 else if f3 =? 1 then Some B2
  else if f3 =? 2 then Some B4 else if f3 =? 3 then Some B8 else None.
Definition dec_branch (f3 : Z) : option cond :=
  if f3 =? 0 then Some Beq else if f3 =? 1 then Some Bne else if f3 =? 4 then Some Blt
  else if f3 =? 5 then Some Bge else if f3 =? 6 then Some Bltu else if f3 =? 7 then Some Bgeu else None.

(** The fields: opcode, rd, funct3, rs1, rs2, funct7. *)
Definition decode_fields (w opc rd f3 rs1 rs2 f7 : Z) : option instr :=
  if opc =? 0x33 then match dec_op f7 f3 with Some o => Some (IBin o rd rs1 rs2) | None => None end
  else if opc =? 0x3b then
    (if (f7 =? 4) && (f3 =? 4) && (rs2 =? 0) then Some (IUn Zexth rd rs1)
     else match dec_opw f7 f3 with Some o => Some (IBinW o rd rs1 rs2) | None => None end)
  else if opc =? 0x13 then dec_imm w rd f3 rs1
  else if opc =? 0x1b then dec_immw w rd f3 rs1 rs2 f7
  else if opc =? 0x37 then Some (ILui rd (imm_u w))
  else if opc =? 0x17 then Some (IAuipc rd (imm_u w))
  else if opc =? 0x03 then
    match dec_load f3 with Some (sz, sg) => Some (ILoad sz sg rd rs1 (imm_i w)) | None => None end
  else if opc =? 0x23 then
    match dec_store f3 with Some sz => Some (IStore sz rs2 rs1 (imm_s w)) | None => None end
  else if opc =? 0x07 then (if f3 =? 3 then Some (IFld rd rs1 (imm_i w)) else None)
  else if opc =? 0x27 then (if f3 =? 3 then Some (IFsd rs2 rs1 (imm_s w)) else None)
  else if opc =? 0x6f then Some (IJal rd (imm_j w))
  else if opc =? 0x67 then (if f3 =? 0 then Some (IJalr rd rs1 (imm_i w)) else None)
  else if opc =? 0x63 then
    match dec_branch f3 with Some c => Some (IBranch c rs1 rs2 (imm_b w)) | None => None end
  else if opc =? 0x0f then (if f3 =? 0 then Some IFence else None)
  else if opc =? 0x73 then (if fld w 7 25 =? 0x2000 then Some IEbreak else None)
  else None.

Definition decode32 (w : Z) : option instr :=
  decode_fields w (fld w 0 7) (fld w 7 5) (fld w 12 3) (fld w 15 5) (fld w 20 5) (fld w 25 7).

(** Compressed instructions (RV64C). *)
Definition c_imm6 (w : Z) : Z := sext 6 (fld w 12 1 * 32 + fld w 2 5).
Definition c_uimm6 (w : Z) : Z := fld w 12 1 * 32 + fld w 2 5.
Definition decode_c0 (w f3 : Z) : option instr :=
  let rdp := 8 + fld w 7 3 in
  let rs2p := 8 + fld w 2 3 in
  let off4 := fld w 10 3 * 8 + fld w 6 1 * 4 + fld w 5 1 * 64 in
  let off8 := fld w 10 3 * 8 + fld w 5 2 * 64 in
  if f3 =? 1 then Some (IFld rs2p rdp off8)                  (* c.fld *)
  else if f3 =? 2 then Some (ILoad B4 true rs2p rdp off4)    (* c.lw *)
  else if f3 =? 3 then Some (ILoad B8 true rs2p rdp off8)    (* c.ld *)
  else if f3 =? 5 then Some (IFsd rs2p rdp off8)             (* c.fsd *)
  else if f3 =? 6 then Some (IStore B4 rs2p rdp off4)        (* c.sw *)
  else if f3 =? 7 then Some (IStore B8 rs2p rdp off8)        (* c.sd *)
  else None.
Definition decode_c1 (w f3 : Z) : option instr :=
  let rd := fld w 7 5 in
  let rdp := 8 + fld w 7 3 in
  let rs2p := 8 + fld w 2 3 in
  if f3 =? 0 then Some (IImm Addi rd rd (c_imm6 w))           (* c.nop / c.addi *)
  else if f3 =? 1 then                                         (* c.addiw *)
    (if rd =? 0 then None else Some (IImm Addiw rd rd (c_imm6 w)))
  else if f3 =? 2 then Some (IImm Addi rd 0 (c_imm6 w))       (* c.li *)
  else if f3 =? 3 then
    (if rd =? 2 then                                           (* c.addi16sp *)
       let imm := sext 10 (fld w 12 1 * 512 + fld w 6 1 * 16 + fld w 5 1 * 64 + fld w 3 2 * 128 + fld w 2 1 * 32) in
       if imm =? 0 then None else Some (IImm Addi 2 2 imm)
     else                                                      (* c.lui *)
       if c_imm6 w =? 0 then None else Some (ILui rd (c_imm6 w * 2 ^ 12)))
  else if f3 =? 4 then
    (if fld w 10 2 =? 0 then Some (ISh Srli rdp rdp (c_uimm6 w))
     else if fld w 10 2 =? 1 then Some (ISh Srai rdp rdp (c_uimm6 w))
     else if fld w 10 2 =? 2 then Some (IImm Andi rdp rdp (c_imm6 w))
     else if fld w 12 1 =? 0 then
       (if fld w 5 2 =? 0 then Some (IBin Sub rdp rdp rs2p)
        else if fld w 5 2 =? 1 then Some (IBin Xor rdp rdp rs2p)
        else if fld w 5 2 =? 2 then Some (IBin Or rdp rdp rs2p)
        else Some (IBin And rdp rdp rs2p))
     else if fld w 5 2 =? 0 then Some (IBinW Subw rdp rdp rs2p)
     else if fld w 5 2 =? 1 then Some (IBinW Addw rdp rdp rs2p)
     else None)
  else if f3 =? 5 then                                         (* c.j *)
    Some (IJal 0 (sext 12 (fld w 12 1 * 2 ^ 11 + fld w 11 1 * 2 ^ 4 + fld w 9 2 * 2 ^ 8 + fld w 8 1 * 2 ^ 10
                           + fld w 7 1 * 2 ^ 6 + fld w 6 1 * 2 ^ 7 + fld w 3 3 * 2 + fld w 2 1 * 2 ^ 5)))
  else                                                         (* c.beqz, c.bnez *)
    Some (IBranch (if f3 =? 6 then Beq else Bne) rdp 0
           (sext 9 (fld w 12 1 * 2 ^ 8 + fld w 10 2 * 2 ^ 3 + fld w 5 2 * 2 ^ 6 + fld w 3 2 * 2 + fld w 2 1 * 2 ^ 5))).
Definition decode_c2 (w f3 : Z) : option instr :=
  let rd := fld w 7 5 in
  let rs2 := fld w 2 5 in
  if f3 =? 0 then Some (ISh Slli rd rd (c_uimm6 w))            (* c.slli *)
  else if f3 =? 1 then                                         (* c.fldsp *)
    Some (IFld rd 2 (fld w 12 1 * 32 + fld w 5 2 * 8 + fld w 2 3 * 64))
  else if f3 =? 2 then                                         (* c.lwsp *)
    (if rd =? 0 then None else Some (ILoad B4 true rd 2 (fld w 12 1 * 32 + fld w 4 3 * 4 + fld w 2 2 * 64)))
  else if f3 =? 3 then                                         (* c.ldsp *)
    (if rd =? 0 then None else Some (ILoad B8 true rd 2 (fld w 12 1 * 32 + fld w 5 2 * 8 + fld w 2 3 * 64)))
  else if f3 =? 4 then
    (if fld w 12 1 =? 0 then
       if rs2 =? 0 then (if rd =? 0 then None else Some (IJalr 0 rd 0))    (* c.jr *)
       else Some (IBin Add rd 0 rs2)                                      (* c.mv *)
     else
       if rs2 =? 0 then (if rd =? 0 then Some IEbreak else Some (IJalr 1 rd 0))  (* c.ebreak, c.jalr *)
       else Some (IBin Add rd rd rs2))                                    (* c.add *)
  else if f3 =? 5 then Some (IFsd rs2 2 (fld w 10 3 * 8 + fld w 7 3 * 64))       (* c.fsdsp *)
  else if f3 =? 6 then Some (IStore B4 rs2 2 (fld w 9 4 * 4 + fld w 7 2 * 64))   (* c.swsp *)
  else Some (IStore B8 rs2 2 (fld w 10 3 * 8 + fld w 7 3 * 64)).                 (* c.sdsp *)
Definition decode16 (w : Z) : option instr :=
  if fld w 0 2 =? 0 then decode_c0 w (fld w 13 3)
  else if fld w 0 2 =? 1 then decode_c1 w (fld w 13 3)
  else decode_c2 w (fld w 13 3).

(** ** Execution *)

Record mst := mkM { regs : Z -> Z; fregs : Z -> Z; mem : Z -> Z; pc : Z }.

Definition getr (s : mst) (r : Z) : Z := if r =? 0 then 0 else regs s r.
Definition updf (f : Z -> Z) (a v : Z) : Z -> Z := fun x => if x =? a then v else f x.
Definition setr (s : mst) (r v : Z) : mst :=
  if r =? 0 then s else mkM (updf (regs s) r v) (fregs s) (mem s) (pc s).
Definition setf (s : mst) (r v : Z) : mst := mkM (regs s) (updf (fregs s) r v) (mem s) (pc s).
Definition setm (s : mst) (m : Z -> Z) : mst := mkM (regs s) (fregs s) m (pc s).
Definition setpc (s : mst) (v : Z) : mst := mkM (regs s) (fregs s) (mem s) v.

Definition bytes (sz : msize) : nat := match sz with B1 => 1 | B2 => 2 | B4 => 4 | B8 => 8 end.
Definition bits (sz : msize) : Z := match sz with B1 => 8 | B2 => 16 | B4 => 32 | B8 => 64 end.
(** Little endian; addresses wrap around. *)
Fixpoint load (m : Z -> Z) (a : Z) (n : nat) : Z :=
  match n with
  | O => 0
  | S n => m (wrap a) mod 256 + 256 * load m (a + 1) n
  end.
Fixpoint store (m : Z -> Z) (a v : Z) (n : nat) : Z -> Z :=
  match n with
  | O => m
  | S n => store (updf m (wrap a) (v mod 256)) (a + 1) (v / 256) n
  end.

Fixpoint clz_aux (n : nat) (x : Z) : Z :=    (* leading zeroes of the low n bits *)
  match n with
  | O => 0
  | S n => if Z.testbit x (Z.of_nat n) then 0 else 1 + clz_aux n x
  end.
Fixpoint ctz_aux (n : nat) (i x : Z) : Z :=
  match n with
  | O => 0
  | S n => if Z.testbit x i then 0 else 1 + ctz_aux n (i + 1) x
  end.
Definition rotl (n x k : Z) : Z := (x * 2 ^ k + x / 2 ^ (n - k)) mod 2 ^ n.   (* 0 <= k < n *)
Definition rotr (n x k : Z) : Z := if k =? 0 then x else rotl n x (n - k).
Definition rev8 (x : Z) : Z :=
  fold_left (fun acc i => acc * 256 + (x / 2 ^ (8 * i)) mod 256) [0; 1; 2; 3; 4; 5; 6; 7] 0.

Definition b2z (b : bool) : Z := if b then 1 else 0.

Definition alu (o : binop) (a b : Z) : Z :=
  match o with
  | Add => wrap (a + b)
  | Sub => wrap (a - b)
  | And => Z.land a b
  | Or => Z.lor a b
  | Xor => Z.lxor a b
  | Sll => wrap (a * 2 ^ (b mod 64))
  | Srl => a / 2 ^ (b mod 64)
  | Sra => wrap (sgn a / 2 ^ (b mod 64))
  | Slt => b2z (sgn a <? sgn b)
  | Sltu => b2z (a <? b)
  | Mul => wrap (a * b)
  | Mulh => wrap (sgn a * sgn b / 2 ^ 64)
  | Mulhu => a * b / 2 ^ 64
  | Div => if b =? 0 then 2 ^ 64 - 1 else wrap (Z.quot (sgn a) (sgn b))
  | Divu => if b =? 0 then 2 ^ 64 - 1 else a / b
  | Rem => if b =? 0 then a else wrap (Z.rem (sgn a) (sgn b))
  | Remu => if b =? 0 then a else a mod b
  | Rol => rotl 64 a (b mod 64)
  | Ror => rotr 64 a (b mod 64)
  | Sh1add => wrap (b + a * 2)
  | Sh2add => wrap (b + a * 4)
  | Sh3add => wrap (b + a * 8)
  end.
Definition aluw (o : binopw) (a b : Z) : Z :=
  let ua := zext 32 a in
  let ub := zext 32 b in
  let sa := sext 32 a in
  let sb := sext 32 b in
  match o with
  | Addw => sx32 (a + b)
  | Subw => sx32 (a - b)
  | Sllw => sx32 (ua * 2 ^ (b mod 32))
  | Srlw => sx32 (ua / 2 ^ (b mod 32))
  | Sraw => sx32 (sa / 2 ^ (b mod 32))
  | Mulw => sx32 (a * b)
  | Divw => if ub =? 0 then 2 ^ 64 - 1 else sx32 (Z.quot sa sb)
  | Divuw => if ub =? 0 then 2 ^ 64 - 1 else sx32 (ua / ub)
  | Remw => if ub =? 0 then sx32 a else sx32 (Z.rem sa sb)
  | Remuw => if ub =? 0 then sx32 a else sx32 (ua mod ub)
  | Rolw => sx32 (rotl 32 ua (b mod 32))
  | Rorw => sx32 (rotr 32 ua (b mod 32))
  end.
Definition alui (o : immop) (a imm : Z) : Z :=
  match o with
  | Addi => wrap (a + imm)
  | Andi => Z.land a (wrap imm)
  | Ori => Z.lor a (wrap imm)
  | Xori => Z.lxor a (wrap imm)
  | Slti => b2z (sgn a <? imm)
  | Sltiu => b2z (a <? wrap imm)
  | Addiw => sx32 (a + imm)
  end.
Definition alush (o : shop) (a sh : Z) : Z :=
  match o with
  | Slli => wrap (a * 2 ^ sh)
  | Srli => a / 2 ^ sh
  | Srai => wrap (sgn a / 2 ^ sh)
  | Rori => rotr 64 a sh
  | Slliw => sx32 (zext 32 a * 2 ^ sh)
  | Srliw => sx32 (zext 32 a / 2 ^ sh)
  | Sraiw => sx32 (sext 32 a / 2 ^ sh)
  | Roriw => sx32 (rotr 32 (zext 32 a) sh)
  end.
Definition aluun (o : unop) (a : Z) : Z :=
  match o with
  | Clz => clz_aux 64 a
  | Ctz => ctz_aux 64 0 a
  | Clzw => clz_aux 32 a
  | Ctzw => ctz_aux 32 0 a
  | Sextb => wrap (sext 8 a)
  | Sexth => wrap (sext 16 a)
  | Zexth => zext 16 a
  | Rev8 => rev8 a
  end.
Definition condb (c : cond) (a b : Z) : bool :=
  match c with
  | Beq => a =? b
  | Bne => negb (a =? b)
  | Blt => sgn a <? sgn b
  | Bge => sgn b <=? sgn a
  | Bltu => a <? b
  | Bgeu => b <=? a
  end.

(** Execution of one instruction of length [len] bytes; the result has the new pc.
    [None]: the breakpoint trap. *)
Definition exec (i : instr) (len : Z) (s : mst) : option mst :=
  let next s' := Some (setpc s' (wrap (pc s + len))) in
  match i with
  | IBin o rd rs1 rs2 => next (setr s rd (alu o (getr s rs1) (getr s rs2)))
  | IBinW o rd rs1 rs2 => next (setr s rd (aluw o (getr s rs1) (getr s rs2)))
  | IImm o rd rs1 imm => next (setr s rd (alui o (getr s rs1) imm))
  | ISh o rd rs1 sh => next (setr s rd (alush o (getr s rs1) sh))
  | IUn o rd rs1 => next (setr s rd (aluun o (getr s rs1)))
  | ILui rd imm => next (setr s rd (wrap imm))
  | IAuipc rd imm => next (setr s rd (wrap (pc s + imm)))
  | ILoad sz sg rd rs1 imm =>
    let v := load (mem s) (getr s rs1 + imm) (bytes sz) in
    next (setr s rd (if sg then wrap (sext (bits sz) v) else v))
  | IStore sz rs2 rs1 imm => next (setm s (store (mem s) (getr s rs1 + imm) (getr s rs2) (bytes sz)))
  | IFld frd rs1 imm => next (setf s frd (load (mem s) (getr s rs1 + imm) 8))
  | IFsd frs2 rs1 imm => next (setm s (store (mem s) (getr s rs1 + imm) (fregs s frs2) 8))
  | IJal rd off => Some (setpc (setr s rd (wrap (pc s + len))) (wrap (pc s + off)))
  | IJalr rd rs1 imm =>
    Some (setpc (setr s rd (wrap (pc s + len))) (Z.land (wrap (getr s rs1 + imm)) (2 ^ 64 - 2)))
  | IBranch c rs1 rs2 off =>
    if condb c (getr s rs1) (getr s rs2) then Some (setpc s (wrap (pc s + off))) else next s
  | IFence => next s
  | IEbreak => None
  end.

(** ** The machine: [code a] is the 16 bit unit of the instruction memory at the (even) address [a].
    The instruction memory is not changed by the running code. *)
Definition fetch (code : Z -> Z) (a : Z) : option (instr * Z) :=
  let h := code a in
  if fld h 0 2 =? 3
  then match decode32 (h mod 2 ^ 16 + (code (wrap (a + 2))) mod 2 ^ 16 * 2 ^ 16) with Some i => Some (i, 4) | None => None end
  else match decode16 (h mod 2 ^ 16) with Some i => Some (i, 2) | None => None end.
Definition step (code : Z -> Z) (s : mst) : option mst :=
  match fetch code (pc s) with
  | Some (i, len) => exec i len s
  | None => None
  end.
Inductive steps (code : Z -> Z) : mst -> mst -> Prop :=
| steps_refl s : steps code s s
| steps_step s s' s'' : step code s = Some s' -> steps code s' s'' -> steps code s s''.
