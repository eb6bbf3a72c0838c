(** Programs as lists of emitted entities, the compiler state they lead to, and the estimated sizes. *)
Require Import ZArith List Bool Lia Zify ZifyBool.
From Verif Require Import Rv.RvLib Rv.RvBits Rv.RvIsa Rv.RvEnc Rv.RvImm Rv.RvAddr Rv.RvLink.
Import ListNotations.
Open Scope Z_scope.

(** What was emitted, in order: a unit of an instruction, the first unit of a constant load, a label, NOPs with an aligned label after them,
    a jump with its branch, an address load.  The size field of the jumps is the space taken by the jump (after the branch), for
    address loads this minus one. *)
Inductive op :=
| OUnit (w : Z)
| OConst (w : Z)
| OLab
| OAlign (nops : list Z) (mask : Z)
| OJmp (k : jcnd) (j : jump)
| OMov (reg : Z) (j : jump).

Definition klen (k : jcnd) : Z := match k with NoCond => 0 | Cond16 _ => 1 | Cond32 _ => 2 end.
Definition kunits (k : jcnd) : list Z := match k with NoCond => [] | Cond16 w => [w] | Cond32 w => [u16 w; u16 (Z.shiftr w 16)] end.
Definition osize (o : op) : Z :=
  match o with
  | OUnit _ | OConst _ => 1
  | OLab => 0
  | OAlign nops _ => Z.of_nat (length nops)
  | OJmp k j => klen k + jsz j
  | OMov _ j => 1 + jsz j
  end.
Fixpoint total (ops : list op) : Z := match ops with [] => 0 | o :: ops => osize o + total ops end.

Definition obuf (o : op) : list Z :=
  match o with
  | OUnit w | OConst w => [w]
  | OLab => []
  | OAlign nops _ => nops
  | OJmp k _ => kunits k ++ [0]
  | OMov reg _ => [reg]
  end.
Definition buf (ops : list op) : list Z := flat_map obuf ops.

(** The records, when the program starts at position [p]. *)
Definition olab (p : Z) (o : op) : list label :=
  match o with
  | OLab => [mkLabel p None 0]
  | OAlign nops m => [mkLabel (p + Z.of_nat (length nops)) (Some m) 0]
  | _ => []
  end.
Fixpoint labs (p : Z) (ops : list op) : list label := match ops with [] => [] | o :: ops => olab p o ++ labs (p + osize o) ops end.
Definition ojmp (f : Z -> Z) (p : Z) (o : op) : list jump :=
  match o with
  | OJmp k j => [set_jaddr_sz j (p + klen k) (f (jsz j))]
  | OMov _ j => [set_jaddr_sz j p (f (jsz j))]
  | _ => []
  end.
Fixpoint jmps (f : Z -> Z) (p : Z) (ops : list op) : list jump := match ops with [] => [] | o :: ops => ojmp f p o ++ jmps f (p + osize o) ops end.
Definition ocst (p : Z) (o : op) : list Z := match o with OConst _ => [p] | _ => [] end.
Fixpoint csts (p : Z) (ops : list op) : list Z := match ops with [] => [] | o :: ops => ocst p o ++ csts (p + osize o) ops end.

(** The compiler state after emission (sizes not yet stored in the jumps). *)
Definition comp_of (ops : list op) : comp := mkComp (buf ops) (labs 0 ops) (jmps (fun _ => 0) 0 ops) (csts 0 ops) (total ops).

(** ** Estimated sizes *)
Definition set_sz (j : jump) (s : Z) : jump := set_jaddr_sz j 0 s.
(** [ol]: original positions of all labels, [el]: estimated positions of the labels so far, [p], [e]: original and estimated position. *)
Definition mix_size (el ol : list Z) (n : nat) : Z := nth n (el ++ skipn (length el) ol) 0.
Definition est_op (cf : cfg) (ol el : list Z) (p e : Z) (o : op) : op :=
  match o with
  | OJmp k j => OJmp k (set_sz j (jump_estimate cf j (mix_size el ol (jlabel j)) (e + klen k) (p - e)))
  | OMov r j => OMov r (set_sz j (mov_estimate j (mix_size el ol (jlabel j)) e (p - e)))
  | _ => o
  end.
Definition est_labs (e : Z) (o : op) : list Z := map lsize (olab e o).
Fixpoint est (cf : cfg) (ol el : list Z) (p e : Z) (ops : list op) : list op :=
  match ops with
  | [] => []
  | o :: ops =>
    let o' := est_op cf ol el p e o in
    o' :: est cf ol (el ++ est_labs e o) (p + osize o) (e + osize o') ops
  end.
