(** Specification vocabulary for straight-line programs over GF(2).  Definitions only. *)
From Coq Require Import NArith List Bool Arith.
From Verif Require Import Base PolyFacts DjbModel.
Import ListNotations.
Local Open Scope nat_scope.

(** the program executed on single bits: inputs [v], registers [w]; [tch] says which registers have been written.
    The first write to a register assigns, the following ones add; the last instruction is executed first. *)
Definition bit_step (v : nat -> bool) (ins : instr) (st : (nat -> bool) * (nat -> bool)) : (nat -> bool) * (nat -> bool) :=
  let '(t, s, typ) := ins in
  let '(tch, w) := st in
  let x := if typ : bool then v s else w s in
  (fun k => if k =? t then true else tch k, fun k => if k =? t then (if tch t then xorb (w t) x else x) else w k).
Definition bit_exec (prog : list instr) (v w : nat -> bool) : (nat -> bool) * (nat -> bool) :=
  fold_right (bit_step v) (fun _ => false, w) prog.
(** the registers and inputs that are mentioned exist *)
Definition in_range (m n : nat) (prog : list instr) : Prop :=
  forall t s (typ : bool), In (t, s, typ) prog -> t < m /\ (if typ then s < n else s < m).
(** the program computes the m x n matrix M: a register that is written ends up with the row of M times the
    inputs, whatever was in the registers; a register that is not written belongs to a zero row *)
Definition written (prog : list instr) (t : nat) : bool := existsb (fun ins : instr => fst (fst ins) =? t) prog.
Definition computes (m n : nat) (M : nat -> nat -> bool) (prog : list instr) : Prop :=
  in_range m n prog /\
  forall t, t < m ->
    if written prog t then forall v w, snd (bit_exec prog v w) t = bxsum n (fun j => M t j && v j)
    else forall j, j < n -> M t j = false.
