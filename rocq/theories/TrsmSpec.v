(** Specification vocabulary for triangular systems.  Definitions only. *)
From Coq Require Import NArith Arith.
From Verif Require Import Spec LinSpec.
Local Open Scope nat_scope.

(** the lower (upper) triangular part of a square matrix, diagonal included *)
Definition tril (L : mat) : mat := fun i k => if k <=? i then L i k else 0%N.
Definition triu (U : mat) : mat := fun i k => if i <=? k then U i k else 0%N.
(** X is the solution of T * X = B (n rows, w columns) by field elements, and the only one *)
Definition the_solution (f : N) (n w : nat) (T X B : mat) : Prop :=
  inM f n w X /\ meq n w (mmul f n T X) B /\ forall Y, inM f n w Y -> meq n w (mmul f n T Y) B -> meq n w Y X.
