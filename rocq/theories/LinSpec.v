(** Specification vocabulary of linear algebra over GF(2)[X]/(f).  Definitions only. *)
From Coq Require Import NArith Arith.
From Verif Require Import Spec.
Local Open Scope nat_scope.

(** all entries are field elements *)
Definition inM (f : N) (m n : nat) (A : mat) : Prop := forall i j, i < m -> j < n -> inF f (A i j).

(** T and T' are inverse m x m matrices *)
Definition inverse (f : N) (m : nat) (T T' : mat) : Prop :=
  inM f m m T /\ inM f m m T' /\ meq m m (mmul f m T T') mone /\ meq m m (mmul f m T' T) mone.
Definition invertible (f : N) (m : nat) (T : mat) : Prop := exists T', inverse f m T T'.

(** R = T * A with T invertible *)
Definition row_equiv (f : N) (m n : nat) (A R : mat) : Prop :=
  exists T T', inverse f m T T' /\ meq m n R (mmul f m T A).

(** R is in row echelon form with r non-zero rows, leading ones in columns piv 0 < piv 1 < ... *)
Definition echelon (m n r : nat) (piv : nat -> nat) (R : mat) : Prop :=
  r <= m /\
  (forall i, i < r -> piv i < n /\ R i (piv i) = 1%N /\ forall j, j < piv i -> R i j = 0%N) /\
  (forall i i', i < i' -> i' < r -> piv i < piv i') /\
  (forall i j, r <= i < m -> j < n -> R i j = 0%N).
(** ... reduced: a leading one is the only non-zero entry of its column *)
Definition reduced (m r : nat) (piv : nat -> nat) (R : mat) : Prop :=
  forall i i', i < r -> i' < m -> i' <> i -> R i' (piv i) = 0%N.

(** the rows 0 .. r-1 of Q (n columns) are linearly independent *)
Definition independent (f : N) (r n : nat) (Q : mat) : Prop :=
  forall v : nat -> N, (forall k, k < r -> inF f (v k)) ->
    (forall j, j < n -> xsum r (fun k => fmul f (v k) (Q k j)) = 0%N) ->
    forall k, k < r -> v k = 0%N.
(** r is the rank of the m x n matrix A: the rows of some r x n matrix Q form a basis of the
    row space of A (the rows of A are combinations of those of Q and conversely) *)
Definition is_rank (f : N) (m n : nat) (A : mat) (r : nat) : Prop :=
  exists Q P L, inM f r n Q /\ inM f m r P /\ inM f r m L /\
    meq m n A (mmul f r P Q) /\ meq r n Q (mmul f m L A) /\ independent f r n Q.
