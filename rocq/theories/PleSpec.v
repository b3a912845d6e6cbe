(** Specification vocabulary for PLE decompositions.  Definitions only. *)
From Coq Require Import NArith Arith List.
From Verif Require Import Spec LinSpec.
Local Open Scope nat_scope.

(** exchange a and b *)
Definition tr (a b i : nat) : nat := if i =? a then b else if i =? b then a else i.
(** a LAPACK-style permutation, as a list of transpositions, as a function *)
Definition at_ (P : list nat) : nat -> nat := fun i => nth i P 0.
(** the swaps 0 <-> P 0, 1 <-> P 1, ..., t-1 <-> P (t-1) performed in this order on the rows of a matrix:
    row i of the result is row [swaps P t i] of the original *)
Fixpoint swaps (P : nat -> nat) (t i : nat) : nat :=
  match t with O => i | S t' => swaps P t' (tr t' (P t') i) end.
(** the same swaps performed in the opposite order, t-1 <-> P (t-1) first *)
Fixpoint unswaps (P : nat -> nat) (t i : nat) : nat :=
  match t with O => i | S t' => tr t' (P t') (unswaps P t' i) end.
(** valid transposition lists *)
Definition valid_perm (n : nat) (P : nat -> nat) : Prop := forall i, i < n -> i <= P i < n.

(** how L and E are stored in one matrix A of rank r: L (m x r, lower triangular) in the first r columns,
    row k of E (r x n) in row k of A right of the pivot column Q k; the pivots of E are ones *)
Definition ple_L (A : mat) : mat := fun i k => if k <=? i then A i k else 0%N.
Definition ple_E (Q : nat -> nat) (A : mat) : mat := fun k j =>
  if j <? Q k then 0%N else if j =? Q k then 1%N else A k j.

(** A is the packed PLE decomposition of the m x n matrix A0: with P*A0 the matrix A0 after the row swaps of P,
    P*A0 = L*E where L has a non-zero diagonal (so its r columns are independent) and E is in row echelon form
    with pivot columns Q 0 < ... < Q (r-1); the entries of A which belong to neither L nor E are 0. *)
Definition is_ple (f : N) (m n : nat) (A0 A : mat) (P Q : nat -> nat) (r : nat) : Prop :=
  r <= m /\ r <= n /\ valid_perm m P /\ valid_perm n Q /\ (forall i, r <= i < m -> P i = i) /\
  (forall i i', i < i' -> i' < r -> Q i < Q i') /\
  (forall i, i < r -> A i i <> 0%N) /\
  (forall k j, k < r -> k < j <= Q k -> A k j = 0%N) /\
  (forall k j, r <= k < m -> r <= j < n -> A k j = 0%N) /\
  meq m n (fun i j => A0 (swaps P m i) j) (mmul f r (ple_L A) (ple_E Q A)).

(** PLUQ: as above, but U is upper triangular with ones on the diagonal, and the columns are permuted as well: row and
    column swaps turn A0 into L*U.  U is stored right of the diagonal in the first r rows. *)
Definition ple_U (A : mat) : mat := fun k j => if j <? k then 0%N else if j =? k then 1%N else A k j.
Definition is_pluq (f : N) (m n : nat) (A0 A : mat) (P Q : nat -> nat) (r : nat) : Prop :=
  r <= m /\ r <= n /\ valid_perm m P /\ valid_perm n Q /\
  (forall i, i < r -> A i i <> 0%N) /\
  (forall k j, r <= k < m -> r <= j < n -> A k j = 0%N) /\
  meq m n (fun i j => A0 (swaps P m i) (swaps Q n j)) (mmul f r (ple_L A) (ple_U A)).

(** The pivots are the first ones.  At step k of the elimination the rows P 0, ..., P (k-1) have been swapped up, and row
    i of the matrix is row [swaps P k i] of the original; the pivot row is i = P k.  A row i with k <= i < P k ends up as
    the row j with [swaps P m j = swaps P k i]; it was passed over, so that its entry in column k of L is 0. *)
Definition first_pivots (m : nat) (A : mat) (P : nat -> nat) (r : nat) : Prop :=
  forall k i j, k < r -> k <= i < P k -> j < m -> swaps P m j = swaps P k i -> ple_L A j k = 0%N.
