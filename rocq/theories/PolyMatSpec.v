(** Specification vocabulary for matrices over GF(2)[x].  Definitions only. *)
From Coq Require Import NArith List Bool Arith.
From Verif Require Import Base Spec MzdModel MzedSpec SliceModel SliceSpec PolyMatModel.
Import ListNotations.
Local Open Scope nat_scope.

(** the entry (i, c) of the matrix: a polynomial over GF(2), the bit k of the number being the coefficient of x^k *)
Definition pentry (A : mpoly) (i c : nat) : N :=
  fold_right (fun M acc => N.b2n (mbit M i c) + 2 * acc)%N 0%N (mp_x A).
(** well-formed: [mp_depth] coefficient matrices of the right size, allocated room for at least so many *)
Definition wf_mpoly (A : mpoly) : Prop :=
  length (mp_x A) = mp_depth A /\ mp_depth A <= mp_cap A /\
  forall M, In M (mp_x A) -> wf_mzd M /\ mzd_nrows M = mp_nrows A /\ mzd_ncols M = mp_ncols A.
(** A' has the size, depth and capacity of A, its entries are the polynomials F i c, and the bits outside the
    matrix (in the last word of every row, other windows of the same memory) are those of A *)
Definition pbecomes (A A' : mpoly) (F : nat -> nat -> N) : Prop :=
  wf_mpoly A' /\ mp_nrows A' = mp_nrows A /\ mp_ncols A' = mp_ncols A /\ mp_depth A' = mp_depth A /\ mp_cap A' = mp_cap A /\
  (forall i c, i < mp_nrows A -> c < mp_ncols A -> pentry A' i c = F i c) /\
  (forall k i c, k < mp_depth A -> i < mp_nrows A -> mp_ncols A <= c < 64 * width (mp_ncols A) -> mbit (nth k (mp_x A') (mzd_init 0 0)) i c = mbit (nth k (mp_x A) (mzd_init 0 0)) i c).
(** the same without the last part *)
Definition pgets (A A' : mpoly) (F : nat -> nat -> N) : Prop :=
  wf_mpoly A' /\ mp_nrows A' = mp_nrows A /\ mp_ncols A' = mp_ncols A /\ mp_depth A' = mp_depth A /\ mp_cap A' = mp_cap A /\
  (forall i c, i < mp_nrows A -> c < mp_ncols A -> pentry A' i c = F i c).
(** the bits outside the matrix, in the last words of the rows, are 0 *)
Definition pclean (B : mpoly) : Prop := forall k i c, k < mp_depth B -> i < mp_nrows B -> mp_ncols B <= c < 64 * width (mp_ncols B) ->
  mbit (nth k (mp_x B) (mzd_init 0 0)) i c = false.
(** product of matrices over GF(2)[x], inner dimension l *)
Definition pmmul (l : nat) (F G : nat -> nat -> N) : nat -> nat -> N := fun i c => xsum l (fun t => pmul (F i t) (G t c)).
(** A' is A with exactly d coefficients: truncated or extended by zeros *)
Definition resized (A A' : mpoly) (d : nat) : Prop :=
  wf_mpoly A' /\ mp_nrows A' = mp_nrows A /\ mp_ncols A' = mp_ncols A /\ mp_depth A' = d /\ mp_cap A' = mp_cap A /\
  forall i c, i < mp_nrows A -> c < mp_ncols A -> pentry A' i c = N.land (pentry A i c) (N.ones (N.of_nat d)).
(** C is NULL or a result with room for all coefficients of the product A*B *)
Definition ptarget (C : option mpoly) (A B : mpoly) : Prop :=
  match C with Some C => wf_mpoly C /\ mp_nrows C = mp_nrows A /\ mp_ncols C = mp_ncols B /\ mp_depth A + mp_depth B - 1 <= mp_depth C | None => True end.
(** the old value of the result, 0 for NULL *)
Definition pold (C : option mpoly) : nat -> nat -> N := match C with Some C => pentry C | None => fun _ _ => 0%N end.
(** C' is C + A*B, in C or (NULL) in a new matrix *)
Definition padds (C : option mpoly) (A B C' : mpoly) : Prop :=
  pbecomes (mp_or_init C A B) C' (fun i c => N.lxor (pold C i c) (pmmul (mp_ncols A) (pentry A) (pentry B) i c)).
(** C' is C + A*B; the bits of C outside the matrix are kept under the condition P *)
Definition padds_if (P : Prop) (C : option mpoly) (A B C' : mpoly) : Prop :=
  pgets (mp_or_init C A B) C' (fun i c => N.lxor (pold C i c) (pmmul (mp_ncols A) (pentry A) (pentry B) i c)) /\ (P -> padds C A B C').
