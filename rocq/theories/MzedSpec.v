(** Specification vocabulary for packed matrices: how a matrix of field elements is read off the
    words of an [mzed], and when an [mzed] is well-formed. *)
From Coq Require Import NArith List Bool Arith.
From Verif Require Import Base Spec Gf2xModel Gf2eModel Gf2eProofs MzdModel MzedModel.
Local Open Scope nat_scope.

(** elements per word *)
Definition per (w : nat) : nat := 64 / w.
(** element c of a row of words: the w-bit field number (c mod per) of word (c / per) *)
Definition rel (w : nat) (r : list N) (c : nat) : N := lane w (nth (c / per w) r 0%N) (c mod per w).
(** the entry (i,c) of a packed matrix *)
Definition entry (A : mzed) (i c : nat) : N := rel (mz_w A) (mrow (mz_x A) i) c.
(** number of element slots in a row, including the padding of the last word *)
Definition cap (A : mzed) : nat := per (mz_w A) * width (mz_w A * mz_ncols A).

(** the matrix represented by A *)
Definition mat_of (A : mzed) : mat := entry A.

(** well-formed packed matrices: what [mzed_init] builds and every operation keeps.  The last
    clause says that the slots hold field elements; slots beyond ncols are padding (zero in a
    fresh matrix, elements of the parent in a window). *)
Definition wf_mzed (A : mzed) : Prop :=
  gf2e_wf (mz_ff A) /\
  gf2e_degree_to_w (mz_ff A) = Ok (mz_w A) /\
  mzd_nrows (mz_x A) = mz_nrows A /\
  mzd_ncols (mz_x A) = mz_w A * mz_ncols A /\
  length (mzd_rows (mz_x A)) = mz_nrows A /\
  (forall i, i < mz_nrows A ->
     length (mrow (mz_x A) i) = width (mz_w A * mz_ncols A) /\
     Forall (fun x => (x < 2 ^ 64)%N) (mrow (mz_x A) i)) /\
  (forall i c, i < mz_nrows A -> c < cap A -> inF (ff_minpoly (mz_ff A)) (entry A i c)).

(** same field and same dimensions *)
Definition same_shape (A B : mzed) : Prop :=
  mz_ff A = mz_ff B /\ mz_w A = mz_w B /\ mz_nrows A = mz_nrows B /\ mz_ncols A = mz_ncols B.

(** [becomes A A' F]: A' is A with its entries replaced by those of the matrix F, everything
    else (field, dimensions, padding slots) unchanged, and A' is well-formed. *)
Definition becomes (A A' : mzed) (F : mat) : Prop :=
  wf_mzed A' /\ same_shape A A' /\
  (forall i c, i < mz_nrows A -> c < mz_ncols A -> entry A' i c = F i c) /\
  (forall i c, i < mz_nrows A -> mz_ncols A <= c < cap A -> entry A' i c = entry A i c).

(** [holds A f m n F]: A is a well-formed m x n matrix over GF(2)[X]/f with entries F. *)
Definition holds (A : mzed) (f : N) (m n : nat) (F : mat) : Prop :=
  wf_mzed A /\ ff_minpoly (mz_ff A) = f /\ mz_nrows A = m /\ mz_ncols A = n /\
  (forall i c, i < m -> c < n -> entry A i c = F i c).
(** an optional target argument: NULL, or a well-formed matrix of the right field and shape *)
Definition target (C : option mzed) (f : N) (m n : nat) : Prop :=
  match C with
  | None => True
  | Some C => wf_mzed C /\ ff_minpoly (mz_ff C) = f /\ mz_nrows C = m /\ mz_ncols C = n
  end.
