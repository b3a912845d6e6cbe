(** Specification vocabulary for bit-sliced matrices: well-formedness and the matrix of field
    elements they represent.  Definitions only. *)
From Coq Require Import NArith List Bool Arith.
From Verif Require Import Base Spec Gf2xModel Gf2eModel Gf2eProofs MzdModel SliceModel.
Import ListNotations.
Local Open Scope nat_scope.

(** a well-formed GF(2) matrix: row lists of the right shape, 64-bit words *)
Definition wf_mzd (M : mzd) : Prop :=
  length (mzd_rows M) = mzd_nrows M /\
  forall i, i < mzd_nrows M -> length (mrow M i) = width (mzd_ncols M) /\ Forall (fun x => (x < 2 ^ 64)%N) (mrow M i).
(** [mset M M' g]: M' is M with the entries replaced by g; shape and padding bits unchanged *)
Definition mset (M M' : mzd) (g : nat -> nat -> bool) : Prop :=
  wf_mzd M' /\ mzd_nrows M' = mzd_nrows M /\ mzd_ncols M' = mzd_ncols M /\
  (forall i k, i < mzd_nrows M -> k < mzd_ncols M -> mbit M' i k = g i k) /\
  (forall i k, i < mzd_nrows M -> mzd_ncols M <= k < 64 * width (mzd_ncols M) -> mbit M' i k = mbit M i k).
(** M' has the entries g and the dimensions of M; nothing is said about its padding *)
Definition mgot (M M' : mzd) (g : nat -> nat -> bool) : Prop :=
  wf_mzd M' /\ mzd_nrows M' = mzd_nrows M /\ mzd_ncols M' = mzd_ncols M /\
  (forall i k, i < mzd_nrows M -> k < mzd_ncols M -> mbit M' i k = g i k).

(** slice b of A *)
Definition sx (A : slice) (b : nat) : mzd := nth b (sl_x A) (Mzd 0 0 []).
(** the entry (i,c): bit b comes from slice b *)
Definition sentry (A : slice) (i c : nat) : N := word_of_bits (sl_depth A) (fun b => mbit (sx A b) i c).
(** well-formed sliced matrices: what [mzd_slice_init] builds and every operation keeps *)
Definition wf_slice (A : slice) : Prop :=
  gf2e_wf (sl_ff A) /\ sl_depth A = ff_degree (sl_ff A) /\ length (sl_x A) = sl_depth A /\
  forall b, b < sl_depth A -> wf_mzd (sx A b) /\ mzd_nrows (sx A b) = sl_nrows A /\ mzd_ncols (sx A b) = sl_ncols A.
(** [sbecomes A A' F]: A' is A with its entries replaced by F; field, shape and padding unchanged *)
Definition sbecomes (A A' : slice) (F : mat) : Prop :=
  wf_slice A' /\ sl_ff A' = sl_ff A /\ sl_nrows A' = sl_nrows A /\ sl_ncols A' = sl_ncols A /\
  (forall i c, i < sl_nrows A -> c < sl_ncols A -> sentry A' i c = F i c) /\
  (forall b i k, b < sl_depth A -> i < sl_nrows A -> sl_ncols A <= k < 64 * width (sl_ncols A) -> mbit (sx A' b) i k = mbit (sx A b) i k).
(** [sholds A f m n F]: A is a well-formed sliced m x n matrix over GF(2)[X]/f with entries F *)
Definition sholds (A : slice) (f : N) (m n : nat) (F : mat) : Prop :=
  wf_slice A /\ ff_minpoly (sl_ff A) = f /\ sl_nrows A = m /\ sl_ncols A = n /\
  (forall i c, i < m -> c < n -> sentry A i c = F i c).
(** an optional target: NULL or a well-formed matrix of the right field and shape *)
Definition starget (C : option slice) (f : N) (m n : nat) : Prop :=
  match C with
  | None => True
  | Some C => wf_slice C /\ ff_minpoly (sl_ff C) = f /\ sl_nrows C = m /\ sl_ncols C = n
  end.
