(** A client of the library: linear systems A*X = B.  m4rie has no function for this; the calls below are those of
    M4RI's mzd_solve_left (solve.c), with the functions of m4rie: factorisation, permutations, triangular solvers,
    product, on windows.  Used to state that the conventions of these functions fit together. *)
From Coq Require Import NArith ZArith List Bool Arith.
From Verif Require Import Base Gf2eModel MzdModel MzedModel SliceModel KaraModel ConvModel StrassenModel TrsmModel PermModel PleModel.
Import ListNotations.
Local Open Scope nat_scope.

(** the upper triangular factor has ones on its diagonal, which are not stored *)
Definition unit_upper (LU : slice) (r : nat) : res slice :=
  U <- mzd_slice_submatrix None LU 0 0 r r ;;
  for_ 0 r (fun i U => mzd_slice_write_elem U i i 1) U.
(** client code; None: there is no solution *)
Definition slice_solve (l2 : Z) (A B : slice) : res (option slice) :=
  let m := sl_nrows A in let n := sl_ncols A in let k := sl_ncols B in
  LU <- mzd_slice_copy None A ;;
  '(LU, P, Q, r) <- mzd_slice_pluq l2 LU (mzp_init m) (mzp_init n) ;;
  Y <- mzd_slice_copy None B ;;
  Y <- mzd_slice_apply_p_left Y P ;;
  L1 <- mzd_slice_window LU 0 0 r r ;;
  Y <- on_swin Y 0 0 r k (fun Y1 => mzd_slice_trsm_lower_left L1 Y1) ;;
  L2 <- mzd_slice_window LU r 0 m r ;;
  Y1 <- mzd_slice_window Y 0 0 r k ;;
  Y <- on_swin Y r 0 m k (fun Y2 => mzd_slice_addmul (Some Y2) L2 Y1) ;;
  Y2 <- mzd_slice_window Y r 0 m k ;;
  if negb (mzd_slice_is_zero Y2) then Ok None else
  U1 <- unit_upper LU r ;;
  let X := mzd_slice_init (sl_ff A) n k in
  X <- on_swin X 0 0 r k (fun X1 => mzd_slice_copy (Some X1) Y1) ;;
  X <- on_swin X 0 0 r k (fun X1 => mzd_slice_trsm_upper_left U1 X1) ;;
  X <- mzd_slice_apply_p_left_trans X Q ;;
  Ok (Some X).
(** client code, square matrices of full rank, with a packed PLE decomposition; None: A has no inverse *)
Definition mzed_solve (mulbs : nat) (l2 : Z) (A B : mzed) : res (option mzed) :=
  let n := mz_nrows A in
  LE <- mzed_copy None A ;;
  '(LE, P, Q, r) <- mzed_ple l2 LE (mzp_init n) (mzp_init n) ;;
  if r <? n then Ok None else
  X <- mzed_copy None B ;;
  X <- mzed_apply_p_left X P ;;
  X <- mzed_trsm_lower_left mulbs l2 LE X ;;
  U <- for_ 0 n (fun i U => mzed_write_elem U i i 1) LE ;;
  X <- mzed_trsm_upper_left mulbs l2 U X ;;
  Ok (Some X).
