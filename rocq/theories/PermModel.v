(** Model of src/permutation.h on top of M4RI's permutation functions.
    A permutation [mzp_t] is a LAPACK-style list of transpositions: values[i] is swapped with i. *)
From Coq Require Import NArith ZArith List Bool Arith.
From Verif Require Import Base Gf2xModel Gf2eModel MzdModel MzedModel SliceModel.
Import ListNotations.
Local Open Scope nat_scope.

Definition mzp := list nat.
(** M4RI [mzp_init]: the identity *)
Definition mzp_init (n : nat) : mzp := seq 0 n.
(** M4RI [mzp_init_window(P, begin, end)], and writing the window back *)
Definition mzp_window (P : mzp) (b e : nat) : res mzp :=
  _ <- guard ((b <=? e) && (e <=? length P)) ;; Ok (firstn (e - b) (skipn b P)).
Definition mzp_unwindow (P : mzp) (b : nat) (W : mzp) : mzp := firstn b P ++ W ++ skipn (b + length W) P.

(** M4RI contracts: [mzd_apply_p_left] and [mzd_apply_p_left_trans] (row swaps, forwards and
    backwards; nothing happens if there are no columns) *)
Definition mzd_apply_p_left (A : mzd) (P : mzp) : res mzd :=
  if mzd_ncols A =? 0 then Ok A else
  for_ 0 (Nat.min (length P) (mzd_nrows A)) (fun i A => p <- lget P i ;; mzd_row_swap A i p) A.
Definition mzd_apply_p_left_trans (A : mzd) (P : mzp) : res mzd :=
  if mzd_ncols A =? 0 then Ok A else
  for_down 0 (Nat.min (length P) (mzd_nrows A)) (fun i A => p <- lget P i ;; mzd_row_swap A i p) A.
(** M4RI contracts: [mzd_apply_p_right] (column swaps backwards), [mzd_apply_p_right_trans] (forwards),
    [mzd_apply_p_right_trans_tri] (forwards, swap i only in the rows above i) *)
Definition mzd_apply_p_right (A : mzd) (P : mzp) : res mzd :=
  if mzd_nrows A =? 0 then Ok A else
  for_down 0 (Nat.min (length P) (mzd_ncols A)) (fun i A => p <- lget P i ;; mzd_col_swap A i p) A.
Definition mzd_apply_p_right_trans (A : mzd) (P : mzp) : res mzd :=
  if mzd_nrows A =? 0 then Ok A else
  for_ 0 (Nat.min (length P) (mzd_ncols A)) (fun i A => p <- lget P i ;; mzd_col_swap A i p) A.
Definition mzd_apply_p_right_trans_tri (A : mzd) (P : mzp) : res mzd :=
  _ <- guard (length P =? mzd_ncols A) ;;
  for_ 0 (mzd_ncols A) (fun i A => p <- lget P i ;; mzd_col_swap_in_rows A i p 0 (Nat.min i (mzd_nrows A))) A.

(** permutation.h:43-45 [mzed_apply_p_left], 56-58 [mzed_apply_p_left_trans] *)
Definition mzed_apply_p_left (A : mzed) (P : mzp) : res mzed := x <- mzd_apply_p_left (mz_x A) P ;; Ok (mz_set_x A x).
Definition mzed_apply_p_left_trans (A : mzed) (P : mzp) : res mzed := x <- mzd_apply_p_left_trans (mz_x A) P ;; Ok (mz_set_x A x).
(** permutation.h:69-76 [mzed_apply_p_right], 87-94 [mzed_apply_p_right_trans] *)
Definition mzed_apply_p_right (A : mzed) (P : mzp) : res mzed :=
  if mz_nrows A =? 0 then Ok A else
  for_down 0 (Nat.min (length P) (mz_ncols A)) (fun i A => p <- lget P i ;; mzed_col_swap A i p) A.
Definition mzed_apply_p_right_trans (A : mzed) (P : mzp) : res mzed :=
  if mz_nrows A =? 0 then Ok A else
  for_ 0 (Nat.min (length P) (mz_ncols A)) (fun i A => p <- lget P i ;; mzed_col_swap A i p) A.
(** permutation.h:105-109, 120-124, 135-139, 150-154, 167-171: the same for every slice *)
Definition mzd_slice_apply_p_left (A : slice) (P : mzp) : res slice := sl_map A (fun _ x => mzd_apply_p_left x P).
Definition mzd_slice_apply_p_left_trans (A : slice) (P : mzp) : res slice := sl_map A (fun _ x => mzd_apply_p_left_trans x P).
Definition mzd_slice_apply_p_right (A : slice) (P : mzp) : res slice := sl_map A (fun _ x => mzd_apply_p_right x P).
Definition mzd_slice_apply_p_right_trans (A : slice) (P : mzp) : res slice := sl_map A (fun _ x => mzd_apply_p_right_trans x P).
Definition mzd_slice_apply_p_right_trans_tri (A : slice) (P : mzp) : res slice := sl_map A (fun _ x => mzd_apply_p_right_trans_tri x P).
