(** Sizes and positions in C integer types.  The other models compute sizes and bit positions in nat.  In the C code these
    are computed in type int (rci_t and wi_t are int in M4RI), where a result outside of -2^31 .. 2^31-1 is undefined
    behaviour.  This file models the functions again, with that arithmetic; the theorems (PropInt.v) say when both agree. *)
From Coq Require Import NArith ZArith List Bool Arith.
From Verif Require Import Base Spec Gf2eModel MzdModel MzedModel NjModel.
Import ListNotations.
Local Open Scope nat_scope.

(** the int operations *)
Definition int_range (z : Z) : bool := ((- 2147483648 <=? z) && (z <? 2147483648))%Z.
Definition int_of (z : Z) : res Z := if int_range z then Ok z else UB.
Definition imul (a b : Z) : res Z := int_of (a * b)%Z.
Definition iadd (a b : Z) : res Z := int_of (a + b)%Z.
Definition isub (a b : Z) : res Z := int_of (a - b)%Z.
(** arguments of M4RI functions: a dimension or position must not be negative *)
Definition pos (z : Z) : res nat := if (z <? 0)%Z then UB else Ok (Z.to_nat z).

(** mzed.c:28-37 [mzed_init]; A->w has type wi_t (mzed.h:65-70) *)
Definition mzed_init_int (k : gf2e) (m n : Z) : res mzed :=
  w <- gf2e_degree_to_w k ;;
  c <- imul (Z.of_nat w) n ;;
  rows <- pos m ;; cols <- pos n ;; c <- pos c ;;
  Ok (Mzed k w rows cols (mzd_init rows c)).
(** mzed.h:424-426 [mzed_read_elem] *)
Definition mzed_read_elem_int (A : mzed) (row col : Z) : res N :=
  p <- imul (Z.of_nat (mz_w A)) col ;; r <- pos row ;; p <- pos p ;; mzd_read_bits_ (mz_x A) r p (mz_w A).
(** mzed.h:439-441 [mzed_add_elem] *)
Definition mzed_add_elem_int (A : mzed) (row col : Z) (v : N) : res mzed :=
  p <- imul (Z.of_nat (mz_w A)) col ;; r <- pos row ;; p <- pos p ;; x <- mzd_xor_bits_ (mz_x A) r p (mz_w A) v ;; Ok (mz_set_x A x).
(** mzed.h:454-457 [mzed_write_elem] *)
Definition mzed_write_elem_int (A : mzed) (row col : Z) (v : N) : res mzed :=
  p <- imul (Z.of_nat (mz_w A)) col ;; r <- pos row ;; p <- pos p ;;
  x <- mzd_clear_bits_ (mz_x A) r p (mz_w A) ;; x <- mzd_xor_bits_ x r p (mz_w A) v ;; Ok (mz_set_x A x).
(** mzed.h:111-116 [mzed_concat], mzed.h:135-140 [mzed_stack] *)
Definition mzed_concat_int (C : option mzed) (A B : mzed) : res mzed :=
  C <- match C with
       | None => n <- iadd (Z.of_nat (mz_ncols A)) (Z.of_nat (mz_ncols B)) ;; mzed_init_int (mz_ff A) (Z.of_nat (mz_nrows A)) n
       | Some C => Ok C
       end ;;
  x <- mzd_concat (mz_x C) (mz_x A) (mz_x B) ;; Ok (mz_set_x C x).
Definition mzed_stack_int (C : option mzed) (A B : mzed) : res mzed :=
  C <- match C with
       | None => m <- iadd (Z.of_nat (mz_nrows A)) (Z.of_nat (mz_nrows B)) ;; mzed_init_int (mz_ff A) m (Z.of_nat (mz_ncols A))
       | Some C => Ok C
       end ;;
  x <- mzd_stack (mz_x C) (mz_x A) (mz_x B) ;; Ok (mz_set_x C x).
(** mzed.h:157-163 [mzed_submatrix] *)
Definition mzed_submatrix_int (D : option mzed) (M : mzed) (lr lc hr hc : Z) : res mzed :=
  D <- match D with
       | None => m <- isub hr lr ;; n <- isub hc lc ;; mzed_init_int (mz_ff M) m n
       | Some D => Ok D
       end ;;
  l <- imul lc (Z.of_nat (mz_w M)) ;; h <- imul hc (Z.of_nat (mz_w M)) ;;
  lr <- pos lr ;; hr <- pos hr ;; l <- pos l ;; h <- pos h ;;
  x <- mzd_submatrix (mz_x D) (mz_x M) lr l hr h ;; Ok (mz_set_x D x).
(** mzed.h:187-195 [mzed_init_window] *)
Definition mzed_window_int (A : mzed) (lr lc hr hc : Z) : res mzed :=
  w <- gf2e_degree_to_w (mz_ff A) ;;
  m <- isub hr lr ;; n <- isub hc lc ;; l <- imul (Z.of_nat w) lc ;; h <- imul (Z.of_nat w) hc ;;
  m <- pos m ;; n <- pos n ;; lr <- pos lr ;; hr <- pos hr ;; l <- pos l ;; h <- pos h ;;
  x <- mzd_window (mz_x A) lr l hr h ;; Ok (Mzed (mz_ff A) w m n x).
(** mzed.h:940-943 [mzed_col_swap]; mzed.h:957-961 [mzed_col_swap_in_rows] (there e is unsigned: the sum is computed in type
    unsigned int, and converted to int) *)
Definition mzed_col_swap_int (M : mzed) (a b : Z) : res mzed :=
  x <- for_ 0 (mz_w M) (fun i x =>
         pa <- imul (Z.of_nat (mz_w M)) a ;; pa <- iadd pa (Z.of_nat i) ;;
         pb <- imul (Z.of_nat (mz_w M)) b ;; pb <- iadd pb (Z.of_nat i) ;;
         pa <- pos pa ;; pb <- pos pb ;; mzd_col_swap x pa pb) (mz_x M) ;;
  Ok (mz_set_x M x).
Definition mzed_col_swap_in_rows_int (M : mzed) (a b : Z) (start stop : nat) : res mzed :=
  x <- for_ 0 (ff_degree (mz_ff M)) (fun e x =>
         pa <- imul (Z.of_nat (mz_w M)) a ;; let pa := ((pa + Z.of_nat e) mod 4294967296)%Z in
         pb <- imul (Z.of_nat (mz_w M)) b ;; let pb := ((pb + Z.of_nat e) mod 4294967296)%Z in
         pa <- int_of pa ;; pb <- int_of pb ;;
         pa <- pos pa ;; pb <- pos pb ;; mzd_col_swap_in_rows x pa pb start stop) (mz_x M) ;;
  Ok (mz_set_x M x).

(** newton_john.c:240-247: the number of columns for the elimination.  [optk] is what M4RI's m4ri_opt_k returns, [l2] is
    __M4RI_CPU_L2_CACHE.  (m4ri_opt_k returns at least 1; a negative number of columns is taken as undefined.)  The comparison x/8.0 > l2/2.0 of doubles is exact (|x| < 2^31, l2 < 2^53). *)
Definition nj_k0 (optk : nat) (l2 : Z) (ncols : nat) : res nat :=
  let kk := if 7 <=? optk then 7 else optk in
  s <- imul 6 (2 ^ Z.of_nat kk) ;; s <- imul s (Z.of_nat ncols) ;;
  k <- (if (4 * l2 <? s)%Z then isub (Z.of_nat kk) 1 else Ok (Z.of_nat kk)) ;; pos k.
(** newton_john.c:235-347 [mzed_echelonize_newton_john], with the choice of the number of columns *)
Definition mzed_echelonize_newton_john_int (optk : nat) (l2 : Z) (A : mzed) (full : bool) : res (mzed * nat) :=
  k0 <- nj_k0 optk l2 (mz_ncols A) ;; mzed_echelonize_newton_john k0 A full.
(** newton_john.c:508-530 [mzed_invert_newton_john], with the choice of the number of columns in the echelon form *)
Definition mzed_invert_newton_john_int (optk : nat) (l2 : Z) (B : option mzed) (A : mzed) : res mzed :=
  _ <- guard (mz_nrows A =? mz_ncols A) ;;
  I <- mzed_init_int (mz_ff A) (Z.of_nat (mz_nrows A)) (Z.of_nat (mz_ncols A)) ;;
  I <- mzed_set_ui I 1 ;;
  T <- mzed_concat_int None A I ;;
  '(T, _) <- mzed_echelonize_newton_john_int optk l2 T true ;;
  J <- mzed_window_int T 0 0 (Z.of_nat (mz_nrows A)) (Z.of_nat (mz_ncols A)) ;;
  match mzed_cmp I J with
  | Eq => mzed_submatrix_int B T 0 (Z.of_nat (mz_ncols A)) (Z.of_nat (mz_nrows A)) (Z.of_nat (mz_ncols T))
  | _ => Die
  end.
