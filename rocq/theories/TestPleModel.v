(** The tests of the PLE decomposition: /repo/tests/testing.h (random_mzed_t_rank) and test_ple.c (test_mzed_ple). *)
From Coq Require Import NArith ZArith List Bool Arith.
From Verif Require Import Base Spec Gf2xModel Gf2eModel MzdModel MzedModel MzedSpec PermModel PleModel HistSpec HistModel TestModel.
Import ListNotations.
Local Open Scope nat_scope.

(** the random values: the entries of L and U, the rows and the columns to swap with *)
Record rank_rnd := RR { rr_L : nat -> nat -> N; rr_U : nat -> nat -> N; rr_row : nat -> nat; rr_col : nat -> nat }.
(** testing.h:139-149: L.  Rows below r get zeros from column r+1 on only: column r meets a zero row of U *)
Definition rank_L (ff : gf2e) (R : rank_rnd) (m r : nat) : res mzed :=
  L <- mzed_init ff m m ;; L <- mzed_randomize (rr_L R) L ;;
  L <- for_ 0 r (fun i L => L <- for_ (i + 1) (mz_ncols L) (fun j L => mzed_write_elem L i j 0) L ;; mzed_write_elem L i i 1) L ;;
  for_ r (mz_nrows L) (fun i L => for_ (r + 1) (mz_ncols L) (fun j L => mzed_write_elem L i j 0) L) L.
(** testing.h:132-137, 151-156: U; the first r rows, a window, are drawn *)
Definition rank_U (ff : gf2e) (R : rank_rnd) (m n r : nat) : res mzed :=
  U <- mzed_init ff m n ;;
  Ur <- mzed_window U 0 0 r (mz_ncols U) ;; Ur <- mzed_randomize (rr_U R) Ur ;; let U := mzed_unwindow U 0 0 Ur in
  for_ 0 r (fun i U => U <- mzed_write_elem U i i 1 ;; for_ 0 i (fun j U => mzed_write_elem U i j 0) U) U.
(** testing.h:131-172 [random_mzed_t_rank] *)
Definition random_mzed_t_rank (cf : config) (R : rank_rnd) (m n r : nat) : res mzed :=
  U <- rank_U (cf_ff cf) R m n r ;; L <- rank_L (cf_ff cf) R m r ;;
  A <- p_mul cf Default None L U ;;
  A <- for_ 0 (mz_nrows A) (fun i A => mzed_row_swap A i (rr_row R i mod mz_nrows A)) A ;;
  A <- for_ 0 (mz_ncols A) (fun i A => mzed_col_swap A i (rr_col R i mod mz_ncols A)) A ;;
  mzed_set_canary A.

(** test_ple.c:125-127: L out of the packed matrix *)
Definition unpack_L (LE L : mzed) (r : nat) : res mzed :=
  for_ 0 r (fun j L => for_ j (mz_nrows LE) (fun i L => x <- mzed_read_elem LE i j ;; mzed_write_elem L i j x) L) L.
(** test_ple.c:133-137: E *)
Definition unpack_E (LE : mzed) (Q : mzp) (E : mzed) (r : nat) : res mzed :=
  for_ 0 r (fun i E => q <- lget Q i ;; E <- mzed_write_elem E i q 1 ;;
     for_ (q + 1) (mz_ncols LE) (fun j E => x <- mzed_read_elem LE i j ;; mzed_write_elem E i j x) E) E.
(** test_ple.c:77-166 [test_mzed_ple] *)
Definition test_mzed_ple (cf : config) (R : rank_rnd) (m n r : nat) : res nat :=
  A <- random_mzed_t_rank cf R m n r ;;
  LE0 <- mzed_copy None A ;; LE1 <- mzed_copy None A ;; LE2 <- mzed_copy None A ;;
  LE0 <- mzed_set_canary LE0 ;; '(LE0, P0, Q0, r0) <- p_ple cf Naive LE0 ;; a0 <- alive_all [LE0] ;;
  LE1 <- mzed_set_canary LE1 ;; '(LE1, P1, Q1, r1) <- p_ple cf NewtonJohn LE1 ;; a1 <- alive_all [LE1] ;;
  LE2 <- mzed_set_canary LE2 ;; '(LE2, P2, Q2, r2) <- p_ple cf Default LE2 ;; a2 <- alive_all [LE2] ;;
  let c1 := chk_eq (Z.of_nat r0) (Z.of_nat r) + chk_eq (Z.of_nat r1) (Z.of_nat r) + chk_eq (Z.of_nat r2) (Z.of_nat r) +
            chk_eq (c_cmp (mzed_cmp LE0 LE1)) 0 + chk_eq (c_cmp (mzed_cmp LE1 LE2)) 0 + chk_eq (c_cmp (mzed_cmp LE2 LE0)) 0 in
  L <- mzed_init (cf_ff cf) m m ;; L <- mzed_set_canary L ;; L <- unpack_L LE0 L r ;; a3 <- alive_all [L] ;;
  E <- mzed_init (cf_ff cf) m n ;; E <- mzed_set_canary E ;; E <- unpack_E LE0 Q0 E r ;; a4 <- alive_all [E] ;;
  B <- p_mul cf Default None L E ;;
  A <- mzed_apply_p_left A P0 ;; a5 <- alive_all [A] ;;
  Ok (a0 + a1 + a2 + c1 + a3 + a4 + a5 + chk_eq (c_cmp (mzed_cmp A B)) 0).
