(** Model of src/ple.c, src/ple.h, the Newton-John PLE of src/newton_john.c, and src/echelonform.c, .h.
    The size products are computed in the C types (size_t in ple.c, int in echelonform.c). *)
From Coq Require Import NArith ZArith List Bool Arith.
From Verif Require Import Base Gf2xModel Gf2eModel MzdModel MzedModel NjModel StrassenModel SliceModel KaraModel ConvModel MulModel TrsmModel PermModel.
Import ListNotations.
Local Open Scope nat_scope.

(** ple.c:35-44 and newton_john.c:361-370, the search for a pivot: column by column from [col] on, in
    each column from row [row] on; [n] columns are left.  Result: row, column, element. *)
Fixpoint ple_find (n : nat) (A : mzed) (row col : nat) : res (option (nat * nat * N)) :=
  match n with
  | O => Ok None
  | S n' =>
      p <- find_pivot (mz_nrows A - row) row A col ;;
      match p with
      | Some (i, x) => Ok (Some (i, col, x))
      | None => ple_find n' A row (S col)
      end
  end.
(** ple.c:33-63, newton_john.c:359-386: the main loop.  [elim A T row j] is the elimination of the rows
    below [row] (which has been rescaled from column j+1 on); T is the table of the Newton-John variant,
    unit in the naive one.  [fuel] bounds the number of iterations (proved sufficient). *)
Fixpoint ple_loop {X} (elim : mzed -> X -> nat -> nat -> res (mzed * X)) (fuel : nat) (A : mzed) (T : X) (P Q : mzp) (row col : nat) : res (mzed * mzp * mzp * nat) :=
  match fuel with
  | O => UB
  | S fuel' =>
      if (row <? mz_nrows A) && (col <? mz_ncols A) then
        p <- ple_find (mz_ncols A - col) A row col ;;
        match p with
        | None => Ok (A, P, Q, row)
        | Some (i, j, x) =>
            P <- lset P row i ;; Q <- lset Q row j ;;
            A <- mzed_row_swap A row i ;;
            '(A, T) <- (if j + 1 <? mz_ncols A then
                          xi <- gf2e_inv (mz_ff A) x ;;
                          A <- mzed_rescale_row A row (j + 1) xi ;;
                          elim A T row j
                        else Ok (A, T)) ;;
            ple_loop elim fuel' A T P Q (S row) (S j)
        end
      else Ok (A, P, Q, row)
  end.
(** ple.c:64-70, newton_john.c:387-393 *)
Definition ple_finish (A : mzed) (P Q : mzp) (row : nat) : res (mzed * mzp * mzp * nat) :=
  P <- for_ row (mz_nrows A) (fun i P => lset P i i) P ;;
  Q <- for_ row (mz_ncols A) (fun i Q => lset Q i i) Q ;;
  A <- for_ 0 row (fun i A => q <- lget Q i ;; mzed_col_swap_in_rows A i q i (mz_nrows A)) A ;;
  Ok (A, P, Q, row).
(** ple.c:53-56 *)
Definition ple_elim_naive (A : mzed) (T : unit) (row j : nat) : res (mzed * unit) :=
  A <- for_ (row + 1) (mz_nrows A) (fun l A => x <- mzed_read_elem A l j ;; if (x =? 0)%N then Ok A else mzed_add_multiple_of_row A l A row x (j + 1)) A ;;
  Ok (A, tt).
(** newton_john.c:378-379 *)
Definition ple_elim_nj (A : mzed) (T : njt) (row j : nat) : res (mzed * njt) :=
  T <- mzed_make_table T A row (j + 1) ;; A <- mzed_process_rows A (row + 1) (mz_nrows A) j [T] ;; Ok (A, T).
(** ple.c:25-72 [mzed_ple_naive] *)
Definition mzed_ple_naive (A : mzed) (P Q : mzp) : res (mzed * mzp * mzp * nat) :=
  '(A, P, Q, row) <- ple_loop ple_elim_naive (S (mz_ncols A)) A tt P Q 0 0 ;; ple_finish A P Q row.
(** newton_john.c:349-397 [mzed_ple_newton_john] *)
Definition mzed_ple_newton_john (A : mzed) (P Q : mzp) : res (mzed * mzp * mzp * nat) :=
  T0 <- njt_init (mz_ff A) (mz_ncols A) ;;
  '(A, P, Q, row) <- ple_loop ple_elim_nj (S (mz_ncols A)) A T0 P Q 0 0 ;; ple_finish A P Q row.

(** ple.h:179 __M4RIE_PLE_CUTOFF; [l2] is __M4RI_CPU_L2_CACHE *)
Definition ple_cutoff (l2 cutoff : Z) : Z := if (cutoff =? 0)%Z then (4 * l2)%Z else cutoff.
(** ple.c:78, 96: [gf2e_degree_to_w(ff) * ncols * nrows] compared with [cutoff]: gf2e_degree_to_w returns a
    size_t, so that the product and the (signed) cutoff are converted to 64 bit unsigned numbers *)
Definition ple_size (w ncols nrows : nat) : Z := (Z.of_nat w * Z.of_nat ncols * Z.of_nat nrows) mod 2 ^ 64.
Definition usize (z : Z) : Z := z mod 2 ^ 64.
(** ple.c:89-180 [_mzd_slice_ple]; [fuel] bounds the recursion depth (proved sufficient) *)
Fixpoint slice_ple (l2 : Z) (fuel : nat) (A : slice) (P Q : mzp) (cutoff : Z) : res (slice * mzp * mzp * nat) :=
  match fuel with
  | O => UB
  | S fuel' =>
    let ncols := sl_ncols A in let nrows := sl_nrows A in
    let cutoff := ple_cutoff l2 cutoff in
    w <- gf2e_degree_to_w (sl_ff A) ;;
    if (ncols <=? 64) || (ple_size w ncols nrows <=? usize cutoff)%Z then
      Abar <- mzed_cling None A ;;
      '(Abar, P, Q, r) <- mzed_ple_newton_john Abar P Q ;;
      A <- mzed_slice (Some A) Abar ;;
      Ok (A, P, Q, r)
    else
      let n1 := ((ncols - 1) / 64 + 1) / 2 * 64 in
      P1 <- mzp_window P 0 nrows ;; Q1 <- mzp_window Q 0 n1 ;;
      A0 <- mzd_slice_window A 0 0 nrows n1 ;;
      '(A0, P1, Q1, r1) <- slice_ple l2 fuel' A0 P1 Q1 cutoff ;;
      A <- mzd_slice_unwindow A 0 0 A0 ;;
      let P := mzp_unwindow P 0 P1 in let Q := mzp_unwindow Q 0 Q1 in
      A <- (if r1 =? 0 then Ok A else
              A <- on_swin A 0 n1 nrows ncols (fun A1 => mzd_slice_apply_p_left A1 P1) ;;
              A00 <- mzd_slice_window A 0 0 r1 r1 ;;
              A <- on_swin A 0 n1 r1 ncols (fun A01 => mzd_slice_trsm_lower_left A00 A01) ;;
              A10 <- mzd_slice_window A r1 0 nrows r1 ;;
              A01 <- mzd_slice_window A 0 n1 r1 ncols ;;
              on_swin A r1 n1 nrows ncols (fun A11 => mzd_slice_addmul (Some A11) A10 A01)) ;;
      P2 <- mzp_window P r1 nrows ;; Q2 <- mzp_window Q n1 ncols ;;
      A11 <- mzd_slice_window A r1 n1 nrows ncols ;;
      '(A11, P2, Q2, r2) <- slice_ple l2 fuel' A11 P2 Q2 cutoff ;;
      A <- mzd_slice_unwindow A r1 n1 A11 ;;
      A <- on_swin A r1 0 nrows r1 (fun A10 => mzd_slice_apply_p_left A10 P2) ;;
      P2 <- for_ 0 (nrows - r1) (fun i P2 => p <- lget P2 i ;; lset P2 i (p + r1)) P2 ;;
      let P := mzp_unwindow P r1 P2 in
      Q2 <- for_ 0 (ncols - n1) (fun i Q2 => q <- lget Q2 i ;; lset Q2 i (q + n1)) Q2 ;;
      let Q := mzp_unwindow Q n1 Q2 in
      Q <- for_ 0 r2 (fun i Q => q <- lget Q (n1 + i) ;; lset Q (r1 + i) q) Q ;;
      A <- mzd_slice_compress_l A r1 n1 r2 ;;
      Ok (A, P, Q, r1 + r2)
  end.
Definition mzd_slice_ple_ (l2 : Z) (A : slice) (P Q : mzp) (cutoff : Z) : res (slice * mzp * mzp * nat) := slice_ple l2 (S (sl_ncols A)) A P Q cutoff.
(** ple.h:104-108 [mzd_slice_ple] *)
Definition mzd_slice_ple (l2 : Z) (A : slice) (P Q : mzp) : res (slice * mzp * mzp * nat) :=
  _ <- guard ((length P =? sl_nrows A) && (length Q =? sl_ncols A)) ;; mzd_slice_ple_ l2 A P Q 0.
(** ple.c:183-193 [_mzd_slice_pluq] *)
Definition mzd_slice_pluq_ (l2 : Z) (A : slice) (P Q : mzp) (cutoff : Z) : res (slice * mzp * mzp * nat) :=
  '(A, P, Q, r) <- mzd_slice_ple_ l2 A P Q cutoff ;;
  A <- (if negb (r =? 0) && (r <? sl_nrows A) then
          on_swin A 0 0 r (sl_ncols A) (fun A0 => mzd_slice_apply_p_right_trans_tri A0 Q)
        else mzd_slice_apply_p_right_trans_tri A Q) ;;
  Ok (A, P, Q, r).
(** ple.h:141-145 [mzd_slice_pluq] *)
Definition mzd_slice_pluq (l2 : Z) (A : slice) (P Q : mzp) : res (slice * mzp * mzp * nat) :=
  _ <- guard ((length P =? sl_nrows A) && (length Q =? sl_ncols A)) ;; mzd_slice_pluq_ l2 A P Q 0.
(** ple.c:74-87 [_mzed_ple], ple.h:203-205 [mzed_ple] *)
Definition mzed_ple_ (l2 : Z) (A : mzed) (P Q : mzp) (cutoff : Z) : res (mzed * mzp * mzp * nat) :=
  let cutoff := ple_cutoff l2 cutoff in
  w <- gf2e_degree_to_w (mz_ff A) ;;
  if (64 <? mz_ncols A) && (usize cutoff <? ple_size w (mz_ncols A) (mz_nrows A))%Z then
    a <- mzed_slice None A ;;
    '(a, P, Q, r) <- mzd_slice_ple_ l2 a P Q cutoff ;;
    A <- mzed_cling (Some A) a ;;
    Ok (A, P, Q, r)
  else mzed_ple_newton_john A P Q.
Definition mzed_ple (l2 : Z) (A : mzed) (P Q : mzp) : res (mzed * mzp * mzp * nat) := mzed_ple_ l2 A P Q (4 * l2).

(** M4RI [mzd_clear_bits(M, x, y, n)]: the bits (x, y), ..., (x, y+n-1) are cleared, 1 <= n <= 64 *)
Definition mzd_clear_bits (M : mzd) (x y n : nat) : res mzd :=
  _ <- guard ((1 <=? n) && (n <=? 64) && (x <? mzd_nrows M) && (y + n <=? mzd_ncols M)) ;;
  Ok (mzd_build M (fun i k => if (i =? x) && (y <=? k) && (k <? y + n) then false else mbit M i k)).
(** echelonform.c:49-50, 61-62, 76-77: ones on the diagonal of the window U *)
Definition unit_diag (r : nat) (U : slice) : res slice := for_ 0 r (fun i U => mzd_slice_write_elem U i i 1) U.
(** echelonform.c:36-121 [mzd_slice_echelonize_ple] *)
Definition mzd_slice_echelonize_ple (l2 : Z) (A : slice) (full : bool) : res (slice * nat) :=
  let nrows := sl_nrows A in let ncols := sl_ncols A in
  '(A, r) <- (if full then
      '(A, _, Q, r) <- mzd_slice_pluq l2 A (mzp_init nrows) (mzp_init ncols) ;;
      let r_radix := 64 * (r / 64) in
      A <- (if (r_radix =? r) && negb (r =? ncols) then
              A <- on_swin A 0 0 r r (unit_diag r) ;;
              U <- mzd_slice_window A 0 0 r r ;;
              on_swin A 0 r r ncols (fun B => mzd_slice_trsm_upper_left U B)
            else if negb (r_radix =? r) && negb (r =? ncols) then
              if r_radix + 64 <? ncols then
                B0 <- mzd_slice_submatrix None A 0 r_radix r (r_radix + 64) ;;
                A <- on_swin A 0 0 r r (unit_diag r) ;;
                U <- mzd_slice_window A 0 0 r r ;;
                B0 <- mzd_slice_trsm_upper_left U B0 ;;
                A <- on_swin A 0 (r_radix + 64) r ncols (fun B1 => mzd_slice_trsm_upper_left U B1) ;;
                on_swin A 0 r_radix r (r_radix + 64) (fun B0w => mzd_slice_copy (Some B0w) B0)
              else
                B <- mzd_slice_submatrix None A 0 r_radix r ncols ;;
                A <- on_swin A 0 0 r r (unit_diag r) ;;
                U <- mzd_slice_window A 0 0 r r ;;
                B <- mzd_slice_trsm_upper_left U B ;;
                on_swin A 0 r_radix r ncols (fun Bw => mzd_slice_copy (Some Bw) B)
            else Ok A) ;;
      A <- on_swin A 0 0 r r (fun U => mzd_slice_set_ui U 1) ;;
      A <- (if r =? 0 then Ok A else on_swin A 0 0 r ncols (fun A0 => mzd_slice_apply_p_right A0 Q)) ;;
      Ok (A, r)
    else
      '(A, _, Q, r) <- mzd_slice_ple l2 A (mzp_init nrows) (mzp_init ncols) ;;
      A <- for_ 0 r (fun i A =>
             A <- sl_map A (fun _ x => for_ 0 (i + 1) (fun j x => mzd_clear_bits x i j (Nat.min 64 (i - j + 1))) x) ;;
             q <- lget Q i ;; mzd_slice_write_elem A i q 1) A ;;
      Ok (A, r)) ;;
  A <- (if r =? nrows then Ok A else on_swin A r 0 nrows ncols (fun R => mzd_slice_set_ui R 0)) ;;
  Ok (A, r).
(** echelonform.h:67-73 [mzed_echelonize_ple] *)
Definition mzed_echelonize_ple (l2 : Z) (A : mzed) (full : bool) : res (mzed * nat) :=
  a <- mzed_slice None A ;;
  '(a, r) <- mzd_slice_echelonize_ple l2 a full ;;
  A <- mzed_cling (Some A) a ;; Ok (A, r).
(** echelonform.c:26-34 [mzed_echelonize]; [k0] as in [mzed_echelonize_newton_john].  The size is computed in
    type int (A->w has type wi_t = int), where a value of 2^31 or more is a signed overflow (undefined) *)
Definition mzed_echelonize (k0 : nat) (l2 : Z) (A : mzed) (full : bool) : res (mzed * nat) :=
  if mz_nrows A <? ff_degree (mz_ff A) then mzed_echelonize_naive A full
  else
    let size := (Z.of_nat (mz_nrows A) * Z.of_nat (mz_ncols A) * Z.of_nat (mz_w A))%Z in
    _ <- guard (size <? 2147483648)%Z ;;
    if (size <=? 2 * (4 * l2))%Z then mzed_echelonize_newton_john k0 A full
  else mzed_echelonize_ple l2 A full.
