(** The same object passed twice.  In the other model files an operation receives the values of its matrix
    arguments; here the arguments are pointers into a store, operands are read through the store at the moment
    the C code reads them, and nothing is assumed about which pointers are equal.  The store is a list of
    matrices, a pointer an index into it, a row pointer a pair (matrix, row): different pairs denote disjoint
    words (windows overlapping at different offsets are not covered). *)
From Coq Require Import NArith List Bool Arith.
From Verif Require Import Base Gf2xModel Gf2eModel MzdModel MzedModel SliceModel KaratsubaTable KaraModel NjModel.
Import ListNotations.
Local Open Scope nat_scope.

(** *** rows.  [src cur] is the source row when the target row is [cur]: the target row itself if the two row
    pointers are equal, else a row that the operation does not write. *)
Definition view (same : bool) (b : list N) (cur : list N) : list N := if same then cur else b.

(** mzed.h:515-536 [mzed_add_row], on row pointers *)
Definition add_row_words_at (w ncolsx start_col : nat) (src : list N -> list N) (a : list N) : res (list N) :=
  let start := w * start_col in
  let startblock := start / 64 in
  let wid := width ncolsx in
  let bitmask_begin := right_bitmask (64 - start mod 64) in
  let bitmask_end := left_bitmask (ncolsx mod 64) in
  let xorw j m a := (aj <- lget a j ;; bj <- lget (src a) j ;; lset a j (N.lxor aj (N.land bj m))) in
  if 1 <? wid - startblock then
    a <- xorw startblock bitmask_begin a ;;
    a <- for_ (startblock + 1) (wid - 1) (fun j a =>
           aj <- lget a j ;; bj <- lget (src a) j ;; lset a j (N.lxor aj bj)) a ;;
    xorw (wid - 1) bitmask_end a
  else xorw startblock (N.land bitmask_begin bitmask_end) a.

(** mzed.c:272-630 [mzed_add_multiple_of_row], on row pointers.  The first word and the whole words are read
    into registers before they are written (mzed.c:295-296, 344, 377); the lanes of the last word are read from
    and written to memory one by one (mzed.c:380-412: [_t[j] ^= ff->mul(ff, x, (_f[j] & mask)>>s)<<s]). *)
Definition axpy_words_at (ff : gf2e) (w : nat) (x : N) (ncolsx start_col : nat) (src : list N -> list N) (t : list N)
  : res (list N) :=
  let start := w * start_col in
  let startblock := start / 64 in
  let wid := width ncolsx in
  let bitmask_end := left_bitmask (ncolsx mod 64) in
  f0 <- lget (src t) startblock ;;
  t0 <- lget t startblock ;;
  t0' <- axpy_lanes ff w x ((start / w) mod (64 / w)) (64 / w) f0 t0 ;;
  if wid - startblock =? 1 then
    tb <- lget t startblock ;; t <- lset t startblock (N.land tb (wnot bitmask_end)) ;;
    tb <- lget t startblock ;; lset t startblock (N.lxor tb (N.land t0' bitmask_end))
  else
    t <- lset t startblock t0' ;;
    '(j, t) <- bulk_loop (unroll w) wid (fun j t =>
        fj <- lget (src t) j ;; tj <- lget t j ;;
        tj' <- axpy_lanes ff w x 0 (64 / w) fj tj ;; lset t j tj') (startblock + 1) t ;;
    for_down 0 (last_lanes w ncolsx) (fun k t =>
        tj <- lget t j ;; fj <- lget (src t) j ;;
        v <- gf2e_mul ff x (N.land (wshr fj (w * k)) (N.ones (N.of_nat w))) ;;
        lset t j (N.lxor tj (wshl v (w * k)))) t.

(** mzed.c:171-189, one row of the table path of [mzed_mul_scalar], on row pointers *)
Definition t16_row_at (mul : list N) (ncolsx : nat) (src : list N -> list N) (c : list N) : res (list N) :=
  let wid := width ncolsx in
  let hb := left_bitmask (ncolsx mod 64) in
  c <- for_ 0 (wid - 1) (fun j c => bj <- lget (src c) j ;; v <- t16_word mul bj ;; lset c j v) c ;;
  bj <- lget (src c) (wid - 1) ;;
  v <- t16_word mul (N.land bj hb) ;;
  cj <- lget c (wid - 1) ;; c <- lset c (wid - 1) (N.land cj (wnot hb)) ;;
  cj <- lget c (wid - 1) ;; lset c (wid - 1) (N.lor cj v).

(** *** matrices *)
Definition store : Type := list mzed.
Definition set_row (A : mzed) (r : nat) (a : list N) : mzed :=
  mz_set_x A (Mzd (mzd_nrows (mz_x A)) (mzd_ncols (mz_x A)) (upd (mzd_rows (mz_x A)) r a)).

(** mzed.h:515-536 [mzed_add_row] *)
Definition mzed_add_row_at (h : store) (pa ar pb br start_col : nat) : res store :=
  A <- lget h pa ;; B <- lget h pb ;;
  _ <- guard ((mz_ncols A =? mz_ncols B) && same_ff A B) ;;
  _ <- guard (start_col <? mz_ncols A) ;;
  a <- lget (mzd_rows (mz_x A)) ar ;; b <- lget (mzd_rows (mz_x B)) br ;;
  a' <- add_row_words_at (mz_w A) (mzd_ncols (mz_x A)) start_col (view ((pa =? pb) && (ar =? br)) b) a ;;
  lset h pa (set_row A ar a').
(** mzed.c:272-630 [mzed_add_multiple_of_row] *)
Definition mzed_add_multiple_of_row_at (h : store) (pa ar pb br : nat) (x : N) (start_col : nat) : res store :=
  A <- lget h pa ;; B <- lget h pb ;;
  _ <- guard ((mz_ncols A =? mz_ncols B) && same_ff A B) ;;
  _ <- guard (start_col <? mz_ncols A) ;;
  if (x =? 0)%N then Ok h
  else if (x =? 1)%N then mzed_add_row_at h pa ar pb br start_col
  else
    t <- lget (mzd_rows (mz_x A)) ar ;; f <- lget (mzd_rows (mz_x B)) br ;;
    t' <- axpy_words_at (mz_ff A) (mz_w A) x (mzd_ncols (mz_x A)) start_col (view ((pa =? pb) && (ar =? br)) f) t ;;
    lset h pa (set_row A ar t').

(** mzed.c:53-66 [mzed_add]; M4RI's mzd_add accepts a target equal to one or both operands (contract) *)
Definition mzed_add_at (h : store) (pc pa pb : nat) : res store :=
  C <- lget h pc ;; A <- lget h pa ;; B <- lget h pb ;;
  C' <- mzed_add (Some C) A B ;; lset h pc C'.
(** mzed.c:196-206 [mzed_copy]: equal pointers return at once *)
Definition mzed_copy_at (h : store) (pa pb : nat) : res store :=
  if pa =? pb then Ok h
  else A <- lget h pa ;; B <- lget h pb ;; A' <- mzed_copy (Some A) B ;; lset h pa A'.
(** mzed.h:549-897 [mzed_rescale_row] *)
Definition mzed_rescale_row_at (h : store) (pc r start_col : nat) (x : N) : res store :=
  C <- lget h pc ;; C' <- mzed_rescale_row C r start_col x ;; lset h pc C'.
(** mzed.c:141-193 [mzed_mul_scalar], C not NULL *)
Definition mzed_mul_scalar_at (h : store) (pc : nat) (a : N) (pb : nat) : res store :=
  B <- lget h pb ;; C <- lget h pc ;;
  direct <- scalar_direct B ;;
  if direct : bool then
    h <- mzed_copy_at h pc pb ;;
    for_ 0 (mz_nrows B) (fun i h => mzed_rescale_row_at h pc i 0 a) h
  else
    mul <- gf2e_t16_init (mz_ff B) a ;;
    for_ 0 (mz_nrows C) (fun i h =>
      C <- lget h pc ;; B <- lget h pb ;;
      c <- lget (mzd_rows (mz_x C)) i ;; b <- lget (mzd_rows (mz_x B)) i ;;
      _ <- guard (mzd_ncols (mz_x B) =? mzd_ncols (mz_x C)) ;;
      c' <- t16_row_at mul (mzd_ncols (mz_x C)) (view (pc =? pb) b) c ;;
      lset h pc (set_row C i c')) h.
(** newton_john.c:508-530 [mzed_invert_newton_john], B not NULL: A is copied by mzed_concat (line 512) and B
    written by mzed_submatrix (line 525), the only statement that writes a caller's matrix *)
Definition mzed_invert_newton_john_at (k0 : nat) (h : store) (pb pa : nat) : res store :=
  A <- lget h pa ;;
  _ <- guard (mz_nrows A =? mz_ncols A) ;;
  I <- mzed_init (mz_ff A) (mz_nrows A) (mz_ncols A) ;;
  I <- mzed_set_ui I 1 ;;
  T <- mzed_concat None A I ;;
  '(T, _) <- mzed_echelonize_newton_john k0 T true ;;
  J <- mzed_window T 0 0 (mz_nrows A) (mz_ncols A) ;;
  match mzed_cmp I J with
  | Eq => B <- lget h pb ;; B' <- mzed_submatrix (Some B) T 0 (mz_ncols A) (mz_nrows A) (mz_ncols T) ;; lset h pb B'
  | _ => Die
  end.
(** mzed.c:128-138 [_mzed_mul_naive] *)
Definition mzed_mul_naive_at_ (h : store) (pc pa pb : nat) : res store :=
  C <- lget h pc ;; A <- lget h pa ;;
  for_ 0 (mz_nrows C) (fun i h =>
    C <- lget h pc ;;
    for_ 0 (mz_ncols C) (fun j h =>
      for_ 0 (mz_ncols A) (fun k h =>
        A <- lget h pa ;; a <- mzed_read_elem A i k ;;
        B <- lget h pb ;; b <- mzed_read_elem B k j ;;
        C <- lget h pc ;; v <- gf2e_mul (mz_ff C) a b ;;
        C' <- mzed_add_elem C i j v ;; lset h pc C') h) h) h.
(** mzed.c:118-121 [mzed_mul_naive], 123-126 [mzed_addmul_naive], C not NULL *)
Definition mzed_mul_init_at (h : store) (pc pa pb : nat) (clear : bool) : res store :=
  C <- lget h pc ;; A <- lget h pa ;; B <- lget h pb ;;
  C' <- mzed_mul_init (Some C) A B clear ;; lset h pc C'.
Definition mzed_mul_naive_at (h : store) (pc pa pb : nat) : res store :=
  h <- mzed_mul_init_at h pc pa pb true ;; mzed_mul_naive_at_ h pc pa pb.
Definition mzed_addmul_naive_at (h : store) (pc pa pb : nat) : res store :=
  h <- mzed_mul_init_at h pc pa pb false ;; mzed_mul_naive_at_ h pc pa pb.

(** *** bit-sliced matrices *)
Definition sstore : Type := list slice.
(** mzd_slice.h:537-547 [mzd_slice_add]: slice by slice with M4RI's mzd_add *)
Definition mzd_slice_add_at (h : sstore) (pc pa pb : nat) : res sstore :=
  C <- lget h pc ;; A <- lget h pa ;; B <- lget h pb ;;
  _ <- check (sl_same_ff A B && (sl_nrows A =? sl_nrows B) && (sl_ncols A =? sl_ncols B)) ;;
  _ <- check (sl_same_ff A C && (sl_nrows A =? sl_nrows C) && (sl_ncols A =? sl_ncols C)) ;;
  for_down 0 (sl_depth A) (fun i h =>
    C <- lget h pc ;; A <- lget h pa ;; B <- lget h pb ;;
    c <- lget (sl_x C) i ;; a <- lget (sl_x A) i ;; b <- lget (sl_x B) i ;;
    c' <- mzd_add c a b ;; x <- lset (sl_x C) i c' ;; lset h pc (sl_set_x C x)) h.

(** the slices of an operand: those of the target if it is the same object *)
Definition lview (same : bool) (b cur : list mzd) : list mzd := if same then cur else b.
(** karatsuba.c through pointers, every line: the operands are read, then the products are added to the target *)
Definition kstep_at (ff : option gf2e) (A B : list mzd -> list mzd) (s : list nat * list nat * list nat) (st : kst) : res kst :=
  let '(ai, bi, ts) := s in let '(t0, t1, t2, X) := st in
  '(t1, a) <- operand t1 (A X) ai ;;
  '(t2, b) <- operand t2 (B X) bi ;;
  t0 <- mzd_mul t0 a b ;;
  X <- ptr_add_to_all ff t0 X ts ;;
  Ok (t0, t1, t2, X).
Fixpoint ksteps_at (ff : option gf2e) (A B : list mzd -> list mzd) (prog : list (list nat * list nat * list nat)) (st : kst) : res kst :=
  match prog with [] => Ok st | s :: r => st <- kstep_at ff A B s st ;; ksteps_at ff A B r st end.
Definition kara_run_at (ff : option gf2e) (prog : list (list nat * list nat * list nat)) (X : list mzd) (A B : list mzd -> list mzd) : res (list mzd) :=
  a0 <- lget (A X) 0 ;; b0 <- lget (B X) 0 ;;
  '(_, _, _, X) <- ksteps_at ff A B prog
    (mzd_init (mzd_nrows a0) (mzd_ncols b0), mzd_init (mzd_nrows a0) (mzd_ncols a0), mzd_init (mzd_nrows b0) (mzd_ncols b0), X) ;;
  Ok X.
(** karatsuba.c:4-23 *)
Definition ptr_addmul_karatsuba2_at (ff : option gf2e) (X : list mzd) (A B : list mzd -> list mzd) : res (list mzd) :=
  a0 <- lget (A X) 0 ;; a1 <- lget (A X) 1 ;; b0 <- lget (B X) 0 ;; b1 <- lget (B X) 1 ;;
  t0 <- mzd_add (mzd_init (mzd_nrows a0) (mzd_ncols a0)) a0 a1 ;;
  t1 <- mzd_add (mzd_init (mzd_nrows b0) (mzd_ncols b0)) b0 b1 ;;
  x1 <- lget X 1 ;; x1 <- mzd_addmul x1 t0 t1 ;; X <- lset X 1 x1 ;;
  '(_, _, _, X) <- ksteps_at ff A B kara2
    (mzd_init (mzd_nrows a0) (mzd_ncols b0), t0, t1, X) ;;
  Ok X.
(** mzd_slice.h:628-643 *)
Definition ptr_addmul_karatsuba_at (ff : option gf2e) (d : nat) (X : list mzd) (A B : list mzd -> list mzd) : option (res (list mzd)) :=
  match d with
  | 2 => Some (ptr_addmul_karatsuba2_at ff X A B)
  | 3 => Some (kara_run_at ff kara3 X A B)
  | 4 => Some (kara_run_at ff kara4 X A B)
  | 5 => Some (kara_run_at ff kara5 X A B)
  | 6 => Some (kara_run_at ff kara6 X A B)
  | 7 => Some (kara_run_at ff kara7 X A B)
  | 8 => Some (kara_run_at ff kara8 X A B)
  | 9 => Some (kara_run_at ff kara9 X A B)
  | 10 => Some (kara_run_at ff kara10 X A B)
  | 11 => Some (kara_run_at ff kara11 X A B)
  | 12 => Some (kara_run_at ff kara12 X A B)
  | 13 => Some (kara_run_at ff kara13 X A B)
  | 14 => Some (kara_run_at ff kara14 X A B)
  | 15 => Some (kara_run_at ff kara15 X A B)
  | 16 => Some (kara_run_at ff kara16 X A B)
  | _ => None
  end.
(** mzd_slice.c:82-98 [_mzd_slice_addmul_naive] *)
Definition addmul_naive_at (ff : gf2e) (m n : nat) (X : list mzd) (A B : list mzd -> list mzd) : res (list mzd) :=
  '(_, x) <- for_ 0 (ff_degree ff) (fun i '(t0, X) =>
     for_ 0 (ff_degree ff) (fun j '(t0, X) =>
       a <- lget (A X) i ;; b <- lget (B X) j ;;
       t0 <- mzd_mul t0 a b ;;
       X <- ptr_add_modred (Some ff) t0 X (i + j) ;; Ok (t0, X)) (t0, X))
     (mzd_init m n, X) ;;
  Ok x.
(** mzd_slice.h:624-647 [_mzd_slice_addmul_karatsuba], C not NULL *)
Definition mzd_slice_addmul_karatsuba_at_ (h : sstore) (pc pa pb : nat) : res sstore :=
  C <- lget h pc ;; A <- lget h pa ;; B <- lget h pb ;;
  match ptr_addmul_karatsuba_at (Some (sl_ff A)) (ff_degree (sl_ff A)) (sl_x C) (lview (pc =? pa) (sl_x A)) (lview (pc =? pb) (sl_x B)) with
  | Some r => x <- r ;; lset h pc (sl_set_x C x)
  | None => x <- addmul_naive_at (sl_ff A) (sl_nrows A) (sl_ncols B) (sl_x C) (lview (pc =? pa) (sl_x A)) (lview (pc =? pb) (sl_x B)) ;;
            lset h pc (sl_set_x C x)
  end.
(** mzd_slice.h:661-670 [mzd_slice_mul_karatsuba] (= [mzd_slice_mul]), C not NULL *)
Definition mzd_slice_mul_at (h : sstore) (pc pa pb : nat) : res sstore :=
  C <- lget h pc ;; A <- lget h pa ;; B <- lget h pb ;;
  _ <- check ((sl_ncols A =? sl_nrows B) && sl_same_ff A B) ;;
  _ <- check (sl_same_ff C A && (sl_nrows C =? sl_nrows A) && (sl_ncols C =? sl_ncols B)) ;;
  C0 <- mzd_slice_set_ui C 0 ;; h <- lset h pc C0 ;;
  mzd_slice_addmul_karatsuba_at_ h pc pa pb.
(** mzd_slice.h:684-691 [mzd_slice_addmul_karatsuba] (= [mzd_slice_addmul]) *)
Definition mzd_slice_addmul_at (h : sstore) (pc pa pb : nat) : res sstore :=
  C <- lget h pc ;; A <- lget h pa ;; B <- lget h pb ;;
  _ <- check ((sl_ncols A =? sl_nrows B) && sl_same_ff A B) ;;
  _ <- check (sl_same_ff C A && (sl_nrows C =? sl_nrows A) && (sl_ncols C =? sl_ncols B)) ;;
  mzd_slice_addmul_karatsuba_at_ h pc pa pb.
