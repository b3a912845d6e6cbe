(** Model of src/mzed.h, src/mzed.c and src/m4ri_functions.h: matrices over GF(2^e) with packed
    elements. *)
From Coq Require Import NArith List Bool Arith.
From Verif Require Import Base Gf2xModel Gf2eModel MzdModel.
Import ListNotations.
Local Open Scope nat_scope.

(** mzed.h [mzed_t]: element (i,c) occupies columns w*c .. w*c+w-1 of row i of [x]. *)
Record mzed := Mzed { mz_ff : gf2e; mz_w : nat; mz_nrows : nat; mz_ncols : nat; mz_x : mzd }.
Definition mz_set_x (A : mzed) (x : mzd) : mzed := Mzed (mz_ff A) (mz_w A) (mz_nrows A) (mz_ncols A) x.

(** The C code compares [finite_field] pointers; the model compares minimal polynomials (two
    handles for one polynomial are told apart by C but not here). *)
Definition same_ff (A B : mzed) : bool := (ff_minpoly (mz_ff A) =? ff_minpoly (mz_ff B))%N.

(** mzed.c:28-37 [mzed_init] *)
Definition mzed_init (k : gf2e) (m n : nat) : res mzed :=
  w <- gf2e_degree_to_w k ;;
  Ok (Mzed k w m n (mzd_init m (w * n))).

(** m4ri_functions.h:40-46 [__mzd_read_bits] *)
Definition mzd_read_bits_ (M : mzd) (x y n : nat) : res N :=
  let spot := y mod 64 in
  let block := y / 64 in
  _ <- guard (spot + n <=? 64) ;;
  row <- lget (mzd_rows M) x ;;
  wd <- lget row block ;;
  Ok (wshr (wshl wd (64 - (spot + n))) (64 - n)).
(** m4ri_functions.h:52-56 [__mzd_xor_bits] *)
Definition mzd_xor_bits_ (M : mzd) (x y n : nat) (values : N) : res mzd :=
  let spot := y mod 64 in
  let block := y / 64 in
  row <- lget (mzd_rows M) x ;;
  wd <- lget row block ;;
  row' <- lset row block (N.lxor wd (wshl values spot)) ;;
  Ok (Mzd (mzd_nrows M) (mzd_ncols M) (upd (mzd_rows M) x row')).
(** m4ri_functions.h:62-67 [__mzd_clear_bits] *)
Definition mzd_clear_bits_ (M : mzd) (x y n : nat) : res mzd :=
  let values := wshr ffff (64 - n) in
  let spot := y mod 64 in
  let block := y / 64 in
  row <- lget (mzd_rows M) x ;;
  wd <- lget row block ;;
  row' <- lset row block (N.land wd (wnot (wshl values spot))) ;;
  Ok (Mzd (mzd_nrows M) (mzd_ncols M) (upd (mzd_rows M) x row')).

(** mzed.h:424-426 [mzed_read_elem] *)
Definition mzed_read_elem (A : mzed) (row col : nat) : res N :=
  mzd_read_bits_ (mz_x A) row (mz_w A * col) (mz_w A).
(** mzed.h:439-441 [mzed_add_elem] *)
Definition mzed_add_elem (A : mzed) (row col : nat) (v : N) : res mzed :=
  x <- mzd_xor_bits_ (mz_x A) row (mz_w A * col) (mz_w A) v ;; Ok (mz_set_x A x).
(** mzed.h:454-457 [mzed_write_elem] *)
Definition mzed_write_elem (A : mzed) (row col : nat) (v : N) : res mzed :=
  x <- mzd_clear_bits_ (mz_x A) row (mz_w A * col) (mz_w A) ;;
  x <- mzd_xor_bits_ x row (mz_w A * col) (mz_w A) v ;;
  Ok (mz_set_x A x).

(** ** Row operations, word level *)

(** [for (j = j0; j + c < width; j += c)]: each iteration treats words j, .., j+c-1. *)
Fixpoint chunk_loop (fuel c : nat) (wid : nat) (body : nat -> list N -> res (list N)) (j : nat) (r : list N)
  : res (nat * list N) :=
  match fuel with
  | O => Ok (j, r)
  | S fuel' =>
      if j + c <? wid then
        r' <- for_ j (j + c) body r ;; chunk_loop fuel' c wid body (j + c) r'
      else Ok (j, r)
  end.
(** the unrolled loop followed by the step-1 loop [for (; j < width-1; j++)] *)
Definition bulk_loop (c : nat) (wid : nat) (body : nat -> list N -> res (list N)) (j : nat) (r : list N)
  : res (nat * list N) :=
  '(j1, r1) <- chunk_loop wid c wid body j r ;;
  chunk_loop wid 1 wid body j1 r1.
(** unrolling factor of the bulk loops: 1 for w = 2, 4; 2 for w = 8; 4 for w = 16 *)
Definition unroll (w : nat) : nat := if w =? 16 then 4 else if w =? 8 then 2 else 1.

(** lane-wise accumulation: for lanes lo <= k < hi: t ^= mul(x, lane k of f) << (w*k).  The C code
    shifts a working copy of f right by w after each lane instead of shifting by w*k. *)
Definition axpy_lanes (ff : gf2e) (w : nat) (x : N) (lo hi : nat) (f t : N) : res N :=
  for_ lo hi (fun k t =>
    v <- gf2e_mul ff x (N.land (wshr f (w * k)) (N.ones (N.of_nat w))) ;;
    Ok (N.lxor t (wshl v (w * k)))) t.
(** the same from the highest lane down (last-word switch, falling through) *)
Definition axpy_lanes_down (ff : gf2e) (w : nat) (x : N) (hi : nat) (f t : N) : res N :=
  for_down 0 hi (fun k t =>
    v <- gf2e_mul ff x (N.land (wshr f (w * k)) (N.ones (N.of_nat w))) ;;
    Ok (N.lxor t (wshl v (w * k)))) t.
(** number of lanes selected by [switch (ncols % 64)] in the last word; case 0 is a full word *)
Definition last_lanes (w ncols : nat) : nat :=
  (if ncols mod 64 =? 0 then 64 else ncols mod 64) / w.

(** mzed.h:515-536 [mzed_add_row], on the two rows of words *)
Definition add_row_words (w ncolsx start_col : nat) (a b : list N) : res (list N) :=
  let start := w * start_col in
  let startblock := start / 64 in
  let wid := width ncolsx in
  let bitmask_begin := right_bitmask (64 - start mod 64) in
  let bitmask_end := left_bitmask (ncolsx mod 64) in
  let xorw j m a := (aj <- lget a j ;; bj <- lget b j ;; lset a j (N.lxor aj (N.land bj m))) in
  if 1 <? wid - startblock then
    a <- xorw startblock bitmask_begin a ;;
    a <- for_ (startblock + 1) (wid - 1) (fun j a =>
           aj <- lget a j ;; bj <- lget b j ;; lset a j (N.lxor aj bj)) a ;;
    xorw (wid - 1) bitmask_end a
  else xorw startblock (N.land bitmask_begin bitmask_end) a.

Definition mzed_add_row (A : mzed) (ar : nat) (B : mzed) (br : nat) (start_col : nat) : res mzed :=
  _ <- guard ((mz_ncols A =? mz_ncols B) && same_ff A B) ;;      (* assert *)
  _ <- guard (start_col <? mz_ncols A) ;;                        (* assert *)
  a <- lget (mzd_rows (mz_x A)) ar ;;
  b <- lget (mzd_rows (mz_x B)) br ;;
  a' <- add_row_words (mz_w A) (mzd_ncols (mz_x A)) start_col a b ;;
  Ok (mz_set_x A (Mzd (mzd_nrows (mz_x A)) (mzd_ncols (mz_x A)) (upd (mzd_rows (mz_x A)) ar a'))).

(** mzed.c:272-630 [mzed_add_multiple_of_row], on the two rows of words (w in 2,4,8,16).
    Aliased rows (A=B, ar=br) behave like distinct ones: each lane is read before it is
    written and no other lane depends on it. *)
Definition axpy_words (ff : gf2e) (w : nat) (x : N) (ncolsx start_col : nat) (t f : list N) : res (list N) :=
  let start := w * start_col in
  let startblock := start / 64 in
  let wid := width ncolsx in
  let bitmask_end := left_bitmask (ncolsx mod 64) in
  f0 <- lget f startblock ;;
  t0 <- lget t startblock ;;
  t0' <- axpy_lanes ff w x ((start / w) mod (64 / w)) (64 / w) f0 t0 ;;
  if wid - startblock =? 1 then
    lset t startblock (N.lxor (N.land t0 (wnot bitmask_end)) (N.land t0' bitmask_end))
  else
    t <- lset t startblock t0' ;;
    '(j, t) <- bulk_loop (unroll w) wid (fun j t =>
        fj <- lget f j ;; tj <- lget t j ;;
        tj' <- axpy_lanes ff w x 0 (64 / w) fj tj ;; lset t j tj') (startblock + 1) t ;;
    fj <- lget f j ;; tj <- lget t j ;;
    tj' <- axpy_lanes_down ff w x (last_lanes w ncolsx) fj tj ;;
    lset t j tj'.

Definition mzed_add_multiple_of_row (A : mzed) (ar : nat) (B : mzed) (br : nat) (x : N) (start_col : nat)
  : res mzed :=
  _ <- guard ((mz_ncols A =? mz_ncols B) && same_ff A B) ;;      (* assert *)
  _ <- guard (start_col <? mz_ncols A) ;;                        (* assert *)
  if (x =? 0)%N then Ok A
  else if (x =? 1)%N then mzed_add_row A ar B br start_col
  else
    t <- lget (mzd_rows (mz_x A)) ar ;;
    f <- lget (mzd_rows (mz_x B)) br ;;
    t' <- axpy_words (mz_ff A) (mz_w A) x (mzd_ncols (mz_x A)) start_col t f ;;
    Ok (mz_set_x A (Mzd (mzd_nrows (mz_x A)) (mzd_ncols (mz_x A)) (upd (mzd_rows (mz_x A)) ar t'))).

(** mzed.h:549-897 [mzed_rescale_row], on the row of words (w in 2,4,8,16) *)
Definition rescale_words (ff : gf2e) (w : nat) (x : N) (ncolsx start_col : nat) (a : list N) : res (list N) :=
  let start := w * start_col in
  let startblock := start / 64 in
  let wid := width ncolsx in
  let bitmask_begin := right_bitmask (64 - start mod 64) in
  let bitmask_end := left_bitmask (ncolsx mod 64) in
  a0 <- lget a startblock ;;
  t0 <- axpy_lanes ff w x ((start / w) mod (64 / w)) (64 / w) a0 0%N ;;
  if wid - startblock =? 1 then
    let m := N.land bitmask_begin bitmask_end in
    lset a startblock (N.lxor (N.land a0 (wnot m)) (N.land t0 m))
  else
    a <- lset a startblock (N.lxor (N.land a0 (wnot bitmask_begin)) (N.land t0 bitmask_begin)) ;;
    '(j, a) <- bulk_loop (unroll w) wid (fun j a =>
        aj <- lget a j ;;
        tj <- axpy_lanes ff w x 0 (64 / w) aj 0%N ;; lset a j tj) (startblock + 1) a ;;
    aj <- lget a j ;;
    tj <- axpy_lanes_down ff w x (last_lanes w ncolsx) aj (N.land aj (wnot bitmask_end)) ;;
    lset a j tj.

Definition mzed_rescale_row (A : mzed) (r start_col : nat) (x : N) : res mzed :=
  _ <- guard (start_col <? mz_ncols A) ;;                        (* assert *)
  a <- lget (mzd_rows (mz_x A)) r ;;
  a' <- rescale_words (mz_ff A) (mz_w A) x (mzd_ncols (mz_x A)) start_col a ;;
  Ok (mz_set_x A (Mzd (mzd_nrows (mz_x A)) (mzd_ncols (mz_x A)) (upd (mzd_rows (mz_x A)) r a'))).

(** ** Whole-matrix operations *)

(** mzed.c:44-51 [mzed_randomize]; [rnd r c] is the value returned by random() *)
Definition mzed_randomize (rnd : nat -> nat -> N) (A : mzed) : res mzed :=
  let bitmask := N.ones (N.of_nat (ff_degree (mz_ff A))) in
  for_ 0 (mz_nrows A) (fun r A =>
    for_ 0 (mz_ncols A) (fun c A => mzed_write_elem A r c (N.land (rnd r c) bitmask)) A) A.

(** mzed.c:53-66 [mzed_add]; [C = None] is C == NULL *)
Definition mzed_add (C : option mzed) (A B : mzed) : res mzed :=
  _ <- check ((mz_nrows A =? mz_nrows B) && (mz_ncols A =? mz_ncols B) && same_ff A B) ;;
  C <- match C with
       | None => mzed_init (mz_ff A) (mz_nrows A) (mz_ncols A)
       | Some C => _ <- check (same_ff C A && (mz_nrows C =? mz_nrows A) && (mz_ncols C =? mz_ncols A)) ;; Ok C
       end ;;
  x <- mzd_add (mz_x C) (mz_x A) (mz_x B) ;; Ok (mz_set_x C x).

(** mzed.c:68-71 [_mzed_add] *)
Definition mzed_add_ (C A B : mzed) : res mzed :=
  x <- mzd_add (mz_x C) (mz_x A) (mz_x B) ;; Ok (mz_set_x C x).

(** mzed.c:245-252 [mzed_set_ui] *)
Definition mzed_set_ui (A : mzed) (value : N) : res mzed :=
  let A0 := mz_set_x A (mzd_set_ui_0 (mz_x A)) in
  if (value =? 0)%N then Ok A0
  else for_ 0 (Nat.min (mz_ncols A) (mz_nrows A)) (fun i A => mzed_write_elem A i i value) A0.

(** mzed.c:74-88 [_mzed_mul_init] *)
Definition mzed_mul_init (C : option mzed) (A B : mzed) (clear : bool) : res mzed :=
  _ <- check ((mz_ncols A =? mz_nrows B) && same_ff A B) ;;
  match C with
  | None => mzed_init (mz_ff A) (mz_nrows A) (mz_ncols B)
  | Some C =>
      _ <- check (same_ff C A && (mz_nrows C =? mz_nrows A) && (mz_ncols C =? mz_ncols B)) ;;
      if clear then mzed_set_ui C 0 else Ok C
  end.

(** mzed.c:128-138 [_mzed_mul_naive] (accumulates into C) *)
Definition mzed_mul_naive_ (C A B : mzed) : res mzed :=
  for_ 0 (mz_nrows C) (fun i C =>
    for_ 0 (mz_ncols C) (fun j C =>
      for_ 0 (mz_ncols A) (fun k C =>
        a <- mzed_read_elem A i k ;;
        b <- mzed_read_elem B k j ;;
        v <- gf2e_mul (mz_ff C) a b ;;
        mzed_add_elem C i j v) C) C) C.
(** mzed.c:118-121 [mzed_mul_naive], 123-126 [mzed_addmul_naive] *)
Definition mzed_mul_naive (C : option mzed) (A B : mzed) : res mzed :=
  C <- mzed_mul_init C A B true ;; mzed_mul_naive_ C A B.
Definition mzed_addmul_naive (C : option mzed) (A B : mzed) : res mzed :=
  C <- mzed_mul_init C A B false ;; mzed_mul_naive_ C A B.

(** mzed.c:196-206 [mzed_copy] for distinct objects ([A == B] returns A unchanged) *)
Definition mzed_copy (A : option mzed) (B : mzed) : res mzed :=
  A <- match A with
       | None => mzed_init (mz_ff B) (mz_nrows B) (mz_ncols B)
       | Some A => Ok A
       end ;;
  _ <- check (same_ff A B && (mz_nrows A =? mz_nrows B) && (mz_ncols A =? mz_ncols B)) ;;
  x <- mzd_copy (mz_x A) (mz_x B) ;; Ok (mz_set_x A x).

(** mzed.c:175-189: four 16-bit lookups *)
Definition t16_word (mul : list N) (tmp : N) : res N :=
  let l k := lget mul (N.to_nat (N.land (wshr tmp k) 65535)) in
  m3 <- l 48 ;; m2 <- l 32 ;; m1 <- l 16 ;; m0 <- l 0 ;;
  Ok (N.lor (N.lor (N.lor (wshl m3 48) (wshl m2 32)) (wshl m1 16)) m0).
Definition t16_row (mul : list N) (ncolsx : nat) (b c : list N) : res (list N) :=
  let wid := width ncolsx in
  let hb := left_bitmask (ncolsx mod 64) in
  c <- for_ 0 (wid - 1) (fun j c => bj <- lget b j ;; v <- t16_word mul bj ;; lset c j v) c ;;
  bj <- lget b (wid - 1) ;;
  v <- t16_word mul (N.land bj hb) ;;
  cj <- lget c (wid - 1) ;;
  lset c (wid - 1) (N.lor (N.land cj (wnot hb)) v).
(** mzed.c:154 [ff->degree > 8 || B->nrows*B->ncols < 1<<17]: the product is computed in type int, where a
    value of 2^31 or more is a signed overflow (undefined) *)
Definition scalar_direct (B : mzed) : res bool :=
  if 8 <? ff_degree (mz_ff B) then Ok true
  else
    let n := (N.of_nat (mz_nrows B) * N.of_nat (mz_ncols B))%N in
    _ <- guard (n <? 2147483648)%N ;; Ok (n <? 131072)%N.
(** mzed.c:141-193 [mzed_mul_scalar] (C distinct from B, or NULL) *)
Definition mzed_mul_scalar (C : option mzed) (a : N) (B : mzed) : res mzed :=
  C <- match C with None => mzed_init (mz_ff B) (mz_nrows B) (mz_ncols B) | Some C => Ok C end ;;
  direct <- scalar_direct B ;;
  if direct : bool then
    C <- mzed_copy (Some C) B ;;
    for_ 0 (mz_nrows B) (fun i C => mzed_rescale_row C i 0 a) C
  else
    mul <- gf2e_t16_init (mz_ff B) a ;;
    for_ 0 (mz_nrows C) (fun i C =>
      c <- lget (mzd_rows (mz_x C)) i ;;
      b <- lget (mzd_rows (mz_x B)) i ;;
      _ <- guard (mzd_ncols (mz_x B) =? mzd_ncols (mz_x C)) ;;
      c' <- t16_row mul (mzd_ncols (mz_x C)) b c ;;
      Ok (mz_set_x C (Mzd (mzd_nrows (mz_x C)) (mzd_ncols (mz_x C)) (upd (mzd_rows (mz_x C)) i c')))) C.

(** mzed.h:111-116, 135-140, 157-163 [mzed_concat], [mzed_stack], [mzed_submatrix] *)
Definition mzed_concat (C : option mzed) (A B : mzed) : res mzed :=
  C <- match C with None => mzed_init (mz_ff A) (mz_nrows A) (mz_ncols A + mz_ncols B) | Some C => Ok C end ;;
  x <- mzd_concat (mz_x C) (mz_x A) (mz_x B) ;; Ok (mz_set_x C x).
Definition mzed_stack (C : option mzed) (A B : mzed) : res mzed :=
  C <- match C with None => mzed_init (mz_ff A) (mz_nrows A + mz_nrows B) (mz_ncols A) | Some C => Ok C end ;;
  x <- mzd_stack (mz_x C) (mz_x A) (mz_x B) ;; Ok (mz_set_x C x).
Definition mzed_submatrix (D : option mzed) (M : mzed) (lr lc hr hc : nat) : res mzed :=
  D <- match D with None => mzed_init (mz_ff M) (hr - lr) (hc - lc) | Some D => Ok D end ;;
  x <- mzd_submatrix (mz_x D) (mz_x M) lr (lc * mz_w M) hr (hc * mz_w M) ;; Ok (mz_set_x D x).

(** mzed.h:187-195 [mzed_init_window] (reading the window), and the write-back of its words *)
Definition mzed_window (A : mzed) (lr lc hr hc : nat) : res mzed :=
  w <- gf2e_degree_to_w (mz_ff A) ;;
  x <- mzd_window (mz_x A) lr (w * lc) hr (w * hc) ;;
  Ok (Mzed (mz_ff A) w (hr - lr) (hc - lc) x).
Definition mzed_unwindow (A : mzed) (lr lc : nat) (W : mzed) : mzed :=
  mz_set_x A (mzd_unwindow (mz_x A) lr (mz_w A * lc) (mz_x W)).

(** mzed.h:472-486 [mzed_cmp], [mzed_is_zero] *)
Definition mzed_cmp (A B : mzed) : comparison := mzd_cmp (mz_x A) (mz_x B).
Definition mzed_is_zero (A : mzed) : bool := mzd_is_zero (mz_x A).

(** mzed.h:909-992 row and column operations *)
Definition mzed_row_swap (M : mzed) (a b : nat) : res mzed :=
  x <- mzd_row_swap (mz_x M) a b ;; Ok (mz_set_x M x).
Definition mzed_copy_row (B : mzed) (i : nat) (A : mzed) (j : nat) : res mzed :=
  x <- mzd_copy_row (mz_x B) i (mz_x A) j ;; Ok (mz_set_x B x).
Definition mzed_col_swap (M : mzed) (a b : nat) : res mzed :=
  x <- for_ 0 (mz_w M) (fun i x => mzd_col_swap x (mz_w M * a + i) (mz_w M * b + i)) (mz_x M) ;;
  Ok (mz_set_x M x).
Definition mzed_col_swap_in_rows (M : mzed) (a b start stop : nat) : res mzed :=
  x <- for_ 0 (ff_degree (mz_ff M)) (fun e x =>
         mzd_col_swap_in_rows x (mz_w M * a + e) (mz_w M * b + e) start stop) (mz_x M) ;;
  Ok (mz_set_x M x).
Definition mzed_row_add (M : mzed) (s d : nat) : res mzed :=
  x <- mzd_row_add (mz_x M) s d ;; Ok (mz_set_x M x).
Definition mzed_first_zero_row (M : mzed) : nat := mzd_first_zero_row (mz_x M).

(** mzed.c:208-243 [mzed_echelonize_naive].  The inner search loop over r with its [break] is
    [find_pivot]; the body executed at the first non-zero entry follows. *)
Fixpoint find_pivot (n : nat) (r : nat) (A : mzed) (c : nat) : res (option (nat * N)) :=
  match n with
  | O => Ok None
  | S n' =>
      x <- mzed_read_elem A r c ;;
      if (x =? 0)%N then find_pivot n' (S r) A c else Ok (Some (r, x))
  end.
Definition mzed_echelonize_naive (A : mzed) (full : bool) : res (mzed * nat) :=
  let nr := mz_nrows A in
  for_ 0 (mz_ncols A) (fun c '(A, start_row) =>
    p <- find_pivot (nr - start_row) start_row A c ;;
    match p with
    | None => Ok (A, start_row)
    | Some (r, x) =>
        xi <- gf2e_inv (mz_ff A) x ;;
        A <- mzed_rescale_row A r c xi ;;
        A <- mzed_row_swap A r start_row ;;
        A <- for_ (if full then 0 else start_row + 1) nr (fun i A =>
               if i =? start_row then Ok A else
               x <- mzed_read_elem A i c ;;
               if (x =? 0)%N then Ok A
               else mzed_add_multiple_of_row A i A start_row x c) A ;;
        Ok (A, S start_row)
    end) (A, 0).
