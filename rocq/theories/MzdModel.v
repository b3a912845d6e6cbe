(** Matrices over GF(2) ([mzd_t] of the external library M4RI) and the M4RI functions that
    m4rie calls, as executable contracts.

    A row is a list of 64-bit words; column k is bit (k mod 64) of word (k / 64).  A row of a
    matrix with n columns has [width n] words; the bits of the last word beyond n are padding
    (zero in a freshly allocated matrix, columns of the parent in a window) and are never
    assumed to be zero.  M4RI is not part of /repo: these contracts are trusted (DESIGN.md). *)
From Coq Require Import NArith List Bool Arith.
From Verif Require Import Base Gf2xModel.
Import ListNotations.
Local Open Scope nat_scope.

Definition width (n : nat) : nat := (n + 63) / 64.

Record mzd := Mzd { mzd_nrows : nat; mzd_ncols : nat; mzd_rows : list (list N) }.

Definition mzd_width (M : mzd) : nat := width (mzd_ncols M).

(** [M->high_bitmask = __M4RI_LEFT_BITMASK(ncols % 64)], with
    [__M4RI_LEFT_BITMASK(n) = m4ri_ffff >> ((64 - n) % 64)] *)
Definition left_bitmask (n : nat) : N := wshr ffff ((64 - n) mod 64).
Definition high_bitmask (M : mzd) : N := left_bitmask (mzd_ncols M mod 64).
(** [__M4RI_RIGHT_BITMASK(n) = m4ri_ffff << (64 - n)] *)
Definition right_bitmask (n : nat) : N := wshl ffff (64 - n).

(** bit access *)
Definition rbit (r : list N) (k : nat) : bool :=
  N.testbit (nth (k / 64) r 0%N) (N.of_nat (k mod 64)).
Definition mrow (M : mzd) (i : nat) : list N := nth i (mzd_rows M) [].
Definition mbit (M : mzd) (i k : nat) : bool := rbit (mrow M i) k.

(** the word with bits f 0, ..., f (n-1) *)
Fixpoint word_of_bits (n : nat) (f : nat -> bool) : N :=
  match n with
  | O => 0%N
  | S n' => if f n' then N.setbit (word_of_bits n' f) (N.of_nat n') else word_of_bits n' f
  end.
(** replace columns below n of a row by f, keep the other bits of the words *)
Definition mk_row (old : list N) (n : nat) (f : nat -> bool) : list N :=
  map (fun j => word_of_bits 64 (fun p => let k := 64 * j + p in
                                   if k <? n then f k else rbit old k))
      (seq 0 (length old)).
(** overwrite the entries (i,k), i < nrows, k < ncols, of M by f i k; padding untouched *)
Definition mzd_build (M : mzd) (f : nat -> nat -> bool) : mzd :=
  Mzd (mzd_nrows M) (mzd_ncols M)
      (map (fun i => mk_row (mrow M i) (mzd_ncols M) (f i)) (seq 0 (mzd_nrows M))).

(** M4RI [mzd_init]: zero matrix *)
Definition mzd_init (m n : nat) : mzd := Mzd m n (repeat (repeat 0%N (width n)) m).

(** M4RI [mzd_set_ui(A, 0)] *)
Definition mzd_set_ui_0 (M : mzd) : mzd := mzd_build M (fun _ _ => false).
(** M4RI [mzd_set_ui(A, v)]: zero, then 1 on the diagonal if v is odd *)
Definition mzd_set_ui (M : mzd) (v : N) : mzd :=
  mzd_build M (fun i k => N.odd v && (i =? k)).

(** M4RI [mzd_add] / [_mzd_add] (C may be A or B); dimensions must agree *)
Definition mzd_add (C A B : mzd) : res mzd :=
  _ <- check ((mzd_nrows A =? mzd_nrows B) && (mzd_ncols A =? mzd_ncols B)) ;;
  _ <- check ((mzd_nrows C =? mzd_nrows A) && (mzd_ncols C =? mzd_ncols A)) ;;
  Ok (mzd_build C (fun i k => xorb (mbit A i k) (mbit B i k))).

(** M4RI [mzd_copy(N, P)]: the target may be larger than P; only the P-part is written *)
Definition mzd_copy (T P : mzd) : res mzd :=
  _ <- check ((mzd_nrows P <=? mzd_nrows T) && (mzd_ncols P <=? mzd_ncols T)) ;;
  Ok (mzd_build T (fun i k => if (i <? mzd_nrows P) && (k <? mzd_ncols P) then mbit P i k else mbit T i k)).

(** M4RI [mzd_row_swap] *)
Definition mzd_row_swap (M : mzd) (a b : nat) : res mzd :=
  _ <- guard ((a <? mzd_nrows M) && (b <? mzd_nrows M)) ;;
  Ok (mzd_build M (fun i k => if i =? a then mbit M b k else if i =? b then mbit M a k else mbit M i k)).

(** M4RI [mzd_copy_row(B, i, A, j)] *)
Definition mzd_copy_row (B : mzd) (i : nat) (A : mzd) (j : nat) : res mzd :=
  _ <- guard ((i <? mzd_nrows B) && (j <? mzd_nrows A) && (mzd_ncols A <=? mzd_ncols B)) ;;
  Ok (mzd_build B (fun r k => if (r =? i) && (k <? mzd_ncols A) then mbit A j k else mbit B r k)).

(** M4RI [mzd_col_swap_in_rows(M, a, b, start, stop)], and [mzd_col_swap] = all rows *)
Definition mzd_col_swap_in_rows (M : mzd) (a b start stop : nat) : res mzd :=
  _ <- guard ((a <? mzd_ncols M) && (b <? mzd_ncols M) && (stop <=? mzd_nrows M)) ;;
  Ok (mzd_build M (fun i k =>
        if (start <=? i) && (i <? stop) then
          (if k =? a then mbit M i b else if k =? b then mbit M i a else mbit M i k)
        else mbit M i k)).
Definition mzd_col_swap (M : mzd) (a b : nat) : res mzd :=
  mzd_col_swap_in_rows M a b 0 (mzd_nrows M).

(** M4RI [mzd_row_add(M, source, dest)] *)
Definition mzd_row_add (M : mzd) (s d : nat) : res mzd :=
  _ <- guard ((s <? mzd_nrows M) && (d <? mzd_nrows M)) ;;
  Ok (mzd_build M (fun i k => if i =? d then xorb (mbit M d k) (mbit M s k) else mbit M i k)).

(** M4RI [mzd_concat(C, A, B)], [mzd_stack(C, A, B)], [mzd_submatrix(S, M, lr, lc, hr, hc)] *)
Definition mzd_concat (C A B : mzd) : res mzd :=
  _ <- check (mzd_nrows A =? mzd_nrows B) ;;
  _ <- check ((mzd_nrows C =? mzd_nrows A) && (mzd_ncols C =? mzd_ncols A + mzd_ncols B)) ;;
  Ok (mzd_build C (fun i k => if k <? mzd_ncols A then mbit A i k else mbit B i (k - mzd_ncols A))).
Definition mzd_stack (C A B : mzd) : res mzd :=
  _ <- check (mzd_ncols A =? mzd_ncols B) ;;
  _ <- check ((mzd_ncols C =? mzd_ncols A) && (mzd_nrows C =? mzd_nrows A + mzd_nrows B)) ;;
  Ok (mzd_build C (fun i k => if i <? mzd_nrows A then mbit A i k else mbit B (i - mzd_nrows A) k)).
Definition mzd_submatrix (S M : mzd) (lr lc hr hc : nat) : res mzd :=
  _ <- guard ((lr <=? hr) && (lc <=? hc) && (hr <=? mzd_nrows M) && (hc <=? mzd_ncols M)) ;;
  _ <- check ((hr - lr <=? mzd_nrows S) && (hc - lc <=? mzd_ncols S)) ;;
  Ok (mzd_build S (fun i k => if (i <? hr - lr) && (k <? hc - lc) then mbit M (lr + i) (lc + k)
                              else mbit S i k)).

(** M4RI [mzd_is_zero] *)
Definition mzd_is_zero (M : mzd) : bool :=
  forallb (fun i => forallb (fun k => negb (mbit M i k)) (seq 0 (mzd_ncols M))) (seq 0 (mzd_nrows M)).

(** M4RI [mzd_cmp]: dimensions first, then rows from the first to the last, in a row the
    higher columns are more significant.  Result: -1, 0, 1. *)
Fixpoint bits_cmp (n : nat) (f g : nat -> bool) : comparison :=
  match n with
  | O => Eq
  | S n' => match f n', g n' with
            | true, false => Gt
            | false, true => Lt
            | _, _ => bits_cmp n' f g
            end
  end.
Fixpoint rows_cmp (m : nat) (i : nat) (n : nat) (A B : mzd) : comparison :=
  match m with
  | O => Eq
  | S m' => match bits_cmp n (mbit A i) (mbit B i) with
            | Eq => rows_cmp m' (S i) n A B
            | c => c
            end
  end.
Definition mzd_cmp (A B : mzd) : comparison :=
  match Nat.compare (mzd_nrows A) (mzd_nrows B) with
  | Eq => match Nat.compare (mzd_ncols A) (mzd_ncols B) with
          | Eq => rows_cmp (mzd_nrows A) 0 (mzd_ncols A) A B
          | c => c
          end
  | c => c
  end.

(** M4RI [mzd_first_zero_row]: smallest index such that all rows from it on are zero *)
Fixpoint first_zero_row (m : nat) (M : mzd) : nat :=
  match m with
  | O => O
  | S m' => if forallb (fun k => negb (mbit M m' k)) (seq 0 (mzd_ncols M))
            then first_zero_row m' M else m
  end.
Definition mzd_first_zero_row (M : mzd) : nat := first_zero_row (mzd_nrows M) M.

(** Windows: [mzd_init_window(M, lr, lc, hr, hc)] shares memory with M.  The model extracts the
    block of words ([mzd_window]) and, after an operation on the window, writes the words back
    ([mzd_unwindow]).  lc must be a multiple of 64 (assert in M4RI). *)
Definition mzd_window (M : mzd) (lr lc hr hc : nat) : res mzd :=
  _ <- guard ((lr <=? hr) && (lc <=? hc) && (hr <=? mzd_nrows M) && (hc <=? mzd_ncols M) && (lc mod 64 =? 0)) ;;
  Ok (Mzd (hr - lr) (hc - lc)
        (map (fun r => firstn (width (hc - lc)) (skipn (lc / 64) r)) (firstn (hr - lr) (skipn lr (mzd_rows M))))).
Definition splice {A} (l : list A) (at_ : nat) (new : list A) : list A :=
  firstn at_ l ++ new ++ skipn (at_ + length new) l.
Definition mzd_unwindow (M : mzd) (lr lc : nat) (W : mzd) : mzd :=
  Mzd (mzd_nrows M) (mzd_ncols M)
    (map (fun i => let r := mrow M i in
            if (lr <=? i) && (i <? lr + mzd_nrows W) then splice r (lc / 64) (mrow W (i - lr)) else r)
         (seq 0 (mzd_nrows M))).
