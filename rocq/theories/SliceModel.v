(** Model of src/mzd_slice.h, src/mzd_slice.c, src/mzd_ptr.h: bit-sliced matrices over GF(2^e),
    one GF(2) matrix per coefficient. *)
From Coq Require Import NArith ZArith List Bool Arith.
From Verif Require Import Base PolyFacts Gf2xModel Gf2eModel MzdModel MzedModel.
Import ListNotations.
Local Open Scope nat_scope.

(** ** More M4RI contracts *)
(** product of 0/1 matrices, inner dimension n *)
Definition bmul (n : nat) (f g : nat -> nat -> bool) (i k : nat) : bool := bxsum n (fun l => f i l && g l k).
(** overwrite all bits of the rows of M, padding included *)
Definition mzd_build_words (M : mzd) (f : nat -> nat -> bool) : mzd :=
  Mzd (mzd_nrows M) (mzd_ncols M)
      (map (fun i => mk_row (mrow M i) (64 * width (mzd_ncols M)) (f i)) (seq 0 (mzd_nrows M))).
(** M4RI [mzd_mul(C, A, B, 0)], [mzd_addmul(C, A, B, 0)].  According to tests/test_trsm.c:255-257 [mzd_addmul] is not
    "canary safe": what is in the padding of B may get into the padding of C.  The contract is that the products of the padding of B
    are added to the padding of C, as if whole words were added; the proofs use only that the padding of C is unchanged if that of
    B is zero, and nothing about it otherwise (MzdFacts.mul_ok, addmul_ok, addmul_clean). *)
Definition mzd_mul (C A B : mzd) : res mzd :=
  _ <- check ((mzd_ncols A =? mzd_nrows B)) ;;
  _ <- check ((mzd_nrows C =? mzd_nrows A) && (mzd_ncols C =? mzd_ncols B)) ;;
  let P := bmul (mzd_ncols A) (mbit A) (mbit B) in
  Ok (mzd_build_words C (fun i k => if k <? mzd_ncols C then P i k else xorb (mbit C i k) (P i k))).
Definition mzd_addmul (C A B : mzd) : res mzd :=
  _ <- check ((mzd_ncols A =? mzd_nrows B)) ;;
  _ <- check ((mzd_nrows C =? mzd_nrows A) && (mzd_ncols C =? mzd_ncols B)) ;;
  Ok (mzd_build_words C (fun i k => xorb (mbit C i k) (bmul (mzd_ncols A) (mbit A) (mbit B) i k))).
(** M4RI [mzd_read_bit], [mzd_write_bit] *)
Definition mzd_read_bit (M : mzd) (r c : nat) : res bool :=
  _ <- guard ((r <? mzd_nrows M) && (c <? mzd_ncols M)) ;; Ok (mbit M r c).
Definition mzd_write_bit (M : mzd) (r c : nat) (v : bool) : res mzd :=
  _ <- guard ((r <? mzd_nrows M) && (c <? mzd_ncols M)) ;;
  Ok (mzd_build M (fun i k => if (i =? r) && (k =? c) then v else mbit M i k)).
(** M4RI [_mzd_compress_l(A, r1, n1, r2)]: column swaps in the rows r1 .. r1+r2-1; in the rows below,
    the columns n1 .. n1+r2-1 move to r1 .. r1+r2-1 and the columns up to n1+r2 are cleared.  M4RI works on whole
    words there and relies on the columns from n1+r2 on being zero; otherwise the contract says nothing ([UB]). *)
Definition compress_pre (A : mzd) (r1 n1 r2 : nat) : bool :=
  (r1 <=? n1) && (n1 + r2 <=? mzd_ncols A) && (r1 + r2 <=? mzd_nrows A) &&
  forallb (fun i => forallb (fun k => negb (mbit A i k)) (seq (n1 + r2) (mzd_ncols A - (n1 + r2)))) (seq (r1 + r2) (mzd_nrows A - (r1 + r2))).
Definition mzd_compress_l (A : mzd) (r1 n1 r2 : nat) : res mzd :=
  if r1 =? n1 then Ok A else
  _ <- guard (compress_pre A r1 n1 r2) ;;
  A <- for_ 0 r2 (fun i A => mzd_col_swap_in_rows A (r1 + i) (n1 + i) (r1 + i) (r1 + r2)) A ;;
  Ok (mzd_build A (fun i k =>
        if (r1 + r2 <=? i) && (r1 <=? k) && (k <? n1 + r2) then
          (if k <? r1 + r2 then mbit A i (n1 + (k - r1)) else false)
        else mbit A i k)).
(** M4RI [mzd_randomize]; [rnd i k] is the random bit *)
Definition mzd_randomize (rnd : nat -> nat -> bool) (M : mzd) : mzd := mzd_build M rnd.
(** M4RI [mzd_cmp] as an int *)
Definition cmp_int (c : comparison) : Z := match c with Eq => 0%Z | Lt => (-1)%Z | Gt => 1%Z end.

(** m4ri_functions.h:81-95 [mzd_sum]; the one-element list stands for passing the matrix itself *)
Definition mzd_sum (T : mzd) (l : list mzd) : res mzd :=
  match l with
  | [] => UB
  | [a] => Ok a
  | a :: b :: rest =>
      T <- mzd_add T a b ;;
      fold_left (fun (acc : res mzd) B => T <- acc ;; mzd_add T T B) rest (Ok T)
  end.

(** ** mzd_ptr.h *)
(** mzd_add(X[t], X[t], A) *)
Definition ladd (X : list mzd) (t : nat) (A : mzd) : res (list mzd) :=
  x <- lget X t ;; x' <- mzd_add x x A ;; lset X t x'.
(** mzd_ptr.h:38-53 [_mzd_ptr_add_modred]; [ff = None] is ff == NULL *)
Definition ptr_add_modred (ff : option gf2e) (A : mzd) (X : list mzd) (t : nat) : res (list mzd) :=
  if mzd_is_zero A then Ok X else
  match ff with
  | None => ladd X t A
  | Some k =>
      if t <? ff_degree k then ladd X t A else
      pow_gen <- lget (ff_pow_gen k) t ;;
      for_ 0 (ff_degree k) (fun i X => if N.testbit pow_gen (N.of_nat i) then ladd X i A else Ok X) X
  end.
(** mzd_ptr.h:64-81 [_mzd_ptr_add_to_all] *)
Definition ptr_add_to_all (ff : option gf2e) (A : mzd) (X : list mzd) (ts : list nat) : res (list mzd) :=
  fold_left (fun (acc : res (list mzd)) t =>
    X <- acc ;;
    match ff with Some _ => ptr_add_modred ff A X t | None => ladd X t A end) ts (Ok X).
(** mzd_ptr.h:83-123 [_mzd_ptr_add]: an unrolled loop from length-1 down to 0 *)
Definition ptr_add (c a b : list mzd) (length : nat) : res (list mzd) :=
  for_down 0 length (fun i c =>
    ci <- lget c i ;; ai <- lget a i ;; bi <- lget b i ;; ci' <- mzd_add ci ai bi ;; lset c i ci') c.

(** ** mzd_slice.h:54-63 [mzd_slice_t] (the x array has [sl_depth] meaningful entries) *)
Record slice := Slice { sl_ff : gf2e; sl_depth : nat; sl_nrows : nat; sl_ncols : nat; sl_x : list mzd }.
Definition sl_set_x (A : slice) (x : list mzd) : slice := Slice (sl_ff A) (sl_depth A) (sl_nrows A) (sl_ncols A) x.
(** the C code compares field pointers, the model minimal polynomials (as for [mzed]) *)
Definition sl_same_ff (A B : slice) : bool := (ff_minpoly (sl_ff A) =? ff_minpoly (sl_ff B))%N.

(** [for(i=0; i<n; i++) op(x[i])] *)
Definition sl_each (n : nat) (op : nat -> mzd -> res mzd) (x : list mzd) : res (list mzd) :=
  for_ 0 n (fun i x => xi <- lget x i ;; xi' <- op i xi ;; lset x i xi') x.
Definition sl_map (A : slice) (op : nat -> mzd -> res mzd) : res slice :=
  x <- sl_each (sl_depth A) op (sl_x A) ;; Ok (sl_set_x A x).
(** [n] slices are treated (the depth of another operand), the others stay *)
Definition sl_map_n (n : nat) (A : slice) (op : nat -> mzd -> res mzd) : res slice :=
  x <- sl_each n op (sl_x A) ;; Ok (sl_set_x A x).

(** mzd_slice.h:78-89 [mzd_slice_init] *)
Definition mzd_slice_init (ff : gf2e) (m n : nat) : slice :=
  Slice ff (ff_degree ff) m n (repeat (mzd_init m n) (ff_degree ff)).
Definition sl_or_init (C : option slice) (ff : gf2e) (m n : nat) : slice :=
  match C with None => mzd_slice_init ff m n | Some C => C end.
(** mzd_slice.c:57-61 [mzd_slice_set_ui] *)
Definition mzd_slice_set_ui (A : slice) (v : N) : res slice :=
  sl_map A (fun i x => Ok (mzd_set_ui x (N.land (wshr v i) 1))).
(** mzd_slice.h:164-172 [mzd_slice_copy] *)
Definition mzd_slice_copy (B : option slice) (A : slice) : res slice :=
  sl_map_n (sl_depth A) (sl_or_init B (sl_ff A) (sl_nrows A) (sl_ncols A)) (fun i x => a <- lget (sl_x A) i ;; mzd_copy x a).
(** mzd_slice.h:186-192 [mzd_slice_read_elem] *)
Definition mzd_slice_read_elem (A : slice) (row col : nat) : res N :=
  for_ 0 (sl_depth A) (fun i ret =>
    x <- lget (sl_x A) i ;; b <- mzd_read_bit x row col ;; Ok (N.lor ret (wshl (N.b2n b) i))) 0%N.
(** mzd_slice.h:207-212 [mzd_slice_add_elem]; in iteration i the variable elem holds elem >> i *)
Definition mzd_slice_add_elem (A : slice) (row col : nat) (elem : N) : res slice :=
  sl_map A (fun i x => mzd_xor_bits_ x row col 1 (N.land (wshr elem i) 1)).
(** mzd_slice.h:227-232 [mzd_slice_write_elem] *)
Definition mzd_slice_write_elem (A : slice) (row col : nat) (elem : N) : res slice :=
  sl_map A (fun i x => mzd_write_bit x row col (N.odd (wshr elem i))).
(** mzd_slice.h:247-254 [mzd_slice_cmp] *)
Definition mzd_slice_cmp (A B : slice) : res Z :=
  if negb (sl_same_ff A B) || negb (sl_depth A =? sl_depth B) then Ok (-1)%Z else
  for_ 0 (sl_depth A) (fun i r => a <- lget (sl_x A) i ;; b <- lget (sl_x B) i ;; Ok (Z.lor r (cmp_int (mzd_cmp a b)))) 0%Z.
(** mzd_slice.h:264-270 [mzd_slice_is_zero] *)
Definition mzd_slice_is_zero (A : slice) : bool := forallb mzd_is_zero (firstn (sl_depth A) (sl_x A)).
(** mzd_slice.h:282-286, 301-304, 316-319, 331-335, 350-353, 374-377: row and column operations *)
Definition mzd_slice_row_swap (A : slice) (a b : nat) : res slice := sl_map A (fun _ x => mzd_row_swap x a b).
Definition mzd_slice_copy_row (B : slice) (i : nat) (A : slice) (j : nat) : res slice :=
  sl_map_n (sl_depth A) B (fun ii x => a <- lget (sl_x A) ii ;; mzd_copy_row x i a j).
Definition mzd_slice_col_swap (A : slice) (a b : nat) : res slice := sl_map A (fun _ x => mzd_col_swap x a b).
Definition mzd_slice_col_swap_in_rows (A : slice) (a b start stop : nat) : res slice :=
  sl_map_n (ff_degree (sl_ff A)) A (fun _ x => mzd_col_swap_in_rows x a b start stop).
Definition mzd_slice_row_add (A : slice) (s d : nat) : res slice := sl_map A (fun _ x => mzd_row_add x s d).
Definition mzd_slice_compress_l (A : slice) (r1 n1 r2 : nat) : res slice := sl_map A (fun _ x => mzd_compress_l x r1 n1 r2).
(** mzd_slice.h:397-405, 424-432, 447-456 *)
Definition mzd_slice_concat (C : option slice) (A B : slice) : res slice :=
  sl_map_n (sl_depth A) (sl_or_init C (sl_ff A) (sl_nrows A) (sl_ncols A + sl_ncols B))
    (fun i x => a <- lget (sl_x A) i ;; b <- lget (sl_x B) i ;; mzd_concat x a b).
Definition mzd_slice_stack (C : option slice) (A B : slice) : res slice :=
  sl_map_n (sl_depth A) (sl_or_init C (sl_ff A) (sl_nrows A + sl_nrows B) (sl_ncols A))
    (fun i x => a <- lget (sl_x A) i ;; b <- lget (sl_x B) i ;; mzd_stack x a b).
Definition mzd_slice_submatrix (S : option slice) (A : slice) (lr lc hr hc : nat) : res slice :=
  sl_map_n (sl_depth A) (sl_or_init S (sl_ff A) (hr - lr) (hc - lc))
    (fun i x => a <- lget (sl_x A) i ;; mzd_submatrix x a lr lc hr hc).
(** mzd_slice.h:480-492 [mzd_slice_init_window] (reading), and the write-back of its words *)
Definition mzd_slice_window (A : slice) (lr lc hr hc : nat) : res slice :=
  x <- for_ 0 (sl_depth A) (fun i l => a <- lget (sl_x A) i ;; w <- mzd_window a lr lc hr hc ;; Ok (l ++ [w])) [] ;;
  Ok (Slice (sl_ff A) (sl_depth A) (hr - lr) (hc - lc) x).
Definition mzd_slice_unwindow (A : slice) (lr lc : nat) (W : slice) : res slice :=
  sl_map A (fun i x => w <- lget (sl_x W) i ;; Ok (mzd_unwindow x lr lc w)).
Definition on_swin (A : slice) (lr lc hr hc : nat) (op : slice -> res slice) : res slice :=
  W <- mzd_slice_window A lr lc hr hc ;; W' <- op W ;; mzd_slice_unwindow A lr lc W'.
(** mzd_slice.h:848-851 [mzd_slice_randomize] *)
Definition mzd_slice_randomize (rnd : nat -> nat -> nat -> bool) (A : slice) : res slice :=
  sl_map A (fun i x => Ok (mzd_randomize (rnd i) x)).

(** mzd_slice.h:519-522 [_mzd_slice_add], 537-547 [mzd_slice_add] *)
Definition mzd_slice_add_ (C A B : slice) : res slice :=
  x <- ptr_add (sl_x C) (sl_x A) (sl_x B) (sl_depth A) ;; Ok (sl_set_x C x).
Definition mzd_slice_add (C : option slice) (A B : slice) : res slice :=
  _ <- check (sl_same_ff A B && (sl_nrows A =? sl_nrows B) && (sl_ncols A =? sl_ncols B)) ;;
  C <- match C with
       | None => Ok (mzd_slice_init (sl_ff A) (sl_nrows A) (sl_ncols A))
       | Some C => _ <- check (sl_same_ff A C && (sl_nrows A =? sl_nrows C) && (sl_ncols A =? sl_ncols C)) ;; Ok C
       end ;;
  mzd_slice_add_ C A B.

(** the common loop of mzd_slice.c:25-41 and 43-55: C += a*B *)
Definition scalar_loop (ff : gf2e) (a : N) (B : slice) (X : list mzd) : res (list mzd) :=
  for_ 0 (ff_degree ff) (fun i X =>
    if N.testbit a (N.of_nat i) then
      for_ 0 (sl_depth B) (fun j X => bj <- lget (sl_x B) j ;; ptr_add_modred (Some ff) bj X (i + j)) X
    else Ok X) X.
Definition scalar_assert (C B : slice) : bool :=
  sl_same_ff C B && (sl_nrows C =? sl_nrows B) && (sl_ncols C =? sl_ncols B).
(** mzd_slice.c:43-55 [mzd_slice_addmul_scalar] (C and B distinct objects) *)
Definition mzd_slice_addmul_scalar (C : slice) (a : N) (B : slice) : res slice :=
  _ <- guard (scalar_assert C B) ;;
  x <- scalar_loop (sl_ff B) a B (sl_x C) ;; Ok (sl_set_x C x).
(** mzd_slice.c:25-41 [mzd_slice_mul_scalar] (C and B distinct objects) *)
Definition mzd_slice_mul_scalar (C : option slice) (a : N) (B : slice) : res slice :=
  C <- match C with
       | None => Ok (mzd_slice_init (sl_ff B) (sl_nrows B) (sl_ncols B))
       | Some C => mzd_slice_set_ui C 0
       end ;;
  _ <- guard (scalar_assert C B) ;;
  x <- scalar_loop (sl_ff B) a B (sl_x C) ;; Ok (sl_set_x C x).
(** the same call with C == B: B is read through the cleared object; X[i+j] += X[j] reads the
    list being updated *)
Definition scalar_loop_alias (ff : gf2e) (a : N) (depth : nat) (X : list mzd) : res (list mzd) :=
  for_ 0 (ff_degree ff) (fun i X =>
    if N.testbit a (N.of_nat i) then
      for_ 0 depth (fun j X => bj <- lget X j ;; ptr_add_modred (Some ff) bj X (i + j)) X
    else Ok X) X.
Definition mzd_slice_mul_scalar_alias (a : N) (B : slice) : res slice :=
  B <- mzd_slice_set_ui B 0 ;;
  x <- scalar_loop_alias (sl_ff B) a (sl_depth B) (sl_x B) ;; Ok (sl_set_x B x).

(** mzd_slice.c:82-98 [_mzd_slice_addmul_naive] *)
Definition mzd_slice_addmul_naive_ (C : option slice) (A B : slice) : res slice :=
  let C := sl_or_init C (sl_ff A) (sl_nrows A) (sl_ncols B) in
  let e := ff_degree (sl_ff A) in
  '(t0, x) <- for_ 0 e (fun i '(t0, X) =>
     for_ 0 e (fun j '(t0, X) =>
       a <- lget (sl_x A) i ;; b <- lget (sl_x B) j ;;
       t0 <- mzd_mul t0 a b ;;
       X <- ptr_add_modred (Some (sl_ff A)) t0 X (i + j) ;; Ok (t0, X)) (t0, X))
     (mzd_init (sl_nrows A) (sl_ncols B), sl_x C) ;;
  Ok (sl_set_x C x).
