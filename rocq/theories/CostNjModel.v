(** The algorithms with Newton-John tables again, keeping a log of their field multiplications: a row of n entries multiplied by a field element
    is the product of a 1 x 1 and a 1 x n matrix, [(1, 1, n)].  CostNjProofs.v proves that forgetting the log gives back the models of NjModel.v. *)
From Coq Require Import NArith List Bool Arith.
From Verif Require Import Base Gf2xModel Gf2eModel MzdModel MzedModel NjModel CostModel.
Import ListNotations.
Local Open Scope nat_scope.

(** number of multiplications of field elements in the products of a log *)
Definition mults (l : list call) : nat := fold_right (fun t s => let '(m, k, n) := t in m * k * n + s) 0 l.
(** mzed.c:272-504 [mzed_add_multiple_of_row]: for x = 0 nothing is done, for x = 1 the rows are added without multiplications.  (For the
    lanes after the last column, which hold 0, the C code calls the multiplication too; they are not counted.) *)
Definition mzed_add_multiple_of_row_l (A : mzed) (ar : nat) (B : mzed) (br : nat) (x : N) (start_col : nat) : log mzed :=
  y <- mzed_add_multiple_of_row A ar B br x start_col ;; Ok (y, if (x <? 2)%N then [] else [(1, 1, mz_ncols A - start_col)]).
(** mzed.h:549-897 [mzed_rescale_row] *)
Definition mzed_rescale_row_l (A : mzed) (r start_col : nat) (x : N) : log mzed :=
  y <- mzed_rescale_row A r start_col x ;; Ok (y, [(1, 1, mz_ncols A - start_col)]).
(** mzed.c:128-138 [_mzed_mul_naive]: one multiplication for each entry of A and column of B *)
Definition mzed_mul_naive_l_ (C A B : mzed) : log mzed :=
  y <- mzed_mul_naive_ C A B ;; Ok (y, [(mz_nrows A, mz_ncols A, mz_ncols B)]).

(** newton_john.c:156-233 [mzed_make_table] *)
Definition mzed_make_table_l (T : njt) (A : mzed) (r c : nat) : log njt :=
  let ff := mz_ff A in
  let M0 := mz_set_x (nj_M T) (mzd_set_ui_0 (mz_x (nj_M T))) in
  let homeblock := mz_w A * c / 64 in
  M <~ lfor 0 (ff_degree ff) (fun i M =>
         mzed_add_multiple_of_row_l M i A r (N.shiftl 1 (N.of_nat i)) c) M0 ;;
  let wid := mzd_width (mz_x M) in
  '(rows, L) <~ quiet (for_ 1 (mz_nrows (nj_T T)) (fun i '(rows, L) =>
      L <- lset L (cb_ord i) i ;;
      ti <- lget rows i ;; ti1 <- lget rows (i - 1) ;;
      m <- lget (mzd_rows (mz_x M)) (cb_inc (i - 1)) ;;
      ti' <- table_row homeblock wid (high_bitmask (mz_x M)) m ti1 ti ;;
      rows <- lset rows i ti' ;;
      Ok (rows, L)) (mzd_rows (mz_x (nj_T T)), nj_L T)) ;;
  quiet (Ok (Njt L M (mz_set_x (nj_T T) (Mzd (mzd_nrows (mz_x (nj_T T))) (mzd_ncols (mz_x (nj_T T))) rows)))).

(** newton_john.c:399-410 *)
Definition mul_nj_col_l (C : mzed) (T : njt) (A B : mzed) (i : nat) : log (mzed * njt) :=
  T <~ mzed_make_table_l T B i 0 ;;
  C <~ quiet (for_ 0 (mz_nrows A) (fun j C =>
         x <- mzed_read_elem A j i ;; l <- nj_lookup T x ;; combine_row C j 0 (nj_T T) l) C) ;;
  quiet (Ok (C, T)).
(** newton_john.c:412-495 [_mzed_mul_newton_john] *)
Definition mul_nj_block_l (Ts : list njt) (C A B : mzed) (lo hi : nat) : log (mzed * list njt) :=
  lfor 0 (mz_ncols A / 8) (fun i '(C, Ts) =>
    Ts <~ lfor 0 8 (fun k Ts =>
            T <~ quiet (lget Ts k) ;; T <~ mzed_make_table_l T B (8 * i + k) 0 ;; quiet (lset Ts k T)) Ts ;;
    C <~ quiet (for_ lo hi (fun j C => combine8 C j Ts A i) C) ;;
    quiet (Ok (C, Ts))) (C, Ts).
Fixpoint giant_steps_l (fuel : nat) (Ts : list njt) (C A B : mzed) (g bs : nat) : log (mzed * list njt * nat) :=
  match fuel with
  | O => if g + bs <=? mz_nrows A then UB else quiet (Ok (C, Ts, g))
  | S fuel' =>
      if g + bs <=? mz_nrows A then
        '(C, Ts) <~ mul_nj_block_l Ts C A B g (g + bs) ;;
        giant_steps_l fuel' Ts C A B (g + bs) bs
      else quiet (Ok (C, Ts, g))
  end.
Definition mzed_mul_newton_john_l_ (mulbs : nat) (C A B : mzed) : log mzed :=
  if mz_nrows A <? ff_degree (mz_ff A) then mzed_mul_naive_l_ C A B
  else
    Ts <~ quiet (njt_inits 8 (mz_ff B) (mz_ncols B)) ;;
    '(C, Ts, g) <~ (if mz_w A * mulbs <=? mz_nrows A
                    then giant_steps_l (mz_nrows A) Ts C A B 0 (mulbs / mz_w A) else quiet (Ok (C, Ts, 0))) ;;
    '(C, Ts) <~ mul_nj_block_l Ts C A B g (mz_nrows A) ;;
    T <~ quiet (lget Ts 0) ;;
    '(C, _) <~ lfor (8 * (mz_ncols A / 8)) (mz_ncols A) (fun i '(C, T) => mul_nj_col_l C T A B i) (C, T) ;;
    quiet (Ok C).
(** newton_john.c:498-506 *)
Definition mzed_mul_newton_john_l (mulbs : nat) (C : option mzed) (A B : mzed) : log mzed :=
  C <~ quiet (mzed_mul_init C A B true) ;; mzed_mul_newton_john_l_ mulbs C A B.
Definition mzed_addmul_newton_john_l (mulbs : nat) (C : option mzed) (A B : mzed) : log mzed :=
  C <~ quiet (mzed_mul_init C A B false) ;; mzed_mul_newton_john_l_ mulbs C A B.

(** newton_john.c:116-153 [_mzed_gauss_submatrix_full] *)
Fixpoint gauss_find_l (n : nat) (i : nat) (A : mzed) (r c j : nat) : log (mzed * option (nat * N)) :=
  match n with
  | O => quiet (Ok (A, None))
  | S n' =>
      A <~ lfor 0 (j - c) (fun l A =>
             tmp <~ quiet (mzed_read_elem A i (c + l)) ;;
             if (tmp =? 0)%N then quiet (Ok A) else mzed_add_multiple_of_row_l A i A (r + l) tmp (c + l)) A ;;
      x <~ quiet (mzed_read_elem A i j) ;;
      if (x =? 0)%N then gauss_find_l n' (S i) A r c j else quiet (Ok (A, Some (i, x)))
  end.
Fixpoint gauss_cols_l (n : nat) (A : mzed) (r c end_row j start_row : nat) : log (mzed * nat) :=
  match n with
  | O => quiet (Ok (A, j - c))
  | S n' =>
      '(A, p) <~ gauss_find_l (end_row - start_row) start_row A r c j ;;
      match p with
      | None => quiet (Ok (A, j - c))
      | Some (i, x) =>
          xi <~ quiet (gf2e_inv (mz_ff A) x) ;;
          A <~ mzed_rescale_row_l A i j xi ;;
          A <~ quiet (mzed_row_swap A i start_row) ;;
          A <~ lfor r start_row (fun l A =>
                 tmp <~ quiet (mzed_read_elem A l j) ;;
                 if (tmp =? 0)%N then quiet (Ok A) else mzed_add_multiple_of_row_l A l A start_row tmp j) A ;;
          gauss_cols_l n' A r c end_row (S j) (S start_row)
      end
  end.
(** newton_john.c:235-347 [mzed_echelonize_newton_john] *)
Definition nj_tables_l (Ts : list njt) (A : mzed) (r c kbar : nat) : log (list njt) :=
  lfor 0 kbar (fun k Ts =>
    T <~ quiet (lget Ts k) ;; T <~ mzed_make_table_l T A (r + k) (c + k) ;; quiet (lset Ts k T)) Ts.
Fixpoint nj_ech_loop_l (fuel : nat) (full : bool) (A : mzed) (Ts : list njt) (r c kk : nat) : log (mzed * nat) :=
  if c <? mz_ncols A then
    match fuel with
    | O => UB
    | S fuel' =>
        let kk := if mz_ncols A <? c + kk then mz_ncols A - c else kk in
        '(A, kbar) <~ gauss_cols_l kk A r c (mz_nrows A) c r ;;
        if kbar =? 0 then nj_ech_loop_l fuel' full A Ts r (c + 1) kk
        else
          Ts <~ nj_tables_l Ts A r c kbar ;;
          A <~ quiet (if kbar =? kk then mzed_process_rows A (r + kbar) (mz_nrows A) c (firstn kbar Ts) else Ok A) ;;
          A <~ quiet (if full then mzed_process_rows A 0 r c (firstn kbar Ts) else Ok A) ;;
          nj_ech_loop_l fuel' full A Ts (r + kbar) (c + kbar) kk
    end
  else quiet (Ok (A, r)).
Definition mzed_echelonize_newton_john_l (k0 : nat) (A : mzed) (full : bool) : log (mzed * nat) :=
  Ts <~ quiet (njt_inits 6 (mz_ff A) (mz_ncols A)) ;;
  nj_ech_loop_l (mz_ncols A) full A Ts 0 0 (nj_kk k0 (ff_degree (mz_ff A))).
(** newton_john.c:508-530 [mzed_invert_newton_john] *)
Definition mzed_invert_newton_john_l (k0 : nat) (B : option mzed) (A : mzed) : log mzed :=
  _ <~ quiet (guard (mz_nrows A =? mz_ncols A)) ;;
  I <~ quiet (mzed_init (mz_ff A) (mz_nrows A) (mz_ncols A)) ;;
  I <~ quiet (mzed_set_ui I 1) ;;
  T <~ quiet (mzed_concat None A I) ;;
  '(T, _) <~ mzed_echelonize_newton_john_l k0 T true ;;
  J <~ quiet (mzed_window T 0 0 (mz_nrows A) (mz_ncols A)) ;;
  quiet (match mzed_cmp I J with
         | Eq => mzed_submatrix B T 0 (mz_ncols A) (mz_nrows A) (mz_ncols T)
         | _ => Die
         end).
