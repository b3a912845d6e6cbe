(** Model of src/newton_john.c and src/newton_john.h: Newton-John tables and the algorithms built
    on them, for packed matrices. *)
From Coq Require Import NArith List Bool Arith.
From Verif Require Import Base Gf2xModel Gf2eModel MzdModel MzedModel.
Import ListNotations.
Local Open Scope nat_scope.

(** M4RI [m4ri_codebook[l]]: the reflected Gray code; [ord i] is its i-th word, [inc (i-1)] the
    position of the bit in which words i-1 and i differ.  External contract. *)
Definition gray (i : N) : N := N.lxor i (N.shiftr i 1).
Fixpoint tz (p : positive) : nat := match p with xO p' => S (tz p') | _ => O end.
Definition cb_ord (i : nat) : nat := N.to_nat (gray (N.of_nat i)).
Definition cb_inc (i : nat) : nat := match N.of_nat (S i) with Npos p => tz p | N0 => O end.

(** newton_john.h:41-45 [njt_mzed_t] *)
Record njt := Njt { nj_L : list nat; nj_M : mzed; nj_T : mzed }.

(** newton_john.c:32-38 [njt_mzed_init] *)
Definition njt_init (ff : gf2e) (ncols : nat) : res njt :=
  T <- mzed_init ff (2 ^ ff_degree ff) ncols ;;
  M <- mzed_init ff (ff_degree ff) ncols ;;
  Ok (Njt (repeat 0 (2 ^ ff_degree ff)) M T).

(** newton_john.c:195-207: offsets d of the words ti[-d] cleared by the switch on homeblock *)
Definition stale_offsets (homeblock : nat) : list nat :=
  match homeblock with
  | 0 => []
  | 1 => [1]
  | 2 => [2; 1]
  | 3 => [2; 2; 1]
  | 4 => [3; 2; 2; 1]
  | 5 => [4; 3; 2; 2; 1]
  | 6 => [5; 4; 3; 2; 2; 1]
  | 7 => [6; 5; 4; 3; 2; 2; 1]
  | _ => [7; 6; 5; 4; 3; 2; 2; 1]
  end.
Fixpoint clear_words (offs : list nat) (h : nat) (ti : list N) : res (list N) :=
  match offs with
  | [] => Ok ti
  | d :: offs' => ti <- lset ti (h - d) 0%N ;; clear_words offs' h ti
  end.
(** newton_john.c:209-228: words homeblock .. width-1 of the new row; the last one is masked.
    The C loop is unrolled by 8 with a switch on the rest. *)
Definition table_row (homeblock wid : nat) (bitmask_end : N) (m ti1 ti : list N) : res (list N) :=
  ti <- clear_words (stale_offsets homeblock) homeblock ti ;;
  for_ homeblock wid (fun j ti =>
    a <- lget m j ;; b <- lget ti1 j ;;
    lset ti j (if S j =? wid then N.land (N.lxor a b) bitmask_end else N.lxor a b)) ti.

(** newton_john.c:156-233 [mzed_make_table] (T not NULL; NULL means [njt_init] first) *)
Definition mzed_make_table (T : njt) (A : mzed) (r c : nat) : res njt :=
  let ff := mz_ff A in
  let M0 := mz_set_x (nj_M T) (mzd_set_ui_0 (mz_x (nj_M T))) in
  let homeblock := mz_w A * c / 64 in
  M <- for_ 0 (ff_degree ff) (fun i M =>
         mzed_add_multiple_of_row M i A r (N.shiftl 1 (N.of_nat i)) c) M0 ;;
  let wid := mzd_width (mz_x M) in
  '(rows, L) <- for_ 1 (mz_nrows (nj_T T)) (fun i '(rows, L) =>
      L <- lset L (cb_ord i) i ;;
      ti <- lget rows i ;; ti1 <- lget rows (i - 1) ;;
      m <- lget (mzd_rows (mz_x M)) (cb_inc (i - 1)) ;;
      ti' <- table_row homeblock wid (high_bitmask (mz_x M)) m ti1 ti ;;
      rows <- lset rows i ti' ;;
      Ok (rows, L)) (mzd_rows (mz_x (nj_T T)), nj_L T) ;;
  Ok (Njt L M (mz_set_x (nj_T T) (Mzd (mzd_nrows (mz_x (nj_T T))) (mzd_ncols (mz_x (nj_T T))) rows))).

(** M4RI row combination: xor the words from block [blk] on of row t into row a *)
Definition xor_words (blk : nat) (a t : list N) : list N :=
  map (fun j => if blk <=? j then N.lxor (nth j a 0%N) (nth j t 0%N) else nth j a 0%N) (seq 0 (length a)).
Definition combine_row (C : mzed) (rc : nat) (blk : nat) (T : mzed) (rt : nat) : res mzed :=
  a <- lget (mzd_rows (mz_x C)) rc ;;
  t <- lget (mzd_rows (mz_x T)) rt ;;
  _ <- guard (length a =? length t) ;;
  Ok (mz_set_x C (Mzd (mzd_nrows (mz_x C)) (mzd_ncols (mz_x C)) (upd (mzd_rows (mz_x C)) rc (xor_words blk a t)))).
(** lookup of the table index T->L[x] *)
Definition nj_lookup (T : njt) (x : N) : res nat := lget (nj_L T) (N.to_nat x).

(** newton_john.h [mzed_process_rows], [mzed_process_rows2], ..., [mzed_process_rows6] on top of
    M4RI [mzd_process_rows*]: for every row in [startrow, endrow) the N elements at startcol, ..,
    startcol+N-1 are read (at most 64 bits at once), then the table rows they select are added to the
    words from the block of startcol on.  N = length Ts. *)
Definition mzed_process_rows (M : mzed) (startrow endrow startcol : nat) (Ts : list njt) : res mzed :=
  _ <- guard (length Ts * mz_w M <=? 64) ;;
  let blk := startcol * mz_w M / 64 in
  for_ startrow endrow (fun r M0 =>
    for_ 0 (length Ts) (fun k M1 =>
      T <- lget Ts k ;;
      x <- mzed_read_elem M0 r (startcol + k) ;;
      i <- nj_lookup T x ;;
      combine_row M1 r blk (nj_T T) i) M0) M.

(** newton_john.c:116-153 [_mzed_gauss_submatrix_full] *)
Fixpoint gauss_find (n : nat) (i : nat) (A : mzed) (r c j : nat) : res (mzed * option (nat * N)) :=
  match n with
  | O => Ok (A, None)
  | S n' =>
      A <- for_ 0 (j - c) (fun l A =>
             tmp <- mzed_read_elem A i (c + l) ;;
             if (tmp =? 0)%N then Ok A else mzed_add_multiple_of_row A i A (r + l) tmp (c + l)) A ;;
      x <- mzed_read_elem A i j ;;
      if (x =? 0)%N then gauss_find n' (S i) A r c j else Ok (A, Some (i, x))
  end.
Fixpoint gauss_cols (n : nat) (A : mzed) (r c end_row j start_row : nat) : res (mzed * nat) :=
  match n with
  | O => Ok (A, j - c)
  | S n' =>
      '(A, p) <- gauss_find (end_row - start_row) start_row A r c j ;;
      match p with
      | None => Ok (A, j - c)
      | Some (i, x) =>
          xi <- gf2e_inv (mz_ff A) x ;;
          A <- mzed_rescale_row A i j xi ;;
          A <- mzed_row_swap A i start_row ;;
          A <- for_ r start_row (fun l A =>
                 tmp <- mzed_read_elem A l j ;;
                 if (tmp =? 0)%N then Ok A else mzed_add_multiple_of_row A l A start_row tmp j) A ;;
          gauss_cols n' A r c end_row (S j) (S start_row)
      end
  end.
Definition mzed_gauss_submatrix_full (A : mzed) (r c end_row k : nat) : res (mzed * nat) :=
  gauss_cols k A r c end_row c r.

(** newton_john.c:235-347 [mzed_echelonize_newton_john].  [k0] is the value of kk after the M4RI
    heuristics (lines 242-247: m4ri_opt_k, capped at 7, possibly decremented). *)
Definition nj_kk (k0 degree : nat) : nat :=
  let kk := 6 * k0 / degree in
  if kk =? 0 then 1 else if 6 <? kk then 6 else kk.
Definition nj_tables (Ts : list njt) (A : mzed) (r c kbar : nat) : res (list njt) :=
  for_ 0 kbar (fun k Ts =>
    T <- lget Ts k ;; T <- mzed_make_table T A (r + k) (c + k) ;; lset Ts k T) Ts.
Fixpoint nj_ech_loop (fuel : nat) (full : bool) (A : mzed) (Ts : list njt) (r c kk : nat) : res (mzed * nat) :=
  if c <? mz_ncols A then
    match fuel with
    | O => UB
    | S fuel' =>
        let kk := if mz_ncols A <? c + kk then mz_ncols A - c else kk in
        '(A, kbar) <- mzed_gauss_submatrix_full A r c (mz_nrows A) kk ;;
        if kbar =? 0 then nj_ech_loop fuel' full A Ts r (c + 1) kk
        else
          Ts <- nj_tables Ts A r c kbar ;;
          A <- (if kbar =? kk then mzed_process_rows A (r + kbar) (mz_nrows A) c (firstn kbar Ts) else Ok A) ;;
          A <- (if full then mzed_process_rows A 0 r c (firstn kbar Ts) else Ok A) ;;
          nj_ech_loop fuel' full A Ts (r + kbar) (c + kbar) kk
    end
  else Ok (A, r).
Fixpoint njt_inits (n : nat) (ff : gf2e) (ncols : nat) : res (list njt) :=
  match n with
  | O => Ok []
  | S n' => T <- njt_init ff ncols ;; Ts <- njt_inits n' ff ncols ;; Ok (T :: Ts)
  end.
Definition mzed_echelonize_newton_john (k0 : nat) (A : mzed) (full : bool) : res (mzed * nat) :=
  Ts <- njt_inits 6 (mz_ff A) (mz_ncols A) ;;
  nj_ech_loop (mz_ncols A) full A Ts 0 0 (nj_kk k0 (ff_degree (mz_ff A))).

(** newton_john.c:399-410 [_mzed_mul_newton_john0] *)
Definition mul_nj_col (C : mzed) (T : njt) (A B : mzed) (i : nat) : res (mzed * njt) :=
  T <- mzed_make_table T B i 0 ;;
  C <- for_ 0 (mz_nrows A) (fun j C =>
         x <- mzed_read_elem A j i ;; l <- nj_lookup T x ;; combine_row C j 0 (nj_T T) l) C ;;
  Ok (C, T).
Definition mzed_mul_newton_john0 (C A B : mzed) : res mzed :=
  T <- njt_init (mz_ff B) (mz_ncols B) ;;
  '(C, _) <- for_ 0 (mz_ncols A) (fun i '(C, T) => mul_nj_col C T A B i) (C, T) ;;
  Ok C.

(** newton_john.c:412-495 [_mzed_mul_newton_john] (accumulates into C).  [mulbs] is M4RI's
    __M4RI_MUL_BLOCKSIZE.  [mul_nj_block]: one pass over the groups of 8 columns for rows lo..hi-1. *)
Definition combine8 (C : mzed) (j : nat) (Ts : list njt) (A : mzed) (i : nat) : res mzed :=
  for_ 0 8 (fun k C =>
    T <- lget Ts k ;; x <- mzed_read_elem A j (8 * i + k) ;; l <- nj_lookup T x ;;
    combine_row C j 0 (nj_T T) l) C.
Definition mul_nj_block (Ts : list njt) (C A B : mzed) (lo hi : nat) : res (mzed * list njt) :=
  for_ 0 (mz_ncols A / 8) (fun i '(C, Ts) =>
    Ts <- for_ 0 8 (fun k Ts =>
            T <- lget Ts k ;; T <- mzed_make_table T B (8 * i + k) 0 ;; lset Ts k T) Ts ;;
    C <- for_ lo hi (fun j C => combine8 C j Ts A i) C ;;
    Ok (C, Ts)) (C, Ts).
Fixpoint giant_steps (fuel : nat) (Ts : list njt) (C A B : mzed) (g bs : nat) : res (mzed * list njt * nat) :=
  match fuel with
  | O => if g + bs <=? mz_nrows A then UB else Ok (C, Ts, g)
  | S fuel' =>
      if g + bs <=? mz_nrows A then
        '(C, Ts) <- mul_nj_block Ts C A B g (g + bs) ;;
        giant_steps fuel' Ts C A B (g + bs) bs
      else Ok (C, Ts, g)
  end.
(** number of giant steps (0 unless nrows >= w*mulbs: blocksize is 2^30 otherwise; rci_t nrows < 2^30
    is assumed there, so that the giant step loop does not run) *)
Definition mzed_mul_newton_john_ (mulbs : nat) (C A B : mzed) : res mzed :=
  if mz_nrows A <? ff_degree (mz_ff A) then mzed_mul_naive_ C A B
  else
    Ts <- njt_inits 8 (mz_ff B) (mz_ncols B) ;;
    '(C, Ts, g) <- (if mz_w A * mulbs <=? mz_nrows A
                    then giant_steps (mz_nrows A) Ts C A B 0 (mulbs / mz_w A) else Ok (C, Ts, 0)) ;;
    '(C, Ts) <- mul_nj_block Ts C A B g (mz_nrows A) ;;
    T <- lget Ts 0 ;;
    '(C, _) <- for_ (8 * (mz_ncols A / 8)) (mz_ncols A) (fun i '(C, T) => mul_nj_col C T A B i) (C, T) ;;
    Ok C.
(** newton_john.c:498-506 *)
Definition mzed_mul_newton_john (mulbs : nat) (C : option mzed) (A B : mzed) : res mzed :=
  C <- mzed_mul_init C A B true ;; mzed_mul_newton_john_ mulbs C A B.
Definition mzed_addmul_newton_john (mulbs : nat) (C : option mzed) (A B : mzed) : res mzed :=
  C <- mzed_mul_init C A B false ;; mzed_mul_newton_john_ mulbs C A B.

(** newton_john.c:508-530 [mzed_invert_newton_john] *)
Definition mzed_invert_newton_john (k0 : nat) (B : option mzed) (A : mzed) : res mzed :=
  _ <- guard (mz_nrows A =? mz_ncols A) ;;             (* assert *)
  I <- mzed_init (mz_ff A) (mz_nrows A) (mz_ncols A) ;;
  I <- mzed_set_ui I 1 ;;
  T <- mzed_concat None A I ;;
  '(T, _) <- mzed_echelonize_newton_john k0 T true ;;
  J <- mzed_window T 0 0 (mz_nrows A) (mz_ncols A) ;;
  match mzed_cmp I J with
  | Eq => mzed_submatrix B T 0 (mz_ncols A) (mz_nrows A) (mz_ncols T)
  | _ => Die
  end.
