(** Model of src/trsm.c, src/trsm.inl, src/trsm.h and the Newton-John solvers of src/newton_john.c:
    triangular system solving with matrices. *)
From Coq Require Import NArith ZArith List Bool Arith.
From Verif Require Import Base Gf2xModel Gf2eModel MzdModel MzedModel NjModel StrassenModel SliceModel KaraModel ConvModel MulModel.
Local Open Scope nat_scope.

(** the asserts at the head of every solver *)
Definition trsm_assert (T B : mzed) : bool :=
  same_ff T B && (mz_nrows T =? mz_ncols T) && (mz_nrows B =? mz_ncols T).
Definition strsm_assert (T B : slice) : bool :=
  sl_same_ff T B && (sl_nrows T =? sl_ncols T) && (sl_nrows B =? sl_ncols T).

(** trsm.c:19-31 [mzed_trsm_lower_left_naive] *)
Definition mzed_trsm_lower_left_naive (L B : mzed) : res mzed :=
  _ <- guard (trsm_assert L B) ;;
  for_ 0 (mz_nrows B) (fun i B =>
    B <- for_ 0 i (fun k B => x <- mzed_read_elem L i k ;; mzed_add_multiple_of_row B i B k x 0) B ;;
    d <- mzed_read_elem L i i ;; di <- gf2e_inv (mz_ff L) d ;; mzed_rescale_row B i 0 di) B.
(** trsm.c:5-17 [mzed_trsm_upper_left_naive] *)
Definition mzed_trsm_upper_left_naive (U B : mzed) : res mzed :=
  _ <- guard (trsm_assert U B) ;;
  for_down 0 (mz_nrows B) (fun i B =>
    B <- for_ (i + 1) (mz_nrows B) (fun k B => x <- mzed_read_elem U i k ;; mzed_add_multiple_of_row B i B k x 0) B ;;
    d <- mzed_read_elem U i i ;; di <- gf2e_inv (mz_ff U) d ;; mzed_rescale_row B i 0 di) B.

(** newton_john.c:545-550 and 567-572, one iteration: row i of B is divided by the diagonal entry, its
    multiples are added to the rows lo .. hi-1.  [rd j] reads column i of the triangular matrix. *)
Definition trsm_nj_step (ff : gf2e) (rd : nat -> res N) (i lo hi : nat) (st : mzed * njt) : res (mzed * njt) :=
  let '(B, T0) := st in
  d <- rd i ;; di <- gf2e_inv ff d ;;
  B <- mzed_rescale_row B i 0 di ;;
  T0 <- mzed_make_table T0 B i 0 ;;
  B <- for_ lo hi (fun j B => x <- rd j ;; l <- nj_lookup T0 x ;; combine_row B j 0 (nj_T T0) l) B ;;
  Ok (B, T0).
(** newton_john.c:532-552 [mzed_trsm_lower_left_newton_john] *)
Definition mzed_trsm_lower_left_newton_john (L B : mzed) : res mzed :=
  _ <- guard (trsm_assert L B) ;;
  if mz_nrows L <=? 2 ^ ff_degree (mz_ff L) then mzed_trsm_lower_left_naive L B
  else
    T0 <- njt_init (mz_ff B) (mz_ncols B) ;;
    '(B, _) <- for_ 0 (mz_nrows B) (fun i st => trsm_nj_step (mz_ff L) (fun j => mzed_read_elem L j i) i (i + 1) (mz_nrows B) st) (B, T0) ;;
    Ok B.
(** newton_john.c:554-574 [mzed_trsm_upper_left_newton_john] *)
Definition mzed_trsm_upper_left_newton_john (U B : mzed) : res mzed :=
  _ <- guard (trsm_assert U B) ;;
  if mz_nrows U <=? 2 ^ ff_degree (mz_ff U) then mzed_trsm_upper_left_naive U B
  else
    T0 <- njt_init (mz_ff B) (mz_ncols B) ;;
    '(B, _) <- for_down 0 (mz_nrows B) (fun i st => trsm_nj_step (mz_ff U) (fun j => mzed_read_elem U j i) i 0 i st) (B, T0) ;;
    Ok B.

(** trsm.c:47-60 [mzd_slice_trsm_lower_left_naive], 33-45 [mzd_slice_trsm_upper_left_naive] *)
Definition mzd_slice_trsm_lower_left_naive (L B : slice) : res slice :=
  _ <- guard (strsm_assert L B) ;;
  Le <- mzed_cling None L ;; Be <- mzed_cling None B ;;
  Be <- mzed_trsm_lower_left_naive Le Be ;; mzed_slice (Some B) Be.
Definition mzd_slice_trsm_upper_left_naive (U B : slice) : res slice :=
  _ <- guard (strsm_assert U B) ;;
  Ue <- mzed_cling None U ;; Be <- mzed_cling None B ;;
  Be <- mzed_trsm_upper_left_naive Ue Be ;; mzed_slice (Some B) Be.
(** newton_john.c:576-599 [mzd_slice_trsm_lower_left_newton_john] *)
Definition mzd_slice_trsm_lower_left_newton_john (L B : slice) : res slice :=
  _ <- guard (strsm_assert L B) ;;
  if sl_nrows L <=? 2 ^ ff_degree (sl_ff L) then mzd_slice_trsm_lower_left_naive L B
  else
    Be <- mzed_cling None B ;;
    T0 <- njt_init (sl_ff B) (sl_ncols B) ;;
    '(Be, _) <- for_ 0 (sl_nrows B) (fun i st => trsm_nj_step (sl_ff L) (fun j => mzd_slice_read_elem L j i) i (i + 1) (mz_nrows Be) st) (Be, T0) ;;
    mzed_slice (Some B) Be.
(** newton_john.c:601-624 [mzd_slice_trsm_upper_left_newton_john] *)
Definition mzd_slice_trsm_upper_left_newton_john (U B : slice) : res slice :=
  _ <- guard (strsm_assert U B) ;;
  if sl_nrows U <=? 2 ^ ff_degree (sl_ff U) then mzd_slice_trsm_upper_left_naive U B
  else
    Be <- mzed_cling None B ;;
    T0 <- njt_init (mz_ff Be) (mz_ncols Be) ;;
    '(Be, _) <- for_down 0 (sl_nrows B) (fun i st => trsm_nj_step (sl_ff U) (fun j => mzd_slice_read_elem U j i) i 0 i st) (Be, T0) ;;
    mzed_slice (Some B) Be.

(** trsm.inl:32-33, 76-77: the split point *)
Definition trsm_split (n : nat) : nat := let c := n / 2 in Nat.max (c - c mod 64) 64.
(** trsm.inl:9-50 [_mzed_trsm_lower_left]; [fuel] bounds the recursion depth (proved sufficient).
    The windows of L are read-only; those of B are written back. *)
Fixpoint trsm_lower (mulbs : nat) (l2 : Z) (fuel : nat) (L B : mzed) (cutoff : nat) : res mzed :=
  match fuel with
  | O => UB
  | S fuel' =>
    _ <- guard (trsm_assert L B) ;;
    if (mz_nrows L <=? cutoff) || (mz_ncols B <=? cutoff) then mzed_trsm_lower_left_newton_john L B
    else
      let c := trsm_split (mz_nrows L) in let n := mz_nrows B in let k := mz_ncols B in
      L00 <- mzed_window L 0 0 c c ;; L10 <- mzed_window L c 0 n c ;; L11 <- mzed_window L c c n n ;;
      B <- on_win B 0 0 c k (fun B0 => trsm_lower mulbs l2 fuel' L00 B0 cutoff) ;;
      B0 <- mzed_window B 0 0 c k ;;
      B <- on_win B c 0 n k (fun B1 => mzed_addmul mulbs l2 (Some B1) L10 B0) ;;
      on_win B c 0 n k (fun B1 => trsm_lower mulbs l2 fuel' L11 B1 cutoff)
  end.
(** trsm.inl:53-94 [_mzed_trsm_upper_left] *)
Fixpoint trsm_upper (mulbs : nat) (l2 : Z) (fuel : nat) (U B : mzed) (cutoff : nat) : res mzed :=
  match fuel with
  | O => UB
  | S fuel' =>
    _ <- guard (trsm_assert U B) ;;
    if (mz_nrows U <=? cutoff) || (mz_ncols B <=? cutoff) then mzed_trsm_upper_left_newton_john U B
    else
      let c := trsm_split (mz_nrows U) in let n := mz_nrows B in let k := mz_ncols B in
      U00 <- mzed_window U 0 0 c c ;; U01 <- mzed_window U 0 c c n ;; U11 <- mzed_window U c c n n ;;
      B <- on_win B c 0 n k (fun B1 => trsm_upper mulbs l2 fuel' U11 B1 cutoff) ;;
      B1 <- mzed_window B c 0 n k ;;
      B <- on_win B 0 0 c k (fun B0 => mzed_addmul mulbs l2 (Some B0) U01 B1) ;;
      on_win B 0 0 c k (fun B0 => trsm_upper mulbs l2 fuel' U00 B0 cutoff)
  end.
(** the same template for slices, trsm.inl with mzd_slice_intro.inl *)
Fixpoint strsm_lower (fuel : nat) (L B : slice) (cutoff : nat) : res slice :=
  match fuel with
  | O => UB
  | S fuel' =>
    _ <- guard (strsm_assert L B) ;;
    if (sl_nrows L <=? cutoff) || (sl_ncols B <=? cutoff) then mzd_slice_trsm_lower_left_newton_john L B
    else
      let c := trsm_split (sl_nrows L) in let n := sl_nrows B in let k := sl_ncols B in
      L00 <- mzd_slice_window L 0 0 c c ;; L10 <- mzd_slice_window L c 0 n c ;; L11 <- mzd_slice_window L c c n n ;;
      B <- on_swin B 0 0 c k (fun B0 => strsm_lower fuel' L00 B0 cutoff) ;;
      B0 <- mzd_slice_window B 0 0 c k ;;
      B <- on_swin B c 0 n k (fun B1 => mzd_slice_addmul (Some B1) L10 B0) ;;
      on_swin B c 0 n k (fun B1 => strsm_lower fuel' L11 B1 cutoff)
  end.
Fixpoint strsm_upper (fuel : nat) (U B : slice) (cutoff : nat) : res slice :=
  match fuel with
  | O => UB
  | S fuel' =>
    _ <- guard (strsm_assert U B) ;;
    if (sl_nrows U <=? cutoff) || (sl_ncols B <=? cutoff) then mzd_slice_trsm_upper_left_newton_john U B
    else
      let c := trsm_split (sl_nrows U) in let n := sl_nrows B in let k := sl_ncols B in
      U00 <- mzd_slice_window U 0 0 c c ;; U01 <- mzd_slice_window U 0 c c n ;; U11 <- mzd_slice_window U c c n n ;;
      B <- on_swin B c 0 n k (fun B1 => strsm_upper fuel' U11 B1 cutoff) ;;
      B1 <- mzd_slice_window B c 0 n k ;;
      B <- on_swin B 0 0 c k (fun B0 => mzd_slice_addmul (Some B0) U01 B1) ;;
      on_swin B 0 0 c k (fun B0 => strsm_upper fuel' U00 B0 cutoff)
  end.
Definition mzed_trsm_lower_left_ (mulbs : nat) (l2 : Z) (L B : mzed) (cutoff : nat) : res mzed := trsm_lower mulbs l2 (S (mz_nrows L)) L B cutoff.
Definition mzed_trsm_upper_left_ (mulbs : nat) (l2 : Z) (U B : mzed) (cutoff : nat) : res mzed := trsm_upper mulbs l2 (S (mz_nrows U)) U B cutoff.
Definition mzd_slice_trsm_lower_left_ (L B : slice) (cutoff : nat) : res slice := strsm_lower (S (sl_nrows L)) L B cutoff.
Definition mzd_slice_trsm_upper_left_ (U B : slice) (cutoff : nat) : res slice := strsm_upper (S (sl_nrows U)) U B cutoff.
(** trsm.h:33, 67-69, 103-105, 139-141, 175-177: the public entry points use MZED_TRSM_CUTOFF *)
Definition MZED_TRSM_CUTOFF : nat := 512.
Definition mzed_trsm_lower_left mulbs l2 (L B : mzed) := mzed_trsm_lower_left_ mulbs l2 L B MZED_TRSM_CUTOFF.
Definition mzed_trsm_upper_left mulbs l2 (U B : mzed) := mzed_trsm_upper_left_ mulbs l2 U B MZED_TRSM_CUTOFF.
Definition mzd_slice_trsm_lower_left (L B : slice) := mzd_slice_trsm_lower_left_ L B MZED_TRSM_CUTOFF.
Definition mzd_slice_trsm_upper_left (U B : slice) := mzd_slice_trsm_upper_left_ U B MZED_TRSM_CUTOFF.
