(** mzed_mul with the same object passed twice, all sizes.  As in AliasModel.v matrices are pointers into a
    store and operands are read through the store at the moment the C code reads them; here an operand is a
    window (mzed.h:187-195 mzed_init_window) of an object of the store, so that the windows into which
    strassen.c cuts A, B and C overlap exactly when the C windows do.  A read through a view copies the words of
    the window out of the current object, a write replaces them in it.  New matrices are appended to the store
    and dropped at the end. *)
From Coq Require Import NArith ZArith List Bool Arith.
From Verif Require Import Base Gf2xModel Gf2eModel MzdModel MzedModel NjModel StrassenModel SliceModel KaraModel ConvModel MulModel AliasModel.
Import ListNotations.
Local Open Scope nat_scope.

(** a window: object, first row and column, last row and column (exclusive) *)
Record view : Type := View { v_at : nat; v_lr : nat; v_lc : nat; v_hr : nat; v_hc : nat }.
(** mzed.h:187-195 [mzed_init_window] applied to a window *)
Definition vsub (v : view) (lr lc hr hc : nat) : view := View (v_at v) (v_lr v + lr) (v_lc v + lc) (v_lr v + hr) (v_lc v + hc).
Definition vget (h : store) (v : view) : res mzed :=
  X <- lget h (v_at v) ;; mzed_window X (v_lr v) (v_lc v) (v_hr v) (v_hc v).
Definition vset (h : store) (v : view) (op : mzed -> res mzed) : res store :=
  X <- lget h (v_at v) ;; X' <- on_win X (v_lr v) (v_lc v) (v_hr v) (v_hc v) op ;; lset h (v_at v) X'.
Definition whole (p : nat) (A : mzed) : view := View p 0 0 (mz_nrows A) (mz_ncols A).

(** mzed.c:68-71 [_mzed_add] *)
Definition vadd (h : store) (vC vA vB : view) : res store :=
  A <- vget h vA ;; B <- vget h vB ;; vset h vC (fun C => mzed_add_ C A B).

(** mzed.c:128-138 [_mzed_mul_naive] *)
Definition vmul_naive (h : store) (vC vA vB : view) : res store :=
  C <- vget h vC ;; A <- vget h vA ;;
  for_ 0 (mz_nrows C) (fun i h =>
    for_ 0 (mz_ncols C) (fun j h =>
      for_ 0 (mz_ncols A) (fun k h =>
        A <- vget h vA ;; a <- mzed_read_elem A i k ;;
        B <- vget h vB ;; b <- mzed_read_elem B k j ;;
        vset h vC (fun C => v <- gf2e_mul (mz_ff C) a b ;; mzed_add_elem C i j v)) h) h) h.

(** newton_john.c:412-495 [_mzed_mul_newton_john].  The eight tables are made from eight rows of B before a
    row of C is written, the eight elements of a row of A are read before mzed_combine8. *)
Definition vnj_block (Ts : list njt) (h : store) (vC vA vB : view) (ncols lo hi : nat) : res (store * list njt) :=
  for_ 0 (ncols / 8) (fun i '(h, Ts) =>
    B <- vget h vB ;;
    Ts <- for_ 0 8 (fun k Ts =>
            T <- lget Ts k ;; T <- mzed_make_table T B (8 * i + k) 0 ;; lset Ts k T) Ts ;;
    h <- for_ lo hi (fun j h => A <- vget h vA ;; vset h vC (fun C => combine8 C j Ts A i)) h ;;
    Ok (h, Ts)) (h, Ts).
Fixpoint vgiant_steps (fuel : nat) (Ts : list njt) (h : store) (vC vA vB : view) (nrows ncols g bs : nat) : res (store * list njt * nat) :=
  match fuel with
  | O => if g + bs <=? nrows then UB else Ok (h, Ts, g)
  | S fuel' =>
      if g + bs <=? nrows then
        '(h, Ts) <- vnj_block Ts h vC vA vB ncols g (g + bs) ;;
        vgiant_steps fuel' Ts h vC vA vB nrows ncols (g + bs) bs
      else Ok (h, Ts, g)
  end.
Definition vnj_col (h : store) (T : njt) (vC vA vB : view) (nrows i : nat) : res (store * njt) :=
  B <- vget h vB ;; T <- mzed_make_table T B i 0 ;;
  h <- for_ 0 nrows (fun j h =>
         A <- vget h vA ;; x <- mzed_read_elem A j i ;;
         vset h vC (fun C => l <- nj_lookup T x ;; combine_row C j 0 (nj_T T) l)) h ;;
  Ok (h, T).
Definition vmul_nj (mulbs : nat) (h : store) (vC vA vB : view) : res store :=
  A <- vget h vA ;;
  if mz_nrows A <? ff_degree (mz_ff A) then vmul_naive h vC vA vB
  else
    B <- vget h vB ;;
    Ts <- njt_inits 8 (mz_ff B) (mz_ncols B) ;;
    '(h, Ts, g) <- (if mz_w A * mulbs <=? mz_nrows A
                    then vgiant_steps (mz_nrows A) Ts h vC vA vB (mz_nrows A) (mz_ncols A) 0 (mulbs / mz_w A) else Ok (h, Ts, 0)) ;;
    '(h, Ts) <- vnj_block Ts h vC vA vB (mz_ncols A) g (mz_nrows A) ;;
    T <- lget Ts 0 ;;
    '(h, _) <- for_ (8 * (mz_ncols A / 8)) (mz_ncols A) (fun i '(h, T) => vnj_col h T vC vA vB (mz_nrows A) i) (h, T) ;;
    Ok h.

(** strassen.c:146-182: the parts left over by the halving *)
Definition vzero (h : store) (v : view) : res store := vset h v (fun W => mzed_set_ui W 0).
Definition vstrassen_rest (mulbs : nat) (h : store) (vC vA vB : view) (m k n mm kk nn : nat) : res store :=
  h <- (if 2 * nn <? n then
          h <- vzero h (vsub vC 0 (2 * nn) m n) ;;
          vmul_nj mulbs h (vsub vC 0 (2 * nn) m n) vA (vsub vB 0 (2 * nn) k n)
        else Ok h) ;;
  h <- (if 2 * mm <? m then
          h <- vzero h (vsub vC (2 * mm) 0 m (2 * nn)) ;;
          vmul_nj mulbs h (vsub vC (2 * mm) 0 m (2 * nn)) (vsub vA (2 * mm) 0 m k) (vsub vB 0 0 k (2 * nn))
        else Ok h) ;;
  if 2 * kk <? k then
    vmul_nj mulbs h (vsub vC 0 0 (2 * mm) (2 * nn)) (vsub vA 0 (2 * kk) (2 * mm) k) (vsub vB (2 * kk) 0 k (2 * nn))
  else Ok h.

(** strassen.c:43-185 [_mzed_mul_strassen] *)
Fixpoint vmul_strassen (mulbs fuel : nat) (h : store) (vC vA vB : view) (cutoff : Z) : res store :=
  match fuel with
  | O => UB
  | S fuel' =>
    C <- vget h vC ;; A <- vget h vA ;; B <- vget h vB ;;
    if (mz_nrows C =? 0) && (mz_ncols C =? 0) then Ok h else
    if strassen_small A B cutoff then
      D <- mzed_init (mz_ff C) (mz_nrows C) (mz_ncols C) ;;
      D <- mzed_mul_newton_john_ mulbs D A B ;;
      vset h vC (fun C => mzed_copy (Some C) D)
    else
      let m := mz_nrows A in let k := mz_ncols A in let n := mz_ncols B in
      let mm := half (mz_w A) m in let kk := half (mz_w A) k in let nn := half (mz_w A) n in
      let rec_ h vC vA vB := vmul_strassen mulbs fuel' h vC vA vB cutoff in
      let A11 := quad mm kk false false (vsub vA) in let A12 := quad mm kk false true (vsub vA) in
      let A21 := quad mm kk true false (vsub vA) in let A22 := quad mm kk true true (vsub vA) in
      let B11 := quad kk nn false false (vsub vB) in let B12 := quad kk nn false true (vsub vB) in
      let B21 := quad kk nn true false (vsub vB) in let B22 := quad kk nn true true (vsub vB) in
      let C11 := quad mm nn false false (vsub vC) in let C12 := quad mm nn false true (vsub vC) in
      let C21 := quad mm nn true false (vsub vC) in let C22 := quad mm nn true true (vsub vC) in
      M <- mzed_init (mz_ff A) mm kk ;;
      K <- mzed_init (mz_ff A) kk nn ;;
      let p := length h in
      let Wmk := View p 0 0 mm kk in let Wkn := View (S p) 0 0 kk nn in
      h <- vadd (h ++ [M; K]) Wkn B22 B12 ;;
      h <- vadd h Wmk A22 A12 ;;
      h <- rec_ h C21 Wmk Wkn ;;
      h <- vadd h Wmk A22 A21 ;;
      h <- vadd h Wkn B22 B21 ;;
      h <- rec_ h C22 Wmk Wkn ;;
      h <- vadd h Wkn Wkn B12 ;;
      h <- vadd h Wmk Wmk A12 ;;
      h <- rec_ h C11 Wmk Wkn ;;
      h <- vadd h Wmk Wmk A11 ;;
      h <- rec_ h C12 Wmk B12 ;;
      h <- vadd h C12 C12 C22 ;;
      a <- vget h A12 ;; b <- vget h B21 ;;
      P <- mzed_mul_init None a b true ;;                   (* strassen.c:121: a new Wmk *)
      let Wmk := View (S (S p)) 0 0 mm nn in
      h <- rec_ (h ++ [P]) Wmk A12 B21 ;;
      h <- vadd h C11 C11 Wmk ;;
      h <- vadd h C12 C11 C12 ;;
      h <- vadd h C11 C21 C11 ;;
      h <- vadd h Wkn Wkn B11 ;;
      h <- rec_ h C21 A21 Wkn ;;
      h <- vadd h C21 C11 C21 ;;
      h <- vadd h C22 C22 C11 ;;
      h <- rec_ h C11 A11 B11 ;;
      h <- vadd h C11 C11 Wmk ;;
      h <- vstrassen_rest mulbs h vC vA vB m k n mm kk nn ;;
      Ok (firstn p h)                                       (* strassen.c:121, 128, 143: mzed_free *)
  end.

(** mzed.c:102-108 [_mzed_mul]: the Karatsuba path works on sliced copies of A and B (conversion.h:148-165)
    and adds into C at the end *)
Definition vmul_ (mulbs : nat) (l2 : Z) (h : store) (pc pa pb : nat) : res store :=
  C <- lget h pc ;; A <- lget h pa ;; B <- lget h pb ;;
  if mul_big A B then C' <- mzed_addmul_karatsuba_ (Some C) A B ;; lset h pc C'
  else vmul_strassen mulbs (strassen_fuel A B) h (whole pc C) (whole pa A) (whole pb B) (mzed_strassen_cutoff l2 A).
(** mzed.c:90-94 [mzed_mul], C not NULL *)
Definition mzed_mul_at (mulbs : nat) (l2 : Z) (h : store) (pc pa pb : nat) : res store :=
  h <- mzed_mul_init_at h pc pa pb true ;; vmul_ mulbs l2 h pc pa pb.
(** strassen.c:33-36 [mzed_mul_strassen], newton_john.c:498-501 [mzed_mul_newton_john], C not NULL *)
Definition mzed_mul_strassen_at (mulbs : nat) (h : store) (pc pa pb : nat) (cutoff : Z) : res store :=
  h <- mzed_mul_init_at h pc pa pb true ;;
  C <- lget h pc ;; A <- lget h pa ;; B <- lget h pb ;;
  vmul_strassen mulbs (strassen_fuel A B) h (whole pc C) (whole pa A) (whole pb B) cutoff.
Definition mzed_mul_newton_john_at (mulbs : nat) (h : store) (pc pa pb : nat) : res store :=
  h <- mzed_mul_init_at h pc pa pb true ;;
  C <- lget h pc ;; A <- lget h pa ;; B <- lget h pb ;;
  vmul_nj mulbs h (whole pc C) (whole pa A) (whole pb B).
