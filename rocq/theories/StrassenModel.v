(** Model of src/strassen.c: Strassen-Winograd multiplication of packed matrices (Bodrato's sequence). *)
From Coq Require Import NArith ZArith List Bool Arith.
From Verif Require Import Base Gf2xModel Gf2eModel MzdModel MzedModel NjModel.
Import ListNotations.
Local Open Scope nat_scope.

(** strassen.c:31 [CLOSER(a,b,target)] *)
Definition closer (a b : nat) (target : Z) : bool :=
  (Z.abs (Z.of_nat a - target) <? Z.abs (Z.of_nat b - target))%Z.
(** m/2 rounded down to a multiple of the number of elements per word (strassen.c:65-71) *)
Definition half (w m : nat) : nat := m / 2 - (m / 2) mod (64 / w).

(** An in-place operation on a window of C.  A window shares the memory of its parent: the model
    takes the window out of the current parent, runs the operation and writes its words back. *)
Definition on_win (C : mzed) (lr lc hr hc : nat) (op : mzed -> res mzed) : res mzed :=
  W <- mzed_window C lr lc hr hc ;; W' <- op W ;; Ok (mzed_unwindow C lr lc W').
(** strassen.c:76-89: the windows X11, X12, X21, X22; [r], [s] select the lower and right half *)
Definition quad {T} (mm nn : nat) (r s : bool) (k : nat -> nat -> nat -> nat -> T) : T :=
  k (if r then mm else 0) (if s then nn else 0) (if r then 2 * mm else mm) (if s then 2 * nn else nn).
Definition rd (A : mzed) (mm nn : nat) (r s : bool) : res mzed := quad mm nn r s (mzed_window A).
Definition wr (C : mzed) (mm nn : nat) (r s : bool) (op : mzed -> res mzed) : res mzed :=
  quad mm nn r s (on_win C) op.

(** strassen.c:146-182 and 289-323: the parts left over by the halving; [clr] is true in
    _mzed_mul_strassen, which clears the last columns and rows first *)
Definition strassen_rest (mulbs : nat) (clr : bool) (C A B : mzed) (mm kk nn : nat) : res mzed :=
  let m := mz_nrows A in let k := mz_ncols A in let n := mz_ncols B in
  let zero W := if clr then mzed_set_ui W 0 else Ok W in
  C <- (if 2 * nn <? n then
          B' <- mzed_window B 0 (2 * nn) k n ;;
          on_win C 0 (2 * nn) m n (fun W => W <- zero W ;; mzed_mul_newton_john_ mulbs W A B')
        else Ok C) ;;
  C <- (if 2 * mm <? m then
          A' <- mzed_window A (2 * mm) 0 m k ;;
          B' <- mzed_window B 0 0 k (2 * nn) ;;
          on_win C (2 * mm) 0 m (2 * nn) (fun W => W <- zero W ;; mzed_mul_newton_john_ mulbs W A' B')
        else Ok C) ;;
  if 2 * kk <? k then
    A' <- mzed_window A 0 (2 * kk) (2 * mm) k ;;
    B' <- mzed_window B (2 * kk) 0 k (2 * nn) ;;
    on_win C 0 0 (2 * mm) (2 * nn) (fun W => mzed_mul_newton_john_ mulbs W A' B')
  else Ok C.

(** the test of strassen.c:52 and 196: the matrices are already small *)
Definition strassen_small (A B : mzed) (cutoff : Z) : bool :=
  closer (mz_nrows A) (mz_nrows A / 2) cutoff || closer (mz_ncols A) (mz_ncols A / 2) cutoff ||
  closer (mz_ncols B) (mz_ncols B / 2) cutoff.

(** strassen.c:43-185 [_mzed_mul_strassen]; [fuel] bounds the recursion depth (proved sufficient) *)
Fixpoint mul_strassen (mulbs fuel : nat) (C A B : mzed) (cutoff : Z) : res mzed :=
  match fuel with
  | O => UB
  | S fuel' =>
    if (mz_nrows C =? 0) && (mz_ncols C =? 0) then Ok C else
    if strassen_small A B cutoff then
      D <- mzed_init (mz_ff C) (mz_nrows C) (mz_ncols C) ;;
      D <- mzed_mul_newton_john_ mulbs D A B ;;
      mzed_copy (Some C) D
    else
      let mm := half (mz_w A) (mz_nrows A) in
      let kk := half (mz_w A) (mz_ncols A) in
      let nn := half (mz_w A) (mz_ncols B) in
      let rec_ C A B := mul_strassen mulbs fuel' C A B cutoff in
      A11 <- rd A mm kk false false ;; A12 <- rd A mm kk false true ;;
      A21 <- rd A mm kk true false ;; A22 <- rd A mm kk true true ;;
      B11 <- rd B kk nn false false ;; B12 <- rd B kk nn false true ;;
      B21 <- rd B kk nn true false ;; B22 <- rd B kk nn true true ;;
      Wmk <- mzed_init (mz_ff A) mm kk ;;
      Wkn <- mzed_init (mz_ff A) kk nn ;;
      Wkn <- mzed_add_ Wkn B22 B12 ;;
      Wmk <- mzed_add_ Wmk A22 A12 ;;
      C <- wr C mm nn true false (fun C21 => rec_ C21 Wmk Wkn) ;;
      Wmk <- mzed_add_ Wmk A22 A21 ;;
      Wkn <- mzed_add_ Wkn B22 B21 ;;
      C <- wr C mm nn true true (fun C22 => rec_ C22 Wmk Wkn) ;;
      Wkn <- mzed_add_ Wkn Wkn B12 ;;
      Wmk <- mzed_add_ Wmk Wmk A12 ;;
      C <- wr C mm nn false false (fun C11 => rec_ C11 Wmk Wkn) ;;
      Wmk <- mzed_add_ Wmk Wmk A11 ;;
      C <- wr C mm nn false true (fun C12 => rec_ C12 Wmk B12) ;;
      C22 <- rd C mm nn true true ;;
      C <- wr C mm nn false true (fun C12 => mzed_add_ C12 C12 C22) ;;
      Wmk <- mzed_mul_init None A12 B21 true ;;
      Wmk <- rec_ Wmk A12 B21 ;;
      C <- wr C mm nn false false (fun C11 => mzed_add_ C11 C11 Wmk) ;;
      C11 <- rd C mm nn false false ;;
      C <- wr C mm nn false true (fun C12 => mzed_add_ C12 C11 C12) ;;
      C21 <- rd C mm nn true false ;;
      C <- wr C mm nn false false (fun C11 => mzed_add_ C11 C21 C11) ;;
      Wkn <- mzed_add_ Wkn Wkn B11 ;;
      C <- wr C mm nn true false (fun C21 => rec_ C21 A21 Wkn) ;;
      C11 <- rd C mm nn false false ;;
      C <- wr C mm nn true false (fun C21 => mzed_add_ C21 C11 C21) ;;
      C11 <- rd C mm nn false false ;;
      C <- wr C mm nn true true (fun C22 => mzed_add_ C22 C22 C11) ;;
      C <- wr C mm nn false false (fun C11 => rec_ C11 A11 B11) ;;
      C <- wr C mm nn false false (fun C11 => mzed_add_ C11 C11 Wmk) ;;
      strassen_rest mulbs true C A B mm kk nn
  end.

(** strassen.c:187-326 [_mzed_addmul_strassen] *)
Fixpoint addmul_strassen (mulbs fuel : nat) (C A B : mzed) (cutoff : Z) : res mzed :=
  match fuel with
  | O => UB
  | S fuel' =>
    if (mz_nrows C =? 0) && (mz_ncols C =? 0) then Ok C else
    if strassen_small A B cutoff then
      D <- mzed_copy None C ;;
      D <- mzed_mul_newton_john_ mulbs D A B ;;
      mzed_copy (Some C) D
    else
      let mm := half (mz_w A) (mz_nrows A) in
      let kk := half (mz_w A) (mz_ncols A) in
      let nn := half (mz_w A) (mz_ncols B) in
      let mul_ C A B := mul_strassen mulbs fuel' C A B cutoff in
      let addmul_ C A B := addmul_strassen mulbs fuel' C A B cutoff in
      A11 <- rd A mm kk false false ;; A12 <- rd A mm kk false true ;;
      A21 <- rd A mm kk true false ;; A22 <- rd A mm kk true true ;;
      B11 <- rd B kk nn false false ;; B12 <- rd B kk nn false true ;;
      B21 <- rd B kk nn true false ;; B22 <- rd B kk nn true true ;;
      S <- mzed_init (mz_ff A) mm kk ;;
      T <- mzed_init (mz_ff A) kk nn ;;
      U <- mzed_init (mz_ff A) mm nn ;;
      S <- mzed_add_ S A22 A21 ;;
      T <- mzed_add_ T B22 B21 ;;
      U <- mul_ U S T ;;
      C <- wr C mm nn true true (fun C22 => mzed_add_ C22 U C22) ;;
      C <- wr C mm nn false true (fun C12 => mzed_add_ C12 U C12) ;;
      U <- mul_ U A12 B21 ;;
      C <- wr C mm nn false false (fun C11 => mzed_add_ C11 U C11) ;;
      C <- wr C mm nn false false (fun C11 => addmul_ C11 A11 B11) ;;
      S <- mzed_add_ S S A12 ;;
      T <- mzed_add_ T T B12 ;;
      U <- addmul_ U S T ;;
      C <- wr C mm nn false true (fun C12 => mzed_add_ C12 C12 U) ;;
      S <- mzed_add_ S A11 S ;;
      C <- wr C mm nn false true (fun C12 => addmul_ C12 S B12) ;;
      T <- mzed_add_ T B11 T ;;
      C <- wr C mm nn true false (fun C21 => addmul_ C21 A21 T) ;;
      S <- mzed_add_ S A22 A12 ;;
      T <- mzed_add_ T B22 B12 ;;
      U <- addmul_ U S T ;;
      C <- wr C mm nn true false (fun C21 => mzed_add_ C21 C21 U) ;;
      C <- wr C mm nn true true (fun C22 => mzed_add_ C22 C22 U) ;;
      strassen_rest mulbs false C A B mm kk nn
  end.

Definition strassen_fuel (A B : mzed) : nat := S (mz_nrows A + mz_ncols B).
Definition mzed_mul_strassen_ (mulbs : nat) (C A B : mzed) (cutoff : Z) : res mzed :=
  mul_strassen mulbs (strassen_fuel A B) C A B cutoff.
Definition mzed_addmul_strassen_ (mulbs : nat) (C A B : mzed) (cutoff : Z) : res mzed :=
  addmul_strassen mulbs (strassen_fuel A B) C A B cutoff.
(** strassen.c:33-36 [mzed_mul_strassen], [mzed_addmul_strassen] *)
Definition mzed_mul_strassen (mulbs : nat) (C : option mzed) (A B : mzed) (cutoff : Z) : res mzed :=
  C <- mzed_mul_init C A B true ;; mzed_mul_strassen_ mulbs C A B cutoff.
Definition mzed_addmul_strassen (mulbs : nat) (C : option mzed) (A B : mzed) (cutoff : Z) : res mzed :=
  C <- mzed_mul_init C A B false ;; mzed_addmul_strassen_ mulbs C A B cutoff.
