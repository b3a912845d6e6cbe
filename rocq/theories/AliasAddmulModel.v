(** mzed_addmul with factors that share storage, all sizes: as AliasStrassenModel.v, for the routine which adds the
    product to its target.  Matrices are pointers into a store, operands are windows read through the store at the
    moment the C code reads them. *)
From Coq Require Import NArith ZArith List Bool Arith.
From Verif Require Import Base Gf2xModel Gf2eModel MzdModel MzedModel NjModel StrassenModel SliceModel KaraModel ConvModel MulModel AliasModel AliasStrassenModel.
Import ListNotations.
Local Open Scope nat_scope.

(** strassen.c:289-323: the parts left over by the halving; nothing is cleared here *)
Definition vaddmul_rest (mulbs : nat) (h : store) (vC vA vB : view) (m k n mm kk nn : nat) : res store :=
  h <- (if 2 * nn <? n then
          vmul_nj mulbs h (vsub vC 0 (2 * nn) m n) vA (vsub vB 0 (2 * nn) k n)
        else Ok h) ;;
  h <- (if 2 * mm <? m then
          vmul_nj mulbs h (vsub vC (2 * mm) 0 m (2 * nn)) (vsub vA (2 * mm) 0 m k) (vsub vB 0 0 k (2 * nn))
        else Ok h) ;;
  if 2 * kk <? k then
    vmul_nj mulbs h (vsub vC 0 0 (2 * mm) (2 * nn)) (vsub vA 0 (2 * kk) (2 * mm) k) (vsub vB (2 * kk) 0 k (2 * nn))
  else Ok h.

(** strassen.c:187-326 [_mzed_addmul_strassen] *)
Fixpoint vaddmul_strassen (mulbs fuel : nat) (h : store) (vC vA vB : view) (cutoff : Z) : res store :=
  match fuel with
  | O => UB
  | S fuel' =>
    C <- vget h vC ;; A <- vget h vA ;; B <- vget h vB ;;
    if (mz_nrows C =? 0) && (mz_ncols C =? 0) then Ok h else
    if strassen_small A B cutoff then
      D <- mzed_copy None C ;;
      D <- mzed_mul_newton_john_ mulbs D A B ;;
      vset h vC (fun C => mzed_copy (Some C) D)
    else
      let m := mz_nrows A in let k := mz_ncols A in let n := mz_ncols B in
      let mm := half (mz_w A) m in let kk := half (mz_w A) k in let nn := half (mz_w A) n in
      let mul_ h vC vA vB := vmul_strassen mulbs fuel' h vC vA vB cutoff in
      let addmul_ h vC vA vB := vaddmul_strassen mulbs fuel' h vC vA vB cutoff in
      let A11 := quad mm kk false false (vsub vA) in let A12 := quad mm kk false true (vsub vA) in
      let A21 := quad mm kk true false (vsub vA) in let A22 := quad mm kk true true (vsub vA) in
      let B11 := quad kk nn false false (vsub vB) in let B12 := quad kk nn false true (vsub vB) in
      let B21 := quad kk nn true false (vsub vB) in let B22 := quad kk nn true true (vsub vB) in
      let C11 := quad mm nn false false (vsub vC) in let C12 := quad mm nn false true (vsub vC) in
      let C21 := quad mm nn true false (vsub vC) in let C22 := quad mm nn true true (vsub vC) in
      S0 <- mzed_init (mz_ff A) mm kk ;;
      T0 <- mzed_init (mz_ff A) kk nn ;;
      U0 <- mzed_init (mz_ff A) mm nn ;;
      let p := length h in
      let vS := View p 0 0 mm kk in let vT := View (S p) 0 0 kk nn in let vU := View (S (S p)) 0 0 mm nn in
      h <- vadd (h ++ [S0; T0; U0]) vS A22 A21 ;;
      h <- vadd h vT B22 B21 ;;
      h <- mul_ h vU vS vT ;;
      h <- vadd h C22 vU C22 ;;
      h <- vadd h C12 vU C12 ;;
      h <- mul_ h vU A12 B21 ;;
      h <- vadd h C11 vU C11 ;;
      h <- addmul_ h C11 A11 B11 ;;
      h <- vadd h vS vS A12 ;;
      h <- vadd h vT vT B12 ;;
      h <- addmul_ h vU vS vT ;;
      h <- vadd h C12 C12 vU ;;
      h <- vadd h vS A11 vS ;;
      h <- addmul_ h C12 vS B12 ;;
      h <- vadd h vT B11 vT ;;
      h <- addmul_ h C21 A21 vT ;;
      h <- vadd h vS A22 A12 ;;
      h <- vadd h vT B22 B12 ;;
      h <- addmul_ h vU vS vT ;;
      h <- vadd h C21 C21 vU ;;
      h <- vadd h C22 C22 vU ;;
      h <- vaddmul_rest mulbs h vC vA vB m k n mm kk nn ;;
      Ok (firstn p h)                                       (* strassen.c:283-285: mzed_free *)
  end.

(** mzed.c:110-116 [_mzed_addmul] *)
Definition vaddmul_ (mulbs : nat) (l2 : Z) (h : store) (pc pa pb : nat) : res store :=
  C <- lget h pc ;; A <- lget h pa ;; B <- lget h pb ;;
  if mul_big A B then C' <- mzed_addmul_karatsuba_ (Some C) A B ;; lset h pc C'
  else vaddmul_strassen mulbs (strassen_fuel A B) h (whole pc C) (whole pa A) (whole pb B) (mzed_strassen_cutoff l2 A).
(** mzed.c:96-100 [mzed_addmul], C not NULL *)
Definition mzed_addmul_at (mulbs : nat) (l2 : Z) (h : store) (pc pa pb : nat) : res store :=
  h <- mzed_mul_init_at h pc pa pb false ;; vaddmul_ mulbs l2 h pc pa pb.
(** strassen.c:38-41 [mzed_addmul_strassen], newton_john.c:503-506 [mzed_addmul_newton_john], C not NULL *)
Definition mzed_addmul_strassen_at (mulbs : nat) (h : store) (pc pa pb : nat) (cutoff : Z) : res store :=
  h <- mzed_mul_init_at h pc pa pb false ;;
  C <- lget h pc ;; A <- lget h pa ;; B <- lget h pb ;;
  vaddmul_strassen mulbs (strassen_fuel A B) h (whole pc C) (whole pa A) (whole pb B) cutoff.
Definition mzed_addmul_newton_john_at (mulbs : nat) (h : store) (pc pa pb : nat) : res store :=
  h <- mzed_mul_init_at h pc pa pb false ;;
  C <- lget h pc ;; A <- lget h pa ;; B <- lget h pb ;;
  vmul_nj mulbs h (whole pc C) (whole pa A) (whole pb B).
