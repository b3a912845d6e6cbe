(** Model of the Karatsuba-style products on bit slices: the runner of the straight-line programs of
    src/karatsuba.c (transcribed in KaratsubaTable.v) and the slice multiplications of src/mzd_slice.h. *)
From Coq Require Import NArith List Bool Arith.
From Verif Require Import Base Gf2xModel Gf2eModel MzdModel SliceModel KaratsubaTable.
Import ListNotations.
Local Open Scope nat_scope.

(** an operand: a single matrix is passed as it is, otherwise mzd_add(T, .., ..) or mzd_sum(T, n, ..)
    builds the sum in the temporary T (m4ri_functions.h:81-94) *)
Fixpoint lgets (A : list mzd) (idx : list nat) : res (list mzd) :=
  match idx with [] => Ok [] | i :: r => a <- lget A i ;; l <- lgets A r ;; Ok (a :: l) end.
Definition operand (T : mzd) (A : list mzd) (idx : list nat) : res (mzd * mzd) :=
  l <- lgets A idx ;;
  match l with
  | [a] => Ok (T, a)
  | _ => T <- mzd_sum T l ;; Ok (T, T)
  end.
(** the state: temporaries t0, t1, t2 and the target array X *)
Definition kst : Type := (mzd * mzd * mzd * list mzd).
(** karatsuba.c, every line: _mzd_ptr_add_to_all(ff, mzd_mul(t0, opA, opB, 0), X, n, ts) *)
Definition kstep (ff : option gf2e) (A B : list mzd) (s : list nat * list nat * list nat) (st : kst) : res kst :=
  let '(ai, bi, ts) := s in let '(t0, t1, t2, X) := st in
  '(t1, a) <- operand t1 A ai ;;
  '(t2, b) <- operand t2 B bi ;;
  t0 <- mzd_mul t0 a b ;;
  X <- ptr_add_to_all ff t0 X ts ;;
  Ok (t0, t1, t2, X).
Fixpoint ksteps (ff : option gf2e) (A B : list mzd) (prog : list (list nat * list nat * list nat)) (st : kst) : res kst :=
  match prog with [] => Ok st | s :: r => st <- kstep ff A B s st ;; ksteps ff A B r st end.
(** karatsuba.c:25-1886 [_mzd_ptr_addmul_karatsuba3] .. [16]: t0 is a0->nrows x b0->ncols, t1 like a0, t2 like b0
    (karatsuba5-7 take the column counts from a1, b1: the slices of one matrix have one shape) *)
Definition kara_run (ff : option gf2e) (prog : list (list nat * list nat * list nat)) (X A B : list mzd) : res (list mzd) :=
  a0 <- lget A 0 ;; b0 <- lget B 0 ;;
  '(_, _, _, X) <- ksteps ff A B prog
    (mzd_init (mzd_nrows a0) (mzd_ncols b0), mzd_init (mzd_nrows a0) (mzd_ncols a0), mzd_init (mzd_nrows b0) (mzd_ncols b0), X) ;;
  Ok X.
(** karatsuba.c:4-23 [_mzd_ptr_addmul_karatsuba2]: the middle product is added directly to X[1] *)
Definition ptr_addmul_karatsuba2 (ff : option gf2e) (X A B : list mzd) : res (list mzd) :=
  a0 <- lget A 0 ;; a1 <- lget A 1 ;; b0 <- lget B 0 ;; b1 <- lget B 1 ;;
  t0 <- mzd_add (mzd_init (mzd_nrows a0) (mzd_ncols a0)) a0 a1 ;;
  t1 <- mzd_add (mzd_init (mzd_nrows b0) (mzd_ncols b0)) b0 b1 ;;
  x1 <- lget X 1 ;; x1 <- mzd_addmul x1 t0 t1 ;; X <- lset X 1 x1 ;;
  '(_, _, _, X) <- ksteps ff A B kara2
    (mzd_init (mzd_nrows a0) (mzd_ncols b0), t0, t1, X) ;;
  Ok X.
(** the switch on the degree, mzd_slice.h:628-643 (and mzd_poly.h); None: the default case *)
Definition ptr_addmul_karatsuba (ff : option gf2e) (d : nat) (X A B : list mzd) : option (res (list mzd)) :=
  match d with
  | 2 => Some (ptr_addmul_karatsuba2 ff X A B)
  | 3 => Some (kara_run ff kara3 X A B)
  | 4 => Some (kara_run ff kara4 X A B)
  | 5 => Some (kara_run ff kara5 X A B)
  | 6 => Some (kara_run ff kara6 X A B)
  | 7 => Some (kara_run ff kara7 X A B)
  | 8 => Some (kara_run ff kara8 X A B)
  | 9 => Some (kara_run ff kara9 X A B)
  | 10 => Some (kara_run ff kara10 X A B)
  | 11 => Some (kara_run ff kara11 X A B)
  | 12 => Some (kara_run ff kara12 X A B)
  | 13 => Some (kara_run ff kara13 X A B)
  | 14 => Some (kara_run ff kara14 X A B)
  | 15 => Some (kara_run ff kara15 X A B)
  | 16 => Some (kara_run ff kara16 X A B)
  | _ => None
  end.

(** mzd_slice.h:624-647 [_mzd_slice_addmul_karatsuba] (C is a different object from A and B) *)
Definition mzd_slice_addmul_karatsuba_ (C : option slice) (A B : slice) : res slice :=
  let C := sl_or_init C (sl_ff A) (sl_nrows A) (sl_ncols B) in
  match ptr_addmul_karatsuba (Some (sl_ff A)) (ff_degree (sl_ff A)) (sl_x C) (sl_x A) (sl_x B) with
  | Some r => x <- r ;; Ok (sl_set_x C x)
  | None => mzd_slice_addmul_naive_ (Some C) A B
  end.
(** mzd_slice.h:661-670 [mzd_slice_mul_karatsuba] *)
Definition mzd_slice_mul_karatsuba (C : option slice) (A B : slice) : res slice :=
  _ <- check ((sl_ncols A =? sl_nrows B) && sl_same_ff A B) ;;
  match C with
  | None => mzd_slice_addmul_karatsuba_ None A B
  | Some C =>
      _ <- check (sl_same_ff C A && (sl_nrows C =? sl_nrows A) && (sl_ncols C =? sl_ncols B)) ;;
      C <- mzd_slice_set_ui C 0 ;;
      mzd_slice_addmul_karatsuba_ (Some C) A B
  end.
(** mzd_slice.h:684-691 [mzd_slice_addmul_karatsuba] *)
Definition mzd_slice_addmul_karatsuba (C : option slice) (A B : slice) : res slice :=
  match C with
  | None => UB
  | Some C =>
      _ <- check ((sl_ncols A =? sl_nrows B) && sl_same_ff A B) ;;
      _ <- check (sl_same_ff C A && (sl_nrows C =? sl_nrows A) && (sl_ncols C =? sl_ncols B)) ;;
      mzd_slice_addmul_karatsuba_ (Some C) A B
  end.
(** mzd_slice.h:818-820, 834-836 [mzd_slice_mul], [mzd_slice_addmul] *)
Definition mzd_slice_mul := mzd_slice_mul_karatsuba.
Definition mzd_slice_addmul := mzd_slice_addmul_karatsuba.
