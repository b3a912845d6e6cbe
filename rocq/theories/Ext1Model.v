(** Model of src/mzd_poly.c. *)
From Coq Require Import NArith List Bool Arith.
From Verif Require Import Base Gf2xModel Gf2eModel IrrTable MzdModel MzedModel NjModel SliceModel KaraModel PolyMatModel BlmModel.
Import ListNotations.
Local Open Scope nat_scope.

(** mzd_poly.c:5-10 [mzd_slice_addmul_mzd] *)
Definition mzd_slice_addmul_mzd (C : slice) (a : N) (A : mzd) : res slice :=
  sl_map C (fun i x => if N.testbit a (N.of_nat i) then mzd_add x x A else Ok x).
(** mzd_poly.c:44-53: one evaluation point alpha = i >= 2, the loop over j *)
Definition ext1_point (ff : gf2e) (A B : mpoly) (d i : nat) (Phi : mzed) (a b : slice) : res (mzed * slice * slice * N) :=
  for_ 0 d (fun j st =>
      let '(Phi, a, b, acc) := st in
      Phi <- mzed_write_elem Phi i j acc ;;
      a <- (if j <? mp_depth A then (x <- lget (mp_x A) j ;; mzd_slice_addmul_mzd a acc x) else Ok a) ;;
      b <- (if j <? mp_depth B then (x <- lget (mp_x B) j ;; mzd_slice_addmul_mzd b acc x) else Ok b) ;;
      acc <- gf2e_mul ff (N.of_nat i) acc ;;
      Ok (Phi, a, b, acc)) (Phi, a, b, 1%N).
(** mzd_poly.c:42-55 *)
Definition ext1_points (ff : gf2e) (A B : mpoly) (d : nat) (Phi : mzed) (a b : slice) (c : list slice) : res (mzed * slice * slice * list slice) :=
  for_ 2 d (fun i st =>
      let '(Phi, a, b, c) := st in
      a <- mzd_slice_set_ui a 0 ;; b <- mzd_slice_set_ui b 0 ;;
      r <- ext1_point ff A B d i Phi a b ;;
      let '(Phi, a, b, _) := r in
      ci <- mzd_slice_mul None a b ;;
      Ok (Phi, a, b, c ++ [ci])) (Phi, a, b, c).
(** mzd_poly.c:34-37: sum of the coefficients of A, into x (a->x[0]) *)
Definition ext1_sum (A : mpoly) (x : mzd) : res mzd := for_ 0 (mp_depth A) (fun i x => y <- lget (mp_x A) i ;; mzd_add x x y) x.
(** mzd_poly.c:62-67 *)
Definition ext1_interpolate (d : nat) (Rho : mzed) (c : list slice) (tmp : slice) (x : list mzd) : res (slice * list mzd) :=
  for_ 0 d (fun i st => for_ 0 d (fun j st =>
      let '(tmp, x) := st in
      e <- mzed_read_elem Rho i j ;; cj <- lget c j ;;
      tmp <- mzd_slice_mul_scalar (Some tmp) e cj ;;
      xi <- lget x i ;; t0 <- lget (sl_x tmp) 0 ;; xi <- mzd_add xi xi t0 ;; x <- lset x i xi ;;
      Ok (tmp, x)) st) (tmp, x).
(** mzd_poly.c:19-78: the part of [_mzd_poly_addmul_ext1] after the field is set up.  kk is the table size of
    mzed_invert_newton_john.  C is dereferenced in the interpolation loop. *)
Definition ext1_body (kk : nat) (ff : gf2e) (d : nat) (C : option mpoly) (A B : mpoly) : res mpoly :=
  let a := mzd_slice_init ff (mp_nrows A) (mp_ncols A) in
  let b := mzd_slice_init ff (mp_nrows B) (mp_ncols B) in
  Phi <- mzed_init ff d d ;;
  Rho <- mzed_init ff d d ;;
  Phi <- mzed_write_elem Phi 0 0 1 ;;
  let c0 := mzd_slice_init ff (mp_nrows A) (mp_ncols B) in
  A0 <- lget (mp_x A) 0 ;; B0 <- lget (mp_x B) 0 ;; y <- lget (sl_x c0) 0 ;; y <- mzd_mul y A0 B0 ;; y <- lset (sl_x c0) 0 y ;;
  let c0 := sl_set_x c0 y in
  Phi <- for_ 0 d (fun i Phi => mzed_write_elem Phi 1 i 1) Phi ;;
  a0 <- lget (sl_x a) 0 ;; a0 <- ext1_sum A a0 ;; y <- lset (sl_x a) 0 a0 ;; let a := sl_set_x a y in
  b0 <- lget (sl_x b) 0 ;; b0 <- ext1_sum B b0 ;; y <- lset (sl_x b) 0 b0 ;; let b := sl_set_x b y in
  let c1 := mzd_slice_init ff (mp_nrows A) (mp_ncols B) in
  y <- lget (sl_x c1) 0 ;; y <- mzd_mul y a0 b0 ;; y <- lset (sl_x c1) 0 y ;;
  let c1 := sl_set_x c1 y in
  r <- ext1_points ff A B d Phi a b [c0; c1] ;;
  let '(Phi, _, _, c) := r in
  Rho <- mzed_invert_newton_john kk (Some Rho) Phi ;;
  let tmp := mzd_slice_init ff (mp_nrows A) (mp_ncols B) in
  match C with
  | None => UB
  | Some C => r <- ext1_interpolate d Rho c tmp (mp_x C) ;; Ok (mp_set_x C (snd r))
  end.
(** mzd_poly.c:12-79 [_mzd_poly_addmul_ext1].  (int)ceil(log2((double)d)) is the least l with d <= 2^l for the sizes
    admitted by the assertion. *)
Definition mzd_poly_addmul_ext1 (kk : nat) (C : option mpoly) (A B : mpoly) : res mpoly :=
  let d := mp_depth A + mp_depth B - 1 in
  let log2d := Nat.log2_up d in
  _ <- guard (log2d <=? 16) ;;
  minpoly <- irr_read log2d 1 ;;
  ff <- gf2e_init minpoly ;;
  ext1_body kk ff d C A B.
