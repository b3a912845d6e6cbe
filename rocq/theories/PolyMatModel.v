(** Model of src/mzd_poly.h: matrices over GF(2)[x], one GF(2) matrix per coefficient. *)
From Coq Require Import NArith ZArith List Bool Arith.
From Verif Require Import Base Gf2xModel Gf2eModel MzdModel SliceModel KaraModel.
Import ListNotations.
Local Open Scope nat_scope.

(** mzd_poly.h:41-46 [mzd_poly_t].  [mp_x] holds the [mp_depth] live coefficients; [mp_cap] is the number of
    entries the array x was allocated with. *)
Record mpoly := Mpoly { mp_nrows : nat; mp_ncols : nat; mp_depth : nat; mp_cap : nat; mp_x : list mzd }.
Definition mp_set_x (A : mpoly) (x : list mzd) : mpoly := Mpoly (mp_nrows A) (mp_ncols A) (mp_depth A) (mp_cap A) x.

(** mzd_poly.h:90-101 [mzd_poly_init] *)
Definition mzd_poly_init (d m n : nat) : mpoly := Mpoly m n (d + 1) (d + 1) (repeat (mzd_init m n) (d + 1)).
(** mzd_poly.h:60-63 [_mzd_poly_add]: _mzd_ptr_add on the array C->x + offset *)
Definition mzd_poly_add_ (C A B : mpoly) (offset : nat) : res mpoly :=
  x <- ptr_add (skipn offset (mp_x C)) (mp_x A) (mp_x B) (mp_depth A) ;;
  Ok (mp_set_x C (firstn offset (mp_x C) ++ x)).
(** mzd_poly.h:75-78 [mzd_poly_add] *)
Definition mzd_poly_add (C A B : mpoly) : res mpoly :=
  _ <- guard ((mp_depth A <=? mp_depth C) && (mp_depth A =? mp_depth B)) ;; mzd_poly_add_ C A B 0.
(** mzd_poly.h:127-140 [_mzd_poly_adapt_depth]: the array x is not reallocated, so a write beyond [mp_cap] is
    undefined behaviour *)
Definition mzd_poly_adapt_depth (A : mpoly) (new_depth : nat) : res mpoly :=
  x <- (if new_depth <? mp_depth A then Ok (firstn new_depth (mp_x A))
        else for_ (mp_depth A) new_depth (fun i x => _ <- guard (i <? mp_cap A) ;; Ok (x ++ [mzd_init (mp_nrows A) (mp_ncols A)])) (mp_x A)) ;;
  Ok (Mpoly (mp_nrows A) (mp_ncols A) new_depth (mp_cap A) x).
Definition mp_or_init (C : option mpoly) (A B : mpoly) : mpoly :=
  match C with Some C => C | None => mzd_poly_init (mp_depth A + mp_depth B - 1) (mp_nrows A) (mp_ncols B) end.
(** mzd_poly.h:152-162 [_mzd_poly_addmul_naive] *)
Definition mzd_poly_addmul_naive (C : option mpoly) (A B : mpoly) : res mpoly :=
  let C := mp_or_init C A B in
  x <- for_ 0 (mp_depth A) (fun i x =>
         for_ 0 (mp_depth B) (fun j x =>
           c <- lget x (i + j) ;; a <- lget (mp_x A) i ;; b <- lget (mp_x B) j ;; c <- mzd_addmul c a b ;; lset x (i + j) c) x) (mp_x C) ;;
  Ok (mp_set_x C x).
(** mzd_poly.h:175-203 [_mzd_poly_addmul_karatsubs_balanced] (after m4ri_die nothing is executed) *)
Definition mzd_poly_addmul_karatsubs_balanced (C : option mpoly) (A B : mpoly) : res mpoly :=
  _ <- guard (mp_depth A =? mp_depth B) ;;
  let C := mp_or_init C A B in
  match mp_depth A with
  | 0 => Die
  | 1 => c <- lget (mp_x C) 0 ;; a <- lget (mp_x A) 0 ;; b <- lget (mp_x B) 0 ;; c <- mzd_addmul c a b ;; x <- lset (mp_x C) 0 c ;; Ok (mp_set_x C x)
  | d => match ptr_addmul_karatsuba None d (mp_x C) (mp_x A) (mp_x B) with
         | Some r => x <- r ;; Ok (mp_set_x C x)
         | None => Die
         end
  end.
(** mzd_poly.h:252-263 [mzd_poly_cmp] *)
Definition mzd_poly_cmp (A B : mpoly) : res Z :=
  if negb (mp_depth A =? mp_depth B) then Ok (if mp_depth A <? mp_depth B then (-1)%Z else 1%Z)
  else for_ 0 (mp_depth A) (fun i r => a <- lget (mp_x A) i ;; b <- lget (mp_x B) i ;; Ok (Z.lor r (cmp_int (mzd_cmp a b)))) 0%Z.
(** mzd_poly.h:275-278 [mzd_poly_randomize]; [rnd k] are the random bits of coefficient k *)
Definition mzd_poly_randomize (rnd : nat -> nat -> nat -> bool) (A : mpoly) : res mpoly :=
  x <- sl_each (mp_depth A) (fun i x => Ok (mzd_randomize (rnd i) x)) (mp_x A) ;; Ok (mp_set_x A x).

