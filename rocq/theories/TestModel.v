(** The library's own test programs: /repo/tests/testing.h, test_elimination.c, test_multiplication.c (packed products),
    test_smallops.c (addition).

    A test function returns the number of failed checks.  random() is an argument: the matrices drawn are arbitrary functions.
    [mzed_free] and the printing are left out. *)
From Coq Require Import NArith ZArith List Bool Arith.
From Verif Require Import Base Spec Gf2xModel Gf2eModel Gf2eProofs MzdModel MzedModel MzedSpec NjModel StrassenModel SliceModel KaraModel ConvModel.
From Verif Require Import MulModel TrsmModel PermModel PleModel BlmSpec BlmModel BlmOps BlmFin HistSpec HistModel.
Import ListNotations.
Local Open Scope nat_scope.

(** testing.h:4-8 [m4rie_check(expr)] expands to [if (!expr) fail_ret += 1], without parentheses around expr.  For a call that
    is [!call(...)]; for [x == y] it is [(!x) == y].  The values are C integers. *)
Definition lneg (x : Z) : Z := if (x =? 0)%Z then 1%Z else 0%Z.
Definition chk (x : Z) : nat := if (lneg x =? 0)%Z then 0 else 1.
Definition chk_eq (x y : Z) : nat := if (lneg x =? y)%Z then 1 else 0.
(** the value of a comparison function of M4RI: negative, zero or positive *)
Definition c_cmp (c : comparison) : Z := match c with Eq => 0%Z | Lt => (-1)%Z | Gt => 1%Z end.
Definition c_bool (b : bool) : Z := if b then 1%Z else 0%Z.

(** testing.h:10 *)
Definition m4rie_canary : N := 0x63616E61727921%N.
(** testing.h:12-33 [field_mask]: the unrolled ORs are a loop here; nothing for w = 2 *)
Definition field_mask (ff : gf2e) : res N :=
  let mask_fld := (N.shiftl 1 (N.of_nat (ff_degree ff)) - 1)%N in
  w <- gf2e_degree_to_w ff ;;
  Ok (if w =? 2 then 0%N else fold_right (fun k m => N.lor (wshl mask_fld (w * k)) m) 0%N (seq 0 (64 / w))).
(** testing.h:35-43 [mzed_set_canary].  Without columns the last word has index -1: [lget] of an empty row fails *)
Definition mzed_set_canary (A : mzed) : res mzed :=
  let mask_end := left_bitmask (mzd_ncols (mz_x A) mod 64) in
  mask_field <- field_mask (mz_ff A) ;;
  let n := width (mzd_ncols (mz_x A)) - 1 in
  rows <- for_ 0 (mz_nrows A) (fun i rows =>
            r <- lget rows i ;; x <- lget r n ;;
            r' <- lset r n (N.lor (N.land x mask_end) (N.land (N.land m4rie_canary mask_field) (wnot mask_end))) ;;
            lset rows i r') (mzd_rows (mz_x A)) ;;
  Ok (mz_set_x A (Mzd (mzd_nrows (mz_x A)) (mzd_ncols (mz_x A)) rows)).
(** testing.h:54-65 [mzed_canary_is_alive] *)
Definition mzed_canary_is_alive (A : mzed) : res Z :=
  let mask_end := left_bitmask (mzd_ncols (mz_x A) mod 64) in
  mask_field <- field_mask (mz_ff A) ;;
  let n := width (mzd_ncols (mz_x A)) - 1 in
  b <- for_ 0 (mz_nrows A) (fun i b =>
         if b : bool then
           r <- lget (mzd_rows (mz_x A)) i ;; x <- lget r n ;;
           Ok (N.land x (wnot mask_end) =? N.land (N.land m4rie_canary mask_field) (wnot mask_end))%N
         else Ok false) true ;;
  Ok (c_bool b).
(** testing.h:117-122 [random_mzed_t] *)
Definition random_mzed_t (ff : gf2e) (rnd : nat -> nat -> N) (m n : nat) : res mzed :=
  A <- mzed_init ff m n ;; A <- mzed_randomize rnd A ;; mzed_set_canary A.

(** several checks [m4rie_check( mzed_canary_is_alive(X) )] *)
Fixpoint alive_all (l : list mzed) : res nat :=
  match l with [] => Ok 0 | A :: l => a <- mzed_canary_is_alive A ;; n <- alive_all l ;; Ok (chk a + n) end.
(** the checks [m4rie_check( mzed_cmp(X_i, X_(i+1)) == 0)] of neighbours *)
Fixpoint equal_all (l : list mzed) : nat :=
  match l with
  | A :: (B :: _) as t => chk_eq (c_cmp (mzed_cmp A B)) 0 + equal_all t
  | _ => 0
  end.

(** test_elimination.c:29-67 [test_equality], for any four elimination functions *)
Definition equality_test (e0 e1 e2 e3 : mzed -> bool -> res (mzed * nat)) (ff : gf2e) (rnd : nat -> nat -> N) (m n : nat) : res nat :=
  A0 <- random_mzed_t ff rnd m n ;;
  A1 <- mzed_copy None A0 ;; A2 <- mzed_copy None A0 ;; A3 <- mzed_copy None A0 ;;
  A1 <- mzed_set_canary A1 ;; A2 <- mzed_set_canary A2 ;; A3 <- mzed_set_canary A3 ;;
  '(A0, r0) <- e0 A0 true ;; '(A1, r1) <- e1 A1 true ;; '(A2, r2) <- e2 A2 true ;; '(A3, r3) <- e3 A3 true ;;
  a <- alive_all [A0; A1; A2; A3] ;;
  Ok (chk_eq (Z.of_nat r0) (Z.of_nat r1) + chk_eq (c_cmp (mzed_cmp A0 A1)) 0 +
      chk_eq (Z.of_nat r1) (Z.of_nat r2) + chk_eq (c_cmp (mzed_cmp A1 A2)) 0 +
      chk_eq (Z.of_nat r2) (Z.of_nat r3) + chk_eq (c_cmp (mzed_cmp A2 A3)) 0 +
      chk_eq (Z.of_nat r3) (Z.of_nat r0) + chk_eq (c_cmp (mzed_cmp A3 A0)) 0 + a).
(** test_elimination.c:29-67: mzed_echelonize_newton_john, mzed_echelonize_naive, mzed_echelonize, mzed_echelonize_ple *)
Definition test_equality (cf : config) : (nat -> nat -> N) -> nat -> nat -> res nat :=
  equality_test (p_echelon cf NewtonJohn) (p_echelon cf Naive) (p_echelon cf Default) (p_echelon cf ByPle) (cf_ff cf).

Fixpoint map_res {X Y} (g : X -> res Y) (l : list X) : res (list Y) :=
  match l with [] => Ok [] | x :: l => y <- g x ;; ys <- map_res g l ;; Ok (y :: ys) end.
(** the six products: newton_john, naive, strassen(64), default, karatsuba, blm *)
Definition six : list choice := [NewtonJohn; Naive; Strassen 64; Default; Karatsuba; Bilinear].
(** test_multiplication.c:81-124 [test_mul]; the matrices C0 .. C5 are random.  The checks of the canaries leave C0 out, as in the
    C code; the matrices A and B are const, so they stay what they were *)
Definition test_mul (cf : config) (rA rB : nat -> nat -> N) (rC : nat -> nat -> nat -> N) (m n l : nat) : res nat :=
  A <- random_mzed_t (cf_ff cf) rA m l ;; B <- random_mzed_t (cf_ff cf) rB l n ;;
  Cs <- map_res (fun k => random_mzed_t (cf_ff cf) (rC k) m n) (seq 0 6) ;;
  Cs <- map_res (fun '(ch, C) => p_mul cf ch (Some C) A B) (combine six Cs) ;;
  a <- alive_all (A :: B :: tl Cs) ;;
  Ok (equal_all Cs + a).
(** test_multiplication.c:29-79 [test_addmul] *)
Definition test_addmul (cf : config) (rA rB rC : nat -> nat -> N) (m n l : nat) : res nat :=
  A <- random_mzed_t (cf_ff cf) rA m l ;; B <- random_mzed_t (cf_ff cf) rB l n ;;
  C0 <- random_mzed_t (cf_ff cf) rC m n ;;
  Cs <- map_res (fun _ => mzed_copy None C0) (seq 1 5) ;;
  Cs <- map_res mzed_set_canary Cs ;;
  Cs <- map_res (fun '(ch, C) => p_addmul cf ch C A B) (combine six (C0 :: Cs)) ;;
  a <- alive_all (A :: B :: tl Cs) ;;
  Ok (equal_all Cs + a).

(** test_trsm.c:36-38 and 51-53 [while(mzed_read_elem(U, i, i) == 0) mzed_write_elem(U, i, i, random()&bitmask)]: [draw k] is the value of random()
    in round k; no value but 0 within [tries] rounds counts as a failure *)
Fixpoint retry (tries : nat) (draw : nat -> N) (k : nat) (U : mzed) (i : nat) : res mzed :=
  v <- mzed_read_elem U i i ;;
  if (v =? 0)%N then
    match tries with
    | O => UB
    | S t => U <- mzed_write_elem U i i (N.land (draw k) (N.shiftl 1 (N.of_nat (ff_degree (mz_ff U))) - 1)) ;; retry t draw (S k) U i
    end
  else Ok U.
(** test_trsm.c:33-35, 48-50: zeros on the other side of the diagonal in row i *)
Definition zero_side (lower : bool) (m : nat) (U : mzed) (i : nat) : res mzed :=
  if lower then for_ (i + 1) m (fun j U => mzed_write_elem U i j 0) U else for_ 0 i (fun j U => mzed_write_elem U i j 0) U.
(** test_trsm.c:29-42 [random_mzed_t_upper_left] and 44-57 [random_mzed_t_lower_left] *)
Definition random_triangle (lower : bool) (ff : gf2e) (tries : nat) (draw : nat -> nat -> N) (rnd : nat -> nat -> N) (m : nat) : res mzed :=
  U <- random_mzed_t ff rnd m m ;;
  U <- for_ 0 m (fun i U => U <- zero_side lower m U i ;; retry tries (draw i) 0 U i) U ;;
  mzed_set_canary U.
(** the random values of a test of the solvers *)
Record trsm_rnd := TR { tr_tries : nat; tr_U : nat -> nat -> N; tr_B : nat -> nat -> N; tr_d : nat -> nat -> N;
                        tr_U2 : nat -> nat -> N; tr_B2 : nat -> nat -> N; tr_d2 : nat -> nat -> N }.
(** test_trsm.c:89-162 [test_mzed_trsm_upper_left] and 164-237 [test_mzed_trsm_lower_left] *)
Definition test_mzed_trsm (lower : bool) (cf : config) (R : trsm_rnd) (m n : nat) : res nat :=
  let solve := if lower then p_lower cf Default else p_upper cf Default in
  U <- random_triangle lower (cf_ff cf) (tr_tries R) (tr_d R) (tr_U R) m ;;
  H <- mzed_copy None U ;;
  B <- random_mzed_t (cf_ff cf) (tr_B R) m n ;;
  X <- mzed_copy None B ;;
  H <- mzed_set_canary H ;; X <- mzed_set_canary X ;;
  X <- solve U X ;;
  a1 <- alive_all [U; X] ;;
  B <- p_addmul cf Default B U X ;;
  a2 <- alive_all [B; U; X] ;;
  let c1 := chk_eq (c_bool (mzed_is_zero B)) 1 + chk_eq (c_cmp (mzed_cmp U H)) 0 in
  U <- random_mzed_t (cf_ff cf) (tr_U2 R) m m ;;
  B <- random_mzed_t (cf_ff cf) (tr_B2 R) m n ;;
  X <- mzed_copy None B ;;
  X <- mzed_set_canary X ;;
  U <- for_ 0 m (fun i U => retry (tr_tries R) (tr_d2 R i) 0 U i) U ;;
  H <- mzed_copy None U ;; H <- mzed_set_canary H ;;
  X <- solve U X ;;
  a3 <- alive_all [U; X] ;;
  let c2 := chk_eq (c_cmp (mzed_cmp U H)) 0 in
  U <- mzed_set_canary U ;;
  U <- for_ 0 m (fun i U => zero_side lower m U i) U ;;
  B <- p_addmul cf Default B U X ;;
  a4 <- alive_all [B; U; X] ;;
  Ok (a1 + a2 + c1 + a3 + c2 + a4 + chk_eq (c_bool (mzed_is_zero B)) 1).
