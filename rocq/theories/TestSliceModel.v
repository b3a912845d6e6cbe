(** The tests of bit-sliced matrices: /repo/tests/testing.h (canaries of slices), test_smallops.c, test_trsm.c, test_ple.c, and test_scalar. *)
From Coq Require Import NArith ZArith List Bool Arith.
From Verif Require Import Base Spec Gf2xModel Gf2eModel MzdModel MzedModel MzedSpec SliceModel ConvModel KaraModel MulModel TrsmModel PermModel PleModel HistSpec HistModel TestModel TestPleModel.
Import ListNotations.
Local Open Scope nat_scope.

(** the last word of every row of x (index n) is changed by g *)
Definition last_words (m n : nat) (g : N -> N) (x : mzd) : res mzd :=
  rows <- for_ 0 m (fun i rows => r <- lget rows i ;; v <- lget r n ;; r' <- lset r n (g v) ;; lset rows i r') (mzd_rows x) ;;
  Ok (Mzd (mzd_nrows x) (mzd_ncols x) rows).
(** testing.h:81-90 [mzd_slice_set_canary] *)
Definition mzd_slice_set_canary (A : slice) : res slice :=
  let mask_end := left_bitmask (sl_ncols A mod 64) in
  x0 <- lget (sl_x A) 0 ;; let n := width (mzd_ncols x0) - 1 in
  sl_map_n (ff_degree (sl_ff A)) A (fun _ => last_words (sl_nrows A) n (fun v => N.lor (N.land v mask_end) (N.land m4rie_canary (wnot mask_end)))).
(** testing.h:92-101 [mzd_slice_clear_canary] *)
Definition mzd_slice_clear_canary (A : slice) : res slice :=
  let mask_end := left_bitmask (sl_ncols A mod 64) in
  x0 <- lget (sl_x A) 0 ;; let n := width (mzd_ncols x0) - 1 in
  sl_map_n (ff_degree (sl_ff A)) A (fun _ => last_words (sl_nrows A) n (fun v => N.land v mask_end)).
(** testing.h:103-115 [mzd_slice_canary_is_alive] *)
Definition mzd_slice_canary_is_alive (A : slice) : res Z :=
  let mask_end := left_bitmask (sl_ncols A mod 64) in
  x0 <- lget (sl_x A) 0 ;; let n := width (mzd_ncols x0) - 1 in
  b <- for_ 0 (ff_degree (sl_ff A)) (fun e b => for_ 0 (sl_nrows A) (fun i b =>
         if b : bool then
           x <- lget (sl_x A) e ;; r <- lget (mzd_rows x) i ;; v <- lget r n ;;
           Ok (N.land v (wnot mask_end) =? N.land m4rie_canary (wnot mask_end))%N
         else Ok false) b) true ;;
  Ok (c_bool b).
(** testing.h:124-129 [random_mzd_slice_t] *)
Definition random_mzd_slice_t (ff : gf2e) (rnd : nat -> nat -> nat -> bool) (m n : nat) : res slice :=
  A <- mzd_slice_randomize rnd (mzd_slice_init ff m n) ;; mzd_slice_set_canary A.
Fixpoint salive_all (l : list slice) : res nat :=
  match l with [] => Ok 0 | A :: l => a <- mzd_slice_canary_is_alive A ;; n <- salive_all l ;; Ok (chk a + n) end.

(** test_smallops.c:29-36 [test_gf2e]: [(a == b) ^ 1] is 1 for a failure *)
Definition test_gf2e (ff : gf2e) : res nat :=
  for_ 1 (N.to_nat (twopow (ff_degree ff))) (fun a fails => let a := N.of_nat a in
    v <- gf2e_inv ff a ;; b <- gf2e_inv ff v ;; Ok (fails + (if (a =? b)%N then 0 else 1))) 0.
(** test_smallops.c:38-68 [test_slice] *)
Definition test_slice (ff : gf2e) (rnd : nat -> nat -> N) (srnd : nat -> nat -> nat -> bool) (m n : nat) : res nat :=
  A <- random_mzed_t ff rnd m n ;;
  a <- mzed_slice None A ;; a <- mzd_slice_set_canary a ;;
  b <- random_mzd_slice_t ff srnd m n ;;
  b <- mzed_slice (Some b) A ;;
  c1 <- salive_all [a; b] ;; c2 <- alive_all [A] ;;
  z <- mzd_slice_cmp a b ;;
  B <- mzed_cling None b ;;
  let c3 := chk_eq (c_cmp (mzed_cmp A B)) 0 in
  A <- mzed_cling (Some A) a ;;
  Ok (c1 + c2 + chk_eq z 0 + c3 + chk_eq (c_cmp (mzed_cmp A B)) 0).
(** test_smallops.c:70-98 [test_slice_known_answers] *)
Definition test_slice_known_answers (ff : gf2e) (m n : nat) : res nat :=
  A <- mzed_init ff m n ;; A <- mzed_set_canary A ;;
  let one := mzd_set_ui (mzd_init m n) 1 in
  '(_, fails) <- for_ 0 (ff_degree ff) (fun j '(A, fails) =>
    A <- mzed_set_ui A (N.shiftl 1 (N.of_nat j)) ;;
    a <- mzed_slice None A ;;
    c <- for_ 0 (sl_depth a) (fun i c => x <- lget (sl_x a) i ;; Ok (c + (if negb (i =? j) then chk (c_bool (mzd_is_zero x)) else chk_eq (c_cmp (mzd_cmp x one)) 0))) 0 ;;
    AA <- mzed_cling None a ;;
    d <- alive_all [A] ;;
    Ok (A, fails + c + chk_eq (c_cmp (mzed_cmp AA A)) 0 + d)) (A, 0) ;;
  Ok fails.
(** test_smallops.c:100-159 [test_add] *)
Definition test_add (ff : gf2e) (rA rB rC : nat -> nat -> N) (m n : nat) : res nat :=
  A <- random_mzed_t ff rA m n ;; B <- random_mzed_t ff rB m n ;; C <- random_mzed_t ff rC m n ;;
  C <- mzed_add (Some C) A B ;;
  D <- mzed_copy None C ;; D <- mzed_set_canary D ;;
  C <- mzed_add (Some C) C A ;; C <- mzed_add (Some C) C B ;;
  let c1 := chk_eq (c_bool (mzed_is_zero C)) 1 in
  C <- mzed_add (Some C) A B ;;
  let c2 := chk_eq (c_cmp (mzed_cmp D C)) 0 in
  a <- mzed_slice None A ;; b <- mzed_slice None B ;; c <- mzed_slice None C ;;
  a <- mzd_slice_set_canary a ;; b <- mzd_slice_set_canary b ;; c <- mzd_slice_set_canary c ;;
  c <- mzd_slice_add (Some c) a b ;;
  d <- mzd_slice_copy None c ;; d <- mzd_slice_set_canary d ;;
  D <- mzed_cling (Some D) d ;;
  c4 <- alive_all [A; B; C; D] ;; c5 <- salive_all [a; b; c; d] ;;
  Ok (c1 + c2 + chk_eq (c_cmp (mzed_cmp D C)) 0 + c4 + c5).
(** test_multiplication.c:126-179 [test_scalar]; the scalar drawn is a parameter *)
Definition test_scalar (ff : gf2e) (a : N) (rB r1 r2 : nat -> nat -> N) (m n : nat) : res nat :=
  B <- random_mzed_t ff rB m n ;;
  C0 <- mzed_init ff m n ;; C1 <- random_mzed_t ff r1 m n ;;
  C0 <- mzed_mul_scalar (Some C0) a B ;; C1 <- mzed_mul_scalar (Some C1) a B ;; C2 <- mzed_mul_scalar None a B ;;
  BB <- mzed_slice None B ;; CC <- mzd_slice_mul_scalar None a BB ;; C3 <- mzed_cling None CC ;;
  a_inv <- gf2e_inv ff a ;;
  B0 <- mzed_init ff m n ;; B1 <- random_mzed_t ff r2 m n ;;
  B0 <- mzed_mul_scalar (Some B0) a_inv C0 ;; B1 <- mzed_mul_scalar (Some B1) a_inv C1 ;; B2 <- mzed_mul_scalar None a_inv C2 ;;
  Ok (equal_all [C0; C1; C2; C3] + chk_eq (c_cmp (mzed_cmp B B0)) 0 + chk_eq (c_cmp (mzed_cmp B B1)) 0 + chk_eq (c_cmp (mzed_cmp B B2)) 0).

(** test_trsm.c:66-68 and 81-83 [while(mzd_slice_read_elem(U, i, i) == 0) mzd_slice_write_elem(U, i, i, random()&bitmask)]: as [retry] *)
Fixpoint sretry (tries : nat) (draw : nat -> N) (k : nat) (U : slice) (i : nat) : res slice :=
  v <- mzd_slice_read_elem U i i ;;
  if (v =? 0)%N then
    match tries with
    | O => UB
    | S t => U <- mzd_slice_write_elem U i i (N.land (draw k) (N.shiftl 1 (N.of_nat (ff_degree (sl_ff U))) - 1)) ;; sretry t draw (S k) U i
    end
  else Ok U.
(** test_trsm.c:63-65, 78-80: zeros on the other side of the diagonal in row i *)
Definition szero_side (lower : bool) (m : nat) (U : slice) (i : nat) : res slice :=
  if lower then for_ (i + 1) m (fun j U => mzd_slice_write_elem U i j 0) U else for_ 0 i (fun j U => mzd_slice_write_elem U i j 0) U.
(** test_trsm.c:59-72 [random_mzd_slice_t_upper_left] and 74-87 [random_mzd_slice_t_lower_left] *)
Definition srandom_triangle (lower : bool) (ff : gf2e) (tries : nat) (draw : nat -> nat -> N) (rnd : nat -> nat -> nat -> bool) (m : nat) : res slice :=
  U <- random_mzd_slice_t ff rnd m m ;;
  U <- for_ 0 m (fun i U => U <- szero_side lower m U i ;; sretry tries (draw i) 0 U i) U ;;
  mzd_slice_set_canary U.
(** the random values of a test of the solvers *)
Record strsm_rnd := STR { st_tries : nat; st_U : nat -> nat -> nat -> bool; st_B : nat -> nat -> nat -> bool; st_d : nat -> nat -> N;
                          st_U2 : nat -> nat -> nat -> bool; st_B2 : nat -> nat -> nat -> bool; st_d2 : nat -> nat -> N }.
(** test_trsm.c:239-316 [test_mzd_slice_trsm_upper_left] and 318-395 [test_mzd_slice_trsm_lower_left] *)
Definition test_slice_trsm (lower : bool) (ff : gf2e) (R : strsm_rnd) (m n : nat) : res nat :=
  let solve := if lower then mzd_slice_trsm_lower_left else mzd_slice_trsm_upper_left in
  U <- srandom_triangle lower ff (st_tries R) (st_d R) (st_U R) m ;;
  H <- mzd_slice_copy None U ;;
  B <- random_mzd_slice_t ff (st_B R) m n ;;
  X <- mzd_slice_copy None B ;;
  H <- mzd_slice_set_canary H ;; X <- mzd_slice_set_canary X ;;
  X <- solve U X ;;
  a1 <- salive_all [U; X] ;;
  X <- mzd_slice_clear_canary X ;;
  B <- mzd_slice_addmul (Some B) U X ;;
  a2 <- salive_all [B; U] ;;
  z <- mzd_slice_cmp U H ;;
  let c1 := chk_eq (c_bool (mzd_slice_is_zero B)) 1 + chk_eq z 0 in
  U <- random_mzd_slice_t ff (st_U2 R) m m ;;
  B <- random_mzd_slice_t ff (st_B2 R) m n ;;
  X <- mzd_slice_copy None B ;;
  X <- mzd_slice_set_canary X ;;
  U <- for_ 0 m (fun i U => sretry (st_tries R) (st_d2 R i) 0 U i) U ;;
  H <- mzd_slice_copy None U ;; H <- mzd_slice_set_canary H ;;
  X <- solve U X ;;
  a3 <- salive_all [U; X] ;;
  z <- mzd_slice_cmp U H ;;
  U <- for_ 0 m (fun i U => szero_side lower m U i) U ;;
  X <- mzd_slice_clear_canary X ;;
  B <- mzd_slice_addmul (Some B) U X ;;
  a4 <- salive_all [B; U] ;;
  Ok (a1 + a2 + c1 + a3 + chk_eq z 0 + a4 + chk_eq (c_bool (mzd_slice_is_zero B)) 1).

(** test_ple.c:47-51: L out of the packed matrix *)
Definition sunpack_L (LE L : slice) (r : nat) : res slice :=
  for_ 0 r (fun j L => for_ j (sl_nrows LE) (fun i L => x <- mzd_slice_read_elem LE i j ;; mzd_slice_write_elem L i j x) L) L.
(** test_ple.c:53-58: E *)
Definition sunpack_E (LE : slice) (Q : mzp) (E : slice) (r : nat) : res slice :=
  for_ 0 r (fun i E => q <- lget Q i ;; E <- mzd_slice_write_elem E i q 1 ;;
     for_ (q + 1) (sl_ncols LE) (fun j E => x <- mzd_slice_read_elem LE i j ;; mzd_slice_write_elem E i j x) E) E.
(** test_ple.c:29-75 [test_mzd_slice_ple] *)
Definition test_mzd_slice_ple (cf : config) (R : rank_rnd) (m n r : nat) : res nat :=
  a <- random_mzed_t_rank cf R m n r ;;
  A <- mzed_slice None a ;;
  LE <- mzd_slice_copy None A ;;
  let L := mzd_slice_init (cf_ff cf) m m in let E := mzd_slice_init (cf_ff cf) m n in
  '(LE, P, Q, rbar) <- mzd_slice_ple (cf_l2 cf) LE (seq 0 m) (seq 0 n) ;;
  L <- sunpack_L LE L r ;;
  E <- sunpack_E LE Q E r ;;
  B <- mzd_slice_mul None L E ;;
  A <- mzd_slice_apply_p_left A P ;;
  z <- mzd_slice_cmp A B ;;
  Ok (chk_eq (Z.of_nat rbar) (Z.of_nat r) + chk_eq z 0).
