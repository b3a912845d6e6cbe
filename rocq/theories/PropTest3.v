(** Property C73, continued: the tests of test_smallops.c, test_scalar, and the canaries of bit-sliced matrices. *)
From Coq Require Import NArith ZArith Lia List Bool Arith.
From Coq Require Import ZifyBool ZifyNat ZifyN.
From Verif Require Import HistSpec HistModel HistProofs.
From Verif Require Import Base Spec LinSpec PolyFacts Gf2xModel Gf2eModel Gf2eProofs MzdModel MzedModel MzedSpec SliceModel SliceSpec SliceProofs ConvModel MulModel Demo.
From Verif Require Import TestModel TestProofs TestSliceModel TestSlice TestSmall TestTrsm TestSTrsm TestPleModel TestSPle PropTest PropTest2.
Import ListNotations.
Local Open Scope nat_scope.

(** inverting twice gives every element back *)
Theorem C73_test_gf2e : forall ff, gf2e_wf ff -> irreducible (ff_minpoly ff) -> test_gf2e ff = Ok 0.
Proof. intros ff W I. now apply (test_gf2e_passes (ff_minpoly ff)). Qed.
(** the conversions and additions: for every field of degree 2 to 16, any size, any random numbers; no canary of a matrix written to is hurt *)
Theorem C73_test_slice : forall ff rnd srnd m n, gf2e_wf ff -> 2 <= ff_degree ff -> 0 < n -> test_slice ff rnd srnd m n = Ok 0.
Proof. intros. now apply (test_slice_passes (ff_minpoly ff)). Qed.
Theorem C73_test_slice_known_answers : forall ff m n, gf2e_wf ff -> 2 <= ff_degree ff -> 0 < n -> test_slice_known_answers ff m n = Ok 0.
Proof. intros. now apply (test_known_passes (ff_minpoly ff)). Qed.
Theorem C73_test_add : forall ff rA rB rC m n, gf2e_wf ff -> 2 <= ff_degree ff -> 0 < n -> test_add ff rA rB rC m n = Ok 0.
Proof. intros. now apply (test_add_passes (ff_minpoly ff)). Qed.
(** scalar multiples, for the sizes for which mzed_mul_scalar works (C18) *)
Theorem C73_test_scalar : forall ff a rB r1 r2 m n, gf2e_wf ff -> 2 <= ff_degree ff -> irreducible (ff_minpoly ff) -> 0 < n -> inF (ff_minpoly ff) a -> a <> 0%N ->
  (ff_degree ff <= 8 -> (N.of_nat m * N.of_nat n < 2 ^ 31)%N /\
     ((2 ^ 17 <= N.of_nat m * N.of_nat n)%N -> ff_degree ff = 2 \/ ff_degree ff = 4 \/ ff_degree ff = 8)) ->
  test_scalar ff a rB r1 r2 m n = Ok 0.
Proof. intros. now apply (test_scalar_passes (ff_minpoly ff)). Qed.
Print Assumptions C73_test_gf2e.
Print Assumptions C73_test_slice.
Print Assumptions C73_test_slice_known_answers.
Print Assumptions C73_test_add.
Print Assumptions C73_test_scalar.
(** beyond those sizes the library's own test breaks: over GF(8), GF(32), GF(64) and GF(128) it reads out of bounds (the sizes of test_multiplication.c stay below) *)
Theorem C73_test_scalar_refuted : forall ff a rB r1 r2 m n, gf2e_wf ff -> 0 < n -> inF (ff_minpoly ff) a ->
  ff_degree ff = 3 \/ ff_degree ff = 5 \/ ff_degree ff = 6 \/ ff_degree ff = 7 ->
  (2 ^ 17 <= N.of_nat m * N.of_nat n < 2 ^ 31)%N -> test_scalar ff a rB r1 r2 m n = UB.
Proof.
  intros ff a rB r1 r2 m n W Hn Ha Hd Hs. assert (D2 : 2 <= ff_degree ff) by lia. unfold test_scalar.
  destruct (random_ok ff rB m n W D2 Hn) as (B & EB & (KB & _) & FB). rewrite EB. cbn [bind].
  destruct (proj1 (wp_iff _ _) (MzedOps.mzed_init_ok ff m n W D2)) as (Z & EZ & _ & KZ & _). rewrite EZ. cbn [bind].
  destruct (random_ok ff r1 m n W D2 Hn) as (C1 & E1 & _). rewrite E1. cbn [bind].
  destruct KB as (WB & b1 & b2 & b3 & _). unfold mzed_mul_scalar at 1.
  assert (Hint : ff_degree (mz_ff B) <= 8 -> (N.of_nat (mz_nrows B) * N.of_nat (mz_ncols B) < 2 ^ 31)%N) by (rewrite b2, b3; lia).
  rewrite ScalarProofs.scalar_direct_eq by exact Hint. cbn [bind]. rewrite FB, b2, b3.
  replace (8 <? ff_degree ff) with false by lia. change (2 ^ 17)%N with 131072%N in Hs.
  replace (N.of_nat m * N.of_nat n <? 131072)%N with false by lia. cbn [orb]. rewrite gf2e_t16_init_oob; auto; lia.
Qed.
Print Assumptions C73_test_scalar_refuted.

(** the canaries of slices: setting them changes no element; they are alive until somebody writes behind the last column of some slice *)
Theorem C73_slice_canary : forall A, wf_slice A -> 0 < sl_ncols A ->
  exists A', mzd_slice_set_canary A = Ok A' /\ wf_slice A' /\ sl_ff A' = sl_ff A /\ sl_nrows A' = sl_nrows A /\ sl_ncols A' = sl_ncols A /\
    (forall i c, i < sl_nrows A -> c < sl_ncols A -> sentry A' i c = sentry A i c) /\ mzd_slice_canary_is_alive A' = Ok 1%Z /\
    forall X, wf_slice X -> sl_ff X = sl_ff A -> sl_nrows X = sl_nrows A -> sl_ncols X = sl_ncols A -> exists z, mzd_slice_canary_is_alive X = Ok z /\
      (chk z = 0 <-> forall b i k, b < sl_depth A -> i < sl_nrows A -> sl_ncols A <= k < 64 * width (sl_ncols A) -> mbit (sx X b) i k = mbit (sx A' b) i k).
Proof.
  intros A W Hc. destruct (proj1 (wp_iff _ _) (sset_canary_ok A W Hc)) as (A' & E & W' & s1 & s2 & s3 & En & M).
  exists A'. repeat (split; [assumption|]). destruct (salive_ok A' W' ltac:(lia)) as (b & Eb & Hb). split; [now rewrite Eb, (proj2 Hb M)|].
  intros X WX x1 x2 x3. destruct (salive_ok X WX ltac:(lia)) as (z & Ez & Hz). exists (c_bool z). split; [exact Ez|].
  transitivity (z = true); [destruct z; cbn; split; easy|]. rewrite Hz.
  assert (DX : sl_depth X = sl_depth A) by (destruct WX as (_ & d & _), W as (_ & d' & _); congruence).
  assert (DA : sl_depth A' = sl_depth A) by (destruct W' as (_ & d & _), W as (_ & d' & _); congruence).
  unfold smarked in *. rewrite DX, x2, x3. rewrite DA, s2, s3 in M. split; intros H b' i k Hb' Hi Hk.
  - rewrite H, M by auto. reflexivity.
  - rewrite H by auto. now apply M.
Qed.
(** clearing them makes the bits behind the last column 0 *)
Theorem C73_slice_clear_canary : forall A, wf_slice A -> 0 < sl_ncols A ->
  exists A', mzd_slice_clear_canary A = Ok A' /\ wf_slice A' /\ sl_ff A' = sl_ff A /\ sl_nrows A' = sl_nrows A /\ sl_ncols A' = sl_ncols A /\
    (forall i c, i < sl_nrows A -> c < sl_ncols A -> sentry A' i c = sentry A i c) /\
    forall b i k, b < sl_depth A -> i < sl_nrows A -> sl_ncols A <= k < 64 * width (sl_ncols A) -> mbit (sx A' b) i k = false.
Proof.
  intros A W Hc. destruct (proj1 (wp_iff _ _) (sclear_canary_ok A W Hc)) as (A' & E & W' & s1 & s2 & s3 & En & M).
  exists A'. repeat (split; [assumption|]). intros b i k Hb Hi Hk. assert (DA : sl_depth A' = sl_depth A) by (destruct W' as (_ & d & _), W as (_ & d' & _); congruence).
  rewrite M by (rewrite ?s3; lia). apply N.bits_0.
Qed.
Print Assumptions C73_slice_canary.
Print Assumptions C73_slice_clear_canary.

(** runs over GF(8), matrices of 3 x 70 elements: two words in each row of a slice; a slice with a canary that somebody wrote over is dead *)
Example C73_witness_small :
  (runs (fun cf => test_gf2e (cf_ff cf)), runs (fun cf => test_slice (cf_ff cf) (rnd0 2) (fun b i k => Nat.odd (b + i * k)) 3 70), runs (fun cf => test_slice_known_answers (cf_ff cf) 4 3),
   runs (fun cf => test_add (cf_ff cf) (rnd0 1) (rnd0 2) (rnd0 3) 3 70), runs (fun cf => test_scalar (cf_ff cf) 5 (rnd0 1) (rnd0 2) (rnd0 3) 3 22)) = (Ok 0, Ok 0, Ok 0, Ok 0, Ok 0).
Proof. vm_compute. reflexivity. Qed.
Example C73_witness_scanary :
  runs (fun cf => A <- random_mzd_slice_t (cf_ff cf) (fun b i k => Nat.odd (b + i * k)) 2 70 ;; u <- mzd_slice_canary_is_alive A ;;
    A' <- sl_map_n 3 A (fun b x => if b =? 2 then last_words 1 1 (fun v => N.lxor v 64) x else Ok x) ;; v <- mzd_slice_canary_is_alive A' ;;
    A' <- mzd_slice_clear_canary A ;; w <- mzd_slice_canary_is_alive A' ;; x <- lget (sl_x A') 1 ;; r <- lget (mzd_rows x) 1 ;; Ok (u, v, w, length r)) = Ok (1%Z, 0%Z, 0%Z, 2).
Proof. vm_compute. reflexivity. Qed.

(** the triangular solvers over slices, lower and upper: for every field, every size, every right hand side and every way to fill the triangles, once random()
    gives an element that is not 0 for every place of the diagonals within [st_tries] rounds (the code loops until it does) *)
Theorem C73_test_slice_trsm : forall lower ff R m n, gf2e_wf ff -> 2 <= ff_degree ff -> irreducible (ff_minpoly ff) -> 0 < m -> 0 < n ->
  (forall i, i < m ->
    (exists k, k < st_tries R /\ N.land (st_d R i k) (N.ones (N.of_nat (ff_degree ff))) <> 0%N) /\
    (exists k, k < st_tries R /\ N.land (st_d2 R i k) (N.ones (N.of_nat (ff_degree ff))) <> 0%N)) ->
  test_slice_trsm lower ff R m n = Ok 0.
Proof. intros lower ff R m n W D I Hm Hn HL. apply (test_strsm_passes (ff_minpoly ff) ff W eq_refl D I); auto. Qed.
(** the decomposition of slices of a given rank *)
Theorem C73_test_slice_ple : forall f cf R m n r, config_ok f cf -> 0 < m -> 0 < n -> r <= m -> r <= n -> test_mzd_slice_ple cf R m n r = Ok 0.
Proof. intros f cf R m n r CF. now apply (test_slice_ple_passes f cf). Qed.
Print Assumptions C73_test_slice_trsm.
Print Assumptions C73_test_slice_ple.
Definition S0 : strsm_rnd := STR 3 (fun b i k => Nat.odd (b + i * k + i)) (fun b i k => Nat.odd (b * i + k)) (fun i k => rnd0 3 i k) (fun b i k => Nat.even (b + i + k)) (fun b i k => Nat.odd (b + i * k)) (fun i k => rnd0 5 i (k + 1)).
Example C73_witness_slice_trsm :
  (runs (fun cf => test_slice_trsm true (cf_ff cf) S0 4 3), runs (fun cf => test_slice_trsm false (cf_ff cf) S0 4 3)) = (Ok 0, Ok 0) /\
  forallb (fun i => existsb (fun k => negb (N.land (st_d S0 i k) 7 =? 0)%N) (seq 0 3) && existsb (fun k => negb (N.land (st_d2 S0 i k) 7 =? 0)%N) (seq 0 3)) (seq 0 4) = true.
Proof. vm_compute. split; reflexivity. Qed.
Example C73_witness_slice_ple :
  (runs (fun cf => test_mzd_slice_ple cf R0 4 3 0), runs (fun cf => test_mzd_slice_ple cf R0 4 3 2), runs (fun cf => test_mzd_slice_ple cf R0 3 4 3)) = (Ok 0, Ok 0, Ok 0).
Proof. vm_compute. reflexivity. Qed.
