(** Property C73: the test programs that come with the library. *)
From Coq Require Import NArith ZArith Lia List Bool Arith.
From Coq Require Import ZifyBool ZifyNat ZifyN.
From Verif Require Import HistSpec HistModel HistProofs PropHist.
From Verif Require Import Base Spec LinSpec PolyFacts MatFacts Gf2xModel Gf2eModel Gf2eProofs MzdModel MzedModel MzedSpec LaneFacts MzedProofs MzedOps MzedOps2 Demo FrameProofs.
From Verif Require Import TrsmSpec EchFacts EchNaive IrrTable IrrProofs PropNj PropLaws.
From Verif Require Import TestModel TestCanary TestProofs TestTrsm.
Import ListNotations.
Local Open Scope nat_scope.

(** C73: the tests pass for every field, every size, every source of random numbers, every cache size and every M4RI that meets its contract:
    no check fails, nothing dies, no memory is misused.  The tests cannot run on matrices without columns. *)
(** echelon forms; m n w < 2^31 as for mzed_echelonize (C34) *)
Theorem C73_test_equality : forall f cf rnd m n, config_ok f cf -> 0 < n ->
  (N.to_nat (pdeg f) <= m -> (Z.of_nat m * Z.of_nat n * Z.of_nat (slot (N.to_nat (pdeg f))) < 2 ^ 31)%Z) -> test_equality cf rnd m n = Ok 0.
Proof. intros. now apply (test_equality_passes f). Qed.
(** products *)
Theorem C73_test_mul : forall f cf rA rB rC m n l, config_ok f cf -> 0 < n -> 0 < l -> test_mul cf rA rB rC m n l = Ok 0.
Proof. intros. now apply (test_mul_passes f). Qed.
Theorem C73_test_addmul : forall f cf rA rB rC m n l, config_ok f cf -> 0 < n -> 0 < l -> test_addmul cf rA rB rC m n l = Ok 0.
Proof. intros. now apply (test_addmul_passes f). Qed.
(** triangular solvers: a test of m rows needs a random number that is not 0 modulo 2^d for each place of the diagonal; otherwise it runs forever *)
Theorem C73_test_trsm : forall f cf lower R m n, config_ok f cf -> 0 < m -> 0 < n ->
  (forall i, i < m ->
    (exists k, k < tr_tries R /\ N.land (tr_d R i k) (N.ones (N.of_nat (ff_degree (cf_ff cf)))) <> 0%N) /\
    (exists k, k < tr_tries R /\ N.land (tr_d2 R i k) (N.ones (N.of_nat (ff_degree (cf_ff cf)))) <> 0%N)) ->
  test_mzed_trsm lower cf R m n = Ok 0.
Proof. intros f cf lower R m n CF Hm Hn HL. apply (test_trsm_passes f cf CF); auto. intros i Hi. rewrite (deg_ff f cf CF) in HL. exact (HL i Hi). Qed.
Print Assumptions C73_test_equality.
Print Assumptions C73_test_mul.
Print Assumptions C73_test_addmul.
Print Assumptions C73_test_trsm.

(** What the checks mean.  The canaries: setting them changes no element, after that they are alive, and they stay alive exactly as long as nobody
    writes something else to the slots behind the last column. *)
Theorem C73_canary : forall A, wf_mzed A -> 0 < mz_ncols A ->
  exists A', mzed_set_canary A = Ok A' /\ wf_mzed A' /\ same_shape A A' /\
    (forall i c, i < mz_nrows A -> c < mz_ncols A -> entry A' i c = entry A i c) /\ mzed_canary_is_alive A' = Ok 1%Z /\
    forall X, wf_mzed X -> same_shape A X -> exists z, mzed_canary_is_alive X = Ok z /\
      (chk z = 0 <-> forall i c, i < mz_nrows A -> mz_ncols A <= c < cap A -> entry X i c = entry A' i c).
Proof.
  intros A W Hc. destruct (proj1 (wp_iff _ _) (set_canary_ok A W Hc)) as (A' & E & W' & S' & HE & M).
  exists A'. split; [exact E|]. split; [exact W'|]. split; [exact S'|]. split; [exact HE|].
  pose proof S' as (s1 & s2 & s3 & s4).
  destruct (alive_ok A' W' ltac:(lia)) as (b & Eb & Hb). split; [now rewrite Eb, (proj2 Hb M)|].
  intros X WX SX. pose proof SX as (x1 & x2 & x3 & x4). destruct (alive_ok X WX ltac:(lia)) as (z & Ez & Hz). exists (c_bool z). split; [exact Ez|].
  transitivity (z = true); [destruct z; cbn; split; easy|]. rewrite Hz. unfold marked, mark in *.
  unfold cap in *. rewrite <- s1, <- s2, <- s3, <- s4 in M. rewrite <- x1, <- x2, <- x3, <- x4. split; intros H i c Hi Hcc.
  - rewrite H, M by auto. reflexivity.
  - rewrite H by auto. now rewrite M.
Qed.
(** the comparison of two matrices finds every difference *)
Theorem C73_check_cmp : forall A B, wf_mzed A -> wf_mzed B -> ff_minpoly (mz_ff A) = ff_minpoly (mz_ff B) ->
  chk_eq (c_cmp (mzed_cmp A B)) 0 = 0 <-> mz_nrows A = mz_nrows B /\ mz_ncols A = mz_ncols B /\
    forall i c, i < mz_nrows A -> c < mz_ncols A -> entry A i c = entry B i c.
Proof. intros A B WA WB Ef. rewrite chk_cmp_iff. now apply mzed_cmp_ok. Qed.
(** so the test of the echelon forms finds every elimination function whose result is not the reduced echelon form: with three right functions and
    a fourth one that keeps the matrix well formed, no failure means that the fourth is right on the matrix drawn *)
Definition any_elim (f : N) (e : mzed -> bool -> res (mzed * nat)) : Prop :=
  forall A, wf_mzed A -> ff_minpoly (mz_ff A) = f -> exists A' r, e A true = Ok (A', r) /\ wf_mzed A' /\ same_shape A A'.
Lemma echelon_ext m n r piv R R' : meq m n R R' -> echelon m n r piv R -> echelon m n r piv R'.
Proof.
  intros Hm (e1 & e2 & e3 & e4). split; [exact e1|]. split; [|split; [exact e3|]].
  - intros i Hi. destruct (e2 i Hi) as (p1 & p2 & p3). split; [exact p1|]. split; [now rewrite <- Hm by lia|]. intros j Hj. rewrite <- Hm by lia. now apply p3.
  - intros i j Hi Hj. rewrite <- Hm by lia. now apply e4.
Qed.
Lemma reduced_ext m n r piv R R' : meq m n R R' -> echelon m n r piv R -> reduced m r piv R -> reduced m r piv R'.
Proof. intros Hm (_ & e2 & _) H i i' Hi Hi' Ne. rewrite <- Hm; [now apply H|exact Hi'|now apply e2]. Qed.
Theorem C73_detects : forall f cf e rnd m n, config_ok f cf -> 0 < n ->
  (N.to_nat (pdeg f) <= m -> (Z.of_nat m * Z.of_nat n * Z.of_nat (slot (N.to_nat (pdeg f))) < 2 ^ 31)%Z) -> any_elim f e ->
  equality_test (p_echelon cf NewtonJohn) (p_echelon cf Naive) (p_echelon cf Default) e (cf_ff cf) rnd m n = Ok 0 ->
  exists A A' r s, holds A f m n (fun i j => N.land (rnd i j) (N.ones (pdeg f))) /\ e A true = Ok (A', s) /\
    row_equiv f m n (entry A) (entry A') /\ is_rank f m n (entry A) r /\ exists piv, echelon m n r piv (entry A') /\ reduced m r piv (entry A').
Proof.
  intros f cf e rnd m n CF Hn Hs He. pose proof CF as (F1 & F2 & F3 & F4 & _).
  assert (fd : (1 <= pdeg f)%N). { destruct F1 as (_ & D & _). rewrite F2 in D. lia. }
  assert (G : forall ch, echelon_ok f Packed ch m n -> good_elim f m n (p_echelon cf ch)).
  { intros ch Hc A F K. exact (p_echelon_ok f cf CF ch true A (tab m n F) (holds_tab _ _ _ _ _ K) Hc). }
  assert (H0 := G NewtonJohn Logic.I). assert (H1 := G Naive Logic.I). assert (H2 := G Default Hs). unfold equality_test.
  destruct (random_ok (cf_ff cf) rnd m n F1 F3 Hn) as (A0 & E0 & D0 & _). rewrite E0. cbn [bind]. rewrite F2 in D0. set (F := draws _ _) in D0.
  destruct (copy_ok _ _ _ _ _ (proj1 D0)) as (A1 & E1 & K1). destruct (drawn_canary _ _ _ _ _ K1 Hn) as (C1 & G1 & D1 & _).
  repeat (rewrite E1; cbn [bind]). repeat (rewrite G1; cbn [bind]). clear E1 G1.
  destruct (H0 A0 F (proj1 D0)) as (B0 & r0 & X0 & Y0). destruct (H1 C1 F (proj1 D1)) as (B1 & r1 & X1 & Y1).
  destruct (H2 C1 F (proj1 D1)) as (B2 & r2 & X2 & Y2). pose proof (proj1 D1) as (W1 & Ef & Er & Ec & Ee). destruct (He C1 W1 Ef) as (B3 & s & X3 & W3 & S3).
  rewrite X0. cbn [bind]. rewrite X1. cbn [bind]. rewrite X2. cbn [bind]. rewrite X3. cbn [bind].
  destruct (alive_all _) as [a| |]; cbn [bind]; [|discriminate|discriminate]. intros T. injection T as T.
  assert (T2 : chk_eq (c_cmp (mzed_cmp B2 B3)) 0 = 0) by lia. clear T. apply chk_cmp_iff in T2.
  destruct Y2 as (BA & Q & (piv & P1 & P2) & Rk & _). destruct S3 as (s1 & s2 & s3 & s4).
  pose proof (becomes_ff _ _ _ BA) as b1. pose proof (becomes_nr _ _ _ BA) as b2. pose proof (becomes_nc _ _ _ BA) as b3.
  apply mzed_cmp_ok in T2; [|apply BA|exact W3|congruence]. destruct T2 as (t1 & t2 & t3). specialize (P2 eq_refl).
  rewrite b2, b3, Er, Ec in t3. rewrite Ef, Er, Ec in *.
  assert (Mq : meq m n (entry B2) (entry B3)) by exact t3.
  exists C1, B3, r2, s. split; [|split; [exact X3|]].
  { split; [exact W1|]. split; [exact Ef|]. split; [exact Er|]. split; [exact Ec|]. intros i j Hi Hj. rewrite Ee by auto. unfold F, draws. destruct F1 as (_ & D & _).
    rewrite F2 in D. now rewrite D. }
  split; [eapply row_equiv_ext; eauto|]. split; [exact Rk|]. exists piv. split; [eapply echelon_ext; eauto|eapply reduced_ext; eauto].
Qed.
Print Assumptions C73_canary.
Print Assumptions C73_check_cmp.
Print Assumptions C73_detects.

(** The checks of the ranks are worth next to nothing.  [m4rie_check( r0 == r1 )] expands to [if (!r0 == r1)], which compares the negation of r0 with r1: *)
Theorem C73_check_rank : forall r s, chk_eq (Z.of_nat r) (Z.of_nat s) = 0 <-> ~ (r = 0 /\ s = 1) /\ ~ (0 < r /\ s = 0).
Proof. exact chk_rank_iff. Qed.
(** An elimination function that gives a wrong rank for every matrix but 0 passes all tests, on every matrix. *)
Definition wrong_rank (e : mzed -> bool -> res (mzed * nat)) : mzed -> bool -> res (mzed * nat) :=
  fun A full => '(A', r) <- e A full ;; Ok (A', if r =? 0 then 0 else r + 1).
Theorem C73_rank_check_refuted : forall f cf, config_ok f cf ->
  (forall rnd m n, 0 < n -> (N.to_nat (pdeg f) <= m -> (Z.of_nat m * Z.of_nat n * Z.of_nat (slot (N.to_nat (pdeg f))) < 2 ^ 31)%Z) ->
     equality_test (p_echelon cf NewtonJohn) (p_echelon cf Naive) (wrong_rank (p_echelon cf Default)) (p_echelon cf ByPle) (cf_ff cf) rnd m n = Ok 0) /\
  (forall A m n F, holds A f m n F -> (exists i j, i < m /\ j < n /\ F i j <> 0%N) ->
     (N.to_nat (pdeg f) <= m -> (Z.of_nat m * Z.of_nat n * Z.of_nat (slot (N.to_nat (pdeg f))) < 2 ^ 31)%Z) ->
     exists A' r, wrong_rank (p_echelon cf Default) A true = Ok (A', r) /\ ~ is_rank f m n F r).
Proof.
  intros f cf CF. pose proof CF as (F1 & F2 & F3 & F4 & _).
  assert (fd : (1 <= pdeg f)%N). { destruct F1 as (_ & D & _). rewrite F2 in D. lia. }
  assert (G : forall m n ch, echelon_ok f Packed ch m n -> good_elim f m n (p_echelon cf ch)).
  { intros m n ch Hc A F K. exact (p_echelon_ok f cf CF ch true A (tab m n F) (holds_tab _ _ _ _ _ K) Hc). }
  split.
  - intros rnd m n Hn Hs. assert (H0 := G m n NewtonJohn Logic.I). assert (H1 := G m n Naive Logic.I). assert (H2 := G m n Default Hs). assert (H3 := G m n ByPle Logic.I).
    apply (equality_test_passes f cf CF); auto using good_elim_matrix.
    + intros A F K. destruct (H2 A F K) as (A' & r & E & X). exists A', r. eexists. unfold wrong_rank. rewrite E. cbn [bind]. split; [reflexivity|]. split; [exact X|].
      destruct (Nat.eqb_spec r 0); lia.
    + intros A0 A1 A2 A3 s0 s1 s2 s3 F A0' A1' A2' A3' K0 K1 K2 K3 X0 X1 X2 X3.
      destruct (H0 A0 F K0) as (? & ? & Y0 & Z0). destruct (H1 A1 F K1) as (? & ? & Y1 & Z1). destruct (H2 A2 F K2) as (? & r2 & Y2 & Z2). destruct (H3 A3 F K3) as (? & ? & Y3 & Z3).
      unfold wrong_rank in X2. rewrite Y2 in X2. cbn [bind] in X2. injection X2 as <- <-.
      rewrite X0 in Y0. rewrite X1 in Y1. rewrite X3 in Y3. injection Y0 as <- <-. injection Y1 as <- <-. injection Y3 as <- <-.
      destruct (reduced_same f m n A0 A1 F _ _ _ _ F4 fd K0 K1 Z0 Z1) as (-> & _). destruct (reduced_same f m n A1 A2 F _ _ _ _ F4 fd K1 K2 Z1 Z2) as (-> & _).
      destruct (reduced_same f m n A2 A3 F _ _ _ _ F4 fd K2 K3 Z2 Z3) as (-> & _). rewrite chk_rank, !chk_rank_iff. destruct (Nat.eqb_spec s3 0); lia.
  - intros A m n F K (i & j & Hi & Hj & Hz) Hs. destruct (G m n Default Hs A F K) as (A' & r & E & X). exists A'. eexists. unfold wrong_rank. rewrite E. cbn [bind]. split; [reflexivity|].
    destruct X as (BA & Q & (piv & Ech & _) & Rk & Un). pose proof K as (W & Ef & Er & Ec & Ee). rewrite Ef, Er, Ec in *. intros Hr.
    assert (Mq : meq m n F (entry A)) by (intros a b Ha Hb; symmetry; now apply Ee).
    assert (Hr' : is_rank f m n (entry A) (if r =? 0 then 0 else r + 1)) by (eapply rank_ext; eauto).
    pose proof (Un _ Hr') as R. destruct (Nat.eqb_spec r 0) as [->|]; [|lia].
    apply Hz. rewrite Mq by auto. destruct Rk as (B & P & L & _ & _ & _ & EA & _). rewrite EA by auto. reflexivity.
Qed.
Print Assumptions C73_check_rank.
Print Assumptions C73_rank_check_refuted.

(** Runs over GF(8): a 5 x 4 matrix of random numbers; products of 2 x 3 by 3 x 2; triangular systems of two equations with three right hand sides, with random numbers that
    start with 0; and a test that does fail: an "elimination" that leaves the matrix as it is *)
Definition rnd0 (s i j : nat) : N := N.of_nat ((s + 3 * i + 5 * j + i * j * (s + 1)) mod 8).
Definition runs {X} (p : config -> res X) : res X := ff <- gf2e_init 0xb ;; p (cf1 ff).
Example C73_witness :
  (runs (fun cf => test_equality cf (rnd0 1) 5 4), runs (fun cf => test_mul cf (rnd0 1) (rnd0 2) rnd0 2 2 3), runs (fun cf => test_addmul cf (rnd0 1) (rnd0 2) (rnd0 5) 2 2 3),
   runs (fun cf => test_mzed_trsm true cf (TR 3 (rnd0 1) (rnd0 2) (fun i k => N.of_nat (i + k)) (rnd0 3) (rnd0 4) (fun i k => N.of_nat (8 * i + k))) 2 3),
   runs (fun cf => test_mzed_trsm false cf (TR 3 (rnd0 8) (rnd0 2) (fun i k => N.of_nat (i + k)) (rnd0 8) (rnd0 4) (fun i k => N.of_nat (8 * i + k))) 2 3),
   runs (fun cf => equality_test (p_echelon cf NewtonJohn) (p_echelon cf Naive) (p_echelon cf Default) (fun A _ => Ok (A, 0)) (cf_ff cf) (rnd0 1) 5 4),
   runs (fun cf => equality_test (p_echelon cf NewtonJohn) (p_echelon cf Naive) (wrong_rank (p_echelon cf Default)) (p_echelon cf ByPle) (cf_ff cf) (rnd0 1) 5 4))
  = (Ok 0, Ok 0, Ok 0, Ok 0, Ok 0, Ok 3, Ok 0).
Proof. vm_compute. reflexivity. Qed.
(** the diagonals of the systems drawn start with 0: random() is called again *)
Example C73_witness_retry : (ff <- gf2e_init 0xb ;; U <- random_triangle false ff 3 (fun i k => N.of_nat (i + k)) (rnd0 8) 3 ;; Ok (to_rows U)) = Ok [[1; 5; 2]; [0; 1; 7]; [0; 0; 4]]%N.
Proof. vm_compute. reflexivity. Qed.
