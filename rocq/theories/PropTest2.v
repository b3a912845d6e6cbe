(** Property C73, continued: the random matrices of given rank, and the test of the PLE decomposition. *)
From Coq Require Import NArith ZArith Lia List Bool Arith.
From Coq Require Import ZifyBool ZifyNat ZifyN.
From Verif Require Import HistSpec HistModel HistProofs PropHist.
From Verif Require Import Base Spec LinSpec PolyFacts MatFacts Gf2xModel Gf2eModel Gf2eProofs MzdModel MzedModel MzedSpec Demo.
From Verif Require Import TestModel TestProofs TestPleModel TestPle PropTest.
Import ListNotations.
Local Open Scope nat_scope.

(** random_mzed_t_rank returns a matrix of rank exactly r, whatever random() returns *)
Theorem C73_random_rank : forall f cf R m n r, config_ok f cf -> 0 < n -> r <= m -> r <= n ->
  exists A, random_mzed_t_rank cf R m n r = Ok A /\ wf_mzed A /\ ff_minpoly (mz_ff A) = f /\ mz_nrows A = m /\ mz_ncols A = n /\
    is_rank f m n (entry A) r /\ forall r', is_rank f m n (entry A) r' -> r' = r.
Proof.
  intros f cf R m n r CF Hn Hr Hrn. destruct (random_rank_ok f cf CF R m n r Hn Hr Hrn) as (A & F & E & (K & _) & Rk). destruct (f_facts f cf CF) as (Hirr & fd & _).
  exists A. split; [exact E|]. pose proof (holds_inM _ _ _ _ _ K) as IF. destruct K as (W & Ef & Er & Ec & Ee). repeat (split; [assumption|]).
  assert (Rk' : is_rank f m n (entry A) r). { eapply rank_ext; [exact Rk|]. intros i j Hi Hj. symmetry. now apply Ee. }
  split; [exact Rk'|]. intros r' Hr'. apply (EchFacts.rank_unique f fd Hirr m n (entry A)); auto. intros i j Hi Hj. rewrite Ee by auto. now apply IF.
Qed.
(** the test of mzed_ple_naive, mzed_ple_newton_john and mzed_ple *)
Theorem C73_test_ple : forall f cf R m n r, config_ok f cf -> 0 < m -> 0 < n -> r <= m -> r <= n -> test_mzed_ple cf R m n r = Ok 0.
Proof. intros f cf R m n r CF. now apply (test_ple_passes f cf CF). Qed.
Print Assumptions C73_random_rank.
Print Assumptions C73_test_ple.

(** a 4 x 3 matrix of rank 2 over GF(8), rows and columns swapped, and the tests of the decomposition for ranks 0, 2, 3 *)
Definition R0 : rank_rnd := RR (rnd0 3) (rnd0 6) (fun i => 2 * i + 3) (fun i => i + 5).
Example C73_witness_rank :
  (runs (fun cf => A <- random_mzed_t_rank cf R0 4 3 2 ;; Ok (to_rows A)), runs (fun cf => test_mzed_ple cf R0 4 3 0), runs (fun cf => test_mzed_ple cf R0 4 3 2), runs (fun cf => test_mzed_ple cf R0 3 4 3)) =
  (Ok [[2; 4; 5]; [5; 1; 6]; [3; 1; 0]; [0; 6; 1]]%N, Ok 0, Ok 0, Ok 0).
Proof. vm_compute. reflexivity. Qed.
