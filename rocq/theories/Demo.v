(** Concrete matrices for the witnesses shown beside the theorems: [mk f m n F] allocates an
    m x n matrix over GF(2)[X]/f through [gf2e_init] and [mzed_init] and writes the entries with
    [mzed_write_elem] (via [mzed_randomize] with a fixed "random" source). *)
From Coq Require Import NArith Lia List Bool Arith.
From Coq Require Import ZifyBool ZifyNat ZifyN.
From Verif Require Import Base Spec PolyFacts Gf2xModel Gf2eModel Gf2eProofs MzdModel MzedModel MzedSpec.
From Verif Require Import LaneFacts MzedProofs MzedOps MzedOps2.
Import ListNotations.
Local Open Scope nat_scope.

Definition mk (f : N) (m n : nat) (F : mat) : res mzed :=
  ff <- gf2e_init f ;; A <- mzed_init ff m n ;; mzed_randomize F A.
(** the entries of a matrix given by rows *)
Definition of_rows (rows : list (list N)) : mat := fun i j => nth j (nth i rows []) 0%N.
Definition to_rows (A : mzed) : list (list N) :=
  map (fun i => map (fun c => entry A i c) (seq 0 (mz_ncols A))) (seq 0 (mz_nrows A)).
(** a "random looking" matrix *)
Definition noise (a b : N) : mat := fun i j => (N.of_nat i * a + N.of_nat j * b + N.of_nat (i * j) + 1)%N.

Lemma mk_ok f m n F : (2 <= pdeg f <= 16)%N ->
  wp (mk f m n F) (fun A => holds A f m n (fun i c => N.land (F i c) (N.ones (pdeg f)))).
Proof.
  intros Hf. unfold mk. apply wp_bind. eapply wp_mono; [apply gf2e_init_wf; lia|]. cbv beta.
  intros ff (Em & Ed & Hwf). apply wp_bind. eapply wp_mono; [apply (mzed_init_ok ff m n Hwf); lia|]. cbv beta.
  intros A (Ef & (HA & Efm & Er & Ec & _) & _). eapply wp_mono; [now apply mzed_randomize_ok|]. cbv beta.
  intros A' B. eapply becomes_holds'; [exact B|congruence|easy|easy|]. cbv beta. intros i c _ _.
  rewrite Ef. do 2 f_equal. lia.
Qed.
(** every f, shape and content of field elements is realised by a well-formed matrix *)
Theorem mk_realises f m n F : (2 <= pdeg f <= 16)%N -> (forall i c, i < m -> c < n -> inF f (F i c)) ->
  exists A, mk f m n F = Ok A /\ holds A f m n F.
Proof.
  intros Hf HF. pose proof (mk_ok f m n F Hf) as H. apply wp_iff in H. destruct H as (A & E & H).
  exists A. split; [easy|]. destruct H as (H1 & H2 & H3 & H4 & H5). split; [easy|]. split; [easy|]. split; [easy|]. split; [easy|].
  intros i c Hi Hc. rewrite H5 by easy. rewrite N.land_ones. apply N.mod_small. now apply HF.
Qed.
