(** Random filling of bit-sliced matrices: C17 for [mzd_slice_randomize] (src/mzd_slice.h:848-851).
    [rnd k i c] is the bit the random source delivers for slice k, row i, column c. *)
From Coq Require Import NArith ZArith Lia List Bool Arith.
From Coq Require Import ZifyBool ZifyNat ZifyN.
From Verif Require Import Base Spec LinSpec PolyFacts MatFacts Gf2xModel Gf2eModel Gf2eProofs IrrProofs.
From Verif Require Import MzdModel MzedModel MzedSpec LaneFacts MzedProofs MzedOps MzedOps2 SliceModel SliceSpec MzdFacts SliceProofs SliceOps SliceMul PropSlice Demo.
Import ListNotations.
Local Open Scope nat_scope.

Theorem C17_slice_randomize : forall rnd A, wf_slice A ->
  exists A', mzd_slice_randomize rnd A = Ok A' /\ sbecomes A A' (fun i c => word_of_bits (sl_depth A) (fun k => rnd k i c)) /\
    forall k i c, k < sl_depth A -> i < sl_nrows A -> c < sl_ncols A -> N.testbit (sentry A' i c) (N.of_nat k) = rnd k i c.
Proof.
  intros rnd A HA. apply wp_iff. unfold mzd_slice_randomize. pose proof (wfs_deg A HA) as D. eapply wp_mono; [apply (map_ok A _ (fun i c => word_of_bits (sl_depth A) (fun k => rnd k i c)) HA)|].
  - intros i c Hi Hc. unfold inF. rewrite D. apply word_of_bits_lt.
  - intros b Hb W R1 R2. cbn [wp]. eapply mset_ext; [now apply mset_build|]. cbv beta. intros i c Hi Hc. rewrite testbit_word_of_bits. now replace (b <? sl_depth A) with true by lia.
  - cbv beta. intros A' B. split; [exact B|]. intros k i c Hk Hi Hc. destruct B as (_ & _ & _ & _ & E & _). rewrite E by easy. rewrite testbit_word_of_bits. now replace (k <? sl_depth A) with true by lia.
Qed.
Print Assumptions C17_slice_randomize.
Example C17_slice_witness :
  (A <- mks 0xb 2 3 (noise 3 1) ;; B <- mzd_slice_randomize (fun k i c => Nat.odd (k * (i + 1) + c)) A ;; Ok (sl_rows A, sl_rows B)) =
  Ok ([[1; 2; 3]; [4; 6; 0]], [[2; 5; 2]; [0; 7; 0]])%N.
Proof. vm_compute. reflexivity. Qed.
