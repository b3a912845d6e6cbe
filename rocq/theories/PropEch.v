(** Property C34: recursive PLE and PLUQ of bit-sliced matrices, the echelon forms built from them, and the dispatching entry points. *)
From Coq Require Import NArith ZArith Lia List Bool Arith.
From Coq Require Import ZifyBool ZifyNat ZifyN.
From Verif Require Import Base Spec LinSpec PolyFacts MatFacts Gf2xModel Gf2eModel Gf2eProofs.
From Verif Require Import MzdModel MzedModel MzedSpec LaneFacts MzedProofs MzedOps MzedOps2 Demo EchFacts EchNaive NjModel NjTable NjMul NjEch NjEch2 IrrTable IrrProofs PropNj.
From Verif Require Import StrassenModel StrassenProofs SliceModel SliceSpec MzdFacts SliceProofs SliceOps KaraModel ConvModel ConvSlice ConvCling PropSlice.
From Verif Require Import MulModel TrsmModel PermModel PleModel PleSpec PleFacts PleRank PleProofs PermProofs PropPle PleRec PleEch PleTop.
Import ListNotations.
Local Open Scope nat_scope.

Notation spoly A := (ff_minpoly (sl_ff A)).
Lemma self_holds A : wf_slice A -> sholds A (sfld A) (sl_nrows A) (sl_ncols A) (sentry A).
Proof. intros H. split; [exact H|]. split; [reflexivity|]. split; [reflexivity|]. split; [reflexivity|]. reflexivity. Qed.
Lemma self_inM A : wf_slice A -> inM (sfld A) (sl_nrows A) (sl_ncols A) (sentry A).
Proof. intros H i j _ _. now apply sentry_in. Qed.
Lemma sb_inM A A' F : sbecomes A A' F -> inM (sfld A) (sl_nrows A) (sl_ncols A) (sentry A').
Proof. intros H i j _ _. rewrite <- (sb_ff _ _ _ H). apply sentry_in. exact (sb_wf _ _ _ H). Qed.

(** [sdecomposes]: as [decomposes] (C32), for bit-sliced matrices *)
Definition sdecomposes (A : slice) (x : slice * mzp * mzp * nat) : Prop :=
  let '(A', P', Q', r) := x in
  sbecomes A A' (sentry A') /\ length P' = sl_nrows A /\ length Q' = sl_ncols A /\
  is_ple (spoly A) (sl_nrows A) (sl_ncols A) (sentry A) (sentry A') (at_ P') (at_ Q') r /\
  is_rank (spoly A) (sl_nrows A) (sl_ncols A) (sentry A) r.
(** [l2] is the size of the L2 cache (of which the default cutoff is computed), any integer *)
Theorem C34_slice_ple : forall l2 A P Q cutoff, irreducible (spoly A) -> (2 <= pdeg (spoly A))%N -> wf_slice A ->
  length P = sl_nrows A -> length Q = sl_ncols A ->
  exists x, mzd_slice_ple_ l2 A P Q cutoff = Ok x /\ sdecomposes A x.
Proof.
  intros l2 A P Q cutoff Hirr Hdeg HA HP HQ.
  destruct (proj1 (wp_iff _ _) (sple_ok (sfld A) Hirr Hdeg l2 (S (sl_ncols A)) (sl_nrows A) (sl_ncols A) A P Q (sentry A) cutoff ltac:(lia) (self_holds A HA) HP HQ)) as ([[[A' P'] Q'] r] & E & H1 & H2 & H3 & H4).
  exists (A', P', Q', r). split; [exact E|]. split; [exact H1|]. split; [exact H2|]. split; [exact H3|]. split; [exact H4|].
  apply (ple_rank (sfld A) Hirr ltac:(lia) _ _ _ (sentry A') (at_ P') (at_ Q')); [now apply self_inM|now apply (sb_inM _ _ _ H1)|exact H4].
Qed.
Definition spluqs (A : slice) (x : slice * mzp * mzp * nat) : Prop :=
  let '(A', P', Q', r) := x in
  sbecomes A A' (sentry A') /\ length P' = sl_nrows A /\ length Q' = sl_ncols A /\
  is_pluq (spoly A) (sl_nrows A) (sl_ncols A) (sentry A) (sentry A') (at_ P') (at_ Q') r /\
  is_rank (spoly A) (sl_nrows A) (sl_ncols A) (sentry A) r.
Theorem C34_slice_pluq : forall l2 A P Q cutoff, irreducible (spoly A) -> (2 <= pdeg (spoly A))%N -> wf_slice A ->
  length P = sl_nrows A -> length Q = sl_ncols A ->
  exists x, mzd_slice_pluq_ l2 A P Q cutoff = Ok x /\ spluqs A x.
Proof.
  intros l2 A P Q cutoff Hirr Hdeg HA HP HQ.
  destruct (proj1 (wp_iff _ _) (spluq_ok (sfld A) Hirr Hdeg l2 _ _ A P Q (sentry A) cutoff (self_holds A HA) HP HQ)) as ([[[A' P'] Q'] r] & E & H).
  exists (A', P', Q', r). split; [exact E|]. pose proof (spluq_is_pluq _ _ _ _ _ _ _ _ _ H) as I1. destruct H as (H1 & H2 & H3 & B & HB & I2 & _).
  split; [exact H1|]. split; [exact H2|]. split; [exact H3|]. split; [exact I1|].
  apply (ple_rank (sfld A) Hirr ltac:(lia) _ _ _ B (at_ P') (at_ Q')); [now apply self_inM|exact HB|exact I2].
Qed.
(** the wrappers with the default cutoff, which check the lengths of the permutations first *)
Theorem C34_slice_wrappers : forall l2 A P Q, irreducible (spoly A) -> (2 <= pdeg (spoly A))%N -> wf_slice A ->
  (length P = sl_nrows A -> length Q = sl_ncols A ->
    (exists x, mzd_slice_ple l2 A P Q = Ok x /\ sdecomposes A x) /\ (exists x, mzd_slice_pluq l2 A P Q = Ok x /\ spluqs A x)) /\
  (length P <> sl_nrows A \/ length Q <> sl_ncols A -> mzd_slice_ple l2 A P Q = UB /\ mzd_slice_pluq l2 A P Q = UB).
Proof.
  intros l2 A P Q Hirr Hdeg HA. unfold mzd_slice_ple, mzd_slice_pluq. split.
  - intros HP HQ. rewrite HP, HQ, !Nat.eqb_refl. cbn [andb guard bind]. split; [now apply C34_slice_ple|now apply C34_slice_pluq].
  - intros H. replace ((length P =? sl_nrows A) && (length Q =? sl_ncols A)) with false by lia. cbn [guard bind]. split; reflexivity.
Qed.
(** [sechelonises]: as [echelonises] (C26), for bit-sliced matrices *)
Definition sechelonises (full : bool) (A A' : slice) (r : nat) : Prop :=
  sbecomes A A' (sentry A') /\
  row_equiv (spoly A) (sl_nrows A) (sl_ncols A) (sentry A) (sentry A') /\
  (exists piv, echelon (sl_nrows A) (sl_ncols A) r piv (sentry A') /\ (full = true -> reduced (sl_nrows A) r piv (sentry A'))) /\
  is_rank (spoly A) (sl_nrows A) (sl_ncols A) (sentry A) r /\
  (forall r', is_rank (spoly A) (sl_nrows A) (sl_ncols A) (sentry A) r' -> r' = r).
Theorem C34_slice_echelonize_ple : forall l2 A full, irreducible (spoly A) -> (2 <= pdeg (spoly A))%N -> wf_slice A ->
  exists A' r, mzd_slice_echelonize_ple l2 A full = Ok (A', r) /\ sechelonises full A A' r.
Proof.
  intros l2 A full Hirr Hdeg HA.
  destruct (proj1 (wp_iff _ _) (slice_echelonize_ple_ok (sfld A) Hirr Hdeg l2 _ _ A (sentry A) full (self_holds A HA))) as ([A' r] & E & H1 & H2 & piv & H3 & H4).
  assert (Rk : is_rank (sfld A) (sl_nrows A) (sl_ncols A) (sentry A) r).
  { apply (echelon_rank (sfld A) ltac:(lia) _ _ r piv (sentry A) (sentry A')); auto; [now apply self_inM|now apply (sb_inM _ _ _ H1)]. }
  exists A', r. split; [exact E|]. split; [exact H1|]. split; [exact H2|]. split; [exists piv; now split|]. split; [exact Rk|].
  intros r' Hr'. apply (rank_unique (sfld A) ltac:(lia) Hirr (sl_nrows A) (sl_ncols A) (sentry A)); auto. now apply self_inM.
Qed.
Theorem C34_mzed_ple : forall l2 A P Q cutoff, irreducible (ff_minpoly (mz_ff A)) -> wf_mzed A -> length P = mz_nrows A -> length Q = mz_ncols A ->
  exists x, mzed_ple_ l2 A P Q cutoff = Ok x /\ decomposes A x.
Proof.
  intros l2 A P Q cutoff Hirr HA HP HQ. destruct (proj1 (wp_iff _ _) (mzed_ple_ok A HA Hirr l2 P Q cutoff HP HQ)) as ([[[A' P'] Q'] r] & E & H1 & H2 & H3 & H6).
  exists (A', P', Q', r). split; [exact E|]. split; [exact H1|]. split; [exact H2|]. split; [exact H3|]. split; [exact H6|].
  apply (ple_rank (fld A) Hirr (wf_deg1 A HA) _ _ _ (entry A') (at_ P') (at_ Q')); [| |exact H6].
  - now apply wf_inM.
  - pose proof (wf_inM A' (becomes_wf _ _ _ H1)) as X. now rewrite (becomes_ff _ _ _ H1), (becomes_nr _ _ _ H1), (becomes_nc _ _ _ H1) in X.
Qed.
Theorem C34_mzed_echelonize_ple : forall l2 A full, irreducible (ff_minpoly (mz_ff A)) -> wf_mzed A ->
  exists A' r, mzed_echelonize_ple l2 A full = Ok (A', r) /\ echelonises full A A' r.
Proof.
  intros l2 A full Hirr HA. destruct (proj1 (wp_iff _ _) (mzed_echelonize_ple_ok A HA Hirr l2 full)) as ([A' r] & E & H).
  exists A', r. split; [exact E|]. now apply ech_result_echelonises.
Qed.
(** [k0 <= 7]: the table parameter suggested by M4RI (see C27).  The size of the matrix in bits must fit into an
    int, in which the code computes it; the next theorem shows that otherwise it overflows. *)
Theorem C34_mzed_echelonize : forall k0 l2 A full, k0 <= 7 -> irreducible (ff_minpoly (mz_ff A)) -> wf_mzed A ->
  (ff_degree (mz_ff A) <= mz_nrows A ->
   (Z.of_nat (mz_nrows A) * Z.of_nat (mz_ncols A) * Z.of_nat (mz_w A) < 2 ^ 31)%Z) ->
  exists A' r, mzed_echelonize k0 l2 A full = Ok (A', r) /\ echelonises full A A' r.
Proof.
  intros k0 l2 A full Hk Hirr HA Hs. destruct (proj1 (wp_iff _ _) (mzed_echelonize_ok A HA Hirr k0 l2 full Hk Hs)) as ([A' r] & E & H).
  exists A', r. split; [exact E|]. now apply ech_result_echelonises.
Qed.
Theorem C34_overflow_refuted :
  (forall k0 l2 A full, ff_degree (mz_ff A) <= mz_nrows A ->
    (2 ^ 31 <= Z.of_nat (mz_nrows A) * Z.of_nat (mz_ncols A) * Z.of_nat (mz_w A))%Z ->
    mzed_echelonize k0 l2 A full = UB) /\
  (exists A, wf_mzed A /\ fld A = 7%N /\ mz_nrows A = N.to_nat 32768 /\ mz_ncols A = N.to_nat 32768 /\
    forall k0 l2 full, mzed_echelonize k0 l2 A full = UB).
Proof.
  split; [intros; now apply mzed_echelonize_overflow|].
  destruct (mk_realises 7 (N.to_nat 32768) (N.to_nat 32768) (fun _ _ => 1%N)) as (A & _ & H);
    [vm_compute; split; discriminate|now intros|].
  destruct H as (H1 & H2 & H3 & H4 & _). exists A. split; [exact H1|]. split; [exact H2|]. split; [exact H3|]. split; [exact H4|].
  intros k0 l2 full.
  assert (D : ff_degree (mz_ff A) = 2) by (destruct H1 as ((_ & Hd & _) & _); rewrite H2 in Hd; change (pdeg 7) with 2%N in Hd; lia).
  assert (W : mz_w A = 2) by (destruct H1 as (_ & Hw & _); unfold gf2e_degree_to_w in Hw; rewrite D in Hw; cbn in Hw; congruence).
  apply mzed_echelonize_overflow; unfold int_size; rewrite ?D, ?W, H3, ?H4, ?N_nat_Z; [lia|vm_compute; discriminate].
Qed.
(** the choice of the algorithm, which depends on the sizes and on the cache, cannot be observed in a reduced echelon form *)
Theorem C34_mzed_echelonize_independent : forall k0 l2 A A1 r1 A2 r2, k0 <= 7 -> irreducible (ff_minpoly (mz_ff A)) -> wf_mzed A ->
  mzed_echelonize k0 l2 A true = Ok (A1, r1) -> mzed_echelonize_naive A true = Ok (A2, r2) ->
  r1 = r2 /\ forall i j, i < mz_nrows A -> j < mz_ncols A -> entry A1 i j = entry A2 i j.
Proof.
  intros k0 l2 A A1 r1 A2 r2 Hk Hirr HA E1 E2.
  pose proof (mzed_echelonize_ret A HA Hirr k0 l2 true A1 r1 Hk E1) as W1.
  pose proof (mzed_echelonize_naive_ok A true HA Hirr) as W2. rewrite E2 in W2. cbn [wp] in W2.
  destruct W1 as (B1 & Q1 & piv1 & He1 & Hr1). destruct W2 as (B2 & Q2 & piv2 & He2 & Hr2).
  assert (HR : forall A' F, becomes A A' F -> inM (fld A) (mz_nrows A) (mz_ncols A) (entry A')).
  { intros A' F B. pose proof (wf_inM A' (becomes_wf _ _ _ B)) as X. now rewrite (becomes_ff _ _ _ B), (becomes_nr _ _ _ B), (becomes_nc _ _ _ B) in X. }
  destruct (rref_unique (fld A) (wf_deg1 A HA) Hirr (mz_nrows A) (mz_ncols A) (entry A) r1 piv1 (entry A1) r2 piv2 (entry A2)) as (R & M & _); auto.
  - now apply wf_inM.
  - eapply HR; eauto.
  - eapply HR; eauto.
Qed.
Print Assumptions C34_slice_ple.
Print Assumptions C34_slice_pluq.
Print Assumptions C34_slice_wrappers.
Print Assumptions C34_slice_echelonize_ple.
Print Assumptions C34_mzed_ple.
Print Assumptions C34_mzed_echelonize_ple.
Print Assumptions C34_mzed_echelonize.
Print Assumptions C34_overflow_refuted.
Print Assumptions C34_mzed_echelonize_independent.
(** 70 columns: with the cutoff 1 the recursion really splits, and with l2 = 1 the dispatcher takes the PLE branch *)
Definition c34_demo : mat := fun i j => if i =? 1 then 0%N else if (j <? 64) then (if (j =? 3 * i) && (i <? 3) then 2%N else 0%N) else N.of_nat ((i * j + j * j + i) mod 4).
Definition c34_last (rows : list (list N)) : list (list N) := map (fun r => skipn 60 r) rows.
Example C34_witness :
  (A <- mks 7 4 70 c34_demo ;;
   '(B, P, Q, r) <- mzd_slice_ple_ 1 A (repeat 0 4) (repeat 0 70) 1 ;;
   '(C, P2, Q2, r2) <- mzd_slice_pluq_ 1 A (repeat 0 4) (repeat 0 70) 1 ;;
   '(D, r3) <- mzd_slice_echelonize_ple 1 A true ;;
   a <- mk 7 4 70 c34_demo ;; '(E, r4) <- mzed_echelonize 2 1 a true ;; '(E', r5) <- mzed_echelonize_naive a true ;;
   Ok ((r, r2, r3, r4), (P, firstn 4 Q), c34_last (sl_rows B), c34_last (sl_rows C), c34_last (sl_rows D), (forallb (fun i => forallb (fun j => N.eqb (entry E i j) (entry E' i j)) (seq 0 70)) (seq 0 4))))
  = Ok ((3, 3, 3, 3), ([0; 2; 3; 3], [0; 6; 64; 3]),
        [[0; 0; 0; 0; 0; 3; 0; 3; 0; 3]; [0; 0; 0; 0; 1; 3; 1; 3; 1; 3]; [0; 0; 0; 0; 0; 1; 2; 2; 1; 1]; [0; 0; 0; 0; 0; 0; 0; 0; 0; 0]]%N,
        [[0; 0; 0; 0; 0; 3; 0; 3; 0; 3]; [0; 0; 0; 0; 0; 3; 1; 3; 1; 3]; [0; 0; 0; 0; 0; 1; 2; 2; 1; 1]; [0; 0; 0; 0; 0; 0; 0; 0; 0; 0]]%N,
        [[0; 0; 0; 0; 0; 3; 0; 3; 0; 3]; [0; 0; 0; 0; 0; 2; 3; 1; 0; 2]; [0; 0; 0; 0; 1; 1; 2; 2; 1; 1]; [0; 0; 0; 0; 0; 0; 0; 0; 0; 0]]%N, true).
Proof. vm_compute. reflexivity. Qed.
