(** PLE and echelon forms of packed matrices: the dispatching entry points. *)
From Coq Require Import NArith ZArith Lia List Bool Arith.
From Coq Require Import ZifyBool ZifyNat ZifyN.
From Verif Require Import Base Spec LinSpec TrsmSpec PolyFacts MatFacts EchFacts Gf2xModel Gf2eModel Gf2eProofs MzdModel MzedModel MzedSpec.
From Verif Require Import LaneFacts MzedProofs MzedOps EchNaive NjModel NjTable NjMul NjEch NjEch2 StrassenModel StrassenProofs SliceModel SliceSpec MzdFacts SliceProofs SliceOps SliceMul KaraModel KaraProofs ConvModel ConvSlice ConvCling.
From Verif Require Import MulModel MulProofs TrsmModel TrsmProofs TrsmRec PermModel PleModel PleSpec PleFacts PleRank PleProofs PermProofs PleComb PleSlice PleRec PluqFacts PleEch.
Import ListNotations.
Local Open Scope nat_scope.

Section Top.
Variable A : mzed.
Hypothesis HA : wf_mzed A.
Hypothesis Hirr : irreducible (fld A).
Let m := mz_nrows A.
Let n := mz_ncols A.
Let f := fld A.
Lemma top_deg : (2 <= pdeg f)%N.
Proof. destruct (wf_deg2 A HA) as ((_ & E & _) & H2). unfold f. rewrite E. lia. Qed.
Lemma top_slice : wp (mzed_slice None A) (fun a => sholds a f m n (entry A)).
Proof. eapply wp_mono; [apply (mzed_slice_ok None A HA); exact I|]. cbv beta. now intros a (H & _). Qed.
Lemma top_cling a F : sholds a f m n F -> wp (mzed_cling (Some A) a) (fun A' => becomes A A' F).
Proof.
  intros K. pose proof K as (K1 & K2 & K3 & K4 & K5). pose proof top_deg as Hd. pose proof (wfs_deg a K1) as E. rewrite K2 in E.
  eapply wp_mono; [apply (mzed_cling_ok (Some A) a K1); [lia|]|].
  - cbn [target]. rewrite K2, K3, K4. split; [exact HA|]. now repeat split.
  - cbv beta. intros A' (_ & B). eapply becomes_ext; [exact B|]. intros i c Hi Hc. now apply K5.
Qed.

Theorem mzed_ple_first l2 P Q cutoff : length P = m -> length Q = n ->
  wp (mzed_ple_ l2 A P Q cutoff) (fun '(A', P', Q', r) => becomes A A' (entry A') /\ length P' = m /\ length Q' = n /\
     is_ple f m n (entry A) (entry A') (at_ P') (at_ Q') r /\ first_pivots m (entry A') (at_ P') r).
Proof.
  intros LP LQ. unfold mzed_ple_. cbv zeta. destruct (wf_deg2 A HA) as (Hff & H2).
  destruct (gf2e_degree_to_w_ok (mz_ff A)) as (w & -> & _); [destruct Hff as (D & _); lia|]. cbn [bind].
  destruct (_ && _).
  - apply wp_bind. eapply wp_mono; [apply top_slice|]. cbv beta. intros a Ka. pose proof Ka as (K1 & K2 & K3 & K4 & K5).
    unfold mzd_slice_ple_. apply wp_bind. eapply wp_mono; [apply (sple_first_ok f Hirr top_deg l2 (S (sl_ncols a)) m n a P Q (entry A) (ple_cutoff l2 cutoff) ltac:(rewrite K4; lia) Ka LP LQ)|].
    cbv beta. intros [[[a' P'] Q'] r] ((B & LP' & LQ' & I1) & FP). pose proof (sh_becomes _ _ _ _ _ _ _ Ka B) as Ka'.
    apply wp_bind. eapply wp_mono; [apply (top_cling a' _ Ka')|]. cbv beta. intros A' BA. cbn [wp].
    assert (EA : meq m n (sentry a') (entry A')) by (intros i c Hi Hc; symmetry; now apply (becomes_entry _ _ _ _ _ BA)).
    split; [eapply becomes_ext; [exact BA|]; intros i c Hi Hc; symmetry; now apply (becomes_entry _ _ _ _ _ BA)|]. split; [exact LP'|]. split; [exact LQ'|].
    split; [eapply is_ple_ext; [exact I1|apply meq_refl|exact EA|reflexivity|reflexivity]|].
    eapply (first_pivots_ext m n); [exact FP|apply I1|apply I1|exact EA|reflexivity].
  - eapply wp_mono; [apply mzed_ple_nj_first; auto|]. cbv beta. intros [[[A' P'] Q'] r] ((K1 & K2 & K3 & K4 & K5 & K6) & KF).
    split; [exact K1|]. split; [exact K2|]. split; [exact K3|]. split; [exact K6|exact KF].
Qed.

Theorem mzed_ple_ok l2 P Q cutoff : length P = m -> length Q = n ->
  wp (mzed_ple_ l2 A P Q cutoff) (fun '(A', P', Q', r) => becomes A A' (entry A') /\ length P' = m /\ length Q' = n /\
     is_ple f m n (entry A) (entry A') (at_ P') (at_ Q') r).
Proof.
  intros LP LQ. eapply wp_mono; [now apply mzed_ple_first|]. cbv beta. intros [[[A' P'] Q'] r]. tauto.
Qed.

Theorem mzed_echelonize_ple_ok l2 full : wp (mzed_echelonize_ple l2 A full) (fun '(A', r) => ech_result full A A' r).
Proof.
  unfold mzed_echelonize_ple. apply wp_bind. eapply wp_mono; [apply top_slice|]. cbv beta. intros a Ka. pose proof Ka as (K1 & K2 & K3 & K4 & K5).
  apply wp_bind. eapply wp_mono; [apply (slice_echelonize_ple_ok f Hirr top_deg l2 m n a (entry A) full Ka)|]. cbv beta. intros [a' r] (B & R1 & piv & E1 & E2).
  pose proof (sh_becomes _ _ _ _ _ _ _ Ka B) as Ka'.
  apply wp_bind. eapply wp_mono; [apply (top_cling a' _ Ka')|]. cbv beta. intros A' BA. cbn [wp].
  assert (Ef : meq m n (sentry a') (entry A')) by (intros i c Hi Hc; symmetry; now apply (becomes_entry _ _ _ _ _ BA)).
  split; [eapply becomes_ext; [exact BA|]; exact Ef|]. split; [eapply meq_row_equiv; [exact R1|exact Ef]|].
  exists piv. split; [eapply (meq_echelon f top_deg); [exact E1|exact Ef]|]. intros Hfull. eapply (meq_reduced m n); [|exact (E2 Hfull)|exact Ef]. intros i Hi. now apply E1.
Qed.
(** the size that echelonform.c:29 computes in type int *)
Definition int_size : Z := (Z.of_nat (mz_nrows A) * Z.of_nat (mz_ncols A) * Z.of_nat (mz_w A))%Z.
Theorem mzed_echelonize_ok k0 l2 full : k0 <= 7 -> (ff_degree (mz_ff A) <= mz_nrows A -> (int_size < 2 ^ 31)%Z) ->
  wp (mzed_echelonize k0 l2 A full) (fun '(A', r) => ech_result full A A' r).
Proof.
  intros Hk Hs. unfold mzed_echelonize. destruct (mz_nrows A <? ff_degree (mz_ff A)) eqn:E; [now apply mzed_echelonize_naive_ok|].
  specialize (Hs ltac:(lia)). change (2 ^ 31)%Z with 2147483648%Z in Hs. unfold int_size in Hs.
  cbv zeta. replace (_ <? 2147483648)%Z with true by lia. cbn [guard bind].
  destruct (_ <=? _)%Z; [now apply mzed_echelonize_newton_john_ok|apply mzed_echelonize_ple_ok].
Qed.
Lemma mzed_echelonize_overflow k0 l2 full : ff_degree (mz_ff A) <= mz_nrows A -> (2 ^ 31 <= int_size)%Z ->
  mzed_echelonize k0 l2 A full = UB.
Proof.
  intros Hd Hs. unfold mzed_echelonize. replace (mz_nrows A <? ff_degree (mz_ff A)) with false by lia.
  change (2 ^ 31)%Z with 2147483648%Z in Hs. unfold int_size in Hs.
  cbv zeta. now replace (_ <? 2147483648)%Z with false by lia.
Qed.
Lemma mzed_echelonize_ret k0 l2 full A' r : k0 <= 7 -> mzed_echelonize k0 l2 A full = Ok (A', r) -> ech_result full A A' r.
Proof.
  intros Hk E. assert (Hs : ff_degree (mz_ff A) <= mz_nrows A -> (int_size < 2 ^ 31)%Z).
  { intros Hd. destruct (Z.ltb_spec int_size (2 ^ 31)) as [L|L]; [exact L|].
    rewrite mzed_echelonize_overflow in E by assumption. discriminate E. }
  pose proof (mzed_echelonize_ok k0 l2 full Hk Hs) as W. rewrite E in W. exact W.
Qed.
End Top.
