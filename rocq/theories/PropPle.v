(** Properties C32, C33, C45: PLE decompositions and permutations. *)
From Coq Require Import NArith ZArith Lia List Bool Arith.
From Coq Require Import ZifyBool ZifyNat ZifyN.
From Verif Require Import Base Spec LinSpec PolyFacts MatFacts Gf2xModel Gf2eModel Gf2eProofs.
From Verif Require Import MzdModel MzedModel MzedSpec LaneFacts MzedProofs MzedOps MzedOps2 Demo EchFacts EchNaive NjModel NjTable NjMul NjEch IrrTable IrrProofs.
From Verif Require Import StrassenModel StrassenProofs SliceModel SliceSpec SliceProofs SliceOps KaraModel ConvModel ConvCling PropSlice.
From Verif Require Import PermModel PleModel PleSpec PleFacts PleRank PleProofs PermProofs.
Import ListNotations.
Local Open Scope nat_scope.

(** ** C32: P*A = L*E, packed, and the rank, whatever the permutations contained before *)
Definition decomposes (A : mzed) (x : mzed * mzp * mzp * nat) : Prop :=
  let '(A', P', Q', r) := x in
  becomes A A' (entry A') /\ length P' = mz_nrows A /\ length Q' = mz_ncols A /\
  is_ple (ff_minpoly (mz_ff A)) (mz_nrows A) (mz_ncols A) (entry A) (entry A') (at_ P') (at_ Q') r /\
  is_rank (ff_minpoly (mz_ff A)) (mz_nrows A) (mz_ncols A) (entry A) r.
Lemma ple_res_decomposes A x : irreducible (fld A) -> wf_mzed A -> ple_res A x -> decomposes A x.
Proof.
  destruct x as [[[A' P'] Q'] r]. intros Hirr HA (H1 & H2 & H3 & H4 & H5 & H6).
  split; [exact H1|]. split; [exact H2|]. split; [exact H3|]. split; [exact H6|].
  apply (ple_rank (fld A) Hirr (wf_deg1 A HA) _ _ _ (entry A') (at_ P') (at_ Q')); [| |exact H6].
  - intros i j Hi Hj. now apply wf_entry.
  - intros i j Hi Hj. pose proof (becomes_ff _ _ _ H1) as E. pose proof (becomes_nr _ _ _ H1). pose proof (becomes_nc _ _ _ H1).
    rewrite <- E. apply wf_entry; [apply H1|lia|lia].
Qed.
Theorem C32_ple_naive : forall A P Q, irreducible (ff_minpoly (mz_ff A)) -> wf_mzed A -> length P = mz_nrows A -> length Q = mz_ncols A ->
  exists x, mzed_ple_naive A P Q = Ok x /\ decomposes A x.
Proof.
  intros A P Q Hirr HA HP HQ. destruct (proj1 (wp_iff _ _) (mzed_ple_naive_ok A P Q Hirr HA HP HQ)) as (x & E & H).
  exists x. split; [exact E|]. now apply ple_res_decomposes.
Qed.
Print Assumptions C32_ple_naive.
Example C32_witness :
  (A <- mk 0xb 3 4 (of_rows [[0; 2; 1; 3]; [0; 4; 2; 6]; [5; 1; 0; 1]]%N) ;; '(A', P, Q, r) <- mzed_ple_naive A [0; 0; 0] [0; 0; 0; 0] ;;
   Ok (to_rows A', P, Q, r)) = Ok ([[5; 2; 0; 2]; [0; 4; 5; 4]; [0; 2; 0; 0]]%N, [2; 1; 2], [0; 1; 2; 3], 2).
Proof. vm_compute. reflexivity. Qed.

(** ** C33: the Newton-John PLE returns exactly what the naive one does *)
Theorem C33_ple_newton_john : forall A P Q, irreducible (ff_minpoly (mz_ff A)) -> wf_mzed A ->
  mzed_ple_newton_john A P Q = mzed_ple_naive A P Q.
Proof. intros. now apply mzed_ple_nj_eq. Qed.
Theorem C33_ple_newton_john_decomposes : forall A P Q, irreducible (ff_minpoly (mz_ff A)) -> wf_mzed A -> length P = mz_nrows A -> length Q = mz_ncols A ->
  exists x, mzed_ple_newton_john A P Q = Ok x /\ decomposes A x.
Proof. intros. rewrite C33_ple_newton_john by easy. now apply C32_ple_naive. Qed.
Print Assumptions C33_ple_newton_john.
Print Assumptions C33_ple_newton_john_decomposes.
Example C33_witness :
  (A <- mk 0x13 4 5 (of_rows [[0; 0; 9; 3; 1]; [0; 0; 0; 0; 7]; [0; 12; 0; 1; 2]; [0; 12; 9; 2; 3]]%N) ;; '(A', P, Q, r) <- mzed_ple_newton_john A [0; 0; 0; 0] [0; 0; 0; 0; 0] ;;
   Ok (to_rows A', P, Q, r)) =
  Ok ([[12; 0; 0; 10; 7]; [0; 9; 0; 6; 2]; [0; 0; 7; 0; 0]; [12; 9; 0; 0; 0]]%N, [2; 2; 2; 3], [1; 2; 4; 3; 4], 3).
Proof. vm_compute. reflexivity. Qed.

(** ** C45: permutations.  [perm_ok n P]: every transposition within the dimension n can be performed.
    Left: rows; right: columns; [swaps]/[unswaps] of PleSpec: swaps 0<->P 0, 1<->P 1, ... in this or in the opposite order;
    [eff n P]: how many transpositions take part (the list may be shorter or longer than the dimension) *)
Definition perm_ok (n : nat) (P : mzp) : Prop := forall i, i < Nat.min (length P) n -> nth i P 0 < n.
Definition eff (n : nat) (P : mzp) : nat := Nat.min (length P) n.
Theorem C45_mzed_apply : forall A P, wf_mzed A ->
  (perm_ok (mz_nrows A) P ->
     (exists B, mzed_apply_p_left A P = Ok B /\ becomes A B (fun i j => entry A (swaps (at_ P) (eff (mz_nrows A) P) i) j)) /\
     (exists B, mzed_apply_p_left_trans A P = Ok B /\ becomes A B (fun i j => entry A (unswaps (at_ P) (eff (mz_nrows A) P) i) j))) /\
  (perm_ok (mz_ncols A) P ->
     (exists B, mzed_apply_p_right A P = Ok B /\ becomes A B (fun i j => entry A i (unswaps (at_ P) (eff (mz_ncols A) P) j))) /\
     (exists B, mzed_apply_p_right_trans A P = Ok B /\ becomes A B (fun i j => entry A i (swaps (at_ P) (eff (mz_ncols A) P) j)))).
Proof.
  intros A P HA. split; intros HP; split; apply wp_iff.
  - now apply mzed_apply_left_ok.
  - now apply mzed_apply_left_trans_ok.
  - now apply mzed_apply_right_ok.
  - now apply mzed_apply_right_trans_ok.
Qed.
Theorem C45_slice_apply : forall A P, wf_slice A ->
  (perm_ok (sl_nrows A) P ->
     (exists B, mzd_slice_apply_p_left A P = Ok B /\ sbecomes A B (fun i j => sentry A (swaps (at_ P) (eff (sl_nrows A) P) i) j)) /\
     (exists B, mzd_slice_apply_p_left_trans A P = Ok B /\ sbecomes A B (fun i j => sentry A (unswaps (at_ P) (eff (sl_nrows A) P) i) j))) /\
  (perm_ok (sl_ncols A) P ->
     (exists B, mzd_slice_apply_p_right A P = Ok B /\ sbecomes A B (fun i j => sentry A i (unswaps (at_ P) (eff (sl_ncols A) P) j))) /\
     (exists B, mzd_slice_apply_p_right_trans A P = Ok B /\ sbecomes A B (fun i j => sentry A i (swaps (at_ P) (eff (sl_ncols A) P) j))) /\
     (** the "tri" variant performs swap j only in the rows above row j *)
     (length P = sl_ncols A -> exists B, mzd_slice_apply_p_right_trans_tri A P = Ok B /\
        sbecomes A B (fun i j => sentry A i (swaps (fun k => if i <? k then at_ P k else k) (sl_ncols A) j)))).
Proof.
  intros A P HA. split; intros HP; [split|split; [|split; [|intros HL]]]; apply wp_iff.
  - now apply slice_apply_left_ok.
  - now apply slice_apply_left_trans_ok.
  - now apply slice_apply_right_ok.
  - now apply slice_apply_right_trans_ok.
  - now apply slice_apply_tri_ok.
Qed.
(** applying a permutation and then its transpose, in either order, gives every entry back *)
Lemma inv_becomes A B C (g h : nat -> nat) : becomes A B (fun i j => entry A (g i) j) -> becomes B C (fun i j => entry B (h i) j) ->
  (forall i, g (h i) = i) -> (forall i, i < mz_nrows A -> h i < mz_nrows A) -> becomes A C (entry A).
Proof.
  intros H1 H2 Hg Hh. pose proof (becomes_nr _ _ _ H1). pose proof (becomes_nc _ _ _ H1).
  eapply becomes_step; [exact H1|exact H2|]. cbv beta. intros i c Hi Hc. rewrite (becomes_entry _ _ _ _ _ H1) by (auto; lia). now rewrite Hg.
Qed.
Lemma inv_becomes_c A B C (g h : nat -> nat) : becomes A B (fun i j => entry A i (g j)) -> becomes B C (fun i j => entry B i (h j)) ->
  (forall i, g (h i) = i) -> (forall i, i < mz_ncols A -> h i < mz_ncols A) -> becomes A C (entry A).
Proof.
  intros H1 H2 Hg Hh. pose proof (becomes_nr _ _ _ H1). pose proof (becomes_nc _ _ _ H1).
  eapply becomes_step; [exact H1|exact H2|]. cbv beta. intros i c Hi Hc. rewrite (becomes_entry _ _ _ _ _ H1) by (auto; lia). now rewrite Hg.
Qed.
Lemma sinv_becomes A B C (g h : nat -> nat) : wf_slice A -> sbecomes A B (fun i j => sentry A (g i) j) -> sbecomes B C (fun i j => sentry B (h i) j) ->
  (forall i, g (h i) = i) -> (forall i, i < sl_nrows A -> h i < sl_nrows A) -> sbecomes A C (sentry A).
Proof.
  intros HA H1 H2 Hg Hh. eapply sb_step; [exact HA|exact H1|exact H2|]. cbv beta. intros i c Hi Hc. rewrite (sb_entry _ _ _ _ _ H1) by (auto; lia). now rewrite Hg.
Qed.
Lemma sinv_becomes_c A B C (g h : nat -> nat) : wf_slice A -> sbecomes A B (fun i j => sentry A i (g j)) -> sbecomes B C (fun i j => sentry B i (h j)) ->
  (forall i, g (h i) = i) -> (forall i, i < sl_ncols A -> h i < sl_ncols A) -> sbecomes A C (sentry A).
Proof.
  intros HA H1 H2 Hg Hh. eapply sb_step; [exact HA|exact H1|exact H2|]. cbv beta. intros i c Hi Hc. rewrite (sb_entry _ _ _ _ _ H1) by (auto; lia). now rewrite Hg.
Qed.
Lemma eff_swaps n P i : perm_ok n P -> i < n -> swaps (at_ P) (eff n P) i < n.
Proof. intros H Hi. apply swaps_lt; auto. intros k Hk. unfold eff in Hk. split; [lia|now apply H]. Qed.
Lemma eff_unswaps n P i : perm_ok n P -> i < n -> unswaps (at_ P) (eff n P) i < n.
Proof. intros H Hi. apply unswaps_lt; auto. intros k Hk. unfold eff in Hk. split; [lia|now apply H]. Qed.
Theorem C45_mzed_inverse : forall A P, wf_mzed A ->
  (perm_ok (mz_nrows A) P ->
     (exists B, (B <- mzed_apply_p_left A P ;; mzed_apply_p_left_trans B P) = Ok B /\ becomes A B (entry A)) /\
     (exists B, (B <- mzed_apply_p_left_trans A P ;; mzed_apply_p_left B P) = Ok B /\ becomes A B (entry A))) /\
  (perm_ok (mz_ncols A) P ->
     (exists B, (B <- mzed_apply_p_right A P ;; mzed_apply_p_right_trans B P) = Ok B /\ becomes A B (entry A)) /\
     (exists B, (B <- mzed_apply_p_right_trans A P ;; mzed_apply_p_right B P) = Ok B /\ becomes A B (entry A))).
Proof.
  intros A P HA. split; intros HP.
  - destruct (proj1 (C45_mzed_apply A P HA) HP) as [(B & E & HB) (B' & E' & HB')]. rewrite E, E'. cbn [bind].
    pose proof (becomes_wf _ _ _ HB) as W. pose proof (becomes_wf _ _ _ HB') as W'. pose proof (becomes_nr _ _ _ HB) as N1. pose proof (becomes_nr _ _ _ HB') as N2. split.
    + destruct (proj1 (C45_mzed_apply B P W)) as [_ (C & EC & HC)]; [now rewrite N1|]. rewrite N1 in HC. exists C. split; [exact EC|].
      eapply inv_becomes; [exact HB|exact HC| |]; cbv beta; intros; [apply swaps_unswaps|now apply eff_unswaps].
    + destruct (proj1 (C45_mzed_apply B' P W')) as [(C & EC & HC) _]; [now rewrite N2|]. rewrite N2 in HC. exists C. split; [exact EC|].
      eapply inv_becomes; [exact HB'|exact HC| |]; cbv beta; intros; [apply unswaps_swaps|now apply eff_swaps].
  - destruct (proj2 (C45_mzed_apply A P HA) HP) as [(B & E & HB) (B' & E' & HB')]. rewrite E, E'. cbn [bind].
    pose proof (becomes_wf _ _ _ HB) as W. pose proof (becomes_wf _ _ _ HB') as W'. pose proof (becomes_nc _ _ _ HB) as N1. pose proof (becomes_nc _ _ _ HB') as N2. split.
    + destruct (proj2 (C45_mzed_apply B P W)) as [_ (C & EC & HC)]; [now rewrite N1|]. rewrite N1 in HC. exists C. split; [exact EC|].
      eapply inv_becomes_c; [exact HB|exact HC| |]; cbv beta; intros; [apply unswaps_swaps|now apply eff_swaps].
    + destruct (proj2 (C45_mzed_apply B' P W')) as [(C & EC & HC) _]; [now rewrite N2|]. rewrite N2 in HC. exists C. split; [exact EC|].
      eapply inv_becomes_c; [exact HB'|exact HC| |]; cbv beta; intros; [apply swaps_unswaps|now apply eff_unswaps].
Qed.
Theorem C45_slice_inverse : forall A P, wf_slice A ->
  (perm_ok (sl_nrows A) P ->
     (exists B, (B <- mzd_slice_apply_p_left A P ;; mzd_slice_apply_p_left_trans B P) = Ok B /\ sbecomes A B (sentry A)) /\
     (exists B, (B <- mzd_slice_apply_p_left_trans A P ;; mzd_slice_apply_p_left B P) = Ok B /\ sbecomes A B (sentry A))) /\
  (perm_ok (sl_ncols A) P ->
     (exists B, (B <- mzd_slice_apply_p_right A P ;; mzd_slice_apply_p_right_trans B P) = Ok B /\ sbecomes A B (sentry A)) /\
     (exists B, (B <- mzd_slice_apply_p_right_trans A P ;; mzd_slice_apply_p_right B P) = Ok B /\ sbecomes A B (sentry A))).
Proof.
  intros A P HA. split; intros HP.
  - destruct (proj1 (C45_slice_apply A P HA) HP) as [(B & E & HB) (B' & E' & HB')]. rewrite E, E'. cbn [bind].
    pose proof (sb_wf _ _ _ HB) as W. pose proof (sb_wf _ _ _ HB') as W'. pose proof (sb_nr _ _ _ HB) as N1. pose proof (sb_nr _ _ _ HB') as N2. split.
    + destruct (proj1 (C45_slice_apply B P W)) as [_ (C & EC & HC)]; [now rewrite N1|]. rewrite N1 in HC. exists C. split; [exact EC|].
      eapply sinv_becomes; [exact HA|exact HB|exact HC| |]; cbv beta; intros; [apply swaps_unswaps|now apply eff_unswaps].
    + destruct (proj1 (C45_slice_apply B' P W')) as [(C & EC & HC) _]; [now rewrite N2|]. rewrite N2 in HC. exists C. split; [exact EC|].
      eapply sinv_becomes; [exact HA|exact HB'|exact HC| |]; cbv beta; intros; [apply unswaps_swaps|now apply eff_swaps].
  - destruct (proj2 (C45_slice_apply A P HA) HP) as [(B & E & HB) [(B' & E' & HB') _]]. rewrite E, E'. cbn [bind].
    pose proof (sb_wf _ _ _ HB) as W. pose proof (sb_wf _ _ _ HB') as W'. pose proof (sb_nc _ _ _ HB) as N1. pose proof (sb_nc _ _ _ HB') as N2. split.
    + destruct (proj2 (C45_slice_apply B P W)) as [_ [(C & EC & HC) _]]; [now rewrite N1|]. rewrite N1 in HC. exists C. split; [exact EC|].
      eapply sinv_becomes_c; [exact HA|exact HB|exact HC| |]; cbv beta; intros; [apply unswaps_swaps|now apply eff_swaps].
    + destruct (proj2 (C45_slice_apply B' P W')) as [(C & EC & HC) _]; [now rewrite N2|]. rewrite N2 in HC. exists C. split; [exact EC|].
      eapply sinv_becomes_c; [exact HA|exact HB'|exact HC| |]; cbv beta; intros; [apply swaps_unswaps|now apply eff_unswaps].
Qed.
Print Assumptions C45_mzed_apply.
Print Assumptions C45_slice_apply.
Print Assumptions C45_mzed_inverse.
Print Assumptions C45_slice_inverse.
Example C45_witness :
  (A <- mk 0xb 3 4 (of_rows [[0; 1; 2; 3]; [4; 5; 6; 7]; [1; 3; 5; 7]]%N) ;;
   B <- mzed_apply_p_left A [1; 2; 2] ;; C <- mzed_apply_p_left_trans A [1; 2; 2] ;;
   D <- mzed_apply_p_right A [1; 2; 3; 3] ;; E <- mzed_apply_p_right_trans A [1; 2; 3; 3] ;; Ok (map to_rows [B; C; D; E])) =
  Ok [[[4; 5; 6; 7]; [1; 3; 5; 7]; [0; 1; 2; 3]]; [[1; 3; 5; 7]; [0; 1; 2; 3]; [4; 5; 6; 7]];
      [[3; 0; 1; 2]; [7; 4; 5; 6]; [7; 1; 3; 5]]; [[1; 2; 3; 0]; [5; 6; 7; 4]; [3; 5; 7; 1]]]%N.
Proof. vm_compute. reflexivity. Qed.
