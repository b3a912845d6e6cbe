(** Applying permutations to packed and sliced matrices. *)
From Coq Require Import NArith ZArith Lia List Bool Arith.
From Coq Require Import ZifyBool ZifyNat ZifyN.
From Verif Require Import Base Spec LinSpec PolyFacts MatFacts Gf2xModel Gf2eModel Gf2eProofs.
From Verif Require Import MzdModel MzedModel MzedSpec LaneFacts MzedProofs MzedOps SliceModel SliceSpec MzdFacts SliceProofs SliceOps.
From Verif Require Import PermModel PleSpec PleFacts.
Import ListNotations.
Local Open Scope nat_scope.

Fixpoint trs (P : nat -> nat) (j d i : nat) : nat := match d with O => i | S d' => trs P (S j) d' (tr j (P j) i) end.
Lemma trs_snoc P d : forall j i, trs P j (S d) i = tr (j + d) (P (j + d)) (trs P j d i).
Proof.
  induction d as [|d IH]; intros j i; [now rewrite Nat.add_0_r|].
  change (trs P j (S (S d)) i) with (trs P (S j) (S d) (tr j (P j) i)). rewrite IH. cbn [trs]. now replace (S j + d) with (j + S d) by lia.
Qed.
Lemma trs_unswaps P d i : trs P 0 d i = unswaps P d i.
Proof. induction d as [|d IH]; [easy|]. rewrite trs_snoc, IH. reflexivity. Qed.
Lemma unswaps_swaps P t i : unswaps P t (swaps P t i) = i.
Proof. revert i. induction t as [|t IH]; intros i; cbn [swaps unswaps]; [easy|]. rewrite IH. apply tr_tr. Qed.
Lemma swaps_unswaps P t i : swaps P t (unswaps P t i) = i.
Proof. induction t as [|t IH]; cbn [swaps unswaps]; [easy|]. rewrite tr_tr. apply IH. Qed.
Lemma trs_lt P n d : forall j i, (forall k, j <= k < j + d -> k < n /\ P k < n) -> i < n -> trs P j d i < n.
Proof.
  induction d as [|d IH]; intros j i H Hi; cbn [trs]; [easy|]. apply IH; [intros; apply H; lia|].
  apply swp_lt; auto; apply H; lia.
Qed.
Lemma unswaps_lt P t i n : (forall k, k < t -> k < n /\ P k < n) -> i < n -> unswaps P t i < n.
Proof. intros H Hi. rewrite <- trs_unswaps. apply trs_lt; auto. intros; apply H; lia. Qed.

(** a list of transpositions that can be applied to a dimension n *)
Definition perm_fits (n : nat) (P : mzp) : Prop := forall i, i < Nat.min (length P) n -> nth i P 0 < n.

(** ** GF(2) matrices *)
Section Mzd.
Variables (M : mzd) (P : mzp).
Hypothesis HM : wf_mzd M.
Let p := at_ P.

Ltac trbit G := match goal with |- context [tr ?a ?b ?i] => unfold tr end;
  repeat match goal with |- context [?x =? ?y] => destruct (Nat.eqb_spec x y) end; apply G; lia.

Lemma apply_left_ok : perm_fits (mzd_nrows M) P ->
  wp (mzd_apply_p_left M P) (fun M' => mset M M' (fun i k => mbit M (swaps p (Nat.min (length P) (mzd_nrows M)) i) k)).
Proof.
  intros HP. unfold mzd_apply_p_left. destruct (Nat.eqb_spec (mzd_ncols M) 0) as [E|_].
  { cbn [wp]. eapply mset_ext; [now apply mset_refl|]. intros; lia. }
  apply (wp_for (fun t M' => mset M M' (fun i k => mbit M (swaps p t i) k))); [lia| |].
  - eapply mset_ext; [now apply mset_refl|]. easy.
  - intros t M' Ht Sm. rewrite (lget_ok P t 0) by lia. cbn [bind]. pose proof (HP t ltac:(lia)) as Hp. 
    pose proof (mset_nr _ _ _ Sm) as E1. pose proof (mset_nc _ _ _ Sm) as E2.
    eapply wp_mono; [apply row_swap_ok; [apply (mset_wf _ _ _ Sm)|lia|lia]|]. cbv beta. intros M2 S2.
    eapply mset_step; [exact Sm|exact S2|]. cbv beta. intros i k Hi Hk. cbn [swaps]. fold (at_ P t). fold p.
    assert (G : forall i, i < mzd_nrows M -> mbit M' i k = mbit M (swaps p t i) k) by (intros; now apply (mset_bit _ _ _ _ _ Sm)).
    unfold p, at_ in *. trbit G.
Qed.
Lemma apply_left_trans_ok : perm_fits (mzd_nrows M) P ->
  wp (mzd_apply_p_left_trans M P) (fun M' => mset M M' (fun i k => mbit M (unswaps p (Nat.min (length P) (mzd_nrows M)) i) k)).
Proof.
  intros HP. unfold mzd_apply_p_left_trans. destruct (Nat.eqb_spec (mzd_ncols M) 0) as [E|_].
  { cbn [wp]. eapply mset_ext; [now apply mset_refl|]. intros; lia. }
  set (K := Nat.min (length P) (mzd_nrows M)). eapply wp_mono.
  - apply (wp_for_down (fun t M' => mset M M' (fun i k => mbit M (trs p t (K - t) i) k))); [lia| |].
    + eapply mset_ext; [now apply mset_refl|]. intros. now rewrite Nat.sub_diag.
    + intros t M' Ht Sm. rewrite (lget_ok P t 0) by lia. cbn [bind]. pose proof (HP t ltac:(lia)) as Hp. 
      pose proof (mset_nr _ _ _ Sm) as E1. pose proof (mset_nc _ _ _ Sm) as E2.
      eapply wp_mono; [apply row_swap_ok; [apply (mset_wf _ _ _ Sm)|lia|lia]|]. cbv beta. intros M2 S2.
      eapply mset_step; [exact Sm|exact S2|]. cbv beta. intros i k Hi Hk. replace (K - t) with (S (K - S t)) by lia. cbn [trs].
      assert (G : forall i, i < mzd_nrows M -> mbit M' i k = mbit M (trs p (S t) (K - S t) i) k) by (intros; now apply (mset_bit _ _ _ _ _ Sm)).
      unfold p, at_ in *. trbit G.
  - cbv beta. intros M' Sm. eapply mset_ext; [exact Sm|]. cbv beta. intros. now rewrite Nat.sub_0_r, trs_unswaps.
Qed.
Lemma apply_right_trans_ok : perm_fits (mzd_ncols M) P ->
  wp (mzd_apply_p_right_trans M P) (fun M' => mset M M' (fun i k => mbit M i (swaps p (Nat.min (length P) (mzd_ncols M)) k))).
Proof.
  intros HP. unfold mzd_apply_p_right_trans. destruct (Nat.eqb_spec (mzd_nrows M) 0) as [E|_].
  { cbn [wp]. eapply mset_ext; [now apply mset_refl|]. intros; lia. }
  apply (wp_for (fun t M' => mset M M' (fun i k => mbit M i (swaps p t k)))); [lia| |].
  - eapply mset_ext; [now apply mset_refl|]. easy.
  - intros t M' Ht Sm. rewrite (lget_ok P t 0) by lia. cbn [bind]. pose proof (HP t ltac:(lia)) as Hp. 
    pose proof (mset_nr _ _ _ Sm) as E1. pose proof (mset_nc _ _ _ Sm) as E2.
    eapply wp_mono; [apply col_swap_ok; [apply (mset_wf _ _ _ Sm)|lia|lia]|]. cbv beta. intros M2 S2.
    eapply mset_step; [exact Sm|exact S2|]. cbv beta. intros i k Hi Hk. cbn [swaps].
    assert (G : forall k, k < mzd_ncols M -> mbit M' i k = mbit M i (swaps p t k)) by (intros; now apply (mset_bit _ _ _ _ _ Sm)).
    unfold p, at_ in *. trbit G.
Qed.
Lemma apply_right_ok : perm_fits (mzd_ncols M) P ->
  wp (mzd_apply_p_right M P) (fun M' => mset M M' (fun i k => mbit M i (unswaps p (Nat.min (length P) (mzd_ncols M)) k))).
Proof.
  intros HP. unfold mzd_apply_p_right. destruct (Nat.eqb_spec (mzd_nrows M) 0) as [E|_].
  { cbn [wp]. eapply mset_ext; [now apply mset_refl|]. intros; lia. }
  set (K := Nat.min (length P) (mzd_ncols M)). eapply wp_mono.
  - apply (wp_for_down (fun t M' => mset M M' (fun i k => mbit M i (trs p t (K - t) k)))); [lia| |].
    + eapply mset_ext; [now apply mset_refl|]. intros. now rewrite Nat.sub_diag.
    + intros t M' Ht Sm. rewrite (lget_ok P t 0) by lia. cbn [bind]. pose proof (HP t ltac:(lia)) as Hp. 
      pose proof (mset_nr _ _ _ Sm) as E1. pose proof (mset_nc _ _ _ Sm) as E2.
      eapply wp_mono; [apply col_swap_ok; [apply (mset_wf _ _ _ Sm)|lia|lia]|]. cbv beta. intros M2 S2.
      eapply mset_step; [exact Sm|exact S2|]. cbv beta. intros i k Hi Hk. replace (K - t) with (S (K - S t)) by lia. cbn [trs].
      assert (G : forall k, k < mzd_ncols M -> mbit M' i k = mbit M i (trs p (S t) (K - S t) k)) by (intros; now apply (mset_bit _ _ _ _ _ Sm)).
      unfold p, at_ in *. trbit G.
  - cbv beta. intros M' Sm. eapply mset_ext; [exact Sm|]. cbv beta. intros. now rewrite Nat.sub_0_r, trs_unswaps.
Qed.
(** only the swaps j with j > i act on row i *)
Lemma apply_tri_ok : length P = mzd_ncols M -> perm_fits (mzd_ncols M) P ->
  wp (mzd_apply_p_right_trans_tri M P) (fun M' => mset M M' (fun i k => mbit M i (swaps (fun j => if i <? j then p j else j) (mzd_ncols M) k))).
Proof.
  intros L HP. unfold mzd_apply_p_right_trans_tri. replace (length P =? mzd_ncols M) with true by lia. cbn [guard bind].
  apply (wp_for (fun t M' => mset M M' (fun i k => mbit M i (swaps (fun j => if i <? j then p j else j) t k)))); [lia| |].
  - eapply mset_ext; [now apply mset_refl|]. easy.
  - intros t M' Ht Sm. rewrite (lget_ok P t 0) by lia. cbn [bind]. pose proof (HP t ltac:(lia)) as Hp.
    pose proof (mset_nr _ _ _ Sm) as E1. pose proof (mset_nc _ _ _ Sm) as E2.
    eapply wp_mono; [apply col_swap_in_rows_ok; [apply (mset_wf _ _ _ Sm)|lia|lia|lia]|]. cbv beta. intros M2 S2.
    eapply mset_step; [exact Sm|exact S2|]. cbv beta. intros i k Hi Hk. cbn [swaps].
    assert (G : forall k, k < mzd_ncols M -> mbit M' i k = mbit M i (swaps (fun j => if i <? j then p j else j) t k)) by (intros; now apply (mset_bit _ _ _ _ _ Sm)).
    replace ((0 <=? i) && (i <? Nat.min t (mzd_nrows M'))) with (i <? t) by lia.
    destruct (Nat.ltb_spec i t).
    + unfold p, at_ in *. trbit G.
    + rewrite tr_out_id. now apply G.
Qed.
End Mzd.

(** ** sliced matrices *)
Section Slice.
Variables (A : slice) (P : mzp).
Hypothesis HA : wf_slice A.
Let p := at_ P.
Ltac lift K := apply map_ok; auto; [intros; now apply sentry_in|]; intros s Hs W R1 R2;
  eapply wp_mono; [apply K; auto; rewrite ?R1, ?R2; auto|]; cbv beta; intros x' Hx; eapply mset_ext; [exact Hx|]; cbv beta;
  rewrite ?R1, ?R2; intros i k _ _; now rewrite sbit by easy.
Lemma slice_apply_left_ok : perm_fits (sl_nrows A) P ->
  wp (mzd_slice_apply_p_left A P) (fun A' => sbecomes A A' (fun i k => sentry A (swaps p (Nat.min (length P) (sl_nrows A)) i) k)).
Proof. intros HP. lift apply_left_ok. Qed.
Lemma slice_apply_left_trans_ok : perm_fits (sl_nrows A) P ->
  wp (mzd_slice_apply_p_left_trans A P) (fun A' => sbecomes A A' (fun i k => sentry A (unswaps p (Nat.min (length P) (sl_nrows A)) i) k)).
Proof. intros HP. lift apply_left_trans_ok. Qed.
Lemma slice_apply_right_ok : perm_fits (sl_ncols A) P ->
  wp (mzd_slice_apply_p_right A P) (fun A' => sbecomes A A' (fun i k => sentry A i (unswaps p (Nat.min (length P) (sl_ncols A)) k))).
Proof. intros HP. lift apply_right_ok. Qed.
Lemma slice_apply_right_trans_ok : perm_fits (sl_ncols A) P ->
  wp (mzd_slice_apply_p_right_trans A P) (fun A' => sbecomes A A' (fun i k => sentry A i (swaps p (Nat.min (length P) (sl_ncols A)) k))).
Proof. intros HP. lift apply_right_trans_ok. Qed.
Lemma slice_apply_tri_ok : length P = sl_ncols A -> perm_fits (sl_ncols A) P ->
  wp (mzd_slice_apply_p_right_trans_tri A P) (fun A' => sbecomes A A' (fun i k => sentry A i (swaps (fun j => if i <? j then p j else j) (sl_ncols A) k))).
Proof. intros L HP. lift apply_tri_ok. Qed.
End Slice.

(** ** packed matrices *)
Lemma wp_bind_inv {X Y} (m : res X) (k : X -> res Y) Q : wp (bind m k) Q -> wp m (fun a => wp (k a) Q).
Proof. destruct m; cbn; auto. Qed.
Section Mzed.
Variables (A : mzed) (P : mzp).
Hypothesis HA : wf_mzed A.
Let p := at_ P.
Lemma set_x_id : mz_set_x A (mz_x A) = A. Proof. now destruct A. Qed.
Lemma x_swap x F t q : becomes A (mz_set_x A x) F -> t < mz_nrows A -> q < mz_nrows A ->
  wp (mzd_row_swap x t q) (fun x' => becomes A (mz_set_x A x') (fun i c => F (tr t q i) c)).
Proof.
  intros B Ht Hq. pose proof (becomes_wf _ _ _ B) as W.
  pose proof (mzed_row_swap_ok (mz_set_x A x) t q W Ht Hq) as K. unfold mzed_row_swap in K.
  apply wp_bind_inv in K. eapply wp_mono; [exact K|]. cbv beta. intros x' B'. cbn [wp] in B'.
  eapply becomes_step; [exact B|exact B'|]. cbv beta. intros i c Hi Hc. unfold tr.
  destruct (i =? t); [now apply (becomes_entry _ _ _ _ _ B)|]. destruct (i =? q); now apply (becomes_entry _ _ _ _ _ B).
Qed.
Lemma x_zero : mzd_ncols (mz_x A) = 0 -> forall F, becomes A (mz_set_x A (mz_x A)) F.
Proof.
  intros E F. rewrite set_x_id. eapply becomes_ext; [now apply becomes_refl|]. intros i c Hi Hc.
  pose proof (good_w_pos _ (wf_good A HA)). destruct HA as (_ & _ & _ & Hnc & _). nia.
Qed.
Theorem mzed_apply_left_ok : perm_fits (mz_nrows A) P ->
  wp (mzed_apply_p_left A P) (fun A' => becomes A A' (fun i c => entry A (swaps p (Nat.min (length P) (mz_nrows A)) i) c)).
Proof.
  intros HP. unfold mzed_apply_p_left, mzd_apply_p_left. replace (mzd_nrows (mz_x A)) with (mz_nrows A) by (symmetry; apply HA).
  apply wp_bind. destruct (Nat.eqb_spec (mzd_ncols (mz_x A)) 0) as [E|_]; [cbn [wp]; now apply x_zero|].
  apply (wp_for (fun t x => becomes A (mz_set_x A x) (fun i c => entry A (swaps p t i) c))); [lia| |].
  - rewrite set_x_id. now apply becomes_refl.
  - intros t x Ht B. rewrite (lget_ok P t 0) by lia. cbn [bind]. pose proof (HP t ltac:(lia)) as Hp.
    eapply wp_mono; [apply (x_swap x _ t (nth t P 0) B); lia|]. cbv beta. intros x' B'. exact B'.
Qed.
Theorem mzed_apply_left_trans_ok : perm_fits (mz_nrows A) P ->
  wp (mzed_apply_p_left_trans A P) (fun A' => becomes A A' (fun i c => entry A (unswaps p (Nat.min (length P) (mz_nrows A)) i) c)).
Proof.
  intros HP. unfold mzed_apply_p_left_trans, mzd_apply_p_left_trans. replace (mzd_nrows (mz_x A)) with (mz_nrows A) by (symmetry; apply HA).
  apply wp_bind. destruct (Nat.eqb_spec (mzd_ncols (mz_x A)) 0) as [E|_]; [cbn [wp]; now apply x_zero|].
  set (K := Nat.min (length P) (mz_nrows A)). eapply wp_mono.
  - apply (wp_for_down (fun t x => becomes A (mz_set_x A x) (fun i c => entry A (trs p t (K - t) i) c))); [lia| |].
    + rewrite set_x_id, Nat.sub_diag. now apply becomes_refl.
    + intros t x Ht B. rewrite (lget_ok P t 0) by lia. cbn [bind]. pose proof (HP t ltac:(lia)) as Hp.
      eapply wp_mono; [apply (x_swap x _ t (nth t P 0) B); lia|]. cbv beta. intros x' B'. replace (K - t) with (S (K - S t)) by lia. exact B'.
  - cbv beta. intros x B. cbn [wp]. eapply becomes_ext; [exact B|]. cbv beta. intros. now rewrite Nat.sub_0_r, trs_unswaps.
Qed.
Lemma col_step B F t q : becomes A B F -> t < mz_ncols A -> q < mz_ncols A ->
  wp (mzed_col_swap B t q) (fun B' => becomes A B' (fun i c => F i (tr t q c))).
Proof.
  intros HB Ht Hq. pose proof (becomes_wf _ _ _ HB) as W. pose proof (becomes_nc _ _ _ HB). pose proof (becomes_nr _ _ _ HB).
  eapply wp_mono; [apply mzed_col_swap_ok; auto; lia|]. cbv beta. intros B' HB'.
  eapply becomes_step; [exact HB|exact HB'|]. cbv beta. intros i c Hi Hc. unfold tr.
  destruct (c =? t); [now apply (becomes_entry _ _ _ _ _ HB)|]. destruct (c =? q); now apply (becomes_entry _ _ _ _ _ HB).
Qed.
Theorem mzed_apply_right_ok : perm_fits (mz_ncols A) P ->
  wp (mzed_apply_p_right A P) (fun A' => becomes A A' (fun i c => entry A i (unswaps p (Nat.min (length P) (mz_ncols A)) c))).
Proof.
  intros HP. unfold mzed_apply_p_right. destruct (Nat.eqb_spec (mz_nrows A) 0) as [E|_].
  { cbn [wp]. eapply becomes_ext; [now apply becomes_refl|]. intros; lia. }
  set (K := Nat.min (length P) (mz_ncols A)). eapply wp_mono.
  - apply (wp_for_down (fun t B => becomes A B (fun i c => entry A i (trs p t (K - t) c)))); [lia| |].
    + rewrite Nat.sub_diag. now apply becomes_refl.
    + intros t B Ht HB. rewrite (lget_ok P t 0) by lia. cbn [bind]. pose proof (HP t ltac:(lia)) as Hp.
      eapply wp_mono; [apply (col_step B _ t (nth t P 0) HB); lia|]. cbv beta. intros x' B'. replace (K - t) with (S (K - S t)) by lia. exact B'.
  - cbv beta. intros x B. eapply becomes_ext; [exact B|]. cbv beta. intros. now rewrite Nat.sub_0_r, trs_unswaps.
Qed.
Theorem mzed_apply_right_trans_ok : perm_fits (mz_ncols A) P ->
  wp (mzed_apply_p_right_trans A P) (fun A' => becomes A A' (fun i c => entry A i (swaps p (Nat.min (length P) (mz_ncols A)) c))).
Proof.
  intros HP. unfold mzed_apply_p_right_trans. destruct (Nat.eqb_spec (mz_nrows A) 0) as [E|_].
  { cbn [wp]. eapply becomes_ext; [now apply becomes_refl|]. intros; lia. }
  apply (wp_for (fun t B => becomes A B (fun i c => entry A i (swaps p t c)))); [lia| |].
  - now apply becomes_refl.
  - intros t B Ht HB. rewrite (lget_ok P t 0) by lia. cbn [bind]. pose proof (HP t ltac:(lia)) as Hp.
    eapply wp_mono; [apply (col_step B _ t (nth t P 0) HB); lia|]. cbv beta. intros x' B'. exact B'.
Qed.
End Mzed.
