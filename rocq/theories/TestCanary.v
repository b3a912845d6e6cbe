(** Proofs about the canaries of testing.h. *)
From Coq Require Import NArith ZArith Lia List Bool Arith.
From Coq Require Import ZifyBool ZifyNat ZifyN.
From Verif Require Import HistSpec HistModel.
From Verif Require Import Base Spec PolyFacts Gf2xModel Gf2xProofs Gf2eModel Gf2eProofs MzdModel MzedModel MzedSpec LaneFacts MzedProofs MzedOps MzedOps2 FrameProofs.
From Verif Require Import TestModel.
Import ListNotations.
Local Open Scope nat_scope.

Lemma lane_fold w v l : forall k, good_w w -> (v < 2 ^ N.of_nat w)%N -> (forall j, In j l -> j < per w) -> k < per w ->
  lane w (fold_right (fun k m => N.lor (wshl v (w * k)) m) 0%N l) k = if existsb (Nat.eqb k) l then v else 0%N.
Proof.
  intros k Hw Hv Hl Hk. induction l as [|j l IH]; cbn [fold_right existsb]; [apply lane_0|].
  rewrite lane_lor, (lane_wshl w v j k (w * j)), IH; auto; [|intros; apply Hl; now right|apply Hl; now left].
  destruct (k =? j), (existsb _ l); cbn [orb]; auto using N.lor_0_l, N.lor_0_r, N.lor_diag.
Qed.
(** the field mask: every slot holds the mask of the field elements, or nothing *)
Lemma field_mask_ok A : wf_mzed A -> exists M, field_mask (mz_ff A) = Ok M /\
  forall k, k < per (mz_w A) -> lane (mz_w A) M k = if mz_w A =? 2 then 0%N else N.ones (N.of_nat (ff_degree (mz_ff A))).
Proof.
  intros H. pose proof (wf_good A H) as Hw. wfd H. unfold field_mask. rewrite Ww. cbn [bind]. eexists. split; [reflexivity|].
  intros k Hk. destruct (mz_w A =? 2); [apply lane_0|].
  destruct (degree_to_w_facts _ _ Ww) as (_ & D & _).
  assert (E : (N.shiftl 1 (N.of_nat (ff_degree (mz_ff A))) - 1)%N = N.ones (N.of_nat (ff_degree (mz_ff A)))) by (unfold N.ones; lia).
  rewrite E. rewrite lane_fold; auto.
  - replace (existsb _ _) with true; [reflexivity|]. symmetry. apply existsb_exists. exists k. split; [apply in_seq; unfold per in Hk; lia|lia].
  - rewrite N.ones_equiv. assert (2 ^ N.of_nat (ff_degree (mz_ff A)) <= 2 ^ N.of_nat (mz_w A))%N by (apply N.pow_le_mono_r; lia).
    assert (0 < 2 ^ N.of_nat (ff_degree (mz_ff A)))%N by (apply N.neq_0_lt_0, N.pow_nonzero; lia). lia.
  - intros j Hj. apply in_seq in Hj. unfold per. lia.
Qed.
(** what the canary leaves in slot k of a word *)
Definition mark (A : mzed) (k : nat) : N :=
  if mz_w A =? 2 then 0%N else N.land (lane (mz_w A) m4rie_canary k) (N.ones (N.of_nat (ff_degree (mz_ff A)))).
Definition marked (A : mzed) : Prop :=
  forall i c, i < mz_nrows A -> mz_ncols A <= c < cap A -> entry A i c = mark A (c mod per (mz_w A)).
Lemma lane_land w x y k : lane w (N.land x y) k = N.land (lane w x k) (lane w y k).
Proof. apply N.bits_inj. intro i. rewrite N.land_spec, !lane_spec, N.land_spec. destruct (i <? N.of_nat w)%N; cbn; auto. Qed.
Lemma mark_in A k : wf_mzed A -> inF (fld A) (mark A k).
Proof.
  intros H. unfold mark. destruct (mz_w A =? 2); [apply inF_0|].
  wfd H. destruct Wff as (_ & Hd & _). unfold inF. rewrite Hd. rewrite N.land_ones. apply N.mod_upper_bound, N.pow_nonzero. lia.
Qed.
Lemma marked_kept A A' : marked A -> kept_p A A' -> marked A'.
Proof.
  intros H (W & (s1 & s2 & s3 & s4) & _ & P) i c Hi Hc. unfold cap in Hc.
  rewrite <- s2, <- s3, <- s4 in *. rewrite P by (unfold cap; auto). unfold mark. rewrite <- s1, <- s2. now apply H.
Qed.

Lemma kept_set_rows A rows : wf_mzed A -> length rows = mz_nrows A ->
  (forall i, i < mz_nrows A -> wf_row (fld A) (mz_w A) (mz_ncols A) (nth i rows []) /\
     (forall c, c < cap A -> rel (mz_w A) (nth i rows []) c = if c <? mz_ncols A then entry A i c else mark A (c mod per (mz_w A)))) ->
  let A' := mz_set_x A (Mzd (mzd_nrows (mz_x A)) (mzd_ncols (mz_x A)) rows) in
  wf_mzed A' /\ same_shape A A' /\ (forall i c, i < mz_nrows A -> c < mz_ncols A -> entry A' i c = entry A i c) /\ marked A'.
Proof.
  intros H Hl Hr A'. wfd H. pose proof (wf_cap A H) as Hcap. split; [|split; [|split]].
  - unfold A', mz_set_x. rewrite Wnr, Wnc. apply wf_intro; auto. intros i Hi. now apply Hr.
  - now repeat split.
  - intros i c Hi Hc. unfold entry at 1, mrow, A', mz_set_x; cbn. destruct (Hr i Hi) as [_ R].
    rewrite R by lia. now replace (c <? mz_ncols A) with true by lia.
  - intros i c Hi Hc. change (mz_nrows A') with (mz_nrows A) in Hi. change (mz_ncols A') with (mz_ncols A) in Hc. change (cap A') with (cap A) in Hc.
    unfold entry, mrow, A', mz_set_x; cbn. destruct (Hr i Hi) as [_ R].
    rewrite R by lia. now replace (c <? mz_ncols A) with false by lia.
Qed.
Lemma lget_nth {X} (l : list X) k d : k < length l -> lget l k = Ok (nth k l d).
Proof. intros Hk. unfold lget. now rewrite (nth_error_nth' l d Hk). Qed.
Section Rows.
Variable A : mzed.
Hypothesis H : wf_mzed A.
Hypothesis Hn : 0 < mz_ncols A.
Let w := mz_w A.
Let e := left_bitmask (mzd_ncols (mz_x A) mod 64).
Let n := width (mzd_ncols (mz_x A)) - 1.
Lemma end_mask : lmask w e (fun k => k <? lastn w (mz_ncols A)) /\ n < width (w * mz_ncols A) /\ mz_ncols A = per w * n + lastn w (mz_ncols A) /\
  0 < lastn w (mz_ncols A) <= per w /\ cap A = per w * (n + 1) /\ (e < 2 ^ 64)%N.
Proof.
  wfd H. pose proof (wf_good A H) as Hw. unfold e, n. rewrite Wnc. fold w. destruct (lastn_spec w (mz_ncols A) Hw Hn) as (L1 & L2 & L3).
  split; [now apply lmask_left|]. split; [lia|]. split; [exact L1|]. split; [exact L2|]. split.
  - unfold cap. fold w. f_equal. lia.
  - rewrite lt_pow2_bits. intros k Hk. rewrite testbit_left_bitmask by (apply Nat.mod_upper_bound; lia).
    pose proof (Nat.mod_upper_bound (w * mz_ncols A) 64 ltac:(lia)). destruct (Nat.eqb_spec (w * mz_ncols A mod 64) 0); lia.
Qed.
(** a slot number splits into the word and the place *)
Lemma slot_split c : c / per w = n -> c = per w * n + c mod per w.
Proof. intros E. pose proof (per_pos w (wf_good A H)). pose proof (Nat.div_mod c (per w) ltac:(lia)). rewrite E in *. lia. Qed.
Lemma canary_lane M k : (forall k, k < per w -> lane w M k = if w =? 2 then 0%N else N.ones (N.of_nat (ff_degree (mz_ff A)))) -> k < per w ->
  lane w (N.land (N.land m4rie_canary M) (wnot e)) k = if k <? lastn w (mz_ncols A) then 0%N else mark A k.
Proof.
  intros HM Hk. destruct end_mask as (E1 & _). pose proof (wf_good A H) as Hw.
  rewrite (lane_lmask w _ _ _ k (lmask_not w _ _ Hw E1) Hk). destruct (k <? _); cbn [negb]; [reflexivity|].
  rewrite lane_land, HM by auto. unfold mark. fold w. destruct (w =? 2); [apply N.land_0_r|reflexivity].
Qed.
Lemma wnot_keep x k : (x < 2 ^ 64)%N -> k < per w -> lane w (N.land x (wnot e)) k = if k <? lastn w (mz_ncols A) then 0%N else lane w x k.
Proof.
  intros Hx Hk. destruct end_mask as (E1 & _). pose proof (wf_good A H) as Hw.
  rewrite (lane_lmask w _ _ _ k (lmask_not w _ _ Hw E1) Hk). destruct (k <? _); reflexivity.
Qed.
Lemma word_lt i j : i < mz_nrows A -> (nth j (mrow (mz_x A) i) 0 < 2 ^ 64)%N.
Proof. intros Hi. apply (wf_row_word _ _ _ _ j (wf_mrow A i H Hi)). Qed.
Lemma lget_row i : i < mz_nrows A -> lget (mzd_rows (mz_x A)) i = Ok (mrow (mz_x A) i).
Proof. intros Hi. wfd H. unfold mrow. apply lget_nth. lia. Qed.
Lemma lget_last i : i < mz_nrows A -> lget (mrow (mz_x A) i) n = Ok (nth n (mrow (mz_x A) i) 0%N).
Proof. intros Hi. destruct end_mask as (_ & L & _). destruct (wf_mrow A i H Hi) as (L1 & _). fold w in L1. apply lget_nth. lia. Qed.

Theorem set_canary_ok : wp (mzed_set_canary A) (fun A' => wf_mzed A' /\ same_shape A A' /\
  (forall i c, i < mz_nrows A -> c < mz_ncols A -> entry A' i c = entry A i c) /\ marked A').
Proof.
  unfold mzed_set_canary. destruct (field_mask_ok A H) as (M & EM & HM). rewrite EM. cbn [bind]. fold e n. fold w in HM.
  pose proof (wf_good A H) as Hw. fold w in Hw. pose proof (per_pos w Hw) as Pw. destruct end_mask as (E1 & E2 & E3 & E4 & E5 & E6).
  set (v := fun i => N.lor (N.land (nth n (mrow (mz_x A) i) 0%N) e) (N.land (N.land m4rie_canary M) (wnot e))).
  pose proof H as H0. wfd H0. clear H0.
  apply wp_bind. eapply wp_mono.
  - apply (wp_for (fun i rows => length rows = mz_nrows A /\ forall j, nth j rows [] = if j <? i then upd (mrow (mz_x A) j) n (v j) else mrow (mz_x A) j)); [lia| |].
    + split; [exact Wlen|]. reflexivity.
    + intros i rows Hi (Hl & Hr). rewrite (lget_nth rows i []) by lia. cbn [bind]. rewrite Hr.
      replace (i <? i) with false by lia. rewrite lget_last by lia. cbn [bind]. unfold lset at 1. destruct (wf_mrow A i H ltac:(lia)) as (L1 & _). fold w in L1.
      replace (n <? length (mrow (mz_x A) i)) with true by lia. cbn [bind]. unfold lset. replace (i <? length rows) with true by lia. cbn [wp].
      split; [now rewrite upd_length|]. intros j. rewrite nth_upd by lia. destruct (Nat.eqb_spec i j) as [<-|Ne].
      * replace (i <? S i) with true by lia. reflexivity.
      * rewrite Hr. replace (j <? S i) with (j <? i) by lia. reflexivity.
  - cbv beta. intros rows (Hl & Hr). cbn [wp]. apply kept_set_rows; auto. intros i Hi. rewrite Hr. replace (i <? mz_nrows A) with true by lia.
    destruct (wf_mrow A i H Hi) as (L1 & L2 & L3). fold w in L1, L3.
    assert (Ev : forall k, k < per w -> lane w (v i) k = if k <? lastn w (mz_ncols A) then lane w (nth n (mrow (mz_x A) i) 0%N) k else mark A k).
    { intros k Hk. unfold v. rewrite lane_lor, (lane_lmask w _ _ _ k E1 Hk), canary_lane by auto.
      destruct (k <? _); [apply N.lor_0_r|apply N.lor_0_l]. }
    assert (R : forall c, c < cap A -> rel w (upd (mrow (mz_x A) i) n (v i)) c = if c <? mz_ncols A then entry A i c else mark A (c mod per w)).
    { intros c Hc. rewrite rel_upd by lia. pose proof (Nat.mod_upper_bound c (per w) ltac:(lia)). pose proof (Nat.div_mod c (per w) ltac:(lia)) as Dm. destruct (Nat.eqb_spec (c / per w) n) as [En|En].
      - rewrite Ev by auto. pose proof (slot_split c En). replace (c <? mz_ncols A) with (c mod per w <? lastn w (mz_ncols A)) by lia.
        destruct (_ <? _); [|reflexivity]. unfold entry, rel. fold w. now rewrite En.
      - assert (c / per w < n). { enough (c / per w < n + 1) by lia. apply Nat.div_lt_upper_bound; lia. }
        replace (c <? mz_ncols A) with true by (symmetry; apply Nat.ltb_lt; nia). reflexivity. }
    split; [|exact R]. split; [now rewrite upd_length|]. split.
    + apply Forall_forall. intros x Hx. apply (In_nth _ _ 0%N) in Hx. destruct Hx as (j & Hj & <-). rewrite upd_length in Hj. rewrite nth_upd by lia.
      destruct (n =? j); [|now apply word_lt]. unfold v. apply lor_lt_pow2; [apply land_lt_pow2; now apply word_lt|].
      rewrite N.land_comm. apply land_lt_pow2. now apply wnot_lt.
    + intros c Hc. fold w. rewrite R by (unfold cap; fold w; exact Hc). destruct (c <? mz_ncols A) eqn:C; [apply wf_entry; auto; lia|now apply mark_in].
Qed.
Theorem alive_ok : exists b, mzed_canary_is_alive A = Ok (c_bool b) /\ (b = true <-> marked A).
Proof.
  unfold mzed_canary_is_alive. destruct (field_mask_ok A H) as (M & EM & HM). rewrite EM. cbn [bind]. fold e n. fold w in HM.
  pose proof (wf_good A H) as Hw. fold w in Hw. pose proof (per_pos w Hw) as Pw. pose proof (per_mul w Hw) as Pm. destruct end_mask as (E1 & E2 & E3 & E4 & E5 & E6).
  set (t := fun i => (N.land (nth n (mrow (mz_x A) i) 0%N) (wnot e) =? N.land (N.land m4rie_canary M) (wnot e))%N).
  assert (T : forall i, i < mz_nrows A -> t i = true <-> forall c, mz_ncols A <= c < cap A -> entry A i c = mark A (c mod per w)).
  { intros i Hi. unfold t. rewrite N.eqb_eq. pose proof (word_lt i n Hi) as Lx. pose proof (good_w_pos w Hw) as Pw0.
    assert (Lk : forall k, k < per w -> rel w (mrow (mz_x A) i) (per w * n + k) = lane w (nth n (mrow (mz_x A) i) 0%N) k) by (intros; now apply rel_word).
    split.
    - intros Ex c Hc. assert (En : c / per w = n). { symmetry. apply (Nat.div_unique c (per w) n (c - per w * n)); lia. }
      pose proof (slot_split c En) as Sc. pose proof (Nat.mod_upper_bound c (per w) ltac:(lia)) as Bc.
      apply (f_equal (fun x => lane w x (c mod per w))) in Ex. rewrite wnot_keep, canary_lane in Ex by auto.
      replace (c mod per w <? lastn w (mz_ncols A)) with false in Ex by lia. unfold entry, rel. fold w. now rewrite En.
    - intros Hc. apply (lane_ext_word w _ _ (per w)); [lia|rewrite Pm; now apply land_lt_pow2| |].
      + rewrite Pm, N.land_comm. apply land_lt_pow2. now apply wnot_lt.
      + intros k Hk. rewrite wnot_keep, canary_lane by auto. destruct (Nat.ltb_spec k (lastn w (mz_ncols A))) as [|G]; [reflexivity|].
        rewrite <- Lk by auto. change (rel w (mrow (mz_x A) i) (per w * n + k)) with (entry A i (per w * n + k)).
        rewrite Hc by lia. f_equal. rewrite Nat.add_comm, Nat.mul_comm, Nat.mod_add by lia. now apply Nat.mod_small. }
  assert (L : wp (for_ 0 (mz_nrows A) (fun i b => if b : bool then r <- lget (mzd_rows (mz_x A)) i ;; x <- lget r n ;;
      Ok (N.land x (wnot e) =? N.land (N.land m4rie_canary M) (wnot e))%N else Ok false) true) (fun b => b = true <-> forall i, i < mz_nrows A -> t i = true)).
  { apply (wp_for (fun i b => b = true <-> forall j, j < i -> t j = true)); [lia|split; [lia|easy]|].
    intros i b Hi Hb. destruct b.
    - rewrite lget_row by lia. cbn [bind]. rewrite lget_last by lia. cbn [bind wp]. fold (t i). split.
      + intros Ti j Hj. destruct (Nat.eq_dec j i) as [->|]; [exact Ti|]. apply Hb; auto. lia.
      + intros Tj. apply Tj. lia.
    - cbn [wp]. split; [easy|]. intros Tj. apply Hb. intros j Hj. apply Tj. lia. }
  apply wp_iff in L. destruct L as (b & Eb & Hb). rewrite Eb. cbn [bind]. exists b. split; [reflexivity|]. rewrite Hb. split.
  - intros Ht i c Hi Hc. now apply T; auto.
  - intros Hm i Hi. apply T; auto.
Qed.
End Rows.
