(** Element-level specifications of the operations of mzed.h / mzed.c. *)
From Coq Require Import NArith Lia List Bool Arith.
From Coq Require Import ZifyBool ZifyNat ZifyN.
From Verif Require Import Base Spec PolyFacts Gf2xModel Gf2xProofs Gf2eModel Gf2eProofs MzdModel MzedModel MzedSpec LaneFacts.
Import ListNotations.
Local Open Scope nat_scope.

Notation fld A := (ff_minpoly (mz_ff A)).

Ltac wfd H := 
  let H1 := fresh "Wff" in let H2 := fresh "Ww" in let H3 := fresh "Wnr" in let H4 := fresh "Wnc" in
  let H5 := fresh "Wlen" in let H6 := fresh "Wrow" in let H7 := fresh "Win" in
  pose proof H as (H1 & H2 & H3 & H4 & H5 & H6 & H7).

Lemma wf_good A : wf_mzed A -> good_w (mz_w A).
Proof. intros (H1 & H2 & _). now apply (degree_to_w_facts _ _ H2). Qed.
Lemma wf_f0 A : wf_mzed A -> fld A <> 0%N.
Proof. intros (H1 & _). now apply gf2e_wf_f0. Qed.
Lemma wf_cap A : wf_mzed A -> mz_ncols A <= cap A.
Proof. intros H. unfold cap. apply width_bounds. now apply wf_good. Qed.
Lemma wf_mrow A i : wf_mzed A -> i < mz_nrows A -> wf_row (fld A) (mz_w A) (mz_ncols A) (mrow (mz_x A) i).
Proof.
  intros (H1 & H2 & H3 & H4 & H5 & H6 & H7) Hi. destruct (H6 i Hi). split; [easy|]. split; [easy|].
  intros c Hc. now apply (H7 i c).
Qed.
Lemma wf_entry A i c : wf_mzed A -> i < mz_nrows A -> c < mz_ncols A -> inF (fld A) (entry A i c).
Proof. intros H Hi Hc. pose proof (wf_cap A H). wfd H. apply Win; lia. Qed.
Lemma wf_entry_cap A i c : wf_mzed A -> i < mz_nrows A -> c < cap A -> inF (fld A) (entry A i c).
Proof. intros H Hi Hc. wfd H. now apply Win. Qed.
Lemma wf_intro ff w m n rows :
  gf2e_wf ff -> gf2e_degree_to_w ff = Ok w -> length rows = m ->
  (forall i, i < m -> wf_row (ff_minpoly ff) w n (nth i rows [])) ->
  wf_mzed (Mzed ff w m n (Mzd m (w * n) rows)).
Proof.
  intros H1 H2 H3 H4. unfold wf_mzed, mrow, entry, cap. cbn.
  repeat (split; [easy|]). split.
  - intros i Hi. destruct (H4 i Hi) as (L1 & L2 & L3). easy.
  - intros i c Hi Hc. destruct (H4 i Hi) as (L1 & L2 & L3). now apply L3.
Qed.
Lemma same_w A B : wf_mzed A -> wf_mzed B -> fld A = fld B -> mz_w A = mz_w B.
Proof.
  intros (HA & WA & _) (HB & WB & _) E. destruct HA as (_ & DA & _), HB as (_ & DB & _).
  rewrite E in DA. assert (ED : ff_degree (mz_ff A) = ff_degree (mz_ff B)) by lia.
  unfold gf2e_degree_to_w in *. rewrite ED in WA. congruence.
Qed.
Lemma same_ff_iff A B : same_ff A B = true <-> fld A = fld B.
Proof. apply N.eqb_eq. Qed.

(** ** becomes *)
Lemma same_shape_refl A : same_shape A A. Proof. now repeat split. Qed.
Lemma becomes_refl A : wf_mzed A -> becomes A A (entry A).
Proof. intros H. now repeat split; intros; try apply H. Qed.
Lemma becomes_cap A A' : same_shape A A' -> cap A' = cap A.
Proof. unfold cap. now intros (_ & -> & _ & ->). Qed.
Lemma becomes_trans A B C F G : becomes A B F -> becomes B C G -> becomes A C G.
Proof.
  intros (W1 & S1 & E1 & P1) (W2 & S2 & E2 & P2). pose proof (becomes_cap _ _ S1) as Ec.
  destruct S1 as (a1 & a2 & a3 & a4), S2 as (b1 & b2 & b3 & b4).
  split; [easy|]. split; [|split].
  - repeat split; congruence.
  - intros i c Hi Hc. apply E2; congruence.
  - intros i c Hi Hc. rewrite P2; [|congruence|lia]. now apply P1.
Qed.
Lemma becomes_ext A B F G : becomes A B F ->
  (forall i c, i < mz_nrows A -> c < mz_ncols A -> F i c = G i c) -> becomes A B G.
Proof.
  intros (W1 & S1 & E1 & P1) H. split; [easy|]. split; [easy|]. split; [|easy].
  intros i c Hi Hc. rewrite E1 by easy. now apply H.
Qed.
Lemma becomes_wf A B F : becomes A B F -> wf_mzed B.
Proof. now intros (H & _). Qed.
Lemma becomes_nr A B F : becomes A B F -> mz_nrows B = mz_nrows A.
Proof. now intros (_ & (_ & _ & H & _) & _). Qed.
Lemma becomes_nc A B F : becomes A B F -> mz_ncols B = mz_ncols A.
Proof. now intros (_ & (_ & _ & _ & H) & _). Qed.
Lemma becomes_w A B F : becomes A B F -> mz_w B = mz_w A.
Proof. now intros (_ & (_ & H & _) & _). Qed.
Lemma becomes_ff A B F : becomes A B F -> mz_ff B = mz_ff A.
Proof. now intros (_ & (H & _) & _). Qed.
Lemma becomes_entry A B F i c : becomes A B F -> i < mz_nrows A -> c < mz_ncols A -> entry B i c = F i c.
Proof. intros (_ & _ & H & _). apply H. Qed.
(** composition rule used all the time *)
Lemma becomes_step A B C F G H : becomes A B F -> becomes B C G ->
  (forall i c, i < mz_nrows A -> c < mz_ncols A -> G i c = H i c) -> becomes A C H.
Proof. intros H1 H2 E. eapply becomes_ext; [eapply becomes_trans; eassumption|exact E]. Qed.

(** replacing the rows *)
Lemma becomes_rows A rows F :
  wf_mzed A -> length rows = mz_nrows A ->
  (forall i, i < mz_nrows A -> wf_row (fld A) (mz_w A) (mz_ncols A) (nth i rows []) /\
     forall c, c < cap A -> rel (mz_w A) (nth i rows []) c = if c <? mz_ncols A then F i c else entry A i c) ->
  becomes A (mz_set_x A (Mzd (mzd_nrows (mz_x A)) (mzd_ncols (mz_x A)) rows)) F.
Proof.
  intros H Hl Hr. wfd H. pose proof (wf_cap A H) as Hcap. split; [|split; [|split]].
  - unfold mz_set_x. rewrite Wnr, Wnc. apply wf_intro; auto. intros i Hi. now apply Hr.
  - now repeat split.
  - intros i c Hi Hc. unfold entry, mrow, mz_set_x; cbn. destruct (Hr i Hi) as [_ R].
    rewrite R by lia. now replace (c <? mz_ncols A) with true by lia.
  - intros i c Hi Hc. unfold entry at 1, mrow, mz_set_x; cbn. destruct (Hr i Hi) as [_ R].
    rewrite R by lia. now replace (c <? mz_ncols A) with false by lia.
Qed.
Lemma becomes_row A r s a' G :
  wf_mzed A -> r < mz_nrows A ->
  row_done (mz_ff A) (mz_w A) (mz_ncols A) s (mrow (mz_x A) r) G a' ->
  becomes A (mz_set_x A (Mzd (mzd_nrows (mz_x A)) (mzd_ncols (mz_x A)) (upd (mzd_rows (mz_x A)) r a')))
    (fun i c => if (i =? r) && (s <=? c) then G c else entry A i c).
Proof.
  intros H Hr [R1 R2]. wfd H. apply becomes_rows; auto.
  - now rewrite upd_length.
  - intros i Hi. rewrite nth_upd by lia. rewrite (Nat.eqb_sym i r). destruct (Nat.eqb_spec r i) as [->|E].
    + split; [exact R1|]. intros c Hc. rewrite R2 by easy. cbn [andb]. fold (entry A i c).
      destruct (s <=? c), (c <? mz_ncols A); reflexivity.
    + split; [now apply wf_mrow|]. intros c Hc. cbn [andb]. fold (mrow (mz_x A) i).
      fold (entry A i c). now destruct (c <? mz_ncols A).
Qed.
Lemma lget_row A i : wf_mzed A -> i < mz_nrows A -> lget (mzd_rows (mz_x A)) i = Ok (mrow (mz_x A) i).
Proof. intros H Hi. wfd H. apply lget_ok. lia. Qed.

(** ** single elements *)
Lemma shl_shr_lane x s w : s + w <= 64 -> 0 < w ->
  wshr (wshl x (64 - (s + w))) (64 - w) = N.land (N.shiftr x (N.of_nat s)) (N.ones (N.of_nat w)).
Proof.
  intros Hs Hw. apply N.bits_inj. intro i. rewrite wshr_spec, wshl_spec, N.land_spec, N.shiftr_spec'.
  destruct (N.ltb_spec i (N.of_nat w)) as [L|L].
  - rewrite N.ones_spec_low by easy. rewrite andb_true_r.
    replace (i + N.of_nat (64 - w)%nat <? 64)%N with true by lia.
    replace (N.of_nat (64 - (s + w))%nat <=? i + N.of_nat (64 - w)%nat)%N with true by lia. cbn [andb]. f_equal. lia.
  - rewrite N.ones_spec_high by easy. rewrite andb_false_r.
    replace (i + N.of_nat (64 - w)%nat <? 64)%N with false by lia. now rewrite ?andb_false_r.
Qed.
Theorem mzed_read_elem_ok A i c : wf_mzed A -> i < mz_nrows A -> c < mz_ncols A ->
  mzed_read_elem A i c = Ok (entry A i c).
Proof.
  intros H Hi Hc. pose proof (wf_good A H) as Hw. pose proof (wf_cap A H) as Hcap.
  unfold mzed_read_elem, mzd_read_bits_. rewrite mod_w, div_w by easy.
  pose proof (per_mul _ Hw). pose proof (per_pos _ Hw). pose proof (good_w_pos _ Hw).
  pose proof (Nat.mod_upper_bound c (per (mz_w A)) ltac:(lia)).
  replace (mz_w A * (c mod per (mz_w A)) + mz_w A <=? 64) with true by nia. cbn [guard bind].
  rewrite lget_row by easy. cbn [bind].
  destruct (wf_mrow A i H Hi) as (L & _).
  assert (c / per (mz_w A) < length (mrow (mz_x A) i)).
  { rewrite L. apply slot_lt; auto. unfold cap in Hcap. lia. }
  rewrite (lget_ok _ _ 0%N) by easy. cbn [bind]. rewrite shl_shr_lane by nia.
  unfold entry, rel, lane. reflexivity.
Qed.

Lemma set_word_done A r c x v :
  wf_mzed A -> r < mz_nrows A -> c < mz_ncols A -> inF (fld A) v -> (x < 2 ^ 64)%N ->
  (forall k, k < per (mz_w A) -> lane (mz_w A) x k =
     if k =? c mod per (mz_w A) then v else lane (mz_w A) (nth (c / per (mz_w A)) (mrow (mz_x A) r) 0%N) k) ->
  becomes A (mz_set_x A (Mzd (mzd_nrows (mz_x A)) (mzd_ncols (mz_x A))
                (upd (mzd_rows (mz_x A)) r (upd (mrow (mz_x A) r) (c / per (mz_w A)) x))))
    (fun i j => if (i =? r) && (j =? c) then v else entry A i j).
Proof.
  intros H Hr Hc Hv Hx HL. pose proof (wf_good A H) as Hw. wfd H. pose proof (wf_cap A H) as Hcap.
  pose proof (per_pos _ Hw) as Pp.
  destruct (wf_mrow A r H Hr) as (L1 & L2 & L3).
  assert (Hcl : c / per (mz_w A) < length (mrow (mz_x A) r)).
  { rewrite L1. apply slot_lt; auto. unfold cap in Hcap. lia. }
  assert (R : forall j, rel (mz_w A) (upd (mrow (mz_x A) r) (c / per (mz_w A)) x) j =
                if j =? c then v else entry A r j).
  { intros j. rewrite rel_upd by easy. pose proof (Nat.mod_upper_bound j (per (mz_w A)) ltac:(lia)).
    pose proof (Nat.div_mod j (per (mz_w A)) ltac:(lia)). pose proof (Nat.div_mod c (per (mz_w A)) ltac:(lia)).
    destruct (Nat.eqb_spec (j / per (mz_w A)) (c / per (mz_w A))) as [E|E].
    - rewrite HL by easy. destruct (Nat.eqb_spec (j mod per (mz_w A)) (c mod per (mz_w A))) as [E'|E'].
      + replace (j =? c) with true; [easy|]. symmetry. apply Nat.eqb_eq. rewrite E, E' in *. congruence.
      + replace (j =? c) with false; [|symmetry; apply Nat.eqb_neq; congruence].
        unfold entry, rel. now rewrite E.
    - replace (j =? c) with false; [|symmetry; apply Nat.eqb_neq; congruence]. reflexivity. }
  apply becomes_rows; auto.
  - now rewrite upd_length.
  - intros i Hi. rewrite nth_upd by lia. rewrite (Nat.eqb_sym i r). destruct (Nat.eqb_spec r i) as [->|E].
    + split.
      * split; [now rewrite upd_length|]. split; [now apply Forall_upd|].
        intros j Hj. rewrite R. destruct (j =? c); [easy|]. now apply Win.
      * intros j Hj. rewrite R. cbn [andb]. destruct (Nat.eqb_spec j c) as [->|]; [now replace (c <? mz_ncols A) with true by lia|].
        now destruct (j <? mz_ncols A).
    + split; [now apply wf_mrow|]. intros j Hj. cbn [andb]. fold (mrow (mz_x A) i).
      fold (entry A i j). now destruct (j <? mz_ncols A).
Qed.

Theorem mzed_add_elem_ok A r c v : wf_mzed A -> r < mz_nrows A -> c < mz_ncols A -> inF (fld A) v ->
  wp (mzed_add_elem A r c v) (fun A' => becomes A A'
     (fun i j => if (i =? r) && (j =? c) then N.lxor (entry A r c) v else entry A i j)).
Proof.
  intros H Hr Hc Hv. pose proof (wf_good A H) as Hw. pose proof (wf_cap A H) as Hcap.
  unfold mzed_add_elem, mzd_xor_bits_. rewrite mod_w, div_w by easy. rewrite lget_row by easy. cbn [bind].
  destruct (wf_mrow A r H Hr) as (L1 & L2 & L3).
  assert (Hcl : c / per (mz_w A) < length (mrow (mz_x A) r)).
  { rewrite L1. apply slot_lt; auto. unfold cap in Hcap. lia. }
  rewrite (lget_ok _ _ 0%N) by easy. cbn [bind]. rewrite lset_ok by easy. cbn [bind wp].
  pose proof (per_pos _ Hw) as Pp.
  assert (Lv : (v < 2 ^ N.of_nat (mz_w A))%N).
  { wfd H. destruct Wff as (_ & Hd & _). destruct (degree_to_w_facts _ _ Ww) as (_ & Hle & _).
    eapply inF_lt_w; eauto. }
  apply set_word_done; auto.
  - apply lxor_lt_pow2; [apply (wf_entry_cap A r c)|]; auto. lia.
  - apply lxor_lt_pow2; [|apply wshl_lt]. rewrite Forall_forall in L2. apply L2. now apply nth_In.
  - intros k Hk. rewrite lane_lxor, (lane_wshl _ v (c mod per (mz_w A))); auto.
    2:{ apply Nat.mod_upper_bound. lia. }
    destruct (Nat.eqb_spec k (c mod per (mz_w A))) as [->|]; [reflexivity|apply N.lxor_0_r].
Qed.

Theorem mzed_write_elem_ok A r c v : wf_mzed A -> r < mz_nrows A -> c < mz_ncols A -> inF (fld A) v ->
  wp (mzed_write_elem A r c v) (fun A' => becomes A A'
     (fun i j => if (i =? r) && (j =? c) then v else entry A i j)).
Proof.
  intros H Hr Hc Hv. pose proof (wf_good A H) as Hw. pose proof (wf_cap A H) as Hcap.
  unfold mzed_write_elem, mzd_clear_bits_. rewrite mod_w, div_w by easy. rewrite lget_row by easy. cbn [bind].
  destruct (wf_mrow A r H Hr) as (L1 & L2 & L3).
  assert (Hcl : c / per (mz_w A) < length (mrow (mz_x A) r)).
  { rewrite L1. apply slot_lt; auto. unfold cap in Hcap. lia. }
  rewrite (lget_ok _ _ 0%N) by easy. cbn [bind]. rewrite lset_ok by easy. cbn [bind wp].
  pose proof (per_pos _ Hw) as Pp. pose proof (per_mul _ Hw) as Pm. pose proof (good_w_pos _ Hw) as Pw.
  assert (Hcm : c mod per (mz_w A) < per (mz_w A)) by (apply Nat.mod_upper_bound; lia).
  assert (Lx : (nth (c / per (mz_w A)) (mrow (mz_x A) r) 0 < 2 ^ 64)%N).
  { rewrite Forall_forall in L2. apply L2. now apply nth_In. }
  assert (B1 := set_word_done A r c
     (N.land (nth (c / per (mz_w A)) (mrow (mz_x A) r) 0%N)
             (wnot (wshl (wshr ffff (64 - mz_w A)) (mz_w A * (c mod per (mz_w A)))))) 0%N H Hr Hc).
  match type of B1 with ?P -> ?Q -> ?R -> _ => assert (p1 : P); [|assert (p2 : Q); [|assert (p3 : R)]] end.
  - apply N.neq_0_lt_0, N.pow_nonzero. lia.
  - now apply land_lt_pow2.
  - intros k Hk. rewrite (lane_land_mask _ _ _ _ (negb (k =? c mod per (mz_w A)))).
    + now destruct (k =? c mod per (mz_w A)).
    + intros i Hi. rewrite testbit_wnot, wshl_spec, wshr_spec, testbit_ffff.
      assert ((i + N.of_nat (mz_w A * k)%nat < 64)%N) by nia.
      destruct (Nat.eqb_spec k (c mod per (mz_w A))) as [->|E]; [lia|].
      destruct (Nat.lt_ge_cases k (c mod per (mz_w A))).
      * assert (mz_w A * k + mz_w A <= mz_w A * (c mod per (mz_w A))) by nia. lia.
      * assert (mz_w A * (c mod per (mz_w A)) + mz_w A <= mz_w A * k) by nia. lia.
  - specialize (B1 p1 p2 p3).
    match type of B1 with becomes _ ?A1 _ => set (A1' := A1) in * end.
    assert (B2 := mzed_add_elem_ok A1' r c v (becomes_wf _ _ _ B1) Hr Hc Hv).
    unfold mzed_add_elem in B2. rewrite wp_iff in B2. destruct B2 as (A2 & E2 & B2).
    change (mz_w A) with (mz_w A1'). 
    match goal with |- wp (bind ?m ?k) _ => change (wp (x <- mzd_xor_bits_ (mz_x A1') r (mz_w A1' * c) (mz_w A1') v;; Ok (mz_set_x A1' x))
      (fun A' => becomes A A' (fun i j : nat => if (i =? r) && (j =? c) then v else entry A i j))) end.
    rewrite E2. cbn [wp]. eapply becomes_step; [exact B1|exact B2|].
    cbv beta. intros i j Hi Hj. rewrite (becomes_entry _ _ _ _ _ B1 Hr Hc).
    rewrite !Nat.eqb_refl. cbn [andb]. rewrite N.lxor_0_l.
    destruct ((i =? r) && (j =? c)) eqn:E; [easy|]. rewrite (becomes_entry _ _ _ _ _ B1) by easy. now rewrite E.
Qed.

(** ** row operations *)
Theorem mzed_add_row_ok A ar B br s :
  wf_mzed A -> wf_mzed B -> fld A = fld B -> mz_ncols A = mz_ncols B ->
  ar < mz_nrows A -> br < mz_nrows B -> s < mz_ncols A ->
  wp (mzed_add_row A ar B br s) (fun A' => becomes A A'
     (fun i c => if (i =? ar) && (s <=? c) then N.lxor (entry A ar c) (entry B br c) else entry A i c)).
Proof.
  intros HA HB Ef En Har Hbr Hs. unfold mzed_add_row.
  rewrite (proj2 (same_ff_iff A B) Ef), (proj2 (Nat.eqb_eq _ _) En). cbn [andb guard bind].
  rewrite (proj2 (Nat.ltb_lt _ _) Hs). cbn [guard bind].
  rewrite !lget_row by easy. cbn [bind]. wfd HA.
  rewrite Wnc at 1. apply wp_bind. eapply wp_mono.
  - apply (add_row_words_ok (mz_ff A) (mz_w A) Wff Ww (mz_ncols A) s); auto; [now apply wf_mrow|].
    rewrite Ef, En. rewrite (same_w A B) by easy. now apply wf_mrow.
  - cbv beta. intros a' Ha'. cbn [wp].
    assert (Er : forall c, entry B br c = rel (mz_w A) (mrow (mz_x B) br) c).
    { intros c. unfold entry. now rewrite (same_w A B). }
    eapply becomes_ext; [apply becomes_row; eauto|]. cbv beta. intros i c _ _. now rewrite Er.
Qed.

Theorem mzed_add_multiple_of_row_ok A ar B br x s :
  wf_mzed A -> wf_mzed B -> fld A = fld B -> mz_ncols A = mz_ncols B -> inF (fld A) x ->
  ar < mz_nrows A -> br < mz_nrows B -> s < mz_ncols A ->
  wp (mzed_add_multiple_of_row A ar B br x s) (fun A' => becomes A A'
     (fun i c => if (i =? ar) && (s <=? c) then N.lxor (entry A ar c) (fmul (fld A) x (entry B br c)) else entry A i c)).
Proof.
  intros HA HB Ef En Hx Har Hbr Hs. unfold mzed_add_multiple_of_row.
  rewrite (proj2 (same_ff_iff A B) Ef), (proj2 (Nat.eqb_eq _ _) En). cbn [andb guard bind].
  rewrite (proj2 (Nat.ltb_lt _ _) Hs). cbn [guard bind].
  pose proof (wf_f0 A HA) as f0.
  destruct (N.eqb_spec x 0) as [->|X0].
  - cbn [wp]. eapply becomes_ext; [now apply becomes_refl|]. cbv beta. intros i c Hi Hc.
    rewrite fmul_0_l, N.lxor_0_r. destruct (Nat.eqb_spec i ar) as [->|]; [now destruct (s <=? c)|easy].
  - destruct (N.eqb_spec x 1) as [->|X1].
    + eapply wp_mono; [now apply mzed_add_row_ok|]. cbv beta. intros A' HA'.
      eapply becomes_ext; [exact HA'|]. cbv beta. intros i c Hi Hc. rewrite fmul_1_l; auto.
      rewrite Ef. apply wf_entry; auto. lia.
    + rewrite !lget_row by easy. cbn [bind]. wfd HA.
      rewrite Wnc at 1. apply wp_bind. eapply wp_mono.
      * apply (axpy_words_ok (mz_ff A) (mz_w A) Wff Ww (mz_ncols A) x s); auto; [now apply wf_mrow|].
        rewrite Ef, En. rewrite (same_w A B) by easy. now apply wf_mrow.
      * cbv beta. intros a' Ha'. cbn [wp].
        assert (Er : forall c, entry B br c = rel (mz_w A) (mrow (mz_x B) br) c).
        { intros c. unfold entry. now rewrite (same_w A B). }
        eapply becomes_ext; [apply becomes_row; eauto|]. cbv beta. intros i c _ _. now rewrite Er.
Qed.

Theorem mzed_rescale_row_ok A r s x :
  wf_mzed A -> inF (fld A) x -> r < mz_nrows A -> s < mz_ncols A ->
  wp (mzed_rescale_row A r s x) (fun A' => becomes A A'
     (fun i c => if (i =? r) && (s <=? c) then fmul (fld A) x (entry A r c) else entry A i c)).
Proof.
  intros HA Hx Hr Hs. unfold mzed_rescale_row.
  rewrite (proj2 (Nat.ltb_lt _ _) Hs). cbn [guard bind].
  rewrite !lget_row by easy. cbn [bind]. wfd HA.
  rewrite Wnc at 1. apply wp_bind. eapply wp_mono.
  - apply (rescale_words_ok (mz_ff A) (mz_w A) Wff Ww (mz_ncols A) x s); auto; now apply wf_mrow.
  - cbv beta. intros a' Ha'. cbn [wp].
    eapply becomes_ext; [apply becomes_row; eauto|]. cbv beta. easy.
Qed.

(** ** operations through [mzd_build] *)
Lemma testbit_word_of_bits n g k : N.testbit (word_of_bits n g) (N.of_nat k) = (k <? n) && g k.
Proof.
  induction n as [|n IH]; cbn [word_of_bits].
  - rewrite N.bits_0. reflexivity.
  - destruct (g n) eqn:E.
    + rewrite N.setbit_eqb, IH. destruct (Nat.eqb_spec n k) as [->|Hne].
      * rewrite N.eqb_refl, E. cbn [orb]. now replace (k <? S k) with true by lia.
      * replace (N.of_nat n =? N.of_nat k)%N with false by lia. cbn [orb].
        now replace (k <? S n) with (k <? n) by lia.
    + rewrite IH. destruct (Nat.eqb_spec n k) as [->|Hne].
      * rewrite E. now rewrite !andb_false_r.
      * now replace (k <? S n) with (k <? n) by lia.
Qed.
Lemma word_of_bits_lt n g : (word_of_bits n g < 2 ^ N.of_nat n)%N.
Proof.
  apply lt_pow2_bits. intros k Hk. replace k with (N.of_nat (N.to_nat k)) by lia.
  rewrite testbit_word_of_bits. replace (N.to_nat k <? n) with false by lia. reflexivity.
Qed.
Lemma mk_row_length old n g : length (mk_row old n g) = length old.
Proof. unfold mk_row. now rewrite map_length, seq_length. Qed.
Lemma mk_row_bit old n g k : k < 64 * length old ->
  rbit (mk_row old n g) k = if k <? n then g k else rbit old k.
Proof.
  intros Hk. unfold rbit at 1, mk_row.
  assert (Hj : k / 64 < length old) by (apply Nat.div_lt_upper_bound; lia).
  rewrite (nth_indep _ 0%N (word_of_bits 64 (fun p => let k := 64 * 0 + p in if k <? n then g k else rbit old k))) by (rewrite map_length, seq_length; lia).
  rewrite (map_nth (fun j => word_of_bits 64 (fun p => let k := 64 * j + p in if k <? n then g k else rbit old k))).
  rewrite seq_nth by easy. rewrite testbit_word_of_bits.
  pose proof (Nat.mod_upper_bound k 64 ltac:(lia)). replace (k mod 64 <? 64) with true by lia.
  cbn [andb Nat.add]. cbv zeta.
  rewrite <- (Nat.div_mod k 64) by lia. reflexivity.
Qed.
Lemma mk_row_words old n g : Forall (fun x => (x < 2 ^ 64)%N) (mk_row old n g).
Proof.
  unfold mk_row. apply Forall_forall. intros x Hx. apply in_map_iff in Hx as (j & <- & _).
  apply (word_of_bits_lt 64).
Qed.
Lemma slot_bit w n c i : good_w w -> c < per w * width (w * n) -> i < w -> w * c + i < 64 * width (w * n).
Proof. intros Hw Hc Hi. pose proof (per_mul w Hw). nia. Qed.
(** an [mzd_build] whose bits are the bits of field elements *)
Lemma becomes_build A g F :
  wf_mzed A ->
  (forall i c, i < mz_nrows A -> c < mz_ncols A -> inF (fld A) (F i c)) ->
  (forall i c b, i < mz_nrows A -> c < mz_ncols A -> b < mz_w A ->
     g i (mz_w A * c + b) = N.testbit (F i c) (N.of_nat b)) ->
  becomes A (mz_set_x A (mzd_build (mz_x A) g)) F.
Proof.
  intros H HF Hg. pose proof (wf_good A H) as Hw. wfd H. unfold mzd_build. apply becomes_rows; auto.
  - rewrite map_length, seq_length. easy.
  - intros i Hi.
    rewrite (nth_indep _ [] (mk_row (mrow (mz_x A) 0) (mzd_ncols (mz_x A)) (g 0))) by (rewrite map_length, seq_length; lia).
    rewrite (map_nth (fun i => mk_row (mrow (mz_x A) i) (mzd_ncols (mz_x A)) (g i))).
    rewrite seq_nth by lia. cbn [Nat.add]. rewrite Wnc.
    destruct (wf_mrow A i H Hi) as (L1 & L2 & L3).
    pose proof (good_w_pos _ Hw) as Pw.
    assert (R : forall c, c < cap A -> rel (mz_w A) (mk_row (mrow (mz_x A) i) (mz_w A * mz_ncols A) (g i)) c =
       if c <? mz_ncols A then F i c else entry A i c).
    { intros c Hc.
      destruct Wff as (_ & Hd & _). destruct (degree_to_w_facts _ _ Ww) as (_ & Hle & _).
      apply (rel_ext (mz_w A)); auto using rel_lt.
      { destruct (Nat.ltb_spec c (mz_ncols A)); [|apply rel_lt]. eapply inF_lt_w; eauto. }
      intros b Hb. rewrite rel_bit by easy. replace (b <? mz_w A) with true by lia. cbn [andb].
      rewrite mk_row_bit by (rewrite L1; apply slot_bit; auto).
      replace (mz_w A * c + b <? mz_w A * mz_ncols A) with (c <? mz_ncols A).
      2:{ destruct (Nat.ltb_spec c (mz_ncols A)); symmetry; [apply Nat.ltb_lt|apply Nat.ltb_ge]; nia. }
      destruct (Nat.ltb_spec c (mz_ncols A)); [now apply Hg|].
      unfold entry. rewrite rel_bit by easy. now replace (b <? mz_w A) with true by lia. }
    split; [|exact R]. split; [now rewrite mk_row_length|]. split; [apply mk_row_words|].
    intros c Hc. fold (cap A) in Hc. rewrite R by easy.
    destruct (Nat.ltb_spec c (mz_ncols A)); [now apply HF|now apply wf_entry_cap].
Qed.
Lemma mbit_entry A i c b : wf_mzed A -> b < mz_w A ->
  mbit (mz_x A) i (mz_w A * c + b) = N.testbit (entry A i c) (N.of_nat b).
Proof.
  intros H Hb. unfold mbit, entry. rewrite rel_bit by now apply wf_good.
  now replace (b <? mz_w A) with true by lia.
Qed.
