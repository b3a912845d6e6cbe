(** Correctness of the operations on bit-sliced matrices (C36, C38, C39). *)
From Coq Require Import NArith ZArith Lia List Bool Arith.
From Coq Require Import ZifyBool ZifyNat ZifyN.
From Verif Require Import Base Spec PolyFacts Gf2xModel Gf2xProofs Gf2eModel Gf2eProofs MzdModel MzedModel MzedSpec LaneFacts MzedProofs MzedOps MzedOps2 SliceModel SliceSpec MzdFacts.
Import ListNotations.
Local Open Scope nat_scope.

Notation sfld A := (ff_minpoly (sl_ff A)).

(** ** entries and bits *)
Lemma sbit A b i c : b < sl_depth A -> mbit (sx A b) i c = N.testbit (sentry A i c) (N.of_nat b).
Proof. intros Hb. unfold sentry. rewrite testbit_word_of_bits. now replace (b <? sl_depth A) with true by lia. Qed.
Lemma wfs_deg A : wf_slice A -> pdeg (sfld A) = N.of_nat (sl_depth A).
Proof. intros (H & E & _). rewrite E. now destruct H as (_ & H & _). Qed.
Lemma wfs_depth A : wf_slice A -> 1 <= sl_depth A <= 16.
Proof. intros ((H & _) & E & _). rewrite E. exact H. Qed.
Lemma wfs_f0 A : wf_slice A -> sfld A <> 0%N. Proof. intros (H & _). now apply gf2e_wf_f0. Qed.
Lemma sentry_in A i c : wf_slice A -> inF (sfld A) (sentry A i c).
Proof. intros H. unfold inF. rewrite wfs_deg by easy. apply word_of_bits_lt. Qed.
Lemma word_of_bits_id n v : (v < 2 ^ N.of_nat n)%N -> word_of_bits n (fun b => N.testbit v (N.of_nat b)) = v.
Proof.
  intros H. apply N.bits_inj. intros k. replace k with (N.of_nat (N.to_nat k)) by lia. rewrite testbit_word_of_bits.
  destruct (Nat.ltb_spec (N.to_nat k) n); cbn [andb]; [easy|]. symmetry. rewrite lt_pow2_bits in H. apply H. lia.
Qed.
Lemma word_of_bits_ext n g h : (forall b, b < n -> g b = h b) -> word_of_bits n g = word_of_bits n h.
Proof. intros E. induction n as [|n IH]; [easy|]. cbn [word_of_bits]. rewrite IH by (intros; apply E; lia). now rewrite E by lia. Qed.

Lemma sb_intro A x F : wf_slice A -> length x = sl_depth A ->
  (forall i c, i < sl_nrows A -> c < sl_ncols A -> inF (sfld A) (F i c)) ->
  (forall b, b < sl_depth A -> mset (sx A b) (nth b x (Mzd 0 0 [])) (fun i c => N.testbit (F i c) (N.of_nat b))) ->
  sbecomes A (sl_set_x A x) F.
Proof.
  intros HA Hl HF Hm. pose proof (wfs_deg A HA) as Hd. pose proof HA as (H1 & H2 & H3 & H4).
  split; [|split; [easy|split; [easy|split; [easy|split]]]].
  - split; [easy|]. split; [easy|]. split; [easy|]. cbn [sl_set_x sl_depth sl_nrows sl_ncols]. intros b Hb. unfold sx at 1 2 3. cbn [sl_set_x sl_x].
    destruct (Hm b Hb) as (K1 & K2 & K3 & _). destruct (H4 b Hb) as (L1 & L2 & L3). split; [exact K1|]. split; congruence.
  - intros i c Hi Hc. unfold sentry. cbn [sl_set_x sl_depth]. rewrite <- (word_of_bits_id (sl_depth A) (F i c)).
    + apply word_of_bits_ext. intros b Hb. unfold sx. cbn [sl_set_x sl_x]. destruct (H4 b Hb) as (L1 & L2 & L3).
      apply (mset_bit _ _ _ _ _ (Hm b Hb)); lia.
    + rewrite <- Hd. now apply HF.
  - intros b i k Hb Hi Hk. unfold sx at 1. cbn [sl_set_x sl_x]. destruct (H4 b Hb) as (L1 & L2 & L3). destruct (Hm b Hb) as (_ & _ & _ & _ & K).
    apply K; rewrite ?L2, ?L3; easy.
Qed.
Lemma sb_elim A A' F : wf_slice A -> sbecomes A A' F -> forall b, b < sl_depth A ->
  mset (sx A b) (sx A' b) (fun i c => N.testbit (F i c) (N.of_nat b)).
Proof.
  intros HA (W & E1 & E2 & E3 & E4 & E5) b Hb. pose proof HA as (_ & D & _ & H4). pose proof W as (_ & D' & _ & H4').
  assert (Ed : sl_depth A' = sl_depth A) by congruence. destruct (H4 b Hb) as (L1 & L2 & L3). destruct (H4' b ltac:(lia)) as (M1 & M2 & M3).
  split; [exact M1|]. split; [congruence|]. split; [congruence|]. rewrite L2, L3. split.
  - intros i c Hi Hc. rewrite sbit by lia. now rewrite E4.
  - intros i k Hi Hk. now apply E5.
Qed.
Lemma sb_wf A A' F : sbecomes A A' F -> wf_slice A'. Proof. now intros (H & _). Qed.
Lemma sb_ff A A' F : sbecomes A A' F -> sl_ff A' = sl_ff A. Proof. now intros (_ & H & _). Qed.
Lemma sb_nr A A' F : sbecomes A A' F -> sl_nrows A' = sl_nrows A. Proof. now intros (_ & _ & H & _). Qed.
Lemma sb_nc A A' F : sbecomes A A' F -> sl_ncols A' = sl_ncols A. Proof. now intros (_ & _ & _ & H & _). Qed.
Lemma sb_depth A A' F : wf_slice A -> sbecomes A A' F -> sl_depth A' = sl_depth A.
Proof. intros (_ & D & _) ((_ & D' & _) & E & _). congruence. Qed.
Lemma sb_entry A A' F i c : sbecomes A A' F -> i < sl_nrows A -> c < sl_ncols A -> sentry A' i c = F i c.
Proof. intros (_ & _ & _ & _ & H & _). apply H. Qed.
Lemma sb_refl A : wf_slice A -> sbecomes A A (sentry A).
Proof. intros H. split; [exact H|]. repeat split. Qed.
Lemma sb_ext A A' F G : sbecomes A A' F -> (forall i c, i < sl_nrows A -> c < sl_ncols A -> F i c = G i c) -> sbecomes A A' G.
Proof. intros (H1 & H2 & H3 & H4 & H5 & H6) E. split; [exact H1|]. repeat split; auto. intros i c Hi Hc. rewrite H5 by easy. now apply E. Qed.
Lemma sb_step A B C F G H : wf_slice A -> sbecomes A B F -> sbecomes B C G ->
  (forall i c, i < sl_nrows A -> c < sl_ncols A -> G i c = H i c) -> sbecomes A C H.
Proof.
  intros HA B1 B2 E. pose proof (sb_depth _ _ _ HA B1) as Ed. destruct B1 as (H1 & H2 & H3 & H4 & H5 & H6). destruct B2 as (K1 & K2 & K3 & K4 & K5 & K6).
  split; [exact K1|]. split; [congruence|]. split; [congruence|]. split; [congruence|]. split.
  - intros i c Hi Hc. rewrite K5 by lia. now apply E.
  - intros b i k Hb Hi Hk. rewrite K6 by (rewrite ?Ed, ?H3, ?H4; easy). now apply H6.
Qed.

(** holds-style *)
Lemma sh_wf A f m n F : sholds A f m n F -> wf_slice A. Proof. now intros (H & _). Qed.
Lemma sh_self A : wf_slice A -> sholds A (sfld A) (sl_nrows A) (sl_ncols A) (sentry A).
Proof. intros H. split; [exact H|]. now repeat split. Qed.
Lemma sh_ext A f m n F G : sholds A f m n F -> meq m n F G -> sholds A f m n G.
Proof. intros (H1 & H2 & H3 & H4 & H5) E. split; [exact H1|]. repeat split; auto. intros i c Hi Hc. rewrite H5 by easy. now apply E. Qed.
Lemma sh_becomes C f m n F C' G : sholds C f m n F -> sbecomes C C' G -> sholds C' f m n G.
Proof.
  intros (H1 & H2 & H3 & H4 & H5) (K1 & K2 & K3 & K4 & K5 & K6). split; [exact K1|]. rewrite K2. repeat split; try congruence.
  intros i c Hi Hc. apply K5; lia.
Qed.
Lemma sb_meq C C' f m n F G H : sholds C f m n F -> sbecomes C C' G -> meq m n G H -> sbecomes C C' H.
Proof. intros (H1 & H2 & H3 & H4 & H5) B E. eapply sb_ext; [exact B|]. intros i j Hi Hj. apply E; lia. Qed.
Lemma sh_in A f m n F : sholds A f m n F -> forall i j, i < m -> j < n -> inF f (F i j).
Proof. intros (H1 & H2 & H3 & H4 & H5) i j Hi Hj. rewrite <- H5 by easy. subst f. now apply sentry_in. Qed.

(** ** loops over slices *)
Lemma wp_each n op x P : n <= length x ->
  (forall i, i < n -> wp (op i (nth i x (Mzd 0 0 []))) (P i)) ->
  wp (sl_each n op x) (fun x' => length x' = length x /\ (forall i, i < n -> P i (nth i x' (Mzd 0 0 []))) /\
     forall i, n <= i -> nth i x' (Mzd 0 0 []) = nth i x (Mzd 0 0 [])).
Proof.
  intros Hn Hop. unfold sl_each.
  eapply wp_mono; [apply (wp_for (fun k x' => length x' = length x /\ (forall i, i < k -> P i (nth i x' (Mzd 0 0 []))) /\
     forall i, k <= i -> nth i x' (Mzd 0 0 []) = nth i x (Mzd 0 0 []))); [lia|repeat split; intros; lia|]|].
  - intros j y Hj (L & H1 & H2). rewrite (lget_ok y j (Mzd 0 0 [])) by lia. cbn [bind]. rewrite H2 by lia.
    apply wp_bind. eapply wp_mono; [apply Hop; lia|]. cbv beta. intros z Hz. rewrite lset_ok by lia. cbn [wp].
    rewrite upd_length. split; [easy|]. split.
    + intros i Hi. rewrite nth_upd by lia. destruct (Nat.eqb_spec j i) as [<-|Hne]; [easy|]. apply H1. lia.
    + intros i Hi. rewrite nth_upd_ne by lia. apply H2. lia.
  - cbv beta. tauto.
Qed.
Lemma map_n_ok A op F n : wf_slice A -> n = sl_depth A ->
  (forall i c, i < sl_nrows A -> c < sl_ncols A -> inF (sfld A) (F i c)) ->
  (forall b, b < sl_depth A -> wf_mzd (sx A b) -> mzd_nrows (sx A b) = sl_nrows A -> mzd_ncols (sx A b) = sl_ncols A ->
     wp (op b (sx A b)) (fun x' => mset (sx A b) x' (fun i c => N.testbit (F i c) (N.of_nat b)))) ->
  wp (sl_map_n n A op) (fun A' => sbecomes A A' F).
Proof.
  intros HA -> HF Hop. pose proof HA as (_ & _ & L & H4). unfold sl_map_n. apply wp_bind.
  eapply wp_mono; [apply (wp_each _ op (sl_x A) (fun b x' => mset (sx A b) x' (fun i c => N.testbit (F i c) (N.of_nat b)))); [lia|]|].
  - intros i Hi. apply Hop; auto; now apply H4.
  - cbv beta. intros x (Lx & Hx & _). cbn [wp]. apply sb_intro; auto. lia.
Qed.
Lemma map_ok A op F : wf_slice A ->
  (forall i c, i < sl_nrows A -> c < sl_ncols A -> inF (sfld A) (F i c)) ->
  (forall b, b < sl_depth A -> wf_mzd (sx A b) -> mzd_nrows (sx A b) = sl_nrows A -> mzd_ncols (sx A b) = sl_ncols A ->
     wp (op b (sx A b)) (fun x' => mset (sx A b) x' (fun i c => N.testbit (F i c) (N.of_nat b)))) ->
  wp (sl_map A op) (fun A' => sbecomes A A' F).
Proof. intros HA. now apply (map_n_ok A op F (sl_depth A)). Qed.
Lemma lget_sx A b : wf_slice A -> b < sl_depth A -> lget (sl_x A) b = Ok (sx A b).
Proof. intros (_ & _ & L & _) Hb. unfold sx. apply lget_ok. lia. Qed.

Lemma same_depth A B : wf_slice A -> wf_slice B -> sfld A = sfld B -> sl_depth A = sl_depth B.
Proof. intros HA HB E. pose proof (wfs_deg A HA). pose proof (wfs_deg B HB). rewrite E in H. lia. Qed.
Lemma sl_same_ff_iff A B : sl_same_ff A B = true <-> sfld A = sfld B.
Proof. unfold sl_same_ff. apply N.eqb_eq. Qed.

(** ** construction, elements *)
Lemma slice_init_ok k m n : gf2e_wf k -> sholds (mzd_slice_init k m n) (ff_minpoly k) m n mzero.
Proof.
  intros Hk. unfold mzd_slice_init.
  assert (E : forall b, b < ff_degree k -> sx (Slice k (ff_degree k) m n (repeat (mzd_init m n) (ff_degree k))) b = mzd_init m n).
  { intros b Hb. unfold sx. cbn [sl_x]. rewrite (nth_indep _ _ (mzd_init m n)) by (rewrite repeat_length; lia). apply nth_repeat. }
  split; [|repeat split].
  - split; [exact Hk|]. split; [easy|]. split; [apply repeat_length|]. cbn [sl_depth sl_nrows sl_ncols]. intros b Hb. rewrite E by easy.
    split; [apply wf_init|easy].
  - intros i c Hi Hc. unfold sentry. cbn [sl_depth]. rewrite (word_of_bits_ext _ _ (fun b => N.testbit 0 (N.of_nat b))).
    + apply word_of_bits_id. apply N.neq_0_lt_0, N.pow_nonzero. lia.
    + intros b Hb. rewrite E by easy. now rewrite init_bit, N.bits_0.
Qed.
Lemma or_init_ok C f k m n : gf2e_wf k -> ff_minpoly k = f -> starget C f m n ->
  sholds (sl_or_init C k m n) f m n (match C with Some C => sentry C | None => mzero end).
Proof.
  intros Hk E HC. destruct C as [C|]; cbn [sl_or_init].
  - destruct HC as (W & H1 & H2 & H3). split; [exact W|]. repeat split; auto.
  - subst f. now apply slice_init_ok.
Qed.
Lemma inF_testbit f v b : inF f v -> (pdeg f <= b)%N -> N.testbit v b = false.
Proof. intros H Hb. unfold inF in H. rewrite lt_pow2_bits in H. now apply H. Qed.
Lemma inF_bits f v : (forall b, (pdeg f <= b)%N -> N.testbit v b = false) -> inF f v.
Proof. intros H. unfold inF. now apply lt_pow2_bits. Qed.
Lemma odd_shr v i : N.odd (wshr v i) = N.testbit v (N.of_nat i).
Proof. rewrite <- N.bit0_odd. rewrite wshr_spec. now rewrite N.add_0_l. Qed.
Lemma land_1 v : N.land v 1 = N.b2n (N.odd v).
Proof. change 1%N with (N.ones 1). rewrite N.land_ones. rewrite <- N.bit0_mod. now rewrite N.bit0_odd. Qed.

Theorem slice_set_ui_ok A v : wf_slice A -> inF (sfld A) v ->
  wp (mzd_slice_set_ui A v) (fun A' => sbecomes A A' (fun i c => if i =? c then v else 0%N)).
Proof.
  intros HA Hv. apply map_ok; auto.
  - intros i c _ _. destruct (i =? c); [easy|]. unfold inF. apply N.neq_0_lt_0, N.pow_nonzero. lia.
  - intros b Hb Wb _ _. cbn [wp]. eapply mset_ext; [now apply set_ui_ok|]. cbv beta. intros i c _ _.
    rewrite land_1, odd_shr. destruct (i =? c).
    + rewrite andb_true_r. now destruct (N.testbit v (N.of_nat b)).
    + rewrite andb_false_r. now rewrite N.bits_0.
Qed.
Theorem slice_copy_ok B A : wf_slice A -> starget B (sfld A) (sl_nrows A) (sl_ncols A) ->
  wp (mzd_slice_copy B A) (fun B' => sholds B' (sfld A) (sl_nrows A) (sl_ncols A) (sentry A) /\ match B with Some B => sbecomes B B' (sentry A) | None => True end).
Proof.
  intros HA HB. unfold mzd_slice_copy. assert (Wff : gf2e_wf (sl_ff A)) by apply HA.
  pose proof (or_init_ok B _ _ _ _ Wff eq_refl HB) as HC. set (C := sl_or_init _ _ _ _) in *. pose proof HC as (C1 & C2 & C3 & C4 & _).
  eapply wp_mono; [apply (map_n_ok C _ (sentry A)); auto|].
  - apply same_depth; auto.
  - intros i c _ _. rewrite C2. now apply sentry_in.
  - intros b Hb Wb R1 R2. rewrite (same_depth C A C1 HA C2) in Hb. rewrite lget_sx by easy. cbn [bind]. destruct HA as (_ & _ & _ & H4). destruct (H4 b Hb) as (L1 & L2 & L3).
    eapply wp_mono; [apply copy_ok; auto; congruence|]. cbv beta. intros x' Hx. eapply mset_ext; [exact Hx|]. intros i c _ _. now apply sbit.
  - cbv beta. intros C' B'. split; [exact (sh_becomes _ _ _ _ _ _ _ HC B')|]. destruct B; [exact B'|exact I].
Qed.
Theorem slice_read_elem_ok A i c : wf_slice A -> i < sl_nrows A -> c < sl_ncols A -> mzd_slice_read_elem A i c = Ok (sentry A i c).
Proof.
  intros HA Hi Hc. pose proof HA as (_ & D & L & H4). pose proof (wfs_depth A HA) as D16.
  unfold mzd_slice_read_elem.
  assert (W : wp (for_ 0 (sl_depth A) (fun i0 ret => x <- lget (sl_x A) i0 ;; b <- mzd_read_bit x i c ;; Ok (N.lor ret (wshl (N.b2n b) i0))) 0%N) (fun r => r = sentry A i c)).
  { unfold sentry. apply (wp_for (fun k r => r = word_of_bits k (fun b => mbit (sx A b) i c))); [lia|easy|].
    intros j r Hj ->. rewrite lget_sx by (auto; lia). cbn [bind]. destruct (H4 j ltac:(lia)) as (L1 & L2 & L3). rewrite read_bit_ok by lia. cbn [bind wp].
    cbn [word_of_bits]. apply N.bits_inj. intros k. replace k with (N.of_nat (N.to_nat k)) by lia. set (kk := N.to_nat k).
    rewrite N.lor_spec, wshl_spec, testbit_word_of_bits. destruct (mbit (sx A j) i c).
    - rewrite N.setbit_eqb, testbit_word_of_bits. cbn [N.b2n]. destruct (Nat.eqb_spec j kk) as [<-|Hne].
      + rewrite N.eqb_refl. replace (N.of_nat j - N.of_nat j)%N with 0%N by lia. replace (N.of_nat j <=? N.of_nat j)%N with true by lia. replace (N.of_nat j <? 64)%N with true by lia. cbn. apply orb_true_r.
      + replace (N.of_nat j =? N.of_nat kk)%N with false by lia. cbn [orb].
        destruct (N.leb_spec (N.of_nat j) (N.of_nat kk)); cbn [andb]; [|apply orb_false_r].
        rewrite (N.bits_above_log2 1) by (cbn; lia). now rewrite andb_false_r, orb_false_r.
    - cbn [N.b2n]. rewrite ?N.bits_0, !andb_false_r, orb_false_r. now rewrite testbit_word_of_bits. }
  apply wp_iff in W. destruct W as (r & E & ->). exact E.
Qed.
Lemma inF_lxor f a b : inF f a -> inF f b -> inF f (N.lxor a b). Proof. apply lxor_lt_pow2. Qed.
Theorem slice_add_elem_ok A r c v : wf_slice A -> r < sl_nrows A -> c < sl_ncols A -> inF (sfld A) v ->
  wp (mzd_slice_add_elem A r c v) (fun A' => sbecomes A A' (fun i k => if (i =? r) && (k =? c) then N.lxor (sentry A i k) v else sentry A i k)).
Proof.
  intros HA Hr Hc Hv. apply map_ok; auto.
  - intros i k _ _. destruct (_ && _); [apply inF_lxor; [now apply sentry_in|easy]|now apply sentry_in].
  - intros b Hb Wb R1 R2. rewrite land_1, odd_shr. eapply wp_mono; [apply xor_bit_ok; auto; lia|]. cbv beta. intros x' Hx.
    eapply mset_ext; [exact Hx|]. cbv beta. intros i k _ _. rewrite sbit by easy. destruct (_ && _); [now rewrite N.lxor_spec|easy].
Qed.
Theorem slice_write_elem_ok A r c v : wf_slice A -> r < sl_nrows A -> c < sl_ncols A -> inF (sfld A) v ->
  wp (mzd_slice_write_elem A r c v) (fun A' => sbecomes A A' (fun i k => if (i =? r) && (k =? c) then v else sentry A i k)).
Proof.
  intros HA Hr Hc Hv. apply map_ok; auto.
  - intros i k _ _. destruct (_ && _); [easy|now apply sentry_in].
  - intros b Hb Wb R1 R2. rewrite odd_shr. eapply wp_mono; [apply write_bit_ok; auto; lia|]. cbv beta. intros x' Hx.
    eapply mset_ext; [exact Hx|]. cbv beta. intros i k _ _. rewrite sbit by easy. now destruct (_ && _).
Qed.

(** ** comparison *)
Theorem slice_is_zero_ok A : wf_slice A ->
  (mzd_slice_is_zero A = true <-> forall i c, i < sl_nrows A -> c < sl_ncols A -> sentry A i c = 0%N).
Proof.
  intros HA. pose proof HA as (_ & D & L & H4). unfold mzd_slice_is_zero. rewrite firstn_all2 by lia. rewrite forallb_forall. split.
  - intros H i c Hi Hc. unfold sentry. rewrite (word_of_bits_ext _ _ (fun b => N.testbit 0 (N.of_nat b))).
    + apply word_of_bits_id. apply N.neq_0_lt_0, N.pow_nonzero. lia.
    + intros b Hb. rewrite N.bits_0. destruct (H4 b Hb) as (L1 & L2 & L3). apply is_zero_ok; try lia. apply H. apply nth_In. lia.
  - intros H x Hx. destruct (In_nth _ _ (Mzd 0 0 []) Hx) as (b & Hb & <-). fold (sx A b). destruct (H4 b ltac:(lia)) as (L1 & L2 & L3).
    apply is_zero_ok. intros i k Hi Hk. rewrite sbit by lia. rewrite H by lia. apply N.bits_0.
Qed.
Theorem slice_cmp_ok A B : wf_slice A -> wf_slice B -> exists r, mzd_slice_cmp A B = Ok r /\
  (r = 0%Z <-> sfld A = sfld B /\ sl_nrows A = sl_nrows B /\ sl_ncols A = sl_ncols B /\
     forall i c, i < sl_nrows A -> c < sl_ncols A -> sentry A i c = sentry B i c).
Proof.
  intros HA HB. unfold mzd_slice_cmp. destruct (sl_same_ff A B) eqn:Ef.
  2:{ cbn [negb orb]. exists (-1)%Z. split; [easy|]. split; [easy|]. intros (E & _). apply sl_same_ff_iff in E. congruence. }
  apply sl_same_ff_iff in Ef. pose proof (same_depth _ _ HA HB Ef) as Ed. rewrite Ed, Nat.eqb_refl. cbn [negb orb].
  pose proof HA as (WffA & DA & LA & HA4). pose proof HB as (_ & DB & LB & HB4).
  assert (H : wp (for_ 0 (sl_depth B) (fun i r => a <- lget (sl_x A) i ;; b <- lget (sl_x B) i ;; Ok (Z.lor r (cmp_int (mzd_cmp a b)))) 0%Z)
    (fun r => r = 0%Z <-> forall b, b < sl_depth B -> mzd_cmp (sx A b) (sx B b) = Eq)).
  { apply (wp_for (fun k r => r = 0%Z <-> forall b, b < k -> mzd_cmp (sx A b) (sx B b) = Eq)); [lia|split; [intros; lia|easy]|].
    intros j r Hj Hr. rewrite !lget_sx by (auto; lia). cbn [bind wp]. rewrite Z.lor_eq_0_iff, Hr. split.
    - intros [H1 H2] b Hb. destruct (Nat.eq_dec b j) as [->|Hne]; [now destruct (mzd_cmp _ _)|apply H1; lia].
    - intros H. split; [intros b Hb; apply H; lia|]. now rewrite H by lia. }
  apply wp_iff in H. destruct H as (r & -> & Hr). exists r. split; [easy|]. rewrite Hr.
  pose proof (wfs_depth B HB) as D1.
  split.
  - intros H. split; [easy|]. pose proof (H 0 ltac:(lia)) as H0. apply mzd_cmp_eq in H0.
    destruct (HA4 0 ltac:(lia)) as (_ & A2 & A3). destruct (HB4 0 ltac:(lia)) as (_ & B2 & B3).
    destruct H0 as (N1 & N2 & _). split; [congruence|]. split; [congruence|]. intros i c Hi Hc. unfold sentry. rewrite Ed. apply word_of_bits_ext.
    intros b Hb. pose proof (H b Hb) as Hb'. apply mzd_cmp_eq in Hb'. destruct Hb' as (_ & _ & Hb'). destruct (HA4 b ltac:(lia)) as (_ & A2' & A3'). apply Hb'; lia.
  - intros (_ & N1 & N2 & H) b Hb. apply mzd_cmp_eq. destruct (HA4 b ltac:(lia)) as (_ & A2 & A3). destruct (HB4 b ltac:(lia)) as (_ & B2 & B3).
    split; [congruence|]. split; [congruence|]. intros i k Hi Hk. rewrite !sbit by lia. now rewrite H by lia.
Qed.
