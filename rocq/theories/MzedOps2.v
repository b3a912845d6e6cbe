(** Windows, comparison, randomisation, naive and scalar multiplication. *)
From Coq Require Import NArith Lia List Bool Arith.
From Coq Require Import ZifyBool ZifyNat ZifyN.
From Verif Require Import Base Spec PolyFacts Gf2xModel Gf2xProofs Gf2eModel Gf2eProofs MzdModel MzedModel MzedSpec LaneFacts MzedProofs MzedOps.
Import ListNotations.
Local Open Scope nat_scope.

(** ** windows *)
Lemma nth_firstn_skipn {A} (l : list A) o m j d : j < m -> nth j (firstn m (skipn o l)) d = nth (o + j) l d.
Proof.
  intros Hj. destruct (Nat.lt_ge_cases (o + j) (length l)) as [L|L].
  - rewrite <- (firstn_skipn o l) at 2. rewrite app_nth2; rewrite firstn_length_le by lia; [|lia].
    replace (o + j - o) with j by lia.
    rewrite <- (firstn_skipn m (skipn o l)) at 2. rewrite app_nth1; [easy|].
    rewrite firstn_length, skipn_length. lia.
  - rewrite !nth_overflow; auto. rewrite firstn_length, skipn_length. lia.
Qed.
Lemma firstn_skipn_length {A} (l : list A) o m : o + m <= length l -> length (firstn m (skipn o l)) = m.
Proof. intros H. rewrite firstn_length, skipn_length. lia. Qed.
Lemma splice_length {A} (l : list A) o new : o + length new <= length l -> length (splice l o new) = length l.
Proof. intros H. unfold splice. rewrite !app_length, firstn_length, skipn_length. lia. Qed.
Lemma nth_splice {A} (l : list A) o new j d : o + length new <= length l ->
  nth j (splice l o new) d = if (o <=? j) && (j <? o + length new) then nth (j - o) new d else nth j l d.
Proof.
  intros H. unfold splice.
  assert (Lf : length (firstn o l) = o) by (rewrite firstn_length; lia).
  destruct (Nat.leb_spec o j) as [L1|L1]; cbn [andb].
  - rewrite app_nth2 by lia. rewrite Lf. destruct (Nat.ltb_spec j (o + length new)) as [L2|L2].
    + rewrite app_nth1 by lia. reflexivity.
    + rewrite app_nth2 by lia. rewrite <- (firstn_skipn (o + length new) l) at 2.
      rewrite app_nth2; rewrite firstn_length_le by lia; [|lia]. f_equal. lia.
  - rewrite app_nth1 by lia. rewrite <- (firstn_skipn o l) at 2. now rewrite app_nth1 by lia.
Qed.

Lemma aligned w lc : good_w w -> lc mod per w = 0 -> (w * lc) mod 64 = 0 /\ (w * lc) / 64 = lc / per w /\ lc = per w * (lc / per w).
Proof.
  intros Hw H. rewrite mod_w, div_w by easy. pose proof (per_pos w Hw).
  pose proof (Nat.div_mod lc (per w) ltac:(lia)). rewrite H. lia.
Qed.
Lemma rel_window w r o wd c : good_w w -> c < per w * wd -> rel w (firstn wd (skipn o r)) c = rel w r (per w * o + c).
Proof.
  intros Hw Hc. unfold rel. pose proof (per_pos w Hw).
  rewrite nth_firstn_skipn by (apply Nat.div_lt_upper_bound; lia).
  replace (per w * o + c) with (c + o * per w) by lia.
  rewrite Nat.div_add, Nat.mod_add by lia. now rewrite (Nat.add_comm (c / per w)).
Qed.
Lemma rel_splice w r o new c : good_w w -> o + length new <= length r ->
  rel w (splice r o new) c = if (per w * o <=? c) && (c <? per w * (o + length new)) then rel w new (c - per w * o) else rel w r c.
Proof.
  intros Hw H. unfold rel. pose proof (per_pos w Hw). rewrite nth_splice by easy.
  pose proof (Nat.div_mod c (per w) ltac:(lia)) as D. pose proof (Nat.mod_upper_bound c (per w) ltac:(lia)) as M.
  assert (E1 : (o <=? c / per w) = (per w * o <=? c)).
  { destruct (Nat.leb_spec o (c / per w)), (Nat.leb_spec (per w * o) c); try easy; nia. }
  assert (E2 : (c / per w <? o + length new) = (c <? per w * (o + length new))).
  { destruct (Nat.ltb_spec (c / per w) (o + length new)), (Nat.ltb_spec c (per w * (o + length new))); try easy; nia. }
  rewrite E1, E2. destruct (Nat.leb_spec (per w * o) c) as [L|L]; cbn [andb]; [|easy].
  destruct (c <? per w * (o + length new)); [|easy].
  assert (Ec : c = (c - per w * o) + o * per w) by lia.
  assert (Ed : c / per w = (c - per w * o) / per w + o) by (rewrite Ec at 1; rewrite Nat.div_add; lia).
  assert (Em : c mod per w = (c - per w * o) mod per w) by (rewrite Ec at 1; rewrite Nat.mod_add; lia).
  rewrite Em, Ed. f_equal. f_equal. lia.
Qed.

(** the words of a window lie inside the parent *)
Lemma window_fits w lc hc n : good_w w -> lc mod per w = 0 -> lc <= hc <= n ->
  lc / per w + width (w * (hc - lc)) <= width (w * n).
Proof.
  intros Hw H Hc. destruct (aligned w lc Hw H) as (_ & _ & E). pose proof (per_pos w Hw) as P.
  destruct (width_bounds w (hc - lc) Hw) as [B1 B2]. destruct (width_bounds w n Hw) as [B3 B4].
  assert (per w * (lc / per w + width (w * (hc - lc))) < per w * (width (w * n) + 1)) by nia.
  apply Nat.mul_lt_mono_pos_l in H0; lia.
Qed.

Theorem mzed_window_ok A lr lc hr hc :
  wf_mzed A -> lr <= hr <= mz_nrows A -> lc <= hc <= mz_ncols A -> lc mod per (mz_w A) = 0 ->
  wp (mzed_window A lr lc hr hc) (fun W =>
    mz_ff W = mz_ff A /\ mz_w W = mz_w A /\ mz_nrows W = hr - lr /\ mz_ncols W = hc - lc /\
    wf_mzed W /\ cap W <= cap A - lc /\
    forall i c, i < hr - lr -> c < cap W -> entry W i c = entry A (lr + i) (lc + c)).
Proof.
  intros HA Hr Hc Hal. unfold mzed_window. wfd HA. rewrite Ww. cbn [bind].
  pose proof (wf_good A HA) as Hw. destruct (aligned _ _ Hw Hal) as (E1 & E2 & E3).
  pose proof (window_fits _ _ _ _ Hw Hal Hc) as Fit. pose proof (per_pos _ Hw) as Pp.
  unfold mzd_window. apply wp_bind. wp_guard_.
  { btrue. rewrite Wnr, Wnc. nia. }
  cbn [wp]. rewrite E2.
  replace (mz_w A * hc - mz_w A * lc) with (mz_w A * (hc - lc)) by nia.
  set (rows := map _ _).
  assert (Hrow : forall i, i < hr - lr -> nth i rows [] =
     firstn (width (mz_w A * (hc - lc))) (skipn (lc / per (mz_w A)) (mrow (mz_x A) (lr + i)))).
  { intros i Hi. unfold rows. set (g := fun r : list N => _).
    rewrite (nth_indep _ [] (g [])).
    2:{ rewrite map_length, firstn_skipn_length; lia. }
    rewrite (map_nth g). unfold g. now rewrite nth_firstn_skipn. }
  set (W := Mzed _ _ _ _ _).
  assert (HE : forall i c, i < hr - lr -> c < cap W -> entry W i c = entry A (lr + i) (lc + c)).
  { intros i c Hi Hcc. unfold entry at 1, mrow. cbn [W mz_x mz_w mzd_rows]. rewrite Hrow by easy.
    rewrite rel_window by easy. rewrite <- E3. reflexivity. }
  assert (HC : cap W <= cap A - lc).
  { unfold cap. cbn [W mz_w mz_ncols]. nia. }
  repeat (split; [reflexivity|]). split; [|split; [exact HC|exact HE]].
  apply wf_intro; auto.
  - unfold rows. rewrite map_length, firstn_skipn_length; lia.
  - intros i Hi. rewrite Hrow by easy. destruct (wf_mrow A (lr + i) HA ltac:(lia)) as (L1 & L2 & L3).
    split; [|split].
    + apply firstn_skipn_length. lia.
    + apply Forall_forall. intros x Hx. rewrite Forall_forall in L2. apply L2.
      rewrite <- (firstn_skipn (lc / per (mz_w A)) (mrow (mz_x A) (lr + i))). apply in_or_app. right.
      rewrite <- (firstn_skipn (width (mz_w A * (hc - lc))) (skipn _ _)). apply in_or_app. now left.
    + intros c Hcc. rewrite rel_window by easy. rewrite <- E3. apply (wf_entry_cap A (lr + i) (lc + c)); auto; [lia|].
      unfold cap in HC. cbn [W mz_w mz_ncols] in HC. unfold cap. lia.
Qed.

Theorem mzed_unwindow_ok A lr lc hr hc W W' F :
  wf_mzed A -> lr <= hr <= mz_nrows A -> lc <= hc <= mz_ncols A -> lc mod per (mz_w A) = 0 ->
  mzed_window A lr lc hr hc = Ok W -> becomes W W' F ->
  becomes A (mzed_unwindow A lr lc W')
    (fun i c => if (lr <=? i) && (i <? hr) && (lc <=? c) && (c <? hc) then F (i - lr) (c - lc) else entry A i c).
Proof.
  intros HA Hr Hc Hal EW B. pose proof (mzed_window_ok A lr lc hr hc HA Hr Hc Hal) as HW.
  rewrite EW in HW. cbn [wp] in HW. destruct HW as (Ef & Ew & Enr & Enc & HW & Hcap & HE).
  pose proof (wf_good A HA) as Hw. destruct (aligned _ _ Hw Hal) as (E1 & E2 & E3).
  pose proof (window_fits _ _ _ _ Hw Hal Hc) as Fit. pose proof (per_pos _ Hw) as Pp.
  pose proof (becomes_wf _ _ _ B) as HW'. pose proof HW' as (_ & _ & X1 & X2 & X3 & _).
  pose proof (becomes_nr _ _ _ B) as Bnr. pose proof (becomes_nc _ _ _ B) as Bnc.
  pose proof (becomes_w _ _ _ B) as Bw. pose proof (becomes_ff _ _ _ B) as Bf.
  unfold mzed_unwindow, mzd_unwindow. wfd HA. pose proof (wf_cap A HA) as HcapA.
  assert (capW : cap W = per (mz_w A) * width (mz_w A * (hc - lc))) by (unfold cap; congruence).
  destruct (width_bounds (mz_w A) (hc - lc) Hw) as [Wb1 Wb2].
  apply becomes_rows; auto.
  - rewrite map_length, seq_length. easy.
  - intros i Hi. set (g := fun i => _). rewrite (nth_indep _ [] (g 0)) by (rewrite map_length, seq_length; lia).
    rewrite (map_nth g), seq_nth by lia. cbn [Nat.add]. unfold g. rewrite X1, Bnr, Enr, E2.
    replace (i <? lr + (hr - lr)) with (i <? hr) by lia.
    destruct (wf_mrow A i HA Hi) as (L1 & L2 & L3).
    destruct ((lr <=? i) && (i <? hr)) eqn:Ei.
    + destruct (wf_mrow W' (i - lr) HW' ltac:(lia)) as (M1 & M2 & M3).
      rewrite Bw, Ew, Bnc, Enc in M1, M3. rewrite Bf, Ef in M3.
      assert (Fit' : lc / per (mz_w A) + length (mrow (mz_x W') (i - lr)) <= length (mrow (mz_x A) i)) by lia.
      assert (R : forall c, c < cap A -> rel (mz_w A) (splice (mrow (mz_x A) i) (lc / per (mz_w A)) (mrow (mz_x W') (i - lr))) c =
        if (lc <=? c) && (c <? hc) then F (i - lr) (c - lc) else entry A i c).
      { intros c Hcc. rewrite rel_splice by easy. rewrite <- E3, M1.
        replace (per (mz_w A) * (lc / per (mz_w A) + width (mz_w A * (hc - lc)))) with (lc + cap W) by (rewrite capW; lia).
        destruct (Nat.leb_spec lc c) as [C1|C1]; cbn [andb]; [|easy].
        assert (EE : rel (mz_w A) (mrow (mz_x W') (i - lr)) (c - lc) = entry W' (i - lr) (c - lc)).
        { unfold entry. now rewrite Bw, Ew. }
        destruct (Nat.ltb_spec c hc) as [C2|C2].
        - replace (c <? lc + cap W) with true by lia. rewrite EE. apply (becomes_entry _ _ _ _ _ B); lia.
        - destruct (Nat.ltb_spec c (lc + cap W)) as [C3|C3]; [|easy]. rewrite EE.
          destruct B as (_ & _ & _ & P). rewrite P by lia. rewrite HE by lia. f_equal; lia. }
      split.
      * split; [now rewrite splice_length|]. split.
        -- unfold splice. rewrite !Forall_app. split; [|split]; [|easy|].
           ++ rewrite <- (firstn_skipn (lc / per (mz_w A)) (mrow (mz_x A) i)) in L2. now apply Forall_app in L2.
           ++ rewrite <- (firstn_skipn (lc / per (mz_w A) + length (mrow (mz_x W') (i - lr))) (mrow (mz_x A) i)) in L2.
              now apply Forall_app in L2.
        -- intros c Hcc. rewrite rel_splice by easy.
           destruct ((per (mz_w A) * (lc / per (mz_w A)) <=? c) && _) eqn:Z; [|now apply L3].
           apply M3. rewrite <- E3 in *. rewrite M1 in Z.
           assert (c < per (mz_w A) * (lc / per (mz_w A) + width (mz_w A * (hc - lc)))) by lia.
           rewrite Nat.mul_add_distr_l, <- E3 in H. lia.
      * intros c Hcc. rewrite R by easy. cbn [andb]. 
        destruct (Nat.ltb_spec c (mz_ncols A)); [easy|].
        replace (c <? hc) with false by lia. now rewrite andb_false_r.
    + split; [now apply wf_mrow|]. intros c Hcc. cbn [andb]. fold (entry A i c). now destruct (c <? mz_ncols A).
Qed.
(** the usual pattern: take a window, run an in-place operation, write back *)
Lemma on_window A lr lc hr hc (op : mzed -> res mzed) F :
  wf_mzed A -> lr <= hr <= mz_nrows A -> lc <= hc <= mz_ncols A -> lc mod per (mz_w A) = 0 ->
  (forall W, mz_ff W = mz_ff A -> mz_w W = mz_w A -> mz_nrows W = hr - lr -> mz_ncols W = hc - lc -> wf_mzed W ->
     (forall i c, i < hr - lr -> c < hc - lc -> entry W i c = entry A (lr + i) (lc + c)) ->
     wp (op W) (fun W' => becomes W W' F)) ->
  wp (W <- mzed_window A lr lc hr hc ;; W' <- op W ;; Ok (mzed_unwindow A lr lc W'))
     (fun A' => becomes A A' (fun i c => if (lr <=? i) && (i <? hr) && (lc <=? c) && (c <? hc)
                                         then F (i - lr) (c - lc) else entry A i c)).
Proof.
  intros HA Hr Hc Hal Hop. pose proof (mzed_window_ok A lr lc hr hc HA Hr Hc Hal) as HW.
  destruct (mzed_window A lr lc hr hc) as [W| |] eqn:EW; cbn [wp] in HW; try contradiction. cbn [bind].
  destruct HW as (Ef & Ew & Enr & Enc & HW & Hcap & HE). apply wp_bind. eapply wp_mono.
  - apply Hop; auto. intros i c Hi Hcc. apply HE; auto. pose proof (wf_cap W HW). lia.
  - cbv beta. intros W' B. cbn [wp]. eapply mzed_unwindow_ok; eauto.
Qed.

(** ** comparison *)
Lemma entry_zero_bits A i c : wf_mzed A ->
  entry A i c = 0%N <-> (forall b, b < mz_w A -> mbit (mz_x A) i (mz_w A * c + b) = false).
Proof.
  intros H. split.
  - intros E b Hb. rewrite mbit_entry, E by easy. apply N.bits_0.
  - intros E. apply (rel_ext (mz_w A)); [now apply wf_good|apply rel_lt|apply N.neq_0_lt_0, N.pow_nonzero; lia|].
    intros b Hb. fold (entry A i c). rewrite <- mbit_entry by easy. rewrite N.bits_0. now apply E.
Qed.
Lemma col_split w n k : 0 < w -> k < w * n -> k = w * (k / w) + k mod w /\ k / w < n /\ k mod w < w.
Proof.
  intros Hw Hk. split; [apply Nat.div_mod; lia|]. split; [apply Nat.div_lt_upper_bound; lia|apply Nat.mod_upper_bound; lia].
Qed.
Theorem mzed_is_zero_ok A : wf_mzed A ->
  mzed_is_zero A = true <-> (forall i c, i < mz_nrows A -> c < mz_ncols A -> entry A i c = 0%N).
Proof.
  intros H. unfold mzed_is_zero, mzd_is_zero. wfd H. pose proof (good_w_pos _ (wf_good A H)) as Pw.
  rewrite forallb_forall, Wnr, Wnc. split.
  - intros Hz i c Hi Hc. apply entry_zero_bits; auto. intros b Hb.
    assert (I1 : In i (seq 0 (mz_nrows A))) by (apply in_seq; lia).
    assert (I2 : In (mz_w A * c + b) (seq 0 (mz_w A * mz_ncols A))) by (apply in_seq; nia).
    specialize (Hz i I1). rewrite forallb_forall in Hz. specialize (Hz _ I2). now apply negb_true_iff.
  - intros Hz i Hi. apply in_seq in Hi. apply forallb_forall. intros k Hk. apply in_seq in Hk.
    destruct (col_split (mz_w A) (mz_ncols A) k ltac:(lia) ltac:(lia)) as (E & K1 & K2).
    rewrite E. rewrite mbit_entry by easy. rewrite Hz by lia. now rewrite N.bits_0.
Qed.
Lemma bits_cmp_eq n g h : bits_cmp n g h = Eq <-> (forall k, k < n -> g k = h k).
Proof.
  induction n as [|n IH]; cbn [bits_cmp]; [split; [lia|easy]|].
  destruct (g n) eqn:Eg, (h n) eqn:Eh; try (split; [easy|intros H; specialize (H n ltac:(lia)); congruence]).
  - rewrite IH. split; intros H k Hk; [destruct (Nat.eq_dec k n) as [->|]; [congruence|]|]; apply H; lia.
  - rewrite IH. split; intros H k Hk; [destruct (Nat.eq_dec k n) as [->|]; [congruence|]|]; apply H; lia.
Qed.
Lemma rows_cmp_eq m n A B : forall i,
  rows_cmp m i n A B = Eq <-> (forall r k, i <= r < i + m -> k < n -> mbit A r k = mbit B r k).
Proof.
  induction m as [|m IH]; intros i; cbn [rows_cmp]; [split; [lia|easy]|].
  pose proof (bits_cmp_eq n (mbit A i) (mbit B i)) as Hb.
  destruct (bits_cmp n (mbit A i) (mbit B i)).
  - rewrite IH. destruct Hb as [Hb _]. specialize (Hb eq_refl). split; intros H r k Hr Hk.
    + destruct (Nat.eq_dec r i) as [->|]; [now apply Hb|]. apply H; lia.
    + apply H; lia.
  - split; [easy|]. intros H. destruct Hb as [_ Hb]. enough (Lt = Eq) by easy. apply Hb. intros k Hk. apply H; lia.
  - split; [easy|]. intros H. destruct Hb as [_ Hb]. enough (Gt = Eq) by easy. apply Hb. intros k Hk. apply H; lia.
Qed.
Theorem mzd_cmp_eq A B :
  mzd_cmp A B = Eq <-> mzd_nrows A = mzd_nrows B /\ mzd_ncols A = mzd_ncols B /\
    (forall i k, i < mzd_nrows A -> k < mzd_ncols A -> mbit A i k = mbit B i k).
Proof.
  unfold mzd_cmp. destruct (Nat.compare_spec (mzd_nrows A) (mzd_nrows B)) as [E1|L|L]; try (split; [easy|lia]).
  destruct (Nat.compare_spec (mzd_ncols A) (mzd_ncols B)) as [E2|L|L]; try (split; [easy|lia]).
  rewrite rows_cmp_eq. split.
  - intros H. repeat split; auto. intros i k Hi Hk. apply H; lia.
  - intros (_ & _ & H) r k Hr Hk. apply H; lia.
Qed.
Theorem mzed_cmp_ok A B : wf_mzed A -> wf_mzed B -> fld A = fld B ->
  mzed_cmp A B = Eq <-> mz_nrows A = mz_nrows B /\ mz_ncols A = mz_ncols B /\
    (forall i c, i < mz_nrows A -> c < mz_ncols A -> entry A i c = entry B i c).
Proof.
  intros HA HB Ef. unfold mzed_cmp. rewrite mzd_cmp_eq.
  assert (Ew : mz_w A = mz_w B) by now apply same_w.
  pose proof HA as (_ & _ & A1 & A2 & _). pose proof HB as (_ & _ & B1 & B2 & _).
  pose proof (good_w_pos _ (wf_good A HA)) as Pw. rewrite A1, A2, B1, B2, <- Ew.
  split; intros (H1 & H2 & H3).
  - assert (mz_ncols A = mz_ncols B) by nia. repeat split; auto. intros i c Hi Hc.
    apply (rel_ext (mz_w A)); [now apply wf_good|apply rel_lt|rewrite Ew; apply rel_lt|].
    intros b Hb. fold (entry A i c). rewrite <- !mbit_entry by (auto; lia). rewrite <- Ew. apply H3; nia.
  - split; [easy|]. split; [congruence|]. intros i k Hi Hk.
    destruct (col_split (mz_w A) (mz_ncols A) k ltac:(lia) ltac:(lia)) as (E & K1 & K2).
    rewrite E. rewrite mbit_entry by easy. rewrite H3 by easy.
    rewrite Ew in K2 |- *. now rewrite mbit_entry.
Qed.
Theorem mzed_first_zero_row_ok A : wf_mzed A ->
  mzed_first_zero_row A <= mz_nrows A /\
  (forall i c, mzed_first_zero_row A <= i < mz_nrows A -> c < mz_ncols A -> entry A i c = 0%N) /\
  (0 < mzed_first_zero_row A -> exists c, c < mz_ncols A /\ entry A (mzed_first_zero_row A - 1) c <> 0%N).
Proof.
  intros H. unfold mzed_first_zero_row, mzd_first_zero_row. wfd H. rewrite Wnr.
  pose proof (good_w_pos _ (wf_good A H)) as Pw. generalize (mz_nrows A) as m.
  induction m as [|m IH]; cbn [first_zero_row]; [repeat split; lia|].
  destruct (forallb _ _) eqn:E.
  - destruct IH as (I1 & I2 & I3). split; [lia|]. split; [|exact I3].
    intros i c Hi Hc. destruct (Nat.eq_dec i m) as [->|]; [|apply I2; lia].
    rewrite forallb_forall in E. apply entry_zero_bits; auto. intros b Hb. apply negb_true_iff. apply E.
    apply in_seq. rewrite Wnc. nia.
  - split; [lia|]. split; [lia|]. intros _. replace (S m - 1) with m by lia.
    assert (X : exists k, k < mz_w A * mz_ncols A /\ mbit (mz_x A) m k = true).
    { rewrite <- Wnc. clear -E. revert E. generalize (mzd_ncols (mz_x A)) as n. intros n E.
      assert (G : forall l, forallb (fun k => negb (mbit (mz_x A) m k)) l = false -> exists k, In k l /\ mbit (mz_x A) m k = true).
      { induction l as [|a l IHl]; cbn; [easy|]. destruct (mbit (mz_x A) m a) eqn:Ea; cbn.
        - intros _. exists a. auto.
        - intros Hl. destruct (IHl Hl) as (k & K1 & K2). eauto. }
      destruct (G _ E) as (k & K1 & K2). apply in_seq in K1. exists k. split; [lia|easy]. }
    destruct X as (k & K1 & K2).
    destruct (col_split (mz_w A) (mz_ncols A) k ltac:(lia) ltac:(lia)) as (Ek & K3 & K4).
    exists (k / mz_w A). split; [easy|]. intros Z. rewrite Ek, mbit_entry, Z, N.bits_0 in K2 by easy. discriminate.
Qed.

(** ** randomize *)
Theorem mzed_randomize_ok rnd A : wf_mzed A ->
  wp (mzed_randomize rnd A) (fun A' => becomes A A'
     (fun i c => N.land (rnd i c) (N.ones (N.of_nat (ff_degree (mz_ff A)))))).
Proof.
  intros H. unfold mzed_randomize. wfd H. destruct Wff as (He & Hd & _).
  set (v := fun i c => N.land (rnd i c) (N.ones (N.of_nat (ff_degree (mz_ff A))))).
  assert (Hv : forall i c, inF (fld A) (v i c)).
  { intros i c. unfold inF, v. rewrite Hd, N.land_ones. apply N.mod_upper_bound, N.pow_nonzero. lia. }
  eapply wp_mono.
  - apply (wp_for (fun r A' => becomes A A' (fun i c => if i <? r then v i c else entry A i c))); [lia| |].
    + eapply becomes_ext; [now apply becomes_refl|]. intros i c _ _. now replace (i <? 0) with false by lia.
    + intros r A1 Hr B. eapply wp_mono.
      * apply (wp_for (fun s A' => becomes A A' (fun i c => if (i <? r) || ((i =? r) && (c <? s)) then v i c else entry A i c))); [lia| |].
        -- eapply becomes_ext; [exact B|]. cbv beta. intros i c _ _. replace (c <? 0) with false by lia.
           now rewrite andb_false_r, orb_false_r.
        -- intros s A2 Hs B2. rewrite (becomes_nc _ _ _ B) in Hs. pose proof (becomes_nr _ _ _ B2) as E1. pose proof (becomes_nc _ _ _ B2) as E2.
           pose proof (becomes_ff _ _ _ B2) as E3.
           eapply wp_mono; [apply mzed_write_elem_ok; [exact (becomes_wf _ _ _ B2)|lia|lia|rewrite E3; apply Hv]|].
           cbv beta. intros A3 B3. eapply becomes_step; [exact B2|exact B3|]. cbv beta. intros i c Hi Hc.
           destruct (Nat.eqb_spec i r) as [->|]; destruct (Nat.eqb_spec c s) as [->|]; cbn [andb].
           ++ replace (s <? S s) with true by lia. now rewrite orb_true_r.
           ++ rewrite (becomes_entry _ _ _ _ _ B2) by easy. rewrite Nat.eqb_refl. cbn [andb].
              now replace (c <? S s) with (c <? s) by lia.
           ++ rewrite (becomes_entry _ _ _ _ _ B2) by easy. replace (i =? r) with false by lia. now cbn [andb].
           ++ rewrite (becomes_entry _ _ _ _ _ B2) by easy. replace (i =? r) with false by lia. now cbn [andb].
      * cbv beta. intros A2 B2. rewrite (becomes_nc _ _ _ B) in B2. eapply becomes_ext; [exact B2|]. cbv beta. intros i c Hi Hc.
        replace (c <? mz_ncols A) with true by lia. rewrite andb_true_r.
        now replace (i <? S r) with ((i <? r) || (i =? r)) by lia.
  - cbv beta. intros A' B. eapply becomes_ext; [exact B|]. cbv beta. intros i c Hi Hc.
    now replace (i <? mz_nrows A) with true by lia.
Qed.

(** ** naive multiplication *)
Theorem mzed_mul_naive_inplace_ok C A B : wf_mzed A -> wf_mzed B -> wf_mzed C ->
  fld A = fld C -> fld B = fld C -> mz_nrows C = mz_nrows A -> mz_ncols C = mz_ncols B -> mz_ncols A = mz_nrows B ->
  wp (mzed_mul_naive_ C A B) (fun C' => becomes C C'
     (madd (entry C) (mmul (fld C) (mz_ncols A) (entry A) (entry B)))).
Proof.
  intros HA HB HC fA fB E1 E2 E3. unfold mzed_mul_naive_.
  set (P := mmul (fld C) (mz_ncols A) (entry A) (entry B)).
  eapply wp_mono.
  - apply (wp_for (fun r C' => becomes C C' (fun i j => if i <? r then N.lxor (entry C i j) (P i j) else entry C i j))); [lia| |].
    + eapply becomes_ext; [now apply becomes_refl|]. intros i c _ _. now replace (i <? 0) with false by lia.
    + intros r C1 Hr B1. eapply wp_mono.
      * apply (wp_for (fun s C' => becomes C C' (fun i j => if (i <? r) || ((i =? r) && (j <? s)) then N.lxor (entry C i j) (P i j) else entry C i j))); [lia| |].
        -- eapply becomes_ext; [exact B1|]. cbv beta. intros i c _ _. replace (c <? 0) with false by lia.
           now rewrite andb_false_r, orb_false_r.
        -- intros s C2 Hs B2. rewrite (becomes_nc _ _ _ B1) in Hs. eapply wp_mono.
           ++ apply (wp_for (fun t C' => becomes C C' (fun i j => 
                 if (i =? r) && (j =? s) then N.lxor (entry C r s) (xsum t (fun k => fmul (fld C) (entry A r k) (entry B k s)))
                 else if (i <? r) || ((i =? r) && (j <? s)) then N.lxor (entry C i j) (P i j) else entry C i j))); [lia| |].
              ** eapply becomes_ext; [exact B2|]. cbv beta. intros i j _ _. cbn [xsum]. rewrite N.lxor_0_r.
                 destruct (Nat.eqb_spec i r) as [->|]; destruct (Nat.eqb_spec j s) as [->|]; cbn [andb]; auto.
                 replace (r <? r) with false by lia. now replace (s <? s) with false by lia.
              ** intros t C3 Ht B3. rewrite !mzed_read_elem_ok by (auto; lia). cbn [bind].
                 rewrite (becomes_ff _ _ _ B3).
                 pose proof HC as (Wf & _).
                 rewrite gf2e_mul_ok; auto.
                 2:{ rewrite <- fA. apply wf_entry; auto; lia. }
                 2:{ rewrite <- fB. apply wf_entry; auto; lia. }
                 cbn [bind]. pose proof (becomes_nr _ _ _ B3) as N1. pose proof (becomes_nc _ _ _ B3) as N2.
                 eapply wp_mono.
                 { apply mzed_add_elem_ok; [exact (becomes_wf _ _ _ B3)|lia|lia|].
                   rewrite (becomes_ff _ _ _ B3). apply fmul_lt. now apply wf_f0. }
                 cbv beta. intros C4 B4. eapply becomes_step; [exact B3|exact B4|]. cbv beta. intros i j Hi Hj.
                 rewrite !(becomes_entry _ _ _ _ _ B3) by lia. rewrite !Nat.eqb_refl. cbn [andb].
                 destruct ((i =? r) && (j =? s)) eqn:Eij; [|easy]. cbn [xsum]. apply N.lxor_assoc.
           ++ cbv beta. intros C3 B3. eapply becomes_ext; [exact B3|]. cbv beta. intros i j Hi Hj.
              destruct (Nat.eqb_spec i r) as [->|]; destruct (Nat.eqb_spec j s) as [->|]; cbn [andb].
              ** replace (s <? S s) with true by lia. now rewrite orb_true_r.
              ** now replace (j <? S s) with (j <? s) by lia.
              ** easy.
              ** easy.
      * cbv beta. intros C2 B2. rewrite (becomes_nc _ _ _ B1) in B2. eapply becomes_ext; [exact B2|]. cbv beta. intros i c Hi Hc.
        replace (c <? mz_ncols C) with true by lia. rewrite andb_true_r.
        now replace (i <? S r) with ((i <? r) || (i =? r)) by lia.
  - cbv beta. intros C' B'. eapply becomes_ext; [exact B'|]. cbv beta. intros i c Hi Hc.
    now replace (i <? mz_nrows C) with true by lia.
Qed.

Lemma mzed_mul_init_ok {T} C A B (clr : bool) : wf_mzed A -> wf_mzed B -> fld A = fld B -> mz_ncols A = mz_nrows B ->
  target C (fld A) (mz_nrows A) (mz_ncols B) ->
  forall (k : mzed -> res T) P,
  (forall D, wf_mzed D -> fld D = fld A -> mz_nrows D = mz_nrows A -> mz_ncols D = mz_ncols B ->
     (forall C0, C = Some C0 -> mz_ff D = mz_ff C0) ->
     (forall i j, i < mz_nrows A -> j < mz_ncols B -> entry D i j =
         match C with Some C0 => if clr then 0%N else entry C0 i j | None => 0%N end) ->
     (forall C0, C = Some C0 -> becomes C0 D (fun i j => if clr then 0%N else entry C0 i j)) ->
     wp (k D) P) ->
  wp (D <- mzed_mul_init C A B clr ;; k D) P.
Proof.
  intros HA HB Ef En HC k P Hk. unfold mzed_mul_init. apply wp_bind. wp_check_; [btrue; auto|].
  destruct C as [C|]; cbn [target] in HC.
  - destruct HC as (H1 & H2 & H3 & H4). wp_check_; [btrue; auto|]. destruct clr.
    + eapply wp_mono; [apply mzed_set_ui_ok; [easy|apply inF_0]|]. cbv beta. intros D BD.
      pose proof (becomes_ff _ _ _ BD) as Bf.
      assert (BD' : becomes C D (fun _ _ => 0%N)).
      { eapply becomes_ext; [exact BD|]. cbv beta. intros i c _ _. now destruct (i =? c). }
      apply Hk.
      * exact (becomes_wf _ _ _ BD).
      * now rewrite Bf.
      * now rewrite (becomes_nr _ _ _ BD).
      * now rewrite (becomes_nc _ _ _ BD).
      * now intros C0 [=<-].
      * intros i j Hi Hj. rewrite (becomes_entry _ _ _ _ _ BD') by lia. reflexivity.
      * now intros C0 [=<-].
    + cbn [wp]. apply Hk; auto.
      * now intros C0 [=<-].
      * intros C0 [=<-]. now apply becomes_refl.
  - destruct (wf_deg2 A HA) as [G1 G2].
    eapply wp_mono; [now apply mzed_init_ok|]. cbv beta.
    intros D (E & (W & Ef' & E1 & E2 & _) & Z). apply Hk; auto; try easy.
Qed.

Definition acc_of (C : option mzed) (A : mat) : mat :=
  fun i j => match C with Some C => N.lxor (entry C i j) (A i j) | None => A i j end.

Theorem mzed_mul_naive_ok C A B : wf_mzed A -> wf_mzed B -> fld A = fld B -> mz_ncols A = mz_nrows B ->
  target C (fld A) (mz_nrows A) (mz_ncols B) ->
  wp (mzed_mul_naive C A B) (fun C' => holds C' (fld A) (mz_nrows A) (mz_ncols B)
     (mmul (fld A) (mz_ncols A) (entry A) (entry B))).
Proof.
  intros HA HB Ef En HC. unfold mzed_mul_naive. apply mzed_mul_init_ok; auto.
  intros D HD E1 E2 E3 _ ED _. eapply wp_mono; [apply mzed_mul_naive_inplace_ok; auto; congruence|].
  cbv beta. intros C' B'. rewrite <- E1, <- E2, <- E3. apply becomes_holds.
  eapply becomes_ext; [exact B'|]. unfold madd. intros i j Hi Hj. rewrite ED by lia.
  now destruct C as [C|]; rewrite N.lxor_0_l.
Qed.
Theorem mzed_addmul_naive_ok C A B : wf_mzed A -> wf_mzed B -> fld A = fld B -> mz_ncols A = mz_nrows B ->
  target C (fld A) (mz_nrows A) (mz_ncols B) ->
  wp (mzed_addmul_naive C A B) (fun C' => holds C' (fld A) (mz_nrows A) (mz_ncols B)
     (acc_of C (mmul (fld A) (mz_ncols A) (entry A) (entry B)))).
Proof.
  intros HA HB Ef En HC. unfold mzed_addmul_naive. apply mzed_mul_init_ok; auto.
  intros D HD E1 E2 E3 _ ED _. eapply wp_mono; [apply mzed_mul_naive_inplace_ok; auto; congruence|].
  cbv beta. intros C' B'. rewrite <- E1, <- E2, <- E3. apply becomes_holds.
  eapply becomes_ext; [exact B'|]. unfold madd, acc_of. intros i j Hi Hj. rewrite ED by lia.
  destruct C as [C|]; [easy|]. now rewrite N.lxor_0_l.
Qed.
