(** Newton-John tables hold all multiples of a row. *)
From Coq Require Import NArith Lia List Bool Arith.
From Coq Require Import ZifyBool ZifyNat ZifyN.
From Verif Require Import Base Spec LinSpec PolyFacts MatFacts Gf2xModel Gf2eModel Gf2eProofs.
From Verif Require Import MzdModel MzedModel MzedSpec LaneFacts MzedProofs MzedOps NjModel.
Import ListNotations.
Local Open Scope nat_scope.

(** ** the Gray code *)
Lemma gray_inj a b : gray a = gray b -> a = b.
Proof.
  unfold gray. intros H. apply N.lxor_eq.
  assert (E : N.lxor a b = N.shiftr (N.lxor a b) 1).
  { rewrite N.shiftr_lxor. apply N.bits_inj. intros k. apply (f_equal (fun x => N.testbit x k)) in H.
    rewrite !N.lxor_spec in *. destruct (N.testbit a k), (N.testbit b k), (N.testbit (N.shiftr a 1) k), (N.testbit (N.shiftr b 1) k); easy. }
  remember (N.lxor a b) as d eqn:Hd. clear - E. rewrite N.shiftr_div_pow2 in E. change (2 ^ 1)%N with 2%N in E.
  destruct (N.eq_dec d 0) as [|Hne]; [easy|]. exfalso.
  pose proof (N.div_lt d 2 ltac:(lia) ltac:(lia)). lia.
Qed.
Lemma gray_lt a e : (a < 2 ^ e)%N -> (gray a < 2 ^ e)%N.
Proof.
  intros H. apply lxor_lt_pow2; [easy|]. eapply N.le_lt_trans; [|exact H].
  rewrite N.shiftr_div_pow2. apply N.div_le_upper_bound; [easy|]. change (2 ^ 1)%N with 2%N. lia.
Qed.
Lemma gray_surj n : forall x, N.to_nat x <= n -> exists i, gray i = x /\ forall e, (x < 2 ^ e -> i < 2 ^ e)%N.
Proof.
  induction n as [|n IH]; intros x Hx.
  - exists 0%N. assert (x = 0%N) as -> by lia. split; [reflexivity|]. easy.
  - destruct (N.eq_dec x 0) as [->|Hx0]; [exists 0%N; split; [reflexivity|easy]|].
    destruct (IH (x / 2)%N) as (i & Ei & Hi).
    { pose proof (N.div_lt x 2 ltac:(lia) ltac:(lia)). lia. }
    exists (2 * i + (if xorb (N.odd x) (N.odd i) then 1 else 0))%N.
    set (b := xorb (N.odd x) (N.odd i)).
    assert (D : ((2 * i + (if b then 1 else 0)) / 2 = i)%N).
    { symmetry. apply (N.div_unique _ _ _ (if b then 1 else 0)); [destruct b; lia|reflexivity]. }
    split.
    + unfold gray. rewrite N.shiftr_div_pow2. change (2 ^ 1)%N with 2%N. rewrite D.
      apply N.bits_inj. intros k. rewrite N.lxor_spec. destruct (N.eq_dec k 0) as [->|Hk].
      * rewrite !N.bit0_odd.
        assert (Od : N.odd (2 * i + (if b then 1 else 0)) = b).
        { rewrite N.odd_add, N.odd_mul. destruct b; reflexivity. }
        rewrite Od. unfold b. destruct (N.odd x), (N.odd i); reflexivity.
      * assert (T : forall y, N.testbit y k = N.testbit (y / 2) (N.pred k)).
        { intros y. change 2%N with (2 ^ 1)%N. rewrite <- N.shiftr_div_pow2, N.shiftr_spec'. f_equal. lia. }
        rewrite !T, D, <- Ei. unfold gray. rewrite N.lxor_spec, N.shiftr_div_pow2. reflexivity.
    + intros e He. destruct (N.eq_dec e 0) as [->|]; [cbn in He; lia|].
      replace (2 ^ e)%N with (2 * 2 ^ (N.pred e))%N in * by (rewrite <- N.pow_succ_r'; f_equal; lia).
      specialize (Hi (N.pred e)). assert (x / 2 < 2 ^ N.pred e)%N by (apply N.div_lt_upper_bound; lia).
      destruct b; lia.
Qed.
Lemma ones_succ t : N.ones (N.succ t) = (2 * N.ones t + 1)%N.
Proof. rewrite !N.ones_equiv, N.pow_succ_r'. pose proof (N.pow_nonzero 2 t). lia. Qed.
Lemma tz_spec p : N.lxor (Npos p) (N.pred (Npos p)) = N.ones (N.of_nat (S (tz p))).
Proof.
  induction p as [p IH|p IH|]; cbn [tz].
  - change (N.pred (N.pos p~1)) with (N.pos p~0). change (N.pos p~1) with (2 * N.pos p + 1)%N.
    change (N.pos p~0) with (2 * N.pos p)%N. apply N.bits_inj. intros k. rewrite N.lxor_spec. destruct (N.eq_dec k 0) as [->|Hk].
    + now rewrite N.testbit_even_0, N.testbit_odd_0.
    + change (N.ones (N.of_nat 1)) with 1%N. change 1%N with (2 ^ 0)%N at 2. rewrite N.pow2_bits_false by lia.
      replace k with (N.succ (N.pred k)) by lia.
      rewrite N.testbit_even_succ, N.testbit_odd_succ by lia. apply xorb_nilpotent.
  - rewrite (Nnat.Nat2N.inj_succ (S (tz p))), ones_succ, <- IH.
    replace (N.pred (N.pos p~0)) with (2 * N.pred (N.pos p) + 1)%N by lia.
    change (N.pos p~0) with (2 * N.pos p)%N.
    apply N.bits_inj. intros k. rewrite N.lxor_spec. destruct (N.eq_dec k 0) as [->|Hk].
    + now rewrite N.testbit_even_0, !N.testbit_odd_0.
    + replace k with (N.succ (N.pred k)) by lia.
      rewrite N.testbit_even_succ, !N.testbit_odd_succ, N.lxor_spec by lia. reflexivity.
  - reflexivity.
Qed.
Lemma ones_xor_half t : N.lxor (N.ones (N.succ t)) (N.shiftr (N.ones (N.succ t)) 1) = (2 ^ t)%N.
Proof.
  apply N.bits_inj. intros k. rewrite N.lxor_spec, N.shiftr_spec'.
  assert (T : forall n j, N.testbit (N.ones n) j = (j <? n)%N).
  { intros n j. destruct (N.ltb_spec j n); [now apply N.ones_spec_low|now apply N.ones_spec_high]. }
  rewrite !T, N.pow2_bits_eqb. destruct (N.eqb_spec t k), (N.ltb_spec k (N.succ t)), (N.ltb_spec (k + 1) (N.succ t)); cbn; lia.
Qed.
Lemma cb_ord_N i : N.of_nat (cb_ord i) = gray (N.of_nat i).
Proof. unfold cb_ord. apply Nnat.N2Nat.id. Qed.
Lemma cb_step i : N.of_nat (cb_ord (S i)) = N.lxor (N.of_nat (cb_ord i)) (2 ^ N.of_nat (cb_inc i)).
Proof.
  rewrite !cb_ord_N. unfold cb_inc. destruct (N.of_nat (S i)) as [|p] eqn:E; [lia|].
  assert (Ei : N.of_nat i = N.pred (N.pos p)) by lia. rewrite Ei.
  rewrite <- ones_xor_half, <- Nnat.Nat2N.inj_succ, <- tz_spec. unfold gray. rewrite N.shiftr_lxor.
  apply N.bits_inj. intros k. rewrite !N.lxor_spec.
  destruct (N.testbit (N.pos p) k), (N.testbit (N.pred (N.pos p)) k), (N.testbit (N.shiftr (N.pos p) 1) k), (N.testbit (N.shiftr (N.pred (N.pos p)) 1) k); reflexivity.
Qed.
Lemma pow2_nat_N e : N.of_nat (2 ^ e) = (2 ^ N.of_nat e)%N.
Proof. now rewrite <- pow_nat_N. Qed.
Lemma cb_ord_lt i e : i < 2 ^ e -> cb_ord i < 2 ^ e.
Proof.
  intros H. pose proof (gray_lt (N.of_nat i) (N.of_nat e)) as G. rewrite <- cb_ord_N in G.
  pose proof (pow2_nat_N e). lia.
Qed.
Lemma cb_ord_inj i j : cb_ord i = cb_ord j -> i = j.
Proof. intros H. apply (f_equal N.of_nat) in H. rewrite !cb_ord_N in H. apply gray_inj in H. lia. Qed.
Lemma cb_ord_surj x e : (x < 2 ^ N.of_nat e)%N -> exists i, i < 2 ^ e /\ N.of_nat (cb_ord i) = x.
Proof.
  intros H. destruct (gray_surj (N.to_nat x) x (le_n _)) as (i & E & Hi). exists (N.to_nat i).
  specialize (Hi (N.of_nat e) H). pose proof (pow2_nat_N e). split; [lia|]. rewrite cb_ord_N, Nnat.N2Nat.id. exact E.
Qed.
Lemma cb_inc_lt i e : S i < 2 ^ e -> cb_inc i < e.
Proof.
  intros H. pose proof (cb_step i) as E. pose proof (pow2_nat_N e) as P.
  pose proof (cb_ord_lt (S i) e H). pose proof (cb_ord_lt i e ltac:(lia)).
  assert (L : (2 ^ N.of_nat (cb_inc i) < 2 ^ N.of_nat e)%N).
  { replace (2 ^ N.of_nat (cb_inc i))%N with (N.lxor (N.of_nat (cb_ord i)) (N.of_nat (cb_ord (S i)))).
    - apply lxor_lt_pow2; lia.
    - rewrite E. rewrite <- N.lxor_assoc, N.lxor_nilpotent. apply N.lxor_0_l. }
  apply N.pow_lt_mono_r_iff in L; lia.
Qed.
Lemma cb_ord_0 : cb_ord 0 = 0. Proof. reflexivity. Qed.

(** ** the rows of the table *)
Lemma clear_words_ok offs : forall h ti, (forall d, In d offs -> 1 <= d <= h) -> h <= length ti ->
  wp (clear_words offs h ti) (fun t => length t = length ti /\
    (forall j, nth j t 0%N = 0%N \/ nth j t 0%N = nth j ti 0%N) /\
    (forall d, In d offs -> nth (h - d) t 0%N = 0%N) /\
    (forall j, h <= j -> nth j t 0%N = nth j ti 0%N)).
Proof.
  induction offs as [|d offs IH]; intros h ti Hd Hl; cbn [clear_words].
  - cbn [wp]. repeat split; auto. now intros d [].
  - assert (1 <= d <= h) by (apply Hd; now left). rewrite lset_ok by lia. cbn [bind].
    eapply wp_mono; [apply IH|]; cbv beta.
    + intros d' H'. apply Hd. now right.
    + now rewrite upd_length.
    + intros t (E1 & E2 & E3 & E4). rewrite upd_length in E1.
      assert (X : forall j, nth j t 0%N = 0%N \/ nth j t 0%N = nth j ti 0%N).
      { intros j. destruct (E2 j) as [|E]; [now left|]. rewrite nth_upd in E by lia.
        destruct (Nat.eqb (h - d) j); [now left|now right]. }
      split; [easy|]. split; [easy|]. split.
      * intros d' [<-|H']; [|now apply E3]. destruct (E2 (h - d)) as [|E]; [easy|]. now rewrite nth_upd_eq in E by lia.
      * intros j Hj. rewrite E4 by easy. apply nth_upd_ne. lia.
Qed.
Lemma stale_ok h : (forall d, In d (stale_offsets h) -> 1 <= d <= h) /\
  (1 <= h -> In 1 (stale_offsets h)) /\ (2 <= h -> In 2 (stale_offsets h)).
Proof.
  unfold stale_offsets. split; [|split].
  - do 8 (destruct h as [|h]; [cbn; intros d Hd; lia|]). cbn. intros d Hd. lia.
  - do 8 (destruct h as [|h]; [cbn; lia|]). cbn. lia.
  - do 8 (destruct h as [|h]; [cbn; lia|]). cbn. lia.
Qed.
Lemma rel_words0 w t c : nth (c / per w) t 0%N = 0%N -> rel w t c = 0%N.
Proof. intros H. unfold rel. rewrite H. apply lane_0. Qed.

Section Row.
Variables (ff : gf2e) (w n : nat).
Hypothesis Hwf : gf2e_wf ff.
Hypothesis Hww : gf2e_degree_to_w ff = Ok w.
Let f := ff_minpoly ff.
Let wid := width (w * n).
Let Hw : good_w w.
Proof. apply (degree_to_w_facts ff w Hww). Qed.
Hypothesis Hn : 0 < n.

Lemma table_row_ok h m ti1 ti : h < wid -> wf_row f w n m -> wf_row f w n ti1 -> wf_row f w n ti ->
  wp (table_row h wid (left_bitmask ((w * n) mod 64)) m ti1 ti) (fun t => wf_row f w n t /\
    (forall c, c < per w * wid -> per w * h <= c ->
       rel w t c = if c <? n then N.lxor (rel w m c) (rel w ti1 c) else 0%N) /\
    (forall c, c < per w * h -> (rel w t c = 0%N \/ rel w t c = rel w ti c) /\ (per w * (h - 2) <= c -> rel w t c = 0%N))).
Proof.
  intros Hh Wm W1 Wt. pose proof (per_pos w Hw) as Pp.
  assert (Lm : length m = wid) by apply Wm. assert (L1 : length ti1 = wid) by apply W1. assert (Lt : length ti = wid) by apply Wt.
  destruct (stale_ok h) as (S1 & S2 & S3).
  unfold table_row. apply wp_bind. eapply wp_mono; [apply clear_words_ok; [exact S1|lia]|]. cbv beta.
  intros t0 (E1 & E2 & E3 & E4). rewrite Lt in E1.
  assert (B0 : forall j, (nth j t0 0 < 2 ^ 64)%N).
  { intros j. destruct (E2 j) as [->| ->]; [easy|]. now apply (wf_row_word f w n). }
  assert (Bm : forall j, (nth j m 0 < 2 ^ 64)%N) by (intros; now apply (wf_row_word f w n)).
  assert (B1 : forall j, (nth j ti1 0 < 2 ^ 64)%N) by (intros; now apply (wf_row_word f w n)).
  set (V := fun j => if S j =? wid then N.land (N.lxor (nth j m 0%N) (nth j ti1 0%N)) (left_bitmask ((w * n) mod 64))
                      else N.lxor (nth j m 0%N) (nth j ti1 0%N)).
  assert (BV : forall j, (V j < 2 ^ 64)%N).
  { intros j. unfold V. destruct (S j =? wid); [apply land_lt_pow2|]; apply lxor_lt_pow2; auto. }
  eapply wp_mono.
  - apply (wp_for (fun j t => length t = wid /\ forall i, nth i t 0%N = if (h <=? i) && (i <? j) then V i else nth i t0 0%N)); [lia| |].
    + split; [easy|]. intros i. replace ((h <=? i) && (i <? h)) with false by lia. reflexivity.
    + intros j t Hj (L & Et). rewrite (lget_ok m j 0%N), (lget_ok ti1 j 0%N) by lia. cbn [bind].
      rewrite lset_ok by lia. cbn [wp]. rewrite upd_length. split; [easy|]. intros i. rewrite nth_upd by lia.
      fold (V j). destruct (Nat.eqb_spec j i) as [->|Hne].
      * now replace ((h <=? i) && (i <? S i)) with true by lia.
      * rewrite Et. now replace (i <? S j) with (i <? j) by lia.
  - cbv beta. intros t (L & Et).
    assert (Z : forall c, c < per w * h -> (rel w t c = 0%N \/ rel w t c = rel w ti c) /\ (per w * (h - 2) <= c -> rel w t c = 0%N)).
    { intros c Hc. assert (Hq : c / per w < h) by (apply Nat.div_lt_upper_bound; lia).
      assert (Eq : nth (c / per w) t 0%N = nth (c / per w) t0 0%N).
      { rewrite Et. now replace (h <=? c / per w) with false by lia. }
      split.
      - destruct (E2 (c / per w)) as [E|E]; [left|right].
        + apply rel_words0. now rewrite Eq.
        + unfold rel. now rewrite Eq, E.
      - intros Hc2. apply rel_words0. rewrite Eq.
        assert (Hge : h - 2 <= c / per w) by (apply Nat.div_le_lower_bound; lia).
        assert (c / per w = h - 1 \/ (2 <= h /\ c / per w = h - 2)) as [-> | [H2 ->]] by lia.
        + apply E3, S2. lia.
        + now apply E3, S3. }
    assert (Y : forall c, c < per w * wid -> per w * h <= c ->
       rel w t c = if c <? n then N.lxor (rel w m c) (rel w ti1 c) else 0%N).
    { intros c Hc Hge. assert (Hq : c / per w < wid) by (apply Nat.div_lt_upper_bound; lia).
      assert (Hq2 : h <= c / per w) by (apply Nat.div_le_lower_bound; lia).
      unfold rel. rewrite Et. replace ((h <=? c / per w) && (c / per w <? wid)) with true by lia. unfold V.
      destruct (Nat.eqb_spec (S (c / per w)) wid) as [El|El].
      - rewrite (lane_lmask w _ _ _ _ (lmask_left w n Hw)) by (apply Nat.mod_upper_bound; lia).
        rewrite (pos_last ff w Hwf Hww n c Hn) by (fold wid; lia). now rewrite lane_lxor.
      - replace (c <? n) with true.
        + now rewrite lane_lxor.
        + symmetry. apply Nat.ltb_lt. apply (pos_not_last ff w Hwf Hww n c Hn). fold wid. lia. }
    split; [|split; [exact Y|exact Z]].
    apply (wf_row_intro ff w Hwf n); [exact L| |].
    + intros j Hj. rewrite Et. destruct (_ && _); auto.
    + intros c Hc. assert (F0 : inF f 0) by apply inF_0.
      destruct (Nat.lt_ge_cases c (per w * h)) as [Hl|Hl].
      * destruct (Z c Hl) as [[-> | ->] _]; [easy|]. now apply Wt.
      * rewrite Y by easy. destruct (c <? n); [|easy]. apply lxor_lt_pow2; [now apply Wm|now apply W1].
Qed.
End Row.

(** ** the table *)
(** the shape of a Newton-John table for rows of n elements of the field of A *)
Definition njt_wf (f : N) (e n : nat) (T : njt) : Prop :=
  (wf_mzed (nj_M T) /\ fld (nj_M T) = f /\ mz_nrows (nj_M T) = e /\ mz_ncols (nj_M T) = n) /\
  (wf_mzed (nj_T T) /\ fld (nj_T T) = f /\ mz_nrows (nj_T T) = 2 ^ e /\ mz_ncols (nj_T T) = n) /\
  length (nj_L T) = 2 ^ e /\ nth 0 (nj_L T) 0 = 0 /\
  (forall j, entry (nj_T T) 0 j = 0%N).
Lemma nth_repeat0 {A} (x : A) n i : nth i (repeat x n) x = x.
Proof. revert i. induction n; intros [|i]; cbn; auto. Qed.
Lemma njt_init_ok ff n : gf2e_wf ff -> 2 <= ff_degree ff ->
  wp (njt_init ff n) (fun T => njt_wf (ff_minpoly ff) (ff_degree ff) n T /\ forall i j, entry (nj_T T) i j = 0%N).
Proof.
  intros H He. unfold njt_init. apply wp_bind. eapply wp_mono; [now apply mzed_init_ok|]. cbv beta.
  intros T (E & (W & Ef & E1 & E2 & _) & Z). apply wp_bind. eapply wp_mono; [now apply mzed_init_ok|]. cbv beta.
  intros M (E' & (W' & Ef' & E1' & E2' & _) & Z'). cbn [wp]. unfold njt_wf. cbn [nj_M nj_T nj_L].
  split; [|exact Z]. split; [easy|]. split; [easy|]. split; [apply repeat_length|]. split; [apply nth_repeat0|apply Z].
Qed.

(** what a table built from row r of A and column c contains: the row selected by x is x times
    that row from column c on; [old] is the previous table *)
Definition tab_has (f : N) (A : mzed) (r c : nat) (old T : njt) : Prop :=
  let w := mz_w A in let n := mz_ncols A in let h := c / per w in
  forall x, inF f x -> exists l, nj_lookup T x = Ok l /\ l < mz_nrows (nj_T T) /\
    forall j, j < cap A ->
      (per w * h <= j -> entry (nj_T T) l j = if (c <=? j) && (j <? n) then fmul f x (entry A r j) else 0%N) /\
      (j < per w * h -> (entry (nj_T T) l j = 0%N \/ entry (nj_T T) l j = entry (nj_T old) l j) /\
                        (per w * (h - 2) <= j -> entry (nj_T T) l j = 0%N)).

Lemma pow2_inF ff i : gf2e_wf ff -> i < ff_degree ff -> inF (ff_minpoly ff) (N.shiftl 1 (N.of_nat i)).
Proof.
  intros (_ & Hd & _) Hi. unfold inF. rewrite Hd, N.shiftl_1_l. apply N.pow_lt_mono_r; lia.
Qed.
Lemma make_table_M A M0 r c : wf_mzed A -> wf_mzed M0 -> fld M0 = fld A -> mz_ncols M0 = mz_ncols A ->
  mz_nrows M0 = ff_degree (mz_ff A) -> r < mz_nrows A -> c < mz_ncols A ->
  wp (for_ 0 (ff_degree (mz_ff A)) (fun i M => mzed_add_multiple_of_row M i A r (N.shiftl 1 (N.of_nat i)) c)
       (mz_set_x M0 (mzd_set_ui_0 (mz_x M0))))
     (fun M => becomes M0 M (fun i j => if c <=? j then fmul (fld A) (2 ^ N.of_nat i) (entry A r j) else 0%N)).
Proof.
  intros HA HM Ef En Enr Hr Hc. pose proof (set_ui_0_ok M0 HM) as B0.
  eapply wp_mono.
  - apply (wp_for (fun k M => becomes M0 M (fun i j => if (i <? k) && (c <=? j) then fmul (fld A) (2 ^ N.of_nat i) (entry A r j) else 0%N))); [lia| |].
    + eapply becomes_ext; [exact B0|]. cbv beta. intros. reflexivity.
    + intros k M Hk B. pose proof (becomes_wf _ _ _ B) as WM. pose proof (becomes_ff _ _ _ B) as EfM.
      pose proof (becomes_nr _ _ _ B) as ErM. pose proof (becomes_nc _ _ _ B) as EcM.
      eapply wp_mono.
      * apply mzed_add_multiple_of_row_ok; auto; try congruence; try lia.
        rewrite EfM, Ef. apply pow2_inF; [apply HA|lia].
      * cbv beta. intros M' B'. eapply becomes_step; [exact B|exact B'|]. cbv beta. intros i j Hi Hj.
        rewrite EfM, Ef, N.shiftl_1_l. rewrite !(becomes_entry _ _ _ _ _ B) by lia.
        destruct (Nat.eqb_spec i k) as [->|Hne].
        -- replace (k <? S k) with true by lia. replace (k <? k) with false by lia. cbn [andb].
           destruct (c <=? j); [apply N.lxor_0_l|easy].
        -- cbn [andb]. now replace (i <? S k) with (i <? k) by lia.
  - cbv beta. intros M B. eapply becomes_ext; [exact B|]. cbv beta. intros i j Hi Hj.
    now replace (i <? ff_degree (mz_ff A)) with true by lia.
Qed.

Theorem mzed_make_table_ok T A r c : wf_mzed A -> njt_wf (fld A) (ff_degree (mz_ff A)) (mz_ncols A) T ->
  r < mz_nrows A -> c < mz_ncols A ->
  wp (mzed_make_table T A r c) (fun T' => njt_wf (fld A) (ff_degree (mz_ff A)) (mz_ncols A) T' /\ tab_has (fld A) A r c T T').
Proof.
  intros HA ((WM & FM & RM & CM) & (WT & FT & RT & CT) & LL & L0 & Z0) Hr Hc.
  set (e := ff_degree (mz_ff A)) in *. set (f := fld A) in *. set (n := mz_ncols A) in *.
  pose proof (wf_f0 A HA) as f0. fold f in f0. pose proof (wf_good A HA) as Hw. pose proof (per_pos _ Hw) as Pp.
  unfold mzed_make_table. fold e. apply wp_bind.
  eapply wp_mono; [apply (make_table_M A (nj_M T) r c); auto|]. cbv beta. intros M B.
  pose proof (becomes_wf _ _ _ B) as WM'. pose proof (becomes_ff _ _ _ B) as FM'. pose proof (becomes_nr _ _ _ B) as RM'.
  pose proof (becomes_nc _ _ _ B) as CM'.
  assert (Ew : mz_w M = mz_w A) by (apply same_w; auto; rewrite FM'; exact FM).
  assert (EwT : mz_w (nj_T T) = mz_w A) by (apply same_w; auto).
  set (w := mz_w A) in *. set (h := w * c / 64). assert (Eh : h = c / per w) by (unfold h; now apply div_w).
  assert (Ewid : mzd_width (mz_x M) = width (w * n)).
  { unfold mzd_width. destruct WM' as (_ & _ & _ & -> & _). now rewrite Ew, CM', CM. }
  assert (Ehb : high_bitmask (mz_x M) = left_bitmask ((w * n) mod 64)).
  { unfold high_bitmask. destruct WM' as (_ & _ & _ & -> & _). now rewrite Ew, CM', CM. }
  destruct (width_bounds w n Hw) as [Wb1 Wb2].
  assert (Hh : h < width (w * n)) by (rewrite Eh; apply Nat.div_lt_upper_bound; lia).
  assert (Hph : per w * h <= c) by (rewrite Eh; apply Nat.mul_div_le; lia).
  rewrite Ewid, Ehb, RT. pose proof (Nat.pow_nonzero 2 e ltac:(lia)) as P2.
  assert (RowM : forall i, i < e -> wf_row f w n (mrow (mz_x M) i)).
  { intros i Hi. pose proof (wf_mrow M i WM' ltac:(lia)) as R. now rewrite FM', CM', FM, CM, Ew in R. }
  assert (RowT : forall i, i < 2 ^ e -> wf_row f w n (nth i (mzd_rows (mz_x (nj_T T))) [])).
  { intros i Hi. pose proof (wf_mrow (nj_T T) i WT ltac:(lia)) as R. now rewrite FT, CT, EwT in R. }
  set (good := fun (rows : list (list N)) k => forall j, j < per w * width (w * n) ->
      (per w * h <= j -> rel w (nth k rows []) j = if (c <=? j) && (j <? n) then fmul f (N.of_nat (cb_ord k)) (entry A r j) else 0%N) /\
      (j < per w * h -> (rel w (nth k rows []) j = 0%N \/ rel w (nth k rows []) j = rel w (nth k (mzd_rows (mz_x (nj_T T))) []) j) /\
                        (per w * (h - 2) <= j -> rel w (nth k rows []) j = 0%N))).
  apply wp_bind. eapply wp_mono.
  - apply (wp_for (fun i '(rows, L) => length rows = 2 ^ e /\ length L = 2 ^ e /\
        (forall k, k < 2 ^ e -> wf_row f w n (nth k rows [])) /\
        (forall k, k < i -> good rows k /\ nth (cb_ord k) L 0 = k) /\
        (forall k, i <= k -> nth k rows [] = nth k (mzd_rows (mz_x (nj_T T))) [])
        )); [lia| |].
    + split; [|split; [|split; [|split]]]; auto.
      * destruct WT as (_ & _ & _ & _ & Lr & _). congruence.
      * intros k Hk. assert (k = 0) as -> by lia. split; [|exact L0].
        assert (Z : forall j, rel w (nth 0 (mzd_rows (mz_x (nj_T T))) []) j = 0%N).
        { intros j. rewrite <- EwT. apply Z0. }
        intros j Hj. rewrite Z. split; [|auto]. intros _. rewrite cb_ord_0. cbn [N.of_nat]. rewrite fmul_0_l. now destruct (_ && _).
    + intros i [rows L] Hi (Lr & Lt & Rw & G & Old).
      assert (Oi : cb_ord i < 2 ^ e) by (apply cb_ord_lt; lia).
      rewrite lset_ok by lia. cbn [bind]. rewrite (lget_ok rows i []), (lget_ok rows (i - 1) []) by lia. cbn [bind].
      assert (Ic : cb_inc (i - 1) < e) by (apply cb_inc_lt; lia).
      rewrite lget_row by (auto; lia). cbn [bind].
      apply wp_bind. eapply wp_mono.
      * apply (table_row_ok (mz_ff A) w n); try apply HA; [lia|exact Hh|now apply RowM|apply Rw; lia|apply Rw; lia].
      * cbv beta. intros t (Wt & Y & Z). rewrite lset_ok by lia. cbn [bind wp].
        split; [now rewrite upd_length|]. split; [now rewrite upd_length|].
        split; [|split].
        -- intros k Hk. rewrite nth_upd by lia. destruct (Nat.eqb_spec i k); [exact Wt|now apply Rw].
        -- intros k Hk. rewrite nth_upd by lia. destruct (Nat.eq_dec k i) as [->|Hki].
           ++ rewrite Nat.eqb_refl. split; [|easy].
              intros j Hj. rewrite nth_upd_eq by lia. split.
              ** intros Hge. rewrite (Y j Hj Hge). destruct (G (i - 1) ltac:(lia)) as [G1 _].
                 rewrite (proj1 (G1 j Hj) Hge).
                 destruct (Nat.ltb_spec j n) as [Hjn|Hjn]; [|now rewrite andb_false_r]. rewrite andb_true_r.
                 assert (Em : rel w (mrow (mz_x M) (cb_inc (i - 1))) j =
                              if c <=? j then fmul f (2 ^ N.of_nat (cb_inc (i - 1))) (entry A r j) else 0%N).
                 { rewrite <- Ew. exact (becomes_entry _ _ _ (cb_inc (i - 1)) j B ltac:(lia) ltac:(lia)). }
                 rewrite Em. destruct (c <=? j); [|easy].
                 rewrite <- fmul_lxor_l by easy. f_equal.
                 pose proof (cb_step (i - 1)) as CS. replace (S (i - 1)) with i in CS by lia. rewrite CS. apply N.lxor_comm.
              ** intros Hlt. destruct (Z j Hlt) as [Z1 Z2]. split; [|exact Z2].
                 rewrite <- (Old i (le_n _)). exact Z1.
           ++ destruct (G k ltac:(lia)) as [G1 G2].
              assert (E : nth k (upd rows i t) [] = nth k rows []) by (apply nth_upd_ne; lia).
              split; [unfold good; rewrite E; exact G1|].
              destruct (Nat.eqb_spec (cb_ord i) (cb_ord k)) as [Ek|]; [apply cb_ord_inj in Ek; lia|exact G2].
        -- intros k Hk. rewrite nth_upd_ne by lia. apply Old. lia.
  - cbv beta. intros [rows L] (Lr & Lt & Rw & G & _). cbn [wp].
    set (x' := Mzd (mzd_nrows (mz_x (nj_T T))) (mzd_ncols (mz_x (nj_T T))) rows).
    assert (En : forall k j, entry (mz_set_x (nj_T T) x') k j = rel w (nth k rows []) j).
    { intros k j. unfold entry. change (mz_w (mz_set_x (nj_T T) x')) with (mz_w (nj_T T)). now rewrite EwT. }
    assert (WT' : wf_mzed (mz_set_x (nj_T T) x')).
    { pose proof WT as (V1 & V2 & V3 & V4 & V5 & _). unfold x', mz_set_x. rewrite V3, V4. apply wf_intro; auto; [congruence|].
      rewrite RT, CT, EwT, FT. fold w. exact Rw. }
    split.
    + unfold njt_wf. cbn [nj_M nj_T nj_L]. split; [|split; [|split; [|split]]]; auto.
      * split; [exact WM'|]. split; [now rewrite FM'|]. split; [now rewrite RM'|now rewrite CM'].
      * apply (G 0). lia.
      * intros j. rewrite En. destruct (Nat.lt_ge_cases j (per w * width (w * n))) as [Hj|Hj].
        -- destruct (G 0 ltac:(lia)) as [G0 _]. destruct (G0 j Hj) as [G1 G2].
           destruct (Nat.lt_ge_cases j (per w * h)) as [Hl|Hl].
           ++ destruct (proj1 (G2 Hl)) as [E|E]; [exact E|]. rewrite E, <- EwT. apply Z0.
           ++ rewrite (G1 Hl), cb_ord_0. cbn [N.of_nat]. rewrite fmul_0_l. now destruct (_ && _).
        -- unfold rel. rewrite nth_overflow; [apply lane_0|].
           destruct (Rw 0 ltac:(lia)) as [-> _]. apply Nat.div_le_lower_bound; lia.
    + unfold tab_has. cbn [nj_M nj_T nj_L]. fold w n. rewrite <- Eh. intros x Hx.
      assert (Hxe : (x < 2 ^ N.of_nat e)%N).
      { unfold inF, f in Hx. destruct HA as ((_ & Hd & _) & _). fold e in Hd. now rewrite Hd in Hx. }
      destruct (cb_ord_surj x e Hxe) as (l & Hl & El).
      exists l. destruct (G l Hl) as [G1 G2]. split; [|split].
      * unfold nj_lookup. cbn [nj_L]. rewrite (lget_ok _ _ 0).
        -- now rewrite <- El, Nnat.Nat2N.id, G2.
        -- rewrite Lt, <- El, Nnat.Nat2N.id. now apply cb_ord_lt.
      * change (l < mz_nrows (nj_T T)). lia.
      * intros j Hj. rewrite En. rewrite <- El. unfold cap in Hj. fold w n in Hj. destruct (G1 j Hj) as [G3 G4]. split; [exact G3|].
        intros Hlt. destruct (G4 Hlt) as [G5 G6]. split; [|exact G6].
        unfold entry at 1. rewrite EwT. exact G5.
Qed.
