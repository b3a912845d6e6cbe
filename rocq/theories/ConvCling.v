(** Sliced -> packed, and the packed products computed through the sliced representation (C35, C36). *)
From Coq Require Import NArith ZArith Lia List Bool Arith Btauto.
From Coq Require Import ZifyBool ZifyNat ZifyN.
From Verif Require Import Base Spec PolyFacts MatFacts Gf2xModel Gf2xProofs Gf2eModel Gf2eProofs MzdModel MzedModel MzedSpec LaneFacts MzedProofs MzedOps MzedOps2 SliceModel SliceSpec MzdFacts SliceProofs SliceOps SliceMul KaratsubaTable KaraModel KaraProofs ConvTable ConvModel ConvBits ConvSlice.
Import ListNotations.
Local Open Scope nat_scope.

Section CL.
Variables (w : nat) (F : list mzd) (m n D : nat).
Hypothesis Hw : good_w w.
Hypothesis Hn : 0 < n.
Hypothesis HD : length F = D.
Hypothesis HF : forall t, t < D -> wf_mzd (nth t F dm) /\ mzd_nrows (nth t F dm) = m /\ mzd_ncols (nth t F dm) = n.

(** bit x of row i contributed by the slices ts *)
Definition cbit (ts : list nat) (i x : nat) : bool := memb ts (x mod w) && mbit (nth (x mod w) F dm) i (x / w).

Ltac bd := repeat match goal with |- context [tb ?a ?b] => destruct (tb a b) | |- context [cbit ?a ?b ?c] => destruct (cbit a b c) | |- context [cp_set ?p] => destruct (cp_set p) end; reflexivity.
Section ROW.
Variables (p : cpass) (ts : list nat) (i : nat) (old : list N).
Hypothesis Hreg : creg w p ts.
Hypothesis Hts : forall t, In t ts -> t < D.
Hypothesis Hi : i < m.
Hypothesis Lold : length old = width (w * n).
Hypothesis Wold : forall j, (nth j old 0 < 2 ^ 64)%N.

(** row r: the words q with d q have been written *)
Definition RInv (d : nat -> bool) (r : list N) : Prop :=
  length r = width (w * n) /\ (forall j, (nth j r 0 < 2 ^ 64)%N) /\
  forall q b, q < width (w * n) -> b < 64 ->
    tb (nth q r 0%N) b = if d q then (if cp_set p then false else tb (nth q old 0%N) b) || cbit ts i (64 * q + b) else tb (nth q old 0%N) b.
Lemma RInv_ext d d' r : (forall q, q < width (w * n) -> d q = d' q) -> RInv d r -> RInv d' r.
Proof. intros E (L & W & H). split; [exact L|]. split; [exact W|]. intros q b Hq Hb. rewrite <- E by easy. now apply H. Qed.

Lemma block_lt j2 k : w * j2 + k < width (w * n) -> j2 < width n.
Proof.
  intros H. pose proof (good_w_pos w Hw) as Gw. pose proof (width_lt (w * n)) as A2. pose proof (width_ge n) as A3.
  assert (Hwt : width (w * n) <= w * width n) by (assert (64 * width (w * n) < 64 * (w * width n + 1)) by nia; lia). nia.
Qed.
Lemma cterms_ok k j2 : k < w -> w * j2 + k < width (w * n) -> exists e, or_terms (cterm w F i j2) (cterms w k ts) = Ok e /\ (e < 2 ^ 64)%N /\
  forall b, b < 64 -> tb e b = cbit ts i (64 * (w * j2 + k) + b).
Proof.
  intros Hk Hq. destruct Hreg as (_ & _ & Hw2). destruct (or_cterms w F m n i j2 k ts Hw Hk Hi) as (e & E1 & E2 & E3).
  - eapply block_lt. exact Hq.
  - rewrite Forall_forall in *. intros t Ht. split; [now apply Hw2|]. rewrite HD. now apply Hts.
  - intros t Ht. apply HF. lia.
  - exists e. split; [exact E1|]. split; [exact E2|]. intros b Hb. rewrite E3 by easy. unfold cbit.
    assert (Em : (64 * (w * j2 + k) + b) mod w = b mod w).
    { pose proof (per_mul w Hw) as Pm. pose proof (good_w_pos w Hw). rewrite <- Pm. replace (w * per w * (w * j2 + k) + b) with (b + (per w * (w * j2 + k)) * w) by lia. apply Nat.mod_add. lia. }
    now rewrite Em.
Qed.
Lemma cwrite_ok d r j2 k : RInv d r -> k < w -> w * j2 + k < width (w * n) ->
  wp (cwrite w (cp_set p) F i j2 r (k, cterms w k ts)) (RInv (fun q => d q || (q =? w * j2 + k))).
Proof.
  intros (L & W & H) Hk Hq. unfold cwrite. destruct (cterms_ok k j2 Hk Hq) as (e & E1 & E2 & E3). rewrite E1. cbn [bind].
  rewrite (lget_ok _ _ 0%N) by lia. cbn [bind]. rewrite lset_ok by lia. cbn [wp]. set (Q := w * j2 + k) in *.
  split; [now rewrite upd_length|]. split.
  - intros j. rewrite nth_upd by lia. destruct (Q =? j); [|apply W]. destruct (cp_set p); [exact E2|now apply lor_lt_pow2].
  - intros q b Hq' Hb. rewrite nth_upd by lia. rewrite (Nat.eqb_sym q Q). destruct (Nat.eqb_spec Q q) as [<-|]; [|rewrite orb_false_r; now apply H].
    rewrite orb_true_r. destruct (cp_set p) eqn:Es; [now apply E3|]. unfold tb at 1. rewrite N.lor_spec. fold (tb (nth Q r 0%N) b) (tb e b).
    rewrite E3, H by easy. rewrite ?Es. destruct (d Q); btauto.
Qed.
Lemma cfold_ok j2 ks : (forall k, In k ks -> k < w /\ w * j2 + k < width (w * n)) -> forall d r, RInv d r ->
  wp (fold_left (fun (acc : res (list N)) e => row <- acc ;; cwrite w (cp_set p) F i j2 row e) (map (fun k => (k, cterms w k ts)) ks) (Ok r))
     (RInv (fun q => d q || existsb (fun k => q =? w * j2 + k) ks)).
Proof.
  induction ks as [|k ks IH]; intros Hks d r Hr.
  - cbn [map fold_left wp]. eapply RInv_ext; [|exact Hr]. intros. cbn. now rewrite orb_false_r.
  - cbn [map fold_left bind]. destruct (Hks k (or_introl eq_refl)) as [Hk1 Hk2]. pose proof (cwrite_ok d r j2 k Hr Hk1 Hk2) as Wp.
    destruct (cwrite w (cp_set p) F i j2 r (k, cterms w k ts)) as [r1| |]; try contradiction. cbn [wp] in Wp.
    eapply wp_mono; [apply IH; [intros u Hu; apply Hks; now right|exact Wp]|]. cbv beta. intros r2. apply RInv_ext. intros q _. cbn [existsb]. btauto.
Qed.
Lemma firstn_map_seq {A} (g : nat -> A) k l : k <= l -> firstn k (map g (seq 0 l)) = map g (seq 0 k).
Proof.
  intros H. rewrite firstn_map. f_equal. replace l with (k + (l - k)) by lia. rewrite seq_app, firstn_app, seq_length, Nat.sub_diag. cbn [firstn]. rewrite app_nil_r.
  apply firstn_all2. rewrite seq_length. lia.
Qed.
Lemma existsb_seq q a k : existsb (fun j => q =? a + j) (seq 0 k) = (a <=? q) && (q <? a + k).
Proof.
  destruct (existsb _ _) eqn:E.
  - apply existsb_exists in E as (j & Hj & Eq1). apply in_seq in Hj. lia.
  - destruct ((a <=? q) && (q <? a + k)) eqn:E2; [|reflexivity]. rewrite <- not_true_iff_false in E. exfalso. apply E. apply existsb_exists. exists (q - a). split; [apply in_seq; lia|]. lia.
Qed.
Lemma existsb_rev {A} (g : A -> bool) l : existsb g (rev l) = existsb g l.
Proof. induction l as [|a l IH]; [easy|]. cbn [rev existsb]. rewrite existsb_app, IH. cbn. btauto. Qed.

Lemma cling_row_ok save : (save = false -> cp_set p = true) ->
  wp (cling_row w save p F (left_bitmask ((w * n) mod 64)) (width (w * n)) i old) (fun r => length r = width (w * n) /\ (forall j, (nth j r 0 < 2 ^ 64)%N) /\
    forall x, x < 64 * width (w * n) -> rbit r x = if x <? w * n then (if cp_set p then false else rbit old x) || cbit ts i x else rbit old x).
Proof.
  intros Hsave. destruct Hreg as (Rb & Rr & _). destruct (nblocks w n Hw Hn) as (Nb & Wp & Wp2). pose proof (good_w_pos w Hw) as Gw.
  pose proof (width_ge (w * n)) as A1. pose proof (width_lt (w * n)) as A2. pose proof (width_ge n) as A3. pose proof (width_lt n) as A4.
  assert (Hwb : w * (width n - 1) < width (w * n)) by (assert (64 * (w * (width n - 1)) < 64 * width (w * n)) by nia; lia).
  assert (Hwt : width (w * n) <= w * width n) by (assert (64 * width (w * n) < 64 * (w * width n + 1)) by nia; lia).
  assert (Hwn : 0 < w * n) by nia.
  unfold cling_row. rewrite Nb, Rb, Rr. set (WD := width (w * n)) in *.
  apply wp_bind. eapply wp_mono.
  - apply (wp_for (fun j => RInv (fun q => q <? w * j))); [lia| |].
    + split; [exact Lold|]. split; [exact Wold|]. intros q b Hq Hb. rewrite Nat.mul_0_r. reflexivity.
    + intros j r Hj Hr. eapply wp_mono; [apply cfold_ok; [|exact Hr]|].
      * intros k Hk. apply in_seq in Hk. split; [lia|]. fold WD. assert (w * j + w <= w * (width n - 1)) by (clear - Hj; nia). lia.
      * cbv beta. intros r2. apply RInv_ext. intros q _. rewrite existsb_seq. replace (w * S j) with (w * j + w) by lia. lia.
  - cbv beta. intros r Hr. set (nb := width n - 1) in *. assert (Hrest : 1 <= WD - w * nb <= w) by (unfold nb in *; nia).
    set (k := WD - w * nb) in *. replace ((1 <=? k) && (k <=? w)) with true by lia. cbn [check bind].
    assert (Hme : (left_bitmask ((w * n) mod 64) < 2 ^ 64)%N) by (apply left_bitmask_lt, Nat.mod_upper_bound; lia).
    assert (Hmask : forall b, b < 64 -> tb (left_bitmask ((w * n) mod 64)) b = (64 * (WD - 1) + b <? w * n)) by (intros b Hb; now apply last_mask).
    assert (Ew : forall b, b < 64 -> tb (wnot (left_bitmask ((w * n) mod 64))) b = negb (64 * (WD - 1) + b <? w * n)).
    { intros b Hb. unfold tb. rewrite testbit_wnot. replace (N.of_nat b <? 64)%N with true by lia. replace (64 <=? N.of_nat b)%N with false by lia. cbn [andb]. rewrite orb_false_r. f_equal. now apply Hmask. }
    (* the two endings give the same row *)
    assert (Fin : forall r2 v, length r2 = WD -> (forall j, (nth j r2 0 < 2 ^ 64)%N) -> (v < 2 ^ 64)%N ->
       (forall q b, q < WD - 1 -> b < 64 -> tb (nth q r2 0%N) b = (if cp_set p then false else tb (nth q old 0%N) b) || cbit ts i (64 * q + b)) ->
       (forall b, b < 64 -> tb v b = if 64 * (WD - 1) + b <? w * n then (if cp_set p then false else tb (nth (WD - 1) old 0%N) b) || cbit ts i (64 * (WD - 1) + b) else tb (nth (WD - 1) old 0%N) b) ->
       wp (lset r2 (WD - 1) v) (fun r => length r = WD /\ (forall j, (nth j r 0 < 2 ^ 64)%N) /\
         forall x, x < 64 * WD -> rbit r x = if x <? w * n then (if cp_set p then false else rbit old x) || cbit ts i x else rbit old x)).
    { intros r2 v L2 W2 Hv H1 H2. rewrite lset_ok by lia. cbn [wp]. split; [now rewrite upd_length|]. split; [intros j; rewrite nth_upd by lia; destruct (_ =? j); auto|].
      intros x Hx. pose proof (Nat.div_mod x 64 ltac:(lia)) as Dx. pose proof (Nat.mod_upper_bound x 64 ltac:(lia)) as Mx.
      assert (Hdx : x / 64 < WD) by (apply Nat.div_lt_upper_bound; lia).
      rewrite Dx. revert Hdx Mx. generalize (x / 64) (x mod 64). clear x Hx Dx. intros q b Hq Hb. rewrite !rbit_word by easy. rewrite nth_upd by lia.
      destruct (Nat.eqb_spec (WD - 1) q) as [<-|Hne]; [now apply H2|]. rewrite H1 by lia.
      assert (Hin : 64 * q + b < w * n) by lia. replace (64 * q + b <? w * n) with true by lia. reflexivity. }
    destruct save.
    + rewrite (lget_ok _ _ 0%N) by (destruct Hr; lia). cbn [bind].
      assert (Etmp : nth (WD - 1) r 0%N = nth (WD - 1) old 0%N).
      { destruct Hr as (_ & Wr & Hr). apply tb_ext; [apply Wr|apply Wold|]. intros b Hb. rewrite Hr by lia. replace (WD - 1 <? w * nb) with false by lia. reflexivity. }
      apply wp_bind. rewrite firstn_map_seq by lia. rewrite <- map_rev. eapply wp_mono; [apply cfold_ok; [|exact Hr]|].
      * intros j Hj. apply in_rev in Hj. apply in_seq in Hj. fold WD. lia.
      * cbv beta. intros r2 (L2 & W2 & H2). assert (Ed : forall q, q < WD -> (q <? w * nb) || existsb (fun k0 => q =? w * nb + k0) (rev (seq 0 k)) = true).
        { intros q Hq. rewrite existsb_rev, existsb_seq. unfold k. lia. }
        rewrite (lget_ok _ _ 0%N) by (fold WD in L2; lia). cbn [bind]. rewrite Etmp. apply Fin; auto.
        -- apply lor_lt_pow2; apply land_lt_pow2; auto.
        -- intros q b Hq Hb. rewrite H2 by (fold WD; lia). rewrite Ed by lia. reflexivity.
        -- intros b Hb. unfold tb at 1. rewrite N.lor_spec, !N.land_spec.
           fold (tb (nth (WD - 1) r2 0%N) b) (tb (left_bitmask ((w * n) mod 64)) b) (tb (nth (WD - 1) old 0%N) b) (tb (wnot (left_bitmask ((w * n) mod 64))) b).
           rewrite Hmask, Ew, H2 by (fold WD; lia). rewrite Ed by lia. destruct (64 * (WD - 1) + b <? w * n); cbn [negb]; bd.
    + specialize (Hsave eq_refl). apply wp_bind. rewrite firstn_map_seq by lia. eapply wp_mono; [apply cfold_ok; [|exact Hr]|].
      * intros j Hj. apply in_seq in Hj. fold WD. lia.
      * cbv beta. intros r2 (L2 & W2 & H2). fold WD in L2.
        rewrite (lget_ok _ _ (0, [])) by (rewrite map_length, seq_length; lia). cbn [bind].
        rewrite (nth_indep _ _ (0, cterms w 0 ts)) by (rewrite map_length, seq_length; lia).
        rewrite (map_nth (fun k => (k, cterms w k ts))). rewrite seq_nth by lia. cbn [Nat.add fst snd].
        destruct (cterms_ok (k - 1) nb ltac:(lia) ltac:(fold WD; lia)) as (e & E1 & E2 & E3). rewrite E1. cbn [bind].
        replace (w * nb + (k - 1)) with (WD - 1) in * by (unfold k; lia).
        rewrite (lget_ok _ _ 0%N) by lia. cbn [bind]. apply Fin; auto.
        -- apply lor_lt_pow2; apply land_lt_pow2; auto.
        -- intros q b Hq Hb. rewrite H2 by (fold WD; lia). rewrite existsb_seq. replace ((q <? w * nb) || ((w * nb <=? q) && (q <? w * nb + (k - 1)))) with true by (unfold k in *; lia). reflexivity.
        -- intros b Hb. unfold tb at 1. rewrite N.lor_spec, !N.land_spec.
           fold (tb (nth (WD - 1) r2 0%N) b) (tb (left_bitmask ((w * n) mod 64)) b) (tb e b) (tb (wnot (left_bitmask ((w * n) mod 64))) b).
           rewrite Hmask, Ew, E3, H2 by (fold WD; lia). rewrite existsb_seq.
           replace ((WD - 1 <? w * nb) || ((w * nb <=? WD - 1) && (WD - 1 <? w * nb + (k - 1)))) with false by (unfold k in *; lia).
           rewrite Hsave. destruct (64 * (WD - 1) + b <? w * n); cbn [negb]; bd.
Qed.
End ROW.

Section MAT.
Variable T0 : mzd.
Hypothesis HT0 : wf_mzd T0.
Hypothesis HTr : mzd_nrows T0 = m.
Hypothesis HTc : mzd_ncols T0 = w * n.
(** [done t i]: the slice t has been clung to row i *)
Definition CInv (done : nat -> nat -> bool) (T : mzd) : Prop :=
  mset T0 T (fun i x => done (x mod w) i && mbit (nth (x mod w) F dm) i (x / w)).
Lemma CInv_ext d d' T : (forall t i, t < w -> i < m -> d t i = d' t i) -> CInv d T -> CInv d' T.
Proof.
  intros E H. eapply mset_ext; [exact H|]. intros i x Hi Hx. cbv beta. rewrite E; [reflexivity| |lia]. apply Nat.mod_upper_bound. apply good_w_pos in Hw. lia.
Qed.
Lemma cling_pass_ok save p ts (after : mzd -> res mzd) (H : nat -> bool) : creg w p ts -> (forall t, In t ts -> t < D) -> (save = false -> cp_set p = true) ->
  (forall d T, CInv d T -> wp (after T) (CInv (fun t i => d t i || H t))) ->
  forall d T, (cp_set p = true -> (forall t i, d t i = false) /\ forall t, H t = false) -> CInv d T -> wp (cling_pass w save p F after T) (CInv (fun t i => d t i || memb ts t || H t)).
Proof.
  intros Hreg Hts Hsave Haft d T Hset HT. unfold cling_pass. rewrite (mset_nr _ _ _ HT), HTr.
  eapply wp_mono.
  - apply (wp_for (fun i0 => CInv (fun t i => d t i || memb ts t && (i <? i0) || H t && (0 <? i0)))); [lia| |].
    + eapply CInv_ext; [|exact HT]. intros t i _ _. cbv beta. replace (i <? 0) with false by lia. cbn. now rewrite !andb_false_r, !orb_false_r.
    + intros i U Hi HU. pose proof HU as (WU & RU & CU & BU & PU). rewrite HTr in RU. rewrite HTc in CU. rewrite wf_lget_row by (auto; lia). cbn [bind].
      pose proof WU as (WU1 & WU2). destruct (WU2 i ltac:(lia)) as [LU1 LU2]. rewrite CU in LU1.
      unfold high_bitmask, mzd_width. rewrite CU. apply wp_bind. eapply wp_mono.
      * apply (cling_row_ok p ts i (mrow U i)) with (save := save); auto; try lia. intros j. apply wf_word; auto. lia.
      * cbv beta. intros r (Lr & Wr & Br). rewrite lset_ok by lia. cbn [bind]. eapply wp_mono.
        -- apply (Haft (fun t i' => d t i' || memb ts t && (i' <? S i) || H t && (0 <? i))). unfold CInv.
           assert (B : mset U (Mzd (mzd_nrows U) (mzd_ncols U) (upd (mzd_rows U) i r)) (fun i' x => (d (x mod w) i' || memb ts (x mod w) && (i' <? S i) || H (x mod w) && (0 <? i)) && mbit (nth (x mod w) F dm) i' (x / w))).
           { apply upd_row_set; auto; try lia.
             - rewrite CU. exact Lr.
             - apply Forall_forall. intros v Hv. apply (In_nth _ _ 0%N) in Hv as (j & _ & <-). apply Wr.
             - intros x Hx. rewrite CU in Hx. pose proof (width_ge (w * n)). rewrite Br by lia. replace (x <? w * n) with true by lia.
               change (rbit (mrow U i) x) with (mbit U i x). rewrite BU by lia. unfold cbit. replace (i <? S i) with true by lia. replace (i <? i) with false by lia.
               destruct (cp_set p) eqn:Es.
               + destruct (Hset eq_refl) as [Q1 Q2]. rewrite Q1, Q2. btauto.
               + btauto.
             - intros x Hx. rewrite CU in Hx. rewrite Br by lia. replace (x <? w * n) with false by lia. reflexivity.
             - intros i' x Hi' Hne Hx. rewrite RU in Hi'. rewrite CU in Hx. rewrite BU by lia. replace (i' <? S i) with (i' <? i) by lia. reflexivity. }
           rewrite CU in B. eapply mset_trans; [exact HU|exact B].
        -- cbv beta. intros V. apply CInv_ext. intros t i' _ _. replace (0 <? S i) with true by lia. btauto.
  - cbv beta. intros U. apply CInv_ext. intros t i Ht Hi. replace (i <? m) with true by lia. replace (0 <? m) with true by lia. now rewrite !andb_true_r.
Qed.
Lemma pass1_ok save p ts : creg w p ts -> (forall t, In t ts -> t < D) -> (save = false -> cp_set p = true) ->
  forall d T, (cp_set p = true -> forall t i, d t i = false) -> CInv d T -> wp (cling_pass w save p F Ok T) (CInv (fun t i => d t i || memb ts t)).
Proof.
  intros H1 H2 H3 d T H4 H5. eapply wp_mono; [apply (cling_pass_ok save p ts Ok (fun _ => false)); auto|].
  - intros d' T' HT'. cbn [wp]. eapply CInv_ext; [|exact HT']. intros. cbv beta. now rewrite orb_false_r.
  - cbv beta. intros U. apply CInv_ext. intros. now rewrite orb_false_r.
Qed.
End MAT.
End CL.

Lemma cling_prog_ok w d F m n T : good_w w -> 0 < n -> length F = d -> d <= w -> (exists ps, slice_prog w d = Some ps) ->
  (forall t, t < d -> wf_mzd (nth t F dm) /\ mzd_nrows (nth t F dm) = m /\ mzd_ncols (nth t F dm) = n) ->
  wf_mzd T -> mzd_nrows T = m -> mzd_ncols T = w * n -> (forall i x, i < m -> x < w * n -> mbit T i x = false) ->
  wp (cling_prog w d F T) (fun T' => mset T T' (fun i x => (x mod w <? d) && mbit (nth (x mod w) F dm) i (x / w))).
Proof.
  intros Hw Hn HD Hdw (ps & E) HF HT HTr HTc Hz.
  assert (I0 : CInv w F T (fun _ _ => false) T).
  { split; [exact HT|]. split; [reflexivity|]. split; [reflexivity|]. split; [|reflexivity]. intros i x Hi Hx. rewrite HTr in Hi. rewrite HTc in Hx. cbn [andb]. now apply Hz. }
  pose proof (fun save p ts => pass1_ok w F m n d Hw Hn HD HF T HTr HTc save p ts) as P1.
  pose proof (fun save p ts af H => cling_pass_ok w F m n d Hw Hn HD HF T HTr HTc save p ts af H) as P2.
  assert (Fin : forall g, (forall t, t < w -> g t = (t <? d)) -> forall U, CInv w F T (fun t _ => g t) U -> mset T U (fun i x => (x mod w <? d) && mbit (nth (x mod w) F dm) i (x / w))).
  { intros g Hg U HU. eapply mset_ext; [exact HU|]. intros i x Hi Hx. cbv beta. rewrite Hg; [reflexivity|]. apply Nat.mod_upper_bound. apply good_w_pos in Hw. lia. }
  assert (FB : forall g, forallb (fun t => Bool.eqb (g t) (t <? d)) (seq 0 w) = true -> forall t, t < w -> g t = (t <? d)).
  { intros g H t Ht. rewrite forallb_forall in H. apply eqb_prop. apply H. apply in_seq. lia. }
  assert (SI : forall s l, s + l <= d -> forall t, In t (seq s l) -> t < d) by (intros s l H t Ht; apply in_seq in Ht; lia).
  assert (C1 : forall save p ts, creg w p ts -> (forall t, In t ts -> t < d) -> (save = false -> cp_set p = true) ->
     forallb (fun t => Bool.eqb (memb ts t) (t <? d)) (seq 0 w) = true ->
     wp (cling_pass w save p F Ok T) (fun T' => mset T T' (fun i x => (x mod w <? d) && mbit (nth (x mod w) F dm) i (x / w)))).
  { intros save p ts R1 R2 R3 R4. eapply wp_mono; [eapply P1; [exact R1|exact R2|exact R3| |exact I0]; reflexivity|]. cbv beta. intros U. apply Fin. now apply FB. }
  assert (C2 : forall p p2 ts ts2, creg w p ts -> (forall t, In t ts -> t < d) -> creg w p2 ts2 -> (forall t, In t ts2 -> t < d) -> cp_set p2 = false ->
     forallb (fun t => Bool.eqb (memb ts t || memb ts2 t) (t <? d)) (seq 0 w) = true ->
     wp (T <- cling_pass w true p F Ok T ;; cling_pass w true p2 F Ok T) (fun T' => mset T T' (fun i x => (x mod w <? d) && mbit (nth (x mod w) F dm) i (x / w)))).
  { intros p p2 ts ts2 R1 R2 R3 R4 R5 R6. apply wp_bind. eapply wp_mono; [eapply P1; [exact R1|exact R2|discriminate| |exact I0]; reflexivity|]. cbv beta. intros U HU.
    eapply wp_mono; [eapply P1; [exact R3|exact R4|discriminate| |exact HU]; congruence|]. cbv beta. intros V. apply Fin. now apply FB. }
  assert (C3 : forall p p2 p3 ts ts2 ts3, creg w p ts -> (forall t, In t ts -> t < d) -> creg w p2 ts2 -> (forall t, In t ts2 -> t < d) -> cp_set p2 = false ->
     creg w p3 ts3 -> (forall t, In t ts3 -> t < d) -> cp_set p3 = false ->
     forallb (fun t => Bool.eqb (memb ts t || memb ts2 t || memb ts3 t) (t <? d)) (seq 0 w) = true ->
     wp (T <- cling_pass w true p F Ok T ;; cling_pass w true p2 F (cling_pass w true p3 F Ok) T) (fun T' => mset T T' (fun i x => (x mod w <? d) && mbit (nth (x mod w) F dm) i (x / w)))).
  { intros p p2 p3 ts ts2 ts3 R1 R2 R3 R4 R5 R6 R7 R8 R9. apply wp_bind. eapply wp_mono; [eapply P1; [exact R1|exact R2|discriminate| |exact I0]; reflexivity|]. cbv beta. intros U HU.
    eapply wp_mono; [eapply (P2 true p2 ts2 _ (memb ts3)); [exact R3|exact R4|discriminate| | |exact HU]|].
    - intros d' V HV. eapply P1; [exact R6|exact R7|discriminate|congruence|exact HV].
    - congruence.
    - cbv beta. intros V. apply Fin. now apply FB. }
  clear P1 P2 Fin FB I0. unfold cling_prog.
  destruct Hw as [-> | [-> | [-> | ->]]]; do 17 (try (destruct d as [|d]; [try discriminate E|])); try discriminate E; clear E.
  - apply (C1 false _ _ creg2_d2); [apply SI; lia|reflexivity|reflexivity].
  - apply (C1 false _ _ creg4_d3); [apply SI; lia|reflexivity|reflexivity].
  - apply (C1 false _ _ creg4_d4); [apply SI; lia|reflexivity|reflexivity].
  - apply (C1 true _ _ creg8_d5); [apply SI; lia|discriminate|reflexivity].
  - apply (C1 true _ _ creg8_d6); [apply SI; lia|discriminate|reflexivity].
  - apply (C1 true _ _ creg8_d7); [apply SI; lia|discriminate|reflexivity].
  - apply (C1 true _ _ creg8_d8); [apply SI; lia|discriminate|reflexivity].
  - apply (C2 _ _ _ _ creg16_0_7 ltac:(apply SI; lia) creg16_8_8 ltac:(apply SI; lia)); reflexivity.
  - apply (C2 _ _ _ _ creg16_0_7 ltac:(apply SI; lia) creg16_8_9 ltac:(apply SI; lia)); reflexivity.
  - apply (C2 _ _ _ _ creg16_0_7 ltac:(apply SI; lia) creg16_8_10 ltac:(apply SI; lia)); reflexivity.
  - apply (C2 _ _ _ _ creg16_0_7 ltac:(apply SI; lia) creg16_8_11 ltac:(apply SI; lia)); reflexivity.
  - apply (C3 _ _ _ _ _ _ creg16_0_7 ltac:(apply SI; lia) creg16_8_11 ltac:(apply SI; lia) eq_refl creg16_12_12 ltac:(apply SI; lia)); reflexivity.
  - apply (C3 _ _ _ _ _ _ creg16_0_7 ltac:(apply SI; lia) creg16_8_11 ltac:(apply SI; lia) eq_refl creg16_12_13 ltac:(apply SI; lia)); reflexivity.
  - apply (C3 _ _ _ _ _ _ creg16_0_7 ltac:(apply SI; lia) creg16_8_11 ltac:(apply SI; lia) eq_refl creg16_12_14 ltac:(apply SI; lia)); reflexivity.
  - apply (C3 _ _ _ _ _ _ creg16_0_7 ltac:(apply SI; lia) creg16_8_11 ltac:(apply SI; lia) eq_refl creg16_12_15 ltac:(apply SI; lia)); reflexivity.
Qed.

(** a GF(2) matrix that changes exactly the element slots below ncols is a matrix of field elements *)
Lemma becomes_mset A M' g F : wf_mzed A -> mset (mz_x A) M' g ->
  (forall i c, i < mz_nrows A -> c < mz_ncols A -> inF (fld A) (F i c)) ->
  (forall i c b, i < mz_nrows A -> c < mz_ncols A -> b < mz_w A -> g i (mz_w A * c + b) = N.testbit (F i c) (N.of_nat b)) ->
  becomes A (mz_set_x A M') F.
Proof.
  intros H (W & R1 & R2 & B & P) HF Hg. pose proof (wf_good A H) as Hw. wfd H. pose proof (good_w_pos _ Hw) as Pw.
  destruct M' as [r c rows]. cbn [mzd_nrows mzd_ncols] in R1, R2. subst r c. destruct W as (W1 & W2). cbn [mzd_nrows mzd_ncols mzd_rows] in *.
  apply becomes_rows; auto; [congruence|]. intros i Hi. destruct (W2 i ltac:(lia)) as [L1 L2].
  assert (R : forall c, c < cap A -> rel (mz_w A) (nth i rows []) c = if c <? mz_ncols A then F i c else entry A i c).
  { intros c Hc. destruct Wff as (_ & Hd & _). destruct (degree_to_w_facts _ _ Ww) as (_ & Hle & _).
    apply (rel_ext (mz_w A)); auto using rel_lt.
    { destruct (Nat.ltb_spec c (mz_ncols A)); [|apply rel_lt]. eapply inF_lt_w; eauto. }
    intros b Hb. rewrite rel_bit by easy. replace (b <? mz_w A) with true by lia. cbn [andb].
    change (rbit (nth i rows []) (mz_w A * c + b)) with (mbit (Mzd (mzd_nrows (mz_x A)) (mzd_ncols (mz_x A)) rows) i (mz_w A * c + b)).
    pose proof (slot_bit _ _ _ _ Hw Hc Hb) as Sb.
    destruct (Nat.ltb_spec c (mz_ncols A)).
    - rewrite B; [now apply Hg|lia|]. rewrite Wnc. nia.
    - rewrite P; [now apply mbit_entry|lia|]. rewrite Wnc. split; [nia|exact Sb]. }
  split; [|exact R]. rewrite Wnc in L1. split; [exact L1|]. split; [exact L2|].
  intros c Hc. fold (cap A) in Hc. rewrite R by easy. destruct (Nat.ltb_spec c (mz_ncols A)); [now apply HF|now apply wf_entry_cap].
Qed.

Lemma conv_width_deg ff w : gf2e_wf ff -> gf2e_degree_to_w ff = Ok w -> conv_width (ff_degree ff) = Ok w /\ exists ps, slice_prog w (ff_degree ff) = Some ps.
Proof.
  intros (D & _). unfold gf2e_degree_to_w, conv_width. set (d := ff_degree ff) in *. clearbody d.
  do 17 (destruct d as [|d]; [cbn; intros E; try discriminate E; injection E as <-; try lia; (split; [reflexivity|eexists; reflexivity])|]); lia.
Qed.

Lemma cling_into_ok A Z w : wf_slice Z -> wf_mzed A -> fld A = sfld Z -> mz_nrows A = sl_nrows Z -> mz_ncols A = sl_ncols Z -> w = mz_w A ->
  (forall i c, i < mz_nrows A -> c < mz_ncols A -> entry A i c = 0%N) ->
  wp (if mzd_slice_is_zero Z then Ok A else x <- cling_prog w (ff_degree (sl_ff Z)) (sl_x Z) (mz_x A) ;; Ok (mz_set_x A x)) (fun A' => becomes A A' (sentry Z)).
Proof.
  intros HZ HA Ef Er Ec -> Hz. pose proof (wf_good A HA) as Hw. pose proof (good_w_pos _ Hw) as Pw. pose proof HZ as (GZ & DZ & LZ & HZx).
  assert (Ed : ff_degree (mz_ff A) = sl_depth Z).
  { pose proof (wfs_deg Z HZ) as D1. destruct HA as ((_ & D2 & _) & _). rewrite <- Ef in D1. lia. }
  destruct (mzd_slice_is_zero Z) eqn:EZ.
  - rewrite slice_is_zero_ok in EZ by exact HZ. cbn [wp]. eapply becomes_ext; [apply becomes_refl; exact HA|]. intros i c Hi Hc. rewrite Hz, EZ by lia. reflexivity.
  - assert (Hdim : 0 < sl_nrows Z /\ 0 < sl_ncols Z).
    { destruct (Nat.eq_dec (sl_nrows Z) 0) as [E0|]; [|destruct (Nat.eq_dec (sl_ncols Z) 0) as [E0|]; [|lia]].
      - rewrite (proj2 (slice_is_zero_ok Z HZ)) in EZ; [discriminate|]. intros; lia.
      - rewrite (proj2 (slice_is_zero_ok Z HZ)) in EZ; [discriminate|]. intros; lia. }
    wfd HA. destruct (conv_width_deg _ _ Wff Ww) as (_ & Eps). destruct (degree_to_w_facts _ _ Ww) as (_ & Hle & _).
    apply wp_bind. eapply wp_mono.
    + apply (cling_prog_ok (mz_w A) (ff_degree (sl_ff Z)) (sl_x Z) (sl_nrows Z) (sl_ncols Z)); try congruence; try lia.
      * now rewrite <- DZ, <- Ed.
      * intros t Ht. apply HZx. lia.
      * now apply wf_mzed_mzd.
      * intros i x Hi Hx. pose proof (Nat.div_mod x (mz_w A) ltac:(lia)) as Dx. pose proof (Nat.mod_upper_bound x (mz_w A) ltac:(lia)) as Mx.
        rewrite Dx. rewrite mbit_entry by (auto; lia). rewrite Hz; [apply N.bits_0|lia|]. apply Nat.div_lt_upper_bound; lia.
    + cbv beta. intros M HM. cbn [wp]. eapply becomes_mset; [exact HA|exact HM| |].
      * intros i c Hi Hc. rewrite Ef. now apply sentry_in.
      * intros i c b Hi Hc Hb. cbv beta. rewrite (Nat.mul_comm (mz_w A) c), Nat.div_add_l by lia. rewrite (Nat.add_comm (c * mz_w A)), Nat.mod_add by lia. rewrite Nat.mod_small, Nat.div_small, Nat.add_0_r by easy.
        destruct (Nat.ltb_spec b (ff_degree (sl_ff Z))); cbn [andb].
        -- change (nth b (sl_x Z) dm) with (sx Z b). apply sbit. lia.
        -- symmetry. eapply inF_testbit; [apply sentry_in; exact HZ|]. rewrite (wfs_deg Z HZ). lia.
Qed.
(** C35, second half.  There is no packed representation for degree 1. *)
Theorem mzed_cling_ok A Z : wf_slice Z -> 2 <= sl_depth Z -> target A (sfld Z) (sl_nrows Z) (sl_ncols Z) ->
  wp (mzed_cling A Z) (fun A' => holds A' (sfld Z) (sl_nrows Z) (sl_ncols Z) (sentry Z) /\
     match A with Some A => becomes A A' (sentry Z) | None => mz_ff A' = sl_ff Z end).
Proof.
  intros HZ H2 HA. pose proof HZ as (GZ & DZ & _). unfold mzed_cling. destruct A as [A|].
  - destruct HA as (WA & E1 & E2 & E3). apply wp_bind. eapply wp_mono; [apply mzed_set_ui_ok; [exact WA|]|].
    { unfold inF. apply N.neq_0_lt_0. now apply N.pow_nonzero. }
    cbv beta. intros A1 B1. pose proof (becomes_wf _ _ _ B1) as W1. pose proof (becomes_nr _ _ _ B1). pose proof (becomes_nc _ _ _ B1). pose proof (becomes_ff _ _ _ B1) as E4.
    assert (Ew : conv_width (ff_degree (sl_ff Z)) = Ok (mz_w A1)).
    { wfd W1. destruct (conv_width_deg _ _ Wff Ww) as (E & _). rewrite <- E. f_equal. rewrite E4. destruct WA as ((_ & D & _) & _). rewrite E1 in D. pose proof (wfs_deg Z HZ). lia. }
    rewrite Ew. cbn [bind]. eapply wp_mono; [apply cling_into_ok; auto; try congruence|].
    { intros i c Hi Hc. rewrite (becomes_entry _ _ _ _ _ B1) by lia. now destruct (i =? c). }
    cbv beta. intros A2 B2. assert (B : becomes A A2 (sentry Z)) by (eapply becomes_step; [exact B1|exact B2|reflexivity]).
    split; [|exact B]. split; [apply B|]. rewrite (becomes_ff _ _ _ B). repeat split; [exact E1|rewrite (becomes_nr _ _ _ B); exact E2|rewrite (becomes_nc _ _ _ B); exact E3|].
    intros i c Hi Hc. apply (becomes_entry _ _ _ _ _ B); lia.
  - apply wp_bind. eapply wp_mono; [apply mzed_init_ok; [exact GZ|lia]|]. cbv beta. intros A1 (E1 & (W1 & E2 & E3 & E4 & E5) & E6).
    assert (Ew : conv_width (ff_degree (sl_ff Z)) = Ok (mz_w A1)).
    { wfd W1. destruct (conv_width_deg _ _ Wff Ww) as (E & _). rewrite <- E. now rewrite E1. }
    rewrite Ew. cbn [bind]. eapply wp_mono; [apply cling_into_ok; auto; try congruence|]. cbv beta. intros A2 B.
    split; [|rewrite (becomes_ff _ _ _ B); exact E1]. split; [apply B|]. rewrite (becomes_ff _ _ _ B). repeat split; [exact E2|rewrite (becomes_nr _ _ _ B); exact E3|rewrite (becomes_nc _ _ _ B); exact E4|].
    intros i c Hi Hc. apply (becomes_entry _ _ _ _ _ B); lia.
Qed.

(** ** products of packed matrices through Karatsuba (C36) *)
Lemma holds_becomes C f m n F C' G : holds C f m n F -> becomes C C' G -> holds C' f m n G.
Proof.
  intros (H1 & H2 & H3 & H4 & H5) B. split; [apply B|]. rewrite (becomes_ff _ _ _ B). repeat split; [exact H2|rewrite (becomes_nr _ _ _ B); exact H3|rewrite (becomes_nc _ _ _ B); exact H4|].
  intros i c Hi Hc. apply (becomes_entry _ _ _ _ _ B); lia.
Qed.
Lemma holds_of A : wf_mzed A -> holds A (fld A) (mz_nrows A) (mz_ncols A) (entry A).
Proof. intros H. split; [exact H|]. now repeat split. Qed.
Lemma mmul_ext f l A A' B B' m n : meq m l A A' -> meq l n B B' -> meq m n (mmul f l A B) (mmul f l A' B').
Proof. intros H1 H2 i j Hi Hj. unfold mmul. apply xsum_ext. intros k Hk. now rewrite H1, H2. Qed.
Theorem mzed_addmul_karatsuba_in_ok C A B : wf_mzed A -> wf_mzed B -> fld A = fld B -> mz_ncols A = mz_nrows B -> target C (fld A) (mz_nrows A) (mz_ncols B) ->
  wp (mzed_addmul_karatsuba_ C A B) (fun C' => holds C' (fld A) (mz_nrows A) (mz_ncols B)
     (madd (match C with Some C => entry C | None => mzero end) (mmul (fld A) (mz_ncols A) (entry A) (entry B))) /\
     match C with Some C => becomes C C' (madd (entry C) (mmul (fld A) (mz_ncols A) (entry A) (entry B))) | None => True end).
Proof.
  intros HA HB Ef En HC. unfold mzed_addmul_karatsuba_.
  assert (WC : wp (match C with Some C => Cs <- mzed_slice None C ;; Ok (Some Cs) | None => Ok None end) (fun Cs =>
     match C, Cs with Some C, Some Cs => sholds Cs (fld A) (mz_nrows A) (mz_ncols B) (entry C) | None, None => True | _, _ => False end)).
  { destruct C as [C|]; [|exact Logic.I]. destruct HC as (C1 & C2 & C3 & C4). apply wp_bind. eapply wp_mono; [apply (mzed_slice_ok None C C1 Logic.I)|]. cbv beta. intros Cs (K & _). cbn [wp].
    rewrite C2, C3, C4 in K. exact K. }
  apply wp_bind. eapply wp_mono; [exact WC|]. cbv beta. intros Cs HCs.
  apply wp_bind. eapply wp_mono; [apply (mzed_slice_ok None A HA Logic.I)|]. cbv beta. intros As (KA & _). pose proof KA as (A1 & A2 & A3 & A4 & A5).
  apply wp_bind. eapply wp_mono; [apply (mzed_slice_ok None B HB Logic.I)|]. cbv beta. intros Bs (KB & _). pose proof KB as (B1 & B2 & B3 & B4 & B5).
  apply wp_bind. eapply wp_mono; [apply slice_addmul_karatsuba_ok; [exact A1|exact B1|congruence|congruence|]|].
  { rewrite A2, A3, B4. destruct C as [C|], Cs as [Cs|]; try contradiction; [|exact Logic.I]. destruct HCs as (K1 & K2 & K3 & K4 & _). exact (conj K1 (conj K2 (conj K3 K4))). }
  cbv beta. intros Ds (KD & _). rewrite A2, A3, A4, B4 in KD. pose proof KD as (D1 & D2 & D3 & D4 & D5).
  assert (E : meq (mz_nrows A) (mz_ncols B) (sentry Ds) (madd (match C with Some C => entry C | None => mzero end) (mmul (fld A) (mz_ncols A) (entry A) (entry B)))).
  { intros i j Hi Hj. rewrite D5 by easy. unfold madd. f_equal.
    - destruct C as [C|], Cs as [Cs|]; try contradiction; [|reflexivity]. destruct HCs as (_ & _ & _ & _ & K). now apply K.
    - apply (mmul_ext (fld A) (mz_ncols A) _ _ _ _ (mz_nrows A) (mz_ncols B)); [intros x y Hx Hy; now apply A5|intros x y Hx Hy; apply B5; lia|exact Hi|exact Hj]. }
  eapply wp_mono; [apply mzed_cling_ok; [exact D1| |]|].
  - pose proof (wfs_deg Ds D1) as Q. rewrite D2 in Q. destruct HA as ((_ & Dg & _) & Ww & _). destruct (degree_to_w_facts _ _ Ww) as (_ & _ & H2). lia.
  - rewrite D2, D3, D4. exact HC.
  - cbv beta. rewrite D2, D3, D4. intros C' ((H1 & H2 & H3 & H4 & H5) & Bc). split.
    + split; [exact H1|]. repeat split; auto. intros i c Hi Hc. rewrite H5 by easy. now apply E.
    + destruct C as [C|]; [|exact Logic.I]. destruct HC as (C1 & C2 & C3 & C4). eapply becomes_ext; [exact Bc|]. rewrite C3, C4. exact E.
Qed.
Theorem mzed_mul_karatsuba_ok C A B : wf_mzed A -> wf_mzed B -> fld A = fld B -> mz_ncols A = mz_nrows B -> target C (fld A) (mz_nrows A) (mz_ncols B) ->
  wp (mzed_mul_karatsuba C A B) (fun C' => holds C' (fld A) (mz_nrows A) (mz_ncols B) (mmul (fld A) (mz_ncols A) (entry A) (entry B)) /\
     match C with Some C => becomes C C' (mmul (fld A) (mz_ncols A) (entry A) (entry B)) | None => True end).
Proof.
  intros HA HB Ef En HC. unfold mzed_mul_karatsuba. rewrite (proj2 (Nat.eqb_eq _ _) En), (proj2 (same_ff_iff A B) Ef). cbn [andb check bind].
  destruct C as [C|].
  - pose proof HC as (C1 & C2 & C3 & C4). rewrite (proj2 (same_ff_iff C A) C2), C3, C4, !Nat.eqb_refl. cbn [andb check bind].
    apply wp_bind. eapply wp_mono; [apply mzed_set_ui_ok; [exact C1|]|].
    { unfold inF. apply N.neq_0_lt_0. now apply N.pow_nonzero. }
    cbv beta. intros C0 B0. pose proof (becomes_wf _ _ _ B0). pose proof (becomes_nr _ _ _ B0). pose proof (becomes_nc _ _ _ B0). pose proof (becomes_ff _ _ _ B0) as E4.
    eapply wp_mono; [apply (mzed_addmul_karatsuba_in_ok (Some C0)); auto; split; [assumption|]; rewrite E4; repeat split; congruence|].
    cbv beta. intros C' (K & Bc).
    assert (E : meq (mz_nrows A) (mz_ncols B) (madd (entry C0) (mmul (fld A) (mz_ncols A) (entry A) (entry B))) (mmul (fld A) (mz_ncols A) (entry A) (entry B))).
    { intros i j Hi Hj. unfold madd. rewrite (becomes_entry _ _ _ _ _ B0) by lia. destruct (i =? j); apply N.lxor_0_l. }
    split.
    + destruct K as (K1 & K2 & K3 & K4 & K5). split; [exact K1|]. repeat split; auto. intros i c Hi Hc. rewrite K5 by easy. now apply E.
    + eapply becomes_step; [exact B0|exact Bc|]. rewrite C3, C4. exact E.
  - eapply wp_mono; [apply (mzed_addmul_karatsuba_in_ok None); auto|]. cbv beta. intros C' ((K1 & K2 & K3 & K4 & K5) & _). split; [|exact Logic.I].
    split; [exact K1|]. repeat split; auto.
Qed.
Theorem mzed_addmul_karatsuba_ok C A B : wf_mzed A -> wf_mzed B -> wf_mzed C -> fld A = fld B -> mz_ncols A = mz_nrows B -> fld C = fld A -> mz_nrows C = mz_nrows A -> mz_ncols C = mz_ncols B ->
  wp (mzed_addmul_karatsuba (Some C) A B) (fun C' => becomes C C' (madd (entry C) (mmul (fld A) (mz_ncols A) (entry A) (entry B)))).
Proof.
  intros HA HB HC Ef En E1 E2 E3. unfold mzed_addmul_karatsuba. rewrite (proj2 (Nat.eqb_eq _ _) En), (proj2 (same_ff_iff A B) Ef). cbn [andb check bind].
  rewrite (proj2 (same_ff_iff C A) E1), E2, E3, !Nat.eqb_refl. cbn [andb check bind].
  eapply wp_mono; [apply (mzed_addmul_karatsuba_in_ok (Some C)); auto; exact (conj HC (conj E1 (conj E2 E3)))|]. cbv beta. intros C' (_ & B'). exact B'.
Qed.
