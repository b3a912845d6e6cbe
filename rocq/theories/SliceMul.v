(** Reduction on the fly, scalar multiplication and naive multiplication of bit-sliced matrices (C38, C39). *)
From Coq Require Import NArith ZArith Lia List Bool Arith.
From Coq Require Import ZifyBool ZifyNat ZifyN.
From Verif Require Import Base Spec PolyFacts MatFacts Gf2xModel Gf2xProofs Gf2eModel Gf2eProofs MzdModel MzedModel MzedSpec LaneFacts MzedProofs MzedOps MzedOps2 SliceModel SliceSpec MzdFacts SliceProofs SliceOps.
Import ListNotations.
Local Open Scope nat_scope.

(** ** lists of matrices as matrices of polynomials *)
Definition dm : mzd := Mzd 0 0 [].
Definition pv (X : list mzd) (i c : nat) : N := word_of_bits (length X) (fun b => mbit (nth b X dm) i c).
Definition shape (X : list mzd) (m n : nat) : Prop :=
  forall b, b < length X -> wf_mzd (nth b X dm) /\ mzd_nrows (nth b X dm) = m /\ mzd_ncols (nth b X dm) = n.
(** X' is X with the polynomials replaced by F (in range: i < m, c < n) *)
Definition lbec (X X' : list mzd) (F : mat) : Prop :=
  length X' = length X /\ forall b, b < length X -> mset (nth b X dm) (nth b X' dm) (fun i c => N.testbit (F i c) (N.of_nat b)).
Lemma pv_bit X i c b : b < length X -> mbit (nth b X dm) i c = N.testbit (pv X i c) (N.of_nat b).
Proof. intros Hb. unfold pv. rewrite testbit_word_of_bits. now replace (b <? length X) with true by lia. Qed.
Lemma pv_lt X i c : (pv X i c < 2 ^ N.of_nat (length X))%N. Proof. apply word_of_bits_lt. Qed.
Lemma lbec_shape X X' F m n : shape X m n -> lbec X X' F -> shape X' m n.
Proof.
  intros HX (L & H) b Hb. rewrite L in Hb. destruct (HX b Hb) as (W & E1 & E2). destruct (H b Hb) as (W' & E1' & E2' & _). split; [exact W'|split; congruence].
Qed.
Lemma lbec_pv X X' F m n i c : shape X m n -> lbec X X' F -> i < m -> c < n -> (F i c < 2 ^ N.of_nat (length X))%N -> pv X' i c = F i c.
Proof.
  intros HX (L & H) Hi Hc HF. unfold pv. rewrite L. rewrite <- (word_of_bits_id (length X) (F i c)) by easy. apply word_of_bits_ext. intros b Hb.
  destruct (HX b Hb) as (W & E1 & E2). apply (mset_bit _ _ _ _ _ (H b Hb)); lia.
Qed.
Lemma lbec_refl X m n : shape X m n -> lbec X X (pv X).
Proof. intros HX. split; [easy|]. intros b Hb. eapply mset_ext; [apply mset_refl; now apply HX|]. intros i c _ _. now apply pv_bit. Qed.
Lemma lbec_ext X X' F G m n : shape X m n -> lbec X X' F -> (forall i c, i < m -> c < n -> F i c = G i c) -> lbec X X' G.
Proof.
  intros HX (L & H) E. split; [easy|]. intros b Hb. destruct (HX b Hb) as (W & E1 & E2). eapply mset_ext; [now apply H|]. cbv beta.
  intros i c Hi Hc. rewrite E; auto; lia.
Qed.
Lemma lbec_step X Y Z F G H m n : shape X m n -> lbec X Y F -> lbec Y Z G -> (forall i c, i < m -> c < n -> G i c = H i c) -> lbec X Z H.
Proof.
  intros HX (L1 & H1) (L2 & H2) E. split; [congruence|]. intros b Hb. destruct (HX b Hb) as (W & E1 & E2).
  eapply mset_step; [now apply H1|apply H2; lia|]. cbv beta. intros i c Hi Hc. rewrite E; auto; lia.
Qed.
Lemma lxor_lt a b k : (a < 2 ^ k)%N -> (b < 2 ^ k)%N -> (N.lxor a b < 2 ^ k)%N. Proof. apply lxor_lt_pow2. Qed.
Lemma ladd_ok X t A m n : shape X m n -> t < length X -> wf_mzd A -> mzd_nrows A = m -> mzd_ncols A = n ->
  wp (ladd X t A) (fun X' => lbec X X' (fun i c => N.lxor (pv X i c) (if mbit A i c then 2 ^ N.of_nat t else 0%N))).
Proof.
  intros HX Ht WA E1 E2. unfold ladd. rewrite (lget_ok X t dm) by easy. cbn [bind]. destruct (HX t Ht) as (W & F1 & F2).
  apply wp_bind. eapply wp_mono; [apply add_ok; auto; congruence|]. cbv beta. intros y Hy. rewrite lset_ok by easy. cbn [wp].
  split; [apply upd_length|]. intros b Hb. rewrite nth_upd by easy. destruct (Nat.eqb_spec t b) as [<-|Hne].
  - eapply mset_ext; [exact Hy|]. cbv beta. intros i c _ _. rewrite N.lxor_spec, pv_bit by easy. f_equal.
    destruct (mbit A i c); [now rewrite N.pow2_bits_true|now rewrite N.bits_0].
  - destruct (HX b Hb) as (Wb & _). eapply mset_ext; [now apply mset_refl|]. cbv beta. intros i c _ _. rewrite N.lxor_spec, pv_bit by easy.
    destruct (mbit A i c); [rewrite N.pow2_bits_false by lia|rewrite N.bits_0]; now rewrite xorb_false_r.
Qed.
Lemma zero_bits A i c : wf_mzd A -> mzd_is_zero A = true -> i < mzd_nrows A -> c < mzd_ncols A -> mbit A i c = false.
Proof. intros W H. now apply is_zero_ok. Qed.

(** the reduction: modulo the minimal polynomial, or none *)
Definition redp (ff : option gf2e) (p : N) : N := match ff with Some k => pmod p (ff_minpoly k) | None => p end.
Definition ffok (ff : option gf2e) (X : list mzd) : Prop := match ff with Some k => gf2e_wf k /\ length X = ff_degree k | None => True end.
(** exponents that can be added *)
Definition tok (ff : option gf2e) (X : list mzd) (t : nat) : Prop :=
  match ff with Some k => t < 2 * ff_degree k - 1 | None => t < length X end.
Lemma redp_lxor ff X p q : ffok ff X -> redp ff (N.lxor p q) = N.lxor (redp ff p) (redp ff q).
Proof. destruct ff; [|easy]. intros (H & _). cbn. apply pmod_lxor. now apply gf2e_wf_f0. Qed.
Lemma redp_0 ff : redp ff 0 = 0%N. Proof. now destruct ff. Qed.
Lemma redp_xsum ff X n g : ffok ff X -> redp ff (xsum n g) = xsum n (fun i => redp ff (g i)).
Proof. intros H. induction n; cbn [xsum]; [apply redp_0|]. now rewrite (redp_lxor ff X), IHn. Qed.
Lemma redp_lt ff X t : ffok ff X -> tok ff X t -> (redp ff (2 ^ N.of_nat t) < 2 ^ N.of_nat (length X))%N.
Proof.
  destruct ff as [k|]; cbn.
  - intros (H & L) _. rewrite L. destruct H as (He & Hd & Hr). rewrite <- Hd. apply pmod_lt. intros E. rewrite E in Hd. cbn in Hd. lia.
  - intros _ Ht. apply N.pow_lt_mono_r; lia.
Qed.
Lemma addmod_loop k A X m n p e : shape X m n -> wf_mzd A -> mzd_nrows A = m -> mzd_ncols A = n -> length X = e -> (p < 2 ^ N.of_nat e)%N -> k = e ->
  wp (for_ 0 k (fun i X => if N.testbit p (N.of_nat i) then ladd X i A else Ok X) X)
     (fun X' => lbec X X' (fun i c => N.lxor (pv X i c) (if mbit A i c then p else 0%N))).
Proof.
  intros HX WA E1 E2 L Hp ->.
  eapply wp_mono; [apply (wp_for (fun j X' => lbec X X' (fun i c => N.lxor (pv X i c) (if mbit A i c then word_of_bits j (fun b => N.testbit p (N.of_nat b)) else 0%N)))); [lia| |]|].
  - eapply lbec_ext; [exact HX|eapply lbec_refl; eauto|]. intros i c _ _. cbn [word_of_bits]. destruct (mbit A i c); now rewrite N.lxor_0_r.
  - intros j Y Hj HY. pose proof (lbec_shape _ _ _ _ _ HX HY) as SY. assert (LY : length Y = e) by (destruct HY; congruence).
    assert (PY : forall i c, i < m -> c < n -> pv Y i c = N.lxor (pv X i c) (if mbit A i c then word_of_bits j (fun b => N.testbit p (N.of_nat b)) else 0%N)).
    { intros i c Hi Hc. rewrite (lbec_pv X Y _ m n i c HX HY Hi Hc); [reflexivity|]. apply lxor_lt; [apply pv_lt|]. destruct (mbit A i c).
      - eapply N.lt_le_trans; [apply word_of_bits_lt|]. apply N.pow_le_mono_r; lia.
      - apply N.neq_0_lt_0, N.pow_nonzero. lia. }
    destruct (N.testbit p (N.of_nat j)) eqn:Ep.
    + eapply wp_mono; [apply (ladd_ok Y j A m n); auto; lia|]. cbv beta. intros Z HZ. eapply lbec_step; eauto. cbv beta. intros i c Hi Hc. rewrite PY by easy.
      rewrite N.lxor_assoc. f_equal. destruct (mbit A i c); [|apply N.lxor_0_l]. cbn [word_of_bits]. rewrite Ep.
      apply N.bits_inj. intros q. replace q with (N.of_nat (N.to_nat q)) by lia. rewrite N.lxor_spec, N.setbit_eqb, testbit_word_of_bits.
      rewrite N.pow2_bits_eqb. destruct (N.eqb_spec (N.of_nat j) (N.of_nat (N.to_nat q))) as [Hq|Hq]; [|now rewrite xorb_false_r].
      replace (N.to_nat q <? j) with false by lia. reflexivity.
    + cbn [wp]. eapply lbec_ext; eauto. cbv beta. intros i c Hi Hc. destruct (mbit A i c); [|easy]. cbn [word_of_bits]. now rewrite Ep.
  - cbv beta. intros X' H. eapply lbec_ext; eauto. cbv beta. intros i c _ _. now rewrite word_of_bits_id by easy.
Qed.
Theorem modred_ok ff A X t m n : ffok ff X -> tok ff X t -> shape X m n -> wf_mzd A -> mzd_nrows A = m -> mzd_ncols A = n ->
  wp (ptr_add_modred ff A X t) (fun X' => lbec X X' (fun i c => N.lxor (pv X i c) (if mbit A i c then redp ff (2 ^ N.of_nat t) else 0%N))).
Proof.
  intros Hff Ht HX WA E1 E2. unfold ptr_add_modred. destruct (mzd_is_zero A) eqn:Ez.
  { cbn [wp]. eapply lbec_ext; [eauto|eapply lbec_refl; eauto|]. cbv beta. intros i c Hi Hc. rewrite (zero_bits A) by (auto; lia). now rewrite N.lxor_0_r. }
  destruct ff as [k|].
  - destruct Hff as (Hk & L). cbn in Ht. pose proof Hk as (He & Hd & Hp & _). destruct Hp as (Lp & Hp).
    assert (f0 : ff_minpoly k <> 0%N) by now apply gf2e_wf_f0.
    destruct (Nat.ltb_spec t (ff_degree k)) as [Hlt|Hge].
    + eapply wp_mono; [apply (ladd_ok X t A m n); auto; lia|]. cbv beta. intros X' H. eapply lbec_ext; eauto. cbv beta. intros i c _ _.
      cbn [redp]. rewrite pmod_small; [easy|easy|]. rewrite Hd. apply N.pow_lt_mono_r; lia.
    + rewrite (lget_ok _ _ 0%N) by (cbv zeta in Lp; lia). cbn [bind].
      assert (Ep : nth t (ff_pow_gen k) 0%N = pmod (2 ^ N.of_nat t) (ff_minpoly k)) by (rewrite Hp by lia; now rewrite ppow_2).
      rewrite Ep. cbn [redp]. apply (addmod_loop (ff_degree k) A X m n _ (ff_degree k)); auto. rewrite <- Hd. now apply pmod_lt.
  - cbn in Ht |- *. apply (ladd_ok X t A m n); auto.
Qed.
Lemma to_all_ok ff A ts X m n : ffok ff X -> (forall t, In t ts -> tok ff X t) -> shape X m n -> wf_mzd A -> mzd_nrows A = m -> mzd_ncols A = n ->
  wp (ptr_add_to_all ff A X ts) (fun X' => lbec X X' (fun i c => N.lxor (pv X i c) (if mbit A i c then redp ff (fold_right (fun t s => N.lxor (2 ^ N.of_nat t) s) 0%N ts) else 0%N))).
Proof.
  intros Hff Ht HX WA E1 E2. unfold ptr_add_to_all. revert X Hff Ht HX. induction ts as [|t ts IH]; intros X Hff Ht HX; cbn [fold_left fold_right].
  - cbn [wp]. eapply lbec_ext; [eauto|eapply lbec_refl; eauto|]. cbv beta. intros i c _ _. rewrite redp_0. destruct (mbit A i c); now rewrite N.lxor_0_r.
  - cbn [bind].
    assert (S1 : wp (match ff with Some _ => ptr_add_modred ff A X t | None => ladd X t A end) (fun X' => lbec X X' (fun i c => N.lxor (pv X i c) (if mbit A i c then redp ff (2 ^ N.of_nat t) else 0%N)))).
    { destruct ff as [k|] eqn:Eff; [apply (modred_ok (Some k) A X t m n); auto; apply Ht; now left|apply (ladd_ok X t A m n); auto; apply (Ht t); now left]. }
    destruct (match ff with Some _ => ptr_add_modred ff A X t | None => ladd X t A end) as [Y| |] eqn:EY; cbn [wp] in S1; try contradiction.
    assert (LY : length Y = length X) by apply S1.
    eapply wp_mono; [apply IH|].
    + destruct ff; [|easy]. cbn in *. now rewrite LY.
    + intros t' Ht'. specialize (Ht t' (or_intror Ht')). destruct ff; [easy|]. cbn in *. now rewrite LY.
    + eapply lbec_shape; eauto.
    + cbv beta. intros Z HZ. eapply lbec_step; eauto. cbv beta. intros i c Hi Hc.
      rewrite (lbec_pv X Y _ m n i c HX S1 Hi Hc).
      2:{ apply lxor_lt; [apply pv_lt|]. destruct (mbit A i c); [apply redp_lt; auto; apply Ht; now left|apply N.neq_0_lt_0, N.pow_nonzero; lia]. }
      rewrite N.lxor_assoc. f_equal. destruct (mbit A i c); [|now rewrite N.lxor_0_l]. now rewrite (redp_lxor ff X).
Qed.

(** ** polynomial products as double sums *)
Lemma bits_sum n a : (a < 2 ^ N.of_nat n)%N -> a = xsum n (fun i => if N.testbit a (N.of_nat i) then (2 ^ N.of_nat i)%N else 0%N).
Proof.
  intros H. rewrite <- (word_of_bits_id n a H) at 1. clear H. induction n as [|n IH]; [easy|]. cbn [word_of_bits xsum]. rewrite <- IH.
  destruct (N.testbit a (N.of_nat n)) eqn:E; [|now rewrite N.lxor_0_r].
  apply N.bits_inj. intros q. replace q with (N.of_nat (N.to_nat q)) by lia. rewrite N.lxor_spec, N.setbit_eqb, testbit_word_of_bits, N.pow2_bits_eqb.
  destruct (N.eqb_spec (N.of_nat n) (N.of_nat (N.to_nat q))) as [Hq|Hq]; [|now rewrite xorb_false_r]. now replace (N.to_nat q <? n) with false by lia.
Qed.
Lemma pmul_xsum_l n g b : pmul (xsum n g) b = xsum n (fun i => pmul (g i) b).
Proof. induction n; cbn [xsum]; [easy|]. now rewrite pmul_lxor_l, IHn. Qed.
Lemma pmul_xsum_r n g b : pmul b (xsum n g) = xsum n (fun i => pmul b (g i)).
Proof. induction n; cbn [xsum]; [apply pmul_0_r|]. now rewrite pmul_lxor_r, IHn. Qed.
Lemma pmul_bits n a b : (a < 2 ^ N.of_nat n)%N -> (b < 2 ^ N.of_nat n)%N ->
  pmul a b = xsum n (fun i => xsum n (fun j => if N.testbit a (N.of_nat i) && N.testbit b (N.of_nat j) then (2 ^ N.of_nat (i + j))%N else 0%N)).
Proof.
  intros Ha Hb. rewrite (bits_sum n a Ha) at 1. rewrite pmul_xsum_l. apply xsum_ext. intros i Hi. rewrite (bits_sum n b Hb) at 1. rewrite pmul_xsum_r.
  apply xsum_ext. intros j Hj. destruct (N.testbit a (N.of_nat i)), (N.testbit b (N.of_nat j)); cbn [andb]; try apply pmul_0_l; try apply pmul_0_r.
  rewrite pmul_pow2_l, N.shiftl_mul_pow2, <- N.pow_add_r. f_equal. lia.
Qed.
Lemma fmul_bits k a b : gf2e_wf k -> (a < 2 ^ N.of_nat (ff_degree k))%N -> (b < 2 ^ N.of_nat (ff_degree k))%N ->
  fmul (ff_minpoly k) a b = xsum (ff_degree k) (fun i => xsum (ff_degree k) (fun j =>
     if N.testbit a (N.of_nat i) && N.testbit b (N.of_nat j) then pmod (2 ^ N.of_nat (i + j)) (ff_minpoly k) else 0%N)).
Proof.
  intros Hk Ha Hb. unfold fmul. rewrite (pmul_bits _ a b Ha Hb). pose proof (redp_xsum (Some k) (repeat dm (ff_degree k))) as R. cbn [redp ffok] in R.
  rewrite R by (split; [easy|apply repeat_length]). apply xsum_ext. intros i Hi. rewrite R by (split; [easy|apply repeat_length]). apply xsum_ext. intros j Hj. destruct (_ && _); easy.
Qed.
Lemma if_bxsum n g (v : N) : (if bxsum n g then v else 0%N) = xsum n (fun i => if g i then v else 0%N).
Proof. induction n; [easy|]. cbn [bxsum xsum]. rewrite <- IHn. destruct (bxsum n g), (g n); cbn; rewrite ?N.lxor_nilpotent, ?N.lxor_0_r, ?N.lxor_0_l; reflexivity. Qed.

Lemma pv_sentry A i c : wf_slice A -> pv (sl_x A) i c = sentry A i c.
Proof. intros (_ & _ & L & _). unfold pv, sentry. now rewrite L. Qed.
Lemma shape_slice A : wf_slice A -> shape (sl_x A) (sl_nrows A) (sl_ncols A).
Proof. intros (_ & _ & L & H) b Hb. apply H. lia. Qed.
Lemma lbec_slice A X F : wf_slice A -> lbec (sl_x A) X F -> (forall i c, i < sl_nrows A -> c < sl_ncols A -> inF (sfld A) (F i c)) -> sbecomes A (sl_set_x A X) F.
Proof. intros HA (L & H) HF. assert (LA : length (sl_x A) = sl_depth A) by apply HA. apply sb_intro; auto; [lia|]. intros b Hb. apply H. lia. Qed.

(** ** scalar multiplication *)
Lemma scalar_loop_ok k a B X : gf2e_wf k -> wf_slice B -> sfld B = ff_minpoly k -> length X = ff_degree k -> shape X (sl_nrows B) (sl_ncols B) -> (a < 2 ^ N.of_nat (ff_degree k))%N ->
  wp (scalar_loop k a B X) (fun X' => lbec X X' (fun i c => N.lxor (pv X i c) (fmul (ff_minpoly k) a (sentry B i c)))).
Proof.
  intros Hk HB Ef L HX Ha. unfold scalar_loop. set (e := ff_degree k) in *.
  assert (De : sl_depth B = e). { pose proof (wfs_deg B HB) as D. rewrite Ef in D. destruct Hk as (_ & Hd & _). unfold e. lia. }
  assert (f0 : ff_minpoly k <> 0%N) by now apply gf2e_wf_f0. assert (Hd : pdeg (ff_minpoly k) = N.of_nat e) by (now destruct Hk as (_ & Hd & _)).
  set (T := fun i j r c => if N.testbit a (N.of_nat i) && N.testbit (sentry B r c) (N.of_nat j) then pmod (2 ^ N.of_nat (i + j)) (ff_minpoly k) else 0%N).
  assert (HT : forall i j r c, (T i j r c < 2 ^ N.of_nat e)%N).
  { intros. unfold T. destruct (_ && _); [rewrite <- Hd; now apply pmod_lt|apply N.neq_0_lt_0, N.pow_nonzero; lia]. }
  assert (HTs : forall p q r c, (xsum p (fun i => xsum q (fun j => T i j r c)) < 2 ^ N.of_nat e)%N) by (intros; apply xsum_lt; intros; apply xsum_lt; intros; apply HT).
  eapply wp_mono; [apply (wp_for (fun p X' => lbec X X' (fun r c => N.lxor (pv X r c) (xsum p (fun i => xsum e (fun j => T i j r c)))))); [lia| |]|].
  - eapply lbec_ext; [exact HX|eapply lbec_refl; eauto|]. intros i c _ _. cbn [xsum]. now rewrite N.lxor_0_r.
  - intros p Y Hp HY. pose proof (lbec_shape _ _ _ _ _ HX HY) as SY. assert (LY : length Y = e) by (destruct HY; congruence).
    destruct (N.testbit a (N.of_nat p)) eqn:Ea.
    + rewrite De. eapply wp_mono; [apply (wp_for (fun q X' => lbec X X' (fun r c => N.lxor (pv X r c) (N.lxor (xsum p (fun i => xsum e (fun j => T i j r c))) (xsum q (fun j => T p j r c)))))); [lia| |]|].
      * eapply lbec_ext; eauto. intros i c _ _. cbn [xsum]. now rewrite N.lxor_0_r.
      * intros q Z Hq HZ. pose proof (lbec_shape _ _ _ _ _ HX HZ) as SZ. assert (LZ : length Z = e) by (destruct HZ; congruence).
        rewrite lget_sx by (auto; lia). cbn [bind]. pose proof HB as (_ & _ & _ & B4). destruct (B4 q ltac:(lia)) as (W1 & W2 & W3).
        eapply wp_mono; [apply (modred_ok (Some k) (sx B q) Z (p + q) (sl_nrows B) (sl_ncols B)); auto; [split; auto|cbn; unfold e in *; lia]|].
        cbv beta. intros Z' HZ'. eapply lbec_step; eauto. cbv beta. intros r c Hr Hc.
        rewrite (lbec_pv X Z _ _ _ r c HX HZ Hr Hc).
        2:{ rewrite L. apply lxor_lt; [rewrite <- L; apply pv_lt|apply lxor_lt; [apply HTs|apply xsum_lt; intros; apply HT]]. }
        cbn [xsum]. rewrite !N.lxor_assoc. do 3 f_equal. unfold T. rewrite Ea, sbit by lia. reflexivity.
      * cbv beta. intros Z HZ. eapply lbec_ext; eauto.
    + cbn [wp]. eapply lbec_ext; eauto. cbv beta. intros r c _ _. cbn [xsum]. f_equal. rewrite (xsum_0 e); [now rewrite N.lxor_0_r|]. intros j _. unfold T. now rewrite Ea.
  - cbv beta. intros X' H. eapply lbec_ext; eauto. cbv beta. intros r c Hr Hc. f_equal. symmetry. apply fmul_bits; auto. fold e. unfold sentry. rewrite De. apply word_of_bits_lt.
Qed.
Theorem slice_addmul_scalar_ok C a B : wf_slice B -> wf_slice C -> sfld C = sfld B -> sl_nrows C = sl_nrows B -> sl_ncols C = sl_ncols B -> inF (sfld B) a ->
  wp (mzd_slice_addmul_scalar C a B) (fun C' => sbecomes C C' (madd (sentry C) (mscal (sfld B) a (sentry B)))).
Proof.
  intros HB HC Ef E1 E2 Ha. unfold mzd_slice_addmul_scalar, scalar_assert. rewrite (proj2 (sl_same_ff_iff C B) Ef), E1, E2, !Nat.eqb_refl. cbn [guard andb bind].
  assert (Hk : gf2e_wf (sl_ff B)) by apply HB. assert (f0 := wfs_f0 B HB).
  apply wp_bind. eapply wp_mono; [apply scalar_loop_ok; auto|].
  - pose proof (same_depth C B HC HB Ef). destruct HC as (_ & _ & L & _). destruct HB as (_ & D & _). congruence.
  - rewrite <- E1, <- E2. now apply shape_slice.
  - pose proof (wfs_deg B HB) as D. destruct HB as (_ & D' & _). rewrite <- D', <- D. exact Ha.
  - cbv beta. intros X HX. cbn [wp]. apply lbec_slice; auto.
    + eapply lbec_ext; [apply (shape_slice C HC)|exact HX|]. cbv beta. intros i c _ _. unfold madd, mscal. f_equal. now apply pv_sentry.
    + intros i c _ _. rewrite Ef. apply inF_lxor; [rewrite <- Ef; now apply sentry_in|]. now apply fmul_lt.
Qed.
Theorem slice_mul_scalar_ok C a B : wf_slice B -> starget C (sfld B) (sl_nrows B) (sl_ncols B) -> inF (sfld B) a ->
  wp (mzd_slice_mul_scalar C a B) (fun C' => sholds C' (sfld B) (sl_nrows B) (sl_ncols B) (mscal (sfld B) a (sentry B))).
Proof.
  intros HB HC Ha. unfold mzd_slice_mul_scalar. assert (f0 := wfs_f0 B HB).
  apply wp_bind. eapply wp_mono with (P := fun D => sholds D (sfld B) (sl_nrows B) (sl_ncols B) mzero).
  { destruct C as [C|]; [|apply slice_init_ok; apply HB]. destruct HC as (W & F1 & F2 & F3).
    eapply wp_mono; [apply (slice_set_ui_ok C 0); auto; unfold inF; apply N.neq_0_lt_0, N.pow_nonzero; lia|]. cbv beta. intros C' B'.
    assert (K : sholds C (sfld B) (sl_nrows B) (sl_ncols B) (sentry C)) by (split; [exact W|]; repeat split; auto).
    eapply sh_ext; [exact (sh_becomes _ _ _ _ _ _ _ K B')|]. intros i j _ _. unfold mzero. now destruct (_ =? _). }
  cbv beta. intros D KD. pose proof KD as (D1 & D2 & D3 & D4 & D5).
  change (wp (mzd_slice_addmul_scalar D a B) (fun C' => sholds C' (sfld B) (sl_nrows B) (sl_ncols B) (mscal (sfld B) a (sentry B)))).
  eapply wp_mono; [apply slice_addmul_scalar_ok; auto|]. cbv beta. intros C' B'. eapply sh_ext; [exact (sh_becomes _ _ _ _ _ _ _ KD B')|].
  intros i j Hi Hj. unfold madd. rewrite D5 by easy. apply N.lxor_0_l.
Qed.

(** ** naive multiplication *)
Theorem slice_addmul_naive_ok C A B : wf_slice A -> wf_slice B -> sfld A = sfld B -> sl_ncols A = sl_nrows B -> starget C (sfld A) (sl_nrows A) (sl_ncols B) ->
  wp (mzd_slice_addmul_naive_ C A B) (fun C' => sholds C' (sfld A) (sl_nrows A) (sl_ncols B)
     (madd (match C with Some C => sentry C | None => mzero end) (mmul (sfld A) (sl_ncols A) (sentry A) (sentry B))) /\
     match C with Some C => sbecomes C C' (madd (sentry C) (mmul (sfld A) (sl_ncols A) (sentry A) (sentry B))) | None => True end).
Proof.
  intros HA HB Ef En HC. unfold mzd_slice_addmul_naive_. assert (Hk : gf2e_wf (sl_ff A)) by apply HA. assert (f0 := wfs_f0 A HA).
  pose proof (or_init_ok C _ _ _ _ Hk eq_refl HC) as K. set (D := sl_or_init _ _ _ _) in *. pose proof K as (D1 & D2 & D3 & D4 & D5).
  pose proof (same_depth A B HA HB Ef) as Ed. pose proof (same_depth D A D1 HA D2) as Ed'. assert (De : sl_depth A = ff_degree (sl_ff A)) by apply HA.
  set (k := sl_ff A) in *. set (e := ff_degree k) in *. set (m := sl_nrows A) in *. set (n := sl_ncols B) in *. set (l := sl_ncols A) in *.
  assert (Hd : pdeg (ff_minpoly k) = N.of_nat e) by (now destruct Hk as (_ & Hd & _)).
  set (X := sl_x D). assert (LX : length X = e) by (destruct D1 as (_ & _ & L & _); unfold X; congruence).
  assert (SX : shape X m n) by (rewrite <- D3, <- D4; now apply shape_slice).
  set (T := fun i j r c => if bmul l (mbit (sx A i)) (mbit (sx B j)) r c then pmod (2 ^ N.of_nat (i + j)) (ff_minpoly k) else 0%N).
  assert (HT : forall i j r c, (T i j r c < 2 ^ N.of_nat e)%N).
  { intros. unfold T. destruct (bmul _ _ _ _); [rewrite <- Hd; now apply pmod_lt|apply N.neq_0_lt_0, N.pow_nonzero; lia]. }
  assert (HTs : forall p q r c, (xsum p (fun i => xsum q (fun j => T i j r c)) < 2 ^ N.of_nat e)%N) by (intros; apply xsum_lt; intros; apply xsum_lt; intros; apply HT).
  set (okt := fun t0 : mzd => wf_mzd t0 /\ mzd_nrows t0 = m /\ mzd_ncols t0 = n).
  apply wp_bind. eapply wp_mono; [apply (wp_for (fun p '(t0, X') => okt t0 /\ lbec X X' (fun r c => N.lxor (pv X r c) (xsum p (fun i => xsum e (fun j => T i j r c)))))); [lia| |]|].
  - split; [split; [apply wf_init|easy]|]. eapply lbec_ext; [exact SX|eapply lbec_refl; eauto|]. intros i c _ _. cbn [xsum]. now rewrite N.lxor_0_r.
  - intros p (t0, Y) Hp (Ht0 & HY).
    eapply wp_mono; [apply (wp_for (fun q '(t0, X') => okt t0 /\ lbec X X' (fun r c => N.lxor (pv X r c) (N.lxor (xsum p (fun i => xsum e (fun j => T i j r c))) (xsum q (fun j => T p j r c)))))); [lia| |]|].
    + split; [easy|]. eapply lbec_ext; eauto. intros i c _ _. cbn [xsum]. now rewrite N.lxor_0_r.
    + intros q (t1, Z) Hq ((T1 & T2 & T3) & HZ). pose proof (lbec_shape _ _ _ _ _ SX HZ) as SZ. assert (LZ : length Z = e) by (destruct HZ; congruence).
      rewrite !lget_sx by (auto; lia). cbn [bind]. pose proof HA as (_ & _ & _ & A4). destruct (A4 p ltac:(lia)) as (U1 & U2 & U3).
      pose proof HB as (_ & _ & _ & B4). destruct (B4 q ltac:(lia)) as (W1 & W2 & W3). fold m in U2. fold n in W3. fold l in U3.
      apply wp_bind. eapply wp_mono; [apply (mul_ok t1 (sx A p) (sx B q)); auto; congruence|]. cbv beta. intros t2 Ht2.
      assert (okt t2). { destruct Ht2 as (G1 & G2 & G3 & _). split; [exact G1|split; congruence]. } destruct H as (G1 & G2 & G3).
      apply wp_bind. eapply wp_mono; [apply (modred_ok (Some k) t2 Z (p + q) m n); auto; [split; auto|cbn; unfold e in *; lia]|].
      cbv beta. intros Z' HZ'. cbn [wp]. split; [exact (conj G1 (conj G2 G3))|]. eapply lbec_step; eauto. cbv beta. intros r c Hr Hc.
      rewrite (lbec_pv X Z _ _ _ r c SX HZ Hr Hc).
      2:{ rewrite LX. apply lxor_lt; [rewrite <- LX; apply pv_lt|apply lxor_lt; [apply HTs|apply xsum_lt; intros; apply HT]]. }
      cbn [xsum]. rewrite !N.lxor_assoc. do 3 f_equal. unfold T. rewrite (mgot_bit _ _ _ r c Ht2) by lia. rewrite U3. reflexivity.
    + cbv beta. intros (t1, Z) (H1 & H2). split; [easy|]. eapply lbec_ext; eauto.
  - intros (t0, X') (_ & H). cbn [wp].
    assert (BD : sbecomes D (sl_set_x D X') (madd (match C with Some C => sentry C | None => mzero end) (mmul (ff_minpoly k) l (sentry A) (sentry B)))).
    { apply lbec_slice; auto.
      + eapply lbec_ext; [exact SX|exact H|]. cbv beta. intros r c Hr Hc. unfold madd, X. rewrite pv_sentry by easy. rewrite D5 by lia. f_equal. unfold mmul.
        transitivity (xsum e (fun i => xsum e (fun j => xsum l (fun t => if N.testbit (sentry A r t) (N.of_nat i) && N.testbit (sentry B t c) (N.of_nat j) then pmod (2 ^ N.of_nat (i + j)) (ff_minpoly k) else 0%N)))).
        { apply xsum_ext. intros i Hi. apply xsum_ext. intros j Hj. unfold T, bmul. rewrite if_bxsum. apply xsum_ext. intros t Ht. rewrite !sbit by lia. reflexivity. }
        transitivity (xsum l (fun t => xsum e (fun i => xsum e (fun j => if N.testbit (sentry A r t) (N.of_nat i) && N.testbit (sentry B t c) (N.of_nat j) then pmod (2 ^ N.of_nat (i + j)) (ff_minpoly k) else 0%N)))).
        { rewrite (xsum_swap l e). apply xsum_ext. intros i Hi. apply xsum_swap. }
        apply xsum_ext. intros t Ht. symmetry. apply fmul_bits; auto; fold e; unfold sentry; rewrite <- ?Ed, De; apply word_of_bits_lt.
      + intros r c Hr Hc. rewrite D2. apply inF_lxor.
        * rewrite <- D5 by lia. rewrite <- D2. now apply sentry_in.
        * apply (inM_mmul _ m l n); auto; lia. }
    split; [|destruct C; [exact BD|exact I]]. exact (sh_becomes _ _ _ _ _ _ _ K BD).
Qed.
