(** Bit-sliced matrices in a store: addition in place, products into one of the operands. *)
From Coq Require Import NArith Lia List Bool Arith.
From Coq Require Import ZifyBool ZifyNat ZifyN.
From Verif Require Import Base Spec LinSpec PolyFacts MatFacts Gf2xModel Gf2xProofs Gf2eModel Gf2eProofs MzdModel MzedModel MzedSpec LaneFacts MzedProofs MzedOps MzedOps2.
From Verif Require Import SliceModel SliceSpec MzdFacts SliceProofs SliceOps SliceMul KaratsubaTable KaraModel KaraProofs PropSlice AliasModel AliasRows AliasProofs.
Import ListNotations.
Local Open Scope nat_scope.

(** *** distinct objects: the pointer version is the value version *)
Lemma ksteps_at_const ff A B prog st : ksteps_at ff (lview false A) (lview false B) prog st = ksteps ff A B prog st.
Proof.
  revert st. induction prog as [|s r IH]; intros st; cbn [ksteps ksteps_at]; [reflexivity|].
  replace (kstep_at ff (lview false A) (lview false B) s st) with (kstep ff A B s st) by (destruct s as ((ai, bi), ts), st as (((t0, t1), t2), X); reflexivity).
  destruct (kstep ff A B s st); cbn [bind]; auto.
Qed.
Lemma kara_at_const ff d X A B : ptr_addmul_karatsuba_at ff d X (lview false A) (lview false B) = ptr_addmul_karatsuba ff d X A B.
Proof.
  assert (R : forall prog, kara_run_at ff prog X (lview false A) (lview false B) = kara_run ff prog X A B).
  { intros prog. unfold kara_run_at, kara_run. cbn [lview]. destruct (lget A 0); cbn [bind]; auto. destruct (lget B 0); cbn [bind]; auto. now rewrite ksteps_at_const. }
  assert (R2 : ptr_addmul_karatsuba2_at ff X (lview false A) (lview false B) = ptr_addmul_karatsuba2 ff X A B).
  { unfold ptr_addmul_karatsuba2_at, ptr_addmul_karatsuba2. cbn [lview].
    repeat match goal with |- bind ?m _ = bind ?m _ => destruct m; cbn [bind]; [|reflexivity|reflexivity] end; rewrite ?ksteps_at_const; reflexivity. }
  unfold ptr_addmul_karatsuba_at, ptr_addmul_karatsuba. rewrite R2, !R. reflexivity.
Qed.
Lemma addmul_at_eq h pc pa pb C A B : nth_error h pc = Some C -> nth_error h pa = Some A -> nth_error h pb = Some B -> pc <> pa -> pc <> pb ->
  mzd_slice_addmul_karatsuba_at_ h pc pa pb = (C' <- mzd_slice_addmul_karatsuba_ (Some C) A B ;; Ok (upd h pc C')).
Proof.
  intros Ec Ea Eb Na Nb. unfold mzd_slice_addmul_karatsuba_at_, mzd_slice_addmul_karatsuba_. rewrite (lget_stored _ _ _ Ec), (lget_stored _ _ _ Ea), (lget_stored _ _ _ Eb). cbn [bind sl_or_init].
  replace (pc =? pa) with false by lia. replace (pc =? pb) with false by lia. rewrite kara_at_const.
  destruct (ptr_addmul_karatsuba _ _ _ _ _) as [r|].
  - rewrite bind_assoc. destruct r; cbn [bind]; auto. now rewrite (lset_stored _ _ _ _ Ec).
  - unfold addmul_naive_at, mzd_slice_addmul_naive_. cbn [sl_or_init lview].
    destruct (for_ 0 _ _ _) as [[t x]| |]; cbn [bind]; auto. now rewrite (lset_stored _ _ _ _ Ec).
Qed.

(** *** addition *)
Lemma slice_add_at_ok h pc pa pb C A B : nth_error h pc = Some C -> nth_error h pa = Some A -> nth_error h pb = Some B ->
  wf_slice A -> wf_slice B -> wf_slice C -> sfld A = sfld B -> sfld C = sfld A ->
  sl_nrows A = sl_nrows C -> sl_ncols A = sl_ncols C -> sl_nrows B = sl_nrows C -> sl_ncols B = sl_ncols C ->
  wp (mzd_slice_add_at h pc pa pb) (fun h' => exists C', h' = upd h pc C' /\ sbecomes C C' (madd (sentry A) (sentry B))).
Proof.
  intros Ec Ea Eb HA HB HC Ef Ecf H1 H2 H3 H4. pose proof (slice_add_inplace_ok C A B HA HB HC Ef Ecf H1 H2 H3 H4) as V.
  unfold mzd_slice_add_at. rewrite (lget_stored _ _ _ Ec), (lget_stored _ _ _ Ea), (lget_stored _ _ _ Eb). cbn [bind].
  rewrite (proj2 (sl_same_ff_iff A B) Ef), (proj2 (sl_same_ff_iff A C) (eq_sym Ecf)), H1, H2, H3, H4, !Nat.eqb_refl. cbn [andb check bind].
  (* the list of slices evolves as in the value version; slices not yet written are the old ones *)
  assert (S : forall n x, (forall i, i < n -> nth_error x i = nth_error (sl_x C) i) ->
     fordown n 0 (fun i h => C <- lget h pc ;; A <- lget h pa ;; B <- lget h pb ;;
        c <- lget (sl_x C) i ;; a <- lget (sl_x A) i ;; b <- lget (sl_x B) i ;; c' <- mzd_add c a b ;; x <- lset (sl_x C) i c' ;; lset h pc (sl_set_x C x)) (upd h pc (sl_set_x C x)) =
     (x' <- fordown n 0 (fun i c => ci <- lget c i ;; ai <- lget (sl_x A) i ;; bi <- lget (sl_x B) i ;; ci' <- mzd_add ci ai bi ;; lset c i ci') x ;; Ok (upd h pc (sl_set_x C x')))).
  { induction n as [|n IH]; intros x Hx; cbn [fordown bind]; [reflexivity|]. cbn [Nat.add].
    assert (RC : lget (upd h pc (sl_set_x C x)) pc = Ok (sl_set_x C x)) by (apply lget_stored; eapply stored_upd_eq; eauto).
    assert (RO : forall q Z, nth_error h q = Some Z -> exists Z', lget (upd h pc (sl_set_x C x)) q = Ok Z' /\ lget (sl_x Z') n = lget (sl_x Z) n).
    { intros q Z Hq. destruct (Nat.eq_dec pc q) as [->|Hn].
      - exists (sl_set_x C x). split; [exact RC|]. rewrite Ec in Hq. injection Hq as <-. unfold lget. cbn [sl_set_x sl_x]. now rewrite Hx by lia.
      - exists Z. split; [|reflexivity]. apply lget_stored. rewrite (stored_upd_ne h pc q C _ Ec Hn). exact Hq. }
    destruct (RO pa A Ea) as (A' & RA & EA'). destruct (RO pb B Eb) as (B' & RB & EB'). rewrite RC, RA, RB. cbn [bind].
    rewrite EA', EB'. change (sl_x (sl_set_x C x)) with x.
    destruct (lget x n) as [ci| |]; cbn [bind]; auto. destruct (lget (sl_x A) n) as [ai| |]; cbn [bind]; auto. destruct (lget (sl_x B) n) as [bi| |]; cbn [bind]; auto.
    destruct (mzd_add ci ai bi) as [c'| |]; cbn [bind]; auto. 
    assert (UBx : ~ n < length x -> lset x n c' = UB) by (intros Hge; unfold lset; now replace (n <? length x) with false by lia).
    destruct (lt_dec n (length x)) as [En|En]; [|rewrite (UBx En); reflexivity]. rewrite !(lset_ok x) by exact En. cbn [bind].
    rewrite (lset_ok (upd h pc _)) by (rewrite upd_length; exact (stored_lt _ _ _ Ec)). cbn [bind]. rewrite upd_upd.
    change (sl_set_x (sl_set_x C x) (upd x n c')) with (sl_set_x C (upd x n c')). apply IH. intros i Hi.
    rewrite nth_error_upd by lia. replace (n =? i) with false by lia. apply Hx. lia. }
  unfold for_down. rewrite Nat.sub_0_r. assert (E0 : h = upd h pc (sl_set_x C (sl_x C))) by (symmetry; replace (sl_set_x C (sl_x C)) with C by (now destruct C); now apply upd_stored).
  rewrite E0 at 1. rewrite (S (sl_depth A) (sl_x C) (fun _ _ => eq_refl)).
  unfold mzd_slice_add_, ptr_add, for_down in V. rewrite Nat.sub_0_r in V. destruct (fordown _ _ _ _) as [x| |]; cbn [bind wp] in V |- *; try easy.
  exists (sl_set_x C x). split; [reflexivity|exact V].
Qed.

(** *** a product into a cleared operand stays zero *)
Lemma to_all_zero k t X ts : mzd_is_zero t = true -> ptr_add_to_all (Some k) t X ts = Ok X.
Proof.
  intros Hz. unfold ptr_add_to_all. revert X. induction ts as [|u ts IH]; intros X; cbn [fold_left]; [reflexivity|].
  unfold ptr_add_modred at 2. rewrite Hz. cbn [bind]. apply IH.
Qed.
Lemma bmul_zero_l n a b i j : (forall t, t < n -> a i t = false) -> bmul n a b i j = false.
Proof. intros H. unfold bmul. induction n as [|n IH]; cbn [bxsum]; [reflexivity|]. rewrite IH by (intros; apply H; lia). now rewrite H by lia. Qed.
Lemma bmul_zero_r n a b i j : (forall t, t < n -> b t j = false) -> bmul n a b i j = false.
Proof. intros H. unfold bmul. induction n as [|n IH]; cbn [bxsum]; [reflexivity|]. rewrite IH by (intros; apply H; lia). rewrite H by lia. now rewrite andb_false_r. Qed.
Lemma par_zero idx : par idx 0 = false.
Proof. induction idx as [|i r IH]; cbn [par fold_right]; [reflexivity|]. fold (par r 0). now rewrite IH, N.bits_0. Qed.

Definition zl (d m n : nat) (X : list mzd) : Prop := length X = d /\ shape X m n /\ forall b i c, b < d -> i < m -> c < n -> mbit (nth b X dm) i c = false.

Lemma zl_pv d m n X i c : zl d m n X -> i < m -> c < n -> pv X i c = 0%N.
Proof.
  intros (L & _ & Z) Hi Hc. apply N.bits_inj_0. intros q. unfold pv. rewrite <- (N2Nat.id q), testbit_word_of_bits.
  destruct (Nat.ltb_spec (N.to_nat q) (length X)); [|reflexivity]. apply Z; lia.
Qed.

Section Zero.
Variables (k : gf2e) (d m l n : nat) (sa sb : bool) (A0 B0 : list mzd).
Hypothesis Hal : sa || sb = true.
Hypothesis HA : if sa then l = n else shape A0 m l /\ length A0 = d.
Hypothesis HB : if sb then l = m else shape B0 l n /\ length B0 = d.
Lemma view_a X : zl d m n X -> shape (lview sa A0 X) m l /\ length (lview sa A0 X) = d /\ (sa = true -> forall i t, i < m -> t < l -> pv (lview sa A0 X) i t = 0%N).
Proof.
  intros Z. pose proof Z as (L & S & _). clear Hal HB. destruct sa; cbn [lview].
  - rewrite HA. split; [exact S|]. split; [exact L|]. intros _ i t Hi Ht. now apply (zl_pv d m n).
  - destruct HA as [S1 S2]. split; [exact S1|]. split; [exact S2|]. discriminate.
Qed.
Lemma view_b X : zl d m n X -> shape (lview sb B0 X) l n /\ length (lview sb B0 X) = d /\ (sb = true -> forall t c, t < l -> c < n -> pv (lview sb B0 X) t c = 0%N).
Proof.
  intros Z. pose proof Z as (L & S & _). clear Hal HA. destruct sb; cbn [lview].
  - rewrite HB. split; [exact S|]. split; [exact L|]. intros _ i t Hi Ht. now apply (zl_pv d m n).
  - destruct HB as [S1 S2]. split; [exact S1|]. split; [exact S2|]. discriminate.
Qed.
Lemma prod_zero X t0 a b (P Q : N -> bool) : zl d m n X -> okm t0 m n -> okm a m l -> okm b l n -> P 0%N = false -> Q 0%N = false ->
  (forall i t, i < m -> t < l -> mbit a i t = P (pv (lview sa A0 X) i t)) -> (forall t c, t < l -> c < n -> mbit b t c = Q (pv (lview sb B0 X) t c)) ->
  wp (mzd_mul t0 a b) (fun t => okm t m n /\ mzd_is_zero t = true).
Proof.
  intros Z (T1 & T2 & T3) (A1 & A2 & A3) (B1 & B2 & B3) P0 Q0 Va Vb. eapply wp_mono; [apply mul_ok; auto; congruence|]. cbv beta. intros t K.
  pose proof (okm_mgot _ _ _ m n (conj T1 (conj T2 T3)) K) as (O1 & O2 & O3). split; [exact (conj O1 (conj O2 O3))|]. apply is_zero_ok. intros i c Hi Hc. rewrite (mgot_bit _ _ _ i c K) by lia.
  destruct (view_a X Z) as (_ & _ & ZA). destruct (view_b X Z) as (_ & _ & ZB).
  destruct sa eqn:Es.
  - apply bmul_zero_l. intros u Hu. rewrite Va by lia. rewrite ZA by (auto; lia). exact P0.
  - cbn [orb] in Hal. apply bmul_zero_r. intros u Hu. rewrite Vb by lia. rewrite ZB by (auto; lia). exact Q0.
Qed.
Lemma ksteps_at_zero prog st : kok m l n st -> zl d m n (snd st) -> forallb (step_ok d) prog = true ->
  wp (ksteps_at (Some k) (lview sa A0) (lview sb B0) prog st) (fun st' => snd st' = snd st).
Proof.
  revert st. induction prog as [|((ai, bi), ts) r IH]; intros st K Z Hs; cbn [ksteps_at]; [reflexivity|].
  cbn [forallb] in Hs. apply andb_prop in Hs as (Hs1 & Hs2). destruct st as (((t0, t1), t2), X). cbn [snd] in Z |- *. destruct K as (K0 & K1 & K2).
  unfold step_ok in Hs1. rewrite !andb_true_iff, !forallb_forall in Hs1. destruct Hs1 as ((((Na & Nb) & Ha) & Hb) & Hts).
  destruct (view_a X Z) as (SA & LA & ZA). destruct (view_b X Z) as (SB & LB & ZB).
  apply wp_bind. unfold kstep_at. apply wp_bind. eapply wp_mono; [apply (operand_ok t1 _ ai m l SA K1)|].
  { now destruct ai. }
  { intros i Hi. specialize (Ha i Hi). lia. }
  cbv beta. intros (t1', a) (K1' & Oa & Va).
  apply wp_bind. eapply wp_mono; [apply (operand_ok t2 _ bi l n SB K2)|].
  { now destruct bi. }
  { intros i Hi. specialize (Hb i Hi). lia. }
  cbv beta. intros (t2', b) (K2' & Ob & Vb).
  apply wp_bind. eapply wp_mono; [apply (prod_zero X t0 a b (par ai) (par bi) Z K0 Oa Ob (par_zero ai) (par_zero bi) Va Vb)|]. cbv beta. intros t0' (K0' & Hz).
  rewrite to_all_zero by exact Hz. cbn [bind wp].
  eapply wp_mono; [apply (IH (t0', t1', t2', X)); auto; exact (conj K0' (conj K1' K2'))|]. cbv beta. cbn [snd]. auto.
Qed.
Hypothesis d1 : 1 <= d.
Lemma kara_run_at_zero prog X : zl d m n X -> forallb (step_ok d) prog = true -> wp (kara_run_at (Some k) prog X (lview sa A0) (lview sb B0)) (fun X' => X' = X).
Proof.
  intros Z Hs. destruct (view_a X Z) as (SA & LA & _). destruct (view_b X Z) as (SB & LB & _). unfold kara_run_at. rewrite (lget_ok _ 0 dm) by lia. rewrite (lget_ok (lview sb B0 X) 0 dm) by lia. cbn [bind].
  destruct (SA 0 ltac:(lia)) as (_ & -> & ->). destruct (SB 0 ltac:(lia)) as (_ & -> & ->).
  apply wp_bind. eapply wp_mono; [apply ksteps_at_zero; auto|].
  - exact (conj (okm_init _ _) (conj (okm_init _ _) (okm_init _ _))).
  - cbv beta. cbn [snd]. intros (((t0, t1), t2), X') H. cbn [snd wp] in *. exact H.
Qed.
Lemma naive_at_zero X : ff_degree k = d -> zl d m n X -> wp (addmul_naive_at k m n X (lview sa A0) (lview sb B0)) (fun X' => X' = X).
Proof.
  intros Hd Z. destruct (view_a X Z) as (SA & LA & _). destruct (view_b X Z) as (SB & LB & _). unfold addmul_naive_at.
  set (J := fun (_ : nat) (s : mzd * list mzd) => okm (fst s) m n /\ snd s = X).
  apply wp_bind. eapply wp_mono; [apply (wp_for J); [lia|split; [apply okm_init|reflexivity]|]|].
  - intros i s Hi Js. destruct s as (t, X1). eapply wp_mono; [apply (wp_for J); [lia|exact Js|]|]; [|cbv beta; auto].
    intros j s Hj (Js1 & Js2). destruct s as (t', X2). cbn [fst snd] in *. subst X2. rewrite (lget_ok _ i dm) by lia. rewrite (lget_ok (lview sb B0 X) j dm) by lia. cbn [bind].
    apply wp_bind. eapply wp_mono; [apply (prod_zero X t' _ _ (fun v => N.testbit v (N.of_nat i)) (fun v => N.testbit v (N.of_nat j)) Z Js1)|].
    + apply SA. lia.
    + apply SB. lia.
    + apply N.bits_0.
    + apply N.bits_0.
    + intros u v Hu Hv. apply pv_bit. lia.
    + intros u v Hu Hv. apply pv_bit. lia.
    + cbv beta. intros t2 (O & Hz). unfold ptr_add_modred. rewrite Hz. cbn [bind wp]. split; [exact O|reflexivity].
  - intros (t, x) (_ & H). cbn [wp fst snd] in *. exact H.
Qed.
Lemma karatsuba2_at_zero X : d = 2 -> zl d m n X -> wp (ptr_addmul_karatsuba2_at (Some k) X (lview sa A0) (lview sb B0))
  (fun X' => length X' = d /\ forall b, b < d -> mset (nth b X dm) (nth b X' dm) (fun _ _ => false)).
Proof.
  intros Hd Z. destruct (view_a X Z) as (SA & LA & ZA). destruct (view_b X Z) as (SB & LB & ZB). pose proof Z as (LX & SX & HZ). unfold ptr_addmul_karatsuba2_at.
  rewrite (lget_ok (lview sa A0 X) 0 dm), (lget_ok (lview sa A0 X) 1 dm) by lia. rewrite (lget_ok (lview sb B0 X) 0 dm), (lget_ok (lview sb B0 X) 1 dm) by lia. rewrite (lget_ok X 1 dm) by lia. cbn [bind].
  destruct (SA 0 ltac:(lia)) as (WA & EA & EA'). destruct (SB 0 ltac:(lia)) as (WB & EB & EB'). rewrite EA, EA', EB, EB'.
  destruct (SA 1 ltac:(lia)) as (WA1 & EA1 & EA1'). destruct (SB 1 ltac:(lia)) as (WB1 & EB1 & EB1').
  destruct (SX 1 ltac:(lia)) as (WX & EX & EX').
  apply wp_bind. eapply wp_mono; [apply add_ok; auto; apply wf_init|]. cbv beta. intros ta Ka. pose proof (okm_mset _ _ _ _ _ (okm_init _ _) Ka) as Oa. pose proof Oa as (Oa1 & Oa2 & Oa3).
  apply wp_bind. eapply wp_mono; [apply add_ok; auto; apply wf_init|]. cbv beta. intros tb Kb. pose proof (okm_mset _ _ _ _ _ (okm_init _ _) Kb) as Ob. pose proof Ob as (Ob1 & Ob2 & Ob3).
  apply wp_bind. eapply wp_mono; [apply (addmul_clean (nth 1 X dm) ta tb); auto; try congruence; exact (clean_mset _ _ _ Kb (clean_init _ _))|]. cbv beta. intros x1 Kx.
  rewrite lset_ok by lia. cbn [bind].
  assert (HY : forall b, b < d -> mset (nth b X dm) (nth b (upd X 1 x1) dm) (fun _ _ => false)).
  { intros b Hb. rewrite nth_upd by lia. destruct (SX b ltac:(lia)) as (W & E1 & E2). destruct (Nat.eqb_spec 1 b) as [<-|Hn].
    - eapply mset_ext; [exact Kx|]. cbv beta. intros i c Hi Hc. rewrite HZ by lia. rewrite xorb_false_l. rewrite Oa3. clear Hb. destruct sa.
      + apply bmul_zero_l. intros t Ht. rewrite (mset_bit _ _ _ i t Ka) by (cbn; lia). rewrite !pv_bit by lia. rewrite ZA by (auto; lia). now rewrite N.bits_0, N.bits_0.
      + apply bmul_zero_r. intros t Ht. rewrite (mset_bit _ _ _ t c Kb) by (cbn; lia). rewrite !pv_bit by lia. rewrite ZB by (auto; lia). now rewrite N.bits_0, N.bits_0.
    - eapply mset_ext; [now apply mset_refl|]. cbv beta. intros i c Hi Hc. apply HZ; lia. }
  assert (ZY : zl d m n (upd X 1 x1)).
  { split; [rewrite upd_length; exact LX|]. split.
    - intros b Hb. rewrite upd_length in Hb. destruct (SX b Hb) as (W & E1 & E2). destruct (HY b ltac:(lia)) as (W' & E1' & E2' & _). split; [exact W'|split; congruence].
    - intros b i c Hb Hi Hc. destruct (SX b ltac:(lia)) as (W & E1 & E2). rewrite (mset_bit _ _ _ i c (HY b Hb)) by lia. reflexivity. }
  apply wp_bind. eapply wp_mono; [apply ksteps_at_zero; [exact (conj (okm_init _ _) (conj Oa Ob))|exact ZY|rewrite Hd; reflexivity]|].
  cbv beta. cbn [snd]. intros (((t0, t1), t2), X') H. cbn [snd wp] in *. subst X'. split; [rewrite upd_length; exact LX|exact HY].
Qed.
End Zero.

Lemma slice_addmul_at_zero h pc pa pb C A B : nth_error h pc = Some C -> nth_error h pa = Some A -> nth_error h pb = Some B ->
  wf_slice C -> wf_slice A -> wf_slice B -> sfld C = sfld A -> sfld C = sfld B -> sl_ncols A = sl_nrows B -> sl_nrows C = sl_nrows A -> sl_ncols C = sl_ncols B ->
  pc = pa \/ pc = pb -> (forall i j, i < sl_nrows C -> j < sl_ncols C -> sentry C i j = 0%N) ->
  wp (mzd_slice_addmul_karatsuba_at_ h pc pa pb) (fun h' => exists C', h' = upd h pc C' /\ sbecomes C C' mzero).
Proof.
  intros Ec Ea Eb HC HA HB F1 F2 D1 D2 D3 Hal HZ. unfold mzd_slice_addmul_karatsuba_at_. rewrite (lget_stored _ _ _ Ec), (lget_stored _ _ _ Ea), (lget_stored _ _ _ Eb). cbn [bind].
  pose proof HC as (Fc & Dc & Lc & Sc). pose proof HA as (Fa & Da & La & Sa). pose proof HB as (Fb & Db & Lb & Sb).
  pose proof (same_depth C A HC HA F1) as E1. pose proof (same_depth C B HC HB F2) as E2.
  set (d := sl_depth C). assert (Hd : ff_degree (sl_ff A) = d) by (unfold d; lia).
  assert (Z : zl d (sl_nrows C) (sl_ncols C) (sl_x C)).
  { split; [unfold d; lia|]. split.
    - intros b Hb. apply Sc. lia.
    - intros b i c Hb Hi Hc. change (mbit (sx C b) i c = false). rewrite sbit by (auto; lia). rewrite HZ by lia. apply N.bits_0. }
  assert (Kal : (pc =? pa) || (pc =? pb) = true) by (destruct Hal as [->| ->]; rewrite Nat.eqb_refl; rewrite ?orb_true_r; reflexivity).
  assert (KA : if pc =? pa then sl_ncols A = sl_ncols C else shape (sl_x A) (sl_nrows C) (sl_ncols A) /\ length (sl_x A) = d).
  { destruct (Nat.eqb_spec pc pa) as [->|]; [congruence|]. split; [|lia]. intros b Hb. rewrite D2. apply Sa. lia. }
  assert (KB : if pc =? pb then sl_ncols A = sl_nrows C else shape (sl_x B) (sl_ncols A) (sl_ncols C) /\ length (sl_x B) = d).
  { destruct (Nat.eqb_spec pc pb) as [->|]; [congruence|]. split; [|lia]. intros b Hb. rewrite D1, D3. apply Sb. lia. }
  assert (Fin : forall r : res (list mzd), wp r (fun X' => length X' = d /\ forall b, b < d -> mset (nth b (sl_x C) dm) (nth b X' dm) (fun _ _ => false)) ->
     wp (x <- r ;; lset h pc (sl_set_x C x)) (fun h' => exists C', h' = upd h pc C' /\ sbecomes C C' mzero)).
  { intros r Hr. apply wp_bind. eapply wp_mono; [exact Hr|]. cbv beta. intros X' (LX & MX). rewrite (lset_stored _ _ _ _ Ec). cbn [wp]. eexists. split; [reflexivity|].
    assert (W : wf_slice (sl_set_x C X')).
    { split; [exact Fc|]. split; [exact Dc|]. cbn [sl_set_x sl_x sl_depth sl_nrows sl_ncols]. split; [unfold d in LX; lia|]. intros b Hb. destruct (MX b Hb) as (M1 & M2 & M3 & _). destruct (Sc b Hb) as (_ & S2 & S3).
      unfold sx in *. cbn [sl_set_x sl_x]. split; [exact M1|]. split; [etransitivity; [exact M2|exact S2]|etransitivity; [exact M3|exact S3]]. }
    split; [exact W|]. split; [reflexivity|]. split; [reflexivity|]. split; [reflexivity|]. split.
    - intros i c Hi Hc. apply N.bits_inj_0. intros q. unfold sentry. rewrite <- (N2Nat.id q), testbit_word_of_bits. cbn [sl_set_x sl_depth].
      destruct (Nat.ltb_spec (N.to_nat q) (sl_depth C)) as [Hq|]; [|reflexivity]. unfold sx. cbn [sl_set_x sl_x]. destruct (Sc _ Hq) as (_ & S2 & S3). unfold sx in S2, S3. change (Mzd 0 0 []) with dm in *.
      rewrite (mset_bit _ _ _ i c (MX _ Hq)); [reflexivity| |]; [now rewrite S2|now rewrite S3].
    - intros b i q Hb Hi Hq. destruct (MX b Hb) as (_ & _ & _ & _ & P). destruct (Sc b Hb) as (_ & S2 & S3). unfold sx in *. cbn [sl_set_x sl_x]. change (Mzd 0 0 []) with dm in *. apply P; [now rewrite S2|now rewrite S3]. }
  assert (Same : forall r : res (list mzd), wp r (fun X' => X' = sl_x C) -> wp r (fun X' => length X' = d /\ forall b, b < d -> mset (nth b (sl_x C) dm) (nth b X' dm) (fun _ _ => false))).
  { intros r Hr. eapply wp_mono; [exact Hr|]. cbv beta. intros X' ->. pose proof Z as (Z1 & Z2 & Z3). split; [exact Z1|]. intros b Hb. destruct (Z2 b ltac:(lia)) as (Y1 & Y2 & Y3).
    eapply mset_ext; [now apply mset_refl|]. cbv beta. intros i c Hi Hc. apply Z3; [exact Hb|now rewrite <- Y2|now rewrite <- Y3]. }
  rewrite Hd. assert (Hd1 : 1 <= d <= 16) by (clear - Fa Hd; destruct Fa as (Hr & _); lia).
  assert (Nv : wp (addmul_naive_at (sl_ff A) (sl_nrows A) (sl_ncols B) (sl_x C) (lview (pc =? pa) (sl_x A)) (lview (pc =? pb) (sl_x B))) (fun X' => X' = sl_x C)).
  { rewrite <- D2, <- D3. apply (naive_at_zero (sl_ff A) d (sl_nrows C) (sl_ncols A) (sl_ncols C)); auto; lia. }
  assert (Kr : forall prog, forallb (step_ok d) prog = true -> wp (kara_run_at (Some (sl_ff A)) prog (sl_x C) (lview (pc =? pa) (sl_x A)) (lview (pc =? pb) (sl_x B))) (fun X' => X' = sl_x C)).
  { intros prog Hp. apply (kara_run_at_zero (sl_ff A) d (sl_nrows C) (sl_ncols A) (sl_ncols C)); auto; lia. }
  assert (K2 : d = 2 -> wp (ptr_addmul_karatsuba2_at (Some (sl_ff A)) (sl_x C) (lview (pc =? pa) (sl_x A)) (lview (pc =? pb) (sl_x B)))
     (fun X' => length X' = d /\ forall b, b < d -> mset (nth b (sl_x C) dm) (nth b X' dm) (fun _ _ => false))).
  { intros E. apply (karatsuba2_at_zero (sl_ff A) d (sl_nrows C) (sl_ncols A) (sl_ncols C)); auto; lia. }
  clearbody d. clear Z KA KB HZ E1 E2 Hd HC HA HB. destruct d as [|[|[|[|[|[|[|[|[|[|[|[|[|[|[|[|[|d]]]]]]]]]]]]]]]]]; try lia; cbn [ptr_addmul_karatsuba_at];
    apply Fin; first [now apply K2 | apply Same; first [exact Nv | apply Kr; reflexivity]].
Qed.
