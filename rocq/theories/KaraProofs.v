(** Every Karatsuba program computes the polynomial product, hence the product over the field (C37). *)
From Coq Require Import NArith ZArith Lia List Bool Arith Btauto.
From Coq Require Import ZifyBool ZifyNat ZifyN.
From Verif Require Import Base Spec PolyFacts MatFacts Gf2xModel Gf2xProofs Gf2eModel Gf2eProofs MzdModel MzedModel MzedSpec LaneFacts MzedProofs MzedOps MzedOps2 SliceModel SliceSpec MzdFacts SliceProofs SliceOps SliceMul KaratsubaTable KaraModel.
Import ListNotations.
Local Open Scope nat_scope.

Definition okm (T : mzd) (m n : nat) : Prop := wf_mzd T /\ mzd_nrows T = m /\ mzd_ncols T = n.
Lemma okm_mset T T' g m n : okm T m n -> mset T T' g -> okm T' m n.
Proof. intros (W & E1 & E2) (W' & E1' & E2' & _). split; [exact W'|split; congruence]. Qed.
Lemma okm_mgot T T' g m n : okm T m n -> mgot T T' g -> okm T' m n.
Proof. intros (W & E1 & E2) (W' & E1' & E2' & _). split; [exact W'|split; congruence]. Qed.
Lemma okm_init m n : okm (mzd_init m n) m n.
Proof. split; [apply wf_init|now split]. Qed.

Definition par (idx : list nat) (a : N) : bool := fold_right (fun i s => xorb (N.testbit a (N.of_nat i)) s) false idx.
Definition tsum (ts : list nat) : N := fold_right (fun t s => N.lxor (2 ^ N.of_nat t) s) 0%N ts.
Definition polyval (prog : list (list nat * list nat * list nat)) (a b : N) : N :=
  fold_right (fun '(ai, bi, ts) s => N.lxor (if par ai a && par bi b then tsum ts else 0%N) s) 0%N prog.

Lemma lgets_ok A idx : (forall i, In i idx -> i < length A) -> lgets A idx = Ok (map (fun i => nth i A dm) idx).
Proof.
  induction idx as [|i r IH]; intros H; cbn [lgets map]; [easy|]. rewrite (lget_ok A i dm) by (apply H; now left). cbn [bind].
  rewrite IH by (intros; apply H; now right). reflexivity.
Qed.
Lemma fold_add_ok A m l r : shape A m l -> (forall i, In i r -> i < length A) -> forall T g, okm T m l -> (forall i t, i < m -> t < l -> mbit T i t = g i t) ->
  wp (fold_left (fun (acc : res mzd) B => T <- acc ;; mzd_add T T B) (map (fun i => nth i A dm) r) (Ok T))
     (fun T' => okm T' m l /\ forall i t, i < m -> t < l -> mbit T' i t = xorb (g i t) (par r (pv A i t))).
Proof.
  intros HA. induction r as [|j r IH]; intros Hr T g HT Hg; cbn [fold_left map].
  - cbn [wp par fold_right]. split; [exact HT|]. intros. rewrite Hg by easy. now rewrite xorb_false_r.
  - assert (Hj : j < length A) by (apply Hr; now left). destruct (HA j Hj) as (W & E1 & E2). pose proof HT as (T1 & T2 & T3).
    pose proof (add_ok T T (nth j A dm) T1 eq_refl eq_refl ltac:(congruence) ltac:(congruence)) as K. unfold bind at 2.
    destruct (mzd_add T T (nth j A dm)) as [T'| |]; cbn [wp] in K; try easy.
    eapply wp_mono; [apply (IH ltac:(intros; apply Hr; now right) T' (fun i t => xorb (g i t) (N.testbit (pv A i t) (N.of_nat j))))|].
    + eapply okm_mset; eauto.
    + intros i t Hi Ht. rewrite (mset_bit _ _ _ i t K) by lia. rewrite Hg by easy. now rewrite pv_bit.
    + cbv beta. intros U (U1 & U2). split; [exact U1|]. intros i t Hi Ht. rewrite U2 by easy. cbn [par fold_right]. unfold par. btauto.
Qed.
Lemma operand_ok T A idx m l : shape A m l -> okm T m l -> idx <> [] -> (forall i, In i idx -> i < length A) ->
  wp (operand T A idx) (fun '(T', a) => okm T' m l /\ okm a m l /\ forall i t, i < m -> t < l -> mbit a i t = par idx (pv A i t)).
Proof.
  intros HA HT Hne Hi. unfold operand. rewrite lgets_ok by easy. cbn [bind].
  destruct idx as [|i [|j r]]; [easy| |].
  - cbn [map wp]. split; [exact HT|]. specialize (HA i ltac:(apply Hi; now left)). split; [exact HA|]. intros. cbn [par fold_right]. rewrite xorb_false_r.
    apply pv_bit. apply Hi; now left.
  - cbn [map mzd_sum]. apply wp_bind. destruct (HA i ltac:(apply Hi; now left)) as (W & E1 & E2). destruct (HA j ltac:(apply Hi; right; now left)) as (W' & E1' & E2').
    pose proof HT as (T1 & T2 & T3).
    apply wp_bind. eapply wp_mono; [apply (add_ok T (nth i A dm) (nth j A dm)); auto; congruence|]. cbv beta. intros T' K.
    eapply wp_mono; [apply (fold_add_ok A m l r HA ltac:(intros; apply Hi; right; now right) T' (fun a t => xorb (N.testbit (pv A a t) (N.of_nat i)) (N.testbit (pv A a t) (N.of_nat j))))|].
    + eapply okm_mset; eauto.
    + intros a t Ha Ht. rewrite (mset_bit _ _ _ a t K) by lia. rewrite !pv_bit; auto; apply Hi; [right; now left|now left].
    + cbv beta. intros U (U1 & U2). cbn [wp]. split; [exact U1|split; [exact U1|]]. intros a t Ha Ht. rewrite U2 by easy. cbn [par fold_right]. unfold par. btauto.
Qed.

Definition step_ok (d : nat) (s : list nat * list nat * list nat) : bool :=
  let '(ai, bi, ts) := s in
  negb (match ai with [] => true | _ => false end) && negb (match bi with [] => true | _ => false end) &&
  forallb (fun i => i <? d) ai && forallb (fun i => i <? d) bi && forallb (fun t => t <? 2 * d - 1) ts.
Definition kcheck (d : nat) (prog : list (list nat * list nat * list nat)) : bool :=
  forallb (step_ok d) prog &&
  forallb (fun i => forallb (fun j => N.eqb (polyval prog (2 ^ N.of_nat i) (2 ^ N.of_nat j)) (2 ^ N.of_nat (i + j))) (seq 0 d)) (seq 0 d).

(** ** bilinearity *)
Lemma xsum_testbit n g b : N.testbit (xsum n g) b = bxsum n (fun i => N.testbit (g i) b).
Proof. induction n as [|n IH]; cbn [xsum bxsum]; [apply N.bits_0|]. now rewrite N.lxor_spec, IH. Qed.
Lemma par_sum d idx a : (forall i, In i idx -> i < d) -> par idx a = bxsum d (fun i => N.testbit a (N.of_nat i) && par idx (2 ^ N.of_nat i)).
Proof.
  induction idx as [|j r IH]; intros H; cbn [par fold_right].
  - symmetry. transitivity (bxsum d (fun _ => false)); [apply bxsum_ext; intros; apply andb_false_r|]. clear. induction d as [|d IH]; [easy|]. cbn [bxsum]. now rewrite IH.
  - fold (par r a). rewrite IH by (intros; apply H; now right).
    transitivity (xorb (bxsum d (fun i => N.testbit a (N.of_nat i) && (i =? j))) (bxsum d (fun i => N.testbit a (N.of_nat i) && par r (2 ^ N.of_nat i)))).
    + f_equal. assert (Hj : j < d) by (apply H; now left). clear - Hj. revert Hj. induction d as [|d IH]; intros Hj; [lia|]. cbn [bxsum].
      destruct (Nat.eq_dec j d) as [->|Hn].
      * rewrite Nat.eqb_refl, andb_true_r. replace (bxsum d _) with false; [now destruct (N.testbit a (N.of_nat d))|]. symmetry.
        transitivity (bxsum d (fun _ => false)); [apply bxsum_ext; intros; replace (_ =? d) with false by lia; apply andb_false_r|]. clear. induction d as [|d IH]; [easy|]. cbn [bxsum]. now rewrite IH.
      * rewrite <- IH by lia. replace (d =? j) with false by lia. rewrite andb_false_r. now rewrite xorb_false_r.
    + clear. induction d as [|d IH]; [easy|]. cbn [bxsum]. rewrite <- IH. change (fold_right _ false r) with (par r (2 ^ N.of_nat d)).
      rewrite N.pow2_bits_eqb. replace (N.of_nat d =? N.of_nat j)%N with (d =? j) by lia. btauto.
Qed.
Lemma if_and_sum d e p q v : (if bxsum d p && bxsum e q then v else 0%N) = xsum d (fun i => xsum e (fun j => if p i && q j then v else 0%N)).
Proof.
  transitivity (if bxsum d p then (if bxsum e q then v else 0%N) else 0%N); [now destruct (bxsum d p), (bxsum e q)|].
  rewrite if_bxsum. apply xsum_ext. intros i Hi. destruct (p i); cbn [andb].
  - apply if_bxsum.
  - symmetry. transitivity (xsum e (fun _ => 0%N)); [now apply xsum_ext|]. clear. induction e as [|e IH]; [easy|]. cbn [xsum]. now rewrite IH.
Qed.
Lemma polyval_sum d prog a b : forallb (step_ok d) prog = true ->
  polyval prog a b = xsum d (fun i => xsum d (fun j => if N.testbit a (N.of_nat i) && N.testbit b (N.of_nat j) then polyval prog (2 ^ N.of_nat i) (2 ^ N.of_nat j) else 0%N)).
Proof.
  induction prog as [|((ai, bi), ts) r IH]; intros H; cbn [forallb] in H; cbn [polyval fold_right].
  - symmetry. transitivity (xsum d (fun _ => 0%N)).
    + apply xsum_ext. intros i _. transitivity (xsum d (fun _ => 0%N)); [apply xsum_ext; intros; now destruct (_ && _)|]. clear. induction d as [|e IH]; [easy|]. cbn [xsum]. now rewrite IH.
    + clear. induction d as [|e IH]; [easy|]. cbn [xsum]. now rewrite IH.
  - apply andb_prop in H as (H1 & H2). fold (polyval r a b). rewrite IH by easy.
    unfold step_ok in H1. rewrite !andb_true_iff, !forallb_forall in H1. destruct H1 as ((((_ & _) & Ha) & Hb) & _).
    rewrite (par_sum d ai a) by (intros i Hi; specialize (Ha i Hi); lia). rewrite (par_sum d bi b) by (intros i Hi; specialize (Hb i Hi); lia).
    rewrite if_and_sum. rewrite <- xsum_lxor. apply xsum_ext. intros i Hi. rewrite <- xsum_lxor. apply xsum_ext. intros j Hj.
    fold (polyval r (2 ^ N.of_nat i) (2 ^ N.of_nat j)).
    destruct (N.testbit a (N.of_nat i)), (N.testbit b (N.of_nat j)); cbn [andb]; auto. now rewrite andb_false_r.
Qed.
Lemma kcheck_mul d prog a b : kcheck d prog = true -> (a < 2 ^ N.of_nat d)%N -> (b < 2 ^ N.of_nat d)%N -> polyval prog a b = pmul a b.
Proof.
  intros H Ha Hb. apply andb_prop in H as (H1 & H2). rewrite (polyval_sum d) by easy. rewrite (pmul_bits d a b Ha Hb).
  apply xsum_ext. intros i Hi. apply xsum_ext. intros j Hj. rewrite forallb_forall in H2. specialize (H2 i ltac:(apply in_seq; lia)).
  rewrite forallb_forall in H2. specialize (H2 j ltac:(apply in_seq; lia)). apply N.eqb_eq in H2. now rewrite H2.
Qed.

(** ** running a program *)
Section Run.
Variables (ff : option gf2e) (d m l n : nat) (A B : list mzd).
Hypothesis HA : shape A m l.
Hypothesis HB : shape B l n.
Hypothesis LA : length A = d.
Hypothesis LB : length B = d.

Definition kok (st : kst) : Prop := let '(t0, t1, t2, _) := st in okm t0 m n /\ okm t1 m l /\ okm t2 l n.

Lemma kstep_ok ai bi ts st : kok st -> let X := snd st in ffok ff X -> shape X m n -> (forall t, t < 2 * d - 1 -> tok ff X t) -> step_ok d (ai, bi, ts) = true ->
  wp (kstep ff A B (ai, bi, ts) st) (fun st' => kok st' /\
    lbec X (snd st') (fun i c => N.lxor (pv X i c) (redp ff (xsum l (fun t => if par ai (pv A i t) && par bi (pv B t c) then tsum ts else 0%N))))).
Proof.
  destruct st as (((t0, t1), t2), X). cbn [snd]. intros (K0 & K1 & K2) Hff HX Ht Hs. unfold step_ok in Hs. rewrite !andb_true_iff, !forallb_forall in Hs.
  destruct Hs as ((((Na & Nb) & Ha) & Hb) & Hts).
  unfold kstep. apply wp_bind. eapply wp_mono; [apply (operand_ok t1 A ai m l); auto|].
  { now destruct ai. }
  { intros i Hi. specialize (Ha i Hi). lia. }
  cbv beta. intros (t1', a) (K1' & (A1 & A2 & A3) & Va).
  apply wp_bind. eapply wp_mono; [apply (operand_ok t2 B bi l n); auto|].
  { now destruct bi. }
  { intros i Hi. specialize (Hb i Hi). lia. }
  cbv beta. intros (t2', b) (K2' & (B1 & B2 & B3) & Vb). pose proof K0 as (Z1 & Z2 & Z3).
  apply wp_bind. eapply wp_mono; [apply (mul_ok t0 a b); auto; congruence|]. cbv beta. intros t0' K.
  pose proof (okm_mgot _ _ _ _ _ K0 K) as K0'. pose proof K0' as (Y1 & Y2 & Y3).
  apply wp_bind. eapply wp_mono; [apply (to_all_ok ff t0' ts X m n); auto|].
  { intros t H. apply Ht. specialize (Hts t H). lia. }
  cbv beta. intros X' HX'. cbn [wp snd]. split; [exact (conj K0' (conj K1' K2'))|].
  eapply lbec_ext; [exact HX|exact HX'|]. cbv beta. intros i c Hi Hc. f_equal. rewrite (mgot_bit _ _ _ i c K) by lia. rewrite A3.
  fold (tsum ts). unfold bmul. rewrite if_bxsum. rewrite (redp_xsum ff X) by easy. apply xsum_ext. intros t Ht'.
  rewrite Va, Vb by lia. destruct (_ && _); [easy|]. symmetry. apply redp_0.
Qed.
Lemma ksteps_ok prog st : kok st -> let X := snd st in ffok ff X -> shape X m n -> (forall t, t < 2 * d - 1 -> tok ff X t) ->
  (forall i c, (redp ff (xsum l (fun t => polyval prog (pv A i t) (pv B t c))) < 2 ^ N.of_nat (length X))%N -> True) ->
  forallb (step_ok d) prog = true ->
  wp (ksteps ff A B prog st) (fun st' => kok st' /\
    lbec X (snd st') (fun i c => N.lxor (pv X i c) (redp ff (xsum l (fun t => polyval prog (pv A i t) (pv B t c)))))).
Proof.
  revert st. induction prog as [|((ai, bi), ts) r IH]; intros st K X Hff HX Ht _ Hs; cbn [ksteps].
  - cbn [wp]. split; [exact K|]. eapply lbec_ext; [exact HX|eapply lbec_refl; eauto|]. intros i c _ _. cbn [polyval fold_right].
    replace (xsum l (fun _ => 0%N)) with 0%N; [now rewrite redp_0, N.lxor_0_r|]. clear. induction l as [|e IH]; [easy|]. cbn [xsum]. now rewrite <- IH.
  - cbn [forallb] in Hs. apply andb_prop in Hs as (Hs1 & Hs2).
    assert (Hlt : forall v, (forall t, N.testbit v (N.of_nat t) = true -> t < 2 * d - 1) -> (redp ff v < 2 ^ N.of_nat (length X))%N).
    { intros v Hv. destruct ff as [k|]; cbn [redp ffok tok] in *.
      - destruct Hff as (Hk & L). rewrite L. destruct Hk as (He & Hd & _). rewrite <- Hd. apply pmod_lt. intros E. rewrite E in Hd. cbn in Hd. lia.
      - destruct (N.eq_dec v 0) as [->|Hn]; [apply N.neq_0_lt_0, N.pow_nonzero; lia|]. apply N.log2_lt_pow2; [lia|].
        pose proof (N.bit_log2 v Hn) as Hb. specialize (Hv (N.to_nat (N.log2 v))). rewrite N2Nat.id in Hv. specialize (Ht _ (Hv Hb)). lia. }
    apply wp_bind. eapply wp_mono; [apply (kstep_ok ai bi ts st); auto|]. cbv beta. intros st' (K' & HX'). fold X in HX'.
    pose proof (lbec_shape _ _ _ _ _ HX HX') as SX'. assert (LX' : length (snd st') = length X) by (now destruct HX').
    eapply wp_mono; [apply (IH st'); auto|].
    + unfold ffok in *. now rewrite LX'.
    + unfold tok in *. now rewrite LX'.
    + cbv beta. intros st'' (K'' & HX''). split; [exact K''|]. eapply lbec_step; [exact HX|exact HX'|exact HX''|]. cbv beta. intros i c Hi Hc.
      rewrite (lbec_pv X (snd st') _ m n i c HX HX' Hi Hc).
      2:{ apply lxor_lt; [apply pv_lt|]. apply Hlt. intros t Htb. rewrite xsum_testbit in Htb.
          destruct (le_lt_dec (2 * d - 1) t) as [Hge|]; [|easy]. exfalso.
          replace (bxsum l _) with false in Htb; [easy|]. symmetry.
          transitivity (bxsum l (fun _ => false)); [|clear; induction l as [|e IHe]; [easy|]; cbn [bxsum]; now rewrite IHe].
          apply bxsum_ext. intros s _. destruct (_ && _); [|apply N.bits_0]. unfold step_ok in Hs1. rewrite !andb_true_iff, !forallb_forall in Hs1.
          destruct Hs1 as (_ & Hts). clear - Hts Hge. induction ts as [|u ts IHt]; cbn [tsum fold_right]; [apply N.bits_0|].
          rewrite N.lxor_spec. fold (tsum ts). rewrite IHt by (intros; apply Hts; now right).
          rewrite N.pow2_bits_eqb. specialize (Hts u ltac:(now left)). replace (N.of_nat u =? N.of_nat t)%N with false by lia. reflexivity. }
      rewrite N.lxor_assoc. f_equal. rewrite <- (redp_lxor ff X) by easy. f_equal. rewrite <- xsum_lxor. reflexivity.
Qed.
Hypothesis d1 : 1 <= d.
Theorem kara_run_ok prog X : ffok ff X -> shape X m n -> (forall t, t < 2 * d - 1 -> tok ff X t) -> kcheck d prog = true ->
  wp (kara_run ff prog X A B) (fun X' => lbec X X' (fun i c => N.lxor (pv X i c) (redp ff (xsum l (fun t => pmul (pv A i t) (pv B t c)))))).
Proof.
  intros Hff HX Ht Hc. unfold kara_run. rewrite (lget_ok A 0 dm), (lget_ok B 0 dm) by lia. cbn [bind].
  destruct (HA 0 ltac:(lia)) as (_ & -> & ->). destruct (HB 0 ltac:(lia)) as (_ & -> & ->).
  apply wp_bind. eapply wp_mono; [apply ksteps_ok; auto|].
  - exact (conj (okm_init _ _) (conj (okm_init _ _) (okm_init _ _))).
  - now apply andb_prop in Hc.
  - cbv beta. cbn [snd]. intros (((t0, t1), t2), X') (_ & H). cbn [wp snd] in *. eapply lbec_ext; [exact HX|exact H|]. cbv beta. intros i c _ _. do 2 f_equal.
    apply xsum_ext. intros t _. apply (kcheck_mul d); auto; [rewrite <- LA|rewrite <- LB]; apply pv_lt.
Qed.
Theorem karatsuba2_ok X : d = 2 -> ffok ff X -> shape X m n -> (forall t, t < 2 * d - 1 -> tok ff X t) -> 2 <= length X ->
  wp (ptr_addmul_karatsuba2 ff X A B) (fun X' => lbec X X' (fun i c => N.lxor (pv X i c) (redp ff (xsum l (fun t => pmul (pv A i t) (pv B t c)))))).
Proof.
  intros Hd Hff HX Ht HL. unfold ptr_addmul_karatsuba2. rewrite (lget_ok A 0 dm), (lget_ok A 1 dm), (lget_ok B 0 dm), (lget_ok B 1 dm), (lget_ok X 1 dm) by lia. cbn [bind].
  destruct (HA 0 ltac:(lia)) as (WA & EA & EA'). destruct (HB 0 ltac:(lia)) as (WB & EB & EB'). rewrite EA, EA', EB, EB'.
  destruct (HA 1 ltac:(lia)) as (WA1 & EA1 & EA1'). destruct (HB 1 ltac:(lia)) as (WB1 & EB1 & EB1').
  destruct (HX 1 ltac:(lia)) as (WX & EX & EX').
  apply wp_bind. eapply wp_mono; [apply add_ok; auto; apply wf_init|]. cbv beta. intros ta Ka. pose proof (okm_mset _ _ _ _ _ (okm_init _ _) Ka) as (Oa1 & Oa2 & Oa3).
  apply wp_bind. eapply wp_mono; [apply add_ok; auto; apply wf_init|]. cbv beta. intros tb Kb. pose proof (okm_mset _ _ _ _ _ (okm_init _ _) Kb) as (Ob1 & Ob2 & Ob3).
  apply wp_bind. eapply wp_mono; [apply (addmul_clean (nth 1 X dm) ta tb); auto; try congruence; exact (clean_mset _ _ _ Kb (clean_init _ _))|]. cbv beta. intros x1 Kx.
  rewrite lset_ok by lia. cbn [bind].
  assert (HY : lbec X (upd X 1 x1) (fun i c => N.lxor (pv X i c) (xsum l (fun t => if par [0;1] (pv A i t) && par [0;1] (pv B t c) then 2%N else 0%N)))).
  { split; [apply upd_length|]. intros b Hb. rewrite nth_upd by lia. destruct (HX b Hb) as (W & E1 & E2). destruct (Nat.eqb_spec 1 b) as [<-|Hn].
    - eapply mset_ext; [exact Kx|]. cbv beta. intros i c Hi Hc. rewrite N.lxor_spec, <- pv_bit by lia. f_equal. unfold bmul. rewrite Oa3, xsum_testbit.
      apply bxsum_ext. intros t Ht'. rewrite (mset_bit _ _ _ i t Ka) by (cbn; lia). rewrite (mset_bit _ _ _ t c Kb) by (cbn; lia).
      rewrite !pv_bit by lia. cbn [par fold_right]. rewrite !xorb_false_r. now destruct (_ && _).
    - eapply mset_ext; [now apply mset_refl|]. cbv beta. intros i c Hi Hc. rewrite N.lxor_spec, <- pv_bit by lia. rewrite xsum_testbit.
      replace (bxsum l _) with false; [now rewrite xorb_false_r|]. symmetry. transitivity (bxsum l (fun _ => false)); [|clear; induction l as [|e IHe]; [easy|]; cbn [bxsum]; now rewrite IHe].
      apply bxsum_ext. intros s _. destruct (_ && _); [|apply N.bits_0]. change 2%N with (2 ^ 1)%N. rewrite N.pow2_bits_eqb. lia. }
  set (Y := upd X 1 x1) in *. pose proof (lbec_shape _ _ _ _ _ HX HY) as SY. assert (LY : length Y = length X) by (now destruct HY).
  apply wp_bind. eapply wp_mono; [apply ksteps_ok; auto; cbn [snd]|].
  - exact (conj (okm_init _ _) (conj (conj Oa1 (conj Oa2 Oa3)) (conj Ob1 (conj Ob2 Ob3)))).
  - unfold ffok in *. now rewrite LY.
  - unfold tok in *. now rewrite LY.
  - rewrite Hd. reflexivity.
  - cbv beta. cbn [snd]. intros (((t0, t1), t2), X') (_ & H). cbn [wp snd] in *. eapply lbec_step; [exact HX|exact HY|exact H|]. cbv beta. intros i c Hi Hc.
    rewrite (lbec_pv X Y _ m n i c HX HY Hi Hc).
    2:{ apply lxor_lt; [apply pv_lt|]. apply xsum_lt. intros t _. apply N.lt_le_trans with (2 ^ 2)%N; [destruct (_ && _); cbn; lia|apply N.pow_le_mono_r; lia]. }
    rewrite N.lxor_assoc. f_equal.
    assert (E2 : redp ff 2 = 2%N).
    { destruct ff as [k|]; [|easy]. cbn [redp]. destruct Hff as (Hk & L). destruct Hk as (He & Hdd & _). apply pmod_small; [intros E0; rewrite E0 in Hdd; cbn in Hdd; lia|].
      apply N.lt_le_trans with (2 ^ 2)%N; [cbn; lia|]. rewrite Hdd. apply N.pow_le_mono_r; lia. }
    transitivity (N.lxor (redp ff (xsum l (fun t => if par [0;1] (pv A i t) && par [0;1] (pv B t c) then 2%N else 0%N))) (redp ff (xsum l (fun t => polyval kara2 (pv A i t) (pv B t c))))).
    + f_equal. rewrite (redp_xsum ff X) by easy. apply xsum_ext. intros t _. destruct (_ && _); [easy|]. symmetry. apply redp_0.
    + rewrite <- (redp_lxor ff X) by easy. f_equal. rewrite <- xsum_lxor. apply xsum_ext. intros t _.
      rewrite <- (kcheck_mul 2 (([0;1],[0;1],[1]) :: kara2)); [reflexivity|now vm_compute| |]; [rewrite <- Hd, <- LA|rewrite <- Hd, <- LB]; apply pv_lt.
Qed.
End Run.

Lemma ptr_karatsuba_ok ff d m l n A B X r : shape A m l -> shape B l n -> length A = d -> length B = d ->
  ffok ff X -> shape X m n -> (forall t, t < 2 * d - 1 -> tok ff X t) -> (d = 2 -> 2 <= length X) ->
  ptr_addmul_karatsuba ff d X A B = Some r ->
  wp r (fun X' => lbec X X' (fun i c => N.lxor (pv X i c) (redp ff (xsum l (fun t => pmul (pv A i t) (pv B t c)))))).
Proof.
  intros HA HB LA LB Hff HX Ht HL E.
  assert (R : forall prog, kcheck d prog = true -> 1 <= d -> r = kara_run ff prog X A B ->
    wp r (fun X' => lbec X X' (fun i c => N.lxor (pv X i c) (redp ff (xsum l (fun t => pmul (pv A i t) (pv B t c))))))).
  { intros prog Hc Hd ->. exact (kara_run_ok ff d m l n A B HA HB LA LB Hd prog X Hff HX Ht Hc). }
  destruct (Nat.eq_dec d 2) as [E2|N2].
  { rewrite E2 in E. cbn [ptr_addmul_karatsuba] in E. injection E as <-. eapply karatsuba2_ok; eauto. lia. }
  assert (Hd : 3 <= d <= 16) by (do 17 (destruct d as [|d]; [first [discriminate E|lia]|]); discriminate E).
  clear HA HB LA LB Hff HX Ht HL.
  destruct (Nat.eq_dec d 3) as [->|]; [injection E as <-; apply (R kara3); [now vm_compute|lia|reflexivity]|].
  destruct (Nat.eq_dec d 4) as [->|]; [injection E as <-; apply (R kara4); [now vm_compute|lia|reflexivity]|].
  destruct (Nat.eq_dec d 5) as [->|]; [injection E as <-; apply (R kara5); [now vm_compute|lia|reflexivity]|].
  destruct (Nat.eq_dec d 6) as [->|]; [injection E as <-; apply (R kara6); [now vm_compute|lia|reflexivity]|].
  destruct (Nat.eq_dec d 7) as [->|]; [injection E as <-; apply (R kara7); [now vm_compute|lia|reflexivity]|].
  destruct (Nat.eq_dec d 8) as [->|]; [injection E as <-; apply (R kara8); [now vm_compute|lia|reflexivity]|].
  destruct (Nat.eq_dec d 9) as [->|]; [injection E as <-; apply (R kara9); [now vm_compute|lia|reflexivity]|].
  destruct (Nat.eq_dec d 10) as [->|]; [injection E as <-; apply (R kara10); [now vm_compute|lia|reflexivity]|].
  destruct (Nat.eq_dec d 11) as [->|]; [injection E as <-; apply (R kara11); [now vm_compute|lia|reflexivity]|].
  destruct (Nat.eq_dec d 12) as [->|]; [injection E as <-; apply (R kara12); [now vm_compute|lia|reflexivity]|].
  destruct (Nat.eq_dec d 13) as [->|]; [injection E as <-; apply (R kara13); [now vm_compute|lia|reflexivity]|].
  destruct (Nat.eq_dec d 14) as [->|]; [injection E as <-; apply (R kara14); [now vm_compute|lia|reflexivity]|].
  destruct (Nat.eq_dec d 15) as [->|]; [injection E as <-; apply (R kara15); [now vm_compute|lia|reflexivity]|].
  destruct (Nat.eq_dec d 16) as [->|]; [injection E as <-; apply (R kara16); [now vm_compute|lia|reflexivity]|]. lia.
Qed.

Theorem slice_addmul_karatsuba_ok C A B : wf_slice A -> wf_slice B -> sfld A = sfld B -> sl_ncols A = sl_nrows B -> starget C (sfld A) (sl_nrows A) (sl_ncols B) ->
  wp (mzd_slice_addmul_karatsuba_ C A B) (fun C' => sholds C' (sfld A) (sl_nrows A) (sl_ncols B)
     (madd (match C with Some C => sentry C | None => mzero end) (mmul (sfld A) (sl_ncols A) (sentry A) (sentry B))) /\
     match C with Some C => sbecomes C C' (madd (sentry C) (mmul (sfld A) (sl_ncols A) (sentry A) (sentry B))) | None => True end).
Proof.
  intros HA HB Ef En HC. unfold mzd_slice_addmul_karatsuba_. assert (Hk : gf2e_wf (sl_ff A)) by apply HA. assert (f0 := wfs_f0 A HA).
  pose proof (or_init_ok C _ _ _ _ Hk eq_refl HC) as K. set (D := sl_or_init _ _ _ _) in *. pose proof K as (D1 & D2 & D3 & D4 & D5).
  pose proof (same_depth A B HA HB Ef) as Ed. pose proof (same_depth D A D1 HA D2) as Ed'. assert (De : sl_depth A = ff_degree (sl_ff A)) by apply HA.
  pose proof HA as (_ & _ & LA & _). pose proof HB as (_ & _ & LB & _). pose proof D1 as (_ & _ & LD & _).
  assert (Hdeg := wfs_depth A HA).
  assert (BD : wp (match ptr_addmul_karatsuba (Some (sl_ff A)) (ff_degree (sl_ff A)) (sl_x D) (sl_x A) (sl_x B) with
    | Some r => x <- r;; Ok (sl_set_x D x) | None => mzd_slice_addmul_naive_ (Some D) A B end)
    (fun C' => sbecomes D C' (madd (match C with Some C => sentry C | None => mzero end) (mmul (sfld A) (sl_ncols A) (sentry A) (sentry B))))).
  { destruct (ptr_addmul_karatsuba _ _ _ _ _) as [r|] eqn:Er.
    - apply wp_bind. eapply wp_mono; [eapply (ptr_karatsuba_ok (Some (sl_ff A)) (ff_degree (sl_ff A)) (sl_nrows A) (sl_ncols A) (sl_ncols B) (sl_x A) (sl_x B) (sl_x D)); eauto|].
      + now apply shape_slice.
      + rewrite En. now apply shape_slice.
      + lia.
      + lia.
      + split; [exact Hk|lia].
      + rewrite <- D3, <- D4. now apply shape_slice.
      + lia.
      + cbv beta. intros X' H. cbn [wp]. apply lbec_slice; auto.
        * eapply (lbec_ext (sl_x D) X' _ _ (sl_nrows D) (sl_ncols D)); [now apply shape_slice|exact H|]. cbv beta. intros i c Hi Hc. unfold madd. rewrite pv_sentry by easy. rewrite D5 by lia.
          f_equal. unfold mmul. pose proof (redp_xsum (Some (sl_ff A)) (sl_x D) (sl_ncols A) (fun t => pmul (pv (sl_x A) i t) (pv (sl_x B) t c))) as R. cbn [redp ffok] in R |- *.
          rewrite R by (split; [exact Hk|lia]). apply xsum_ext. intros t Htt. rewrite !pv_sentry by easy. reflexivity.
        * intros r' c Hr Hc. rewrite D2. apply inF_lxor.
          -- rewrite <- D5 by lia. rewrite <- D2. now apply sentry_in.
          -- apply (inM_mmul _ (sl_nrows A) (sl_ncols A) (sl_ncols B)); auto; lia.
    - eapply wp_mono; [apply (slice_addmul_naive_ok (Some D)); auto; exact (conj D1 (conj D2 (conj D3 D4)))|]. cbv beta. intros C' (_ & H). eapply sb_ext; [exact H|].
      intros i c Hi Hc. unfold madd. now rewrite D5 by lia. }
  eapply wp_mono; [exact BD|]. cbv beta. intros C' HC'. split; [exact (sh_becomes _ _ _ _ _ _ _ K HC')|]. destruct C; [exact HC'|exact I].
Qed.
