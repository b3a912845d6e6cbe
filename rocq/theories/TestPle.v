(** The tests of the PLE decomposition: proofs. *)
From Coq Require Import NArith ZArith Lia List Bool Arith.
From Coq Require Import ZifyBool ZifyNat ZifyN.
From Verif Require Import HistSpec HistModel HistProofs.
From Verif Require Import Base Spec LinSpec PolyFacts MatFacts Gf2xModel Gf2eModel Gf2eProofs MzdModel MzedModel MzedSpec LaneFacts MzedProofs MzedOps MzedOps2 FrameProofs.
From Verif Require Import EchFacts EchNaive PropNj PropLaws PermModel PermProofs PleModel PleSpec PleFacts PleRank PropPleSame.
From Verif Require Import TestModel TestCanary TestProofs TestTrsm TestPleModel.
Import ListNotations.
Local Open Scope nat_scope.

(** *** ranks *)
Lemma rank_row_equiv f m n A B r : (1 <= pdeg f)%N -> inM f m n A -> row_equiv f m n A B -> is_rank f m n A r -> is_rank f m n B r.
Proof.
  intros Hd IA (T & T' & (IT & IT' & I1 & I2) & EB) (Q & P & L & IQ & IP & IL & EA & EQ & Ind).
  assert (f0 : f <> 0%N) by (intros E0; rewrite E0 in Hd; vm_compute in Hd; congruence).
  exists Q, (mmul f m T P), (mmul f m L T'). split; [exact IQ|]. split; [now apply inM_mmul|]. split; [now apply inM_mmul|]. split; [|split; [|exact Ind]].
  - intros i j Hi Hj. rewrite EB by auto. rewrite (mmul_assoc f m m r n T P Q f0 i j Hi Hj). apply (mmul_ext f m m n); auto. now intros ? ? ? ?.
  - intros i j Hi Hj. rewrite EQ by auto. rewrite (mmul_assoc f r m m n L T' B f0 i j Hi Hj).
    apply (mmul_ext f r m n); auto; [now intros ? ? ? ?|]. intros a b Ha Hb.
    transitivity (mmul f m T' (mmul f m T A) a b); [|apply (mmul_ext f m m n); auto; [now intros ? ? ? ?|]; intros a' b' Ha' Hb'; symmetry; now apply EB].
    rewrite <- (mmul_assoc f m m m n T' T A f0 a b Ha Hb). transitivity (mmul f m mone A a b); [symmetry; now apply (mmul_1_l f m n)|].
    apply (mmul_ext f m m n); auto; [|now intros ? ? ? ?]. intros a' b' Ha' Hb'. symmetry. now apply I2.
Qed.
Lemma tr_lt a b n i : a < n -> b < n -> i < n -> tr a b i < n.
Proof. unfold tr. destruct (i =? a), (i =? b); auto. Qed.
Lemma tr_tr a b i : tr a b (tr a b i) = i.
Proof. unfold tr. destruct (Nat.eqb_spec i a) as [->|]; [|destruct (Nat.eqb_spec i b) as [->|]]; repeat match goal with |- context [?x =? ?y] => destruct (Nat.eqb_spec x y) end; congruence. Qed.
Lemma rank_cols f m n A a b r : a < n -> b < n -> is_rank f m n A r -> is_rank f m n (fun i j => A i (tr a b j)) r.
Proof.
  intros Ha Hb (Q & P & L & IQ & IP & IL & EA & EQ & Ind). exists (fun i j => Q i (tr a b j)), P, L.
  split; [intros i j Hi Hj; apply IQ; auto using tr_lt|]. split; [exact IP|]. split; [exact IL|]. split; [|split].
  - intros i j Hi Hj. rewrite EA by auto using tr_lt. reflexivity.
  - intros i j Hi Hj. rewrite EQ by auto using tr_lt. reflexivity.
  - intros v Hv H k Hk. apply (Ind v Hv); auto. intros j Hj. rewrite <- (H (tr a b j)) by auto using tr_lt. cbv beta. now rewrite tr_tr.
Qed.
Lemma rank_rows f m n A a b r : (1 <= pdeg f)%N -> inM f m n A -> a < m -> b < m -> is_rank f m n A r -> is_rank f m n (fun i j => A (tr a b i) j) r.
Proof. intros Hd IA Ha Hb. apply rank_row_equiv; auto. now apply (row_equiv_swap f Hd). Qed.

(** *** loops that write elements *)
Lemma b_write A0 A F i j v : becomes A0 A F -> i < mz_nrows A0 -> j < mz_ncols A0 -> inF (fld A0) v ->
  wp (mzed_write_elem A i j v) (fun A' => becomes A0 A' (fun r c => if (r =? i) && (c =? j) then v else F r c)).
Proof.
  intros B Hi Hj Hv. pose proof (becomes_ff _ _ _ B) as E1. pose proof (becomes_nr _ _ _ B). pose proof (becomes_nc _ _ _ B).
  eapply wp_mono; [apply mzed_write_elem_ok; [exact (becomes_wf _ _ _ B)|lia|lia|now rewrite E1]|]. cbv beta. intros A' B'. eapply becomes_step; [exact B|exact B'|].
  cbv beta. intros r c Hr Hc. destruct (_ && _); [reflexivity|]. now apply (becomes_entry _ _ _ _ _ B).
Qed.
Lemma b_zeros A0 A F i lo hi : becomes A0 A F -> i < mz_nrows A0 -> hi <= mz_ncols A0 ->
  wp (for_ lo hi (fun j U => mzed_write_elem U i j 0) A) (fun A' => becomes A0 A' (fun r c => if (r =? i) && (lo <=? c) && (c <? hi) then 0%N else F r c)).
Proof.
  intros B Hi Hh. destruct (Nat.le_gt_cases lo hi) as [Hl|Hl].
  - apply (wp_for (fun k U' => becomes A0 U' (fun r c => if (r =? i) && (lo <=? c) && (c <? k) then 0%N else F r c))); [exact Hl| |].
    + eapply becomes_ext; [exact B|]. intros r c Hr Hc. replace ((r =? i) && (lo <=? c) && (c <? lo)) with false by lia. reflexivity.
    + intros j U' Hj B'. eapply wp_mono; [apply (b_write _ _ _ i j 0 B'); auto; [lia|apply inF_0]|]. cbv beta. intros V BV. eapply becomes_ext; [exact BV|].
      cbv beta. intros r c Hr Hc. destruct ((r =? i) && (c =? j)) eqn:C1.
      * replace ((r =? i) && (lo <=? c) && (c <? S j)) with true by lia. reflexivity.
      * replace ((r =? i) && (lo <=? c) && (c <? S j)) with ((r =? i) && (lo <=? c) && (c <? j)) by lia. reflexivity.
  - unfold for_. replace (hi - lo) with 0 by lia. cbn [forloop wp]. eapply becomes_ext; [exact B|]. intros r c Hr Hc. replace ((r =? i) && (lo <=? c) && (c <? hi)) with false by lia. reflexivity.
Qed.
Lemma inF_1 A : wf_mzed A -> inF (fld A) 1.
Proof. intros W. apply inF1. apply (wf_deg1 A W). Qed.
Lemma holds_becomes f m n A F A' G : holds A f m n F -> becomes A A' G -> holds A' f m n G.
Proof.
  intros (W & Ef & Er & Ec & _) B. pose proof (becomes_ff _ _ _ B). pose proof (becomes_nr _ _ _ B). pose proof (becomes_nc _ _ _ B).
  split; [exact (becomes_wf _ _ _ B)|]. repeat (split; [congruence|]). intros i c Hi Hc. apply (becomes_entry _ _ _ i c B); lia.
Qed.
Lemma holds_ext f m n A F G : holds A f m n F -> meq m n F G -> holds A f m n G.
Proof. intros (W & Ef & Er & Ec & Ee) E. split; [exact W|]. repeat (split; [assumption|]). intros i c Hi Hc. rewrite Ee by auto. now apply E. Qed.
Lemma holds_inM f m n A F : holds A f m n F -> inM f m n F.
Proof. intros (W & Ef & Er & Ec & Ee) i j Hi Hj. rewrite <- Ee by auto. rewrite <- Ef. apply wf_entry; auto; lia. Qed.

(** *** the factors drawn *)
Lemma rank_L_ok ff R m r : gf2e_wf ff -> 2 <= ff_degree ff -> r <= m ->
  exists L G, rank_L ff R m r = Ok L /\ holds L (ff_minpoly ff) m m G /\ (forall i, i < r -> G i i = 1%N) /\ (forall i k, i < r -> i < k < m -> G i k = 0%N).
Proof.
  intros Hf Hd Hr. set (f := ff_minpoly ff).
  enough (W : wp (rank_L ff R m r) (fun L => exists G, holds L f m m G /\ (forall i, i < r -> G i i = 1%N) /\ (forall i k, i < r -> i < k < m -> G i k = 0%N))).
  { apply wp_iff in W. destruct W as (L & E & G & H). exists L, G. now split. }
  unfold rank_L. apply wp_bind. eapply wp_mono; [exact (mzed_init_ok ff m m Hf Hd)|]. cbv beta. intros L0 (F0 & K0 & _). fold f in K0. pose proof K0 as (W0 & _ & r0 & c0 & _).
  apply wp_bind. eapply wp_mono; [exact (mzed_randomize_ok (rr_L R) L0 W0)|]. cbv beta. intros L1 B1.
  apply wp_bind. eapply wp_mono.
  - apply (wp_for (fun k L => exists G, becomes L0 L G /\ (forall i, i < k -> G i i = 1%N) /\ (forall i j, i < k -> i < j < m -> G i j = 0%N))); [lia| |].
    + eexists. split; [exact B1|]. split; intros; lia.
    + intros i L Hi (G & B & H1 & H2). pose proof (becomes_nc _ _ _ B) as En.
      apply wp_bind. eapply wp_mono; [apply (b_zeros L0 L G i (i + 1) (mz_ncols L) B); lia|]. cbv beta. intros L2 B2.
      eapply wp_mono; [apply (b_write L0 L2 _ i i 1 B2); [lia|lia|now apply inF_1]|]. cbv beta. intros L3 B3. eexists. split; [exact B3|]. cbv beta. split.
      * intros j Hj. destruct (Nat.eqb_spec j i) as [->|]; cbn [andb]; [reflexivity|]. apply H1. lia.
      * intros j k Hj Hk. destruct (Nat.eqb_spec j i) as [->|]; cbn [andb].
        -- replace (k =? i) with false by lia. replace ((i + 1 <=? k) && (k <? mz_ncols L)) with true by lia. reflexivity.
        -- apply H2; lia.
  - cbv beta. intros L (G & B & H1 & H2). pose proof (becomes_nr _ _ _ B) as Er. eapply wp_mono.
    + apply (wp_for (fun k L => exists G, becomes L0 L G /\ (forall i, i < r -> G i i = 1%N) /\ (forall i j, i < r -> i < j < m -> G i j = 0%N))); [lia|eauto|].
      intros i L' Hi (G' & B' & G1 & G2). pose proof (becomes_nc _ _ _ B') as En.
      eapply wp_mono; [apply (b_zeros L0 L' G' i (r + 1) (mz_ncols L') B'); lia|]. cbv beta. intros L2 B2. eexists. split; [exact B2|]. cbv beta. split.
      * intros j Hj. replace (j =? i) with false by lia. cbn [andb]. now apply G1.
      * intros j k Hj Hk. replace (j =? i) with false by lia. cbn [andb]. now apply G2.
    + cbv beta. intros L' (G' & B' & G1 & G2). exists G'. split; [eapply holds_becomes; eauto|]. now split.
Qed.
Lemma rank_U_ok ff R m n r : gf2e_wf ff -> 2 <= ff_degree ff -> r <= m -> r <= n ->
  exists U G, rank_U ff R m n r = Ok U /\ holds U (ff_minpoly ff) m n G /\ (forall i, i < r -> G i i = 1%N) /\ (forall i j, i < r -> j < i -> G i j = 0%N) /\
    (forall i j, r <= i < m -> j < n -> G i j = 0%N).
Proof.
  intros Hf Hd Hr Hrn. set (f := ff_minpoly ff).
  enough (W : wp (rank_U ff R m n r) (fun U => exists G, holds U f m n G /\ (forall i, i < r -> G i i = 1%N) /\ (forall i j, i < r -> j < i -> G i j = 0%N) /\
    (forall i j, r <= i < m -> j < n -> G i j = 0%N))).
  { apply wp_iff in W. destruct W as (U & E & G & H). exists U, G. now split. }
  unfold rank_U. apply wp_bind. eapply wp_mono; [exact (mzed_init_ok ff m n Hf Hd)|]. cbv beta. intros U0 (F0 & K0 & _). fold f in K0. pose proof K0 as (W0 & _ & r0 & c0 & z0).
  pose proof (wf_good _ W0) as Hw. pose proof (per_pos _ Hw) as Pp.
  assert (Al : 0 mod per (mz_w U0) = 0) by (apply Nat.mod_0_l; lia).
  pose proof (mzed_window_ok U0 0 0 r (mz_ncols U0) W0 ltac:(lia) ltac:(lia) Al) as HW.
  destruct (mzed_window U0 0 0 r (mz_ncols U0)) as [Wi| |] eqn:EW; cbn [wp] in HW; try contradiction. cbn [bind]. destruct HW as (w1 & w2 & w3 & w4 & w5 & _).
  apply wp_bind. eapply wp_mono; [exact (mzed_randomize_ok (rr_U R) Wi w5)|]. cbv beta. intros W2 BW.
  pose proof (mzed_unwindow_ok U0 0 0 r (mz_ncols U0) Wi W2 _ W0 ltac:(lia) ltac:(lia) Al EW BW) as B. set (U1 := mzed_unwindow U0 0 0 W2) in *. clearbody U1.
  eapply wp_mono.
  - apply (wp_for (fun k U => exists G, becomes U0 U G /\ (forall i, i < k -> G i i = 1%N) /\ (forall i j, i < k -> j < i -> G i j = 0%N) /\ (forall i j, r <= i < m -> j < n -> G i j = 0%N))); [lia| |].
    + eexists. split; [exact B|]. cbv beta. split; [intros; lia|]. split; [intros; lia|]. intros i j Hi Hj. replace ((0 <=? i) && (i <? r)) with false by lia. cbn [andb]. now apply z0.
    + intros i U Hi (G & BU & H1 & H2 & H3).
      apply wp_bind. eapply wp_mono; [apply (b_write U0 U G i i 1 BU); [lia|lia|now apply inF_1]|]. cbv beta. intros U2 B2.
      eapply wp_mono; [apply (b_zeros U0 U2 _ i 0 i B2); lia|]. cbv beta. intros U3 B3. eexists. split; [exact B3|]. cbv beta. split; [|split].
      * intros j Hj. destruct (Nat.eqb_spec j i) as [->|]; cbn [andb]; [replace (i <? i) with false by lia; rewrite andb_false_r; reflexivity|]. apply H1. lia.
      * intros j k Hj Hk. destruct (Nat.eqb_spec j i) as [->|]; cbn [andb]; [replace (k <? i) with true by lia; reflexivity|]. apply H2; lia.
      * intros j k Hj Hk. replace (j =? i) with false by lia. cbn [andb]. now apply H3.
  - cbv beta. intros U (G & BU & H). exists G. split; [eapply holds_becomes; eauto|]. exact H.
Qed.

(** the product of the factors has rank r *)
Lemma rank_LU f m n r L U : irreducible f -> (1 <= pdeg f)%N -> r <= m -> r <= n -> inM f m m L -> inM f m n U ->
  (forall i, i < r -> L i i = 1%N) -> (forall i k, i < r -> i < k < m -> L i k = 0%N) ->
  (forall i, i < r -> U i i = 1%N) -> (forall i j, i < r -> j < i -> U i j = 0%N) -> (forall i j, r <= i < m -> j < n -> U i j = 0%N) ->
  is_rank f m n (mmul f m L U) r.
Proof.
  intros Hirr Hd Hr Hn IL IU L1 L0 U1 U0 Uz.
  assert (f0 : f <> 0%N) by (intros E0; rewrite E0 in Hd; vm_compute in Hd; congruence).
  set (X := fun i j => if (j <=? i) && (j <? r) then L i j else if i <? r then U i j else 0%N).
  apply (ple_rank f Hirr Hd m n _ X (fun i => i) (fun i => i) r).
  - now apply inM_mmul.
  - intros i j Hi Hj. unfold X. destruct ((j <=? i) && (j <? r)) eqn:C; [apply IL; lia|]. destruct (i <? r); [now apply IU|apply inF_0].
  - split; [exact Hr|]. split; [exact Hn|]. split; [intros i Hi; lia|]. split; [intros i Hi; lia|]. split; [reflexivity|]. split; [auto|]. split; [|split; [|split]].
    + intros i Hi. unfold X. replace ((i <=? i) && (i <? r)) with true by lia. rewrite L1 by auto. discriminate.
    + intros k j Hk Hj. lia.
    + intros k j Hk Hj. unfold X. replace ((j <=? k) && (j <? r)) with false by lia. replace (k <? r) with false by lia. reflexivity.
    + intros i j Hi Hj. cbv beta. rewrite (swaps_id (fun i => i) 0 m i) by (intros; lia). cbn [swaps].
      replace m with (r + (m - r)) at 1 by lia. rewrite mmul_split. rewrite (mmul_0_r f (m - r)), N.lxor_0_r by (intros k Hk; apply Uz; lia).
      apply (mmul_ext f m r n); auto.
      * intros a k Ha Hk. unfold ple_L, X. destruct (Nat.leb_spec k a) as [Hka|Hka].
        -- replace (k <? r) with true by lia. reflexivity.
        -- apply L0; lia.
      * intros k c Hk Hc. unfold ple_E, X. destruct (Nat.ltb_spec c k) as [|]; [now apply U0|]. destruct (Nat.eqb_spec c k) as [->|]; [now apply U1|].
        replace (c <=? k) with false by lia. cbn [andb]. replace (k <? r) with true by lia. reflexivity.
Qed.

Section Tests.
Variables (f : N) (cf : config).
Hypothesis CF : config_ok f cf.
Lemma f_facts : irreducible f /\ (1 <= pdeg f)%N /\ f <> 0%N.
Proof.
  pose proof CF as (F1 & F2 & F3 & F4 & _). assert (fd : (1 <= pdeg f)%N). { destruct F1 as (_ & D & _). rewrite F2 in D. lia. }
  split; [exact F4|]. split; [exact fd|]. intros E0. rewrite E0 in fd. vm_compute in fd. congruence.
Qed.
Lemma mul_none m l n L U F G : 0 < n -> holds L f m l F -> holds U f l n G -> exists A, p_mul cf Default None L U = Ok A /\ holds A f m n (mmul f l F G).
Proof.
  intros Hn KL KU. destruct (p_mul_ok f cf CF Default None L U (tab m l F) (tab l n G)) as (A & H & E & K & Q); [exact Logic.I|now apply holds_tab|now apply holds_tab|reflexivity|exact Hn|].
  cbn [a_m a_n tab] in K, Q. exists A. split; [exact E|]. eapply holds_ext; [exact K|]. intros i j Hi Hj. rewrite Q by auto.
  apply (mmul_ext f m l n); auto; intros a b Ha Hb; now apply val_tab.
Qed.
Theorem random_rank_ok R m n r : 0 < n -> r <= m -> r <= n ->
  exists A F, random_mzed_t_rank cf R m n r = Ok A /\ drawn f m n A F /\ is_rank f m n F r.
Proof.
  intros Hn Hr Hrn. destruct f_facts as (Hirr & fd & f0). pose proof CF as (F1 & F2 & F3 & _). unfold random_mzed_t_rank.
  destruct (rank_U_ok (cf_ff cf) R m n r F1 F3 Hr Hrn) as (U & G & EU & KU & U1 & U2 & U3). rewrite EU. cbn [bind]. rewrite F2 in KU.
  destruct (rank_L_ok (cf_ff cf) R m r F1 F3 Hr) as (L & F & EL & KL & L1 & L2). rewrite EL. cbn [bind]. rewrite F2 in KL.
  destruct (mul_none m m n L U F G Hn KL KU) as (A & EA & KA). rewrite EA. cbn [bind].
  pose proof (rank_LU f m n r F G Hirr fd Hr Hrn (holds_inM _ _ _ _ _ KL) (holds_inM _ _ _ _ _ KU) L1 L2 U1 U2 U3) as RA.
  enough (W : wp (A <- for_ 0 (mz_nrows A) (fun i A => mzed_row_swap A i (rr_row R i mod mz_nrows A)) A ;; for_ 0 (mz_ncols A) (fun i A => mzed_col_swap A i (rr_col R i mod mz_ncols A)) A)
    (fun A' => exists H, holds A' f m n H /\ is_rank f m n H r)).
  { apply wp_bind_inv in W. apply wp_iff in W. destruct W as (A1 & E1 & W). rewrite E1. cbn [bind]. apply wp_iff in W. destruct W as (A2 & E2 & H & KH & RH). rewrite E2. cbn [bind].
    destruct (drawn_canary f m n A2 H KH Hn) as (A3 & E3 & D3 & _). exists A3, H. auto. }
  apply wp_bind. eapply wp_mono.
  - apply (wp_for (fun k A' => exists H, holds A' f m n H /\ is_rank f m n H r)); [lia|eauto|].
    intros i A' Hi (H & KH & RH). pose proof KA as (_ & _ & a1 & _). pose proof KH as (W' & Ef & Er & Ec & Ee). rewrite Er. assert (Lt : rr_row R i mod m < m) by (apply Nat.mod_upper_bound; lia).
    eapply wp_mono; [apply mzed_row_swap_ok; auto; lia|]. cbv beta. intros A'' B. set (b := rr_row R i mod m) in *.
    exists (fun a c => H (tr i b a) c). split; [|apply rank_rows; auto; [eapply holds_inM; eauto|lia]].
    eapply holds_ext; [eapply holds_becomes; eauto|]. intros a c Ha Hc. unfold tr. destruct (a =? i); [apply Ee; lia|]. destruct (a =? b); apply Ee; lia.
  - cbv beta. intros A1 (H1 & K1 & R1). pose proof K1 as (_ & _ & _ & c1 & _).
    apply (wp_for (fun k A' => exists H, holds A' f m n H /\ is_rank f m n H r)); [lia|eauto|].
    intros i A' Hi (H & KH & RH). pose proof KH as (W' & Ef & Er & Ec & Ee). rewrite Ec. assert (Lt : rr_col R i mod n < n) by (apply Nat.mod_upper_bound; lia).
    eapply wp_mono; [apply mzed_col_swap_ok; auto; lia|]. cbv beta. intros A'' B. set (b := rr_col R i mod n) in *.
    exists (fun a c => H a (tr i b c)). split; [|apply rank_cols; auto; lia].
    eapply holds_ext; [eapply holds_becomes; eauto|]. intros a c Ha Hc. unfold tr. destruct (c =? i); [apply Ee; lia|]. destruct (c =? b); apply Ee; lia.
Qed.

(** *** taking the factors out of the packed matrix *)
Lemma unpack_L_ok m n LE X L r F : holds LE f m n X -> holds L f m m F -> r <= m -> r <= n ->
  wp (unpack_L LE L r) (fun L' => becomes L L' (fun i k => if (k <? r) && (k <=? i) then X i k else F i k)).
Proof.
  intros KX KL Hr Hn. pose proof KX as (WX & Xf & Xr & Xc & Xe). pose proof KL as (WL & Lf & Lr & Lc & Le). unfold unpack_L.
  apply (wp_for (fun t L' => becomes L L' (fun i k => if (k <? t) && (k <=? i) then X i k else F i k))); [lia| |].
  - eapply becomes_ext; [now apply becomes_refl|]. intros i k Hi Hk. cbv beta. replace ((k <? 0) && (k <=? i)) with false by lia. apply Le; lia.
  - intros j L1 Hj B1. rewrite Xr.
    eapply wp_mono; [apply (wp_for (fun t L' => becomes L L' (fun i k => if ((k <? j) && (k <=? i)) || ((k =? j) && (j <=? i) && (i <? t)) then X i k else F i k))); [lia| |]|].
    + eapply becomes_ext; [exact B1|]. intros i k Hi Hk. cbv beta. replace ((k =? j) && (j <=? i) && (i <? j)) with false by lia. now rewrite orb_false_r.
    + intros i L2 Hi B2. rewrite mzed_read_elem_ok by (auto; lia). cbn [bind]. rewrite Xe by lia.
      eapply wp_mono; [apply (b_write L L2 _ i j _ B2); [lia|lia|]|].
      { rewrite Lf. apply (holds_inM f m n LE X KX); lia. }
      cbv beta. intros L3 B3. eapply becomes_ext; [exact B3|]. cbv beta. intros a k Ha Hk. destruct ((a =? i) && (k =? j)) eqn:C1.
      * assert (a = i) by lia. assert (k = j) by lia. subst. replace ((j =? j) && (j <=? i) && (i <? S i)) with true by lia. now rewrite orb_true_r.
      * replace ((k =? j) && (j <=? a) && (a <? S i)) with ((k =? j) && (j <=? a) && (a <? i)) by lia. reflexivity.
    + cbv beta. intros L3 B3. eapply becomes_ext; [exact B3|]. cbv beta. intros i k Hi Hk.
      replace ((k <? j) && (k <=? i) || (k =? j) && (j <=? i) && (i <? m)) with ((k <? S j) && (k <=? i)); [reflexivity|].
      apply Bool.eq_iff_eq_true. lia.
Qed.
Lemma unpack_E_ok m n LE X Q E r F : holds LE f m n X -> holds E f m n F -> r <= m -> length Q = n -> (forall i, i < r -> at_ Q i < n) -> r <= n ->
  wp (unpack_E LE Q E r) (fun E' => becomes E E' (fun k j => if k <? r then (if j <? at_ Q k then F k j else if j =? at_ Q k then 1%N else X k j) else F k j)).
Proof.
  intros KX KE Hr LQ HQ Hn. pose proof KX as (WX & Xf & Xr & Xc & Xe). pose proof KE as (WE & Ef & Er & Ec & Ee). unfold unpack_E.
  apply (wp_for (fun t E' => becomes E E' (fun k j => if k <? t then (if j <? at_ Q k then F k j else if j =? at_ Q k then 1%N else X k j) else F k j))); [lia| |].
  - eapply becomes_ext; [now apply becomes_refl|]. intros i k Hi Hk. cbv beta. replace (i <? 0) with false by lia. apply Ee; lia.
  - intros i E1 Hi B1. rewrite (lget_nth Q i 0) by lia. cbn [bind]. fold (at_ Q i). pose proof (HQ i ltac:(lia)) as Hq. set (q := at_ Q i) in *.
    apply wp_bind. eapply wp_mono; [apply (b_write E E1 _ i q 1 B1); [lia|lia|now apply inF_1]|]. cbv beta. intros E2 B2. rewrite Xc.
    eapply wp_mono; [apply (wp_for (fun t E' => becomes E E' (fun k j => if (k =? i) && (j <? t) then (if j <? q then F k j else if j =? q then 1%N else X k j) else
        if k <? i then (if j <? at_ Q k then F k j else if j =? at_ Q k then 1%N else X k j) else F k j))); [lia| |]|].
    + eapply becomes_ext; [exact B2|]. intros a k Ha Hk. cbv beta. destruct (Nat.eqb_spec a i) as [->|]; cbn [andb]; [|reflexivity].
      replace (i <? i) with false by lia. destruct (k =? q) eqn:C1; destruct (k <? q + 1) eqn:C2; destruct (k <? q) eqn:C3; try lia; reflexivity.
    + intros j E3 Hj B3. rewrite mzed_read_elem_ok by (auto; lia). cbn [bind]. rewrite Xe by lia.
      eapply wp_mono; [apply (b_write E E3 _ i j _ B3); [lia|lia|]|].
      { rewrite Ef. apply (holds_inM f m n LE X KX); lia. }
      cbv beta. intros E4 B4. eapply becomes_ext; [exact B4|]. cbv beta. intros a k Ha Hk. destruct (Nat.eqb_spec a i) as [->|]; cbn [andb]; [|reflexivity].
      destruct (Nat.eqb_spec k j) as [->|].
      * replace (j <? S j) with true by lia. replace (j <? q) with false by lia. replace (j =? q) with false by lia. reflexivity.
      * replace (k <? S j) with (k <? j) by lia. reflexivity.
    + cbv beta. intros E3 B3. eapply becomes_ext; [exact B3|]. cbv beta. intros a k Ha Hk. destruct (Nat.eqb_spec a i) as [->|]; cbn [andb].
      * replace (k <? n) with true by lia. replace (i <? S i) with true by lia. reflexivity.
      * replace (a <? S i) with (a <? i) by lia. reflexivity.
Qed.
Lemma self_cmp A : wf_mzed A -> chk_eq (c_cmp (mzed_cmp A A)) 0 = 0.
Proof. intros W. apply chk_cmp. now apply mzed_cmp_ok. Qed.
Lemma ple_choice ch : ch = Naive \/ ch = NewtonJohn \/ ch = Default -> exists alg, ple_alg alg /\ forall A, p_ple cf ch A = alg A (seq 0 (mz_nrows A)) (seq 0 (mz_ncols A)).
Proof.
  intros [->|[->| ->]]; eexists; (split; [constructor|]); intros A; reflexivity.
Qed.
Lemma init_canary m n : 0 < n -> exists A A', mzed_init (cf_ff cf) m n = Ok A /\ mzed_set_canary A = Ok A' /\ drawn f m n A' mzero.
Proof.
  intros Hn. pose proof CF as (F1 & F2 & F3 & _). destruct (proj1 (wp_iff _ _) (mzed_init_ok (cf_ff cf) m n F1 F3)) as (A & E & _ & K & _). rewrite F2 in K.
  destruct (drawn_canary f m n A _ K Hn) as (A' & E' & D & _). exists A, A'. split; [exact E|]. split; [exact E'|]. exact D.
Qed.
Theorem test_ple_passes R m n r : 0 < m -> 0 < n -> r <= m -> r <= n -> test_mzed_ple cf R m n r = Ok 0.
Proof.
  intros Hm Hn Hr Hrn. destruct f_facts as (Hirr & fd & f0). unfold test_mzed_ple.
  destruct (random_rank_ok R m n r Hn Hr Hrn) as (A & F & EA & DA & RA). rewrite EA. cbn [bind].
  destruct (copy_ok _ _ _ _ _ (proj1 DA)) as (A1 & E1 & K1). destruct (drawn_canary _ _ _ _ _ K1 Hn) as (C & EC & DC & _).
  repeat (rewrite E1; cbn [bind]). repeat (rewrite EC; cbn [bind]).
  destruct (ple_choice Naive) as (p0 & G0 & X0); [auto|]. destruct (ple_choice NewtonJohn) as (p1 & G1 & X1); [auto|]. destruct (ple_choice Default) as (p2 & G2 & X2); [auto|].
  pose proof (proj1 DC) as (WC & Cf & Cr & Cc & Ce). assert (HirrC : irreducible (fld C)) by congruence.
  assert (l1 : length (seq 0 (mz_nrows C)) = mz_nrows C) by apply seq_length. assert (l2 : length (seq 0 (mz_ncols C)) = mz_ncols C) by apply seq_length.
  destruct (alg_ok p0 C _ _ G0 HirrC WC l1 l2) as ([[[B0 P0] Q0] r0] & Y0 & Z0).
  destruct (C72_same_decomposition p0 p1 G0 G1 C _ _ _ _ HirrC WC l1 l2 l1 l2) as (V0 & V1 & P & Q & Q' & s & T0 & T1 & <- & _ & Hple & _). rewrite Y0 in T0. injection T0 as <- <- <- <-.
  destruct (C72_same_decomposition p0 p2 G0 G2 C _ _ _ _ HirrC WC l1 l2 l1 l2) as (V0 & V2 & P & Q & Q2 & s & T0 & T2 & <- & _ & _ & _). rewrite Y0 in T0. injection T0 as <- <- <- <-.
  repeat (rewrite EC; cbn [bind]). rewrite (X0 C), Y0. cbn [bind].
  destruct Z0 as (BB & LP & LQ & _ & _). pose proof (drawn_becomes _ _ _ _ _ _ _ DC BB) as DB.
  assert (AL : forall A m n F, drawn f m n A F -> 0 < n -> alive_all [A] = Ok 0) by (intros; apply (alive_all_ok f); repeat constructor; eauto).
  rewrite (AL _ _ _ _ DB Hn). cbn [bind]. repeat (rewrite EC; cbn [bind]). rewrite (X1 C), T1. cbn [bind]. rewrite (AL _ _ _ _ DB Hn). cbn [bind].
  repeat (rewrite EC; cbn [bind]). rewrite (X2 C), T2. cbn [bind]. rewrite (AL _ _ _ _ DB Hn). cbn [bind].
  rewrite Cf, Cr, Cc in Hple. pose proof (becomes_wf _ _ _ BB) as WB. rewrite !(self_cmp B0 WB).
  assert (IC : inM f m n (entry C)) by (rewrite <- Cf, <- Cr, <- Cc; now apply wf_inM).
  assert (IB : inM f m n (entry B0)) by exact (holds_inM _ _ _ _ _ (proj1 DB)).
  assert (r0 = r) as ->.
  { pose proof (ple_rank f Hirr fd m n _ _ _ _ _ IC IB Hple) as Rk. apply (rank_unique f fd Hirr m n (entry C)); auto.
    eapply rank_ext; [exact RA|]. intros i j Hi Hj. symmetry. now apply Ce. }
  rewrite !chk_rank. rewrite Cr in LP. rewrite Cc in LQ.
  pose proof Hple as (h1 & h2 & h3 & h4 & h5 & h6 & h7 & h8 & h9 & h10).
  destruct (init_canary m m Hm) as (L0 & L1 & EL0 & EL1 & DL1). rewrite EL0. cbn [bind]. rewrite EL1. cbn [bind].
  destruct (proj1 (wp_iff _ _) (unpack_L_ok m n B0 (entry B0) L1 r _ (proj1 DB) (proj1 DL1) Hr Hrn)) as (L & EL & BL). rewrite EL. cbn [bind].
  pose proof (drawn_becomes _ _ _ _ _ _ _ DL1 BL) as DL. rewrite (AL _ _ _ _ DL Hm). cbn [bind].
  destruct (init_canary m n Hn) as (N0 & N1 & EN0 & EN1 & DN1). rewrite EN0. cbn [bind]. rewrite EN1. cbn [bind].
  destruct (proj1 (wp_iff _ _) (unpack_E_ok m n B0 (entry B0) Q0 N1 r _ (proj1 DB) (proj1 DN1) Hr LQ ltac:(intros i Hi; apply h4; lia) Hrn)) as (E & EE & BE). rewrite EE. cbn [bind].
  pose proof (drawn_becomes _ _ _ _ _ _ _ DN1 BE) as DE. rewrite (AL _ _ _ _ DE Hn). cbn [bind].
  destruct (mul_none m m n L E _ _ Hn (proj1 DL) (proj1 DE)) as (M & EM & KM). rewrite EM. cbn [bind].
  pose proof (proj1 DA) as (WA & Af & Ar & Ac & Ae).
  destruct (proj1 (wp_iff _ _) (mzed_apply_left_ok A P0 WA ltac:(intros i Hi; rewrite Ar; apply h3; rewrite Ar in Hi; lia))) as (A' & EA' & BA'). rewrite EA'. cbn [bind].
  pose proof (drawn_becomes _ _ _ _ _ _ _ DA BA') as DA'. rewrite (AL _ _ _ _ DA' Hn). cbn [bind].
  rewrite chk_cmp; [reflexivity|]. apply (cmp_same f m n A' M _ _ (proj1 DA') KM). intros i j Hi Hj. cbv beta.
  replace (Nat.min (length P0) (mz_nrows A)) with m by lia.
  assert (Hs : swaps (at_ P0) m i < m) by (apply swaps_lt; auto; intros k Hk; split; [exact Hk|now apply h3]).
  rewrite Ae by auto. specialize (h10 i j Hi Hj). cbv beta in h10. rewrite Ce in h10 by auto. rewrite h10.
  replace m with (r + (m - r)) at 1 by lia. rewrite mmul_split. rewrite (mmul_0_l f (m - r)), N.lxor_0_r.
  - apply (mmul_ext f m r n); auto.
    + intros a k Ha Hk. unfold ple_L. replace (k <? r) with true by lia. cbn [andb]. reflexivity.
    + intros k c Hk Hc. unfold ple_E. replace (k <? r) with true by lia. reflexivity.
  - intros k Hk. replace (r + k <? r) with false by lia. reflexivity.
Qed.
End Tests.
