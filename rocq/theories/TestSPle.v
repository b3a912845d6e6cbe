(** The test of the PLE decomposition of bit-sliced matrices: proofs. *)
From Coq Require Import NArith ZArith Lia List Bool Arith.
From Coq Require Import ZifyBool ZifyNat ZifyN.
From Verif Require Import HistSpec HistModel HistProofs.
From Verif Require Import Base Spec LinSpec PolyFacts MatFacts Gf2xModel Gf2eModel Gf2eProofs MzdModel MzedModel MzedSpec LaneFacts MzedProofs MzedOps MzedOps2 FrameProofs.
From Verif Require Import SliceModel SliceSpec SliceProofs SliceOps SliceMul KaraModel MulModel ConvModel PropSlice.
From Verif Require Import EchFacts EchNaive PropNj PropLaws PermModel PermProofs PleModel PleSpec PleFacts PleRank PropPleSame PropEch.
From Verif Require Import TestModel TestCanary TestProofs TestTrsm TestPleModel TestPle TestSliceModel TestSlice TestSmall.
Import ListNotations.
Local Open Scope nat_scope.

Lemma sinF_1 A : wf_slice A -> inF (sfld A) 1.
Proof. intros W. apply inF1. rewrite (wfs_deg A W). pose proof (wfs_depth A W). lia. Qed.
Lemma sb_write A0 A F i j v : wf_slice A0 -> sbecomes A0 A F -> i < sl_nrows A0 -> j < sl_ncols A0 -> inF (sfld A0) v ->
  wp (mzd_slice_write_elem A i j v) (fun A' => sbecomes A0 A' (fun r c => if (r =? i) && (c =? j) then v else F r c)).
Proof.
  intros W0 B Hi Hj Hv. pose proof (sb_ff _ _ _ B) as E1. pose proof (sb_nr _ _ _ B). pose proof (sb_nc _ _ _ B).
  eapply wp_mono; [apply slice_write_elem_ok; [exact (sb_wf _ _ _ B)|lia|lia|now rewrite E1]|]. cbv beta. intros A' B'. eapply sb_step; [exact W0|exact B|exact B'|].
  cbv beta. intros r c Hr Hc. destruct (_ && _); [reflexivity|]. now apply (sb_entry _ _ _ _ _ B).
Qed.
Lemma sunpack_L_ok f m n LE X L r F : sholds LE f m n X -> sholds L f m m F -> r <= m -> r <= n ->
  wp (sunpack_L LE L r) (fun L' => sbecomes L L' (fun i k => if (k <? r) && (k <=? i) then X i k else F i k)).
Proof.
  intros KX KL Hr Hn. pose proof KX as (WX & Xf & Xr & Xc & Xe). pose proof KL as (WL & Lf & Lr & Lc & Le). unfold sunpack_L.
  apply (wp_for (fun t L' => sbecomes L L' (fun i k => if (k <? t) && (k <=? i) then X i k else F i k))); [lia| |].
  - eapply sb_ext; [now apply sb_refl|]. intros i k Hi Hk. cbv beta. replace ((k <? 0) && (k <=? i)) with false by lia. apply Le; lia.
  - intros j L1 Hj B1. rewrite Xr.
    eapply wp_mono; [apply (wp_for (fun t L' => sbecomes L L' (fun i k => if ((k <? j) && (k <=? i)) || ((k =? j) && (j <=? i) && (i <? t)) then X i k else F i k))); [lia| |]|].
    + eapply sb_ext; [exact B1|]. intros i k Hi Hk. cbv beta. replace ((k =? j) && (j <=? i) && (i <? j)) with false by lia. now rewrite orb_false_r.
    + intros i L2 Hi B2. rewrite slice_read_elem_ok by (auto; lia). cbn [bind]. rewrite Xe by lia.
      eapply wp_mono; [apply (sb_write L L2 _ i j _ WL B2); [lia|lia|]|].
      { rewrite Lf. apply (sh_in LE f m n X KX); lia. }
      cbv beta. intros L3 B3. eapply sb_ext; [exact B3|]. cbv beta. intros a k Ha Hk. destruct ((a =? i) && (k =? j)) eqn:C1.
      * assert (a = i) by lia. assert (k = j) by lia. subst. replace ((j =? j) && (j <=? i) && (i <? S i)) with true by lia. now rewrite orb_true_r.
      * replace ((k =? j) && (j <=? a) && (a <? S i)) with ((k =? j) && (j <=? a) && (a <? i)) by lia. reflexivity.
    + cbv beta. intros L3 B3. eapply sb_ext; [exact B3|]. cbv beta. intros i k Hi Hk.
      replace ((k <? j) && (k <=? i) || (k =? j) && (j <=? i) && (i <? m)) with ((k <? S j) && (k <=? i)); [reflexivity|].
      apply Bool.eq_iff_eq_true. lia.
Qed.
Lemma sunpack_E_ok f m n LE X Q E r F : sholds LE f m n X -> sholds E f m n F -> r <= m -> length Q = n -> (forall i, i < r -> at_ Q i < n) -> r <= n ->
  wp (sunpack_E LE Q E r) (fun E' => sbecomes E E' (fun k j => if k <? r then (if j <? at_ Q k then F k j else if j =? at_ Q k then 1%N else X k j) else F k j)).
Proof.
  intros KX KE Hr LQ HQ Hn. pose proof KX as (WX & Xf & Xr & Xc & Xe). pose proof KE as (WE & Ef & Er & Ec & Ee). unfold sunpack_E.
  apply (wp_for (fun t E' => sbecomes E E' (fun k j => if k <? t then (if j <? at_ Q k then F k j else if j =? at_ Q k then 1%N else X k j) else F k j))); [lia| |].
  - eapply sb_ext; [now apply sb_refl|]. intros i k Hi Hk. cbv beta. replace (i <? 0) with false by lia. apply Ee; lia.
  - intros i E1 Hi B1. rewrite (lget_nth Q i 0) by lia. cbn [bind]. fold (at_ Q i). pose proof (HQ i ltac:(lia)) as Hq. set (q := at_ Q i) in *.
    apply wp_bind. eapply wp_mono; [apply (sb_write E E1 _ i q 1 WE B1); [lia|lia|now apply sinF_1]|]. cbv beta. intros E2 B2. rewrite Xc.
    eapply wp_mono; [apply (wp_for (fun t E' => sbecomes E E' (fun k j => if (k =? i) && (j <? t) then (if j <? q then F k j else if j =? q then 1%N else X k j) else
        if k <? i then (if j <? at_ Q k then F k j else if j =? at_ Q k then 1%N else X k j) else F k j))); [lia| |]|].
    + eapply sb_ext; [exact B2|]. intros a k Ha Hk. cbv beta. destruct (Nat.eqb_spec a i) as [->|]; cbn [andb]; [|reflexivity].
      replace (i <? i) with false by lia. destruct (k =? q) eqn:C1; destruct (k <? q + 1) eqn:C2; destruct (k <? q) eqn:C3; try lia; reflexivity.
    + intros j E3 Hj B3. rewrite slice_read_elem_ok by (auto; lia). cbn [bind]. rewrite Xe by lia.
      eapply wp_mono; [apply (sb_write E E3 _ i j _ WE B3); [lia|lia|]|].
      { rewrite Ef. apply (sh_in LE f m n X KX); lia. }
      cbv beta. intros E4 B4. eapply sb_ext; [exact B4|]. cbv beta. intros a k Ha Hk. destruct (Nat.eqb_spec a i) as [->|]; cbn [andb]; [|reflexivity].
      destruct (Nat.eqb_spec k j) as [->|].
      * replace (j <? S j) with true by lia. replace (j <? q) with false by lia. replace (j =? q) with false by lia. reflexivity.
      * replace (k <? S j) with (k <? j) by lia. reflexivity.
    + cbv beta. intros E3 B3. eapply sb_ext; [exact B3|]. cbv beta. intros a k Ha Hk. destruct (Nat.eqb_spec a i) as [->|]; cbn [andb].
      * replace (k <? n) with true by lia. replace (i <? S i) with true by lia. reflexivity.
      * replace (a <? S i) with (a <? i) by lia. reflexivity.
Qed.

Theorem test_slice_ple_passes f cf R m n r : config_ok f cf -> 0 < m -> 0 < n -> r <= m -> r <= n -> test_mzd_slice_ple cf R m n r = Ok 0.
Proof.
  intros CF Hm Hn Hr Hrn. destruct (f_facts f cf CF) as (Hirr & fd & f0). pose proof CF as (F1 & F2 & F3 & F4 & _). unfold test_mzd_slice_ple.
  destruct (random_rank_ok f cf CF R m n r Hn Hr Hrn) as (a & F & EA & DA & RA). rewrite EA. cbn [bind].
  destruct (sl_none f m n a F (proj1 DA)) as (A & E1 & K1). rewrite E1. cbn [bind]. pose proof K1 as (WA & a1 & a2 & a3 & a4).
  destruct (proj1 (wp_iff _ _) (slice_copy_ok None A WA Logic.I)) as (C & E2 & KC & _). rewrite E2. cbn [bind]. rewrite a1, a2, a3 in KC. pose proof KC as (WC & c1 & c2 & c3 & c4).
  assert (D2 : (2 <= pdeg (sfld C))%N). { rewrite c1. destruct F1 as (_ & D & _). rewrite F2 in D. lia. }
  assert (I2 : irreducible (sfld C)) by now rewrite c1.
  destruct (proj1 (C34_slice_wrappers (cf_l2 cf) C (seq 0 m) (seq 0 n) I2 D2 WC)) as (((((B0 & P0) & Q0) & r0) & E3 & BB & LP & LQ & Hple & Rk) & _); [now rewrite seq_length|now rewrite seq_length|].
  rewrite E3. cbn [bind]. rewrite c1, c2, c3 in Hple, Rk. rewrite c2 in LP. rewrite c3 in LQ.
  pose proof (sh_becomes _ _ _ _ _ _ _ KC BB) as KB.
  assert (IC : inM f m n (sentry C)). { intros i j Hi Hj. rewrite <- c1. now apply sentry_in. }
  assert (r0 = r) as ->.
  { apply (rank_unique f fd Hirr m n (sentry C)); auto. eapply rank_ext; [exact RA|]. intros i j Hi Hj. rewrite c4 by auto. symmetry. now apply a4. }
  rewrite chk_rank. pose proof Hple as (h1 & h2 & h3 & h4 & h5 & h6 & h7 & h8 & h9 & h10).
  pose proof (slice_init_ok (cf_ff cf) m m F1) as KL. pose proof (slice_init_ok (cf_ff cf) m n F1) as KE. rewrite F2 in KL, KE.
  destruct (proj1 (wp_iff _ _) (sunpack_L_ok f m n B0 (sentry B0) _ r _ KB KL Hr Hrn)) as (L & EL & BL). rewrite EL. cbn [bind].
  pose proof (sh_becomes _ _ _ _ _ _ _ KL BL) as KL'.
  destruct (proj1 (wp_iff _ _) (sunpack_E_ok f m n B0 (sentry B0) Q0 _ r _ KB KE Hr LQ ltac:(intros i Hi; apply h4; lia) Hrn)) as (E & EE & BE). rewrite EE. cbn [bind].
  pose proof (sh_becomes _ _ _ _ _ _ _ KE BE) as KE'.
  pose proof KL' as (WL & l1 & l2 & l3 & l4). pose proof KE' as (WE & e1 & e2 & e3 & e4).
  destruct (C37_mul None L E WL WE ltac:(congruence) ltac:(congruence) Logic.I) as (M & EM & KM). rewrite EM. cbn [bind]. rewrite l1, l2, l3, e3 in KM.
  destruct (proj1 (wp_iff _ _) (slice_apply_left_ok A P0 WA ltac:(intros i Hi; rewrite a2; apply h3; rewrite a2 in Hi; lia))) as (A' & EA' & BA'). rewrite EA'. cbn [bind].
  pose proof (sh_becomes _ _ _ _ _ _ _ K1 BA') as KA'.
  rewrite (scmp_same f m n A' M (sentry M)); [reflexivity| |].
  2:{ pose proof KM as (WM & m1 & m2 & m3 & _). split; [exact WM|]. repeat (split; [assumption|]). reflexivity. }
  eapply sh_ext; [exact KA'|]. intros i j Hi Hj. cbv beta. destruct KM as (WM & m1 & m2 & m3 & m4). rewrite m4 by auto.
  replace (Nat.min (length P0) (sl_nrows A)) with m by lia.
  assert (Hs : swaps (at_ P0) m i < m) by (apply swaps_lt; auto; intros k Hk; split; [exact Hk|now apply h3]).
  rewrite a4 by auto. specialize (h10 i j Hi Hj). cbv beta in h10. rewrite c4 in h10 by auto. rewrite a4 in h10 by auto. rewrite h10.
  transitivity (mmul f m (fun i k => if (k <? r) && (k <=? i) then sentry B0 i k else 0%N) (fun k j => if k <? r then (if j <? at_ Q0 k then 0%N else if j =? at_ Q0 k then 1%N else sentry B0 k j) else 0%N) i j).
  - symmetry. replace m with (r + (m - r)) at 1 by lia. rewrite mmul_split. rewrite (mmul_0_l f (m - r)), N.lxor_0_r.
    + apply (mmul_ext f m r n); auto.
      * intros a' k Ha Hk. unfold ple_L. replace (k <? r) with true by lia. cbn [andb]. reflexivity.
      * intros k c Hk Hc. unfold ple_E. replace (k <? r) with true by lia. reflexivity.
    + intros k Hk. replace (r + k <? r) with false by lia. reflexivity.
  - apply (mmul_ext f m m n); auto; intros a' k Ha Hk; symmetry; [apply l4|apply e4]; auto.
Qed.
