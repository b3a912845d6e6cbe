(** _mzd_slice_ple, all cutoffs. *)
From Coq Require Import NArith ZArith Lia List Bool Arith.
From Coq Require Import ZifyBool ZifyNat ZifyN.
From Verif Require Import Base Spec LinSpec TrsmSpec PolyFacts MatFacts EchFacts Gf2xModel Gf2eModel Gf2eProofs MzdModel MzedModel MzedSpec.
From Verif Require Import LaneFacts MzedProofs MzedOps StrassenModel StrassenProofs SliceModel SliceSpec MzdFacts SliceProofs SliceOps SliceMul KaraModel KaraProofs ConvModel ConvSlice ConvCling.
From Verif Require Import MulModel MulProofs TrsmModel TrsmProofs TrsmRec PermModel PleModel PleSpec PleFacts PleProofs PermProofs PleComb PleSlice.
Import ListNotations.
Local Open Scope nat_scope.

Lemma is_ple_ext f m n A0 A0' A A' P P' Q Q' r : is_ple f m n A0 A P Q r ->
  meq m n A0 A0' -> meq m n A A' -> (forall i, i < m -> P i = P' i) -> (forall i, i < n -> Q i = Q' i) -> is_ple f m n A0' A' P' Q' r.
Proof.
  intros (H1 & H2 & H3 & H4 & H5 & H6 & H7 & H8 & H9 & H10) E0 E EP EQ.
  split; [exact H1|]. split; [exact H2|]. split; [intros i Hi; rewrite <- EP by easy; now apply H3|].
  split; [intros i Hi; rewrite <- EQ by easy; now apply H4|]. split; [intros i Hi; rewrite <- EP by lia; now apply H5|].
  split; [intros i i' Hi Hi'; rewrite <- !EQ by lia; now apply H6|]. split; [intros i Hi; rewrite <- E by lia; now apply H7|].
  split; [intros k j Hk Hj; rewrite <- EQ in Hj by lia; pose proof (H4 k ltac:(lia)); rewrite <- E by lia; now apply H8|].
  split; [intros k j Hk Hj; rewrite <- E by lia; now apply H9|].
  intros i j Hi Hj. rewrite <- (swaps_ext P P') by (intros; now apply EP).
  assert (swaps P m i < m) by (apply swaps_lt; auto; intros k Hk; pose proof (H3 k Hk); lia).
  rewrite <- E0 by easy. rewrite H10 by easy. unfold mmul. apply xsum_ext. intros k Hk. f_equal.
  - unfold ple_L. destruct (_ <=? _); [|easy]. apply E; lia.
  - unfold ple_E. rewrite <- EQ by lia. destruct (_ <? _); [easy|]. destruct (_ =? _); [easy|]. apply E; lia.
Qed.

Lemma first_pivots_ext m n A A' P P' r : first_pivots m A P r -> r <= n -> r <= m -> meq m n A A' -> (forall i, i < m -> P i = P' i) -> first_pivots m A' P' r.
Proof.
  intros H Hn Hm E EP k i j Hk Hi Hj ES. unfold ple_L. destruct (Nat.leb_spec k j); [|easy]. rewrite <- E by lia.
  assert (X : ple_L A j k = 0%N).
  { apply (H k i j); auto; [rewrite EP by lia; exact Hi|]. rewrite (swaps_ext P P' m) by exact EP. rewrite ES. apply swaps_ext. intros t Ht. symmetry. apply EP. lia. }
  unfold ple_L in X. now replace (k <=? j) with true in X by lia.
Qed.

Section Ple.
Variable f : N.
Hypothesis Hirr : irreducible f.
Hypothesis Hdeg : (2 <= pdeg f)%N.
Variable l2 : Z.

Definition sple_res (A : slice) (f : N) (m n : nat) (F : mat) (x : slice * mzp * mzp * nat) : Prop :=
  let '(A', P', Q', r) := x in
  sbecomes A A' (sentry A') /\ length P' = m /\ length Q' = n /\ is_ple f m n F (sentry A') (at_ P') (at_ Q') r.

Definition sple_first (m : nat) (x : slice * mzp * mzp * nat) : Prop :=
  let '(A', P', Q', r) := x in first_pivots m (sentry A') (at_ P') r.
Theorem sple_first_ok fuel : forall m n A P Q F cutoff, n < fuel -> sholds A f m n F -> length P = m -> length Q = n ->
  wp (slice_ple l2 fuel A P Q cutoff) (fun x => sple_res A f m n F x /\ sple_first m x).
Proof.
  induction fuel as [|fuel IH]; intros m n A P Q F cutoff Hfu KA LP LQ; [lia|].
  pose proof KA as (A1 & A2 & A3 & A4 & A5). pose proof (wfs_deg A A1) as Ed. rewrite A2 in Ed.
  cbn [slice_ple]. rewrite A3, A4.
  destruct (gf2e_degree_to_w_ok (sl_ff A)) as (w & -> & _); [destruct A1 as ((D & _) & D' & _); lia|]. cbn [bind].
  destruct ((n <=? 64) || _) eqn:Ecut.
  - clear Ecut. apply wp_bind. eapply wp_mono; [apply (mzed_cling_ok None A A1); [lia|exact I]|]. cbv beta. intros Ab (Hb & Eb).
    pose proof Hb as (B1 & B2 & B3 & B4 & B5).
    apply wp_bind. eapply wp_mono; [apply mzed_ple_nj_first; [congruence|exact B1|lia|lia]|]. cbv beta. intros [[[Ab' P'] Q'] r] ((K1 & K2 & K3 & K4 & K5 & K6) & KF).
    pose proof (becomes_wf _ _ _ K1) as Wb. pose proof (becomes_nr _ _ _ K1) as Nr. pose proof (becomes_nc _ _ _ K1) as Nc. pose proof (becomes_ff _ _ _ K1) as Nf.
    apply wp_bind. eapply wp_mono; [apply (mzed_slice_ok (Some A) Ab' Wb)|].
    { cbn [starget]. split; [exact A1|]. rewrite Nf. split; [congruence|]. split; congruence. }
    cbv beta. intros A' (Hs & Bs). cbn [wp]. unfold sple_res, sple_first.
    split.
    2:{ unfold ple_first in KF. rewrite B3, A3 in KF. rewrite B2, B3, B4, A3, A4 in K6. eapply (first_pivots_ext m n); [exact KF| | | |reflexivity]; try apply K6.
        intros i j Hi Hj. symmetry. apply (sb_entry _ _ _ _ _ Bs); lia. }
    split; [eapply sb_ext; [exact Bs|]; intros i c Hi Hc; symmetry; now apply (sb_entry _ _ _ _ _ Bs)|].
    split; [congruence|]. split; [congruence|]. rewrite B2, B3, B4, A3, A4 in K6. rewrite A2 in K6. eapply is_ple_ext; [exact K6| | |reflexivity|reflexivity].
    + intros i j Hi Hj. rewrite B5 by lia. now apply A5.
    + intros i j Hi Hj. symmetry. apply (sb_entry _ _ _ _ _ Bs); lia.
  - set (n1 := ((n - 1) / 64 + 1) / 2 * 64).
    assert (Hn : 64 < n) by lia. assert (Hn1 : 64 <= n1 < n).
    { unfold n1. pose proof (Nat.div_mod (n - 1) 64 ltac:(lia)) as D1. pose proof (Nat.mod_upper_bound (n - 1) 64 ltac:(lia)).
      pose proof (Nat.div_mod ((n - 1) / 64 + 1) 2 ltac:(lia)) as D2. pose proof (Nat.mod_upper_bound ((n - 1) / 64 + 1) 2 ltac:(lia)).
      set (q := (n - 1) / 64) in *. set (q2 := (q + 1) / 2) in *. assert (1 <= q) by lia. lia. }
    assert (Ha : n1 mod 64 = 0) by (unfold n1; apply Nat.mod_mul; lia).
    clearbody n1. clear Ecut.
    apply wp_bind. eapply wp_mono; [apply pwin_ok; lia|]. cbv beta. intros P1 (LP1 & _). rewrite Nat.sub_0_r in LP1.
    apply wp_bind. eapply wp_mono; [apply pwin_ok; lia|]. cbv beta. intros Q1 (LQ1 & _). rewrite Nat.sub_0_r in LQ1.
    apply wp_bind. eapply wp_mono; [apply (swin2 A f m n F 0 0 m n1 KA); auto; lia|]. cbv beta. intros A0 (H0 & _ & U0). rewrite !Nat.sub_0_r in H0.
    apply wp_bind. eapply wp_mono; [apply (IH m n1 A0 P1 Q1 _ (ple_cutoff l2 cutoff) ltac:(lia) H0 LP1 LQ1)|]. cbv beta.
    intros [[[A0' P1'] Q1'] r1] ((K1 & LP1' & LQ1' & I1) & FP1). specialize (U0 _ _ K1).
    apply wp_bind. eapply wp_mono; [exact U0|]. cbv beta. intros Aa Ka. pose proof (sh_becomes _ _ _ _ _ _ _ KA Ka) as Ha'. clear U0.
    set (B1 := sentry A0') in *. set (Pa := mzp_unwindow P 0 P1'). set (Qa := mzp_unwindow Q 0 Q1').
    pose proof I1 as (a1 & a2 & a3 & a4 & a4' & a5 & a6 & a7 & a8 & a9).
    set (F1 := fun i c => if (0 <=? i) && (i <? m) && (0 <=? c) && (c <? n1) then B1 (i - 0) (c - 0) else F i c) in *.
    assert (HF1 : forall i j, i < m -> j < n1 -> F1 i j = B1 i j).
    { intros i j Hi Hj. unfold F1. wsel; [|lia]. f_equal; lia. }
    assert (HF2 : forall i j, i < m -> n1 <= j -> F1 i j = F i j).
    { intros i j Hi Hj. unfold F1. wsel; [lia|easy]. }
    assert (Sw : forall i, i < m -> swaps (at_ P1') r1 i < m).
    { intros i Hi. apply swaps_lt; auto. intros k Hk. pose proof (a3 k ltac:(lia)). lia. }
    assert (IF1 : inM f m n F1) by (intros i j Hi Hj; now apply (sh_in _ _ _ _ _ Ha')).
    destruct (tril_exists f Hirr r1 (n - n1) B1 (fun i j => F1 (swaps (at_ P1') r1 i) (n1 + j))) as (X & X1 & X2).
    { intros i j Hi Hj. rewrite <- HF1 by lia. apply IF1; lia. }
    { intros i j Hi Hj. apply IF1; [apply Sw|]; lia. }
    { exact a6. }
    apply wp_bind. eapply wp_mono; [apply (ple_mid_ok f Hirr Hdeg m n n1 r1 P1' F1 B1 X); auto; try lia|].
    cbv beta. intros Ab Kb. pose proof (sh_becomes _ _ _ _ _ _ _ Ha' Kb) as Hb.
    assert (LPa : length Pa = m) by (unfold Pa; rewrite punwin_len; lia). assert (LQa : length Qa = n) by (unfold Qa; rewrite punwin_len; lia).
    apply wp_bind. eapply wp_mono; [apply pwin_ok; lia|]. cbv beta. intros P2 (LP2 & _).
    apply wp_bind. eapply wp_mono; [apply pwin_ok; lia|]. cbv beta. intros Q2 (LQ2 & _).
    apply wp_bind. eapply wp_mono; [apply (swin2 Ab f m n _ r1 n1 m n Hb); auto; lia|]. cbv beta. intros A11 (H11 & _ & U1).
    apply wp_bind. eapply wp_mono; [apply (IH (m - r1) (n - n1) A11 P2 Q2 _ (ple_cutoff l2 cutoff) ltac:(lia) H11 LP2 LQ2)|]. cbv beta.
    intros [[[A11' P2'] Q2'] r2] ((K2 & LP2' & LQ2' & I2) & FP2). specialize (U1 _ _ K2).
    apply wp_bind. eapply wp_mono; [exact U1|]. cbv beta. intros Ac Kc. pose proof (sh_becomes _ _ _ _ _ _ _ Hb Kc) as Hc. clear U1.
    set (B2 := sentry A11') in *. pose proof I2 as (b1 & b2 & b3 & b4 & b4' & b5 & b6 & b7 & b8 & b9).
    (* permute the lower left part *)
    apply wp_bind. eapply wp_mono; [apply (on_swin_ok Ac f m n _ r1 0 m r1 _ (fun i j => B1 (r1 + swaps (at_ P2') (m - r1) i) j) Hc); auto; try lia|].
    { intros W HW _. rewrite Nat.sub_0_r in HW. pose proof HW as (W1 & W2 & W3 & W4 & W5).
      eapply wp_mono; [apply slice_apply_left_ok; [exact W1|]|].
      - intros i Hi. rewrite W3 in *. apply b3. lia.
      - cbv beta. rewrite W3, LP2', Nat.min_id. intros W' BW. eapply sb_meq; [exact HW|exact BW|]. intros i j Hi Hj. cbv beta.
        assert (S2 : swaps (at_ P2') (m - r1) i < m - r1) by (apply swaps_lt; auto; intros k Hk; pose proof (b3 k Hk); lia).
        rewrite W5 by auto. unfold sub. wsel; [lia|]. now replace (0 + j <? n1) with true by lia. }
    cbv beta. intros Ad Kd. pose proof (sh_becomes _ _ _ _ _ _ _ Hc Kd) as Hd'.
    (* permutations *)
    apply wp_bind. eapply wp_mono; [apply padd_ok; lia|]. cbv beta. intros P3 (LP3 & EP3).
    apply wp_bind. eapply wp_mono; [apply padd_ok; lia|]. cbv beta. intros Q3 (LQ3 & EQ3).
    set (Pb := mzp_unwindow Pa r1 P3). set (Qb := mzp_unwindow Qa n1 Q3).
    assert (LPb : length Pb = m) by (unfold Pb; rewrite punwin_len; lia). assert (LQb : length Qb = n) by (unfold Qb; rewrite punwin_len; lia).
    apply wp_bind. eapply wp_mono; [apply (pmove_ok Qb r1 n1 r2); lia|]. cbv beta. intros Q4 (LQ4 & EQ4).
    (* compress *)
    pose proof Hd' as (D1 & D2 & D3 & D4 & D5).
    apply wp_bind. eapply wp_mono; [apply (compress_ok Ad r1 n1 r2 D1); try lia|].
    { rewrite D3. intros i k Hi Hk. rewrite D5 by lia. wsel; [lia|]. wsel; [lia|]. replace (k <? n1) with true by lia. apply a8; lia. }
    { rewrite D3, D4. intros i k Hi Hk. rewrite D5 by lia. wsel; [lia|]. wsel; [|lia]. unfold B2. apply b8; lia. }
    cbv beta. intros Ae Ke. cbn [wp]. unfold sple_res, sple_first. unfold sple_first in FP1, FP2. fold B1 in FP1. fold B2 in FP2.
    enough (KK : is_ple f m n F (sentry Ae) (at_ Pb) (at_ Q4) (r1 + r2) /\ first_pivots m (sentry Ae) (at_ Pb) (r1 + r2)) by
      (destruct KK as [KK1 KK2]; split; [split; [|split; [exact LPb|split; [congruence|exact KK1]]]|exact KK2];
       eapply sb_step; [exact A1|eapply sb_step; [exact A1|eapply sb_step; [exact A1|eapply sb_step; [exact A1|exact Ka|exact Kb|]|exact Kc|]|exact Kd|]|exact Ke|]; try (intros; reflexivity);
       intros i c Hi Hcc; symmetry; apply (sb_entry _ _ _ _ _ Ke); lia).
    assert (EA : forall i c, i < m -> c < n -> sentry Ae i c = cperm 0%N r1 n1 r2 (sentry Ad) i c) by (intros i c Hi Hcc; apply (sb_entry _ _ _ _ _ Ke); lia).
    assert (c1 : n1 <= n).
    { lia. }
    assert (c2 : is_ple f m n1 F B1 (at_ P1') (at_ Q1') r1).
    { eapply is_ple_ext; [exact I1| |intros i j _ _; reflexivity|reflexivity|reflexivity]. intros i j _ _. reflexivity. }
    assert (c3 : forall i j, i < r1 -> j < n - n1 -> mmul f r1 (tril B1) X i j = F (swaps (at_ P1') r1 i) (n1 + j)).
    { intros i j Hi Hj. rewrite X2 by easy. apply HF2; [apply Sw|]; lia. }
    assert (c4 : is_ple f (m - r1) (n - n1) (fun i j => N.lxor (F (swaps (at_ P1') r1 (r1 + i)) (n1 + j)) (mmul f r1 (fun i k => B1 (r1 + i) k) X i j)) B2 (at_ P2') (at_ Q2') r2).
    { eapply is_ple_ext; [exact I2| |intros i j _ _; reflexivity|reflexivity|reflexivity]. intros i j Hi Hj. unfold sub.
      replace (n1 + j <? n1) with false by lia. replace (r1 + i <? r1) with false by lia. rewrite HF2 by (try apply Sw; lia). f_equal. f_equal; lia. }
    assert (c5 : forall i, i < r1 -> at_ Pb i = at_ P1' i).
    { intros i Hi. unfold Pb. rewrite punwin_at by lia. wsel; [lia|]. unfold Pa. rewrite punwin_at by lia. wsel; [f_equal; lia|lia]. }
    assert (c6 : forall i, i < m - r1 -> at_ Pb (r1 + i) = r1 + at_ P2' i).
    { intros i Hi. unfold Pb. rewrite punwin_at by lia. wsel; [|lia]. rewrite EP3. replace (r1 + i - r1 <? m - r1) with true by lia. replace (r1 + i - r1) with i by lia. lia. }
    assert (c7 : forall i, i < r1 -> at_ Q4 i = at_ Q1' i).
    { intros i Hi. rewrite EQ4. wsel; [lia|]. unfold Qb. rewrite punwin_at by lia. wsel; [lia|]. unfold Qa. rewrite punwin_at by lia. wsel; [f_equal; lia|lia]. }
    assert (c8 : forall i, i < r2 -> at_ Q4 (r1 + i) = n1 + at_ Q2' i).
    { intros i Hi. rewrite EQ4. wsel; [|lia]. unfold Qb. rewrite punwin_at by lia. wsel; [|lia]. rewrite EQ3. replace (n1 + (r1 + i - r1) - n1) with i by lia. replace (i <? n - n1) with true by lia. lia. }
    assert (c9 : forall i, r1 + r2 <= i < n -> i <= at_ Q4 i < n).
    { intros i Hi. rewrite EQ4. wsel; [lia|]. unfold Qb. rewrite punwin_at by lia. destruct (Nat.lt_ge_cases i n1) as [D|D].
      * wsel; [lia|]. unfold Qa. rewrite punwin_at by lia. wsel; [|lia]. rewrite Nat.sub_0_r. pose proof (a4 i D). lia.
      * wsel; [|lia]. rewrite EQ3. replace (i - n1 <? n - n1) with true by lia. pose proof (b4 (i - n1) ltac:(lia)). lia. }
    assert (c10 : forall i j, i < r1 -> j < n1 -> sentry Ae i j = B1 i j).
    { intros i j Hi Hj. rewrite EA by lia. unfold cperm. replace (i <? r1) with true by lia. rewrite D5 by lia. wsel; [lia|]. wsel; [lia|]. now replace (j <? n1) with true by lia. }
    assert (c11 : forall i j, i < r1 -> j < n - n1 -> sentry Ae i (n1 + j) = X i j).
    { intros i j Hi Hj. rewrite EA by lia. unfold cperm. replace (i <? r1) with true by lia. rewrite D5 by lia. wsel; [lia|]. wsel; [lia|]. replace (n1 + j <? n1) with false by lia.
      wsel; [f_equal; lia|lia]. }
    assert (c12 : forall i j, i < m - r1 -> j < r1 -> sentry Ae (r1 + i) j = B1 (r1 + swaps (at_ P2') (m - r1) i) j).
    { intros i j Hi Hj. rewrite EA by lia. unfold cperm. cbv zeta. replace (r1 + i <? r1) with false by lia. replace (j <? r1) with true by lia. rewrite D5 by lia. wsel; [|lia]. f_equal; [f_equal; f_equal; lia|lia]. }
    assert (c13 : forall i j, i < m - r1 -> r1 <= j < n -> sentry Ae (r1 + i) j = (let e := Nat.min (S i) r2 in if j <? r1 + e then B2 i (j - r1) else if j <? n1 + e then 0%N else B2 i (j - n1))).
    { intros i j Hi Hj. rewrite EA by lia. unfold cperm. cbv zeta. replace (r1 + i <? r1) with false by lia. replace (j <? r1) with false by lia. replace (r1 + i - r1) with i by lia.
      destruct (Nat.ltb_spec j (r1 + Nat.min (S i) r2)).
      * rewrite D5 by lia. wsel; [lia|]. wsel; [|lia]. f_equal; lia.
      * destruct (Nat.ltb_spec j (n1 + Nat.min (S i) r2)); [easy|]. rewrite D5 by lia. wsel; [lia|]. wsel; [|lia]. f_equal; lia. }
    split.
    + exact (ple_combine f m n n1 r1 r2 F B1 X B2 (sentry Ae) (at_ P1') (at_ Q1') (at_ P2') (at_ Q2') (at_ Pb) (at_ Q4) c1 c2 c3 c4 c5 c6 c7 c8 c9 c10 c11 c12 c13).
    + exact (ple_combine_first f m n n1 r1 r2 F B1 X B2 (sentry Ae) (at_ P1') (at_ Q1') (at_ P2') (at_ Q2') (at_ Pb) (at_ Q4) c1 c2 c3 c4 c5 c6 c7 c8 c9 c10 c11 c12 c13 FP1 FP2).
Qed.
Theorem sple_ok fuel : forall m n A P Q F cutoff, n < fuel -> sholds A f m n F -> length P = m -> length Q = n ->
  wp (slice_ple l2 fuel A P Q cutoff) (sple_res A f m n F).
Proof. intros m n A P Q F cutoff Hfu KA LP LQ. eapply wp_mono; [apply (sple_first_ok fuel m n A P Q F cutoff Hfu KA LP LQ)|]. cbv beta. tauto. Qed.
End Ple.
