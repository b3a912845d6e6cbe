(** mzed_mul_scalar: both code paths. *)
From Coq Require Import NArith Lia List Bool Arith.
From Coq Require Import ZifyBool ZifyNat ZifyN.
From Verif Require Import Base Spec PolyFacts Gf2xModel Gf2xProofs Gf2eModel Gf2eProofs MzdModel MzedModel MzedSpec LaneFacts MzedProofs MzedOps MzedOps2.
Import ListNotations.
Local Open Scope nat_scope.

Lemma lane_nested w p x q r : w * p = 16 -> r < p -> lane w (lane 16 x q) r = lane w x (p * q + r).
Proof.
  intros Hp Hr. apply N.bits_inj. intro i. rewrite !lane_spec.
  destruct (N.ltb_spec i (N.of_nat w)); cbn [andb]; [|easy].
  replace (i + N.of_nat (w * r)%nat <? N.of_nat 16)%N with true by nia. cbn [andb]. f_equal. nia.
Qed.
Lemma land_65535 x k : N.land (wshr x (16 * k)) 65535 = lane 16 x k.
Proof. reflexivity. Qed.

Section T16.
Variables (ff : gf2e) (a : N) (T : list N).
Let w := ff_degree ff.
Hypothesis Hwf : gf2e_wf ff.
Hypothesis Hdeg : w = 2 \/ w = 4 \/ w = 8.
Let f := ff_minpoly ff.
Hypothesis HT1 : length T = 2 ^ 16.
Hypothesis HT2 : forall x, (x < 2 ^ 16)%N ->
  (nth (N.to_nat x) T 0 < 2 ^ 16)%N /\
  forall k, k < 16 / w -> lane w (nth (N.to_nat x) T 0%N) k = fmul f a (lane w x k).

Let Hw : good_w w. Proof. unfold good_w. lia. Qed.

Lemma t16_word_ok x : (x < 2 ^ 64)%N ->
  wp (t16_word T x) (fun v => (v < 2 ^ 64)%N /\ forall k, k < per w -> lane w v k = fmul f a (lane w x k)).
Proof.
  intros Hx. unfold t16_word.
  change (N.land (wshr x 48) 65535) with (lane 16 x 3). change (N.land (wshr x 32) 65535) with (lane 16 x 2).
  change (N.land (wshr x 16) 65535) with (lane 16 x 1). change (N.land (wshr x 0) 65535) with (lane 16 x 0).
  assert (Hl : forall q, lget T (N.to_nat (lane 16 x q)) = Ok (nth (N.to_nat (lane 16 x q)) T 0%N)).
  { intros q. apply lget_ok. rewrite HT1. pose proof (lane_lt 16 x q) as L.
    rewrite <- (pow_nat_N 16) in L. lia. }
  rewrite !Hl. cbn [bind wp]. clear Hl.
  assert (Hm : forall q, (nth (N.to_nat (lane 16 x q)) T 0 < 2 ^ 16)%N) by (intros q; apply HT2, lane_lt).
  set (m := fun q => nth (N.to_nat (lane 16 x q)) T 0%N) in *.
  change (nth (N.to_nat (lane 16 x 3)) T 0%N) with (m 3). change (nth (N.to_nat (lane 16 x 2)) T 0%N) with (m 2).
  change (nth (N.to_nat (lane 16 x 1)) T 0%N) with (m 1). change (nth (N.to_nat (lane 16 x 0)) T 0%N) with (m 0).
  split.
  - repeat apply lor_lt_pow2; try apply wshl_lt. eapply N.lt_trans; [apply Hm|]. now vm_compute.
  - assert (G16 : good_w 16) by (unfold good_w; lia).
    assert (L : forall q, q < 4 -> lane 16 (N.lor (N.lor (N.lor (wshl (m 3) 48) (wshl (m 2) 32)) (wshl (m 1) 16)) (m 0)) q = m q).
    { intros q Hq. rewrite !lane_lor.
      replace (m 0) with (wshl (m 0) 0) at 1.
      2:{ rewrite (wshl_small _ _ 16); [apply N.shiftl_0_r|apply Hm|lia]. }
      rewrite (lane_wshl 16 (m 3) 3 q 48), (lane_wshl 16 (m 2) 2 q 32), (lane_wshl 16 (m 1) 1 q 16), (lane_wshl 16 (m 0) 0 q 0);
        try apply Hm; try exact G16; try (cbn; lia).
      destruct q as [|[|[|[|q]]]]; try lia; cbn [Nat.eqb]; rewrite ?N.lor_0_l, ?N.lor_0_r; reflexivity. }
    intros k Hk. set (v := N.lor _ _) in *.
    assert (Hp : w * (16 / w) = 16) by now destruct Hdeg as [-> | [-> | ->]].
    assert (Hpk : per w = 4 * (16 / w)) by (unfold per; now destruct Hdeg as [-> | [-> | ->]]).
    set (p := 16 / w) in *. assert (0 < p) by nia.
    pose proof (Nat.div_mod k p ltac:(lia)) as D. pose proof (Nat.mod_upper_bound k p ltac:(lia)) as M.
    assert (Hq : k / p < 4) by (apply Nat.div_lt_upper_bound; lia).
    rewrite D. rewrite <- !lane_nested by easy. rewrite L by easy. apply HT2; [apply lane_lt|easy].
Qed.

Lemma t16_row_ok n b c : 0 < n -> wf_row f w n b -> wf_row f w n c ->
  gf2e_degree_to_w ff = Ok w -> 
  wp (t16_row T (w * n) b c) (row_done ff w n 0 c (fun j => fmul f a (rel w b j))).
Proof.
  intros Hn Hb Hc Ew. unfold t16_row. set (wid := width (w * n)).
  destruct (lastn_spec w n Hw Hn) as (E & HL & HW). fold wid in E, HW.
  assert (Lb : length b = wid) by apply Hb. assert (Lc : length c = wid) by apply Hc.
  assert (M2 := lmask_left w n Hw). set (hb := left_bitmask _) in *.
  assert (WB := fun j => wf_row_word _ _ _ _ j Hb). assert (WC := fun j => wf_row_word _ _ _ _ j Hc).
  pose proof (per_pos w Hw) as Pp. pose proof (gf2e_wf_f0 ff Hwf) as f0.
  assert (Cm : forall j, j mod per w < per w) by (intros; apply Nat.mod_upper_bound; lia).
  set (G := fun j => fmul f a (rel w b j)).
  apply wp_bind. eapply wp_mono.
  - apply (wp_for (fun j t => length t = wid /\ (forall i, (nth i t 0 < 2^64)%N) /\
       (forall i, j <= i -> nth i t 0%N = nth i c 0%N) /\ (forall k, k / per w < j -> rel w t k = G k))); [lia| |].
    + repeat split; auto. intros k Hk. now apply Nat.nlt_0_r in Hk.
    + intros j t Hj (T1 & T2 & T3 & T4). rewrite (lget_ok b j 0%N) by lia. cbn [bind].
      apply wp_bind. eapply wp_mono; [now apply t16_word_ok|]. cbv beta. intros v [Lv Hv].
      rewrite lset_ok by lia. cbn [wp]. split; [now rewrite upd_length|]. split; [|split].
      * intros i. rewrite nth_upd by lia. now destruct (j =? i).
      * intros i Hi. rewrite nth_upd_ne by lia. apply T3. lia.
      * intros k Hk. rewrite rel_upd by lia. destruct (Nat.eqb_spec (k / per w) j) as [Ej|Ej].
        -- rewrite Hv by auto. unfold G, rel. now rewrite Ej.
        -- apply T4. lia.
  - cbv beta. intros t (T1 & T2 & T3 & T4). rewrite (lget_ok b _ 0%N) by lia. cbn [bind].
    apply wp_bind. eapply wp_mono; [apply t16_word_ok; now apply land_lt_pow2|]. cbv beta. intros v [Lv Hv].
    rewrite (lget_ok t _ 0%N) by lia. cbn [bind]. rewrite lset_ok by lia. cbn [wp].
    apply row_done_intro; auto.
    + intros j Hj. now apply fmul_lt.
    + now rewrite upd_length.
    + intros j. rewrite nth_upd by lia. destruct (wid - 1 =? j); [|easy].
      apply lor_lt_pow2; [now apply land_lt_pow2|easy].
    + intros k Hk. fold wid in Hk. assert (Hd : k / per w < wid) by (apply Nat.div_lt_upper_bound; lia).
      cbn [Nat.leb andb]. rewrite rel_upd by lia. destruct (Nat.eqb_spec (k / per w) (wid - 1)) as [Ek|Ek].
      * rewrite lane_lor, T3 by lia.
        rewrite (lane_lmask _ _ _ _ _ (lmask_not w _ _ Hw M2) (Cm k)), Hv by auto.
        rewrite (lane_lmask _ _ _ _ _ M2 (Cm k)).
        rewrite (pos_last ff w Hwf Ew n k Hn Ek).
        destruct (k mod per w <? lastn w n); cbn [negb].
        -- rewrite N.lor_0_l. unfold G, rel. now rewrite Ek.
        -- rewrite fmul_0_r, N.lor_0_r. unfold rel. now rewrite Ek.
      * rewrite T4 by lia. rewrite (proj2 (Nat.ltb_lt k n)); [easy|]. 
        apply (pos_not_last ff w Hwf Ew n k Hn). fold wid. lia.
Qed.
End T16.

(** condition under which the table path is taken *)
Definition uses_table (B : mzed) : Prop :=
  ff_degree (mz_ff B) <= 8 /\ (2 ^ 17 <= N.of_nat (mz_nrows B) * N.of_nat (mz_ncols B))%N.

Lemma scalar_direct_eq B : (ff_degree (mz_ff B) <= 8 -> (N.of_nat (mz_nrows B) * N.of_nat (mz_ncols B) < 2 ^ 31)%N) ->
  scalar_direct B = Ok ((8 <? ff_degree (mz_ff B)) || (N.of_nat (mz_nrows B) * N.of_nat (mz_ncols B) <? 131072)%N).
Proof.
  intros H. unfold scalar_direct. destruct (8 <? ff_degree (mz_ff B)) eqn:E; [easy|].
  specialize (H ltac:(lia)). change (2 ^ 31)%N with 2147483648%N in H.
  replace (N.of_nat (mz_nrows B) * N.of_nat (mz_ncols B) <? 2147483648)%N with true by lia. reflexivity.
Qed.
Theorem mzed_mul_scalar_frame D a B : wf_mzed B -> inF (fld B) a ->
  wf_mzed D -> fld D = fld B -> mz_nrows D = mz_nrows B -> mz_ncols D = mz_ncols B ->
  (0 < mz_ncols B \/ mz_nrows B = 0) ->
  (ff_degree (mz_ff B) <= 8 -> (N.of_nat (mz_nrows B) * N.of_nat (mz_ncols B) < 2 ^ 31)%N) ->
  (uses_table B -> ff_degree (mz_ff B) = 2 \/ ff_degree (mz_ff B) = 4 \/ ff_degree (mz_ff B) = 8) ->
  wp (mzed_mul_scalar (Some D) a B) (fun C' => becomes D C' (mscal (fld B) a (entry B))).
Proof.
  intros HB Ha HD E1 E2 E3 Hne Hint Hdeg. unfold mzed_mul_scalar. cbn [bind]. rewrite <- E1 in Ha.
  rewrite scalar_direct_eq by exact Hint. cbn [bind].
  destruct ((8 <? ff_degree (mz_ff B)) || (N.of_nat (mz_nrows B) * N.of_nat (mz_ncols B) <? 131072)%N) eqn:Ep.
  - apply wp_bind. eapply wp_mono; [apply mzed_copy_ok; auto; cbn; auto|]. cbv beta.
    intros C1 [_ B1]. specialize (B1 D eq_refl).
    assert (BB : wp (for_ 0 (mz_nrows B) (fun i C => mzed_rescale_row C i 0 a) C1)
        (fun C' => becomes D C' (fun i c => if i <? mz_nrows B then fmul (fld B) a (entry B i c) else entry B i c))).
    { apply (wp_for (fun r C' => becomes D C' (fun i c => if i <? r then fmul (fld B) a (entry B i c) else entry B i c))); [lia| |].
      + eapply becomes_ext; [exact B1|]. cbv beta. intros i c _ _. now replace (i <? 0) with false by lia.
      + intros r C2 Hr B2. pose proof (becomes_nr _ _ _ B2) as N1. pose proof (becomes_nc _ _ _ B2) as N2.
        pose proof (becomes_ff _ _ _ B2) as N3.
        eapply wp_mono; [apply mzed_rescale_row_ok; [exact (becomes_wf _ _ _ B2)|now rewrite N3|lia|lia]|].
        cbv beta. intros C3 B3. eapply becomes_step; [exact B2|exact B3|]. cbv beta. intros i c Hi Hc.
        rewrite !(becomes_entry _ _ _ _ _ B2) by lia. rewrite N3, E1.
        replace (r <? r) with false by lia. cbn [Nat.leb]. rewrite andb_true_r.
        destruct (Nat.eqb_spec i r) as [->|].
        * now replace (r <? S r) with true by lia.
        * now replace (i <? S r) with (i <? r) by lia. }
    eapply wp_mono; [exact BB|]. cbv beta. intros C' B'. 
    eapply becomes_ext; [exact B'|]. cbv beta. intros i c Hi Hc. unfold mscal.
    now replace (i <? mz_nrows B) with true by lia.
  - apply orb_false_iff in Ep as [Ep1 Ep2]. assert (HU : uses_table B) by (unfold uses_table; lia).
    assert (Hd := Hdeg HU).
    pose proof HB as (Wff & Ww & Wnr & Wnc & Wlen & Wrow & Win).
    assert (Ew : mz_w B = ff_degree (mz_ff B)).
    { unfold gf2e_degree_to_w in Ww. destruct Hd as [H|[H|H]]; rewrite H in Ww |- *; congruence. }
    apply wp_bind. eapply wp_mono; [apply gf2e_t16_init_ok; auto; now rewrite <- E1|]. cbv beta.
    intros T (HT1 & HT2).
    assert (Hnc : 0 < mz_ncols B) by (destruct HU; nia).
    assert (wD : mz_w D = mz_w B) by now apply same_w.
    assert (BB : wp (for_ 0 (mz_nrows D) (fun i C =>
      c <- lget (mzd_rows (mz_x C)) i ;;
      b <- lget (mzd_rows (mz_x B)) i ;;
      _ <- guard (mzd_ncols (mz_x B) =? mzd_ncols (mz_x C)) ;;
      c' <- t16_row T (mzd_ncols (mz_x C)) b c ;;
      Ok (mz_set_x C (Mzd (mzd_nrows (mz_x C)) (mzd_ncols (mz_x C)) (upd (mzd_rows (mz_x C)) i c')))) D)
       (fun C' => becomes D C' (fun i c => if i <? mz_nrows D then fmul (fld B) a (entry B i c) else entry D i c))).
    { apply (wp_for (fun r C' => becomes D C' (fun i c => if i <? r then fmul (fld B) a (entry B i c) else entry D i c))); [lia| |].
      + eapply becomes_ext; [now apply becomes_refl|]. cbv beta. intros i c _ _. now replace (i <? 0) with false by lia.
      + intros r C2 Hr B2. pose proof (becomes_wf _ _ _ B2) as H2.
        pose proof (becomes_nr _ _ _ B2) as N1. pose proof (becomes_nc _ _ _ B2) as N2.
        pose proof (becomes_ff _ _ _ B2) as N3. pose proof (becomes_w _ _ _ B2) as N4.
        rewrite !lget_row by (auto; lia). cbn [bind].
        pose proof H2 as (_ & _ & _ & Z & _). rewrite Z, Wnc, N2, N4, wD, E3.
        rewrite Nat.eqb_refl. cbn [guard bind]. rewrite Ew. apply wp_bind. eapply wp_mono.
        * apply (t16_row_ok (mz_ff B) a T Wff Hd HT1 HT2 (mz_ncols B)); auto.
          -- rewrite <- Ew. apply wf_mrow; auto. lia.
          -- rewrite <- Ew. replace (fld B) with (fld C2) by congruence. replace (mz_w B) with (mz_w C2) by congruence.
             rewrite <- E3, <- N2. apply wf_mrow; auto. lia.
          -- now rewrite <- Ew.
        * cbv beta. intros a' Ha'. cbn [wp].
          assert (B3 : becomes C2 (mz_set_x C2 (Mzd (mzd_nrows (mz_x C2)) (mzd_ncols (mz_x C2)) (upd (mzd_rows (mz_x C2)) r a')))
             (fun i c => if (i =? r) && (0 <=? c) then fmul (fld B) a (entry B r c) else entry C2 i c)).
          { apply becomes_row; auto; [lia|]. replace (mz_ncols C2) with (mz_ncols B) by congruence.
            replace (mz_w C2) with (ff_degree (mz_ff B)) by congruence.
            destruct Ha' as [R1 R2]. split.
            - replace (fld C2) with (fld B) by congruence. exact R1.
            - intros c Hc. rewrite R2 by easy. unfold entry. now rewrite Ew. }
          rewrite Z, N2, N4, wD, E3, Ew in B3. eapply becomes_step; [exact B2|exact B3|]. cbv beta. intros i c Hi Hc.
          cbn [Nat.leb]. rewrite andb_true_r. destruct (Nat.eqb_spec i r) as [->|].
          -- now replace (r <? S r) with true by lia.
          -- rewrite (becomes_entry _ _ _ _ _ B2) by lia. now replace (i <? S r) with (i <? r) by lia. }
    eapply wp_mono; [exact BB|]. cbv beta. intros C' B'. 
    eapply becomes_ext; [exact B'|]. cbv beta. intros i c Hi Hc. unfold mscal.
    now replace (i <? mz_nrows D) with true by lia.
Qed.

Theorem mzed_mul_scalar_ok C a B : wf_mzed B -> inF (fld B) a ->
  target C (fld B) (mz_nrows B) (mz_ncols B) ->
  (0 < mz_ncols B \/ mz_nrows B = 0) ->
  (ff_degree (mz_ff B) <= 8 -> (N.of_nat (mz_nrows B) * N.of_nat (mz_ncols B) < 2 ^ 31)%N) ->
  (uses_table B -> ff_degree (mz_ff B) = 2 \/ ff_degree (mz_ff B) = 4 \/ ff_degree (mz_ff B) = 8) ->
  wp (mzed_mul_scalar C a B) (fun C' =>
    holds C' (fld B) (mz_nrows B) (mz_ncols B) (mscal (fld B) a (entry B))).
Proof.
  intros HB Ha HC Hne Hint Hdeg. unfold mzed_mul_scalar. apply (target_ok C B _ _ HB HC).
  intros D HD E1 E2 E3. eapply wp_mono; [exact (mzed_mul_scalar_frame D a B HB Ha HD E1 E2 E3 Hne Hint Hdeg)|]. cbv beta.
  intros C' B'. eapply becomes_holds'; eauto.
Qed.

(** the table path reads out of bounds for the remaining table-driven degrees *)
Theorem mzed_mul_scalar_oob a B : wf_mzed B -> inF (fld B) a -> uses_table B ->
  (ff_degree (mz_ff B) <= 8 -> (N.of_nat (mz_nrows B) * N.of_nat (mz_ncols B) < 2 ^ 31)%N) ->
  (ff_degree (mz_ff B) = 3 \/ ff_degree (mz_ff B) = 5 \/ ff_degree (mz_ff B) = 6 \/ ff_degree (mz_ff B) = 7) ->
  mzed_mul_scalar None a B = UB.
Proof.
  intros HB Ha [U1 U2] Hint Hd. unfold mzed_mul_scalar.
  destruct (wf_deg2 B HB) as [G1 G2].
  pose proof (mzed_init_ok (mz_ff B) (mz_nrows B) (mz_ncols B) G1 G2) as Hi.
  destruct (mzed_init (mz_ff B) (mz_nrows B) (mz_ncols B)); cbn [wp] in Hi; try contradiction. cbn [bind].
  rewrite scalar_direct_eq by exact Hint. cbn [bind].
  replace (8 <? ff_degree (mz_ff B)) with false by lia.
  change (2 ^ 17)%N with 131072%N in U2.
  replace (N.of_nat (mz_nrows B) * N.of_nat (mz_ncols B) <? 131072)%N with false by lia. cbn [orb].
  rewrite gf2e_t16_init_oob; auto.
Qed.

(** with 2^31 or more elements the size test overflows *)
Theorem mzed_mul_scalar_overflow C a B : wf_mzed B -> target C (fld B) (mz_nrows B) (mz_ncols B) ->
  ff_degree (mz_ff B) <= 8 -> (2 ^ 31 <= N.of_nat (mz_nrows B) * N.of_nat (mz_ncols B))%N ->
  mzed_mul_scalar C a B = UB.
Proof.
  intros HB HC H8 Hs. unfold mzed_mul_scalar.
  assert (E : scalar_direct B = UB).
  { unfold scalar_direct. replace (8 <? ff_degree (mz_ff B)) with false by lia.
    change (2 ^ 31)%N with 2147483648%N in Hs.
    now replace (N.of_nat (mz_nrows B) * N.of_nat (mz_ncols B) <? 2147483648)%N with false by lia. }
  rewrite E. destruct C as [C|]; [reflexivity|].
  destruct (wf_deg2 B HB) as [G1 G2].
  pose proof (mzed_init_ok (mz_ff B) (mz_nrows B) (mz_ncols B) G1 G2) as Hi.
  destruct (mzed_init (mz_ff B) (mz_nrows B) (mz_ncols B)); cbn [wp] in Hi; try contradiction. reflexivity.
Qed.
(** without columns the row scaling trips its assertion *)
Theorem mzed_mul_scalar_no_columns a B : wf_mzed B -> mz_ncols B = 0 -> 0 < mz_nrows B ->
  mzed_mul_scalar None a B = UB.
Proof.
  intros HB Hc Hr. unfold mzed_mul_scalar.
  destruct (wf_deg2 B HB) as [G1 G2].
  pose proof (mzed_init_ok (mz_ff B) (mz_nrows B) (mz_ncols B) G1 G2) as Hi.
  destruct (mzed_init (mz_ff B) (mz_nrows B) (mz_ncols B)) as [D| |]; cbn [wp] in Hi; try contradiction. cbn [bind].
  rewrite scalar_direct_eq by (rewrite Hc; cbn; lia). cbn [bind].
  replace (N.of_nat (mz_nrows B) * N.of_nat (mz_ncols B) <? 131072)%N with true by (rewrite Hc; lia).
  rewrite orb_true_r. destruct Hi as (_ & (HD & E1 & E2 & E3 & _) & _).
  assert (HC : wp (mzed_copy (Some D) B) (fun C1 => mz_ncols C1 = 0)).
  { eapply wp_mono; [apply mzed_copy_ok; [exact HB|cbn; auto]|]. cbv beta. intros C1 [_ B1].
    specialize (B1 D eq_refl). rewrite (becomes_nc _ _ _ B1), E3. exact Hc. }
  destruct (mzed_copy (Some D) B) as [C1| |]; cbn [wp] in HC; try contradiction. cbn [bind].
  unfold for_. rewrite Nat.sub_0_r. destruct (mz_nrows B) as [|k]; [lia|]. cbn [forloop].
  unfold mzed_rescale_row. rewrite HC. reflexivity.
Qed.
