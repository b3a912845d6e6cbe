(** Row operations through pointers (AliasModel.v): the result does not depend on whether source and target are the same row. *)
From Coq Require Import NArith Lia List Bool Arith.
From Coq Require Import ZifyBool ZifyNat ZifyN.
From Verif Require Import Base Spec PolyFacts Gf2xModel Gf2xProofs Gf2eModel Gf2eProofs MzdModel MzedModel MzedSpec LaneFacts MzedProofs MzedOps MzedOps2 ScalarProofs AliasModel.
Import ListNotations.
Local Open Scope nat_scope.

Lemma upd_upd {A} (l : list A) i x y : upd (upd l i x) i y = upd l i y.
Proof. revert i. induction l; intros [|i]; cbn; auto. now rewrite IHl. Qed.
Lemma upd_id {A} (l : list A) i d : upd l i (nth i l d) = l.
Proof. revert i. induction l; intros [|i]; cbn; auto. now rewrite IHl. Qed.

Section RowsAt.
Variables (ff : gf2e) (w : nat).
Hypothesis Hwf : gf2e_wf ff.
Hypothesis Hww : gf2e_degree_to_w ff = Ok w.
Let f := ff_minpoly ff.
Variable n : nat.
Let wid := width (w * n).
Let Hw : good_w w.
Proof. now apply (degree_to_w_facts ff). Qed.

(** the view of the source row at word j, while the words from j on of the target are still the old ones *)
Lemma view_nth same a b t j : (same = true -> b = a) -> nth j t 0%N = nth j a 0%N -> nth j (view same b t) 0%N = nth j b 0%N.
Proof. intros H1 H2. destruct same; cbn [view]; [now rewrite H1|reflexivity]. Qed.
Lemma view_len same b t (k : nat) : length b = k -> length t = k -> length (view same b t) = k.
Proof. now destruct same. Qed.

Lemma add_row_words_at_ok same s a b : s < n -> wf_row f w n a -> wf_row f w n b -> (same = true -> b = a) ->
  wp (add_row_words_at w (w * n) s (view same b) a) (row_done ff w n s a (fun c => N.lxor (rel w a c) (rel w b c))).
Proof.
  intros Hs Ha Hb Hv. unfold add_row_words_at. fold wid.
  rewrite div_w, mod_w by exact Hw. destruct (start_in ff w Hwf Hww n s Hs) as [S1 S2]. fold wid in S1, S2.
  assert (La : length a = wid) by apply Ha. assert (Lb : length b = wid) by apply Hb.
  assert (M1 := lmask_right w (s mod per w) Hw (cmod ff w Hwf Hww n s)). assert (M2 := lmask_left w n Hw).
  set (m1 := right_bitmask _) in *. set (m2 := left_bitmask _) in *.
  assert (WA := fun j => wf_row_word _ _ _ _ j Ha). assert (WB := fun j => wf_row_word _ _ _ _ j Hb).
  set (G := fun c => N.lxor (rel w a c) (rel w b c)).
  assert (HG : forall c, c < per w * wid -> inF f (G c)).
  { intros c Hc. apply lxor_lt_pow2; now apply (wf_row_rel ff w n). }
  assert (Lw : forall j m, (N.lxor (nth j a 0) (N.land (nth j b 0) m) < 2 ^ 64)%N).
  { intros j m. apply lxor_lt_pow2; [apply WA|]. apply land_lt_pow2, WB. }
  assert (Step : forall j m p c, lmask w m p -> c / per w = j ->
     lane w (N.lxor (nth j a 0%N) (N.land (nth j b 0%N) m)) (c mod per w) = if p (c mod per w) then G c else rel w a c).
  { intros j m p c Hm Hc. rewrite lane_lxor, (lane_lmask _ _ _ _ _ Hm) by apply (cmod ff w Hwf Hww n).
    unfold G, rel. rewrite Hc. destruct (p (c mod per w)); [reflexivity|apply N.lxor_0_r]. }
  assert (Va : forall j, j < wid -> lget (view same b a) j = Ok (nth j b 0%N)).
  { intros j Hj. rewrite (lget_ok _ j 0%N) by (rewrite (view_len same b a wid); auto). now rewrite (view_nth same a b a j). }
  destruct (Nat.ltb_spec 1 (wid - s / per w)) as [L|L].
  - rewrite (lget_ok a _ 0%N), Va by lia. cbn [bind]. rewrite lset_ok by lia. cbn [bind].
    apply wp_bind. eapply wp_mono.
    + apply (wp_for (row_inv w n s a G)); [lia| |].
      * apply (row_first ff w); auto.
      * intros j t Hj Ht. pose proof Ht as (T1 & T2 & T3 & T4). fold wid in T1.
        rewrite (lget_ok t j 0%N), (lget_ok (view same b t) j 0%N) by (rewrite ?(view_len same b t wid); auto; lia). cbn [bind]. rewrite lset_ok by lia. cbn [wp].
        rewrite (view_nth same a b t j) by (auto; apply T3; lia).
        rewrite T3 by lia. apply (row_mid ff w); auto; [fold wid; lia|now apply lxor_lt_pow2|].
        intros c Hc. rewrite lane_lxor. unfold G, rel. now rewrite Hc.
    + cbv beta. intros t Ht. pose proof Ht as (T1 & T2 & T3 & T4). fold wid in T1.
      rewrite (lget_ok t _ 0%N), (lget_ok (view same b t) _ 0%N) by (rewrite ?(view_len same b t wid); auto; lia). cbn [bind]. rewrite lset_ok by lia. cbn [wp].
      rewrite (view_nth same a b t) by (auto; apply T3; lia).
      rewrite T3 by lia. apply (row_last ff w); auto; [fold wid; lia|]. intros c Hc. now apply (Step _ _ _ _ M2).
  - rewrite (lget_ok a _ 0%N), Va by lia. cbn [bind]. rewrite lset_ok by lia. cbn [wp].
    apply (row_single ff w); auto; [fold wid; lia|]. intros c Hc. now apply (Step _ _ _ _ (lmask_land _ _ _ _ _ M1 M2)).
Qed.

(** the last word, lane by lane in memory *)
Lemma tail_at_ok same x hi b t j : (same = true -> nth j b 0%N = nth j t 0%N) -> hi <= per w -> inF f x -> j < length t -> j < length b ->
  lanes_in ff w (nth j b 0%N) -> (nth j t 0 < 2 ^ 64)%N ->
  wp (for_down 0 hi (fun k t =>
        tj <- lget t j ;; fj <- lget (view same b t) j ;;
        v <- gf2e_mul ff x (N.land (wshr fj (w * k)) (N.ones (N.of_nat w))) ;;
        lset t j (N.lxor tj (wshl v (w * k)))) t)
     (fun t' => exists u, t' = upd t j u /\ (u < 2 ^ 64)%N /\
        forall k, k < per w -> lane w u k = if k <? hi then N.lxor (lane w (nth j t 0%N) k) (fmul f x (lane w (nth j b 0%N) k)) else lane w (nth j t 0%N) k).
Proof.
  intros Hv Hh Hx Lt Lb Hl Ht. pose proof (gf2e_wf_f0 ff Hwf) as f0. eapply wp_mono.
  - apply (wp_for_down (fun i t' => exists u, t' = upd t j u /\ (u < 2 ^ 64)%N /\
        forall k, k < per w -> lane w u k = if (i <=? k) && (k <? hi) then N.lxor (lane w (nth j t 0%N) k) (fmul f x (lane w (nth j b 0%N) k)) else lane w (nth j t 0%N) k)); [lia| |].
    + exists (nth j t 0%N). split; [symmetry; apply upd_id|]. split; [exact Ht|]. intros k Hk. now replace ((hi <=? k) && (k <? hi)) with false by lia.
    + intros k t' Hk (u & -> & Lu & Hu). rewrite (lget_ok (upd t j u) j 0%N) by (rewrite upd_length; lia). rewrite nth_upd_eq by lia. cbn [bind].
      rewrite (lget_ok _ j 0%N) by (destruct same; cbn [view]; rewrite ?upd_length; lia). cbn [bind].
      assert (EL : N.land (wshr (nth j (view same b (upd t j u)) 0%N) (w * k)) (N.ones (N.of_nat w)) = lane w (nth j b 0%N) k).
      { change (lane w (nth j (view same b (upd t j u)) 0%N) k = lane w (nth j b 0%N) k). destruct same; cbn [view]; [|reflexivity].
        rewrite nth_upd_eq by lia. rewrite Hu by lia. replace ((S k <=? k) && (k <? hi)) with false by lia. now rewrite Hv. }
      rewrite EL. rewrite gf2e_mul_ok by (auto; apply Hl; lia). cbn [bind]. rewrite lset_ok by (rewrite upd_length; lia). cbn [wp].
      eexists. split; [apply upd_upd|]. split; [apply lxor_lt_pow2; [easy|apply wshl_lt]|].
      intros q Hq. rewrite lane_lxor. rewrite (lane_wshl w _ k) by (auto using (fmul_lt_w ff w); lia). rewrite Hu by easy.
      destruct (Nat.eqb_spec q k) as [->|].
      * replace ((S k <=? k) && (k <? hi)) with false by lia. now replace ((k <=? k) && (k <? hi)) with true by lia.
      * rewrite N.lxor_0_r. now replace ((S k <=? q) && (q <? hi)) with ((k <=? q) && (q <? hi)) by lia.
  - cbv beta. intros t' (u & -> & Lu & Hu). exists u. split; [reflexivity|]. split; [exact Lu|]. intros k Hk. now rewrite Hu.
Qed.

Lemma axpy_words_at_ok same x s a b : inF f x -> s < n -> wf_row f w n a -> wf_row f w n b -> (same = true -> b = a) ->
  wp (axpy_words_at ff w x (w * n) s (view same b) a) (row_done ff w n s a (fun c => N.lxor (rel w a c) (fmul f x (rel w b c)))).
Proof.
  intros Hx Hs Ha Hb Hv. unfold axpy_words_at. fold wid.
  replace (w * s / w) with s by (rewrite Nat.mul_comm, Nat.div_mul; [easy|pose proof (good_w_pos w Hw); lia]).
  rewrite div_w by exact Hw. rewrite last_lanes_eq by exact Hw. fold (per w).
  destruct (start_in ff w Hwf Hww n s Hs) as [S1 S2]. fold wid in S1, S2.
  assert (La : length a = wid) by apply Ha. assert (Lb : length b = wid) by apply Hb.
  assert (M2 := lmask_left w n Hw). set (m2 := left_bitmask _) in *.
  assert (WA := fun j => wf_row_word _ _ _ _ j Ha). assert (WB := fun j => wf_row_word _ _ _ _ j Hb).
  pose proof (gf2e_wf_f0 ff Hwf) as f0.
  set (G := fun c => N.lxor (rel w a c) (fmul f x (rel w b c))).
  assert (HG : forall c, c < per w * wid -> inF f (G c)).
  { intros c Hc. apply lxor_lt_pow2; [now apply (wf_row_rel ff w n)|now apply fmul_lt]. }
  destruct (lastn_spec w n Hw ltac:(lia)) as (_ & HL & _).
  pose proof (cmod ff w Hwf Hww n s) as Ms.
  rewrite (lget_ok (view same b a) _ 0%N), (lget_ok a _ 0%N) by (rewrite ?(view_len same b a wid); auto; lia). cbn [bind].
  rewrite (view_nth same a b a) by auto.
  apply wp_bind. eapply wp_mono.
  { apply (axpy_lanes_ok ff w Hwf Hww); auto; [lia|apply (wf_row_lanes ff w Hww n); auto; fold wid; lia]. }
  cbv beta. intros t0 [Lt0 Ht0].
  assert (Ht0' : forall c, c / per w = s / per w ->
     lane w t0 (c mod per w) = if s mod per w <=? c mod per w then G c else rel w a c).
  { intros c Hc. pose proof (cmod ff w Hwf Hww n c). rewrite Ht0 by easy. replace (c mod per w <? per w) with true by lia.
    rewrite andb_true_r. unfold G, rel. now rewrite Hc. }
  destruct (Nat.eqb_spec (wid - s / per w) 1) as [L|L].
  - cbn [bind]. rewrite (lset_ok a) by lia. cbn [bind]. rewrite (lget_ok _ _ 0%N) by (rewrite upd_length; lia). rewrite nth_upd_eq by lia. cbn [bind].
    rewrite lset_ok by (rewrite upd_length; lia). cbn [wp]. rewrite upd_upd. apply (row_single ff w); auto; [fold wid; lia| |].
    + apply lxor_lt_pow2; now apply land_lt_pow2.
    + intros c Hc. pose proof (cmod ff w Hwf Hww n c) as Mc.
      rewrite lane_lxor, (lane_lmask _ _ _ _ _ (lmask_not w _ _ Hw M2) Mc), (lane_lmask _ _ _ _ _ M2 Mc).
      rewrite Ht0' by easy. destruct (c mod per w <? lastn w n); cbn [negb].
      * rewrite andb_true_r. apply N.lxor_0_l.
      * rewrite andb_false_r, N.lxor_0_r. unfold rel. now rewrite Hc.
  - rewrite lset_ok by lia. cbn [bind]. apply wp_bind. eapply wp_mono.
    + apply (wp_bulk_loop ff Hwf (row_inv w n s a G)); auto using (unroll_pos ff w Hwf); [lia| |].
      * apply (row_first ff w); auto.
      * intros j t Hj Ht. pose proof Ht as (T1 & T2 & T3 & T4). fold wid in T1.
        rewrite (lget_ok (view same b t) j 0%N), (lget_ok t j 0%N) by (rewrite ?(view_len same b t wid); auto; lia). cbn [bind].
        rewrite (view_nth same a b t j) by (auto; apply T3; lia).
        apply wp_bind. eapply wp_mono; [apply (axpy_lanes_ok ff w Hwf Hww); auto; [lia|apply (wf_row_lanes ff w Hww n); auto; fold wid; lia]|].
        cbv beta. intros t1 [Lt1 Ht1]. rewrite lset_ok by lia. cbn [wp].
        apply (row_mid ff w); auto; [fold wid; lia|]. intros c Hc. pose proof (cmod ff w Hwf Hww n c). rewrite Ht1 by easy.
        replace (c mod per w <? per w) with true by lia. cbn [Nat.leb andb]. rewrite T3 by lia.
        unfold G, rel. now rewrite Hc.
    + intros [j t] [-> Ht]. pose proof Ht as (T1 & T2 & T3 & T4). fold wid in T1.
      eapply wp_mono; [refine (tail_at_ok same x (lastn w n) b t (wid - 1) _ (proj2 HL) Hx _ _ _ (T2 _))|].
      * intros E. rewrite (Hv E). symmetry. apply T3. lia.
      * lia.
      * lia.
      * apply (wf_row_lanes ff w Hww n); auto. fold wid. lia.
      * cbv beta. intros t' (u & -> & Lu & Hu). apply (row_last ff w); auto; [fold wid; lia|]. intros c Hc. pose proof (cmod ff w Hwf Hww n c). rewrite Hu by easy.
        rewrite T3 by lia. unfold G, rel. now rewrite Hc.
Qed.
End RowsAt.

Section T16At.
Variables (ff : gf2e) (a : N) (T : list N).
Let w := ff_degree ff.
Hypothesis Hwf : gf2e_wf ff.
Hypothesis Hdeg : w = 2 \/ w = 4 \/ w = 8.
Let f := ff_minpoly ff.
Hypothesis HT1 : length T = 2 ^ 16.
Hypothesis HT2 : forall x, (x < 2 ^ 16)%N ->
  (nth (N.to_nat x) T 0 < 2 ^ 16)%N /\
  forall k, k < 16 / w -> lane w (nth (N.to_nat x) T 0%N) k = fmul f a (lane w x k).
Let Hw : good_w w. Proof. unfold good_w. lia. Qed.

Lemma t16_row_at_ok same n b c : 0 < n -> wf_row f w n b -> wf_row f w n c -> (same = true -> b = c) ->
  gf2e_degree_to_w ff = Ok w ->
  wp (t16_row_at T (w * n) (view same b) c) (row_done ff w n 0 c (fun j => fmul f a (rel w b j))).
Proof.
  intros Hn Hb Hc Hv Ew. unfold t16_row_at. set (wid := width (w * n)).
  destruct (lastn_spec w n Hw Hn) as (E & HL & HW). fold wid in E, HW.
  assert (Lb : length b = wid) by apply Hb. assert (Lc : length c = wid) by apply Hc.
  assert (M2 := lmask_left w n Hw). set (hb := left_bitmask _) in *.
  assert (WB := fun j => wf_row_word _ _ _ _ j Hb). assert (WC := fun j => wf_row_word _ _ _ _ j Hc).
  pose proof (per_pos w Hw) as Pp. pose proof (gf2e_wf_f0 ff Hwf) as f0.
  assert (Cm : forall j, j mod per w < per w) by (intros; apply Nat.mod_upper_bound; lia).
  set (G := fun j => fmul f a (rel w b j)).
  assert (Vt : forall t j, length t = wid -> j < wid -> nth j t 0%N = nth j c 0%N -> lget (view same b t) j = Ok (nth j b 0%N)).
  { intros t j Hl Hj Hn'. rewrite (lget_ok _ j 0%N) by (destruct same; cbn [view]; lia). now rewrite (view_nth same c b t j). }
  apply wp_bind. eapply wp_mono.
  - apply (wp_for (fun j t => length t = wid /\ (forall i, (nth i t 0 < 2^64)%N) /\
       (forall i, j <= i -> nth i t 0%N = nth i c 0%N) /\ (forall k, k / per w < j -> rel w t k = G k))); [lia| |].
    + repeat split; auto. intros k Hk. now apply Nat.nlt_0_r in Hk.
    + intros j t Hj (T1 & T2 & T3 & T4). rewrite Vt by (auto; try lia; apply T3; lia). cbn [bind].
      apply wp_bind. eapply wp_mono; [now apply (t16_word_ok ff a T)|]. cbv beta. intros v [Lv Hv'].
      rewrite lset_ok by lia. cbn [wp]. split; [now rewrite upd_length|]. split; [|split].
      * intros i. rewrite nth_upd by lia. now destruct (j =? i).
      * intros i Hi. rewrite nth_upd_ne by lia. apply T3. lia.
      * intros k Hk. rewrite rel_upd by lia. destruct (Nat.eqb_spec (k / per w) j) as [Ej|Ej].
        -- rewrite Hv' by auto. unfold G, rel. now rewrite Ej.
        -- apply T4. lia.
  - cbv beta. intros t (T1 & T2 & T3 & T4). rewrite Vt by (auto; try lia; apply T3; lia). cbn [bind].
    apply wp_bind. eapply wp_mono; [apply (t16_word_ok ff a T); auto; now apply land_lt_pow2|]. cbv beta. intros v [Lv Hv'].
    rewrite (lget_ok t _ 0%N) by lia. cbn [bind]. rewrite (lset_ok t) by lia. cbn [bind].
    rewrite (lget_ok _ _ 0%N) by (rewrite upd_length; lia). rewrite nth_upd_eq by lia. cbn [bind]. rewrite lset_ok by (rewrite upd_length; lia). cbn [wp]. rewrite upd_upd.
    apply row_done_intro; auto.
    + intros j Hj. now apply fmul_lt.
    + now rewrite upd_length.
    + intros j. rewrite nth_upd by lia. destruct (wid - 1 =? j); [|easy].
      apply lor_lt_pow2; [now apply land_lt_pow2|easy].
    + intros k Hk. fold wid in Hk. assert (Hd : k / per w < wid) by (apply Nat.div_lt_upper_bound; lia).
      cbn [Nat.leb andb]. rewrite rel_upd by lia. destruct (Nat.eqb_spec (k / per w) (wid - 1)) as [Ek|Ek].
      * rewrite lane_lor, T3 by lia.
        rewrite (lane_lmask _ _ _ _ _ (lmask_not w _ _ Hw M2) (Cm k)), Hv' by auto.
        rewrite (lane_lmask _ _ _ _ _ M2 (Cm k)).
        rewrite (pos_last ff w Hwf Ew n k Hn Ek).
        destruct (k mod per w <? lastn w n); cbn [negb].
        -- rewrite N.lor_0_l. unfold G, rel. now rewrite Ek.
        -- rewrite fmul_0_r, N.lor_0_r. unfold rel. now rewrite Ek.
      * rewrite T4 by lia. rewrite (proj2 (Nat.ltb_lt k n)); [easy|].
        apply (pos_not_last ff w Hwf Ew n k Hn). fold wid. lia.
Qed.
End T16At.
