(** mzed_echelonize_newton_john, continued: the tables, process_rows and the main loop; inversion. *)
From Coq Require Import NArith Lia List Bool Arith.
From Coq Require Import ZifyBool ZifyNat ZifyN.
From Verif Require Import Base Spec LinSpec PolyFacts MatFacts EchFacts Gf2xModel Gf2eModel Gf2eProofs.
From Verif Require Import MzdModel MzedModel MzedSpec LaneFacts MzedProofs MzedOps MzedOps2 EchNaive NjModel NjTable NjMul NjEch.
Import ListNotations.
Local Open Scope nat_scope.

Lemma lget_firstn {X} (l : list X) : forall k i, i < k -> lget (firstn k l) i = lget l i.
Proof.
  unfold lget. induction l as [|x l IH]; intros [|k] [|i] Hi; cbn; try lia; auto. apply IH. lia.
Qed.

(** table T holds the multiples of row p of A from the block of column c on *)
Definition tabrow (A : mzed) (p c : nat) (T : njt) : Prop :=
  wf_mzed (nj_T T) /\ fld (nj_T T) = fld A /\ mz_ncols (nj_T T) = mz_ncols A /\
  forall x, inF (fld A) x -> exists l, nj_lookup T x = Ok l /\ l < mz_nrows (nj_T T) /\
    forall j, j < cap A -> per (mz_w A) * (c / per (mz_w A)) <= j ->
      entry (nj_T T) l j = if j <? mz_ncols A then fmul (fld A) x (entry A p j) else 0%N.
Definition tabs_for (A : mzed) (r c k : nat) (Ts : list njt) : Prop :=
  length Ts = k /\ forall l T, l < k -> lget Ts l = Ok T -> tabrow A (r + l) c T.

Definition njts (ff : gf2e) (n : nat) (q : nat) (Ts : list njt) : Prop :=
  length Ts = q /\ forall i T, lget Ts i = Ok T -> njt_wf (ff_minpoly ff) (ff_degree ff) n T.

Lemma nj_tables_ok Ts A r c kbar q : wf_mzed A -> njts (mz_ff A) (mz_ncols A) q Ts -> kbar <= q -> kbar * mz_w A <= 64 ->
  gblock (mz_nrows A) (mz_ncols A) r c kbar (entry A) ->
  wp (nj_tables Ts A r c kbar) (fun Ts' => njts (mz_ff A) (mz_ncols A) q Ts' /\ tabs_for A r c kbar (firstn kbar Ts')).
Proof.
  intros H (L & HT) Hk Hkw (G1 & G2 & G3 & G4). unfold nj_tables. pose proof (wf_good A H) as Hw.
  pose proof (per_pos _ Hw) as Pp. pose proof (per_mul _ Hw) as Pm. pose proof (good_w_pos _ Hw) as Pw.
  assert (Kp : kbar <= per (mz_w A)) by nia.
  eapply wp_mono.
  - apply (wp_for (fun k Ts' => njts (mz_ff A) (mz_ncols A) q Ts' /\
      forall l T, l < k -> lget Ts' l = Ok T -> tabrow A (r + l) c T)); [lia| |].
    + split; [now split|]. intros; lia.
    + intros k Ts' Hkk ((L' & HT') & Hl). destruct (lget_some Ts' k ltac:(lia)) as (T & ET). rewrite ET. cbn [bind].
      apply wp_bind. eapply wp_mono; [apply mzed_make_table_ok; auto; [now apply (HT' k)|lia|lia]|]. cbv beta.
      intros T' (WT' & TH). rewrite lset_ok by lia. cbn [wp]. split; [split|].
      * now rewrite upd_length.
      * intros i U EU. apply lget_upd in EU as [[-> ->]|[_ EU]]; [exact WT'|eauto|lia].
      * intros l U Hlk EU. apply lget_upd in EU as [[-> ->]|[Hne EU]]; [|apply Hl; auto; lia|lia].
        destruct WT' as (_ & (W & F & _ & C) & _). split; [easy|]. split; [easy|]. split; [easy|].
        intros x Hx. destruct (TH x Hx) as (i & E1 & E2 & E3). exists i. split; [easy|]. split; [easy|].
        intros j Hj Hge. destruct (E3 j Hj) as [E4 E5].
        set (p := per (mz_w A)) in *.
        assert (Dv : (c + k) / p <= c / p + 1).
        { rewrite <- (Nat.div_add c 1 p) by lia. apply Nat.div_le_mono; lia. }
        destruct (Nat.lt_ge_cases j (p * ((c + k) / p))) as [Lt|Ge].
        -- destruct (E5 Lt) as [_ E6]. rewrite E6 by nia.
           assert (j < c + k). { pose proof (Nat.mul_div_le (c + k) p ltac:(lia)). lia. }
           replace (j <? mz_ncols A) with true by lia.
           assert (Z : entry A (r + k) j = 0%N).
           { destruct (Nat.lt_ge_cases j c); [apply G4; lia|]. replace j with (c + (j - c)) by lia.
             rewrite G3 by lia. now replace (k =? j - c) with false by lia. }
           now rewrite Z, fmul_0_r.
        -- rewrite (E4 Ge). destruct (Nat.ltb_spec j (mz_ncols A)); [|now rewrite andb_false_r]. rewrite andb_true_r.
           destruct (Nat.leb_spec (c + k) j); [easy|].
           assert (Z : entry A (r + k) j = 0%N).
           { destruct (Nat.lt_ge_cases j c); [apply G4; lia|]. replace j with (c + (j - c)) by lia.
             rewrite G3 by lia. now replace (k =? j - c) with false by lia. }
           now rewrite Z, fmul_0_r.
  - cbv beta. intros Ts' ((L' & HT') & Hl). split; [now split|]. split; [rewrite firstn_length; lia|].
    intros l T Hlk. rewrite lget_firstn by easy. now apply Hl.
Qed.

(** process_rows with tables of rows of A applied to a matrix B that has the same pivot rows *)
Lemma process_rows_ok A B lo hi r c k Ts : wf_mzed A -> wf_mzed B -> same_shape A B -> k * mz_w A <= 64 ->
  gblock (mz_nrows A) (mz_ncols A) r c k (entry A) -> tabs_for A r c k Ts ->
  lo <= hi <= mz_nrows A -> (hi <= r \/ r + k <= lo) ->
  (forall l j, l < k -> j < mz_ncols A -> entry B (r + l) j = entry A (r + l) j) ->
  wp (mzed_process_rows B lo hi c Ts) (fun B' => becomes B B'
    (comb (fld A) (fun i => (lo <=? i) && (i <? hi)) r c k (entry B))).
Proof.
  intros HA HB Sh Hkw (G1 & G2 & G3 & G4) (L & HT) Hl Ho Heq.
  assert (Sh' := Sh). destruct Sh' as (Sf & Sw & Sr & Sc).
  unfold mzed_process_rows. rewrite L, <- Sw. replace (k * mz_w A <=? 64) with true by lia. cbn [guard bind].
  pose proof (wf_good A HA) as Hw. pose proof (per_pos _ Hw) as Pp.
  rewrite (Nat.mul_comm c), div_w by easy.
  eapply wp_mono.
  - apply (wp_for (fun t B' => becomes B B' (comb (fld A) (fun i => (lo <=? i) && (i <? t)) r c k (entry B)))); [lia| |].
    + eapply becomes_ext; [now apply becomes_refl|]. intros i j _ _. unfold comb. now replace ((lo <=? i) && (i <? lo)) with false by lia.
    + intros t D Ht BD. pose proof (becomes_wf _ _ _ BD) as WD. pose proof (becomes_nr _ _ _ BD) as Dr.
      pose proof (becomes_nc _ _ _ BD) as Dc. pose proof (becomes_ff _ _ _ BD) as Df. pose proof (becomes_w _ _ _ BD) as Dw.
      assert (Et : forall j, j < mz_ncols A -> entry D t j = entry B t j).
      { intros j Hj. rewrite (becomes_entry _ _ _ _ _ BD) by lia. apply comb_out. lia. }
      eapply wp_mono.
      * apply (wp_for (fun q D' => becomes D D' (fun i j => if i =? t then N.lxor (entry B t j) (xsum q (fun l => fmul (fld A) (entry B t (c + l)) (entry B (r + l) j))) else entry D i j))); [lia| |].
        -- eapply becomes_ext; [now apply becomes_refl|]. cbv beta. intros i j Hi Hj. cbn [xsum]. rewrite N.lxor_0_r.
           destruct (Nat.eqb_spec i t) as [->|]; [apply Et; lia|easy].
        -- intros q D' Hq BD'. pose proof (becomes_wf _ _ _ BD') as WD'. pose proof (becomes_nr _ _ _ BD') as Dr'.
           pose proof (becomes_nc _ _ _ BD') as Dc'. pose proof (becomes_ff _ _ _ BD') as Df'. pose proof (becomes_w _ _ _ BD') as Dw'.
           destruct (lget_some Ts q ltac:(lia)) as (T & ET). rewrite ET. cbn [bind].
           rewrite mzed_read_elem_ok by (auto; lia). cbn [bind]. rewrite Et by lia.
           destruct (HT q T ltac:(lia) ET) as (WT & FT & CT & HX).
           destruct (HX (entry B t (c + q))) as (i & E1 & E2 & E3).
           { rewrite Sf. apply wf_entry; auto; lia. }
           rewrite E1. cbn [bind].
           assert (Ec : cap D' = cap A) by (unfold cap; congruence).
           assert (Hcc : per (mz_w A) * (c / per (mz_w A)) <= c) by (apply Nat.mul_div_le; lia).
           eapply wp_mono; [apply combine_row_ok; auto; try congruence; try lia|].
           { intros j Hj. rewrite E3 by lia. now replace (j <? mz_ncols A) with false by lia. }
           cbv beta. intros D2 BD2. eapply becomes_step; [exact BD'|exact BD2|]. cbv beta. intros i' j Hi' Hj.
           rewrite (becomes_entry _ _ _ _ _ BD') by lia. destruct (Nat.eqb_spec i' t) as [->|Hne]; [|easy].
           cbn [andb xsum]. replace (mz_w D') with (mz_w A) by congruence.
           pose proof (wf_cap A HA).
           destruct (Nat.leb_spec (per (mz_w A) * (c / per (mz_w A))) j) as [Ge|Lt].
           ++ rewrite E3 by lia. replace (j <? mz_ncols A) with true by lia. rewrite Heq by lia. now rewrite N.lxor_assoc.
           ++ rewrite (Heq q j) by lia. rewrite (G4 (r + q) j) by lia. now rewrite fmul_0_r, N.lxor_0_r.
      * cbv beta. intros D' BD'. eapply becomes_step; [exact BD|exact BD'|]. cbv beta. intros i j Hi Hj.
        rewrite (becomes_entry _ _ _ _ _ BD) by lia. unfold comb. destruct (Nat.eqb_spec i t) as [->|].
        -- now replace ((lo <=? t) && (t <? S t)) with true by lia.
        -- now replace (i <? S t) with (i <? t) by lia.
  - cbv beta. auto.
Qed.

(** ** the main loop *)
Lemma ech_inv_ext full m n c r piv R R' : c <= n -> meq m n R R' -> ech_inv full m n c r piv R -> ech_inv full m n c r piv R'.
Proof.
  intros Hc M (J1 & J2 & J3 & J4 & J5). split; [easy|]. split; [|split; [easy|split]].
  - intros i Hi. destruct (J2 i Hi) as (K1 & K2 & K3). split; [easy|].
    split; [rewrite <- M by lia; easy|]. intros j Hj. rewrite <- M by lia. now apply K3.
  - intros i j Hi Hj. rewrite <- M by lia. now apply J4.
  - intros Hfull i i' Hi Hi' Hne. destruct (J2 i Hi) as (K1 & _). rewrite <- M by lia. now apply J5.
Qed.
(** row operations that keep rows < r and the zeros left of column c keep the invariant *)
Lemma ech_inv_transfer full m n c r piv R R' : c <= n -> ech_inv full m n c r piv R ->
  (forall i j, i < r -> j < n -> R' i j = R i j) -> (forall i j, r <= i < m -> j < c -> R' i j = 0%N) ->
  ech_inv full m n c r piv R'.
Proof.
  intros Hc (J1 & J2 & J3 & J4 & J5) K1 K2. split; [easy|]. split; [|split; [easy|split; [easy|]]].
  - intros i Hi. destruct (J2 i Hi) as (P1 & P2 & P3). split; [easy|]. split; [rewrite K1 by lia; easy|].
    intros j Hj. rewrite K1 by lia. now apply P3.
  - intros Hfull i i' Hi Hi' Hne. destruct (J2 i Hi) as (P1 & _).
    destruct (Nat.lt_ge_cases i' r); [rewrite K1 by lia; now apply J5|apply K2; lia].
Qed.
Lemma ech_inv_block (f : N) (Hf : (1 <= pdeg f)%N) (full last : bool) m n c r kbar piv R : inM f m n R -> ech_inv full m n c r piv R ->
  gblock m n r c kbar R ->
  (last = false -> forall i l, r + kbar <= i < m -> l < kbar -> R i (c + l) = 0%N) ->
  ech_inv full m n (c + kbar) (r + kbar) (fun i => if i <? r then piv i else c + (i - r))
    (comb f (fun i => last && (r + kbar <=? i) || full && (i <? r)) r c kbar R).
Proof.
  intros HR (J1 & J2 & J3 & J4 & J5) G Hz. pose proof G as (G1 & G2 & G3 & G4).
  set (S := fun i => last && (r + kbar <=? i) || full && (i <? r)).
  assert (Lf : forall i j, j < c -> comb f S r c kbar R i j = R i j) by (intros; now apply (comb_left f Hf S m n)).
  assert (Bl : forall l j, l < kbar -> comb f S r c kbar R (r + l) j = R (r + l) j).
  { intros l j Hl. apply comb_out. unfold S. replace (r + kbar <=? r + l) with false by lia. replace (r + l <? r) with false by lia. now destruct last, full. }
  assert (Cz : forall i l, i < m -> l < kbar -> S i = true -> comb f S r c kbar R i (c + l) = 0%N).
  { intros i l Hi Hl HS. now apply (comb_block f Hf S m n). }
  assert (Lo : forall i l, r + kbar <= i < m -> l < kbar -> comb f S r c kbar R i (c + l) = 0%N).
  { intros i l Hi Hl. destruct last eqn:El.
    - apply Cz; auto; [lia|]. unfold S. now replace (r + kbar <=? i) with true by lia.
    - rewrite comb_out; [now apply Hz|]. unfold S. replace (i <? r) with false by lia. now rewrite andb_false_r. }
  split; [lia|]. split; [|split; [|split]].
  - intros i Hi. destruct (Nat.ltb_spec i r) as [Hlt|Hge].
    + destruct (J2 i Hlt) as (P1 & P2 & P3). split; [lia|]. rewrite Lf by easy. split; [easy|]. intros j Hj. rewrite Lf by lia. now apply P3.
    + replace i with (r + (i - r)) by lia. set (l := i - r). replace (r + l - r) with l by lia.
      assert (l < kbar) by (unfold l; lia). rewrite Bl by easy. split; [lia|]. split; [rewrite G3, Nat.eqb_refl by lia; easy|].
      intros j Hj. rewrite Bl by easy. destruct (Nat.lt_ge_cases j c); [apply G4; lia|].
      replace j with (c + (j - c)) by lia. rewrite G3 by lia. now replace (l =? j - c) with false by lia.
  - intros i i' Hlt Hi'. destruct (Nat.ltb_spec i r), (Nat.ltb_spec i' r); try lia.
    + now apply J3.
    + destruct (J2 i ltac:(lia)). lia.
  - intros i j Hi Hj. destruct (Nat.lt_ge_cases j c) as [Hlt|Hge].
    + rewrite Lf by easy. apply J4; lia.
    + replace j with (c + (j - c)) by lia. apply Lo; lia.
  - intros Hfull i i' Hi Hi' Hne. destruct (Nat.ltb_spec i r) as [Hlt|Hge].
    + destruct (J2 i Hlt) as (P1 & _). rewrite Lf by easy. now apply J5.
    + set (l := i - r). assert (l < kbar) by (unfold l; lia).
      destruct (Nat.lt_ge_cases i' r) as [L1|L1].
      * apply Cz; auto. unfold S. rewrite Hfull. replace (i' <? r) with true by lia. cbn. apply orb_true_r.
      * destruct (Nat.lt_ge_cases i' (r + kbar)) as [L2|L2].
        -- replace i' with (r + (i' - r)) by lia. rewrite Bl by lia. rewrite G3 by lia. now replace (i' - r =? l) with false by lia.
        -- apply Lo; lia.
Qed.

Lemma nj_ech_loop_ok fuel : forall full A0 A Ts r c kk piv, irreducible (fld A0) -> wf_mzed A0 -> reach A0 A ->
  njts (mz_ff A0) (mz_ncols A0) 6 Ts -> kk <= 6 -> kk * mz_w A0 <= 64 -> 0 < kk \/ mz_ncols A0 <= c ->
  ech_inv full (mz_nrows A0) (mz_ncols A0) c r piv (entry A) -> c <= mz_ncols A0 -> mz_ncols A0 - c <= fuel ->
  wp (nj_ech_loop fuel full A Ts r c kk) (fun '(A', r') => ech_result full A0 A' r').
Proof.
  assert (Done : forall full A0 A r c piv, wf_mzed A0 -> reach A0 A -> ech_inv full (mz_nrows A0) (mz_ncols A0) c r piv (entry A) ->
     c <= mz_ncols A0 -> mz_ncols A0 <= c -> ech_result full A0 A r).
  { intros full A0 A r c piv HA0 (B & Q) I Hc Hc'. assert (c = mz_ncols A0) as -> by lia. split; [easy|]. split; [easy|]. exists piv. now apply ech_inv_done. }
  induction fuel as [|fuel IH]; intros full A0 A Ts r c kk piv Hirr HA0 Rch HT Hk6 Hkw Hk0 I Hc Hf; cbn [nj_ech_loop].
  - pose proof (reach_facts _ _ Rch) as (W & F & Nr & Nc). rewrite Nc. replace (c <? mz_ncols A0) with false by lia. cbn [wp].
    eapply Done; eauto; lia.
  - pose proof (reach_facts _ _ Rch) as (W & F & Nr & Nc). pose proof (wf_deg1 A0 HA0) as Hd.
    destruct (Nat.ltb_spec c (mz_ncols A)) as [Hlt|Hge]; [|cbn [wp]; eapply Done; eauto; lia].
    set (kk' := if mz_ncols A <? c + kk then mz_ncols A - c else kk).
    assert (K1 : kk' <= kk /\ 0 < kk' /\ c + kk' <= mz_ncols A0).
    { unfold kk'. destruct (Nat.ltb_spec (mz_ncols A) (c + kk)); lia. }
    clearbody kk'.
    assert (Ew : mz_w A = mz_w A0) by (apply same_w; auto; now rewrite F).
    pose proof (good_w_pos _ (wf_good A0 HA0)) as Pw.
    assert (Hr : r <= mz_nrows A0) by apply I.
    assert (GB : gblock (mz_nrows A) (mz_ncols A) r c 0 (entry A)).
    { rewrite Nr, Nc. split; [lia|]. split; [lia|]. split; [intros; lia|]. apply I. }
    unfold mzed_gauss_submatrix_full. apply wp_bind.
    pose proof (gauss_cols_ok kk' A r c 0) as GC. rewrite !Nat.add_0_r in GC. rewrite F in GC.
    eapply wp_mono; [apply GC; auto; lia|]. clear GC. cbv beta. intros [A1 kbar] (R1 & L1 & L2 & L3 & L4).
    rewrite Nr, Nc in *. cbn [Nat.add] in *.
    pose proof (reach_trans _ _ _ HA0 Rch R1) as RR. pose proof (reach_facts _ _ RR) as (W1 & F1 & Nr1 & Nc1).
    assert (Ew1 : mz_w A1 = mz_w A0) by (apply same_w; auto; now rewrite F1).
    assert (I1 : ech_inv full (mz_nrows A0) (mz_ncols A0) c r piv (entry A1)).
    { apply (ech_inv_transfer full _ _ c r piv (entry A)); auto. apply L3. }
    assert (HR1 : inM (fld A0) (mz_nrows A0) (mz_ncols A0) (entry A1)).
    { rewrite <- F1, <- Nr1, <- Nc1. now apply wf_inM. }
    destruct (Nat.eqb_spec kbar 0) as [->|Hk].
    + rewrite Nat.add_1_r. apply (IH full A0 A1 Ts r (S c) kk' piv); auto; try lia; try nia.
      apply ech_inv_none; auto. intros i Hi. specialize (L4 ltac:(lia) i 0). rewrite !Nat.add_0_r in L4. apply L4; lia.
    + rewrite <- F1, <- Nc1 in HT. rewrite <- Nr1, <- Nc1 in L3.
      assert (Kw : kbar * mz_w A1 <= 64) by (rewrite Ew1; nia).
      apply wp_bind. eapply wp_mono; [apply (nj_tables_ok Ts A1 r c kbar 6); auto; lia|].
      cbv beta. intros Ts' (HT' & TF). pose proof L3 as (G1 & G2 & G3 & G4). rewrite Nr1 in G1. rewrite Nc1 in G2.
      set (S1 := fun i => (kbar =? kk') && (r + kbar <=? i)).
      assert (Step1 : wp (if kbar =? kk' then mzed_process_rows A1 (r + kbar) (mz_nrows A1) c (firstn kbar Ts') else Ok A1)
        (fun A2 => becomes A1 A2 (comb (fld A1) S1 r c kbar (entry A1)))).
      { unfold S1. destruct (Nat.eqb_spec kbar kk') as [->|].
        - eapply wp_mono; [apply (process_rows_ok A1 A1 (r + kk') (mz_nrows A1) r c kk'); auto; try lia; try apply same_shape_refl|].
          cbv beta. intros A2 B2. eapply becomes_ext; [exact B2|]. intros i j Hi Hj. unfold comb. cbn [andb].
          now replace (i <? mz_nrows A1) with true by lia; rewrite andb_true_r.
        - cbn [wp]. eapply becomes_ext; [now apply becomes_refl|]. intros i j _ _. reflexivity. }
      apply wp_bind. eapply wp_mono; [exact Step1|]. cbv beta. intros A2 B2. clear Step1.
      pose proof (becomes_wf _ _ _ B2) as W2. pose proof (becomes_nr _ _ _ B2) as Nr2. pose proof (becomes_nc _ _ _ B2) as Nc2.
      pose proof (becomes_ff _ _ _ B2) as F2. pose proof (becomes_w _ _ _ B2) as Ew2.
      assert (E2 : forall i j, i < r + kbar -> j < mz_ncols A0 -> entry A2 i j = entry A1 i j).
      { intros i j Hi Hj. rewrite (becomes_entry _ _ _ _ _ B2) by lia. apply comb_out. unfold S1. replace (r + kbar <=? i) with false by lia. apply andb_false_r. }
      set (S2 := fun i => (kbar =? kk') && (r + kbar <=? i) || full && (i <? r)).
      assert (Step2 : wp (if full then mzed_process_rows A2 0 r c (firstn kbar Ts') else Ok A2)
        (fun A3 => becomes A1 A3 (comb (fld A1) S2 r c kbar (entry A1)))).
      { destruct full eqn:Ef.
        - eapply wp_mono; [apply (process_rows_ok A1 A2 0 r r c kbar); auto; try lia|].
          + repeat split; congruence.
          + intros l j Hl Hj. apply E2; lia.
          + cbv beta. intros A3 B3. eapply becomes_step; [exact B2|exact B3|]. intros i j Hi Hj. unfold comb at 1. cbn [andb Nat.leb].
            rewrite Nc1 in Hj. destruct (Nat.ltb_spec i r) as [Hir|Hir].
            * unfold comb, S2. replace (i <? r) with true by lia. rewrite orb_true_r. rewrite E2 by lia. f_equal. apply xsum_ext.
              intros l Hl. rewrite !E2 by lia. reflexivity.
            * rewrite (becomes_entry _ _ _ _ _ B2) by lia. unfold comb, S1, S2. replace (i <? r) with false by lia. now rewrite orb_false_r.
        - cbn [wp]. eapply becomes_ext; [exact B2|]. intros i j _ _. unfold comb, S1, S2. cbn [andb]. now rewrite orb_false_r. }
      apply wp_bind. eapply wp_mono; [exact Step2|]. cbv beta. intros A3 B3. clear Step2.
      assert (R3 : reach A1 A3).
      { eapply reach_becomes; [exact B3|]. rewrite F1, Nr1, Nc1. apply comb_equiv; auto.
        intros i. unfold S2. destruct (kbar =? kk'), full; cbn [andb orb]; lia. }
      rewrite F1, Nc1 in HT'.
      apply (IH full A0 A3 Ts' (r + kbar) (c + kbar) kk' (fun i => if i <? r then piv i else c + (i - r))); auto; try lia; try nia.
      { eapply reach_trans; eauto. }
      eapply (ech_inv_ext full _ _ (c + kbar) _ _ (comb (fld A1) S2 r c kbar (entry A1))).
      * lia.
      * intros i j Hi Hj. symmetry. apply (becomes_entry _ _ _ _ _ B3); lia.
      * rewrite F1. unfold S2. apply (ech_inv_block (fld A0) Hd full (kbar =? kk') _ _ c r kbar piv); auto.
        -- now rewrite Nr1, Nc1 in L3.
        -- intros Hne i l Hi Hl. apply L4; lia.
Qed.

Lemma nj_kk_bound k0 e w : k0 <= 7 -> 2 <= e <= 16 -> good_w w -> w < 2 * e \/ w = 16 /\ 9 <= e -> 0 < nj_kk k0 e <= 6 /\ nj_kk k0 e * w <= 64.
Proof.
  intros Hk He Hw Hwe. unfold nj_kk. destruct (Nat.eqb_spec (6 * k0 / e) 0) as [|Hne].
  - pose proof (good_w_pos w Hw). lia.
  - pose proof (Nat.mul_div_le (6 * k0) e ltac:(lia)) as D. set (q := 6 * k0 / e) in *. 
    destruct (Nat.ltb_spec 6 q).
    + destruct Hw as [-> |[-> |[-> | ->]]]; nia.
    + destruct Hw as [-> |[-> |[-> | ->]]]; nia.
Qed.
Lemma degree_w_tight ff w : gf2e_wf ff -> gf2e_degree_to_w ff = Ok w -> w < 2 * ff_degree ff \/ w = 16 /\ 9 <= ff_degree ff.
Proof.
  intros _ H. revert H. unfold gf2e_degree_to_w. generalize (ff_degree ff). intros e.
  do 17 (try destruct e as [|e]); intros [=<-]; lia.
Qed.

Theorem mzed_echelonize_newton_john_ok k0 A full : wf_mzed A -> irreducible (fld A) -> k0 <= 7 ->
  wp (mzed_echelonize_newton_john k0 A full) (fun '(A', r) => ech_result full A A' r).
Proof.
  intros H Hirr Hk. unfold mzed_echelonize_newton_john. destruct (wf_deg2 A H) as [Hff Hd2]. pose proof (wf_good A H) as Hw.
  assert (Ht := degree_w_tight (mz_ff A) (mz_w A)). pose proof H as (Wff & Ww & _). specialize (Ht Wff Ww).
  pose proof Wff as (He & _).
  destruct (nj_kk_bound k0 (ff_degree (mz_ff A)) (mz_w A)) as (B1 & B2); auto; try lia.
  apply wp_bind. eapply wp_mono; [now apply njt_inits_ok|]. cbv beta. intros Ts (L & HT).
  apply (nj_ech_loop_ok _ full A A Ts 0 0 _ (fun _ => 0)); auto; try lia.
  - now apply reach_refl.
  - now split.
  - apply ech_inv_init.
Qed.
