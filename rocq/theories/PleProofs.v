(** mzed_ple_naive and mzed_ple_newton_john compute a PLE decomposition, and the same one. *)
From Coq Require Import NArith ZArith Lia List Bool Arith.
From Coq Require Import ZifyBool ZifyNat ZifyN.
From Verif Require Import Base Spec LinSpec PolyFacts MatFacts EchFacts Gf2xModel Gf2eModel Gf2eProofs.
From Verif Require Import MzdModel MzedModel MzedSpec LaneFacts MzedProofs MzedOps EchNaive NjModel NjTable NjMul.
From Verif Require Import PermModel PleModel PleSpec PleFacts.
Local Open Scope nat_scope.

(** ** a matrix is determined by its entries and its padding *)
Lemma row_ext_words w n r r' : good_w w -> length r = width (w * n) -> length r' = width (w * n) ->
  Forall (fun x => (x < 2 ^ 64)%N) r -> Forall (fun x => (x < 2 ^ 64)%N) r' ->
  (forall c, c < per w * width (w * n) -> rel w r c = rel w r' c) -> r = r'.
Proof.
  intros Hw L L' B B' E. apply nth_ext with (d := 0%N) (d' := 0%N); [congruence|]. intros j Hj.
  apply N.bits_inj. intro k. pose proof (per_pos w Hw) as Pp. pose proof (per_mul w Hw) as Pm. pose proof (good_w_pos w Hw) as Wp.
  assert (X : (nth j r 0 < 2 ^ 64)%N) by (rewrite Forall_forall in B; apply B, nth_In; lia).
  assert (X' : (nth j r' 0 < 2 ^ 64)%N) by (rewrite Forall_forall in B'; apply B', nth_In; lia).
  rewrite lt_pow2_bits in X, X'. destruct (N.ltb_spec k 64) as [Hk|Hk]; [|now rewrite X, X'].
  set (q := N.to_nat k). assert (Hq : q < 64) by lia.
  assert (Hl : q / w < per w) by (apply Nat.div_lt_upper_bound; lia).
  specialize (E (per w * j + q / w)). rewrite !rel_word in E by easy.
  assert (E' : lane w (nth j r 0%N) (q / w) = lane w (nth j r' 0%N) (q / w)).
  { apply E. rewrite <- L. nia. }
  apply (f_equal (fun x => N.testbit x (N.of_nat (q mod w)))) in E'. rewrite !lane_spec in E'.
  pose proof (Nat.mod_upper_bound q w ltac:(lia)). pose proof (Nat.div_mod q w ltac:(lia)) as Dm.
  replace (N.of_nat (q mod w) <? N.of_nat w)%N with true in E' by (symmetry; apply N.ltb_lt; lia).
  replace (N.of_nat (q mod w) + N.of_nat (w * (q / w)))%N with k in E' by lia.
  cbn [andb] in E'. exact E'.
Qed.
Lemma becomes_unique A A1 A2 F : becomes A A1 F -> becomes A A2 F -> A1 = A2.
Proof.
  intros (W1 & (E1 & E2 & E3 & E4) & H1 & P1) (W2 & (G1 & G2 & G3 & G4) & H2 & P2).
  pose proof (wf_good A1 W1) as Hw.
  assert (EX : mz_x A1 = mz_x A2).
  { destruct W1 as (_ & _ & N1 & N2 & N3 & N4 & _), W2 as (_ & _ & M1 & M2 & M3 & M4 & _).
    assert (ER : mzd_rows (mz_x A1) = mzd_rows (mz_x A2)).
    { apply nth_ext with (d := nil) (d' := nil); [congruence|]. intros i Hi. 
      destruct (N4 i ltac:(lia)) as [L B], (M4 i ltac:(lia)) as [L' B']. fold (mrow (mz_x A1) i). fold (mrow (mz_x A2) i).
      apply (row_ext_words (mz_w A1) (mz_ncols A1)); auto; try congruence.
      intros c Hc. change (rel (mz_w A1) (mrow (mz_x A1) i) c) with (entry A1 i c).
      replace (mz_w A1) with (mz_w A2) by congruence. change (rel (mz_w A2) (mrow (mz_x A2) i) c) with (entry A2 i c).
      assert (Hc' : c < cap A) by (unfold cap; congruence). assert (Hi' : i < mz_nrows A) by lia.
      destruct (Nat.lt_ge_cases c (mz_ncols A)); [rewrite H1, H2|rewrite P1, P2]; auto. }
    destruct (mz_x A1), (mz_x A2). cbn in *. congruence. }
  destruct A1, A2. cbn in *. congruence.
Qed.

(** ** the search for a pivot *)
Lemma ple_find_ok n : forall A r c, wf_mzed A -> r <= mz_nrows A -> c + n <= mz_ncols A ->
  wp (ple_find n A r c) (fun p => match p with
    | None => forall i j, r <= i < mz_nrows A -> c <= j < c + n -> entry A i j = 0%N
    | Some (p, j, x) => r <= p < mz_nrows A /\ c <= j < c + n /\ x = entry A p j /\ x <> 0%N /\
         (forall i k, r <= i < mz_nrows A -> c <= k < j -> entry A i k = 0%N) /\ forall i, r <= i < p -> entry A i j = 0%N
    end).
Proof.
  induction n as [|n IH]; intros A r c H Hr Hc; cbn [ple_find].
  - cbn [wp]. lia.
  - apply wp_bind. eapply wp_mono; [apply find_pivot_ok; auto; lia|]. cbv beta. intros [[p x]|].
    + intros (H1 & H2 & H3 & H4). cbn [wp]. split; [lia|]. split; [lia|]. split; [easy|]. split; [easy|]. split; [intros; lia|exact H4].
    + intros Hz. eapply wp_mono; [apply IH; auto; lia|]. cbv beta. intros [[[p j] x]|].
      * intros (H1 & H2 & H3 & H4 & H5 & H6). split; [lia|]. split; [lia|]. split; [easy|]. split; [easy|]. split; [|exact H6].
        intros i k Hi Hk. destruct (Nat.eq_dec k c) as [->|]; [apply Hz; lia|apply H5; lia].
      * intros Hz' i j Hi Hj. destruct (Nat.eq_dec j c) as [->|]; [apply Hz; lia|apply Hz'; lia].
Qed.

(** ** the elimination below a pivot *)
Definition elimF (f : N) (F : mat) (r c : nat) : mat := fun i j =>
  if (r <? i) && (c <? j) then N.lxor (F i j) (fmul f (F i c) (F r j)) else F i j.
Definition elim_spec {X} (I : mzed -> X -> Prop) (elim : mzed -> X -> nat -> nat -> res (mzed * X)) : Prop :=
  forall A T r c, wf_mzed A -> I A T -> r < mz_nrows A -> c + 1 < mz_ncols A ->
    wp (elim A T r c) (fun '(A', T') => I A T' /\ becomes A A' (elimF (fld A) (entry A) r c)).

Lemma elim_naive_ok : elim_spec (fun _ _ => True) ple_elim_naive.
Proof.
  intros A T r c H _ Hr Hc. unfold ple_elim_naive. apply wp_bind. eapply wp_mono.
  - apply (wp_for (fun t A' => becomes A A' (fun i j => if (r <? i) && (i <? t) && (c <? j) then N.lxor (entry A i j) (fmul (fld A) (entry A i c) (entry A r j)) else entry A i j))); [lia| |].
    + eapply becomes_ext; [now apply becomes_refl|]. cbv beta. intros i j Hi Hj. now replace ((r <? i) && (i <? r + 1)) with false by lia.
    + intros t A' Ht B. pose proof (becomes_wf _ _ _ B) as W. pose proof (becomes_nr _ _ _ B) as Er.
      pose proof (becomes_nc _ _ _ B) as Ec. pose proof (becomes_ff _ _ _ B) as Ef.
      assert (Et : forall j, j < mz_ncols A -> entry A' t j = entry A t j).
      { intros j Hj. rewrite (becomes_entry _ _ _ _ _ B) by lia. now replace ((r <? t) && (t <? t)) with false by lia. }
      assert (Erj : forall j, j < mz_ncols A -> entry A' r j = entry A r j).
      { intros j Hj. rewrite (becomes_entry _ _ _ _ _ B) by lia. now replace ((r <? r) && (r <? t)) with false by lia. }
      rewrite mzed_read_elem_ok by (auto; lia). cbn [bind]. rewrite Et by lia.
      destruct (N.eqb_spec (entry A t c) 0) as [E0|E0].
      * cbn [wp]. eapply becomes_ext; [exact B|]. cbv beta. intros i j Hi Hj. destruct (Nat.eq_dec i t) as [->|].
        -- replace ((r <? t) && (t <? t)) with false by lia. cbn [andb]. rewrite E0, fmul_0_l, N.lxor_0_r. now destruct (_ && _).
        -- now replace (i <? S t) with (i <? t) by lia.
      * eapply wp_mono; [apply (mzed_add_multiple_of_row_ok A' t A' r); auto; try lia|].
        { rewrite Ef. apply wf_entry; auto; lia. }
        cbv beta. intros A2 B2. eapply becomes_step; [exact B|exact B2|]. cbv beta. intros i j Hi Hj.
        destruct (Nat.eqb_spec i t) as [->|Hit].
        -- replace ((r <? t) && (t <? S t)) with true by lia. cbn [andb]. rewrite Ef, Et, Erj by easy.
           replace (c + 1 <=? j) with (c <? j) by lia. now destruct (c <? j).
        -- cbn [andb]. rewrite (becomes_entry _ _ _ _ _ B) by easy. now replace (i <? S t) with (i <? t) by lia.
  - cbv beta. intros A' B. cbn [wp]. split; [easy|]. eapply becomes_ext; [exact B|]. cbv beta. intros i j Hi Hj. unfold elimF.
    replace (i <? mz_nrows A) with true by lia. now rewrite andb_true_r.
Qed.

Definition nj_ok (A : mzed) (T : njt) : Prop := njt_wf (fld A) (ff_degree (mz_ff A)) (mz_ncols A) T.
Lemma elim_nj_ok : elim_spec nj_ok ple_elim_nj.
Proof.
  intros A T r c H HT Hr Hc. unfold ple_elim_nj. pose proof (wf_good A H) as Hw. pose proof (per_pos _ Hw) as Pp. pose proof (good_w_pos _ Hw).
  apply wp_bind. eapply wp_mono; [apply (mzed_make_table_ok T A r (c + 1)); auto; lia|]. cbv beta. intros T' (WT & TH).
  assert (TH' : forall x, inF (fld A) x -> exists l, nj_lookup T' x = Ok l /\ l < mz_nrows (nj_T T') /\
     forall j, j < cap A -> per (mz_w A) * (c / per (mz_w A)) <= j ->
       entry (nj_T T') l j = if (c <? j) && (j <? mz_ncols A) then fmul (fld A) x (entry A r j) else 0%N).
  { intros x Hx. destruct (TH x Hx) as (l & E1 & E2 & E3). exists l. split; [easy|]. split; [easy|]. intros j Hj Hge.
    destruct (E3 j Hj) as [E4 E5]. set (p := per (mz_w A)) in *.
    replace (c <? j) with (c + 1 <=? j) by lia.
    destruct (Nat.lt_ge_cases j (p * ((c + 1) / p))) as [Lt|Ge]; [|now apply E4].
    assert (Dv : (c + 1) / p <= c / p + 1) by (rewrite <- (Nat.div_add c 1 p) by lia; apply Nat.div_le_mono; lia).
    destruct (E5 Lt) as [_ E6]. rewrite E6 by nia.
    pose proof (Nat.mul_div_le (c + 1) p ltac:(lia)). now replace (c + 1 <=? j) with false by lia. }
  clear TH. apply wp_bind. unfold mzed_process_rows. cbn [length]. replace (1 * mz_w A <=? 64) with true by lia. cbn [guard bind].
  rewrite (Nat.mul_comm c), div_w by easy.
  destruct WT as (WM & (WW & FT & RT & CT) & WL).
  eapply wp_mono.
  - apply (wp_for (fun t A' => becomes A A' (fun i j => if (r <? i) && (i <? t) && (c <? j) then N.lxor (entry A i j) (fmul (fld A) (entry A i c) (entry A r j)) else entry A i j))); [lia| |].
    + eapply becomes_ext; [now apply becomes_refl|]. cbv beta. intros i j Hi Hj. now replace ((r <? i) && (i <? r + 1)) with false by lia.
    + intros t A' Ht B. pose proof (becomes_wf _ _ _ B) as W. pose proof (becomes_nr _ _ _ B) as Er.
      pose proof (becomes_nc _ _ _ B) as Ec. pose proof (becomes_ff _ _ _ B) as Ef. pose proof (becomes_w _ _ _ B) as Ew.
      assert (Et : forall j, j < mz_ncols A -> entry A' t j = entry A t j).
      { intros j Hj. rewrite (becomes_entry _ _ _ _ _ B) by lia. now replace ((r <? t) && (t <? t)) with false by lia. }
      unfold for_. cbn [Nat.sub forloop]. unfold lget at 1. cbn [nth_error bind].
      rewrite mzed_read_elem_ok by (auto; lia). cbn [bind]. rewrite Nat.add_0_r, Et by lia.
      destruct (TH' (entry A t c)) as (l & E1 & E2 & E3); [apply wf_entry; auto; lia|]. rewrite E1. cbn [bind].
      assert (Ecap : cap A' = cap A) by (unfold cap; congruence).
      assert (Hcc : per (mz_w A) * (c / per (mz_w A)) <= c) by (apply Nat.mul_div_le; lia).
      apply wp_bind. eapply wp_mono; [apply combine_row_ok; auto; try congruence; try lia|].
      { intros j Hj. rewrite E3 by lia. replace (j <? mz_ncols A) with false by lia. now rewrite andb_false_r. }
      cbv beta. intros A2 B2. cbn [wp]. eapply becomes_step; [exact B|exact B2|]. cbv beta. intros i j Hi Hj.
      pose proof (wf_cap A H). rewrite Ew.
      destruct (Nat.eqb_spec i t) as [->|Hit].
      * replace ((r <? t) && (t <? S t)) with true by lia. cbn [andb]. rewrite Et by easy.
        destruct (Nat.leb_spec (per (mz_w A) * (c / per (mz_w A))) j) as [Ge|Lt].
        -- rewrite E3 by lia. replace (j <? mz_ncols A) with true by lia. rewrite andb_true_r. destruct (c <? j); [easy|apply N.lxor_0_r].
        -- now replace (c <? j) with false by lia.
      * cbn [andb]. rewrite (becomes_entry _ _ _ _ _ B) by easy. now replace (i <? S t) with (i <? t) by lia.
  - cbv beta. intros A' B. cbn [wp]. split; [now split|]. eapply becomes_ext; [exact B|]. cbv beta. intros i j Hi Hj. unfold elimF.
    replace (i <? mz_nrows A) with true by lia. now rewrite andb_true_r.
Qed.

(** ** the main loop *)
Lemma at_upd (P : list nat) i x k : i < length P -> at_ (upd P i x) k = upf (at_ P) i x k.
Proof.
  intros Hi. unfold at_, upf. rewrite nth_upd by easy. rewrite Nat.eqb_sym. reflexivity.
Qed.
Lemma ple_E_ext Q Q' F F' i j : Q i = Q' i -> F i j = F' i j -> ple_E Q F i j = ple_E Q' F' i j.
Proof. intros E1 E2. unfold ple_E. now rewrite E1, E2. Qed.
Lemma ple_inv_ext f m n A0 F F' P P' Q Q' r c : ple_inv f m n A0 F P Q r c -> meq m n F F' ->
  (forall i, i < r -> P i = P' i) -> (forall i, i < r -> Q i = Q' i) -> ple_inv f m n A0 F' P' Q' r c.
Proof.
  intros (H1 & H2 & H3 & H4 & H5 & H6 & H7 & H8 & H9) HF HP HQ.
  assert (Qn : forall i, i < r -> Q' i < n) by (intros i Hi; rewrite <- HQ by easy; specialize (H4 i Hi); lia).
  split; [easy|]. split; [easy|]. split; [intros i Hi; rewrite <- HP by easy; now apply H3|].
  split; [intros i Hi; rewrite <- HQ by easy; now apply H4|].
  split; [intros i i' Hi Hi'; rewrite <- !HQ by lia; now apply H5|].
  split; [intros i Hi; rewrite <- HF by (try apply Qn; lia); rewrite <- HQ by easy; now apply H6|].
  split; [|split].
  - intros k j Hk Hj Hn. rewrite <- HF by lia. apply H7; auto. intros i Hi. rewrite HQ by easy. now apply Hn.
  - intros k j Hk Hj Hn. pose proof (Qn k Hk). rewrite <- HF by lia. apply H8; auto; [now rewrite HQ|]. intros i Hi. rewrite HQ by lia. now apply Hn.
  - intros k j Hk Hj. rewrite <- (swaps_ext P P') by easy. rewrite H9 by easy. rewrite HF by easy. f_equal. apply xsum_ext. intros i Hi.
    f_equal; [|apply ple_E_ext; auto; apply HF; lia]. destruct (i <=? k); [|easy]. rewrite <- HQ by easy. apply HF; [easy|]. specialize (H4 i Hi). lia.
Qed.

Section Generic.
Context {X : Type} (I : mzed -> X -> Prop) (elim : mzed -> X -> nat -> nat -> res (mzed * X)).
Hypothesis HI : forall A A' T, mz_ff A = mz_ff A' -> mz_ncols A = mz_ncols A' -> I A T -> I A' T.
Hypothesis Helim : elim_spec I elim.

(** one pivot step *)
Lemma pivot_ok A T r p c x : irreducible (fld A) -> wf_mzed A -> I A T -> r <= p < mz_nrows A -> c < mz_ncols A ->
  x = entry A p c -> x <> 0%N ->
  exists A1 A2 T2, mzed_row_swap A r p = Ok A1 /\
    (if c + 1 <? mz_ncols A1 then
       xi <- gf2e_inv (mz_ff A1) x ;; A1 <- mzed_rescale_row A1 r (c + 1) xi ;; elim A1 T r c
     else Ok (A1, T)) = Ok (A2, T2) /\ I A T2 /\
    exists g, inF (fld A) g /\ fmul (fld A) g x = 1%N /\ becomes A A2 (pstep (fld A) p r c g (entry A)).
Proof.
  intros Hirr H HT Hp Hc Ex Hx0. pose proof (wf_f0 A H) as f0.
  assert (Hx : inF (fld A) x) by (subst x; apply wf_entry; auto; lia).
  destruct (proj1 (wp_iff _ _) (mzed_row_swap_ok A r p H ltac:(lia) ltac:(lia))) as (A1 & E1 & B1).
  pose proof (becomes_wf _ _ _ B1) as W1. pose proof (becomes_nr _ _ _ B1) as R1. pose proof (becomes_nc _ _ _ B1) as C1.
  pose proof (becomes_ff _ _ _ B1) as F1. assert (G1 : mz_ff A1 = mz_ff A) by (destruct B1 as (_ & (S1 & _) & _); congruence).
  assert (En1 : forall i j, i < mz_nrows A -> j < mz_ncols A -> entry A1 i j = entry A (tr r p i) j).
  { intros i j Hi Hj. rewrite (becomes_entry _ _ _ _ _ B1) by easy. unfold tr. destruct (i =? r), (i =? p); easy. }
  exists A1. destruct (gf2e_inv_ok (mz_ff A) x) as (g & Eg & Hg & Exg); auto; [apply H|].
  rewrite C1, G1. destruct (Nat.ltb_spec (c + 1) (mz_ncols A)) as [Hlt|Hge].
  - rewrite Eg. cbn [bind].
    destruct (proj1 (wp_iff _ _) (mzed_rescale_row_ok A1 r (c + 1) g W1 ltac:(congruence) ltac:(lia) ltac:(lia))) as (A2 & E2 & B2).
    rewrite E2. cbn [bind].
    pose proof (becomes_wf _ _ _ B2) as W2. pose proof (becomes_nr _ _ _ B2) as R2. pose proof (becomes_nc _ _ _ B2) as C2.
    pose proof (becomes_ff _ _ _ B2) as F2. assert (G2 : mz_ff A2 = mz_ff A) by (destruct B2 as (_ & (S1 & _) & _); congruence).
    assert (En2 : forall i j, i < mz_nrows A -> j < mz_ncols A -> entry A2 i j =
      if (i =? r) && (c <? j) then fmul (fld A) g (entry A p j) else entry A (tr r p i) j).
    { intros i j Hi Hj. rewrite (becomes_entry _ _ _ _ _ B2) by lia. rewrite !En1 by lia. replace (c + 1 <=? j) with (c <? j) by lia.
      rewrite tr_l. now rewrite F1. }
    destruct (proj1 (wp_iff _ _) (Helim A2 T r c W2 ltac:(apply (HI A A2); auto; lia) ltac:(lia) ltac:(lia))) as ([A3 T3] & E3 & I3 & B3).
    exists A3, T3. split; [easy|]. split; [easy|]. split; [apply (HI A2 A); auto; lia|]. exists g. split; [easy|]. split; [now rewrite fmul_comm|].
    eapply becomes_step; [eapply becomes_trans; [exact B1|exact B2]|exact B3|]. cbv beta. intros i j Hi Hj. unfold elimF, pstep. rewrite !En2 by lia.
    rewrite Nat.ltb_irrefl. rewrite (Nat.leb_antisym c j).
    destruct (Nat.ltb_spec c j); cbn [negb andb]; rewrite ?andb_false_r, ?andb_true_r; [|easy].
    rewrite Nat.eqb_refl, tr_l. destruct (Nat.eqb_spec i r) as [->|]; [now rewrite Nat.ltb_irrefl|]. destruct (r <? i); [|easy]. replace (fld A2) with (fld A) by congruence. reflexivity.
  - exists A1, T. split; [easy|]. split; [easy|]. split; [easy|]. exists g. split; [easy|]. split; [now rewrite fmul_comm|].
    eapply becomes_ext; [exact B1|]. cbv beta. intros i j Hi Hj. unfold pstep. replace (j <=? c) with true by lia.
    unfold tr. destruct (i =? r), (i =? p); easy.
Qed.

Lemma ple_loop_ok m n f A0 : irreducible f -> forall fuel A T P Q r c,
  wf_mzed A -> fld A = f -> mz_nrows A = m -> mz_ncols A = n -> I A T -> length P = m -> length Q = n -> n - c < fuel ->
  ple_inv f m n A0 (entry A) (at_ P) (at_ Q) r c -> fp_inv m (entry A) (at_ P) (at_ Q) r ->
  wp (ple_loop elim fuel A T P Q r c) (fun '(A', P', Q', r') => becomes A A' (entry A') /\ length P' = m /\ length Q' = n /\
     ple_inv f m n A0 (entry A') (at_ P') (at_ Q') r' n /\ fp_inv m (entry A') (at_ P') (at_ Q') r').
Proof.
  intros Hirr. induction fuel as [|fuel IH]; intros A T P Q r c W Ef Er Ec HT LP LQ Hfu J JP; [lia|]. cbn [ple_loop].
  assert (Hrm : r <= m) by apply J. assert (Hcn : c <= n) by apply J.
  assert (Hrc : r <= c).
  { destruct J as (_ & _ & _ & J4 & J5 & _). destruct r as [|r']; [lia|]. pose proof (incr_ge _ _ J5 r' ltac:(lia)). specialize (J4 r' ltac:(lia)). lia. }
  rewrite Er, Ec. destruct (Nat.ltb_spec r m) as [Hr|Hr]; cbn [andb].
  2:{ cbn [wp]. split; [now apply becomes_refl|]. split; [easy|]. split; [easy|]. split; [|exact JP]. apply (ple_inv_cols f m n A0 _ _ _ r c); auto; intros; lia. }
  destruct (Nat.ltb_spec c n) as [Hc|Hc].
  2:{ cbn [wp]. split; [now apply becomes_refl|]. split; [easy|]. split; [easy|]. split; [|exact JP]. apply (ple_inv_cols f m n A0 _ _ _ r c); auto; intros; lia. }
  apply wp_bind. eapply wp_mono; [apply (ple_find_ok (n - c)); auto; lia|]. cbv beta. intros [[[p j] x]|].
  - intros (Hp & Hj & Ex & Hx0 & Hz & Hzp). rewrite !lset_ok by lia. cbn [bind].
    destruct (pivot_ok A T r p j x) as (A1 & A2 & T2 & E1 & E2 & HT2 & g & Hg & Eg & B); auto; try lia; [congruence|].
    rewrite E1. cbn [bind]. rewrite E2. cbn [bind].
    pose proof (becomes_wf _ _ _ B) as W2. pose proof (becomes_nr _ _ _ B) as R2. pose proof (becomes_nc _ _ _ B) as C2.
    pose proof (becomes_ff _ _ _ B) as F2. assert (G2 : mz_ff A2 = mz_ff A) by (destruct B as (_ & (S1 & _) & _); congruence).
    eapply wp_mono; [apply IH; auto; try congruence; try (rewrite upd_length; lia); try lia|].
    + apply (HI A A2); auto; congruence.
    + assert (InA : inM f m n (entry A)). { intros i k Hi Hk. rewrite <- Ef. apply wf_entry; auto; lia. }
      pose proof (ple_inv_cols f m n A0 _ _ _ r c j J ltac:(lia) ltac:(intros; apply Hz; lia)) as J'.
      assert (Hfd : (1 <= pdeg f)%N) by (rewrite <- Ef; now apply wf_deg1).
      rewrite Ef in *. subst x.
      pose proof (ple_inv_step f Hfd m n A0 _ _ _ r j p g InA J' ltac:(lia) ltac:(lia) Hx0 Hg Eg) as J2.
      eapply ple_inv_ext; [exact J2| | |].
      * intros i k Hi Hk. symmetry. apply (becomes_entry _ _ _ _ _ B); lia.
      * intros i Hi. symmetry. apply at_upd. lia.
      * intros i Hi. symmetry. apply at_upd. lia.
    + pose proof (proj1 (proj2 (proj2 (proj2 J)))) as HQc.
      eapply fp_inv_ext; [apply (fp_inv_step (fld A) m (entry A) (at_ P) (at_ Q) r j p g JP)| | | |].
      * intros i Hi. specialize (HQc i Hi). lia.
      * lia.
      * lia.
      * exact Hzp.
      * intros i k Hi Hk. symmetry. apply (becomes_entry _ _ _ _ _ B); [lia|]. rewrite Ec. exact Hk.
      * intros i Hi. symmetry. apply at_upd. lia.
      * intros i Hi. symmetry. apply at_upd. lia.
      * intros i Hi. unfold upf. destruct (i =? r) eqn:Ei; [lia|]. specialize (HQc i ltac:(lia)). lia.
    + cbv beta. intros [[[A' P'] Q'] r'] (B' & L1 & L2 & J3). split; [|easy].
      eapply becomes_trans; [exact B|exact B'].
  - intros Hz. cbn [wp]. split; [now apply becomes_refl|]. split; [easy|]. split; [easy|]. split; [|exact JP].
    apply (ple_inv_cols f m n A0 _ _ _ r c); auto. intros k j Hk Hj. apply Hz; lia.
Qed.
End Generic.

(** two correct eliminations give the same run *)
Lemma ple_loop_eq {X Y} (I : mzed -> X -> Prop) (J : mzed -> Y -> Prop) eI eJ :
  (forall A A' T, mz_ff A = mz_ff A' -> mz_ncols A = mz_ncols A' -> I A T -> I A' T) ->
  (forall A A' T, mz_ff A = mz_ff A' -> mz_ncols A = mz_ncols A' -> J A T -> J A' T) ->
  elim_spec I eI -> elim_spec J eJ -> forall fuel A T U P Q r c, irreducible (fld A) -> wf_mzed A -> I A T -> J A U ->
  ple_loop eI fuel A T P Q r c = ple_loop eJ fuel A U P Q r c.
Proof.
  intros CI CJ SI SJ. induction fuel as [|fuel IH]; intros A T U P Q r c Hirr W HT HU; [reflexivity|]. cbn [ple_loop].
  destruct ((r <? mz_nrows A) && (c <? mz_ncols A)) eqn:E; [|reflexivity]. rewrite andb_true_iff in E.
  destruct (proj1 (wp_iff _ _) (ple_find_ok (mz_ncols A - c) A r c W ltac:(lia) ltac:(lia))) as (o & Eo & Ho). rewrite Eo. cbn [bind].
  destruct o as [[[p j] x]|]; [|reflexivity]. destruct Ho as (Hp & Hj & Ex & Hx0 & _).
  destruct (lset P r p); cbn [bind]; [|reflexivity|reflexivity]. destruct (lset Q r j); cbn [bind]; [|reflexivity|reflexivity].
  destruct (pivot_ok I eI CI SI A T r p j x) as (A1 & A2 & T2 & E1 & E2 & HT2 & g & Hg & Eg & B); auto; try lia.
  destruct (pivot_ok J eJ CJ SJ A U r p j x) as (A1' & A2' & T2' & E1' & E2' & HT2' & g' & Hg' & Eg' & B'); auto; try lia.
  rewrite E1. cbn [bind]. assert (A1' = A1) as -> by congruence. rewrite E2, E2'. cbn [bind].
  assert (g' = g) as ->.
  { pose proof (wf_f0 A W). assert (inF (fld A) x) by (subst x; apply wf_entry; auto; lia).
    rewrite <- (fmul_1_l (fld A) g') by auto. rewrite <- Eg. rewrite <- fmul_assoc by auto. rewrite (fmul_comm _ x g'), Eg'. apply fmul_1_r; auto. }
  pose proof (becomes_unique _ _ _ _ B B') as ->.
  assert (G2 : mz_ff A2' = mz_ff A) by (destruct B' as (_ & (S1 & _) & _); congruence).
  pose proof (becomes_nc _ _ _ B'). apply IH.
  - now rewrite G2.
  - now apply (becomes_wf _ _ _ B').
  - apply (CI A A2'); auto.
  - apply (CJ A A2'); auto.
Qed.

(** ** the end *)
Lemma fill_id lo hi P : lo <= hi -> hi <= length P ->
  wp (for_ lo hi (fun i P => lset P i i) P) (fun P' => length P' = length P /\ forall k, at_ P' k = if (lo <=? k) && (k <? hi) then k else at_ P k).
Proof.
  intros Hl Hh. eapply wp_mono.
  - apply (wp_for (fun t P' => length P' = length P /\ forall k, at_ P' k = if (lo <=? k) && (k <? t) then k else at_ P k)); [easy| |].
    + split; [easy|]. intros k. now replace ((lo <=? k) && (k <? lo)) with false by lia.
    + intros t P' Ht (L & E). rewrite lset_ok by lia. cbn [wp]. rewrite upd_length. split; [easy|]. intros k. rewrite at_upd by lia. unfold upf.
      destruct (Nat.eqb_spec k t) as [->|]; [now replace ((lo <=? t) && (t <? S t)) with true by lia|].
      rewrite E. now replace (k <? S t) with (k <? t) by lia.
  - cbv beta. auto.
Qed.
Lemma ple_finish_ok m n f A0 A P Q r : wf_mzed A -> mz_nrows A = m -> mz_ncols A = n -> length P = m -> length Q = n ->
  ple_inv f m n A0 (entry A) (at_ P) (at_ Q) r n -> fp_inv m (entry A) (at_ P) (at_ Q) r ->
  wp (ple_finish A P Q r) (fun '(A', P', Q', r') => r' = r /\ becomes A A' (entry A') /\ length P' = m /\ length Q' = n /\
     (forall i, r <= i < m -> at_ P' i = i) /\ (forall i, r <= i < n -> at_ Q' i = i) /\
     is_ple f m n A0 (entry A') (at_ P') (at_ Q') r /\ first_pivots m (entry A') (at_ P') r).
Proof.
  intros W Er Ec LP LQ J JP. unfold ple_finish. rewrite Er, Ec. assert (Hr : r <= m) by apply J.
  assert (J0 := J). destruct J0 as (_ & _ & _ & J4 & J5 & _). pose proof (incr_ge r _ J5) as Hge.
  assert (Hrn : r <= n). { destruct r as [|r']; [lia|]. specialize (Hge r' ltac:(lia)). specialize (J4 r' ltac:(lia)). lia. }
  apply wp_bind. eapply wp_mono; [apply fill_id; lia|]. cbv beta. intros P1 (L1 & E1).
  apply wp_bind. eapply wp_mono; [apply fill_id; lia|]. cbv beta. intros Q1 (L2 & E2).
  assert (EQ : forall i, i < r -> at_ Q1 i = at_ Q i) by (intros i Hi; rewrite E2; now replace (r <=? i) with false by lia).
  apply wp_bind. eapply wp_mono.
  - apply (wp_for (fun t A' => becomes A A' (fun k j => entry A k (swaps (at_ Q1) (Nat.min t (S k)) j)))); [lia| |].
    + eapply becomes_ext; [now apply becomes_refl|]. cbv beta. intros k j Hk Hj. reflexivity.
    + intros t A' Ht B. pose proof (becomes_wf _ _ _ B) as W'. pose proof (becomes_nr _ _ _ B) as Er'.
      pose proof (becomes_nc _ _ _ B) as Ec'. rewrite (lget_ok Q1 t 0) by lia. cbn [bind]. fold (at_ Q1 t).
      assert (Hq : at_ Q1 t < n) by (rewrite EQ by lia; apply J4; lia).
      eapply wp_mono; [apply mzed_col_swap_in_rows_ok; auto; lia|]. cbv beta. intros A2 B2.
      eapply becomes_step; [exact B|exact B2|]. cbv beta. intros k j Hk Hj.
      replace (k <? mz_nrows A') with true by lia. rewrite andb_true_r.
      destruct (Nat.leb_spec t k).
      * replace (Nat.min (S t) (S k)) with (S t) by lia. cbn [swaps].
        assert (G : forall j, j < n -> entry A' k j = entry A k (swaps (at_ Q1) t j)).
        { intros j' Hj'. rewrite (becomes_entry _ _ _ _ _ B) by lia. now replace (Nat.min t (S k)) with t by lia. }
        unfold tr. destruct (Nat.eqb_spec j t); [apply G; lia|]. destruct (Nat.eqb_spec j (at_ Q1 t)); apply G; lia.
      * rewrite (becomes_entry _ _ _ _ _ B) by lia. now replace (Nat.min (S t) (S k)) with (Nat.min t (S k)) by lia.
  - cbv beta. intros A' B. cbn [wp]. split; [easy|]. split; [|split; [lia|split; [lia|]]].
    + eapply becomes_ext; [exact B|]. cbv beta. intros i j Hi Hj. symmetry. now apply (becomes_entry _ _ _ _ _ B).
    + assert (PI : forall i, r <= i < m -> at_ P1 i = i) by (intros i Hi; rewrite E1; now replace ((r <=? i) && (i <? m)) with true by lia).
      assert (QI : forall i, r <= i < n -> at_ Q1 i = i) by (intros i Hi; rewrite E2; now replace ((r <=? i) && (i <? n)) with true by lia).
      split; [exact PI|]. split; [exact QI|]. split.
      2:{ apply (fp_inv_done m n (entry A) (entry A') (at_ P1) (at_ Q1) r); auto; try lia.
          - eapply (fp_inv_ext m n); [exact JP|apply meq_refl| | |].
            + intros i Hi. rewrite E1. now replace (r <=? i) with false by lia.
            + intros i Hi. symmetry. now apply EQ.
            + exact J4.
          - intros i i' Hi Hi'. rewrite !EQ by lia. now apply J5.
          - intros k j Hk Hj. apply (becomes_entry _ _ _ _ _ B); lia. }
      apply (ple_inv_done f m n A0 (entry A)); auto.
      * eapply ple_inv_ext; [exact J|apply meq_refl| |].
        -- intros i Hi. rewrite E1. now replace (r <=? i) with false by lia.
        -- intros i Hi. symmetry. now apply EQ.
      * intros k j Hk Hj. apply (becomes_entry _ _ _ _ _ B); lia.
Qed.

Definition ple_res (A : mzed) (x : mzed * mzp * mzp * nat) : Prop :=
  let '(A', P', Q', r) := x in
  becomes A A' (entry A') /\ length P' = mz_nrows A /\ length Q' = mz_ncols A /\
  (forall i, r <= i < mz_nrows A -> at_ P' i = i) /\ (forall i, r <= i < mz_ncols A -> at_ Q' i = i) /\
  is_ple (fld A) (mz_nrows A) (mz_ncols A) (entry A) (entry A') (at_ P') (at_ Q') r.

Definition ple_first (A : mzed) (x : mzed * mzp * mzp * nat) : Prop :=
  let '(A', P', Q', r) := x in first_pivots (mz_nrows A) (entry A') (at_ P') r.
Theorem mzed_ple_naive_first A P Q : irreducible (fld A) -> wf_mzed A -> length P = mz_nrows A -> length Q = mz_ncols A ->
  wp (mzed_ple_naive A P Q) (fun x => ple_res A x /\ ple_first A x).
Proof.
  intros Hirr W LP LQ. unfold mzed_ple_naive. apply wp_bind. eapply wp_mono.
  - apply (ple_loop_ok (fun _ (_ : unit) => True) ple_elim_naive ltac:(auto) elim_naive_ok (mz_nrows A) (mz_ncols A) (fld A) (entry A)); auto; try lia.
    + apply ple_inv_init.
    + intros k i j Hk. lia.
  - cbv beta. intros [[[A1 P1] Q1] r] (B & L1 & L2 & J & JP).
    pose proof (becomes_wf _ _ _ B). pose proof (becomes_nr _ _ _ B). pose proof (becomes_nc _ _ _ B).
    eapply wp_mono; [eapply ple_finish_ok; eauto|]. cbv beta. intros [[[A2 P2] Q2] r2] (-> & B2 & M1 & M2 & M3 & M4 & K & KF).
    split; [|exact KF]. split; [eapply becomes_trans; [exact B|exact B2]|]. auto.
Qed.
Theorem mzed_ple_naive_ok A P Q : irreducible (fld A) -> wf_mzed A -> length P = mz_nrows A -> length Q = mz_ncols A ->
  wp (mzed_ple_naive A P Q) (ple_res A).
Proof. intros. eapply wp_mono; [now apply mzed_ple_naive_first|]. cbv beta. tauto. Qed.
Lemma nj_ok_inv A A' T : mz_ff A = mz_ff A' -> mz_ncols A = mz_ncols A' -> nj_ok A T -> nj_ok A' T.
Proof. unfold nj_ok. intros -> ->. auto. Qed.
Theorem mzed_ple_nj_eq A P Q : irreducible (fld A) -> wf_mzed A -> mzed_ple_newton_john A P Q = mzed_ple_naive A P Q.
Proof.
  intros Hirr W. unfold mzed_ple_newton_john, mzed_ple_naive. pose proof (wf_deg2 A W) as (Hg & Hd).
  destruct (proj1 (wp_iff _ _) (njt_init_ok (mz_ff A) (mz_ncols A) Hg Hd)) as (T & ET & HT & _). rewrite ET. cbn [bind].
  rewrite (ple_loop_eq nj_ok (fun _ (_ : unit) => True) ple_elim_nj ple_elim_naive nj_ok_inv ltac:(auto) elim_nj_ok elim_naive_ok (S (mz_ncols A)) A T tt P Q 0 0 Hirr W HT I).
  reflexivity.
Qed.
Theorem mzed_ple_nj_ok A P Q : irreducible (fld A) -> wf_mzed A -> length P = mz_nrows A -> length Q = mz_ncols A ->
  wp (mzed_ple_newton_john A P Q) (ple_res A).
Proof. intros. rewrite mzed_ple_nj_eq by auto. now apply mzed_ple_naive_ok. Qed.
Theorem mzed_ple_nj_first A P Q : irreducible (fld A) -> wf_mzed A -> length P = mz_nrows A -> length Q = mz_ncols A ->
  wp (mzed_ple_newton_john A P Q) (fun x => ple_res A x /\ ple_first A x).
Proof. intros. rewrite mzed_ple_nj_eq by auto. now apply mzed_ple_naive_first. Qed.
