(** Operations on a store of matrices (AliasModel.v), whatever pointers are equal. *)
From Coq Require Import NArith Lia List Bool Arith.
From Coq Require Import ZifyBool ZifyNat ZifyN.
From Verif Require Import Base Spec LinSpec PolyFacts MatFacts Gf2xModel Gf2xProofs Gf2eModel Gf2eProofs MzdModel MzedModel MzedSpec LaneFacts MzedProofs MzedOps MzedOps2 ScalarProofs.
From Verif Require Import SliceModel SliceSpec MzdFacts SliceProofs SliceOps NjModel AliasModel AliasRows.
Import ListNotations.
Local Open Scope nat_scope.

Section Store.
Context {X : Type}.
Implicit Types (h : list X) (p q : nat) (a b : X).
Lemma lget_stored h p a : nth_error h p = Some a -> lget h p = Ok a.
Proof. unfold lget. now intros ->. Qed.
Lemma stored_lt h p a : nth_error h p = Some a -> p < length h.
Proof. intros E. apply nth_error_Some. now rewrite E. Qed.
Lemma lset_stored h p a b : nth_error h p = Some a -> lset h p b = Ok (upd h p b).
Proof. intros E. apply lset_ok. eapply stored_lt; eauto. Qed.
Lemma upd_stored h p a : nth_error h p = Some a -> upd h p a = h.
Proof. revert p. induction h as [|y h IH]; intros [|p]; cbn; try easy; [now intros [=->]|]. intros E. f_equal. now apply IH. Qed.
Lemma nth_error_upd h p q b : p < length h -> nth_error (upd h p b) q = if p =? q then Some b else nth_error h q.
Proof.
  revert p q. induction h as [|y h IH]; intros [|p] [|q]; cbn [length upd nth_error Nat.eqb]; try lia; try reflexivity.
  intros Hp. apply IH. lia.
Qed.
Lemma stored_upd h p q a b : nth_error h p = Some a -> nth_error (upd h p b) q = if p =? q then Some b else nth_error h q.
Proof. intros E. apply nth_error_upd. eapply stored_lt; eauto. Qed.
Lemma stored_upd_eq h p a b : nth_error h p = Some a -> nth_error (upd h p b) p = Some b.
Proof. intros E. rewrite (stored_upd h p p a b E). now rewrite Nat.eqb_refl. Qed.
Lemma stored_upd_ne h p q a b : nth_error h p = Some a -> p <> q -> nth_error (upd h p b) q = nth_error h q.
Proof. intros E Hn. rewrite (stored_upd h p q a b E). now destruct (Nat.eqb_spec p q). Qed.
(** loops that touch one cell *)
Lemma forloop_cell h p n : forall i (bh : nat -> list X -> res (list X)) (bv : nat -> X -> res X) a,
  (forall j c, bh j (upd h p c) = (c' <- bv j c ;; Ok (upd h p c'))) ->
  forloop n i bh (upd h p a) = (c <- forloop n i bv a ;; Ok (upd h p c)).
Proof.
  induction n as [|n IH]; intros i bh bv a Hb; cbn [forloop bind]; [reflexivity|]. rewrite Hb.
  destruct (bv i a) as [c| |]; cbn [bind]; [|reflexivity|reflexivity]. now apply IH.
Qed.
Lemma for_cell h p lo hi bh bv a : (forall j c, bh j (upd h p c) = (c' <- bv j c ;; Ok (upd h p c'))) ->
  for_ lo hi bh (upd h p a) = (c <- for_ lo hi bv a ;; Ok (upd h p c)).
Proof. apply forloop_cell. Qed.
End Store.

Lemma mzed_add_row_at_ok h pa ar pb br s A B :
  nth_error h pa = Some A -> nth_error h pb = Some B ->
  wf_mzed A -> wf_mzed B -> fld A = fld B -> mz_ncols A = mz_ncols B ->
  ar < mz_nrows A -> br < mz_nrows B -> s < mz_ncols A ->
  wp (mzed_add_row_at h pa ar pb br s) (fun h' => exists A', h' = upd h pa A' /\
    becomes A A' (fun i c => if (i =? ar) && (s <=? c) then N.lxor (entry A ar c) (entry B br c) else entry A i c)).
Proof.
  intros Ea Eb HA HB Ef En Har Hbr Hs. unfold mzed_add_row_at. rewrite (lget_stored _ _ _ Ea), (lget_stored _ _ _ Eb). cbn [bind].
  rewrite (proj2 (same_ff_iff A B) Ef), (proj2 (Nat.eqb_eq _ _) En). cbn [andb guard bind].
  rewrite (proj2 (Nat.ltb_lt _ _) Hs). cbn [guard bind].
  rewrite !lget_row by easy. cbn [bind]. wfd HA.
  rewrite Wnc at 1. apply wp_bind. eapply wp_mono.
  - apply (add_row_words_at_ok (mz_ff A) (mz_w A) Wff Ww (mz_ncols A) _ s); auto; [now apply wf_mrow| |].
    + rewrite Ef, En. rewrite (same_w A B) by easy. now apply wf_mrow.
    + intros E. assert (pa = pb /\ ar = br) as [-> ->] by lia. rewrite Ea in Eb. congruence.
  - cbv beta. intros a' Ha'. rewrite (lset_stored _ _ _ _ Ea). cbn [wp]. eexists. split; [reflexivity|].
    assert (Er : forall c, entry B br c = rel (mz_w A) (mrow (mz_x B) br) c).
    { intros c. unfold entry. now rewrite (same_w A B). }
    eapply becomes_ext; [apply becomes_row; eauto|]. cbv beta. intros i c _ _. now rewrite Er.
Qed.

Lemma mzed_add_multiple_of_row_at_ok h pa ar pb br x s A B :
  nth_error h pa = Some A -> nth_error h pb = Some B ->
  wf_mzed A -> wf_mzed B -> fld A = fld B -> mz_ncols A = mz_ncols B -> inF (fld A) x ->
  ar < mz_nrows A -> br < mz_nrows B -> s < mz_ncols A ->
  wp (mzed_add_multiple_of_row_at h pa ar pb br x s) (fun h' => exists A', h' = upd h pa A' /\
    becomes A A' (fun i c => if (i =? ar) && (s <=? c) then N.lxor (entry A ar c) (fmul (fld A) x (entry B br c)) else entry A i c)).
Proof.
  intros Ea Eb HA HB Ef En Hx Har Hbr Hs. unfold mzed_add_multiple_of_row_at. rewrite (lget_stored _ _ _ Ea), (lget_stored _ _ _ Eb). cbn [bind].
  rewrite (proj2 (same_ff_iff A B) Ef), (proj2 (Nat.eqb_eq _ _) En). cbn [andb guard bind].
  rewrite (proj2 (Nat.ltb_lt _ _) Hs). cbn [guard bind].
  pose proof (wf_f0 A HA) as f0.
  destruct (N.eqb_spec x 0) as [->|X0].
  - cbn [wp]. exists A. split; [symmetry; now apply upd_stored|]. eapply becomes_ext; [now apply becomes_refl|]. cbv beta. intros i c Hi Hc.
    rewrite fmul_0_l, N.lxor_0_r. destruct (Nat.eqb_spec i ar) as [->|]; [now destruct (s <=? c)|easy].
  - destruct (N.eqb_spec x 1) as [->|X1].
    + eapply wp_mono; [now apply (mzed_add_row_at_ok h pa ar pb br s A B)|]. cbv beta. intros h' (A' & -> & HA'). exists A'. split; [reflexivity|].
      eapply becomes_ext; [exact HA'|]. cbv beta. intros i c Hi Hc. rewrite fmul_1_l; auto.
      rewrite Ef. apply wf_entry; auto. lia.
    + rewrite !lget_row by easy. cbn [bind]. wfd HA.
      rewrite Wnc at 1. apply wp_bind. eapply wp_mono.
      * apply (axpy_words_at_ok (mz_ff A) (mz_w A) Wff Ww (mz_ncols A) _ x s); auto; [now apply wf_mrow| |].
        -- rewrite Ef, En. rewrite (same_w A B) by easy. now apply wf_mrow.
        -- intros E. assert (pa = pb /\ ar = br) as [-> ->] by lia. rewrite Ea in Eb. congruence.
      * cbv beta. intros a' Ha'. rewrite (lset_stored _ _ _ _ Ea). cbn [wp]. eexists. split; [reflexivity|].
        assert (Er : forall c, entry B br c = rel (mz_w A) (mrow (mz_x B) br) c).
        { intros c. unfold entry. now rewrite (same_w A B). }
        eapply becomes_ext; [apply becomes_row; eauto|]. cbv beta. intros i c _ _. now rewrite Er.
Qed.

Lemma mzed_mul_scalar_at_ok h pc a pb C B : nth_error h pc = Some C -> nth_error h pb = Some B ->
  wf_mzed B -> inF (fld B) a -> wf_mzed C -> fld C = fld B -> mz_nrows C = mz_nrows B -> mz_ncols C = mz_ncols B ->
  (0 < mz_ncols B \/ mz_nrows B = 0) ->
  (ff_degree (mz_ff B) <= 8 -> (N.of_nat (mz_nrows B) * N.of_nat (mz_ncols B) < 2 ^ 31)%N) ->
  (uses_table B -> ff_degree (mz_ff B) = 2 \/ ff_degree (mz_ff B) = 4 \/ ff_degree (mz_ff B) = 8) ->
  wp (mzed_mul_scalar_at h pc a pb) (fun h' => exists C', h' = upd h pc C' /\ becomes C C' (mscal (fld B) a (entry B))).
Proof.
  intros Ec Eb HB Ha HD E1 E2 E3 Hne Hint Hdeg. unfold mzed_mul_scalar_at.
  rewrite (lget_stored _ _ _ Ec), (lget_stored _ _ _ Eb). cbn [bind].
  rewrite scalar_direct_eq by exact Hint. cbn [bind].
  destruct ((8 <? ff_degree (mz_ff B)) || (N.of_nat (mz_nrows B) * N.of_nat (mz_ncols B) <? 131072)%N) eqn:Ep.
  - assert (K : wp (mzed_copy_at h pc pb) (fun h' => exists C1, h' = upd h pc C1 /\ becomes C C1 (entry B))).
    { unfold mzed_copy_at. destruct (Nat.eqb_spec pc pb) as [->|Hn].
      - cbn [wp]. rewrite Ec in Eb. injection Eb as ->. exists B. split; [symmetry; now apply upd_stored|now apply becomes_refl].
      - rewrite (lget_stored _ _ _ Ec), (lget_stored _ _ _ Eb). cbn [bind]. apply wp_bind.
        eapply wp_mono; [apply (mzed_copy_ok (Some C) B HB); cbn; auto|]. cbv beta. intros C1 [_ B1]. rewrite (lset_stored _ _ _ _ Ec). cbn [wp].
        exists C1. split; [reflexivity|]. exact (B1 C eq_refl). }
    apply wp_bind. eapply wp_mono; [exact K|]. cbv beta. intros h1 (C1 & -> & B1).
    eapply wp_mono.
    + apply (wp_for (fun r h' => exists C', h' = upd h pc C' /\ becomes C C' (fun i c => if i <? r then fmul (fld B) a (entry B i c) else entry B i c))); [lia| |].
      * exists C1. split; [reflexivity|]. eapply becomes_ext; [exact B1|]. cbv beta. intros i c _ _. now replace (i <? 0) with false by lia.
      * intros r h2 Hr (C2 & -> & B2). pose proof (becomes_nr _ _ _ B2) as N1. pose proof (becomes_nc _ _ _ B2) as N2.
        pose proof (becomes_ff _ _ _ B2) as N3. pose proof (stored_upd_eq h pc C C2 Ec) as E2'. unfold mzed_rescale_row_at.
        rewrite (lget_stored _ _ _ E2'). cbn [bind]. apply wp_bind.
        eapply wp_mono; [apply mzed_rescale_row_ok; [exact (becomes_wf _ _ _ B2)|now rewrite N3, E1|lia|lia]|].
        cbv beta. intros C3 B3. rewrite (lset_stored _ _ _ _ E2'). cbn [wp]. rewrite upd_upd. exists C3. split; [reflexivity|].
        eapply becomes_step; [exact B2|exact B3|]. cbv beta. intros i c Hi Hc.
        rewrite !(becomes_entry _ _ _ _ _ B2) by lia. rewrite N3, E1.
        replace (r <? r) with false by lia. cbn [Nat.leb]. rewrite andb_true_r.
        destruct (Nat.eqb_spec i r) as [->|].
        -- now replace (r <? S r) with true by lia.
        -- now replace (i <? S r) with (i <? r) by lia.
    + cbv beta. intros h' (C' & -> & B'). exists C'. split; [reflexivity|].
      eapply becomes_ext; [exact B'|]. cbv beta. intros i c Hi Hc. unfold mscal.
      now replace (i <? mz_nrows B) with true by lia.
  - apply orb_false_iff in Ep as [Ep1 Ep2]. assert (HU : uses_table B) by (unfold uses_table; lia).
    assert (Hd := Hdeg HU).
    pose proof HB as (Wff & Ww & Wnr & Wnc & Wlen & Wrow & Win).
    assert (Ew : mz_w B = ff_degree (mz_ff B)).
    { unfold gf2e_degree_to_w in Ww. destruct Hd as [H|[H|H]]; rewrite H in Ww |- *; congruence. }
    apply wp_bind. eapply wp_mono; [apply gf2e_t16_init_ok; auto|]. cbv beta.
    intros T (HT1 & HT2).
    assert (Hnc : 0 < mz_ncols B) by (destruct HU; nia).
    assert (wD : mz_w C = mz_w B) by now apply same_w.
    eapply wp_mono.
    + apply (wp_for (fun r h' => exists C', h' = upd h pc C' /\ becomes C C' (fun i c => if i <? r then fmul (fld B) a (entry B i c) else entry C i c))); [lia| |].
      * exists C. split; [symmetry; now apply upd_stored|]. eapply becomes_ext; [now apply becomes_refl|]. cbv beta. intros i c _ _. now replace (i <? 0) with false by lia.
      * intros r h2 Hr (C2 & -> & B2). pose proof (becomes_wf _ _ _ B2) as H2. pose proof (becomes_nr _ _ _ B2) as N1. pose proof (becomes_nc _ _ _ B2) as N2.
        pose proof (becomes_ff _ _ _ B2) as N3. pose proof (becomes_w _ _ _ B2) as N4.
        pose proof (stored_upd_eq h pc C C2 Ec) as Ec2.
        rewrite (lget_stored _ _ _ Ec2). cbn [bind].
        (* the matrix B points to now *)
        assert (KB : exists B2', nth_error (upd h pc C2) pb = Some B2' /\ (pc = pb -> B2' = C2) /\ wf_mzed B2' /\ fld B2' = fld B /\ mz_w B2' = mz_w B /\
                     mz_nrows B2' = mz_nrows B /\ mz_ncols B2' = mz_ncols B /\ forall c, c < mz_ncols B -> entry B2' r c = entry B r c).
        { destruct (Nat.eq_dec pc pb) as [E|E].
          - subst pb. rewrite Ec in Eb. injection Eb as E'. exists C2. split; [exact Ec2|]. split; [reflexivity|]. split; [exact H2|].
            split; [congruence|]. split; [congruence|]. split; [congruence|]. split; [congruence|]. intros c Hc. rewrite (becomes_entry _ _ _ _ _ B2) by lia.
            replace (r <? r) with false by lia. now rewrite E'.
          - exists B. rewrite (stored_upd_ne h pc pb C C2 Ec E). split; [exact Eb|]. repeat (split; [easy|]). easy. }
        destruct KB as (B' & EB & Hsame & HB' & F1 & F2 & F3 & F4 & F5).
        rewrite (lget_stored _ _ _ EB). cbn [bind]. rewrite !lget_row by (auto; lia). cbn [bind].
        pose proof H2 as (_ & _ & _ & Z & _). pose proof HB' as (_ & _ & _ & Z' & _). rewrite Z, Z', N2, N4, wD, E3, F2, F4.
        rewrite Nat.eqb_refl. cbn [guard bind]. rewrite Ew. apply wp_bind. eapply wp_mono.
        -- apply (t16_row_at_ok (mz_ff B) a T Wff Hd HT1 HT2 (pc =? pb) (mz_ncols B) (mrow (mz_x B') r) (mrow (mz_x C2) r)); auto.
           ++ rewrite <- Ew, <- F1, <- F2, <- F4. apply wf_mrow; auto. lia.
           ++ rewrite <- Ew. replace (fld B) with (fld C2) by congruence. replace (mz_w B) with (mz_w C2) by congruence.
              rewrite <- E3, <- N2. apply wf_mrow; auto. lia.
           ++ intros Es. rewrite (Hsame ltac:(lia)). reflexivity.
           ++ now rewrite <- Ew.
        -- cbv beta. intros a' Ha'. rewrite (lset_stored _ _ _ _ Ec2). cbn [wp]. rewrite upd_upd. eexists. split; [reflexivity|].
           assert (B3 : becomes C2 (set_row C2 r a')
             (fun i c => if (i =? r) && (0 <=? c) then fmul (fld B) a (entry B' r c) else entry C2 i c)).
           { apply becomes_row; auto; [lia|]. replace (mz_ncols C2) with (mz_ncols B) by congruence.
             replace (mz_w C2) with (ff_degree (mz_ff B)) by congruence.
             destruct Ha' as [R1 R2]. split.
             - replace (fld C2) with (fld B) by congruence. exact R1.
             - intros c Hc. rewrite R2 by easy. unfold entry. now rewrite F2, Ew. }
           eapply becomes_step; [exact B2|exact B3|]. cbv beta. intros i c Hi Hc.
           rewrite (becomes_entry _ _ _ _ _ B2) by lia. cbn [Nat.leb]. rewrite andb_true_r.
           destruct (Nat.eqb_spec i r) as [->|].
           ++ replace (r <? S r) with true by lia. rewrite F5 by lia. reflexivity.
           ++ now replace (i <? S r) with (i <? r) by lia.
    + cbv beta. intros h' (C' & -> & B'). exists C'. split; [reflexivity|].
      eapply becomes_ext; [exact B'|]. cbv beta. intros i c Hi Hc. unfold mscal.
      now replace (i <? mz_nrows C) with true by lia.
Qed.

(** mzed_invert_newton_john reads A before it writes B *)
Lemma bind_assoc {A B C} (m : res A) (k : A -> res B) (g : B -> res C) : (b <- (a <- m ;; k a) ;; g b) = (a <- m ;; b <- k a ;; g b).
Proof. now destruct m. Qed.
Lemma invert_at_eq k0 h pb pa B A : nth_error h pb = Some B -> nth_error h pa = Some A ->
  mzed_invert_newton_john_at k0 h pb pa = (B' <- mzed_invert_newton_john k0 (Some B) A ;; Ok (upd h pb B')).
Proof.
  intros Eb Ea. unfold mzed_invert_newton_john_at, mzed_invert_newton_john. rewrite (lget_stored _ _ _ Ea). cbn [bind].
  rewrite ?bind_assoc. destruct (guard _); cbn [bind]; try reflexivity.
  rewrite ?bind_assoc. destruct (mzed_init _ _ _); cbn [bind]; try reflexivity.
  rewrite ?bind_assoc. destruct (mzed_set_ui _ _); cbn [bind]; try reflexivity.
  rewrite ?bind_assoc. destruct (mzed_concat _ _ _); cbn [bind]; try reflexivity.
  rewrite ?bind_assoc. destruct (mzed_echelonize_newton_john _ _ _) as [[T r]| |]; cbn [bind]; try reflexivity.
  rewrite ?bind_assoc. destruct (mzed_window _ _ _ _ _); cbn [bind]; try reflexivity.
  destruct (mzed_cmp _ _); cbn [bind]; try reflexivity.
  rewrite (lget_stored _ _ _ Eb). cbn [bind]. destruct (mzed_submatrix _ _ _ _ _ _); cbn [bind]; try reflexivity.
  now rewrite (lset_stored _ _ _ _ Eb).
Qed.

(** the schoolbook product *)
Lemma mul_naive_at_eq h pc pa pb C A B : nth_error h pc = Some C -> nth_error h pa = Some A -> nth_error h pb = Some B -> pc <> pa -> pc <> pb ->
  forall C0, mzed_mul_naive_at_ (upd h pc C0) pc pa pb = (C' <- mzed_mul_naive_ C0 A B ;; Ok (upd h pc C')).
Proof.
  intros Ec Ea Eb Na Nb C0. unfold mzed_mul_naive_at_, mzed_mul_naive_.
  assert (RC : forall c, lget (upd h pc c) pc = Ok c) by (intros c; apply lget_stored; eapply stored_upd_eq; eauto).
  assert (RA : forall c, lget (upd h pc c) pa = Ok A) by (intros c; apply lget_stored; rewrite (stored_upd_ne h pc pa C c Ec Na); exact Ea).
  assert (RB : forall c, lget (upd h pc c) pb = Ok B) by (intros c; apply lget_stored; rewrite (stored_upd_ne h pc pb C c Ec Nb); exact Eb).
  rewrite RC, RA. cbn [bind]. apply for_cell. intros i c1. rewrite RC. cbn [bind]. apply for_cell. intros j c2. apply for_cell. intros k c3.
  rewrite RA. cbn [bind]. rewrite bind_assoc. destruct (mzed_read_elem A i k); cbn [bind]; try reflexivity.
  rewrite RB. cbn [bind]. rewrite bind_assoc. destruct (mzed_read_elem B k j); cbn [bind]; try reflexivity.
  rewrite RC. cbn [bind]. rewrite bind_assoc. destruct (gf2e_mul (mz_ff c3) _ _); cbn [bind]; try reflexivity.
  destruct (mzed_add_elem c3 i j _); cbn [bind]; try reflexivity. unfold lset. rewrite upd_length.
  replace (pc <? length h) with true by (pose proof (stored_lt _ _ _ Ec); lia). now rewrite upd_upd.
Qed.
Lemma mul_at_eq clear h pc pa pb C A B : nth_error h pc = Some C -> nth_error h pa = Some A -> nth_error h pb = Some B -> pc <> pa -> pc <> pb ->
  (h' <- mzed_mul_init_at h pc pa pb clear ;; mzed_mul_naive_at_ h' pc pa pb) = (C0 <- mzed_mul_init (Some C) A B clear ;; C' <- mzed_mul_naive_ C0 A B ;; Ok (upd h pc C')).
Proof.
  intros Ec Ea Eb Na Nb. unfold mzed_mul_init_at. rewrite (lget_stored _ _ _ Ec), (lget_stored _ _ _ Ea), (lget_stored _ _ _ Eb). cbn [bind].
  rewrite bind_assoc. destruct (mzed_mul_init (Some C) A B clear) as [C0| |]; cbn [bind]; try reflexivity.
  rewrite (lset_stored _ _ _ _ Ec). cbn [bind]. now apply (mul_naive_at_eq h pc pa pb C A B).
Qed.
(** a target that is one of the operands and has been cleared stays zero *)
Lemma mul_naive_at_zero h pc pa pb C A B : nth_error h pc = Some C -> nth_error h pa = Some A -> nth_error h pb = Some B ->
  wf_mzed C -> wf_mzed A -> wf_mzed B -> fld C = fld A -> fld C = fld B -> mz_ncols A = mz_nrows B -> mz_nrows C = mz_nrows A -> mz_ncols C = mz_ncols B ->
  pc = pa \/ pc = pb -> (forall i j, i < mz_nrows C -> j < mz_ncols C -> entry C i j = 0%N) ->
  wp (mzed_mul_naive_at_ h pc pa pb) (fun h' => exists C', h' = upd h pc C' /\ becomes C C' mzero).
Proof.
  intros Ec Ea Eb HC HA HB F1 F2 D1 D2 D3 Hal HZ. unfold mzed_mul_naive_at_. rewrite (lget_stored _ _ _ Ec), (lget_stored _ _ _ Ea). cbn [bind].
  set (J := fun h' => exists C', h' = upd h pc C' /\ becomes C C' mzero).
  assert (J0 : J h). { exists C. split; [symmetry; now apply upd_stored|]. eapply becomes_ext; [now apply becomes_refl|]. cbv beta. intros i j Hi Hj. now apply HZ. }
  apply (wp_for (fun _ => J)); [lia|exact J0|]. intros i h1 Hi J1. destruct J1 as (C1 & -> & B1). rewrite (lget_stored _ _ _ (stored_upd_eq h pc C C1 Ec)). cbn [bind]. pose proof (becomes_nc _ _ _ B1) as Q1.
  assert (J1 : J (upd h pc C1)) by (exists C1; split; [reflexivity|exact B1]).
  apply (wp_for (fun _ => J)); [lia|exact J1|]. intros j h2 Hj J2.
  apply (wp_for (fun _ => J)); [lia|exact J2|]. intros k h3 Hk (C3 & -> & B3).
  pose proof (stored_upd_eq h pc C C3 Ec) as Ec3. pose proof (becomes_wf _ _ _ B3) as W3. pose proof (becomes_nr _ _ _ B3) as R3. pose proof (becomes_nc _ _ _ B3) as Q3. pose proof (becomes_ff _ _ _ B3) as G3.
  assert (KA : exists A3, nth_error (upd h pc C3) pa = Some A3 /\ wf_mzed A3 /\ fld A3 = fld C /\ mz_nrows A3 = mz_nrows A /\ mz_ncols A3 = mz_ncols A /\ (pc = pa -> A3 = C3)).
  { destruct (Nat.eq_dec pc pa) as [E|E].
    - subst pa. rewrite Ec in Ea. injection Ea as E'. exists C3. subst A. repeat (split; [easy || congruence|]). easy.
    - exists A. rewrite (stored_upd_ne h pc pa C C3 Ec E). repeat (split; [easy || congruence|]). easy. }
  assert (KB : exists B3, nth_error (upd h pc C3) pb = Some B3 /\ wf_mzed B3 /\ fld B3 = fld C /\ mz_nrows B3 = mz_nrows B /\ mz_ncols B3 = mz_ncols B /\ (pc = pb -> B3 = C3)).
  { destruct (Nat.eq_dec pc pb) as [E|E].
    - subst pb. rewrite Ec in Eb. injection Eb as E'. exists C3. subst B. repeat (split; [easy || congruence|]). easy.
    - exists B. rewrite (stored_upd_ne h pc pb C C3 Ec E). repeat (split; [easy || congruence|]). easy. }
  destruct KA as (A3 & EA & WA & FA & RA & QA & SA). destruct KB as (B3' & EB & WB & FB & RB & QB & SB).
  rewrite (lget_stored _ _ _ EA). cbn [bind].
  rewrite (mzed_read_elem_ok A3 i k) by (auto; lia). cbn [bind]. rewrite (lget_stored _ _ _ EB). cbn [bind]. rewrite (mzed_read_elem_ok B3' k j) by (auto; lia). cbn [bind].
  rewrite (lget_stored _ _ _ Ec3). cbn [bind].
  assert (IA : inF (fld C3) (entry A3 i k)) by (rewrite G3, <- FA; apply wf_entry; auto; lia). assert (IB : inF (fld C3) (entry B3' k j)) by (rewrite G3, <- FB; apply wf_entry; auto; lia).
  rewrite gf2e_mul_ok; [|now destruct W3|exact IA|exact IB]. cbn [bind].
  assert (E0 : fmul (fld C3) (entry A3 i k) (entry B3' k j) = 0%N).
  { destruct Hal as [Hal|Hal].
    - subst pa. rewrite (SA eq_refl). rewrite (becomes_entry _ _ _ _ _ B3) by (rewrite ?R3, ?Q3; rewrite <- ?(SA eq_refl) in *; lia). apply fmul_0_l.
    - subst pb. rewrite (SB eq_refl). rewrite (becomes_entry _ _ _ _ _ B3) by (rewrite ?R3, ?Q3; rewrite <- ?(SB eq_refl) in *; lia). apply fmul_0_r. }
  rewrite E0. apply wp_bind. eapply wp_mono; [apply (mzed_add_elem_ok C3 i j 0%N W3); [lia|lia|]|].
  { unfold inF. apply N.neq_0_lt_0. now apply N.pow_nonzero. }
  cbv beta. intros C4 B4. rewrite (lset_stored _ _ _ _ Ec3). cbn [wp]. rewrite upd_upd. exists C4. split; [reflexivity|].
  eapply becomes_step; [exact B3|exact B4|]. cbv beta. intros i' j' Hi' Hj'. rewrite !(becomes_entry _ _ _ _ _ B3) by lia. unfold mzero. rewrite N.lxor_0_r. now destruct ((i' =? i) && (j' =? j)).
Qed.
