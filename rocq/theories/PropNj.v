(** Newton-John tables, multiplication, echelon forms and inversion: the properties C20-C22, C26-C28. *)
From Coq Require Import NArith Lia List Bool Arith.
From Coq Require Import ZifyBool ZifyNat ZifyN.
From Verif Require Import Base Spec LinSpec PolyFacts MatFacts EchFacts Gf2xModel Gf2eModel Gf2eProofs IrrProofs.
From Verif Require Import MzdModel MzedModel MzedSpec LaneFacts MzedProofs MzedOps MzedOps2 EchNaive NjModel NjTable NjMul NjEch NjEch2 NjInv Demo.
Import ListNotations.
Local Open Scope nat_scope.

(** C20: a fresh table *)
Theorem C20_make_table : forall A r c, wf_mzed A -> r < mz_nrows A -> c < mz_ncols A ->
  exists T0 T, njt_init (mz_ff A) (mz_ncols A) = Ok T0 /\ mzed_make_table T0 A r c = Ok T /\
    mz_nrows (nj_T T) = 2 ^ ff_degree (mz_ff A) /\ mz_ncols (nj_T T) = mz_ncols A /\
    forall x, inF (fld A) x -> exists l, nj_lookup T x = Ok l /\ l < 2 ^ ff_degree (mz_ff A) /\
      forall j, j < mz_ncols A -> entry (nj_T T) l j = if c <=? j then fmul (fld A) x (entry A r j) else 0%N.
Proof.
  intros A r c HA Hr Hc. destruct (wf_deg2 A HA) as [Hff Hd].
  destruct (proj1 (wp_iff _ _) (njt_init_ok (mz_ff A) (mz_ncols A) Hff Hd)) as (T0 & E0 & W0 & Z0).
  destruct (proj1 (wp_iff _ _) (mzed_make_table_ok T0 A r c HA W0 Hr Hc)) as (T & E & W & H).
  exists T0, T. split; [easy|]. split; [easy|]. pose proof W as (_ & (_ & _ & W3 & W4) & _). split; [easy|]. split; [easy|].
  intros x Hx. destruct (H x Hx) as (l & L1 & L2 & L3). exists l. split; [easy|]. split; [lia|].
  intros j Hj. pose proof (wf_cap A HA). destruct (L3 j ltac:(lia)) as [K1 K2].
  pose proof (per_pos _ (wf_good A HA)) as Pp. pose proof (Nat.mul_div_le c (per (mz_w A)) ltac:(lia)).
  destruct (Nat.lt_ge_cases j (per (mz_w A) * (c / per (mz_w A)))) as [L|L].
  - replace (c <=? j) with false by lia. destruct (proj1 (K2 L)) as [E1|E1]; [easy|]. now rewrite E1.
  - rewrite (K1 L). replace (j <? mz_ncols A) with true by lia. now rewrite andb_true_r.
Qed.
Print Assumptions C20_make_table.
Example C20_witness :
  (A <- mk 0xb 2 5 (noise 3 1) ;; T0 <- njt_init (mz_ff A) 5 ;; T <- mzed_make_table T0 A 1 2 ;; l <- nj_lookup T 6%N ;;
   Ok (to_rows A, l, nth l (to_rows (nj_T T)) [])) = Ok ([[1; 2; 3; 4; 5]; [4; 6; 0; 2; 4]], 4%nat, [0; 0; 0; 7; 5])%N.
Proof. vm_compute. reflexivity. Qed.

(** C21: a table used before.  [usable T]: any table that make_table calls on matrices of the same
    field and width can produce, starting from njt_init.  From the column 2 words before the word
    of c on, the table is right whatever its history; further to the left it can be stale. *)
Inductive history (ff : gf2e) (n : nat) : njt -> Prop :=
| h_init T : njt_init ff n = Ok T -> history ff n T
| h_make T A r c T' : history ff n T -> wf_mzed A -> mz_ff A = ff -> mz_ncols A = n -> r < mz_nrows A -> c < n ->
    mzed_make_table T A r c = Ok T' -> history ff n T'.
Lemma history_wf ff n T : gf2e_wf ff -> 2 <= ff_degree ff -> history ff n T -> njt_wf (ff_minpoly ff) (ff_degree ff) n T.
Proof.
  intros H1 H2. induction 1 as [T E|T A r c T' _ IH HA Ef En Hr Hc E].
  - pose proof (njt_init_ok ff n H1 H2) as W. rewrite E in W. apply W.
  - subst ff n. pose proof (mzed_make_table_ok T A r c HA IH Hr Hc) as W. rewrite E in W. apply W.
Qed.
Theorem C21_reused_table_right_part : forall T A r c, wf_mzed A -> history (mz_ff A) (mz_ncols A) T -> r < mz_nrows A -> c < mz_ncols A ->
  exists T', mzed_make_table T A r c = Ok T' /\
    forall x, inF (fld A) x -> exists l, nj_lookup T' x = Ok l /\ l < 2 ^ ff_degree (mz_ff A) /\
      forall j, j < mz_ncols A -> (64 / mz_w A) * (c / (64 / mz_w A) - 2) <= j ->
        entry (nj_T T') l j = if c <=? j then fmul (fld A) x (entry A r j) else 0%N.
Proof.
  intros T A r c HA Hh Hr Hc. destruct (wf_deg2 A HA) as [Hff Hd]. pose proof (history_wf _ _ _ Hff Hd Hh) as W0.
  destruct (proj1 (wp_iff _ _) (mzed_make_table_ok T A r c HA W0 Hr Hc)) as (T' & E & W & H).
  exists T'. split; [easy|]. pose proof W as (_ & (_ & _ & W3 & W4) & _).
  intros x Hx. destruct (H x Hx) as (l & L1 & L2 & L3). exists l. split; [easy|]. split; [lia|].
  intros j Hj Hge. pose proof (wf_cap A HA). destruct (L3 j ltac:(lia)) as [K1 K2].
  pose proof (per_pos _ (wf_good A HA)) as Pp. fold (per (mz_w A)) in Hge. pose proof (Nat.mul_div_le c (per (mz_w A)) ltac:(lia)).
  destruct (Nat.lt_ge_cases j (per (mz_w A) * (c / per (mz_w A)))) as [L|L].
  - replace (c <=? j) with false by lia. now apply K2.
  - rewrite (K1 L). replace (j <? mz_ncols A) with true by lia. now rewrite andb_true_r.
Qed.
(** GF(4), one row of 100 ones: a table built at column 0 and rebuilt at column 96 still has the old
    multiples in columns 0..31 *)
Theorem C21_stale_refuted : exists A T T' l,
  wf_mzed A /\ history (mz_ff A) (mz_ncols A) T /\ mzed_make_table T A 0 96 = Ok T' /\
  nj_lookup T' 1%N = Ok l /\ entry (nj_T T') l 0 <> 0%N.
Proof.
  destruct (mk_realises 7 1 100 (fun _ _ => 1%N)) as (A & EA & HA); [vm_compute; split; discriminate|now intros|].
  assert (E : (A <- mk 7 1 100 (fun _ _ => 1%N) ;; T0 <- njt_init (mz_ff A) (mz_ncols A) ;; T <- mzed_make_table T0 A 0 0 ;;
    T' <- mzed_make_table T A 0 96 ;; l <- nj_lookup T' 1%N ;; Ok (l, entry (nj_T T') l 0)) = Ok (1, 1%N)) by (vm_compute; reflexivity).
  rewrite EA in E. cbn [bind] in E. clear EA. destruct HA as (WA & _ & RA & CA & _).
  destruct (njt_init (mz_ff A) (mz_ncols A)) as [T0| |] eqn:E0; cbn [bind] in E; try discriminate.
  destruct (mzed_make_table T0 A 0 0) as [T| |] eqn:E1; cbn [bind] in E; try discriminate.
  destruct (mzed_make_table T A 0 96) as [T'| |] eqn:E2; cbn [bind] in E; try discriminate.
  destruct (nj_lookup T' 1) as [l| |] eqn:E3; cbn [bind] in E; try discriminate. injection E as -> E.
  exists A, T, T', 1. split; [exact WA|]. split; [|split; [exact E2|split; [exact E3|rewrite E; discriminate]]].
  refine (h_make _ _ T0 A 0 0 T (h_init _ _ _ E0) WA eq_refl eq_refl _ _ E1); [rewrite RA|rewrite CA]; repeat constructor.
Qed.
Print Assumptions C21_reused_table_right_part.
Print Assumptions C21_stale_refuted.

(** C22: [mulbs] is M4RI's multiplication block size, at least 16 *)
Lemma mulbs_pos mulbs A : wf_mzed A -> 16 <= mulbs -> 0 < mulbs / mz_w A.
Proof. intros H Hb. pose proof (good_w_pos _ (wf_good A H)). apply Nat.div_str_pos. lia. Qed.
Theorem C22_mul_newton_john : forall mulbs C A B, 16 <= mulbs -> wf_mzed A -> wf_mzed B ->
  fld A = fld B -> mz_ncols A = mz_nrows B -> 0 < mz_ncols B -> target C (fld A) (mz_nrows A) (mz_ncols B) ->
  (exists C', mzed_mul_newton_john mulbs C A B = Ok C' /\
     holds C' (fld A) (mz_nrows A) (mz_ncols B) (mmul (fld A) (mz_ncols A) (entry A) (entry B))) /\
  (exists C', mzed_addmul_newton_john mulbs C A B = Ok C' /\
     holds C' (fld A) (mz_nrows A) (mz_ncols B)
        (match C with
         | Some C => madd (entry C) (mmul (fld A) (mz_ncols A) (entry A) (entry B))
         | None => mmul (fld A) (mz_ncols A) (entry A) (entry B)
         end)).
Proof.
  intros mulbs C A B Hb HA HB Ef En Hn HC. pose proof (mulbs_pos mulbs A HA Hb) as Hp.
  split; apply wp_iff; [unfold mzed_mul_newton_john|unfold mzed_addmul_newton_john].
  - apply mzed_mul_init_ok; auto. intros D HD E1 E2 E3 _ ED _.
    eapply wp_mono; [apply mzed_mul_newton_john__ok; auto; split; [exact HD|split; [congruence|split; assumption]]|].
    cbv beta. intros C' B'. rewrite <- E1, <- E2, <- E3. apply becomes_holds.
    eapply becomes_ext; [exact B'|]. cbv beta. intros i j Hi Hj. rewrite ED by lia. rewrite E1, Ef. destruct C; now rewrite N.lxor_0_l.
  - apply mzed_mul_init_ok; auto. intros D HD E1 E2 E3 _ ED _.
    eapply wp_mono; [apply mzed_mul_newton_john__ok; auto; split; [exact HD|split; [congruence|split; assumption]]|].
    cbv beta. intros C' B'. rewrite <- E1, <- E2, <- E3. apply becomes_holds.
    eapply becomes_ext; [exact B'|]. cbv beta. intros i j Hi Hj. rewrite ED by lia. rewrite E1, Ef. destruct C; [easy|now rewrite N.lxor_0_l].
Qed.
Theorem C22_mul_newton_john0 : forall C A B, wf_mzed A -> wf_mzed B -> wf_mzed C ->
  fld A = fld B -> fld C = fld B -> mz_ncols A = mz_nrows B -> 0 < mz_ncols B -> mz_nrows C = mz_nrows A -> mz_ncols C = mz_ncols B ->
  exists C', mzed_mul_newton_john0 C A B = Ok C' /\
     becomes C C' (madd (entry C) (mmul (fld A) (mz_ncols A) (entry A) (entry B))).
Proof.
  intros C A B HA HB HC Ef Ec En Hn E1 E2. apply wp_iff. unfold mzed_mul_newton_john0. destruct (wf_deg2 B HB) as [Hff Hd].
  apply wp_bind. eapply wp_mono; [now apply njt_init_ok|]. cbv beta. intros T (HT & _).
  apply wp_bind. eapply wp_mono; [apply (cols_loop A B); auto; [split; [exact HC|split; [congruence|split; congruence]]|lia]|]. cbv beta. intros [C' T'] (HC' & _). cbn [wp].
  eapply becomes_ext; [exact HC'|]. cbv beta. intros i j Hi Hj. rewrite Nat.sub_0_r. unfold madd. now rewrite Ef.
Qed.
(** without columns in B the table construction trips the assertion of mzed_add_multiple_of_row *)
Theorem C22_no_columns_refuted : forall mulbs A B, wf_mzed A -> wf_mzed B -> fld A = fld B ->
  mz_ncols A = mz_nrows B -> mz_ncols B = 0 -> ff_degree (mz_ff A) <= mz_nrows A < mz_w A * mulbs -> 0 < mz_ncols A < 8 ->
  mzed_mul_newton_john mulbs None A B = UB.
Proof.
  intros mulbs A B HA HB Ef En Hn Hr Hc. unfold mzed_mul_newton_john, mzed_mul_init.
  rewrite En, Nat.eqb_refl, (proj2 (same_ff_iff A B) Ef). cbn [andb check bind]. destruct (wf_deg2 A HA) as [Hff Hd]. destruct (wf_deg2 B HB) as [Hffb Hdb].
  pose proof (mzed_init_ok (mz_ff A) (mz_nrows A) (mz_ncols B) Hff Hd) as W.
  destruct (mzed_init (mz_ff A) (mz_nrows A) (mz_ncols B)) as [C| |]; try contradiction. cbn [bind wp] in *. clear W.
  unfold mzed_mul_newton_john_. replace (mz_nrows A <? ff_degree (mz_ff A)) with false by lia.
  pose proof (njt_inits_ok 8 (mz_ff B) (mz_ncols B) Hffb Hdb) as W.
  destruct (njt_inits 8 (mz_ff B) (mz_ncols B)) as [Ts| |]; try contradiction. cbn [bind wp] in *.
  replace (mz_w A * mulbs <=? mz_nrows A) with false by lia. cbn [bind]. unfold mul_nj_block. rewrite (Nat.div_small (mz_ncols A) 8) by lia.
  rewrite for_ge by lia. cbn [bind]. destruct W as (L & W). destruct (lget_some Ts 0 ltac:(lia)) as (T & ET). rewrite ET. cbn [bind].
  unfold for_. replace (mz_ncols A - 8 * 0) with (S (mz_ncols A - 1)) by lia. cbn [forloop].
  unfold mul_nj_col, mzed_make_table. unfold for_ at 1. rewrite Nat.sub_0_r.
  destruct (ff_degree (mz_ff B)) as [|e] eqn:Ee; [lia|]. cbn [forloop].
  unfold mzed_add_multiple_of_row at 1.
  destruct (guard _) as [| |] eqn:G; [|unfold guard in G; destruct (_ && _) in G; discriminate|reflexivity].
  cbn [bind]. destruct (W 0 T ET) as ((_ & _ & _ & CM) & _).
  match goal with |- context [guard ?b] => replace b with false end; [reflexivity|].
  unfold mz_set_x; cbn [mz_ncols]. rewrite CM, Hn. reflexivity.
Qed.
Print Assumptions C22_mul_newton_john.
Print Assumptions C22_mul_newton_john0.
Print Assumptions C22_no_columns_refuted.
Example C22_witness :
  (A <- mk 7 4 9 (noise 3 1) ;; B <- mk 7 9 3 (noise 1 2) ;; C <- mzed_mul_newton_john 16 None A B ;;
   D <- mzed_mul_naive None A B ;; E <- mzed_addmul_newton_john 16 (Some C) A B ;;
   Ok (to_rows C, mzed_cmp C D, mzed_is_zero E)) = Ok ([[1; 3; 1]; [0; 0; 0]; [3; 2; 3]; [2; 1; 2]]%N, Eq, true).
Proof. vm_compute. reflexivity. Qed.
Example C22_no_columns_witness : (A <- mk 7 2 1 (noise 3 1) ;; B <- mk 7 1 0 (noise 1 2) ;; mzed_mul_newton_john 16 None A B) = UB.
Proof. vm_compute. reflexivity. Qed.

(** C26, C27: what an echelonisation returns *)
Definition echelonises (full : bool) (A A' : mzed) (r : nat) : Prop :=
  becomes A A' (entry A') /\
  row_equiv (fld A) (mz_nrows A) (mz_ncols A) (entry A) (entry A') /\
  (exists piv, echelon (mz_nrows A) (mz_ncols A) r piv (entry A') /\
     (full = true -> reduced (mz_nrows A) r piv (entry A'))) /\
  is_rank (fld A) (mz_nrows A) (mz_ncols A) (entry A) r /\
  (forall r', is_rank (fld A) (mz_nrows A) (mz_ncols A) (entry A) r' -> r' = r).
Lemma ech_result_echelonises full A A' r : wf_mzed A -> irreducible (fld A) -> ech_result full A A' r -> echelonises full A A' r.
Proof.
  intros HA Hirr (B & Q & piv & He & Hr). pose proof (wf_deg1 A HA) as Hd.
  assert (HR : inM (fld A) (mz_nrows A) (mz_ncols A) (entry A')).
  { pose proof (wf_inM A' (becomes_wf _ _ _ B)) as X. now rewrite (becomes_ff _ _ _ B), (becomes_nr _ _ _ B), (becomes_nc _ _ _ B) in X. }
  assert (Rk : is_rank (fld A) (mz_nrows A) (mz_ncols A) (entry A) r).
  { apply (echelon_rank (fld A) Hd _ _ r piv (entry A) (entry A')); auto. now apply wf_inM. }
  split; [easy|]. split; [easy|]. split; [eauto|]. split; [easy|].
  intros r' Hr'. apply (rank_unique (fld A) Hd Hirr (mz_nrows A) (mz_ncols A) (entry A)); auto. now apply wf_inM.
Qed.
Theorem C26_echelonize_naive : forall A full, wf_mzed A -> irreducible (fld A) ->
  exists A' r, mzed_echelonize_naive A full = Ok (A', r) /\ echelonises full A A' r.
Proof.
  intros A full HA Hirr. destruct (proj1 (wp_iff _ _) (mzed_echelonize_naive_ok A full HA Hirr)) as ([A' r] & E & H).
  exists A', r. split; [easy|]. now apply ech_result_echelonises.
Qed.
Print Assumptions C26_echelonize_naive.
Example C26_witness :
  (A <- mk 0xb 3 4 (fun i j => N.of_nat ((i + j) mod 4)) ;; '(A', r) <- mzed_echelonize_naive A true ;; Ok (to_rows A, to_rows A', r)) =
  Ok ([[0; 1; 2; 3]; [1; 2; 3; 0]; [2; 3; 0; 1]], [[1; 0; 0; 1]; [0; 1; 0; 1]; [0; 0; 1; 1]], 3%nat)%N.
Proof. vm_compute. reflexivity. Qed.

(** [k0 <= 7] is the table parameter M4RI's heuristic suggests; the result is an echelon form for
    all of them, and with full it is the one of the naive algorithm *)
Theorem C27_echelonize_newton_john : forall k0 A full, wf_mzed A -> irreducible (fld A) -> k0 <= 7 ->
  exists A' r, mzed_echelonize_newton_john k0 A full = Ok (A', r) /\ echelonises full A A' r.
Proof.
  intros k0 A full HA Hirr Hk. destruct (proj1 (wp_iff _ _) (mzed_echelonize_newton_john_ok k0 A full HA Hirr Hk)) as ([A' r] & E & H).
  exists A', r. split; [easy|]. now apply ech_result_echelonises.
Qed.
Theorem C27_agrees_with_naive : forall k0 A full A1 r1 A2 r2, wf_mzed A -> irreducible (fld A) -> k0 <= 7 ->
  mzed_echelonize_newton_john k0 A full = Ok (A1, r1) -> mzed_echelonize_naive A full = Ok (A2, r2) ->
  r1 = r2 /\ (full = true -> forall i j, i < mz_nrows A -> j < mz_ncols A -> entry A1 i j = entry A2 i j).
Proof.
  intros k0 A full A1 r1 A2 r2 HA Hirr Hk E1 E2.
  pose proof (mzed_echelonize_newton_john_ok k0 A full HA Hirr Hk) as W1. rewrite E1 in W1. cbn [wp] in W1.
  pose proof (mzed_echelonize_naive_ok A full HA Hirr) as W2. rewrite E2 in W2. cbn [wp] in W2.
  split.
  - pose proof (ech_result_echelonises _ _ _ _ HA Hirr W1) as (_ & _ & _ & K1 & _).
    pose proof (ech_result_echelonises _ _ _ _ HA Hirr W2) as (_ & _ & _ & _ & K2). now apply K2.
  - intros Hf. destruct W1 as (B1 & Q1 & piv1 & He1 & Hr1). destruct W2 as (B2 & Q2 & piv2 & He2 & Hr2).
    assert (HR : forall A' F, becomes A A' F -> inM (fld A) (mz_nrows A) (mz_ncols A) (entry A')).
    { intros A' F B. pose proof (wf_inM A' (becomes_wf _ _ _ B)) as X. now rewrite (becomes_ff _ _ _ B), (becomes_nr _ _ _ B), (becomes_nc _ _ _ B) in X. }
    destruct (rref_unique (fld A) (wf_deg1 A HA) Hirr (mz_nrows A) (mz_ncols A) (entry A) r1 piv1 (entry A1) r2 piv2 (entry A2)) as (_ & M & _); auto.
    + now apply wf_inM.
    + eapply HR; eauto.
    + eapply HR; eauto.
Qed.
Print Assumptions C27_echelonize_newton_john.
Print Assumptions C27_agrees_with_naive.
Example C27_witness :
  (A <- mk 0xb 4 5 (fun i j => N.of_nat ((i * j + i + j) mod 5)) ;; '(A', r) <- mzed_echelonize_newton_john 3 A true ;;
   '(A2, r2) <- mzed_echelonize_naive A true ;; Ok (to_rows A, to_rows A', r, r2, mzed_cmp A' A2)) =
  Ok ([[0; 1; 2; 3; 4]; [1; 3; 0; 2; 4]; [2; 0; 3; 1; 4]; [3; 2; 1; 0; 4]], [[1; 0; 0; 1; 0]; [0; 1; 0; 1; 5]; [0; 0; 1; 1; 5]; [0; 0; 0; 0; 0]], 3%nat, 3%nat, Eq)%N.
Proof. vm_compute. reflexivity. Qed.

(** C28 *)
Theorem C28_invert : forall k0 B A, wf_mzed A -> irreducible (fld A) -> k0 <= 7 -> mz_nrows A = mz_ncols A ->
  target B (fld A) (mz_nrows A) (mz_ncols A) ->
  (invertible (fld A) (mz_nrows A) (entry A) ->
     exists B', mzed_invert_newton_john k0 B A = Ok B' /\ wf_mzed B' /\ fld B' = fld A /\ mz_nrows B' = mz_nrows A /\ mz_ncols B' = mz_ncols A /\
        inverse (fld A) (mz_nrows A) (entry A) (entry B')) /\
  (~ invertible (fld A) (mz_nrows A) (entry A) -> mzed_invert_newton_john k0 B A = Die).
Proof.
  intros k0 B A HA Hirr Hk Sq HB. destruct (mzed_invert_newton_john_ok k0 B A HA Hirr Hk Sq HB) as [H1 H2].
  split; [|exact H2]. intros Hi. apply wp_iff. now apply H1.
Qed.
Print Assumptions C28_invert.
Example C28_witness :
  (A <- mk 7 3 3 (of_rows [[1; 2; 3]; [2; 2; 1]; [0; 1; 1]]%N) ;; B <- mzed_invert_newton_john 3 None A ;;
   C <- mzed_mul_naive None A B ;; Ok (to_rows B, to_rows C)) = Ok ([[3; 1; 3]; [2; 1; 0]; [2; 1; 1]], [[1; 0; 0]; [0; 1; 0]; [0; 0; 1]])%N /\
  (A <- mk 7 2 2 (of_rows [[1; 2]; [2; 3]]%N) ;; mzed_invert_newton_john 3 None A) = Die.
Proof. split; vm_compute; reflexivity. Qed.
