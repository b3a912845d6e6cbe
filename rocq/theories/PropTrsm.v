(** Properties C29, C30, C31: triangular systems of equations. *)
From Coq Require Import NArith ZArith Lia List Bool Arith.
From Coq Require Import ZifyBool ZifyNat ZifyN.
From Verif Require Import Base Spec LinSpec PolyFacts MatFacts Gf2xModel Gf2eModel Gf2eProofs.
From Verif Require Import MzdModel MzedModel MzedSpec LaneFacts MzedProofs MzedOps MzedOps2 Demo EchFacts NjModel NjTable NjMul IrrTable IrrProofs.
From Verif Require Import StrassenModel StrassenProofs SliceModel SliceSpec SliceProofs SliceOps KaraModel ConvModel ConvCling PropSlice.
From Verif Require Import MulModel MulProofs TrsmSpec TrsmModel TrsmProofs TrsmRec.
Import ListNotations.
Local Open Scope nat_scope.

(** what every solver is asked to do: L square, B of matching height and at least one column, same
    irreducible modulus, units on the diagonal *)
Definition tri_input (L B : mzed) : Prop :=
  irreducible (ff_minpoly (mz_ff B)) /\ wf_mzed L /\ wf_mzed B /\ ff_minpoly (mz_ff L) = ff_minpoly (mz_ff B) /\
  mz_nrows L = mz_ncols L /\ mz_nrows B = mz_nrows L /\ 0 < mz_ncols B /\ (forall i, i < mz_nrows L -> entry L i i <> 0%N).
Definition stri_input (L B : slice) : Prop :=
  irreducible (ff_minpoly (sl_ff B)) /\ (2 <= pdeg (ff_minpoly (sl_ff B)))%N /\ wf_slice L /\ wf_slice B /\ ff_minpoly (sl_ff L) = ff_minpoly (sl_ff B) /\
  sl_nrows L = sl_ncols L /\ sl_nrows B = sl_nrows L /\ 0 < sl_ncols B /\ (forall i, i < sl_nrows L -> sentry L i i <> 0%N).

Lemma tri_lower_sol L B : tri_input L B -> exists X, the_solution (ff_minpoly (mz_ff B)) (mz_nrows B) (mz_ncols B) (tril (entry L)) X (entry B).
Proof.
  intros (Hirr & HL & HB & Ef & Sq & En & Hk & Hd).
  assert (IL : inM (fld B) (mz_nrows B) (mz_nrows B) (entry L)) by (intros i j Hi Hj; rewrite <- Ef; apply wf_entry; auto; lia).
  assert (IB : inM (fld B) (mz_nrows B) (mz_ncols B) (entry B)) by (intros i j Hi Hj; now apply wf_entry).
  assert (Dg : nz_diag (mz_nrows B) (entry L)) by (intros i Hi; apply Hd; lia).
  destruct (tril_exists _ Hirr _ _ _ _ IL IB Dg) as (X & X1 & X2). exists X. split; [exact X1|]. split; [exact X2|]. intros Y HY EY.
  exact (tril_unique _ (irreducible_no_factor _ Hirr) Hirr _ _ _ IL Dg X Y _ X1 HY X2 EY).
Qed.
Lemma tri_upper_sol L B : tri_input L B -> exists X, the_solution (ff_minpoly (mz_ff B)) (mz_nrows B) (mz_ncols B) (triu (entry L)) X (entry B).
Proof.
  intros (Hirr & HL & HB & Ef & Sq & En & Hk & Hd).
  assert (IL : inM (fld B) (mz_nrows B) (mz_nrows B) (entry L)) by (intros i j Hi Hj; rewrite <- Ef; apply wf_entry; auto; lia).
  assert (IB : inM (fld B) (mz_nrows B) (mz_ncols B) (entry B)) by (intros i j Hi Hj; now apply wf_entry).
  assert (Dg : nz_diag (mz_nrows B) (entry L)) by (intros i Hi; apply Hd; lia).
  destruct (triu_exists _ Hirr _ _ _ _ IL IB Dg) as (X & X1 & X2). exists X. split; [exact X1|]. split; [exact X2|]. intros Y HY EY.
  exact (triu_unique _ (irreducible_no_factor _ Hirr) Hirr _ _ _ IL Dg X Y _ X1 HY X2 EY).
Qed.
Lemma stri_sol L B : stri_input L B ->
  (exists X, the_solution (ff_minpoly (sl_ff B)) (sl_nrows B) (sl_ncols B) (tril (sentry L)) X (sentry B)) /\
  (exists X, the_solution (ff_minpoly (sl_ff B)) (sl_nrows B) (sl_ncols B) (triu (sentry L)) X (sentry B)).
Proof.
  intros (Hirr & _ & HL & HB & Ef & Sq & En & Hk & Hd).
  assert (IL : inM (sfld B) (sl_nrows B) (sl_nrows B) (sentry L)) by (pose proof (sh_in _ _ _ _ _ (sh_self L HL)) as K; rewrite Ef, <- Sq, <- En in K; exact K).
  assert (IB : inM (sfld B) (sl_nrows B) (sl_ncols B) (sentry B)) by exact (sh_in _ _ _ _ _ (sh_self B HB)).
  assert (Dg : nz_diag (sl_nrows B) (sentry L)) by (intros i Hi; apply Hd; lia). split.
  - destruct (tril_exists _ Hirr _ _ _ _ IL IB Dg) as (X & X1 & X2). exists X. split; [exact X1|]. split; [exact X2|]. intros Y HY EY.
    exact (tril_unique _ (irreducible_no_factor _ Hirr) Hirr _ _ _ IL Dg X Y _ X1 HY X2 EY).
  - destruct (triu_exists _ Hirr _ _ _ _ IL IB Dg) as (X & X1 & X2). exists X. split; [exact X1|]. split; [exact X2|]. intros Y HY EY.
    exact (triu_unique _ (irreducible_no_factor _ Hirr) Hirr _ _ _ IL Dg X Y _ X1 HY X2 EY).
Qed.
Lemma tri_h L B : tri_input L B ->
  holds L (fld B) (mz_nrows B) (mz_nrows B) (entry L) /\ holds B (fld B) (mz_nrows B) (mz_ncols B) (entry B) /\ nz_diag (mz_nrows B) (entry L).
Proof.
  intros (Hirr & HL & HB & Ef & Sq & En & Hk & Hd). pose proof (holds_self L HL) as K. rewrite Ef, <- Sq, <- En in K. split; [exact K|].
  split; [now apply holds_self|]. intros i Hi. apply Hd. lia.
Qed.
Lemma stri_h L B : stri_input L B ->
  sholds L (sfld B) (sl_nrows B) (sl_nrows B) (sentry L) /\ sholds B (sfld B) (sl_nrows B) (sl_ncols B) (sentry B) /\ nz_diag (sl_nrows B) (sentry L).
Proof.
  intros (Hirr & _ & HL & HB & Ef & Sq & En & Hk & Hd). pose proof (sh_self L HL) as K. rewrite Ef, <- Sq, <- En in K. split; [exact K|].
  split; [now apply sh_self|]. intros i Hi. apply Hd. lia.
Qed.

(** C29: the naive solvers overwrite B by the one and only solution; the other triangle of the
    coefficient matrix is ignored; nothing outside B is touched *)
Theorem C29_trsm_naive : forall L B, tri_input L B ->
  (exists X B', mzed_trsm_lower_left_naive L B = Ok B' /\ becomes B B' X /\
     the_solution (ff_minpoly (mz_ff B)) (mz_nrows B) (mz_ncols B) (tril (entry L)) X (entry B)) /\
  (exists X B', mzed_trsm_upper_left_naive L B = Ok B' /\ becomes B B' X /\
     the_solution (ff_minpoly (mz_ff B)) (mz_nrows B) (mz_ncols B) (triu (entry L)) X (entry B)).
Proof.
  intros L B HI. destruct (tri_h L B HI) as (KL & KB & Kd). pose proof HI as (Hirr & HL & HB & Ef & Sq & En & Hk & Hd). split.
  - destruct (tri_lower_sol L B HI) as (X & HX). pose proof HX as (X1 & X2 & _).
    destruct (proj1 (wp_iff _ _) (trsm_lower_naive_ok L B Hirr HL HB Ef Sq ltac:(congruence) Hk Kd)) as (B' & E & HS).
    exists X, B'. split; [exact E|]. split; [|exact HX]. exact (solved_lower_to _ _ _ L B B' _ _ X Hirr KL KB Kd X1 X2 HS).
  - destruct (tri_upper_sol L B HI) as (X & HX). pose proof HX as (X1 & X2 & _).
    destruct (proj1 (wp_iff _ _) (trsm_upper_naive_ok L B Hirr HL HB Ef Sq ltac:(congruence) Hk Kd)) as (B' & E & HS).
    exists X, B'. split; [exact E|]. split; [|exact HX]. exact (solved_upper_to _ _ _ L B B' _ _ X Hirr KL KB Kd X1 X2 HS).
Qed.
Print Assumptions C29_trsm_naive.

(** C30: the Newton-John solvers and the recursive ones, with every cutoff from 64 on (the public entry
    points use 512), write that same solution *)
Theorem C30_trsm_lower : forall L B, tri_input L B -> exists X,
  the_solution (ff_minpoly (mz_ff B)) (mz_nrows B) (mz_ncols B) (tril (entry L)) X (entry B) /\
  (exists B', mzed_trsm_lower_left_newton_john L B = Ok B' /\ becomes B B' X) /\
  forall mulbs l2, 16 <= mulbs -> (4096 <= l2)%Z ->
    (exists B', mzed_trsm_lower_left mulbs l2 L B = Ok B' /\ becomes B B' X) /\
    forall cutoff, 64 <= cutoff -> exists B', mzed_trsm_lower_left_ mulbs l2 L B cutoff = Ok B' /\ becomes B B' X.
Proof.
  intros L B HI. destruct (tri_h L B HI) as (KL & KB & Kd). pose proof HI as (Hirr & HL & HB & Ef & Sq & En & Hk & Hd).
  destruct (tri_lower_sol L B HI) as (X & HX). pose proof HX as (X1 & X2 & _). exists X. split; [exact HX|]. split.
  - destruct (proj1 (wp_iff _ _) (trsm_lower_nj_ok L B Hirr HL HB Ef Sq ltac:(congruence) Hk Kd)) as (B' & E & HS).
    exists B'. split; [exact E|]. exact (solved_lower_to _ _ _ L B B' _ _ X Hirr KL KB Kd X1 X2 HS).
  - intros mulbs l2 Hm Hl. assert (K : forall cutoff, 64 <= cutoff -> exists B', mzed_trsm_lower_left_ mulbs l2 L B cutoff = Ok B' /\ becomes B B' X).
    { intros cutoff Hc. apply wp_iff. unfold mzed_trsm_lower_left_. eapply (trsm_lower_ok (fld B) Hirr mulbs l2 cutoff Hm Hl Hc _ (mz_nrows B) (mz_ncols B) L B); eauto. lia. }
    split; [|exact K]. apply K. unfold MZED_TRSM_CUTOFF. lia.
Qed.
Print Assumptions C30_trsm_lower.
Theorem C30_trsm_upper : forall U B, tri_input U B -> exists X,
  the_solution (ff_minpoly (mz_ff B)) (mz_nrows B) (mz_ncols B) (triu (entry U)) X (entry B) /\
  (exists B', mzed_trsm_upper_left_newton_john U B = Ok B' /\ becomes B B' X) /\
  forall mulbs l2, 16 <= mulbs -> (4096 <= l2)%Z ->
    (exists B', mzed_trsm_upper_left mulbs l2 U B = Ok B' /\ becomes B B' X) /\
    forall cutoff, 64 <= cutoff -> exists B', mzed_trsm_upper_left_ mulbs l2 U B cutoff = Ok B' /\ becomes B B' X.
Proof.
  intros L B HI. destruct (tri_h L B HI) as (KL & KB & Kd). pose proof HI as (Hirr & HL & HB & Ef & Sq & En & Hk & Hd).
  destruct (tri_upper_sol L B HI) as (X & HX). pose proof HX as (X1 & X2 & _). exists X. split; [exact HX|]. split.
  - destruct (proj1 (wp_iff _ _) (trsm_upper_nj_ok L B Hirr HL HB Ef Sq ltac:(congruence) Hk Kd)) as (B' & E & HS).
    exists B'. split; [exact E|]. exact (solved_upper_to _ _ _ L B B' _ _ X Hirr KL KB Kd X1 X2 HS).
  - intros mulbs l2 Hm Hl. assert (K : forall cutoff, 64 <= cutoff -> exists B', mzed_trsm_upper_left_ mulbs l2 L B cutoff = Ok B' /\ becomes B B' X).
    { intros cutoff Hc. apply wp_iff. unfold mzed_trsm_upper_left_. eapply (trsm_upper_ok (fld B) Hirr mulbs l2 cutoff Hm Hl Hc _ (mz_nrows B) (mz_ncols B) L B); eauto. lia. }
    split; [|exact K]. apply K. unfold MZED_TRSM_CUTOFF. lia.
Qed.
Print Assumptions C30_trsm_upper.
Theorem C30_slice_trsm_lower : forall L B, stri_input L B -> exists X,
  the_solution (ff_minpoly (sl_ff B)) (sl_nrows B) (sl_ncols B) (tril (sentry L)) X (sentry B) /\
  (exists B', mzd_slice_trsm_lower_left_naive L B = Ok B' /\ sbecomes B B' X) /\
  (exists B', mzd_slice_trsm_lower_left_newton_john L B = Ok B' /\ sbecomes B B' X) /\
  (exists B', mzd_slice_trsm_lower_left L B = Ok B' /\ sbecomes B B' X) /\
  forall cutoff, 64 <= cutoff -> exists B', mzd_slice_trsm_lower_left_ L B cutoff = Ok B' /\ sbecomes B B' X.
Proof.
  intros L B HI. destruct (stri_h L B HI) as (KL & KB & Kd). pose proof HI as (Hirr & Hdeg & HL & HB & Ef & Sq & En & Hk & Hd).
  destruct (proj1 (stri_sol L B HI)) as (X & HX). pose proof HX as (X1 & X2 & _). exists X. split; [exact HX|].
  split; [apply wp_iff; exact (strsm_lower_naive_ok (sfld B) Hirr Hdeg _ _ L B _ _ X KL KB Hk Kd X1 X2)|].
  split; [apply wp_iff; exact (strsm_lower_nj_ok (sfld B) Hirr Hdeg _ _ L B _ _ X KL KB Hk Kd X1 X2)|].
  assert (K : forall cutoff, 64 <= cutoff -> exists B', mzd_slice_trsm_lower_left_ L B cutoff = Ok B' /\ sbecomes B B' X).
  { intros cutoff Hc. apply wp_iff. unfold mzd_slice_trsm_lower_left_. eapply (strsm_lower_ok (sfld B) Hirr Hdeg cutoff Hc _ (sl_nrows B) (sl_ncols B) L B); eauto. lia. }
  split; [|exact K]. apply K. unfold MZED_TRSM_CUTOFF. lia.
Qed.
Print Assumptions C30_slice_trsm_lower.
Theorem C30_slice_trsm_upper : forall U B, stri_input U B -> exists X,
  the_solution (ff_minpoly (sl_ff B)) (sl_nrows B) (sl_ncols B) (triu (sentry U)) X (sentry B) /\
  (exists B', mzd_slice_trsm_upper_left_naive U B = Ok B' /\ sbecomes B B' X) /\
  (exists B', mzd_slice_trsm_upper_left_newton_john U B = Ok B' /\ sbecomes B B' X) /\
  (exists B', mzd_slice_trsm_upper_left U B = Ok B' /\ sbecomes B B' X) /\
  forall cutoff, 64 <= cutoff -> exists B', mzd_slice_trsm_upper_left_ U B cutoff = Ok B' /\ sbecomes B B' X.
Proof.
  intros L B HI. destruct (stri_h L B HI) as (KL & KB & Kd). pose proof HI as (Hirr & Hdeg & HL & HB & Ef & Sq & En & Hk & Hd).
  destruct (proj2 (stri_sol L B HI)) as (X & HX). pose proof HX as (X1 & X2 & _). exists X. split; [exact HX|].
  split; [apply wp_iff; exact (strsm_upper_naive_ok (sfld B) Hirr Hdeg _ _ L B _ _ X KL KB Hk Kd X1 X2)|].
  split; [apply wp_iff; exact (strsm_upper_nj_ok (sfld B) Hirr Hdeg _ _ L B _ _ X KL KB Hk Kd X1 X2)|].
  assert (K : forall cutoff, 64 <= cutoff -> exists B', mzd_slice_trsm_upper_left_ L B cutoff = Ok B' /\ sbecomes B B' X).
  { intros cutoff Hc. apply wp_iff. unfold mzd_slice_trsm_upper_left_. eapply (strsm_upper_ok (sfld B) Hirr Hdeg cutoff Hc _ (sl_nrows B) (sl_ncols B) L B); eauto. lia. }
  split; [|exact K]. apply K. unfold MZED_TRSM_CUTOFF. lia.
Qed.
Print Assumptions C30_slice_trsm_upper.

(** C31: for every cutoff below 64, every system with more than cutoff and at most 64 rows and more than
    cutoff right hand sides makes the recursive solver leave its operands (fewer than 64 rows: a window
    past the end; exactly 64 rows: it calls itself on the same system for ever, so no fuel suffices).
    (M4RI silently clips the row count of such a window: then the call with fewer rows never returns either.) *)
Theorem C31_small_cutoff_refuted : forall L B cutoff, tri_input L B -> cutoff < mz_nrows L <= 64 -> cutoff < mz_ncols B ->
  forall mulbs l2 fuel, trsm_lower mulbs l2 fuel L B cutoff = UB.
Proof.
  intros L B cutoff (Hirr & HL & HB & Ef & Sq & En & Hk & Hd) Hn Hkc mulbs l2 fuel. clear Hd.
  revert L B Hirr HL HB Ef Sq En Hk Hn Hkc. induction fuel as [|fuel IH]; intros L B Hirr HL HB Ef Sq En Hk Hn Hkc; [reflexivity|].
  cbn [trsm_lower]. rewrite trsm_assert_true by congruence. cbn [guard bind].
  replace ((mz_nrows L <=? cutoff) || (mz_ncols B <=? cutoff)) with false by lia.
  assert (Es : trsm_split (mz_nrows L) = 64).
  { unfold trsm_split. pose proof (Nat.div_mod (mz_nrows L) 2 ltac:(lia)). pose proof (Nat.mod_le (mz_nrows L / 2) 64 ltac:(lia)). lia. }
  cbv zeta. rewrite Es. destruct (Nat.eq_dec (mz_nrows L) 64) as [E64|N64].
  - assert (KL := holds_self L HL). assert (KB := holds_self B HB). rewrite <- Sq, E64 in KL. rewrite En, E64 in KB.
    assert (M0 : forall x, 0 mod x = 0) by (intros [|x]; [reflexivity|apply Nat.mod_0_l; lia]).
    assert (M64 : 64 mod per (mz_w L) = 0) by (apply mod64_per; [now apply wf_good|reflexivity]).
    rewrite En, E64.
    destruct (proj1 (wp_iff _ _) (win_h L _ 64 64 _ 0 0 64 64 KL ltac:(lia) ltac:(lia) (M0 _))) as (L00 & -> & (W1 & W2 & W3 & W4 & W5) & _).
    destruct (proj1 (wp_iff _ _) (win_h L _ 64 64 _ 64 0 64 64 KL ltac:(lia) ltac:(lia) (M0 _))) as (L10 & -> & _).
    destruct (proj1 (wp_iff _ _) (win_h L _ 64 64 _ 64 64 64 64 KL ltac:(lia) ltac:(lia) M64)) as (L11 & -> & _). cbn [bind]. unfold on_win.
    pose proof (win_h B _ 64 _ _ 0 0 64 (mz_ncols B) KB ltac:(lia) ltac:(lia) (M0 _)) as WB0. destruct (proj1 (wp_iff _ _) WB0) as (B0 & -> & (V1 & V2 & V3 & V4 & V5) & _).
    cbn [bind]. rewrite (IH L00 B0); try congruence; try lia. reflexivity.
  - unfold mzed_window at 1. wfd HL. rewrite Ww. cbn [bind]. unfold mzd_window at 1. replace (64 - 0 <=? mzd_nrows (mz_x L)) with false by lia.
    replace (64 <=? mzd_nrows (mz_x L)) with false by lia. rewrite !andb_false_r. reflexivity.
Qed.
Print Assumptions C31_small_cutoff_refuted.

(** ** reachable instances *)
Definition kap (f : N) (m n : nat) (F : mat) : res slice := A <- mk f m n F ;; mzed_slice None A.
Lemma kap_spec f m n F : (2 <= pdeg f <= 16)%N -> (forall i j, i < m -> j < n -> inF f (F i j)) ->
  exists A, kap f m n F = Ok A /\ sholds A f m n F.
Proof.
  intros Hf HF. destruct (mk_realises f m n F Hf HF) as (A & E & A1 & A2 & A3 & A4 & A5). unfold kap. rewrite E. cbn [bind].
  destruct (proj1 (wp_iff _ _) (ConvSlice.mzed_slice_ok None A A1 Logic.I)) as (S & ES & KS & _). exists S. split; [exact ES|]. rewrite A2, A3, A4 in KS. eapply sh_ext; [exact KS|]. exact A5.
Qed.
(** for every size and field there are inputs of the shape the theorems ask for *)
Example C29_inputs_exist : forall n k, 0 < k -> exists L B, tri_input L B /\ mz_nrows B = n /\ mz_ncols B = k /\ (1 < n -> entry L 1 0 = 6%N) /\ (0 < n -> entry B 0 0 = 5%N).
Proof.
  intros n k Hk. assert (Hirr : irreducible 0xb) by (apply irrb_spec; vm_compute; congruence).
  destruct (mk_realises 0xb n n (fun i j => if i =? j then 3%N else 6%N) ltac:(vm_compute; split; discriminate)) as (L & _ & L1 & L2 & L3 & L4 & L5).
  { intros i j _ _. destruct (i =? j); reflexivity. }
  destruct (mk_realises 0xb n k (fun i j => 5%N) ltac:(vm_compute; split; discriminate)) as (B & _ & B1 & B2 & B3 & B4 & B5).
  { intros i j _ _. reflexivity. }
  exists L, B. split; [|split; [exact B3|split; [exact B4|split; intros Hn; [now rewrite L5 by lia|now rewrite B5 by lia]]]].
  unfold tri_input. rewrite B2. split; [exact Hirr|]. split; [exact L1|]. split; [exact B1|]. split; [exact L2|]. split; [congruence|]. split; [congruence|]. split; [congruence|].
  intros i Hi. rewrite L5 by lia. rewrite Nat.eqb_refl. discriminate.
Qed.
Example C30_inputs_exist : forall n k, 0 < k -> exists L B, stri_input L B /\ sl_nrows B = n /\ sl_ncols B = k.
Proof.
  intros n k Hk. assert (Hirr : irreducible 0xb) by (apply irrb_spec; vm_compute; congruence).
  destruct (kap_spec 0xb n n (fun i j => if i =? j then 3%N else 6%N) ltac:(vm_compute; split; discriminate)) as (L & _ & L1 & L2 & L3 & L4 & L5).
  { intros i j _ _. destruct (i =? j); reflexivity. }
  destruct (kap_spec 0xb n k (fun i j => 5%N) ltac:(vm_compute; split; discriminate)) as (B & _ & B1 & B2 & B3 & B4 & B5).
  { intros i j _ _. reflexivity. }
  exists L, B. split; [|split; [exact B3|exact B4]].
  unfold stri_input. rewrite B2. split; [exact Hirr|]. split; [vm_compute; discriminate|]. split; [exact L1|]. split; [exact B1|]. split; [exact L2|]. split; [congruence|]. split; [congruence|]. split; [congruence|].
  intros i Hi. rewrite L5 by lia. rewrite Nat.eqb_refl. discriminate.
Qed.
(** a concrete run: the solvers agree, the product with the lower triangle gives B back *)
Definition t1 : mat := of_rows [[3; 7; 1]; [5; 2; 6]; [1; 4; 7]]%N.
Definition b1 : mat := of_rows [[1; 2]; [3; 4]; [5; 6]]%N.
Example C29_witness : (L <- mk 0xb 3 3 t1 ;; B <- mk 0xb 3 2 b1 ;; X <- mzed_trsm_lower_left_naive L B ;; Y <- mzed_trsm_upper_left_naive L B ;;
    Ok (to_rows X, to_rows Y)) =
  Ok ([[6; 7]; [0; 1]; [7; 2]], [[2; 1]; [2; 6]; [2; 5]])%N.
Proof. vm_compute. reflexivity. Qed.
(** and one of the inputs C31 is about *)
Example C31_witness : (L <- mk 0xb 3 3 t1 ;; B <- mk 0xb 3 2 b1 ;; mzed_trsm_lower_left_ 2048 262144 L B 1) = UB.
Proof. vm_compute. reflexivity. Qed.
