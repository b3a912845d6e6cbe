(** Triangular solving: the naive and the Newton-John solvers on packed matrices. *)
From Coq Require Import NArith ZArith Lia List Bool Arith.
From Coq Require Import ZifyBool ZifyNat ZifyN.
From Verif Require Import Base Spec LinSpec PolyFacts MatFacts Gf2xModel Gf2eModel Gf2eProofs.
From Verif Require Import MzdModel MzedModel MzedSpec LaneFacts MzedProofs MzedOps MzedOps2 NjModel NjTable NjMul.
From Verif Require Import StrassenModel MulModel TrsmSpec TrsmModel.
Import ListNotations.
Local Open Scope nat_scope.

Lemma part_ext f lo n A B B' j k : (forall t, t < n -> B (lo + t) k = B' (lo + t) k) -> part f lo n A B j k = part f lo n A B' j k.
Proof. intros H. unfold part. apply xsum_ext. intros t Ht. now rewrite H. Qed.
Lemma part_front f lo n A B j k : part f lo (S n) A B j k = N.lxor (fmul f (A j lo) (B lo k)) (part f (S lo) n A B j k).
Proof.
  replace (S n) with (1 + n) by lia. rewrite part_app. unfold part at 1. rewrite xsum_1, Nat.add_0_r. now replace (lo + 1) with (S lo) by lia.
Qed.
Lemma mmul_tril f n L X i j : i < n -> mmul f n (tril L) X i j = N.lxor (part f 0 i L X i j) (fmul f (L i i) (X i j)).
Proof.
  intros Hi. unfold mmul. replace n with (S i + (n - S i)) by lia. rewrite xsum_split. rewrite (xsum_0 (n - S i)).
  - rewrite N.lxor_0_r. cbn [xsum]. f_equal.
    + unfold part. apply xsum_ext. intros k Hk. unfold tril. replace (k <=? i) with true by lia. reflexivity.
    + unfold tril. now rewrite Nat.leb_refl.
  - intros k Hk. unfold tril. replace (S i + k <=? i) with false by lia. apply fmul_0_l.
Qed.
Lemma mmul_triu f n U X i j : i < n -> mmul f n (triu U) X i j = N.lxor (fmul f (U i i) (X i j)) (part f (S i) (n - S i) U X i j).
Proof.
  intros Hi. unfold mmul. replace n with (i + S (n - S i)) at 1 by lia. rewrite xsum_split. rewrite (xsum_0 i).
  - rewrite N.lxor_0_l. rewrite <- part_front. unfold part. apply xsum_ext. intros k Hk. unfold triu. replace (i <=? i + k) with true by lia. reflexivity.
  - intros k Hk. unfold triu. replace (i <=? k) with false by lia. apply fmul_0_l.
Qed.

Section Unique.
Variable f : N.
Hypothesis f0 : f <> 0%N.
Hypothesis Hirr : irreducible f.
(** a triangular system with units on the diagonal has at most one solution *)
Lemma cancel_diag d x y : inF f d -> d <> 0%N -> inF f x -> inF f y -> fmul f d x = fmul f d y -> x = y.
Proof.
  intros Hd D0 Hx Hy E. apply N.lxor_eq. destruct (fmul_zero_div f d (N.lxor x y) Hirr Hd) as [H|H]; auto.
  - now apply lxor_lt_pow2.
  - rewrite fmul_lxor_r, E by auto. apply N.lxor_nilpotent.
  - contradiction.
Qed.
Lemma lxor_cancel_l a b c : N.lxor a b = N.lxor a c -> b = c.
Proof. intros H. rewrite <- (N.lxor_0_l b), <- (N.lxor_0_l c), <- (N.lxor_nilpotent a), !N.lxor_assoc. now rewrite H. Qed.
Lemma lxor_cancel_r a b c : N.lxor b a = N.lxor c a -> b = c.
Proof. rewrite !(N.lxor_comm _ a). apply lxor_cancel_l. Qed.
Variable n w : nat.
Variable T : mat.
Hypothesis HT : inM f n n T.
Hypothesis Hd : forall i, i < n -> T i i <> 0%N.
Lemma tril_unique X Y B : inM f n w X -> inM f n w Y -> meq n w (mmul f n (tril T) X) B -> meq n w (mmul f n (tril T) Y) B -> meq n w Y X.
Proof.
  intros HX HY EX EY i j. revert i. induction i as [i IH] using lt_wf_ind. intros Hi Hj.
  pose proof (EX i j Hi Hj) as E1. pose proof (EY i j Hi Hj) as E2. rewrite mmul_tril in E1, E2 by easy. rewrite <- E2 in E1.
  rewrite (part_ext f 0 i T X Y) in E1 by (intros t Ht; symmetry; apply IH; lia). apply lxor_cancel_l in E1.
  symmetry. apply (cancel_diag (T i i)); auto.
Qed.
Lemma triu_unique X Y B : inM f n w X -> inM f n w Y -> meq n w (mmul f n (triu T) X) B -> meq n w (mmul f n (triu T) Y) B -> meq n w Y X.
Proof.
  intros HX HY EX EY.
  assert (K : forall d i j, n - i <= d -> i < n -> j < w -> Y i j = X i j); [|intros i j Hi Hj; now apply (K (n - i))].
  induction d as [|d IH]; intros i j Hd' Hi Hj; [lia|].
  pose proof (EX i j Hi Hj) as E1. pose proof (EY i j Hi Hj) as E2. rewrite mmul_triu in E1, E2 by easy. rewrite <- E2 in E1.
  rewrite (part_ext f (S i) (n - S i) T X Y) in E1 by (intros t Ht; symmetry; apply IH; lia). apply lxor_cancel_r in E1.
  symmetry. apply (cancel_diag (T i i)); auto.
Qed.
End Unique.

(** ** one row of the naive solvers *)
Lemma naive_step_ok L B i lo hi : irreducible (fld B) -> wf_mzed L -> wf_mzed B -> fld L = fld B -> mz_nrows L = mz_ncols L -> mz_nrows B = mz_ncols L ->
  0 < mz_ncols B -> lo <= hi <= mz_nrows B -> (i < lo \/ hi <= i) -> i < mz_nrows B -> entry L i i <> 0%N ->
  wp (B' <- for_ lo hi (fun k B => x <- mzed_read_elem L i k ;; mzed_add_multiple_of_row B i B k x 0) B ;;
      d <- mzed_read_elem L i i ;; di <- gf2e_inv (mz_ff L) d ;; mzed_rescale_row B' i 0 di)
     (fun B' => exists v, becomes B B' (fun r j => if r =? i then v j else entry B r j) /\
        forall j, j < mz_ncols B -> fmul (fld B) (entry L i i) (v j) = N.lxor (entry B i j) (part (fld B) lo (hi - lo) (entry L) (entry B) i j)).
Proof.
  intros Hirr HL HB Ef Sq En Hn Hl Hi Hib D0. apply wp_bind. pose proof (wf_f0 B HB) as f0. eapply wp_mono.
  - apply (wp_for (fun k B' => becomes B B' (fun r j => if r =? i then N.lxor (entry B r j) (part (fld B) lo (k - lo) (entry L) (entry B) i j) else entry B r j))); [lia| |].
    + eapply becomes_ext; [now apply becomes_refl|]. cbv beta. intros r j _ _. rewrite Nat.sub_diag, part_0, N.lxor_0_r. now destruct (r =? i).
    + intros k B' Hk K. pose proof (becomes_wf _ _ _ K) as W. pose proof (becomes_nr _ _ _ K) as Er. pose proof (becomes_nc _ _ _ K) as Ec. pose proof (becomes_ff _ _ _ K) as Eff.
      rewrite mzed_read_elem_ok by (auto; lia). cbn [bind].
      eapply wp_mono; [apply mzed_add_multiple_of_row_ok; auto; try lia|].
      { rewrite Eff, <- Ef. apply wf_entry; auto; lia. }
      cbv beta. intros B2 K2. eapply becomes_step; [exact K|exact K2|]. cbv beta. intros r j Hr Hj. rewrite Eff.
      rewrite !(becomes_entry _ _ _ _ _ K) by lia. rewrite Nat.eqb_refl. replace (k =? i) with false by lia. cbn [Nat.leb]. rewrite andb_true_r.
      destruct (Nat.eqb_spec r i) as [->|]; [|reflexivity]. replace (S k - lo) with (S (k - lo)) by lia. rewrite part_S.
      replace (lo + (k - lo)) with k by lia. now rewrite N.lxor_assoc.
  - cbv beta. intros B1 K. pose proof (becomes_wf _ _ _ K) as W. pose proof (becomes_nr _ _ _ K) as Er. pose proof (becomes_nc _ _ _ K) as Ec. pose proof (becomes_ff _ _ _ K) as Eff.
    rewrite mzed_read_elem_ok by (auto; lia). cbn [bind]. pose proof HL as (WL & _).
    destruct (gf2e_inv_ok (mz_ff L) (entry L i i)) as (di & -> & Hdi & Edi); [exact WL|congruence|apply wf_entry; auto; lia|exact D0|]. cbn [bind].
    eapply wp_mono; [apply mzed_rescale_row_ok; auto; try lia|].
    { rewrite Eff, <- Ef. exact Hdi. }
    cbv beta. intros B2 K2. exists (fun j => fmul (fld B) di (N.lxor (entry B i j) (part (fld B) lo (hi - lo) (entry L) (entry B) i j))). split.
    + eapply becomes_step; [exact K|exact K2|]. cbv beta. intros r j Hr Hj. rewrite Eff. rewrite !(becomes_entry _ _ _ _ _ K) by lia. rewrite Nat.eqb_refl.
      cbn [Nat.leb]. rewrite andb_true_r. now destruct (r =? i).
    + intros j Hj. rewrite fmul_assoc by auto. rewrite Ef in Edi. rewrite Edi. apply fmul_1_l; auto. apply lxor_lt_pow2; [apply wf_entry; auto; lia|].
      unfold part. apply xsum_lt. intros t Ht. now apply fmul_lt.
Qed.

(** [solved_l B B' L]: B' is B with the entries replaced by a solution of tril(L) X = B *)
Definition solved (T : mat -> mat) (L : mat) (B B' : mzed) : Prop :=
  becomes B B' (entry B') /\ meq (mz_nrows B) (mz_ncols B) (mmul (fld B) (mz_nrows B) (T L) (entry B')) (entry B).
Definition nz_diag (n : nat) (L : mat) : Prop := forall i, i < n -> L i i <> 0%N.
Lemma becomes_self A A' F : becomes A A' F -> becomes A A' (entry A').
Proof. intros B. eapply becomes_ext; [exact B|]. intros i c Hi Hc. symmetry. now apply (becomes_entry _ _ _ _ _ B). Qed.

Lemma trsm_assert_true L B : fld L = fld B -> mz_nrows L = mz_ncols L -> mz_nrows B = mz_ncols L -> trsm_assert L B = true.
Proof. intros H1 H2 H3. unfold trsm_assert. rewrite (proj2 (same_ff_iff L B) H1), (proj2 (Nat.eqb_eq _ _) H2), (proj2 (Nat.eqb_eq _ _) H3). reflexivity. Qed.

Theorem trsm_lower_naive_ok L B : irreducible (fld B) -> wf_mzed L -> wf_mzed B -> fld L = fld B -> mz_nrows L = mz_ncols L -> mz_nrows B = mz_ncols L ->
  0 < mz_ncols B -> nz_diag (mz_nrows B) (entry L) ->
  wp (mzed_trsm_lower_left_naive L B) (solved tril (entry L) B).
Proof.
  intros Hirr HL HB Ef Sq En Hn Hd. unfold mzed_trsm_lower_left_naive. rewrite trsm_assert_true by auto. cbn [guard bind].
  eapply wp_mono.
  - apply (wp_for (fun i B' => becomes B B' (entry B') /\
      (forall r j, r < i -> j < mz_ncols B -> N.lxor (part (fld B) 0 r (entry L) (entry B') r j) (fmul (fld B) (entry L r r) (entry B' r j)) = entry B r j) /\
      (forall r j, i <= r < mz_nrows B -> j < mz_ncols B -> entry B' r j = entry B r j))); [lia| |].
    + split; [now apply becomes_refl|]. split; [lia|auto].
    + intros i B1 Hi (K & S1 & S2). pose proof (becomes_wf _ _ _ K) as W. pose proof (becomes_nr _ _ _ K) as Er. pose proof (becomes_nc _ _ _ K) as Ec. pose proof (becomes_ff _ _ _ K) as Eff.
      eapply wp_mono; [apply naive_step_ok; auto; try congruence; try lia; apply Hd; lia|]. cbv beta. intros B2 (v & K2 & Ev).
      assert (Q : forall r j, r < mz_nrows B -> j < mz_ncols B -> entry B2 r j = if r =? i then v j else entry B1 r j) by (intros r j Hr Hj; apply (becomes_entry _ _ _ _ _ K2); lia).
      split; [|split].
      * eapply becomes_step; [exact K|exact (becomes_self _ _ _ K2)|]. now intros.
      * intros r j Hr Hj. rewrite (part_ext _ _ _ _ _ (entry B1)) by (intros t Ht; rewrite Q by lia; now replace (0 + t =? i) with false by lia).
        rewrite Q by lia. destruct (Nat.eqb_spec r i) as [->|]; [|apply S1; lia].
        rewrite Eff in Ev. rewrite Ev by lia. rewrite Nat.sub_0_r. rewrite S2 by lia. rewrite N.lxor_comm, N.lxor_assoc, N.lxor_nilpotent. apply N.lxor_0_r.
      * intros r j Hr Hj. rewrite Q by lia. replace (r =? i) with false by lia. apply S2; lia.
  - cbv beta. intros B' (K & S1 & _). split; [exact K|]. intros i j Hi Hj. rewrite mmul_tril by easy. now apply S1.
Qed.
Theorem trsm_upper_naive_ok U B : irreducible (fld B) -> wf_mzed U -> wf_mzed B -> fld U = fld B -> mz_nrows U = mz_ncols U -> mz_nrows B = mz_ncols U ->
  0 < mz_ncols B -> nz_diag (mz_nrows B) (entry U) ->
  wp (mzed_trsm_upper_left_naive U B) (solved triu (entry U) B).
Proof.
  intros Hirr HL HB Ef Sq En Hn Hd. unfold mzed_trsm_upper_left_naive. rewrite trsm_assert_true by auto. cbn [guard bind].
  eapply wp_mono.
  - apply (wp_for_down (fun i B' => becomes B B' (entry B') /\
      (forall r j, i <= r < mz_nrows B -> j < mz_ncols B -> N.lxor (fmul (fld B) (entry U r r) (entry B' r j)) (part (fld B) (S r) (mz_nrows B - S r) (entry U) (entry B') r j) = entry B r j) /\
      (forall r j, r < i -> j < mz_ncols B -> entry B' r j = entry B r j))); [lia| |].
    + split; [now apply becomes_refl|]. split; [lia|auto].
    + intros i B1 Hi (K & S1 & S2). pose proof (becomes_wf _ _ _ K) as W. pose proof (becomes_nr _ _ _ K) as Er. pose proof (becomes_nc _ _ _ K) as Ec. pose proof (becomes_ff _ _ _ K) as Eff.
      eapply wp_mono; [apply naive_step_ok; auto; try congruence; try lia; apply Hd; lia|]. cbv beta. intros B2 (v & K2 & Ev).
      assert (Q : forall r j, r < mz_nrows B -> j < mz_ncols B -> entry B2 r j = if r =? i then v j else entry B1 r j) by (intros r j Hr Hj; apply (becomes_entry _ _ _ _ _ K2); lia).
      split; [|split].
      * eapply becomes_step; [exact K|exact (becomes_self _ _ _ K2)|]. now intros.
      * intros r j Hr Hj. rewrite (part_ext _ _ _ _ _ (entry B1)) by (intros t Ht; rewrite Q by lia; now replace (S r + t =? i) with false by lia).
        rewrite Q by lia. destruct (Nat.eqb_spec r i) as [->|]; [|apply S1; lia].
        rewrite Eff in Ev. rewrite Ev by lia. rewrite Er, (S2 i j) by lia. replace (i + 1) with (S i) by lia. rewrite N.lxor_assoc, N.lxor_nilpotent. apply N.lxor_0_r.
      * intros r j Hr Hj. rewrite Q by lia. replace (r =? i) with false by lia. apply S2; lia.
  - cbv beta. intros B' (K & S1 & _). split; [exact K|]. intros i j Hi Hj. rewrite mmul_triu by easy. apply S1; lia.
Qed.

(** ** one step of the Newton-John solvers *)
Lemma nj_step_ok ff (rd : nat -> res N) (L : mat) B T i lo hi : irreducible (fld B) -> wf_mzed B -> gf2e_wf ff -> ff_minpoly ff = fld B ->
  (forall j, j < mz_nrows B -> rd j = Ok (L j i) /\ inF (fld B) (L j i)) ->
  0 < mz_ncols B -> lo <= hi <= mz_nrows B -> (i < lo \/ hi <= i) -> i < mz_nrows B -> L i i <> 0%N ->
  njt_wf (fld B) (ff_degree (mz_ff B)) (mz_ncols B) T ->
  wp (trsm_nj_step ff rd i lo hi (B, T))
     (fun '(B', T') => njt_wf (fld B) (ff_degree (mz_ff B)) (mz_ncols B) T' /\
        exists v, becomes B B' (fun r j => if r =? i then v j else if (lo <=? r) && (r <? hi) then N.lxor (entry B r j) (fmul (fld B) (L r i) (v j)) else entry B r j) /\
        forall j, j < mz_ncols B -> fmul (fld B) (L i i) (v j) = entry B i j).
Proof.
  intros Hirr HB Wf Em Hrd Hn Hl Hi Hib D0 HT. unfold trsm_nj_step. pose proof (wf_f0 B HB) as f0.
  destruct (Hrd i Hib) as (-> & Hdd). cbn [bind].
  destruct (gf2e_inv_ok ff (L i i)) as (di & -> & Hdi & Edi); [exact Wf|congruence|congruence|exact D0|]. cbn [bind]. rewrite Em in Hdi, Edi.
  apply wp_bind. eapply wp_mono; [apply mzed_rescale_row_ok; auto|]. cbv beta. intros B1 K1.
  pose proof (becomes_wf _ _ _ K1) as W1. pose proof (becomes_nr _ _ _ K1) as R1. pose proof (becomes_nc _ _ _ K1) as C1. pose proof (becomes_ff _ _ _ K1) as F1.
  apply wp_bind. eapply wp_mono; [apply make_table0_ok; auto; try lia; now rewrite F1, C1|]. cbv beta. intros T' HT'.
  set (v := fun j => fmul (fld B) di (entry B i j)).
  assert (Ev : forall j, j < mz_ncols B -> entry B1 i j = v j).
  { intros j Hj. rewrite (becomes_entry _ _ _ _ _ K1) by lia. now rewrite Nat.eqb_refl. }
  apply wp_bind. eapply wp_mono.
  - apply (wp_for (fun t B' => becomes B1 B' (fun r j => if (lo <=? r) && (r <? t) then N.lxor (entry B r j) (fmul (fld B) (L r i) (v j)) else entry B1 r j))); [lia| |].
    + eapply becomes_ext; [now apply becomes_refl|]. cbv beta. intros r j _ _. now replace ((lo <=? r) && (r <? lo)) with false by lia.
    + intros t B2 Ht K2. pose proof (becomes_wf _ _ _ K2) as W2. pose proof (becomes_nr _ _ _ K2) as R2. pose proof (becomes_nc _ _ _ K2) as C2. pose proof (becomes_ff _ _ _ K2) as F2.
      destruct (Hrd t ltac:(lia)) as (-> & Hx). cbn [bind].
      eapply wp_mono; [apply (tab0_combine B2 t B1 i T'); auto; try lia; try congruence; now rewrite F1|].
      cbv beta. intros B3 K3. eapply becomes_step; [exact K2|exact K3|]. cbv beta. intros r j Hr Hj.
      rewrite !(becomes_entry _ _ _ _ _ K2) by lia. rewrite F1, Ev by lia. destruct (Nat.eqb_spec r t) as [->|].
      * replace ((lo <=? t) && (t <? t)) with false by lia. replace ((lo <=? t) && (t <? S t)) with true by lia.
        rewrite (becomes_entry _ _ _ _ _ K1) by lia. now replace (t =? i) with false by lia.
      * now replace (r <? S t) with (r <? t) by lia.
  - cbv beta. intros B2 K2. cbn [wp]. split.
    + destruct HT' as (HT' & _). now rewrite F1, C1 in HT'.
    + exists v. split.
      * eapply becomes_step; [exact K1|exact K2|]. cbv beta. intros r j Hr Hj. rewrite (becomes_entry _ _ _ _ _ K1) by lia. fold (v j).
        cbn [Nat.leb]. rewrite andb_true_r. destruct (Nat.eqb_spec r i) as [->|]; [|reflexivity]. now replace ((lo <=? i) && (i <? hi)) with false by lia.
      * intros j Hj. unfold v. rewrite fmul_assoc, Edi by auto. apply fmul_1_l; auto. apply wf_entry; auto.
Qed.

Lemma trsm_lower_nj_loop ff (rd : nat -> nat -> res N) (L : mat) B T0 : irreducible (fld B) -> wf_mzed B -> gf2e_wf ff -> ff_minpoly ff = fld B ->
  (forall j i, j < mz_nrows B -> i < mz_nrows B -> rd j i = Ok (L j i) /\ inF (fld B) (L j i)) ->
  0 < mz_ncols B -> nz_diag (mz_nrows B) L -> njt_wf (fld B) (ff_degree (mz_ff B)) (mz_ncols B) T0 ->
  wp (for_ 0 (mz_nrows B) (fun i st => trsm_nj_step ff (fun j => rd j i) i (i + 1) (mz_nrows B) st) (B, T0)) (fun '(B', _) => solved tril L B B').
Proof.
  intros Hirr HB Wf Em Hrd Hn Hd HT. eapply wp_mono.
  - apply (wp_for (fun i '(B', T') => njt_wf (fld B) (ff_degree (mz_ff B)) (mz_ncols B) T' /\ becomes B B' (entry B') /\
      (forall r j, r < i -> j < mz_ncols B -> N.lxor (part (fld B) 0 r L (entry B') r j) (fmul (fld B) (L r r) (entry B' r j)) = entry B r j) /\
      (forall r j, i <= r < mz_nrows B -> j < mz_ncols B -> entry B' r j = N.lxor (entry B r j) (part (fld B) 0 i L (entry B') r j)))); [lia| |].
    + split; [exact HT|]. split; [now apply becomes_refl|]. split; [lia|]. intros r j Hr Hj. rewrite part_0. now rewrite N.lxor_0_r.
    + intros i (B1, T1) Hi (HT1 & K & S1 & S2). pose proof (becomes_wf _ _ _ K) as W. pose proof (becomes_nr _ _ _ K) as Er. pose proof (becomes_nc _ _ _ K) as Ec. pose proof (becomes_ff _ _ _ K) as Eff.
      eapply wp_mono; [apply (nj_step_ok ff (fun j => rd j i) L B1 T1 i (i + 1) (mz_nrows B)); [rewrite Eff; exact Hirr|exact W|exact Wf|congruence|intros j Hj; rewrite Eff; apply Hrd; lia|lia|lia|lia|lia|apply Hd; lia|rewrite Eff, Ec; exact HT1]|].
      cbv beta. intros (B2, T2) (HT2 & v & K2 & Ev). rewrite Eff, Ec in *.
      assert (Q : forall r j, r < mz_nrows B -> j < mz_ncols B -> entry B2 r j = if r =? i then v j else if (i + 1 <=? r) && (r <? mz_nrows B) then N.lxor (entry B1 r j) (fmul (fld B) (L r i) (v j)) else entry B1 r j) by (intros r j Hr Hj; apply (becomes_entry _ _ _ _ _ K2); lia).
      assert (Q1 : forall r j, r < i -> j < mz_ncols B -> entry B2 r j = entry B1 r j).
      { intros r j Hr Hj. rewrite Q by lia. replace (r =? i) with false by lia. now replace ((i + 1 <=? r) && (r <? mz_nrows B)) with false by lia. }
      split; [exact HT2|]. split; [|split].
      * eapply becomes_step; [exact K|exact (becomes_self _ _ _ K2)|]. now intros.
      * intros r j Hr Hj. rewrite (part_ext _ _ _ _ _ (entry B1)) by (intros t Ht; apply Q1; lia). destruct (Nat.eq_dec r i) as [->|]; [|rewrite Q1 by lia; apply S1; lia].
        rewrite Q, Nat.eqb_refl by lia. rewrite Ev by lia. rewrite (S2 i j) by lia. rewrite N.lxor_comm, N.lxor_assoc, N.lxor_nilpotent. apply N.lxor_0_r.
      * intros r j Hr Hj. rewrite part_S. cbn [Nat.add]. rewrite (part_ext _ _ _ _ _ (entry B1)) by (intros t Ht; apply Q1; lia).
        rewrite (Q i j), Nat.eqb_refl by lia. rewrite Q by lia. replace (r =? i) with false by lia. replace ((i + 1 <=? r) && (r <? mz_nrows B)) with true by lia.
        rewrite S2 by lia. now rewrite N.lxor_assoc.
  - cbv beta. intros (B', T') (_ & K & S1 & _). split; [exact K|]. intros i j Hi Hj. rewrite mmul_tril by easy. now apply S1.
Qed.
Lemma trsm_upper_nj_loop ff (rd : nat -> nat -> res N) (U : mat) B T0 : irreducible (fld B) -> wf_mzed B -> gf2e_wf ff -> ff_minpoly ff = fld B ->
  (forall j i, j < mz_nrows B -> i < mz_nrows B -> rd j i = Ok (U j i) /\ inF (fld B) (U j i)) ->
  0 < mz_ncols B -> nz_diag (mz_nrows B) U -> njt_wf (fld B) (ff_degree (mz_ff B)) (mz_ncols B) T0 ->
  wp (for_down 0 (mz_nrows B) (fun i st => trsm_nj_step ff (fun j => rd j i) i 0 i st) (B, T0)) (fun '(B', _) => solved triu U B B').
Proof.
  intros Hirr HB Wf Em Hrd Hn Hd HT. eapply wp_mono.
  - apply (wp_for_down (fun i '(B', T') => njt_wf (fld B) (ff_degree (mz_ff B)) (mz_ncols B) T' /\ becomes B B' (entry B') /\
      (forall r j, i <= r < mz_nrows B -> j < mz_ncols B -> N.lxor (fmul (fld B) (U r r) (entry B' r j)) (part (fld B) (S r) (mz_nrows B - S r) U (entry B') r j) = entry B r j) /\
      (forall r j, r < i -> j < mz_ncols B -> entry B' r j = N.lxor (entry B r j) (part (fld B) i (mz_nrows B - i) U (entry B') r j)))); [lia| |].
    + split; [exact HT|]. split; [now apply becomes_refl|]. split; [lia|]. intros r j Hr Hj. rewrite Nat.sub_diag, part_0. now rewrite N.lxor_0_r.
    + intros i (B1, T1) Hi (HT1 & K & S1 & S2). pose proof (becomes_wf _ _ _ K) as W. pose proof (becomes_nr _ _ _ K) as Er. pose proof (becomes_nc _ _ _ K) as Ec. pose proof (becomes_ff _ _ _ K) as Eff.
      eapply wp_mono; [apply (nj_step_ok ff (fun j => rd j i) U B1 T1 i 0 i); [rewrite Eff; exact Hirr|exact W|exact Wf|congruence|intros j Hj; rewrite Eff; apply Hrd; lia|lia|lia|lia|lia|apply Hd; lia|rewrite Eff, Ec; exact HT1]|].
      cbv beta. intros (B2, T2) (HT2 & v & K2 & Ev). rewrite Eff, Ec in *.
      assert (Q : forall r j, r < mz_nrows B -> j < mz_ncols B -> entry B2 r j = if r =? i then v j else if (0 <=? r) && (r <? i) then N.lxor (entry B1 r j) (fmul (fld B) (U r i) (v j)) else entry B1 r j) by (intros r j Hr Hj; apply (becomes_entry _ _ _ _ _ K2); lia).
      assert (Q1 : forall r j, i < r < mz_nrows B -> j < mz_ncols B -> entry B2 r j = entry B1 r j).
      { intros r j Hr Hj. rewrite Q by lia. replace (r =? i) with false by lia. now replace ((0 <=? r) && (r <? i)) with false by lia. }
      split; [exact HT2|]. split; [|split].
      * eapply becomes_step; [exact K|exact (becomes_self _ _ _ K2)|]. now intros.
      * intros r j Hr Hj. rewrite (part_ext _ _ _ _ _ (entry B1)) by (intros t Ht; apply Q1; lia). destruct (Nat.eq_dec r i) as [->|]; [|rewrite Q1 by lia; apply S1; lia].
        rewrite Q, Nat.eqb_refl by lia. rewrite Ev by lia. rewrite (S2 i j) by lia. rewrite N.lxor_assoc, N.lxor_nilpotent. apply N.lxor_0_r.
      * intros r j Hr Hj. replace (mz_nrows B - i) with (S (mz_nrows B - S i)) by lia. rewrite part_front. rewrite (part_ext _ _ _ _ _ (entry B1)) by (intros t Ht; apply Q1; lia).
        rewrite (Q i j), Nat.eqb_refl by lia. rewrite Q by lia. replace (r =? i) with false by lia. replace ((0 <=? r) && (r <? i)) with true by lia.
        rewrite S2 by lia. rewrite !N.lxor_assoc. f_equal. apply N.lxor_comm.
  - cbv beta. intros (B', T') (_ & K & S1 & _). split; [exact K|]. intros i j Hi Hj. rewrite mmul_triu by easy. apply S1; lia.
Qed.
Theorem trsm_lower_nj_ok L B : irreducible (fld B) -> wf_mzed L -> wf_mzed B -> fld L = fld B -> mz_nrows L = mz_ncols L -> mz_nrows B = mz_ncols L ->
  0 < mz_ncols B -> nz_diag (mz_nrows B) (entry L) ->
  wp (mzed_trsm_lower_left_newton_john L B) (solved tril (entry L) B).
Proof.
  intros Hirr HL HB Ef Sq En Hn Hd. unfold mzed_trsm_lower_left_newton_john. rewrite trsm_assert_true by auto. cbn [guard bind].
  destruct (_ <=? _); [now apply trsm_lower_naive_ok|].
  pose proof HB as (WB & Ww & _). destruct (degree_to_w_facts _ _ Ww) as (_ & _ & D2).
  apply wp_bind. eapply wp_mono; [apply (njt_init_ok (mz_ff B) (mz_ncols B) WB D2)|]. cbv beta. intros T0 (HT & _).
  apply wp_bind. eapply wp_mono; [apply (trsm_lower_nj_loop (mz_ff L) (mzed_read_elem L) (entry L)); auto|].
  - now destruct HL.
  - intros j i Hj Hi. rewrite mzed_read_elem_ok by (auto; lia). split; [reflexivity|]. rewrite <- Ef. apply wf_entry; auto; lia.
  - cbv beta. intros (B', T') H. exact H.
Qed.
Theorem trsm_upper_nj_ok U B : irreducible (fld B) -> wf_mzed U -> wf_mzed B -> fld U = fld B -> mz_nrows U = mz_ncols U -> mz_nrows B = mz_ncols U ->
  0 < mz_ncols B -> nz_diag (mz_nrows B) (entry U) ->
  wp (mzed_trsm_upper_left_newton_john U B) (solved triu (entry U) B).
Proof.
  intros Hirr HL HB Ef Sq En Hn Hd. unfold mzed_trsm_upper_left_newton_john. rewrite trsm_assert_true by auto. cbn [guard bind].
  destruct (_ <=? _); [now apply trsm_upper_naive_ok|].
  pose proof HB as (WB & Ww & _). destruct (degree_to_w_facts _ _ Ww) as (_ & _ & D2).
  apply wp_bind. eapply wp_mono; [apply (njt_init_ok (mz_ff B) (mz_ncols B) WB D2)|]. cbv beta. intros T0 (HT & _).
  apply wp_bind. eapply wp_mono; [apply (trsm_upper_nj_loop (mz_ff U) (mzed_read_elem U) (entry U)); auto|].
  - now destruct HL.
  - intros j i Hj Hi. rewrite mzed_read_elem_ok by (auto; lia). split; [reflexivity|]. rewrite <- Ef. apply wf_entry; auto; lia.
  - cbv beta. intros (B', T') H. exact H.
Qed.
