(** Property C72: the PLE decomposition does not depend on the algorithm. *)
From Coq Require Import NArith ZArith Lia List Bool Arith.
From Coq Require Import ZifyBool ZifyNat ZifyN.
From Verif Require Import Base Spec LinSpec PolyFacts MatFacts Gf2xModel Gf2eModel Gf2eProofs.
From Verif Require Import MzdModel MzedModel MzedSpec LaneFacts MzedProofs MzedOps MzedOps2 Demo EchFacts EchNaive NjModel NjTable NjMul NjEch IrrTable IrrProofs.
From Verif Require Import StrassenModel StrassenProofs SliceModel SliceSpec SliceProofs SliceOps SliceMul KaraModel ConvModel ConvCling PropSlice.
From Verif Require Import PermModel PleModel PleSpec PleFacts PleRank PleProofs PermProofs PleRec PleTop PleSame.
Import ListNotations.
Local Open Scope nat_scope.

(** The same decomposition: the same rank, the same row swaps, the same pivot columns, the same packed matrix.  The entries
    of Q from the rank on mean nothing and are left out. *)
Definition same_ple (m n : nat) (A A' : mat) (P P' Q Q' : list nat) (r r' : nat) : Prop :=
  r = r' /\ P = P' /\ firstn r Q = firstn r Q' /\ meq m n A A'.

(** C72, packed matrices: mzed_ple_naive, mzed_ple_newton_john and mzed_ple with any cutoff and any cache size *)
Definition ple_fun : Type := mzed -> mzp -> mzp -> res (mzed * mzp * mzp * nat).
Inductive ple_alg : ple_fun -> Prop :=
| alg_naive : ple_alg mzed_ple_naive
| alg_newton_john : ple_alg mzed_ple_newton_john
| alg_recursive l2 cutoff : ple_alg (fun A P Q => mzed_ple_ l2 A P Q cutoff)
| alg_dispatch l2 : ple_alg (mzed_ple l2).

Lemma nth_ext_len (l l' : list nat) m : length l = m -> length l' = m -> (forall i, i < m -> at_ l i = at_ l' i) -> l = l'.
Proof. intros L L' H. apply (nth_ext l l' 0 0); [congruence|]. intros i Hi. apply H. lia. Qed.
Lemma firstn_eq (l l' : list nat) n r : length l = n -> length l' = n -> r <= n -> (forall i, i < r -> at_ l i = at_ l' i) -> firstn r l = firstn r l'.
Proof.
  intros L L' Hr H. apply (nth_ext_len _ _ r); [rewrite firstn_length; lia|rewrite firstn_length; lia|].
  intros i Hi. unfold at_. rewrite <- (firstn_skipn r l) in H. rewrite <- (firstn_skipn r l') in H. specialize (H i Hi). unfold at_ in H.
  rewrite !app_nth1 in H by (rewrite firstn_length; lia). exact H.
Qed.
Definition alg_res (A : mzed) (x : mzed * mzp * mzp * nat) : Prop :=
  let '(A', P', Q', r) := x in becomes A A' (entry A') /\ length P' = mz_nrows A /\ length Q' = mz_ncols A /\
  is_ple (fld A) (mz_nrows A) (mz_ncols A) (entry A) (entry A') (at_ P') (at_ Q') r /\ first_pivots (mz_nrows A) (entry A') (at_ P') r.
Lemma alg_ok ple A P Q : ple_alg ple -> irreducible (fld A) -> wf_mzed A -> length P = mz_nrows A -> length Q = mz_ncols A ->
  exists x, ple A P Q = Ok x /\ alg_res A x.
Proof.
  intros Hp Hirr HA LP LQ. apply wp_iff. destruct Hp.
  - eapply wp_mono; [now apply mzed_ple_naive_first|]. cbv beta. intros [[[A' P'] Q'] r] ((H1 & H2 & H3 & _ & _ & H6) & HF). now repeat split; try apply H1; try apply H6.
  - eapply wp_mono; [now apply mzed_ple_nj_first|]. cbv beta. intros [[[A' P'] Q'] r] ((H1 & H2 & H3 & _ & _ & H6) & HF). now repeat split; try apply H1; try apply H6.
  - eapply wp_mono; [apply mzed_ple_first; auto|]. cbv beta. intros [[[A' P'] Q'] r] H. exact H.
  - unfold mzed_ple. eapply wp_mono; [apply mzed_ple_first; auto|]. cbv beta. intros [[[A' P'] Q'] r] H. exact H.
Qed.
Lemma becomes_inM A A' F : becomes A A' F -> inM (fld A) (mz_nrows A) (mz_ncols A) (entry A').
Proof.
  intros H i j Hi Hj. pose proof (becomes_ff _ _ _ H) as E. pose proof (becomes_nr _ _ _ H). pose proof (becomes_nc _ _ _ H).
  rewrite <- E. apply wf_entry; [apply H|lia|lia].
Qed.
Theorem C72_same_decomposition : forall ple1 ple2, ple_alg ple1 -> ple_alg ple2 -> forall A P1 Q1 P2 Q2,
  irreducible (ff_minpoly (mz_ff A)) -> wf_mzed A ->
  length P1 = mz_nrows A -> length Q1 = mz_ncols A -> length P2 = mz_nrows A -> length Q2 = mz_ncols A ->
  exists A1 A2 P Q Q' r, ple1 A P1 Q1 = Ok (A1, P, Q, r) /\ ple2 A P2 Q2 = Ok (A2, P, Q', r) /\
    A1 = A2 /\ firstn r Q = firstn r Q' /\
    is_ple (ff_minpoly (mz_ff A)) (mz_nrows A) (mz_ncols A) (entry A) (entry A1) (at_ P) (at_ Q) r /\
    first_pivots (mz_nrows A) (entry A1) (at_ P) r.
Proof.
  intros ple1 ple2 Hp1 Hp2 A P1 Q1 P2 Q2 Hirr HA LP1 LQ1 LP2 LQ2.
  destruct (alg_ok ple1 A P1 Q1 Hp1 Hirr HA LP1 LQ1) as ([[[A1 P] Q] r] & E1 & B1 & L1 & M1 & I1 & F1).
  destruct (alg_ok ple2 A P2 Q2 Hp2 Hirr HA LP2 LQ2) as ([[[A2 P'] Q'] r'] & E2 & B2 & L2 & M2 & I2 & F2).
  destruct (ple_unique (fld A) Hirr (wf_deg1 A HA) (mz_nrows A) (mz_ncols A) (entry A) (entry A1) (entry A2) (at_ P) (at_ P') (at_ Q) (at_ Q') r r')
    as (Er & EP & EQ & EA); auto; [now apply becomes_inM in B1|now apply becomes_inM in B2|].
  subst r'. assert (P = P') by (eapply nth_ext_len; eauto). subst P'.
  exists A1, A2, P, Q, Q', r. split; [exact E1|]. split; [exact E2|]. split; [|split; [|split; [exact I1|exact F1]]].
  - apply (becomes_unique A A1 A2 (entry A1)); [exact B1|]. eapply becomes_ext; [exact B2|]. intros i c Hi Hc. symmetry. now apply EA.
  - apply (firstn_eq Q Q' (mz_ncols A)); auto. apply I1.
Qed.
Print Assumptions C72_same_decomposition.

(** C72, bitsliced matrices: mzd_slice_ple with any cutoff and cache size returns what mzed_ple_naive returns for a packed
    matrix with the same entries *)
Theorem C72_slice : forall l2 cutoff a P1 Q1 A P2 Q2, irreducible (ff_minpoly (mz_ff A)) -> wf_mzed A -> wf_slice a ->
  ff_minpoly (sl_ff a) = ff_minpoly (mz_ff A) -> sl_nrows a = mz_nrows A -> sl_ncols a = mz_ncols A ->
  meq (mz_nrows A) (mz_ncols A) (sentry a) (entry A) ->
  length P1 = mz_nrows A -> length Q1 = mz_ncols A -> length P2 = mz_nrows A -> length Q2 = mz_ncols A ->
  exists a' A' P Q Q' r, mzd_slice_ple_ l2 a P1 Q1 cutoff = Ok (a', P, Q, r) /\ mzed_ple_naive A P2 Q2 = Ok (A', P, Q', r) /\
    sbecomes a a' (entry A') /\ firstn r Q = firstn r Q'.
Proof.
  intros l2 cutoff a P1 Q1 A P2 Q2 Hirr HA Ha Ef Er Ec EA LP1 LQ1 LP2 LQ2.
  assert (Hdeg : (2 <= pdeg (fld A))%N) by (destruct (wf_deg2 A HA) as ((_ & E & _) & H2); rewrite E; lia).
  assert (Hs : sholds a (fld A) (mz_nrows A) (mz_ncols A) (entry A)) by (split; [exact Ha|]; repeat split; auto).
  destruct (proj1 (wp_iff _ _) (sple_first_ok (fld A) Hirr Hdeg l2 (S (sl_ncols a)) _ _ a P1 Q1 _ cutoff ltac:(rewrite Ec; apply Nat.lt_succ_diag_r) Hs LP1 LQ1))
    as ([[[a' P] Q] r] & E1 & (B1 & L1 & M1 & I1) & F1).
  destruct (alg_ok mzed_ple_naive A P2 Q2 alg_naive Hirr HA LP2 LQ2) as ([[[A2 P'] Q'] r'] & E2 & B2 & L2 & M2 & I2 & F2).
  destruct (ple_unique (fld A) Hirr (wf_deg1 A HA) (mz_nrows A) (mz_ncols A) (entry A) (sentry a') (entry A2) (at_ P) (at_ P') (at_ Q) (at_ Q') r r')
    as (Err & EP & EQ & EE); auto; [intros i j Hi Hj; now apply (sh_in _ _ _ _ _ (sh_becomes _ _ _ _ _ _ _ Hs B1))|now apply becomes_inM in B2|].
  subst r'. assert (P = P') by (eapply nth_ext_len; eauto). subst P'.
  exists a', A2, P, Q, Q', r. split; [exact E1|]. split; [exact E2|]. split.
  - eapply sb_ext; [exact B1|]. intros i c Hi Hc. apply EE; congruence.
  - apply (firstn_eq Q Q' (mz_ncols A)); auto. apply I1.
Qed.
Print Assumptions C72_slice.

(** two decompositions with first pivots are the same, whatever computed them *)
Theorem C72_unique : forall f m n A0 A A' P P' Q Q' r r', irreducible f -> (1 <= pdeg f)%N -> inM f m n A -> inM f m n A' ->
  length P = m -> length P' = m -> length Q = n -> length Q' = n ->
  is_ple f m n A0 A (at_ P) (at_ Q) r -> is_ple f m n A0 A' (at_ P') (at_ Q') r' -> first_pivots m A (at_ P) r -> first_pivots m A' (at_ P') r' ->
  same_ple m n A A' P P' Q Q' r r'.
Proof.
  intros f m n A0 A A' P P' Q Q' r r' Hirr Hf IA IA' L1 L2 M1 M2 K K' F F'.
  destruct (ple_unique f Hirr Hf m n A0 A A' (at_ P) (at_ P') (at_ Q) (at_ Q') r r' IA IA' K K' F F') as (Er & EP & EQ & EA).
  split; [exact Er|]. split; [eapply nth_ext_len; eauto|]. split; [|exact EA]. apply (firstn_eq Q Q' n); auto. apply K.
Qed.
Print Assumptions C72_unique.

(** ... but the entries of Q from the rank on do depend on the algorithm: a 1 x 66 matrix of rank 1 *)
Definition c72_nth (n : nat) (x : res (mzed * mzp * mzp * nat)) : option nat := match x with Ok (_, _, Q, _) => Some (nth n Q 0) | _ => None end.
Definition c72_F : mat := fun _ j => if j =? 65 then 2%N else 0%N.
Lemma c72_runs : match mk 0x7 1 66 c72_F with Ok A => (c72_nth 64 (mzed_ple_ 4096 A (mzp_init 1) (mzp_init 66) 1), c72_nth 64 (mzed_ple_naive A (mzp_init 1) (mzp_init 66))) | _ => (None, None) end = (Some 65, Some 64).
Proof. vm_compute. reflexivity. Qed.
Theorem C72_tail_of_Q_refuted : ~ forall l2 cutoff A P Q A1 P1 Q1 r1 A2 P2 Q2 r2, irreducible (ff_minpoly (mz_ff A)) -> wf_mzed A ->
  length P = mz_nrows A -> length Q = mz_ncols A ->
  mzed_ple_ l2 A P Q cutoff = Ok (A1, P1, Q1, r1) -> mzed_ple_naive A P Q = Ok (A2, P2, Q2, r2) -> Q1 = Q2.
Proof.
  intros H. pose proof c72_runs as E.
  assert (L1 : length (mzp_init 1) = 1) by reflexivity. assert (L2 : length (mzp_init 66) = 66) by reflexivity.
  generalize dependent (mzp_init 1). intros P E LP. generalize dependent (mzp_init 66). intros Q LQ E.
  destruct (mk_realises 0x7 1 66 c72_F) as (A & EA & H1 & H2 & H3 & H4 & _).
  { vm_compute. split; congruence. }
  { intros i c _ _. unfold c72_F. destruct (c =? 65); vm_compute; reflexivity. }
  rewrite EA in E. clear EA.
  destruct (mzed_ple_ 4096 A P Q 1) as [[[[A1 P1] Q1] r1]| |] eqn:E1; cbn [c72_nth] in E; try (exfalso; congruence).
  destruct (mzed_ple_naive A P Q) as [[[[A2 P2] Q2] r2]| |] eqn:E2; cbn [c72_nth] in E; try (exfalso; congruence).
  assert (Irr : irreducible (ff_minpoly (mz_ff A))) by (rewrite H2; apply irrb_spec; vm_compute; congruence).
  rewrite <- H3 in LP. rewrite <- H4 in LQ.
  pose proof (H 4096%Z 1%Z A P Q A1 P1 Q1 r1 A2 P2 Q2 r2 Irr H1 LP LQ E1 E2) as ->. generalize dependent (nth 64 Q2 0). intros q E. congruence.
Qed.
Print Assumptions C72_tail_of_Q_refuted.

(** a case in which the recursive algorithm really recurses, with rows passed over and a dependent row *)
Definition c72_case : res mzed := mk 0x7 4 70 (fun i j =>
  match i with
  | 0 => if j =? 69 then 3%N else 0%N
  | 1 => if j =? 5 then 2%N else if 66 <? j then 1%N else 0%N
  | 2 => if j =? 3 then 3%N else if j =? 67 then 2%N else 0%N
  | _ => if j =? 3 then 2%N else if j =? 5 then 2%N else if 67 <? j then 1%N else 0%N
  end).
Definition c72_show (x : mzed * mzp * mzp * nat) : list (list N) * mzp * mzp * nat :=
  let '(A, P, Q, r) := x in (map (fun l => firstn 5 l ++ skipn 66 l) (to_rows A), P, firstn r Q, r).
Example C72_witness :
  (A <- c72_case ;; x <- mzed_ple_ 4096 A (mzp_init 4) (mzp_init 70) 1 ;; Ok (c72_show x)) = (A <- c72_case ;; x <- mzed_ple_naive A (mzp_init 4) (mzp_init 70) ;; Ok (c72_show x)) /\
  (A <- c72_case ;; x <- mzed_ple_newton_john A (mzp_init 4) (mzp_init 70) ;; Ok (c72_show x)) =
    Ok ([[3; 0; 0; 0; 0; 0; 3; 0; 0]; [0; 2; 0; 0; 0; 0; 3; 3; 3]; [0; 0; 3; 0; 0; 0; 0; 0; 0]; [2; 2; 0; 0; 0; 0; 0; 0; 0]]%N, [2; 1; 2; 3], [3; 5; 69], 3).
Proof. split; vm_compute; reflexivity. Qed.
