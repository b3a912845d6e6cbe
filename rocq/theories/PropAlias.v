(** C62: the same matrix passed twice.  Matrices live in a store, operations get pointers; nothing is assumed
    about pointers being different unless it is written as a hypothesis. *)
From Coq Require Import NArith ZArith Lia List Bool Arith.
From Coq Require Import ZifyBool ZifyNat ZifyN.
From Verif Require Import Base Spec LinSpec PolyFacts MatFacts Gf2xModel Gf2eModel Gf2eProofs IrrProofs.
From Verif Require Import MzdModel MzedModel MzedSpec LaneFacts MzedProofs MzedOps MzedOps2 ScalarProofs NjModel PropMzed PropNj.
From Verif Require Import SliceModel SliceSpec MzdFacts SliceProofs SliceOps SliceMul KaratsubaTable KaraModel KaraProofs PropSlice Demo.
From Verif Require Import AliasModel AliasRows AliasProofs AliasSlice.
Import ListNotations.
Local Open Scope nat_scope.

(** the store holds [A] at [p]; only the object at [p] changed, and it is now [A'] *)
Definition at_ {X} (h : list X) (p : nat) (A : X) : Prop := nth_error h p = Some A.
Definition only {X} (h : list X) (p : nat) (A' : X) (h' : list X) : Prop :=
  length h' = length h /\ nth_error h' p = Some A' /\ forall q, q <> p -> nth_error h' q = nth_error h q.
Lemma only_upd {X} (h : list X) p A A' : at_ h p A -> only h p A' (upd h p A').
Proof.
  intros E. pose proof (stored_lt _ _ _ E) as L. split; [apply upd_length|]. split; [now apply (stored_upd_eq h p A)|]. intros q Hq. apply (stored_upd_ne h p q A _ E). congruence.
Qed.
Lemma wp_only {X} (h : list X) p A (r : res (list X)) (P : X -> Prop) : at_ h p A -> wp r (fun h' => exists A', h' = upd h p A' /\ P A') ->
  exists h' A', r = Ok h' /\ only h p A' h' /\ P A'.
Proof. intros E W. apply wp_iff in W as (h' & -> & A' & -> & HP). exists (upd h p A'), A'. split; [reflexivity|]. split; [now apply (only_upd h p A)|exact HP]. Qed.

(** row operations: any two rows of any two matrices, the target row may be the source row *)
Theorem C62_add_multiple_of_row : forall h pa ar pb br x s A B, at_ h pa A -> at_ h pb B ->
  wf_mzed A -> wf_mzed B -> fld A = fld B -> mz_ncols A = mz_ncols B -> inF (fld A) x ->
  ar < mz_nrows A -> br < mz_nrows B -> s < mz_ncols A ->
  exists h' A', mzed_add_multiple_of_row_at h pa ar pb br x s = Ok h' /\ only h pa A' h' /\
    becomes A A' (fun i c => if (i =? ar) && (s <=? c) then N.lxor (entry A ar c) (fmul (fld A) x (entry B br c)) else entry A i c).
Proof. intros. apply (wp_only h pa A); [auto|]. now apply mzed_add_multiple_of_row_at_ok. Qed.
Theorem C62_add_row : forall h pa ar pb br s A B, at_ h pa A -> at_ h pb B ->
  wf_mzed A -> wf_mzed B -> fld A = fld B -> mz_ncols A = mz_ncols B ->
  ar < mz_nrows A -> br < mz_nrows B -> s < mz_ncols A ->
  exists h' A', mzed_add_row_at h pa ar pb br s = Ok h' /\ only h pa A' h' /\
    becomes A A' (fun i c => if (i =? ar) && (s <=? c) then N.lxor (entry A ar c) (entry B br c) else entry A i c).
Proof. intros. apply (wp_only h pa A); [auto|]. now apply mzed_add_row_at_ok. Qed.

(** addition, copy, scalar multiple, inverse: any of the three pointers may coincide *)
Theorem C62_add : forall h pc pa pb C A B, at_ h pc C -> at_ h pa A -> at_ h pb B ->
  wf_mzed A -> wf_mzed B -> wf_mzed C -> fld A = fld B -> fld C = fld A ->
  mz_nrows A = mz_nrows B -> mz_ncols A = mz_ncols B -> mz_nrows C = mz_nrows A -> mz_ncols C = mz_ncols A ->
  exists h' C', mzed_add_at h pc pa pb = Ok h' /\ only h pc C' h' /\ becomes C C' (madd (entry A) (entry B)).
Proof.
  intros h pc pa pb C A B Ec Ea Eb HA HB HC F1 F2 E1 E2 E3 E4. apply (wp_only h pc C); [auto|]. unfold mzed_add_at.
  rewrite (lget_stored _ _ _ Ec), (lget_stored _ _ _ Ea), (lget_stored _ _ _ Eb). cbn [bind]. apply wp_bind.
  eapply wp_mono; [apply (mzed_add_ok (Some C) A B); auto; exact (conj HC (conj F2 (conj E3 E4)))|]. cbv beta. intros C' (_ & K).
  rewrite (lset_stored _ _ _ _ Ec). cbn [wp]. exists C'. split; [reflexivity|]. now apply K.
Qed.
Theorem C62_copy : forall h pa pb A B, at_ h pa A -> at_ h pb B -> wf_mzed A -> wf_mzed B -> fld A = fld B ->
  mz_nrows A = mz_nrows B -> mz_ncols A = mz_ncols B ->
  exists h' A', mzed_copy_at h pa pb = Ok h' /\ only h pa A' h' /\ becomes A A' (entry B).
Proof.
  intros h pa pb A B Ea Eb HA HB F E1 E2. apply (wp_only h pa A); [auto|]. unfold mzed_copy_at. destruct (Nat.eqb_spec pa pb) as [->|Hn].
  - cbn [wp]. exists A. split; [symmetry; now apply upd_stored|]. assert (B = A) as -> by (unfold at_ in *; congruence). now apply becomes_refl.
  - rewrite (lget_stored _ _ _ Ea), (lget_stored _ _ _ Eb). cbn [bind]. apply wp_bind. eapply wp_mono; [apply (mzed_copy_ok (Some A) B HB); exact (conj HA (conj F (conj E1 E2)))|].
    cbv beta. intros A' (_ & K). rewrite (lset_stored _ _ _ _ Ea). cbn [wp]. exists A'. split; [reflexivity|]. exact (K A eq_refl).
Qed.
Theorem C62_mul_scalar : forall h pc a pb C B, at_ h pc C -> at_ h pb B ->
  wf_mzed B -> inF (fld B) a -> wf_mzed C -> fld C = fld B -> mz_nrows C = mz_nrows B -> mz_ncols C = mz_ncols B ->
  (0 < mz_ncols B \/ mz_nrows B = 0) ->
  (ff_degree (mz_ff B) <= 8 -> (N.of_nat (mz_nrows B) * N.of_nat (mz_ncols B) < 2 ^ 31)%N) ->
  (uses_table B -> ff_degree (mz_ff B) = 2 \/ ff_degree (mz_ff B) = 4 \/ ff_degree (mz_ff B) = 8) ->
  exists h' C', mzed_mul_scalar_at h pc a pb = Ok h' /\ only h pc C' h' /\ becomes C C' (mscal (fld B) a (entry B)).
Proof. intros h pc a pb C B Ec Eb. intros. apply (wp_only h pc C); [auto|]. now apply mzed_mul_scalar_at_ok. Qed.
Theorem C62_invert : forall k0 h pb pa B A, at_ h pb B -> at_ h pa A -> wf_mzed A -> wf_mzed B -> irreducible (fld A) -> k0 <= 7 ->
  mz_nrows A = mz_ncols A -> fld B = fld A -> mz_nrows B = mz_nrows A -> mz_ncols B = mz_ncols A ->
  (invertible (fld A) (mz_nrows A) (entry A) ->
     exists h' B', mzed_invert_newton_john_at k0 h pb pa = Ok h' /\ only h pb B' h' /\ wf_mzed B' /\ fld B' = fld A /\
       mz_nrows B' = mz_nrows A /\ mz_ncols B' = mz_ncols A /\ inverse (fld A) (mz_nrows A) (entry A) (entry B')) /\
  (~ invertible (fld A) (mz_nrows A) (entry A) -> mzed_invert_newton_john_at k0 h pb pa = Die).
Proof.
  intros k0 h pb pa B A Eb Ea HA HB Hi Hk Sq F E1 E2. rewrite (invert_at_eq k0 h pb pa B A Eb Ea).
  destruct (C28_invert k0 (Some B) A HA Hi Hk Sq (conj HB (conj F (conj E1 E2)))) as (H1 & H2). split.
  - intros Hv. destruct (H1 Hv) as (B' & -> & W). cbn [bind]. exists (upd h pb B'), B'. split; [reflexivity|]. split; [now apply (only_upd h pb B)|exact W].
  - intros Hv. rewrite (H2 Hv). reflexivity.
Qed.

(** products: the factors may be one object, the target must be another *)
Theorem C62_mul_naive : forall h pc pa pb C A B, at_ h pc C -> at_ h pa A -> at_ h pb B ->
  wf_mzed A -> wf_mzed B -> wf_mzed C -> fld A = fld B -> fld C = fld A ->
  mz_ncols A = mz_nrows B -> mz_nrows C = mz_nrows A -> mz_ncols C = mz_ncols B -> pc <> pa -> pc <> pb ->
  (exists h' C', mzed_mul_naive_at h pc pa pb = Ok h' /\ only h pc C' h' /\
     holds C' (fld A) (mz_nrows A) (mz_ncols B) (mmul (fld A) (mz_ncols A) (entry A) (entry B))) /\
  (exists h' C', mzed_addmul_naive_at h pc pa pb = Ok h' /\ only h pc C' h' /\
     holds C' (fld A) (mz_nrows A) (mz_ncols B) (madd (entry C) (mmul (fld A) (mz_ncols A) (entry A) (entry B)))).
Proof.
  intros h pc pa pb C A B Ec Ea Eb HA HB HC F1 F2 E1 E2 E3 Na Nb. unfold mzed_mul_naive_at, mzed_addmul_naive_at.
  rewrite !(mul_at_eq _ h pc pa pb C A B) by auto.
  destruct (proj1 (C19_mul_naive (Some C) A B HA HB) F1 E1 (conj HC (conj F2 (conj E2 E3)))) as ((C1 & K1 & H1) & (C2 & K2 & H2)).
  unfold mzed_mul_naive in K1. unfold mzed_addmul_naive in K2. split.
  - exists (upd h pc C1), C1. split; [|split; [now apply (only_upd h pc C)|exact H1]].
    destruct (mzed_mul_init (Some C) A B true) as [D| |]; cbn [bind] in *; try discriminate. now rewrite K1.
  - exists (upd h pc C2), C2. split; [|split; [now apply (only_upd h pc C)|exact H2]].
    destruct (mzed_mul_init (Some C) A B false) as [D| |]; cbn [bind] in *; try discriminate. now rewrite K2.
Qed.
(** a target that is one of the factors: the result is the zero matrix, whatever the factors *)
Theorem C62_mul_naive_alias_refuted : forall h pc pa pb C A B, at_ h pc C -> at_ h pa A -> at_ h pb B ->
  wf_mzed A -> wf_mzed B -> wf_mzed C -> fld A = fld B -> fld C = fld A ->
  mz_ncols A = mz_nrows B -> mz_nrows C = mz_nrows A -> mz_ncols C = mz_ncols B -> pc = pa \/ pc = pb ->
  exists h' C', mzed_mul_naive_at h pc pa pb = Ok h' /\ only h pc C' h' /\ becomes C C' mzero.
Proof.
  intros h pc pa pb C A B Ec Ea Eb HA HB HC F1 F2 E1 E2 E3 Hal. apply (wp_only h pc C); [auto|]. unfold mzed_mul_naive_at, mzed_mul_init_at.
  rewrite (lget_stored _ _ _ Ec), (lget_stored _ _ _ Ea), (lget_stored _ _ _ Eb). cbn [bind]. apply wp_bind.
  apply (mzed_mul_init_ok (Some C) A B true HA HB F1 E1 (conj HC (conj F2 (conj E2 E3)))).
  intros D HD G1 G2 G3 _ _ BD. specialize (BD C eq_refl). cbv beta in BD. rewrite (lset_stored _ _ _ _ Ec). cbn [wp].
  assert (V : forall q Z, nth_error h q = Some Z -> nth_error (upd h pc D) q = Some (if pc =? q then D else Z)).
  { intros q Z Hq. rewrite (stored_upd h pc q C D Ec). now destruct (pc =? q). }
  eapply wp_mono; [apply (mul_naive_at_zero (upd h pc D) pc pa pb D (if pc =? pa then D else A) (if pc =? pb then D else B))|].
  - now apply (stored_upd_eq h pc C).
  - now apply V.
  - now apply V.
  - exact HD.
  - now destruct (pc =? pa).
  - now destruct (pc =? pb).
  - destruct (pc =? pa); congruence.
  - destruct (pc =? pb); congruence.
  - assert (pc = pa -> C = A) by (intros <-; unfold at_ in *; congruence). assert (pc = pb -> C = B) by (intros <-; unfold at_ in *; congruence).
    destruct (Nat.eqb_spec pc pa) as [e|], (Nat.eqb_spec pc pb) as [e'|]; repeat match goal with Q : ?x = ?y -> _, e : ?x = ?y |- _ => specialize (Q e) end; try subst A; try subst B; congruence.
  - destruct (pc =? pa); congruence.
  - destruct (pc =? pb); congruence.
  - exact Hal.
  - intros i j Hi Hj. rewrite (becomes_entry _ _ _ i j BD) by lia. reflexivity.
  - cbv beta. intros h' (C' & -> & B'). exists C'. split; [now rewrite upd_upd|]. eapply becomes_step; [exact BD|exact B'|]. intros i j _ _. reflexivity.
Qed.

(** bit-sliced matrices *)
Theorem C62_slice_add : forall h pc pa pb C A B, at_ h pc C -> at_ h pa A -> at_ h pb B ->
  wf_slice A -> wf_slice B -> wf_slice C -> sfld A = sfld B -> sfld C = sfld A ->
  sl_nrows A = sl_nrows C -> sl_ncols A = sl_ncols C -> sl_nrows B = sl_nrows C -> sl_ncols B = sl_ncols C ->
  exists h' C', mzd_slice_add_at h pc pa pb = Ok h' /\ only h pc C' h' /\ sbecomes C C' (madd (sentry A) (sentry B)).
Proof. intros h pc pa pb C A B Ec Ea Eb. intros. apply (wp_only h pc C); [auto|]. now apply slice_add_at_ok. Qed.
Lemma slice_check_ok C A B : sfld A = sfld B -> sfld C = sfld A -> sl_ncols A = sl_nrows B -> sl_nrows C = sl_nrows A -> sl_ncols C = sl_ncols B ->
  forall T (k : res T), (_ <- check ((sl_ncols A =? sl_nrows B) && sl_same_ff A B) ;; _ <- check (sl_same_ff C A && (sl_nrows C =? sl_nrows A) && (sl_ncols C =? sl_ncols B)) ;; k) = k.
Proof.
  intros F1 F2 E1 E2 E3 T k. rewrite (proj2 (sl_same_ff_iff A B) F1), (proj2 (sl_same_ff_iff C A) F2), E1, E2, E3, !Nat.eqb_refl. reflexivity.
Qed.
Theorem C62_slice_mul : forall h pc pa pb C A B, at_ h pc C -> at_ h pa A -> at_ h pb B ->
  wf_slice A -> wf_slice B -> wf_slice C -> sfld A = sfld B -> sfld C = sfld A ->
  sl_ncols A = sl_nrows B -> sl_nrows C = sl_nrows A -> sl_ncols C = sl_ncols B -> pc <> pa -> pc <> pb ->
  (exists h' C', mzd_slice_mul_at h pc pa pb = Ok h' /\ only h pc C' h' /\
     sbecomes C C' (mmul (sfld A) (sl_ncols A) (sentry A) (sentry B))) /\
  (exists h' C', mzd_slice_addmul_at h pc pa pb = Ok h' /\ only h pc C' h' /\
     sbecomes C C' (madd (sentry C) (mmul (sfld A) (sl_ncols A) (sentry A) (sentry B)))).
Proof.
  intros h pc pa pb C A B Ec Ea Eb HA HB HC F1 F2 E1 E2 E3 Na Nb. split.
  - apply (wp_only h pc C); [auto|]. unfold mzd_slice_mul_at. rewrite (lget_stored _ _ _ Ec), (lget_stored _ _ _ Ea), (lget_stored _ _ _ Eb). cbn [bind].
    rewrite slice_check_ok by auto.
    pose proof (slice_mul_karatsuba_ok (Some C) A B HA HB F1 E1 (conj HC (conj F2 (conj E2 E3)))) as V. unfold mzd_slice_mul_karatsuba in V.
    destruct (mzd_slice_set_ui C 0) as [C0| |] eqn:E0; [|exfalso|exfalso].
    + cbn [bind]. rewrite (lset_stored _ _ _ _ Ec). cbn [bind]. rewrite (addmul_at_eq (upd h pc C0) pc pa pb C0 A B); auto.
      * assert (V' : wp (mzd_slice_addmul_karatsuba_ (Some C0) A B) (fun C' => sbecomes C C' (mmul (sfld A) (sl_ncols A) (sentry A) (sentry B)))).
        { rewrite (proj2 (sl_same_ff_iff A B) F1), (proj2 (sl_same_ff_iff C A) F2), E1, E2, E3, !Nat.eqb_refl in V. cbn [andb check bind] in V. rewrite <- E1 in V. eapply wp_mono; [exact V|]. cbv beta. intros ? (_ & K). exact K. }
        apply wp_bind. eapply wp_mono; [exact V'|]. cbv beta. intros C' K. cbn [wp]. exists C'. split; [apply upd_upd|exact K].
      * now apply (stored_upd_eq h pc C).
      * rewrite (stored_upd_ne h pc pa C _ Ec Na). exact Ea.
      * rewrite (stored_upd_ne h pc pb C _ Ec Nb). exact Eb.
    + rewrite (proj2 (sl_same_ff_iff A B) F1), (proj2 (sl_same_ff_iff C A) F2), E1, E2, E3, !Nat.eqb_refl in V. cbn [andb check bind] in V. rewrite ?E0 in V. exact V.
    + rewrite (proj2 (sl_same_ff_iff A B) F1), (proj2 (sl_same_ff_iff C A) F2), E1, E2, E3, !Nat.eqb_refl in V. cbn [andb check bind] in V. rewrite ?E0 in V. exact V.
  - apply (wp_only h pc C); [auto|]. unfold mzd_slice_addmul_at. rewrite (lget_stored _ _ _ Ec), (lget_stored _ _ _ Ea), (lget_stored _ _ _ Eb). cbn [bind].
    rewrite slice_check_ok by auto. rewrite (addmul_at_eq h pc pa pb C A B) by auto.
    pose proof (slice_addmul_ok C A B HA HB HC F1 E1 F2 E2 E3) as V. unfold mzd_slice_addmul, mzd_slice_addmul_karatsuba in V.
    rewrite (proj2 (sl_same_ff_iff A B) F1), (proj2 (sl_same_ff_iff C A) F2), E1, E2, E3, !Nat.eqb_refl in V. cbn [andb check bind] in V. rewrite <- E1 in V.
    apply wp_bind. eapply wp_mono; [exact V|]. cbv beta. intros C' K. cbn [wp]. exists C'. split; [reflexivity|exact K].
Qed.
Theorem C62_slice_mul_alias_refuted : forall h pc pa pb C A B, at_ h pc C -> at_ h pa A -> at_ h pb B ->
  wf_slice A -> wf_slice B -> wf_slice C -> sfld A = sfld B -> sfld C = sfld A ->
  sl_ncols A = sl_nrows B -> sl_nrows C = sl_nrows A -> sl_ncols C = sl_ncols B -> pc = pa \/ pc = pb ->
  exists h' C', mzd_slice_mul_at h pc pa pb = Ok h' /\ only h pc C' h' /\ sbecomes C C' mzero.
Proof.
  intros h pc pa pb C A B Ec Ea Eb HA HB HC F1 F2 E1 E2 E3 Hal. apply (wp_only h pc C); [auto|]. unfold mzd_slice_mul_at.
  rewrite (lget_stored _ _ _ Ec), (lget_stored _ _ _ Ea), (lget_stored _ _ _ Eb). cbn [bind]. rewrite slice_check_ok by auto.
  apply wp_bind. eapply wp_mono; [apply slice_set_ui_ok; [exact HC|]|].
  { unfold inF. apply N.neq_0_lt_0. now apply N.pow_nonzero. }
  cbv beta. intros D BD. pose proof (sb_wf _ _ _ BD) as WD. pose proof (sb_nr _ _ _ BD) as RD. pose proof (sb_nc _ _ _ BD) as ND. pose proof (sb_ff _ _ _ BD) as FD.
  rewrite (lset_stored _ _ _ _ Ec). cbn [bind].
  assert (V : forall q Z, nth_error h q = Some Z -> nth_error (upd h pc D) q = Some (if pc =? q then D else Z)).
  { intros q Z Hq. rewrite (stored_upd h pc q C D Ec). now destruct (pc =? q). }
  eapply wp_mono; [apply (slice_addmul_at_zero (upd h pc D) pc pa pb D (if pc =? pa then D else A) (if pc =? pb then D else B))|].
  - now apply (stored_upd_eq h pc C).
  - now apply V.
  - now apply V.
  - exact WD.
  - now destruct (pc =? pa).
  - now destruct (pc =? pb).
  - destruct (pc =? pa); congruence.
  - destruct (pc =? pb); congruence.
  - assert (pc = pa -> C = A) by (intros <-; unfold at_ in *; congruence). assert (pc = pb -> C = B) by (intros <-; unfold at_ in *; congruence).
    destruct (Nat.eqb_spec pc pa) as [e|], (Nat.eqb_spec pc pb) as [e'|]; repeat match goal with Q : ?x = ?y -> _, e : ?x = ?y |- _ => specialize (Q e) end; try subst A; try subst B; congruence.
  - destruct (pc =? pa); congruence.
  - destruct (pc =? pb); congruence.
  - exact Hal.
  - intros i j Hi Hj. rewrite (sb_entry _ _ _ i j BD) by lia. now destruct (i =? j).
  - cbv beta. intros h' (C' & -> & B'). exists C'. split; [now rewrite upd_upd|]. eapply sb_step; [exact HC|exact BD|exact B'|]. intros i j _ _. reflexivity.
Qed.
Print Assumptions C62_add_multiple_of_row.
Print Assumptions C62_mul_scalar.
Print Assumptions C62_invert.
Print Assumptions C62_mul_naive.
Print Assumptions C62_mul_naive_alias_refuted.
Print Assumptions C62_slice_add.
Print Assumptions C62_slice_mul.
Print Assumptions C62_slice_mul_alias_refuted.

(** accumulating into one of the factors: the result is not [C + A * B] *)
Theorem C62_addmul_naive_alias_refuted : exists h A B h' A', at_ h 0 A /\ at_ h 1 B /\ wf_mzed A /\ wf_mzed B /\ fld A = fld B /\
  mz_nrows A = 2 /\ mz_ncols A = 2 /\ mz_nrows B = 2 /\ mz_ncols B = 2 /\
  mzed_addmul_naive_at h 0 0 1 = Ok h' /\ at_ h' 0 A' /\ entry A' 0 1 <> madd (entry A) (mmul (fld A) 2 (entry A) (entry B)) 0 1.
Proof.
  destruct (mk_realises 7 2 2 (of_rows [[1; 2]; [3; 1]]%N)) as (A & EA & (WA & FA & RA & CA & _)); [vm_compute; split; congruence|intros [|[|]] [|[|]] ? ?; try lia; vm_compute; reflexivity|].
  destruct (mk_realises 7 2 2 (of_rows [[2; 1]; [1; 1]]%N)) as (B & EB & (WB & FB & RB & CB & _)); [vm_compute; split; congruence|intros [|[|]] [|[|]] ? ?; try lia; vm_compute; reflexivity|].
  vm_compute in EA. vm_compute in EB. injection EA as EA. injection EB as EB.
  exists [A; B], A, B. destruct (mzed_addmul_naive_at [A; B] 0 0 1) as [h'| |] eqn:E; subst A B; vm_compute in E; try discriminate. injection E as E.
  destruct h' as [|A' h']; [discriminate|]. exists (A' :: h'), A'. repeat (split; [first [reflexivity|assumption]|]). injection E as E _. subst A'. vm_compute. congruence.
Qed.
Print Assumptions C62_addmul_naive_alias_refuted.
Theorem C62_slice_addmul_alias_refuted : exists h A B h' A', at_ h 0 A /\ at_ h 1 B /\ wf_slice A /\ wf_slice B /\ sfld A = sfld B /\
  sl_nrows A = 2 /\ sl_ncols A = 2 /\ sl_nrows B = 2 /\ sl_ncols B = 2 /\
  mzd_slice_addmul_at h 0 0 1 = Ok h' /\ at_ h' 0 A' /\ sentry A' 1 0 <> madd (sentry A) (mmul (sfld A) 2 (sentry A) (sentry B)) 1 0.
Proof.
  destruct (mks_realises 0xb 2 2 (of_rows [[1; 2]; [3; 5]]%N)) as (A & EA & (WA & FA & RA & CA & _)); [vm_compute; split; congruence|intros [|[|]] [|[|]] ? ?; try lia; vm_compute; reflexivity|].
  destruct (mks_realises 0xb 2 2 (of_rows [[2; 1]; [1; 1]]%N)) as (B & EB & (WB & FB & RB & CB & _)); [vm_compute; split; congruence|intros [|[|]] [|[|]] ? ?; try lia; vm_compute; reflexivity|].
  vm_compute in EA. vm_compute in EB. injection EA as EA. injection EB as EB.
  exists [A; B], A, B. destruct (mzd_slice_addmul_at [A; B] 0 0 1) as [h'| |] eqn:E; subst A B; vm_compute in E; try discriminate. injection E as E.
  destruct h' as [|A' h']; [discriminate|]. exists (A' :: h'), A'. repeat (split; [first [reflexivity|assumption]|]). injection E as E _. subst A'. vm_compute. congruence.
Qed.
Print Assumptions C62_slice_addmul_alias_refuted.
Example C62_row_witness :
  (A <- mk 0xb 2 20 (noise 3 1) ;; h <- mzed_add_multiple_of_row_at [A] 0 1 0 1 5 15 ;; A' <- lget h 0 ;; Ok (nth 1 (to_rows A) [], nth 1 (to_rows A') [])) =
  Ok ([4; 6; 0; 2; 4; 6; 0; 2; 4; 6; 0; 2; 4; 6; 0; 2; 4; 6; 0; 2], [4; 6; 0; 2; 4; 6; 0; 2; 4; 6; 0; 2; 4; 6; 0; 3; 6; 5; 0; 3])%N.
Proof. vm_compute. reflexivity. Qed.
Example C62_invert_witness :
  (A <- mk 7 2 2 (of_rows [[1; 2]; [1; 1]]%N) ;; h <- mzed_invert_newton_john_at 0 [A] 0 0 ;; A' <- lget h 0 ;; Ok (to_rows A')) = Ok [[2; 3]; [2; 2]]%N.
Proof. vm_compute. reflexivity. Qed.
Example C62_square_witness :
  (A <- mk 7 2 2 (of_rows [[1; 2]; [1; 1]]%N) ;; C <- mk 7 2 2 (of_rows [[1; 1]; [1; 1]]%N) ;; h <- mzed_mul_naive_at [A; C] 1 0 0 ;; g <- mzed_mul_naive_at [A] 0 0 0 ;;
   C' <- lget h 1 ;; D' <- lget g 0 ;; Ok (to_rows C', to_rows D')) = Ok ([[3; 0]; [0; 3]], [[0; 0]; [0; 0]])%N.
Proof. vm_compute. reflexivity. Qed.
Example C62_slice_witness :
  (A <- mks 0xb 2 2 (of_rows [[1; 2]; [3; 5]]%N) ;; C <- mks 0xb 2 2 (of_rows [[1; 1]; [1; 1]]%N) ;; h <- mzd_slice_mul_at [A; C] 1 0 0 ;; g <- mzd_slice_mul_at [A] 0 0 0 ;; k <- mzd_slice_add_at [A; C] 0 0 1 ;;
   C' <- lget h 1 ;; D' <- lget g 0 ;; K' <- lget k 0 ;; Ok (sl_rows C', sl_rows D', sl_rows K')) = Ok ([[7; 3]; [7; 1]], [[0; 0]; [0; 0]], [[0; 3]; [2; 4]])%N.
Proof. vm_compute. reflexivity. Qed.
