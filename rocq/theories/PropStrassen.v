(** Strassen multiplication of packed matrices: the property C23. *)
From Coq Require Import NArith ZArith Lia List Bool Arith.
From Verif Require Import Base Spec LinSpec PolyFacts MatFacts Gf2xModel Gf2eModel Gf2eProofs.
From Verif Require Import MzdModel MzedModel MzedSpec LaneFacts MzedProofs MzedOps MzedOps2 NjModel NjMul StrassenModel StrassenProofs StrassenMain Demo.
Import ListNotations.
Local Open Scope nat_scope.

(** C23: every shape (B with at least one column), every cutoff of at least 1.5 words of elements.
    [mulbs] is M4RI's multiplication block size. *)
Theorem C23_mul_strassen : forall mulbs C A B cutoff, 16 <= mulbs -> wf_mzed A -> wf_mzed B ->
  fld A = fld B -> mz_ncols A = mz_nrows B -> 0 < mz_ncols B -> target C (fld A) (mz_nrows A) (mz_ncols B) ->
  (3 * Z.of_nat (64 / mz_w A) <= 2 * cutoff)%Z ->
  (exists C', mzed_mul_strassen mulbs C A B cutoff = Ok C' /\
     holds C' (fld A) (mz_nrows A) (mz_ncols B) (mmul (fld A) (mz_ncols A) (entry A) (entry B))) /\
  (exists C', mzed_addmul_strassen mulbs C A B cutoff = Ok C' /\
     holds C' (fld A) (mz_nrows A) (mz_ncols B)
        (match C with
         | Some C => madd (entry C) (mmul (fld A) (mz_ncols A) (entry A) (entry B))
         | None => mmul (fld A) (mz_ncols A) (entry A) (entry B)
         end)).
Proof.
  intros mulbs C A B cutoff Hb HA HB Ef En Hn HC Hcut.
  assert (KA := holds_self A HA). assert (KB := holds_self B HB). rewrite <- Ef, <- En in KB.
  split; apply wp_iff; [unfold mzed_mul_strassen|unfold mzed_addmul_strassen].
  - apply mzed_mul_init_ok; auto. intros D HD E1 E2 E3 _ ED _.
    assert (KD : holds D (fld A) (mz_nrows A) (mz_ncols B) (entry D)) by (split; [exact HD|]; now repeat split).
    eapply wp_mono; [apply (mul_strassen_ok mulbs cutoff Hb _ D A B _ _ _ _ _ _ _ (Nat.lt_succ_diag_r _) Hn Hcut KD KA KB)|].
    cbv beta. intros C' B'. exact (holds_becomes _ _ _ _ _ _ _ KD B').
  - apply mzed_mul_init_ok; auto. intros D HD E1 E2 E3 _ ED _.
    assert (KD : holds D (fld A) (mz_nrows A) (mz_ncols B) (match C with Some C0 => entry C0 | None => mzero end)).
    { split; [exact HD|]. repeat split; auto. intros i j Hi Hj. rewrite ED by auto. now destruct C. }
    eapply wp_mono; [apply (addmul_strassen_ok mulbs cutoff Hb _ D A B _ _ _ _ _ _ _ (Nat.lt_succ_diag_r _) Hn Hcut KD KA KB)|].
    cbv beta. intros C' B'. pose proof (holds_becomes _ _ _ _ _ _ _ KD B') as K. destruct C; [exact K|].
    eapply holds_ext; [exact K|]. intros i j _ _. unfold madd, mzero. apply N.lxor_0_l.
Qed.
(** the in-place kernels, whatever the previous content of C *)
Theorem C23_strassen_kernels : forall mulbs C A B cutoff, 16 <= mulbs -> wf_mzed A -> wf_mzed B -> wf_mzed C ->
  fld A = fld B -> fld C = fld A -> mz_ncols A = mz_nrows B -> mz_nrows C = mz_nrows A -> mz_ncols C = mz_ncols B -> 0 < mz_ncols B ->
  (3 * Z.of_nat (64 / mz_w A) <= 2 * cutoff)%Z ->
  (exists C', mzed_mul_strassen_ mulbs C A B cutoff = Ok C' /\ becomes C C' (mmul (fld A) (mz_ncols A) (entry A) (entry B))) /\
  (exists C', mzed_addmul_strassen_ mulbs C A B cutoff = Ok C' /\
     becomes C C' (madd (entry C) (mmul (fld A) (mz_ncols A) (entry A) (entry B)))).
Proof.
  intros mulbs C A B cutoff Hb HA HB HC Ef Ec En E1 E2 Hn Hcut.
  assert (KA := holds_self A HA). assert (KB := holds_self B HB). rewrite <- Ef, <- En in KB.
  assert (KC := holds_self C HC). rewrite Ec, E1, E2 in KC.
  split; apply wp_iff.
  - apply (mul_strassen_ok mulbs cutoff Hb _ C A B _ _ _ _ _ _ _ (Nat.lt_succ_diag_r _) Hn Hcut KC KA KB).
  - apply (addmul_strassen_ok mulbs cutoff Hb _ C A B _ _ _ _ _ _ _ (Nat.lt_succ_diag_r _) Hn Hcut KC KA KB).
Qed.
(** a smaller cutoff can make the recursion produce blocks without columns, on which the
    Newton-John multiplication trips an assertion *)
Theorem C23_small_cutoff_refuted : exists A B, wf_mzed A /\ wf_mzed B /\ fld A = fld B /\ mz_ncols A = mz_nrows B /\ 0 < mz_ncols B /\
  mzed_mul_strassen 2048 None A B 1 = UB.
Proof.
  destruct (mk_realises 7 4 4 (fun _ _ => 1%N)) as (A & EA & HA); [vm_compute; split; discriminate|now intros|].
  assert (E : (A <- mk 7 4 4 (fun _ _ => 1%N) ;; mzed_mul_strassen 2048 None A A 1) = UB) by (vm_compute; reflexivity).
  rewrite EA in E. cbn [bind] in E. clear EA. destruct HA as (WA & _ & RA & CA & _).
  exists A, A. split; [exact WA|]. split; [exact WA|]. split; [reflexivity|]. split; [congruence|]. split; [rewrite CA; repeat constructor|exact E].
Qed.
Print Assumptions C23_mul_strassen.
Print Assumptions C23_strassen_kernels.
Print Assumptions C23_small_cutoff_refuted.
(** GF(16), 33 x 35 times 35 x 34, one level of recursion with rests everywhere: the hypotheses hold and
    the product is the naive one *)
Example C23_witness :
  (A <- mk 0x13 33 35 (noise 3 1) ;; B <- mk 0x13 35 34 (noise 1 2) ;;
   let small := strassen_small A B 24 in
   C <- mzed_mul_strassen 2048 None A B 24 ;; D <- mzed_mul_naive None A B ;;
   E <- mzed_addmul_strassen 2048 (Some C) A B 24 ;;
   Ok (small, mzed_is_zero C, mzed_cmp C D, mzed_is_zero E)) = Ok (false, false, Eq, true).
Proof. vm_compute. reflexivity. Qed.
