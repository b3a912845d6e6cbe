(** Frames: a call that writes its result into an existing matrix changes the elements of that matrix only; the
    bits that share words with it (padding, or the neighbours of a window) stay. *)
From Coq Require Import NArith ZArith Lia List Bool Arith.
From Coq Require Import ZifyBool ZifyNat ZifyN.
From Verif Require Import Base Spec PolyFacts Gf2xModel Gf2eModel Gf2eProofs MzdModel MzdFacts MzedModel MzedSpec LinSpec MatFacts.
From Verif Require Import MzedProofs MzedOps MzedOps2 ScalarProofs NjModel NjMul StrassenModel StrassenProofs StrassenMain SliceModel SliceSpec SliceProofs SliceOps SliceMul KaraModel ConvModel ConvCling.
From Verif Require Import MulModel MulProofs BlmSpec BlmModel BlmOps BlmOpsProofs.
From Verif Require Import PropNj PropStrassen PropSlice.
Import ListNotations.
Local Open Scope nat_scope.

Definition kept_p (A A' : mzed) : Prop := becomes A A' (entry A').
Definition kept_s (A A' : slice) : Prop := sbecomes A A' (sentry A').

Lemma kept_of A A' F : becomes A A' F -> kept_p A A'.
Proof. intros B. eapply becomes_ext; [exact B|]. intros i c Hi Hc. symmetry. now apply (becomes_entry _ _ _ _ _ B). Qed.
Lemma skept_of A A' F : sbecomes A A' F -> kept_s A A'.
Proof. intros B. eapply sb_ext; [exact B|]. intros i c Hi Hc. symmetry. now apply (sb_entry _ _ _ _ _ B). Qed.
Lemma kept_refl A : wf_mzed A -> kept_p A A.
Proof. intros H. now apply becomes_refl. Qed.
Lemma skept_refl A : wf_slice A -> kept_s A A.
Proof. intros H. split; [exact H|]. now repeat split. Qed.
Lemma kept_trans A D A' F G : becomes A D F -> becomes D A' G -> kept_p A A'.
Proof.
  intros B1 B2. eapply becomes_step; [exact B1|exact B2|]. intros i c Hi Hc. rewrite (becomes_entry _ _ _ _ _ B2); [reflexivity|..].
  - now rewrite (becomes_nr _ _ _ B1).
  - now rewrite (becomes_nc _ _ _ B1).
Qed.
Lemma skept_trans A D A' F G : wf_slice A -> sbecomes A D F -> sbecomes D A' G -> kept_s A A'.
Proof.
  intros HA B1 B2. eapply sb_step; [exact HA|exact B1|exact B2|]. intros i c Hi Hc. symmetry. apply (sb_entry _ _ _ _ _ B2).
  - destruct B1 as (_ & _ & -> & _). exact Hi.
  - destruct B1 as (_ & _ & _ & -> & _). exact Hc.
Qed.

(** *** packed products *)
Section Products.
Variables C A B : mzed.
Hypothesis HA : wf_mzed A.
Hypothesis HB : wf_mzed B.
Hypothesis HC : wf_mzed C.
Hypothesis Ef : fld A = fld B.
Hypothesis Efc : fld C = fld A.
Hypothesis En : mz_ncols A = mz_nrows B.
Hypothesis Er : mz_nrows C = mz_nrows A.
Hypothesis Ec : mz_ncols C = mz_ncols B.

Lemma init_frame clr (k : mzed -> res mzed) :
  (forall D, wf_mzed D -> fld D = fld A -> mz_nrows D = mz_nrows A -> mz_ncols D = mz_ncols B -> wp (k D) (fun C' => exists F, becomes D C' F)) ->
  wp (D <- mzed_mul_init (Some C) A B clr ;; k D) (kept_p C).
Proof.
  intros Hk. apply mzed_mul_init_ok; auto; [exact (conj HC (conj Efc (conj Er Ec)))|]. intros D HD E1 E2 E3 _ _ BD. specialize (BD C eq_refl).
  eapply wp_mono; [now apply Hk|]. cbv beta. intros C' (F & BF). eapply kept_trans; eauto.
Qed.
Lemma naive_frame : wp (mzed_mul_naive (Some C) A B) (kept_p C) /\ wp (mzed_addmul_naive (Some C) A B) (kept_p C).
Proof.
  split; apply init_frame; intros D HD E1 E2 E3; (eapply wp_mono; [apply mzed_mul_naive_inplace_ok; auto; congruence|]); cbv beta; intros C' B'; eauto.
Qed.
Lemma nj_frame mulbs : 16 <= mulbs -> 0 < mz_ncols B -> wp (mzed_mul_newton_john mulbs (Some C) A B) (kept_p C) /\ wp (mzed_addmul_newton_john mulbs (Some C) A B) (kept_p C).
Proof.
  intros Hb Hn. pose proof (mulbs_pos mulbs A HA Hb) as Hp.
  split; apply init_frame; intros D HD E1 E2 E3;
    (eapply wp_mono; [apply mzed_mul_newton_john__ok; auto; split; [exact HD|split; [congruence|split; assumption]]|]); cbv beta; intros C' B'; eauto.
Qed.
Lemma strassen_frame mulbs cutoff : 16 <= mulbs -> 0 < mz_ncols B -> (3 * Z.of_nat (64 / mz_w A) <= 2 * cutoff)%Z ->
  wp (mzed_mul_strassen mulbs (Some C) A B cutoff) (kept_p C) /\ wp (mzed_addmul_strassen mulbs (Some C) A B cutoff) (kept_p C).
Proof.
  intros Hb Hn Hcut. assert (KA := holds_self A HA). assert (KB := holds_self B HB). rewrite <- Ef, <- En in KB.
  split; apply init_frame; intros D HD E1 E2 E3;
    (assert (KD : holds D (fld A) (mz_nrows A) (mz_ncols B) (entry D)) by (split; [exact HD|]; now repeat split)).
  - eapply wp_mono; [apply (mul_strassen_ok mulbs cutoff Hb _ D A B _ _ _ _ _ _ _ (Nat.lt_succ_diag_r _) Hn Hcut KD KA KB)|]. cbv beta. eauto.
  - eapply wp_mono; [apply (addmul_strassen_ok mulbs cutoff Hb _ D A B _ _ _ _ _ _ _ (Nat.lt_succ_diag_r _) Hn Hcut KD KA KB)|]. cbv beta. eauto.
Qed.
Lemma mul_frame mulbs l2 : 16 <= mulbs -> (4096 <= l2)%Z -> 0 < mz_ncols B ->
  wp (mzed_mul mulbs l2 (Some C) A B) (kept_p C) /\ wp (mzed_addmul mulbs l2 (Some C) A B) (kept_p C).
Proof.
  intros Hb Hl Hn. split; apply init_frame; intros D HD E1 E2 E3.
  - eapply wp_mono; [apply mzed_mul_in_ok; auto; congruence|]. cbv beta. eauto.
  - eapply wp_mono; [apply mzed_addmul_in_ok; auto; congruence|]. cbv beta. eauto.
Qed.
End Products.

(** *** sliced scalar multiple, sliced windows *)
Lemma slice_mul_scalar_frame C a B : wf_slice B -> wf_slice C -> sfld C = sfld B -> sl_nrows C = sl_nrows B -> sl_ncols C = sl_ncols B -> inF (sfld B) a ->
  wp (mzd_slice_mul_scalar (Some C) a B) (kept_s C).
Proof.
  intros HB HC Ef Er Ec Ha. unfold mzd_slice_mul_scalar. assert (f0 := wfs_f0 B HB). apply wp_bind.
  eapply wp_mono; [apply (slice_set_ui_ok C 0); auto; unfold inF; apply N.neq_0_lt_0, N.pow_nonzero; lia|]. cbv beta. intros D BD.
  pose proof BD as (D1 & D2 & D3 & D4 & _).
  change (wp (mzd_slice_addmul_scalar D a B) (kept_s C)).
  eapply wp_mono; [apply slice_addmul_scalar_ok; auto; congruence|]. cbv beta. intros C' B'. eapply skept_trans; eauto.
Qed.

Lemma slice_unwindow_ok A f m n F lr lc hr hc W W' G : sholds A f m n F -> lr <= hr <= m -> lc <= hc <= n -> lc mod 64 = 0 ->
  mzd_slice_window A lr lc hr hc = Ok W -> sbecomes W W' G ->
  wp (mzd_slice_unwindow A lr lc W') (fun A' => sbecomes A A' (fun i c => if (lr <=? i) && (i <? hr) && (lc <=? c) && (c <? hc)
                                         then G (i - lr) (c - lc) else F i c)).
Proof.
  intros KA Hr Hc Ha EW BW. pose proof KA as (HA & A2 & A3 & A4 & A5).
  pose proof (swin_list A lr lc hr hc HA ltac:(lia) ltac:(lia) Ha) as X1. pose proof (swin_ok A f m n F lr lc hr hc KA Hr Hc Ha) as X2.
  rewrite EW in X1, X2. cbn [wp] in X1, X2. destruct X1 as (E1 & E2 & E3 & E4 & E5 & E6). destruct X2 as (KW & _).
  pose proof (sh_wf _ _ _ _ _ KW) as WW. pose proof (sb_wf _ _ _ BW) as WW'. pose proof (sb_depth _ _ _ WW BW) as Ed.
  unfold mzd_slice_unwindow. apply map_ok; auto.
  - intros i c Hi Hcc. destruct (_ && _ && _ && _) eqn:Z.
    + rewrite <- (sb_entry _ _ _ (i - lr) (c - lc) BW) by lia. replace (sfld A) with (sfld W'); [now apply sentry_in|]. rewrite (sb_ff _ _ _ BW). now rewrite E1.
    + rewrite <- A5 by lia. now apply sentry_in.
  - intros b Hb W1 W2 W3. rewrite lget_sx by (auto; congruence). cbn [bind wp].
    pose proof (sb_elim _ _ _ WW BW b ltac:(congruence)) as Hm.
    eapply mset_ext; [eapply (unwindow_ok (sx A b) lr lc hr hc (sx W b)); eauto; lia|]. cbv beta. intros i k Hi Hk.
    destruct (_ && _ && _ && _); [easy|]. rewrite sbit by easy. now rewrite A5 by lia.
Qed.
