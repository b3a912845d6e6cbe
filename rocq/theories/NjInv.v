(** mzed_invert_newton_john. *)
From Coq Require Import NArith Lia List Bool Arith.
From Coq Require Import ZifyBool ZifyNat ZifyN.
From Verif Require Import Base Spec LinSpec PolyFacts MatFacts EchFacts Gf2xModel Gf2eModel Gf2eProofs.
From Verif Require Import MzdModel MzedModel MzedSpec LaneFacts MzedProofs MzedOps MzedOps2 EchNaive NjModel NjTable NjMul NjEch NjEch2.
Import ListNotations.
Local Open Scope nat_scope.

(** the block matrix [A | 1] *)
Definition aug (n : nat) (A : mat) : mat := fun i c => if c <? n then A i c else mone i (c - n).
Section F.
Variable f : N.
Hypothesis Hf : (1 <= pdeg f)%N.
Let f0 : f <> 0%N. Proof. intros ->. cbn in Hf. lia. Qed.
Hypothesis Hirr : irreducible f.

Lemma inM_aug n A : inM f n n A -> inM f n (n + n) (aug n A).
Proof. clear Hirr.
  intros HA i j Hi Hj. unfold aug. destruct (Nat.ltb_spec j n); [now apply HA|]. apply (inM_mone f n n); auto. lia.
Qed.
Lemma mmul_aug n P A i j : inM f n n P -> i < n -> j < n + n ->
  mmul f n P (aug n A) i j = if j <? n then mmul f n P A i j else P i (j - n).
Proof. clear Hirr.
  intros HP Hi Hj. unfold aug. destruct (Nat.ltb_spec j n) as [L|L].
  - unfold mmul. apply xsum_ext. intros k Hk. now replace (j <? n) with true by lia.
  - rewrite <- (mmul_1_r f n n P) by (auto; lia). unfold mmul. apply xsum_ext. intros k Hk. now replace (j <? n) with false by lia.
Qed.
Lemma inv_from_left n A R : inM f n n A -> row_equiv f n (n + n) (aug n A) R ->
  (forall i j, i < n -> j < n -> R i j = mone i j) ->
  inverse f n A (fun i j => R i (n + j)).
Proof. clear Hirr.
  intros HA (P & P' & (HP & HP' & E1 & E2) & E) HI.
  assert (ER : meq n n (fun i j => R i (n + j)) P).
  { intros i j Hi Hj. rewrite E by lia. rewrite mmul_aug by (auto; lia). replace (n + j <? n) with false by lia. f_equal. lia. }
  assert (EPA : meq n n (mmul f n P A) mone).
  { intros i j Hi Hj. rewrite <- HI by easy. rewrite E by lia. rewrite mmul_aug by (auto; lia). now replace (j <? n) with true by lia. }
  assert (EA : meq n n A P').
  { intros i j Hi Hj. rewrite <- (mmul_1_l f n n A) by auto.
    rewrite (mmul_ext f n n n mone (mmul f n P' P) A A) by (auto using meq_sym, meq_refl).
    rewrite (mmul_assoc f n n n n) by auto.
    rewrite (mmul_ext f n n n P' P' (mmul f n P A) mone) by (auto using meq_refl).
    now apply (mmul_1_r f n n P'). }
  split; [exact HA|]. split; [|split].
  - intros i j Hi Hj. rewrite ER by easy. now apply HP.
  - intros i j Hi Hj. rewrite (mmul_ext f n n n A P' _ P) by auto. now apply E2.
  - intros i j Hi Hj. rewrite (mmul_ext f n n n _ P A A) by (auto using meq_refl). now apply EPA.
Qed.
Lemma left_from_inv n A B R r piv : inverse f n A B -> inM f n (n + n) R -> row_equiv f n (n + n) (aug n A) R ->
  echelon n (n + n) r piv R -> reduced n r piv R -> forall i j, i < n -> j < n -> R i j = mone i j.
Proof.
  intros (HA & HB & E1 & E2) HR Q He Hr i j Hi Hj.
  set (R' := fun i j => if j <? n then mone i j else B i (j - n)).
  assert (EM : meq n (n + n) R' (mmul f n B (aug n A))).
  { intros i' j' Hi' Hj'. rewrite mmul_aug by auto. unfold R'. destruct (Nat.ltb_spec j' n) as [L|L]; [now rewrite E2|easy]. }
  assert (Q' : row_equiv f n (n + n) (aug n A) R') by (exists B, A; now repeat split).
  assert (HR' : inM f n (n + n) R').
  { intros i' j' Hi' Hj'. rewrite EM by easy. now apply (inM_mmul f n n (n + n)). }
  assert (He' : echelon n (n + n) n (fun i => i) R').
  { split; [easy|]. split; [|split; [easy|lia]]. intros k Hk. split; [lia|]. unfold R'. split.
    - replace (k <? n) with true by lia. unfold mone. now rewrite Nat.eqb_refl.
    - intros c Hc. replace (c <? n) with true by lia. unfold mone. now replace (k =? c) with false by lia. }
  assert (Hr' : reduced n n (fun i => i) R').
  { intros k k' Hk Hk' Hne. unfold R'. replace (k <? n) with true by lia. unfold mone. now replace (k' =? k) with false by lia. }
  destruct (rref_unique f Hf Hirr n (n + n) (aug n A) r piv R n (fun i => i) R') as (_ & E & _); auto.
  { now apply inM_aug. }
  rewrite E by lia. unfold R'. now replace (j <? n) with true by lia.
Qed.
End F.

Theorem mzed_invert_newton_john_ok k0 B A : wf_mzed A -> irreducible (fld A) -> k0 <= 7 -> mz_nrows A = mz_ncols A ->
  target B (fld A) (mz_nrows A) (mz_ncols A) ->
  (invertible (fld A) (mz_nrows A) (entry A) ->
     wp (mzed_invert_newton_john k0 B A) (fun B' => wf_mzed B' /\ fld B' = fld A /\ mz_nrows B' = mz_nrows A /\ mz_ncols B' = mz_ncols A /\
        inverse (fld A) (mz_nrows A) (entry A) (entry B'))) /\
  (~ invertible (fld A) (mz_nrows A) (entry A) -> mzed_invert_newton_john k0 B A = Die).
Proof.
  intros HA Hirr Hk Sq HB. set (n := mz_nrows A) in *. pose proof (wf_deg1 A HA) as Hd. pose proof (wf_f0 A HA) as f0.
  destruct (wf_deg2 A HA) as [Hff Hd2].
  assert (Main : exists T I J T' r, 
     mzed_invert_newton_john k0 B A = match mzed_cmp I J with Eq => mzed_submatrix B T' 0 n n (n + n) | _ => Die end /\
     holds I (fld A) n n mone /\ holds T (fld A) n (n + n) (aug n (entry A)) /\ ech_result true T T' r /\
     holds J (fld A) n n (entry T')).
  { unfold mzed_invert_newton_john. fold n. rewrite <- Sq, Nat.eqb_refl. cbn [guard bind].
    pose proof (mzed_init_ok (mz_ff A) n n Hff Hd2) as W. destruct (mzed_init (mz_ff A) n n) as [I0| |]; try contradiction. cbn [wp bind] in *.
    destruct W as (Ff & (W0 & F0 & R0 & C0 & _) & _).
    pose proof (mzed_set_ui_ok I0 1 W0) as W. rewrite F0 in W. specialize (W (inF1 _ Hd)).
    destruct (mzed_set_ui I0 1) as [I| |]; try contradiction. cbn [wp bind] in *.
    pose proof (becomes_holds _ _ _ W) as HI. rewrite F0, R0, C0 in HI. destruct HI as (WI & FI & RI & CI & EI). clear W.
    pose proof (mzed_concat_ok None A I HA WI ltac:(congruence)) as W. fold n in W. rewrite RI, CI, <- Sq in W. specialize (W eq_refl Logic.I).
    destruct (mzed_concat None A I) as [T| |]; try contradiction. cbn [wp bind] in *.
    destruct W as (WT & FT & RT & CT & ET).
    pose proof (mzed_echelonize_newton_john_ok k0 T true WT) as W. rewrite FT in W. specialize (W Hirr Hk).
    destruct (mzed_echelonize_newton_john k0 T true) as [[T' r]| |]; try contradiction. cbn [wp bind] in *.
    pose proof W as (BT & _). pose proof (becomes_wf _ _ _ BT) as WT'. pose proof (becomes_nr _ _ _ BT) as RT'.
    pose proof (becomes_nc _ _ _ BT) as CT'. pose proof (becomes_ff _ _ _ BT) as FT'.
    pose proof (per_pos _ (wf_good _ WT')) as Pp.
    pose proof (mzed_window_ok T' 0 0 n n WT') as Wi. rewrite RT', CT', RT, CT in Wi.
    specialize (Wi ltac:(lia) ltac:(lia) (Nat.mod_0_l (per (mz_w T')) ltac:(lia))).
    destruct (mzed_window T' 0 0 n n) as [J| |]; try contradiction. cbn [wp bind] in *.
    destruct Wi as (J1 & J2 & J3 & J4 & J5 & J6 & J7). rewrite Nat.sub_0_r in *.
    exists T, I, J, T', r. split; [now rewrite CT', CT|]. split; [|split; [|split]].
    - repeat (split; [assumption|]). exact EI.
    - repeat (split; [assumption|]). intros i c Hi Hc. rewrite ET by easy. unfold aug. destruct (c <? n) eqn:E; [easy|]. apply EI; lia.
    - exact W.
    - split; [assumption|]. split; [congruence|]. split; [assumption|]. split; [assumption|].
      intros i c Hi Hc. rewrite J7 by (pose proof (wf_cap J J5); lia). reflexivity. }
  destruct Main as (T & I & J & T' & r & Eqn & (WI & FI & RI & CI & EI) & (WT & FT & RT & CT & ET) & (BT & Q & piv & He & Hr) & (WJ & FJ & RJ & CJ & EJ)).
  pose proof (becomes_wf _ _ _ BT) as WT'. pose proof (becomes_nr _ _ _ BT) as RT'.
  pose proof (becomes_nc _ _ _ BT) as CT'. pose proof (becomes_ff _ _ _ BT) as FT'.
  rewrite FT, RT, CT in *. assert (Q' : row_equiv (fld A) n (n + n) (aug n (entry A)) (entry T')).
  { eapply row_equiv_ext_l; [exact Q|exact ET]. }
  assert (HAm : inM (fld A) n n (entry A)) by (pose proof (wf_inM A HA) as X; now rewrite <- Sq in X).
  assert (Cmp : mzed_cmp I J = Eq <-> forall i j, i < n -> j < n -> entry T' i j = mone i j).
  { rewrite (mzed_cmp_ok I J) by (auto; congruence). rewrite RI, CI. split.
    - intros (_ & _ & E) i j Hi Hj. rewrite <- EJ by easy. rewrite <- E by easy. now apply EI.
    - intros E. split; [easy|]. split; [easy|]. intros i j Hi Hj. rewrite EI, EJ by easy. symmetry. now apply E. }
  assert (Fwd : mzed_cmp I J = Eq -> inverse (fld A) n (entry A) (fun i j => entry T' i (n + j))).
  { intros E. apply inv_from_left; auto. now apply Cmp. }
  rewrite Eqn. split.
  - intros (X & HX). assert (E : mzed_cmp I J = Datatypes.Eq).
    { apply Cmp. apply (left_from_inv (fld A) Hd Hirr n (entry A) X (entry T') r piv); auto.
      pose proof (wf_inM T' WT') as X0. now rewrite RT', CT', FT', FT in X0. }
    rewrite E. eapply wp_mono.
    + apply mzed_submatrix_ok; auto; try lia. rewrite FT', FT, Nat.sub_0_r. replace (n + n - n) with n by lia. now rewrite <- Sq in HB.
    + cbv beta. intros B' (B1 & B2 & B3 & B4 & B5). rewrite Nat.sub_0_r in *. replace (n + n - n) with n in * by lia.
      split; [easy|]. split; [congruence|]. split; [easy|]. split; [congruence|].
      destruct (Fwd E) as (V1 & V2 & V3 & V4).
      assert (M : meq n n (fun i j => entry T' i (n + j)) (entry B')).
      { intros i j Hi Hj. symmetry. now apply B5. }
      split; [easy|]. split; [|split].
      * now apply (inM_meq _ _ _ (fun i j => entry T' i (n + j))).
      * intros i j Hi Hj. rewrite <- (mmul_ext (fld A) n n n (entry A) (entry A) _ _ (meq_refl _ _ _) M) by easy. now apply V3.
      * intros i j Hi Hj. rewrite <- (mmul_ext (fld A) n n n _ _ (entry A) (entry A) M (meq_refl _ _ _)) by easy. now apply V4.
  - intros Hn. destruct (mzed_cmp I J) eqn:E; [|easy|easy]. exfalso. apply Hn. eexists. now apply Fwd.
Qed.
