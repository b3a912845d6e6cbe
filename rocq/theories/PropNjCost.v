(** C66: the field multiplications of the algorithms with Newton-John tables.  README.md:11 claims a "row echelon form computation and matrix inversion via
    a Newton-John Table based algorithm using only O(n^2) field multiplications".  For products the claim holds: the tables cost (e - 1) multiplications of a
    row by a field element for every row of B.  For echelon forms it is false. *)
From Coq Require Import NArith Lia List Bool Arith.
From Coq Require Import ZifyBool ZifyNat ZifyN.
From Verif Require Import Base Spec LinSpec PolyFacts MatFacts Gf2xModel Gf2eModel Gf2eProofs MzdModel MzedModel MzedSpec LaneFacts MzedProofs MzedOps MzedOps2 NjModel EchNaive NjEch NjEch2.
From Verif Require Import CostModel CostNjModel CostProofs CostNjProofs CostNjWorst CostNjGeneric PropNj PropCost Demo.
Import ListNotations.
Local Open Scope nat_scope.

(** ** products *)
(** one pass over the rows of B, repeated for every block of rows of A: [mulbs] is __M4RIE_MUL_BLOCKSIZE *)
Definition nj_rows (mulbs w e m k : nat) : nat :=
  (e - 1) * (8 * (k / 8) * (if w * mulbs <=? m then m / (mulbs / w) + 1 else 1) + k mod 8).
Theorem C66_mul : forall mulbs C A B, 16 <= mulbs -> wf_mzed A -> wf_mzed B -> fld A = fld B -> mz_ncols A = mz_nrows B -> 0 < mz_ncols B ->
  target C (fld A) (mz_nrows A) (mz_ncols B) ->
  let e := ff_degree (mz_ff A) in
  let l := if mz_nrows A <? e then [(mz_nrows A, mz_ncols A, mz_ncols B)] else repeat (1, 1, mz_ncols B) (nj_rows mulbs (mz_w A) e (mz_nrows A) (mz_ncols A)) in
  (exists C', mzed_mul_newton_john mulbs C A B = Ok C' /\ mzed_mul_newton_john_l mulbs C A B = Ok (C', l)) /\
  (exists C', mzed_addmul_newton_john mulbs C A B = Ok C' /\ mzed_addmul_newton_john_l mulbs C A B = Ok (C', l)).
Proof.
  intros mulbs C A B Hb HA HB Ef En Hn HC e l. destruct (C22_mul_newton_john mulbs C A B Hb HA HB Ef En Hn HC) as [(C1 & E1 & _) (C2 & E2 & _)].
  assert (Ee : ff_degree (mz_ff B) = ff_degree (mz_ff A)).
  { destruct HA as ((_ & H & _) & _), HB as ((_ & H' & _) & _). cbv zeta in H, H'. rewrite Ef in H. apply Nat2N.inj. congruence. }
  assert (Hbw : 0 < mulbs / mz_w A).
  { apply Nat.div_str_pos. pose proof (wf_good A HA) as [X|[X|[X|X]]]; rewrite X; lia. }
  assert (G : forall D, logs (mzed_mul_newton_john_l_ mulbs D A B) (fun _ lg => lg = l)).
  { intros D. unfold l. destruct (Nat.ltb_spec (mz_nrows A) e) as [Hl|Hl].
    - unfold mzed_mul_newton_john_l_. fold e. replace (_ <? e) with true by lia. intros y lg. unfold mzed_mul_naive_l_. destruct (mzed_mul_naive_ D A B); cbn; try easy. now intros [= _ <-].
    - eapply logs_mono; [apply logs_mul_nj_; [exact Hbw|exact Hl]|]. cbv beta. intros _ lg H. apply calls_repeat in H. rewrite Ee in H. exact H. }
  assert (F : forall (ml : log mzed) m c, erase ml = m -> m = Ok c -> logs ml (fun _ lg => lg = l) -> ml = Ok (c, l)).
  { intros ml m c E Em H. rewrite Em in E. unfold erase in E. destruct ml as [[c' l']| |]; cbn in E; try discriminate E. injection E as ->. now rewrite (H c l' eq_refl). }
  split; [exists C1|exists C2]; (split; [assumption|]).
  - eapply F; [apply erase_mul_nj|exact E1|]. unfold mzed_mul_newton_john_l. apply logs_q, alw_true. intros D. apply G.
  - eapply F; [apply erase_addmul_nj|exact E2|]. unfold mzed_addmul_newton_john_l. apply logs_q, alw_true. intros D. apply G.
Qed.
(** and therefore at most (e - 1) n k field multiplications for an m x k by k x n product with e <= m < w mulbs, and at most e^2 times that many for few rows *)
Theorem C66_mul_quadratic : forall mulbs C A B, 16 <= mulbs -> wf_mzed A -> wf_mzed B -> fld A = fld B -> mz_ncols A = mz_nrows B -> 0 < mz_ncols B ->
  target C (fld A) (mz_nrows A) (mz_ncols B) -> mz_nrows A < mz_w A * mulbs ->
  exists C' l, mzed_mul_newton_john mulbs C A B = Ok C' /\ mzed_mul_newton_john_l mulbs C A B = Ok (C', l) /\
    mults l <= (ff_degree (mz_ff A) - 1) * (mz_ncols A * mz_ncols B).
Proof.
  intros mulbs C A B Hb HA HB Ef En Hn HC Hm. destruct (C66_mul mulbs C A B Hb HA HB Ef En Hn HC) as [(C' & E1 & E2) _]. exists C'. eexists. split; [exact E1|]. split; [exact E2|].
  destruct (Nat.ltb_spec (mz_nrows A) (ff_degree (mz_ff A))) as [Hl|Hl].
  - cbn [mults fold_right]. rewrite Nat.add_0_r, <- Nat.mul_assoc. apply Nat.mul_le_mono_r. lia.
  - rewrite (mults_calls (nj_rows mulbs (mz_w A) (ff_degree (mz_ff A)) (mz_nrows A) (mz_ncols A)) (mz_ncols B)) by (apply calls_repeat; reflexivity).
    unfold nj_rows. replace (mz_w A * mulbs <=? mz_nrows A) with false by lia. rewrite Nat.mul_1_r. pose proof (Nat.div_mod (mz_ncols A) 8 ltac:(lia)) as D. rewrite <- D. now rewrite Nat.mul_assoc.
Qed.
Print Assumptions C66_mul.
Print Assumptions C66_mul_quadratic.

(** ** echelon forms: no constant K bounds the number of field multiplications by K n^2.  [k0] stands for the value of m4ri_opt_k reduced to fit the cache,
    which is 6 or 7 for large matrices. *)
Theorem C66_quadratic_refuted : forall f k0 full K, irreducible f -> (2 <= pdeg f <= 16)%N -> 6 <= k0 <= 7 ->
  exists n A A' r l, holds A f n n bad /\ mzed_echelonize_newton_john k0 A full = Ok (A', r) /\ mzed_echelonize_newton_john_l k0 A full = Ok ((A', r), l) /\
    echelonises full A A' r /\ K * (n * n) < mults l.
Proof.
  intros f k0 full K Hirr Hf Hk. set (q := 16 * K + 3). set (n := 4 * q). exists n.
  destruct (mk_realises f n n bad Hf) as (A & _ & HA); [intros i c _ _; apply inF_bad; [exact Hirr|apply Hf]|]. exists A.
  pose proof HA as (H1 & H2 & H3 & H4 & H5). assert (Hirr' : irreducible (fld A)) by now rewrite H2.
  destruct (C27_echelonize_newton_john k0 A full H1 Hirr' ltac:(lia)) as (A' & r & E & HE). exists A', r.
  pose proof (erase_ech_nj k0 A full) as Er. rewrite E in Er. unfold erase in Er. destruct (mzed_echelonize_newton_john_l k0 A full) as [[y l]| |] eqn:El; cbn in Er; try discriminate Er. injection Er as ->.
  exists l. split; [exact HA|]. split; [exact E|]. split; [reflexivity|]. split; [exact HE|].
  assert (Hd : 2 <= ff_degree (mz_ff A) <= 16).
  { destruct H1 as ((_ & H & _) & _). cbv zeta in H. rewrite H2 in H. lia. }
  assert (Hkk : 2 <= nj_kk k0 (ff_degree (mz_ff A)) <= 6).
  { assert (Hq : 2 <= 6 * k0 / ff_degree (mz_ff A)) by (apply Nat.div_le_lower_bound; lia). unfold nj_kk. replace (_ =? 0) with false by lia. destruct (Nat.ltb_spec 6 (6 * k0 / ff_degree (mz_ff A))); lia. }
  pose proof (ech_worst f n full Hirr ltac:(lia) q k0 A eq_refl ltac:(unfold q; lia) Hkk H1 H2 H3 H4 H5 _ _ El) as L. cbv beta in L.
  eapply Nat.lt_le_trans; [|exact L]. replace (K * (n * n)) with (16 * K * (q * q)) by (unfold n; lia). rewrite <- (Nat.mul_assoc q q q).
  apply Nat.mul_lt_mono_pos_r; [apply Nat.mul_pos_pos|]; unfold q; lia.
Qed.
Print Assumptions C66_quadratic_refuted.
(** For matrices all whose leading blocks are invertible, so that every column of every block has its pivot at once, the claim holds: at most (kk + e - 1) min(m, n) n
    multiplications, where kk <= 6 is the number of columns of a block. *)
Theorem C66_quadratic_generic : forall k0 A full, wf_mzed A -> irreducible (fld A) -> k0 <= 7 ->
  (forall s, s <= mz_nrows A -> s <= mz_ncols A -> leading_independent (fld A) s (entry A)) ->
  exists A' r l, mzed_echelonize_newton_john k0 A full = Ok (A', r) /\ mzed_echelonize_newton_john_l k0 A full = Ok ((A', r), l) /\
    mults l <= Nat.min (mz_nrows A) (mz_ncols A) * ((nj_kk k0 (ff_degree (mz_ff A)) + (ff_degree (mz_ff A) - 1)) * mz_ncols A) /\
    nj_kk k0 (ff_degree (mz_ff A)) <= 6.
Proof.
  intros k0 A full HA Hirr Hk HL. destruct (C27_echelonize_newton_john k0 A full HA Hirr Hk) as (A' & r & E & _). exists A', r.
  pose proof (erase_ech_nj k0 A full) as Er. rewrite E in Er. unfold erase in Er. destruct (mzed_echelonize_newton_john_l k0 A full) as [[y l]| |] eqn:El; cbn in Er; try discriminate Er. injection Er as ->.
  exists l. split; [exact E|]. split; [reflexivity|]. split.
  - destruct (wf_deg2 A HA) as [_ Hd2]. refine (ech_generic (fld A) (mz_nrows A) (mz_ncols A) (entry A) Hirr _ _ HL full k0 A HA eq_refl eq_refl eq_refl _ Hk _ _ El); [|now apply wf_inM|reflexivity].
    destruct HA as ((_ & H & _) & _). cbv zeta in H. lia.
  - unfold nj_kk. destruct (_ =? 0); [lia|]. destruct (Nat.ltb_spec 6 (6 * k0 / ff_degree (mz_ff A))); lia.
Qed.
Print Assumptions C66_quadratic_generic.
(** and the inverse of such a matrix costs at most 2 (kk + e - 1) n^2 *)
Theorem C66_invert_generic : forall k0 B A, wf_mzed A -> irreducible (fld A) -> k0 <= 7 -> mz_nrows A = mz_ncols A -> target B (fld A) (mz_nrows A) (mz_ncols A) ->
  invertible (fld A) (mz_nrows A) (entry A) -> (forall s, s <= mz_nrows A -> leading_independent (fld A) s (entry A)) ->
  exists B' l, mzed_invert_newton_john k0 B A = Ok B' /\ mzed_invert_newton_john_l k0 B A = Ok (B', l) /\
    mults l <= 2 * (nj_kk k0 (ff_degree (mz_ff A)) + (ff_degree (mz_ff A) - 1)) * (mz_nrows A * mz_nrows A).
Proof.
  intros k0 B A HA Hirr Hk Sq HB Hi HL. destruct (proj1 (C28_invert k0 B A HA Hirr Hk Sq HB) Hi) as (B' & E & _). exists B'.
  pose proof (erase_invert_nj k0 B A) as Er. rewrite E in Er. unfold erase in Er. destruct (mzed_invert_newton_john_l k0 B A) as [[y l]| |] eqn:El; cbn in Er; try discriminate Er. injection Er as ->.
  exists l. split; [exact E|]. split; [reflexivity|]. revert B' l El E. set (n := mz_nrows A) in *. destruct (wf_deg2 A HA) as [Hff Hd2]. pose proof (wf_deg1 A HA) as Hd.
  assert (G : logs (mzed_invert_newton_john_l k0 B A) (fun _ l => mults l <= 2 * (nj_kk k0 (ff_degree (mz_ff A)) + (ff_degree (mz_ff A) - 1)) * (n * n))); [|intros B' l El _; exact (G B' l El)].
  unfold mzed_invert_newton_john_l. fold n. rewrite <- Sq. apply logs_q, alw_true. intros _. apply logs_q. eapply alw_mono; [apply alw_wp', (mzed_init_ok (mz_ff A) n n Hff Hd2)|]. cbv beta. intros I0 (_ & (W0 & F0 & R0 & C0 & _) & _).
  apply logs_q. eapply alw_mono; [apply alw_wp', (mzed_set_ui_ok I0 1 W0); rewrite F0; now apply inF1|]. cbv beta. intros I1 BI. pose proof (becomes_holds _ _ _ BI) as HI. rewrite F0, R0, C0 in HI. destruct HI as (WI & FI & RI & CI & EI).
  apply logs_q. pose proof (mzed_concat_ok None A I1 HA WI ltac:(congruence)) as W. fold n in W. rewrite RI, CI, <- Sq in W. specialize (W eq_refl Logic.I).
  eapply alw_mono; [apply alw_wp', W|]. clear W. cbv beta. intros T (WT & FT & RT & CT & ET).
  assert (Ed : ff_degree (mz_ff T) = ff_degree (mz_ff A)).
  { destruct HA as ((_ & H & _) & _), WT as ((_ & H' & _) & _). cbv zeta in H, H'. rewrite FT in H'. apply Nat2N.inj. congruence. }
  apply logs_bind. eapply logs_mono; [refine (ech_generic (fld A) n (n + n) (entry T) Hirr _ _ _ true k0 T WT FT RT CT _ Hk)|].
  - destruct HA as ((_ & H & _) & _). cbv zeta in H. lia.
  - rewrite <- FT, <- RT. replace (mz_nrows T + mz_nrows T) with (mz_ncols T) by congruence. now apply wf_inM.
  - intros s Hs _ v Hv Hz. apply (HL s Hs v Hv). intros j Hj. rewrite <- (Hz j Hj). apply xsum_ext. intros i Hi'. rewrite ET by lia. now replace (j <? n) with true by lia.
  - reflexivity.
  - cbv beta. intros [T' r] lg L. rewrite Ed in L. apply logs_q, alw_true. intros J. apply logs_quiet, alw_true. intros _. rewrite app_nil_r.
    eapply Nat.le_trans; [exact L|]. rewrite Nat.min_l by lia. set (k := nj_kk k0 _ + _). replace (2 * k * (n * n)) with (n * (k * (n + n))) by ring. apply le_n.
Qed.
Print Assumptions C66_invert_generic.
(** GF(8), 8 x 9 by 9 x 5: 18 rows of 5 entries; and the family [bad] for n = 8 and n = 16 over GF(4): rank 4 with 160 and rank 8 with 1056 multiplications *)
Example C66_witness :
  (A <- mk 0xb 8 9 (noise 3 1) ;; B <- mk 0xb 9 5 (noise 5 2) ;; r <- mzed_mul_newton_john_l 2048 None A B ;; Ok (snd r)) = Ok (repeat (1, 1, 5) 18).
Proof. vm_compute. reflexivity. Qed.
Example C66_witness_bad :
  (A <- mk 7 8 8 bad ;; r <- mzed_echelonize_newton_john_l 7 A true ;; B <- mk 7 16 16 bad ;; s <- mzed_echelonize_newton_john_l 7 B true ;; Ok (snd (fst r), mults (snd r), snd (fst s), mults (snd s))) = Ok (4, 160, 8, 1056).
Proof. vm_compute. reflexivity. Qed.
(** a matrix over GF(4) with invertible leading blocks that is not triangular, and its costs *)
Definition good2 : mat := of_rows [[2; 1]; [3; 1]]%N.
Example C66_witness_generic : (forall s, s <= 2 -> s <= 2 -> leading_independent 7 s good2) /\
  (A <- mk 7 2 2 good2 ;; r <- mzed_echelonize_newton_john_l 7 A true ;; s <- mzed_invert_newton_john_l 7 None A ;; Ok (to_rows (fst (fst r)), mults (snd r), mults (snd s))) = Ok ([[1; 0]; [0; 1]]%N, 9, 21).
Proof.
  split; [|vm_compute; reflexivity]. intros s Hs _ v Hv Hz.
  assert (F4 : forall x, inF 7 x -> x = 0%N \/ x = 1%N \/ x = 2%N \/ x = 3%N) by (intros x Hx; unfold inF in Hx; change (2 ^ pdeg 7)%N with 4%N in Hx; lia).
  assert (E1 : s = 0 \/ s = 1 \/ s = 2) by lia. destruct E1 as [->|[->| ->]]; intros i Hi; [lia| |].
  - specialize (Hz 0 ltac:(lia)). cbn [xsum] in Hz. replace i with 0 by lia. destruct (F4 _ (Hv 0 ltac:(lia))) as [E|[E|[E|E]]]; rewrite E in Hz; vm_compute in Hz; try discriminate Hz; exact E.
  - pose proof (Hz 0 ltac:(lia)) as Z0. pose proof (Hz 1 ltac:(lia)) as Z1. cbn [xsum] in Z0, Z1.
    destruct (F4 _ (Hv 0 ltac:(lia))) as [E|[E|[E|E]]], (F4 _ (Hv 1 ltac:(lia))) as [E'|[E'|[E'|E']]]; rewrite E, E' in Z0, Z1; vm_compute in Z0; try discriminate Z0; vm_compute in Z1; try discriminate Z1.
    destruct i as [|[|i]]; [exact E|exact E'|lia].
Qed.
