(** C67: the products to which Strassen's algorithm reduces a product of matrices of any size: O(n^(log2 7)) (README.md:9). *)
From Coq Require Import NArith ZArith Lia List Bool Arith.
From Coq Require Import ZifyBool ZifyNat ZifyN.
From Verif Require Import Base Spec LinSpec Gf2eModel Gf2eProofs MzdModel MzedModel MzedSpec LaneFacts MzedProofs MzedOps MzedOps2 StrassenModel.
From Verif Require Import CostModel CostNjModel CostProofs CostStrassen PropStrassen PropCost Demo.
Import ListNotations.
Local Open Scope nat_scope.

(** The logged version returns the sizes of the products by Newton-John tables; [mults] adds up the number m k n of multiplications of field elements that the
    schoolbook would need for each of them.  For an m x k by k x n product with m, k, n <= 2^j c, where c is the cutoff, they add up to at most 8 (c + 64/w) c^2 7^j.
    For the least such j and the largest dimension d, 7^j <= 7 (d/c)^(log2 7). *)
Theorem C67_strassen_volume : forall mulbs C A B c j, 16 <= mulbs -> wf_mzed A -> wf_mzed B -> ff_minpoly (mz_ff A) = ff_minpoly (mz_ff B) -> mz_ncols A = mz_nrows B -> 0 < mz_ncols B ->
  target C (ff_minpoly (mz_ff A)) (mz_nrows A) (mz_ncols B) -> 3 * (64 / mz_w A) <= 2 * c ->
  mz_nrows A <= 2 ^ j * c -> mz_ncols A <= 2 ^ j * c -> mz_ncols B <= 2 ^ j * c ->
  (exists C' l, mzed_mul_strassen mulbs C A B (Z.of_nat c) = Ok C' /\ mzed_mul_strassen_l mulbs C A B (Z.of_nat c) = Ok (C', l) /\ mults l <= 8 * (c + 64 / mz_w A) * (c * c) * 7 ^ j) /\
  (exists C' l, mzed_addmul_strassen mulbs C A B (Z.of_nat c) = Ok C' /\ mzed_addmul_strassen_l mulbs C A B (Z.of_nat c) = Ok (C', l) /\ mults l <= 8 * (c + 64 / mz_w A) * (c * c) * 7 ^ j).
Proof.
  intros mulbs C A B c j Hb HA HB Ef En Hn0 HC Hc Lm Lk Ln.
  destruct (C23_mul_strassen mulbs C A B (Z.of_nat c) Hb HA HB Ef En Hn0 HC ltac:(lia)) as [(C1 & E1 & _) (C2 & E2 & _)].
  set (w := mz_w A) in *. assert (Hw : 64 / w <> 0) by (pose proof (wf_good A HA) as [X|[X|[X|X]]]; unfold w; rewrite X; cbn; lia). assert (Hc0 : 0 < c) by lia.
  assert (ZA := wf_zd A w HA eq_refl).
  assert (Ew : forall X, wf_mzed X -> ff_minpoly (mz_ff X) = ff_minpoly (mz_ff A) -> mz_w X = w) by (intros X HX EX; now apply same_w).
  assert (ZB := wf_zd B w HB (Ew B HB (eq_sym Ef))). rewrite <- En in ZB.
  assert (ZI : zd w (mz_nrows A) (mz_ncols B) (Mzed (mz_ff A) w (mz_nrows A) (mz_ncols B) (mz_x A))) by (destruct ZA as (H & _); repeat split; assumption).
  assert (ZC : match C with Some C => zd w (mz_nrows A) (mz_ncols B) C | None => True end).
  { destruct C as [C|]; [|exact Logic.I]. destruct HC as (X1 & X2 & X3 & X4). rewrite <- X3, <- X4. apply wf_zd; auto. }
  assert (F : forall (ml : log mzed) m D, erase ml = m -> m = Ok D -> logs ml (fun _ lg => vol w c j lg) -> exists l, ml = Ok (D, l) /\ mults l <= 8 * (c + 64 / w) * (c * c) * 7 ^ j).
  { intros ml m D E Em H. rewrite Em in E. unfold erase in E. destruct ml as [[D' l]| |]; cbn in E; try discriminate E. injection E as ->. exists l. split; [reflexivity|].
    specialize (H D l eq_refl). unfold vol in H. replace (8 * (c + 64 / w) * (c * c) * 7 ^ j) with (7 ^ j * (8 * (c * c * c) + 8 * (64 / w) * (c * c))) by ring. eapply Nat.le_trans; [apply Nat.le_add_r|exact H]. }
  split.
  - exists C1. destruct (F (mzed_mul_strassen_l mulbs C A B (Z.of_nat c)) _ C1 (erase_mul_strassen _ _ _ _ _) E1) as (l & X1 & X2); [|exists l; auto].
    unfold mzed_mul_strassen_l. apply logs_q. eapply alw_mono; [apply (mul_init_zd C A B true _ _ _ ZI ZC)|]. intros D HD.
    eapply logs_mono; [apply (logs_strassen_vol w c Hc0 Hw mulbs j _ (mz_nrows A) (mz_ncols A) (mz_ncols B)); assumption|]. now intros _ lg [_ H].
  - exists C2. destruct (F (mzed_addmul_strassen_l mulbs C A B (Z.of_nat c)) _ C2 (erase_addmul_strassen _ _ _ _ _) E2) as (l & X1 & X2); [|exists l; auto].
    unfold mzed_addmul_strassen_l. apply logs_q. eapply alw_mono; [apply (mul_init_zd C A B false _ _ _ ZI ZC)|]. intros D HD.
    eapply logs_mono; [apply (logs_addstrassen_vol w c Hc0 Hw mulbs j _ (mz_nrows A) (mz_ncols A) (mz_ncols B)); assumption|]. now intros _ lg [_ H].
Qed.
Print Assumptions C67_strassen_volume.
(** 37 x 35 by 35 x 41 over GF(16), cutoff 24: seven products of 16 x 16 and three for the borders; 24 <= c, all sizes <= 2^1 * 24 *)
Example C67_witness :
  (A <- mk 0x13 37 35 (noise 3 1) ;; B <- mk 0x13 35 41 (noise 1 2) ;; r <- mzed_mul_strassen_l 2048 None A B 24 ;; Ok (snd r)) =
  Ok (repeat (16, 16, 16) 7 ++ [(37, 35, 9); (5, 35, 32); (32, 3, 32)]).
Proof. vm_compute. reflexivity. Qed.
