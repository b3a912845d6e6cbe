(** The multiplication dispatchers: the properties C24, C25, C48. *)
From Coq Require Import NArith ZArith Lia List Bool Arith.
From Verif Require Import Base Spec LinSpec PolyFacts MatFacts Gf2xModel Gf2eModel Gf2eProofs.
From Verif Require Import MzdModel MzedModel MzedSpec LaneFacts MzedProofs MzedOps MzedOps2 NjModel NjMul StrassenModel StrassenProofs StrassenMain Demo.
From Verif Require Import SliceModel SliceSpec KaraModel ConvModel ConvCling MulModel MulProofs.
Import ListNotations.
Local Open Scope nat_scope.

(** C24. [mulbs] is M4RI's multiplication block size, [l2] the size of the L2 cache in bytes; C, when
    given, is an object distinct from A and B.  Matrices with no columns are excluded (see C22). *)
Theorem C24_mul : forall mulbs l2 C A B, 16 <= mulbs -> (4096 <= l2)%Z -> wf_mzed A -> wf_mzed B ->
  ff_minpoly (mz_ff A) = ff_minpoly (mz_ff B) -> mz_ncols A = mz_nrows B -> 0 < mz_ncols B ->
  target C (ff_minpoly (mz_ff A)) (mz_nrows A) (mz_ncols B) ->
  exists C', mzed_mul mulbs l2 C A B = Ok C' /\
    holds C' (ff_minpoly (mz_ff A)) (mz_nrows A) (mz_ncols B) (mmul (ff_minpoly (mz_ff A)) (mz_ncols A) (entry A) (entry B)).
Proof.
  intros mulbs l2 C A B Hb Hl HA HB Ef En Hn HC. apply wp_iff. unfold mzed_mul. apply mzed_mul_init_ok; auto. intros D HD E1 E2 E3 _ ED _.
  assert (KD : holds D (fld A) (mz_nrows A) (mz_ncols B) (entry D)) by (split; [exact HD|]; now repeat split).
  eapply wp_mono; [apply mzed_mul_in_ok; auto; congruence|]. cbv beta. intros C' B'.
  eapply holds_ext; [exact (holds_becomes _ _ _ _ _ _ _ KD B')|]. intros i j Hi Hj. destruct (mul_big A B); [|reflexivity].
  unfold madd. rewrite ED by auto. destruct C; apply N.lxor_0_l.
Qed.
Print Assumptions C24_mul.
Theorem C24_addmul : forall mulbs l2 C A B, 16 <= mulbs -> (4096 <= l2)%Z -> wf_mzed A -> wf_mzed B ->
  ff_minpoly (mz_ff A) = ff_minpoly (mz_ff B) -> mz_ncols A = mz_nrows B -> 0 < mz_ncols B ->
  target C (ff_minpoly (mz_ff A)) (mz_nrows A) (mz_ncols B) ->
  exists C', mzed_addmul mulbs l2 C A B = Ok C' /\
    holds C' (ff_minpoly (mz_ff A)) (mz_nrows A) (mz_ncols B)
      (madd (match C with Some C => entry C | None => mzero end) (mmul (ff_minpoly (mz_ff A)) (mz_ncols A) (entry A) (entry B))).
Proof.
  intros mulbs l2 C A B Hb Hl HA HB Ef En Hn HC. apply wp_iff. unfold mzed_addmul. apply mzed_mul_init_ok; auto. intros D HD E1 E2 E3 _ ED _.
  assert (KD : holds D (fld A) (mz_nrows A) (mz_ncols B) (entry D)) by (split; [exact HD|]; now repeat split).
  eapply wp_mono; [apply mzed_addmul_in_ok; auto; congruence|]. cbv beta. intros C' B'.
  eapply holds_ext; [exact (holds_becomes _ _ _ _ _ _ _ KD B')|]. intros i j Hi Hj.
  unfold madd. rewrite ED by auto. destruct C; reflexivity.
Qed.
Print Assumptions C24_addmul.
(** incompatible operands or target: the process dies, whatever the sizes *)
Theorem C24_mismatch_dies : forall mulbs l2 C A B,
  mz_ncols A <> mz_nrows B \/ ff_minpoly (mz_ff A) <> ff_minpoly (mz_ff B) \/
  (exists C0, C = Some C0 /\ (ff_minpoly (mz_ff C0) <> ff_minpoly (mz_ff A) \/ mz_nrows C0 <> mz_nrows A \/ mz_ncols C0 <> mz_ncols B)) ->
  mzed_mul mulbs l2 C A B = Die /\ mzed_addmul mulbs l2 C A B = Die.
Proof.
  intros mulbs l2 C A B H. assert (K : forall clr, mzed_mul_init C A B clr = Die).
  { intros clr. unfold mzed_mul_init, same_ff. destruct (Nat.eqb_spec (mz_ncols A) (mz_nrows B)) as [E1|E1]; [|reflexivity].
    destruct (N.eqb_spec (ff_minpoly (mz_ff A)) (ff_minpoly (mz_ff B))) as [E2|E2]; [|reflexivity]. cbn [andb check bind].
    destruct H as [H|[H|(C0 & -> & H)]]; try contradiction.
    destruct (N.eqb_spec (ff_minpoly (mz_ff C0)) (ff_minpoly (mz_ff A))) as [E3|E3]; [|reflexivity].
    destruct (Nat.eqb_spec (mz_nrows C0) (mz_nrows A)) as [E4|E4]; [|reflexivity].
    destruct (Nat.eqb_spec (mz_ncols C0) (mz_ncols B)) as [E5|E5]; [|reflexivity]. destruct H as [H|[H|H]]; contradiction. }
  unfold mzed_mul, mzed_addmul. rewrite !K. now split.
Qed.
Print Assumptions C24_mismatch_dies.
Example C24_witness :
  (A <- mk 0xb 3 2 (noise 3 1) ;; B <- mk 0xb 2 3 (noise 5 2) ;; C <- mzed_mul 2048 262144 None A B ;; D <- mzed_addmul 2048 262144 (Some C) A B ;;
   E <- mzed_mul 2048 262144 (Some C) A B ;;
   Ok (to_rows A, to_rows B, to_rows C, to_rows D, to_rows E, match mzed_mul 2048 262144 None A C with Die => true | _ => false end)) =
  Ok ([[1; 2]; [4; 6]; [7; 2]], [[1; 3; 5]; [6; 1; 4]], [[6; 1; 6]; [6; 1; 7]; [0; 0; 5]], [[0; 0; 0]; [0; 0; 0]; [0; 0; 0]], [[6; 1; 6]; [6; 1; 7]; [0; 0; 5]], true)%N.
Proof. vm_compute. reflexivity. Qed.

(** C25: the kernel _mzed_mul overwrites its target below the threshold and accumulates above it *)
Theorem C25_mul_kernel_small : forall mulbs l2 C A B, 16 <= mulbs -> (4096 <= l2)%Z -> wf_mzed A -> wf_mzed B -> wf_mzed C ->
  ff_minpoly (mz_ff A) = ff_minpoly (mz_ff B) -> ff_minpoly (mz_ff C) = ff_minpoly (mz_ff A) -> mz_ncols A = mz_nrows B ->
  mz_nrows C = mz_nrows A -> mz_ncols C = mz_ncols B -> 0 < mz_ncols B -> mz_nrows A < 512 \/ mz_ncols A < 512 \/ mz_ncols B < 512 ->
  exists C', mzed_mul_ mulbs l2 C A B = Ok C' /\ becomes C C' (mmul (ff_minpoly (mz_ff A)) (mz_ncols A) (entry A) (entry B)).
Proof.
  intros mulbs l2 C A B Hb Hl HA HB HC Ef Ec En E1 E2 Hn H. apply wp_iff. eapply wp_mono; [apply mzed_mul_in_ok; auto|].
  cbv beta. intros C'. replace (mul_big A B) with false; [auto|]. unfold mul_big. symmetry. rewrite !andb_false_iff, !Nat.leb_gt. tauto.
Qed.
Print Assumptions C25_mul_kernel_small.
Theorem C25_mul_kernel_big_accumulates : forall mulbs l2 C A B, 16 <= mulbs -> (4096 <= l2)%Z -> wf_mzed A -> wf_mzed B -> wf_mzed C ->
  ff_minpoly (mz_ff A) = ff_minpoly (mz_ff B) -> ff_minpoly (mz_ff C) = ff_minpoly (mz_ff A) -> mz_ncols A = mz_nrows B ->
  mz_nrows C = mz_nrows A -> mz_ncols C = mz_ncols B -> 512 <= mz_nrows A -> 512 <= mz_ncols A -> 512 <= mz_ncols B ->
  exists C', mzed_mul_ mulbs l2 C A B = Ok C' /\ becomes C C' (madd (entry C) (mmul (ff_minpoly (mz_ff A)) (mz_ncols A) (entry A) (entry B))).
Proof.
  intros mulbs l2 C A B Hb Hl HA HB HC Ef Ec En E1 E2 H1 H2 H3. apply wp_iff. eapply wp_mono; [apply mzed_mul_in_ok; auto|].
  { eapply Nat.lt_le_trans; [|exact H3]. apply Nat.lt_0_succ. }
  cbv beta. intros C'. replace (mul_big A B) with true; [auto|]. unfold mul_big. symmetry. rewrite !andb_true_iff, !Nat.leb_le. tauto.
Qed.
Print Assumptions C25_mul_kernel_big_accumulates.
(** so for every field and all sizes >= 512 there is a call after which C is not A*B *)
Theorem C25_mul_kernel_refuted : forall mulbs l2 f m k n, 16 <= mulbs -> (4096 <= l2)%Z -> (2 <= pdeg f <= 16)%N -> 512 <= m -> 512 <= k -> 512 <= n ->
  exists C A B C', holds C f m n (fun _ _ => 1%N) /\ holds A f m k mzero /\ holds B f k n mzero /\ mzed_mul_ mulbs l2 C A B = Ok C' /\
    entry C' 0 0 = 1%N /\ mmul f k (entry A) (entry B) 0 0 = 0%N.
Proof.
  intros mulbs l2 f m k n Hb Hl Hf Hm Hk Hn.
  assert (one : inF f 1) by (unfold inF; apply N.pow_gt_1; [reflexivity|]; intros E; rewrite E in Hf; destruct Hf as [Hf _]; now apply Hf).
  assert (zero : inF f 0) by (eapply N.lt_trans; [|exact one]; reflexivity).
  destruct (mk_realises f m n (fun _ _ => 1%N) Hf ltac:(intros; exact one)) as (C & _ & HC).
  destruct (mk_realises f m k mzero Hf ltac:(intros; exact zero)) as (A & _ & HA).
  destruct (mk_realises f k n mzero Hf ltac:(intros; exact zero)) as (B & _ & HB).
  pose proof HA as (A1 & A2 & A3 & A4 & A5). pose proof HB as (B1 & B2 & B3 & B4 & B5). pose proof HC as (C1 & C2 & C3 & C4 & C5).
  destruct (C25_mul_kernel_big_accumulates mulbs l2 C A B Hb Hl A1 B1 C1) as (C' & E & Bc); try congruence.
  assert (Hm0 : 0 < m) by (eapply Nat.lt_le_trans; [|exact Hm]; apply Nat.lt_0_succ). assert (Hn0 : 0 < n) by (eapply Nat.lt_le_trans; [|exact Hn]; apply Nat.lt_0_succ).
  assert (Z0 : mmul f k (entry A) (entry B) 0 0 = 0%N).
  { unfold mmul. apply xsum_0. intros l Hl'. rewrite A5 by auto. apply fmul_0_l. }
  exists C, A, B, C'. split; [exact HC|]. split; [exact HA|]. split; [exact HB|]. split; [exact E|]. split; [|exact Z0].
  rewrite (becomes_entry _ _ _ _ _ Bc) by congruence. unfold madd. rewrite C5 by auto. rewrite A2, A4, Z0. reflexivity.
Qed.
Print Assumptions C25_mul_kernel_refuted.

(** C48: the target aliased with the left operand: the result is the zero matrix, for every A and B
    (the recursive Strassen case is not modelled) *)
Theorem C48_mul_alias_refuted : forall mulbs l2 A B, 16 <= mulbs -> (4096 <= l2)%Z -> wf_mzed A -> wf_mzed B ->
  ff_minpoly (mz_ff A) = ff_minpoly (mz_ff B) -> mz_ncols A = mz_nrows B -> mz_ncols A = mz_ncols B -> 0 < mz_ncols B ->
  match mzed_mul_alias mulbs l2 A B with
  | None => True
  | Some r => exists A', r = Ok A' /\ becomes A A' mzero
  end.
Proof.
  intros mulbs l2 A B Hb Hl HA HB Ef En Ec Hn. unfold mzed_mul_alias.
  destruct (proj1 (wp_iff _ _) (mzed_mul_init_ok (Some A) A B true HA HB Ef En (conj HA (conj eq_refl (conj eq_refl Ec))) (@Ok mzed)
              (fun D => becomes A D mzero) ltac:(intros D _ _ _ _ _ _ H; exact (H A eq_refl)))) as (A0 & E & B0).
  assert (E' : mzed_mul_init (Some A) A B true = Ok A0) by (revert E; destruct (mzed_mul_init (Some A) A B true); cbn [bind]; congruence).
  rewrite E'. pose proof (becomes_wf _ _ _ B0) as W0. pose proof (becomes_nr _ _ _ B0) as R0. pose proof (becomes_nc _ _ _ B0) as C0. pose proof (becomes_ff _ _ _ B0) as F0.
  assert (Hf : fld A0 = fld A) by congruence.
  assert (M0 : meq (mz_nrows A) (mz_ncols A) (mmul (fld A) (mz_ncols A) (entry A0) (entry B)) mzero).
  { intros i j Hi Hj. unfold mmul. apply xsum_0. intros l Hl'. rewrite (becomes_entry _ _ _ _ _ B0) by auto. apply fmul_0_l. }
  assert (E0 : meq (mz_nrows A) (mz_ncols A) (entry A0) mzero) by (intros i j Hi Hj; now apply (becomes_entry _ _ _ _ _ B0)).
  destruct (mul_big A0 B).
  - apply wp_iff. eapply wp_mono; [apply (mzed_addmul_karatsuba_in_ok (Some A0)); try congruence; auto; split; [exact W0|split; [reflexivity|split; congruence]]|].
    cbv beta. intros A' (_ & B'). eapply becomes_step; [exact B0|exact B'|]. rewrite Hf, C0. intros i j Hi Hj. unfold madd. rewrite E0, M0 by auto. reflexivity.
  - destruct ((mz_nrows A0 =? 0) && (mz_ncols A0 =? 0)); [exists A0; split; [reflexivity|exact B0]|].
    destruct (strassen_small A0 B (mzed_strassen_cutoff l2 A0)); [|exact Logic.I].
    apply wp_iff. assert (D2 : 2 <= ff_degree (mz_ff A0)) by (pose proof W0 as ((_ & _) & Ww & _); now destruct (degree_to_w_facts _ _ Ww) as (_ & _ & H2)).
    pose proof W0 as (Wf & _). apply wp_bind. eapply wp_mono; [apply (init_h (mz_ff A0) (mz_nrows A0) (mz_ncols A0) Wf D2)|]. cbv beta. intros D HD.
    assert (KA := holds_self A0 W0). assert (KB := holds_self B HB). rewrite <- Ef, <- Hf, <- En, <- Ec, <- C0 in KB.
    apply wp_bind. eapply wp_mono; [apply (nj_h mulbs D A0 B (fld A0) (mz_nrows A0) (mz_ncols A0) (mz_ncols A0)); [exact Hb|congruence|exact HD|exact KA|exact KB]|].
    cbv beta. intros D' BD. pose proof (holds_becomes _ _ _ _ _ _ _ HD BD) as HD'. destruct HD' as (W1 & F1 & R1 & C1 & H1).
    eapply wp_mono; [apply (mzed_copy_ok (Some A0) D' W1); split; [exact W0|split; [congruence|split; congruence]]|].
    cbv beta. intros A' (_ & B'). eapply becomes_step; [exact B0|exact (B' A0 eq_refl)|]. intros i j Hi Hj. rewrite H1 by congruence.
    rewrite Hf, C0. unfold madd. rewrite M0 by auto. reflexivity.
Qed.
Print Assumptions C48_mul_alias_refuted.
(** a reachable instance where A*B is not zero *)
Example C48_witness :
  (A <- mk 0xb 2 2 (noise 3 1) ;; match mzed_mul_alias 2048 262144 A A with Some r => (R <- r ;; P <- mzed_mul 2048 262144 None A A ;; Ok (to_rows R, to_rows P)) | None => UB end) =
  Ok ([[0; 0]; [0; 0]], [[2; 5]; [1; 1]])%N.
Proof. vm_compute. reflexivity. Qed.
