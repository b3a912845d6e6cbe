(** Properties C41 (products), C49 (sums), C50 (growing the number of coefficients), C51 (comparison, random filling):
    matrices over GF(2)[x], src/mzd_poly.h. *)
From Coq Require Import NArith ZArith Lia List Bool Arith.
From Coq Require Import ZifyBool ZifyNat ZifyN.
From Verif Require Import Base Spec LinSpec LaneFacts PolyFacts MatFacts MzdModel MzedModel MzedSpec MzedProofs MzedOps2 SliceModel SliceSpec MzdFacts SliceProofs SliceOps SliceMul KaraModel KaraProofs.
From Verif Require Import PolyMatModel PolyMatSpec PolyMatProofs.
Import ListNotations.
Local Open Scope nat_scope.

(** ** C41 *)
Theorem C41_addmul_naive : forall C A B, wf_mpoly A -> wf_mpoly B -> mp_ncols A = mp_nrows B -> ptarget C A B ->
  exists C', mzd_poly_addmul_naive C A B = Ok C' /\ padds_if (pclean B) C A B C'.
Proof. intros. apply wp_iff. now apply poly_naive_ok. Qed.
Theorem C41_addmul_balanced : forall C A B, wf_mpoly A -> wf_mpoly B -> mp_ncols A = mp_nrows B -> mp_depth A = mp_depth B -> 1 <= mp_depth A <= 16 -> ptarget C A B ->
  exists C', mzd_poly_addmul_karatsubs_balanced C A B = Ok C' /\ padds_if (pclean B \/ 2 <= mp_depth A) C A B C'.
Proof. intros. apply wp_iff. now apply poly_balanced_ok. Qed.
Theorem C41_balanced_unsupported : forall C A B, mp_depth A = mp_depth B -> mp_depth A = 0 \/ 16 < mp_depth A ->
  mzd_poly_addmul_karatsubs_balanced C A B = Die.
Proof. exact poly_balanced_die. Qed.
(** the two agree: what either computes does not depend on the algorithm *)
Theorem C41_algorithm_independent : forall C A B, wf_mpoly A -> wf_mpoly B -> mp_ncols A = mp_nrows B -> mp_depth A = mp_depth B -> 1 <= mp_depth A <= 16 -> ptarget C A B ->
  exists C1 C2, mzd_poly_addmul_naive C A B = Ok C1 /\ mzd_poly_addmul_karatsubs_balanced C A B = Ok C2 /\
    forall i c, i < mp_nrows A -> c < mp_ncols B -> pentry C1 i c = pentry C2 i c.
Proof.
  intros C A B HA HB En Ed Hd HC. destruct (C41_addmul_naive C A B HA HB En HC) as (C1 & E1 & H1). destruct (C41_addmul_balanced C A B HA HB En Ed Hd HC) as (C2 & E2 & H2).
  exists C1, C2. split; [exact E1|]. split; [exact E2|]. destruct (or_init_poly C A B HA HB HC) as (_ & N1 & N2 & _).
  destruct H1 as ((_ & _ & _ & _ & _ & H1) & _). destruct H2 as ((_ & _ & _ & _ & _ & H2) & _). intros i c Hi Hc. rewrite H1, H2 by (rewrite ?N1, ?N2; easy). reflexivity.
Qed.

(** ** C49.  [mzd_poly_add] is documented as "C += A + B".  It is not: the coefficients below the depth of A are
    overwritten by those of A + B, the others are left alone. *)
Theorem C49_add : forall C A B, wf_mpoly A -> wf_mpoly B -> wf_mpoly C -> mp_depth A = mp_depth B -> mp_depth A <= mp_depth C ->
  mp_nrows A = mp_nrows C -> mp_ncols A = mp_ncols C -> mp_nrows B = mp_nrows C -> mp_ncols B = mp_ncols C ->
  exists C', mzd_poly_add C A B = Ok C' /\ pbecomes C C' (fun i c =>
     N.lxor (N.lxor (pentry A i c) (pentry B i c)) (N.shiftl (N.shiftr (pentry C i c) (N.of_nat (mp_depth A))) (N.of_nat (mp_depth A)))).
Proof. intros. apply wp_iff. now apply poly_add_ok. Qed.
Theorem C49_add_depths : forall C A B, mp_depth A <> mp_depth B \/ mp_depth C < mp_depth A -> mzd_poly_add C A B = UB.
Proof. intros C A B H. unfold mzd_poly_add. replace ((mp_depth A <=? mp_depth C) && (mp_depth A =? mp_depth B)) with false by lia. reflexivity. Qed.
Definition demo_poly (d m n : nat) (F : nat -> nat -> N) : res mpoly :=
  mzd_poly_randomize (fun k i c => N.testbit (F i c) (N.of_nat k)) (mzd_poly_init d m n).
Definition rows_of (A : mpoly) : list (list N) := map (fun i => map (fun c => pentry A i c) (seq 0 (mp_ncols A))) (seq 0 (mp_nrows A)).

Theorem C49_documented_sum_refuted :
  ~ (forall C A B, wf_mpoly A -> wf_mpoly B -> wf_mpoly C -> mp_depth A = mp_depth B -> mp_depth A = mp_depth C ->
       mp_nrows A = mp_nrows C -> mp_ncols A = mp_ncols C -> mp_nrows B = mp_nrows C -> mp_ncols B = mp_ncols C ->
       exists C', mzd_poly_add C A B = Ok C' /\ forall i c, i < mp_nrows C -> c < mp_ncols C ->
         pentry C' i c = N.lxor (pentry C i c) (N.lxor (pentry A i c) (pentry B i c))).
Proof.
  intros H. pose (Z := mzd_poly_init 0 1 1). pose (C := Mpoly 1 1 1 1 [mzd_build (mzd_init 1 1) (fun _ _ => true)]).
  assert (HZ : wf_mpoly Z) by apply init_wf.
  assert (HC : wf_mpoly C).
  { split; [reflexivity|]. split; [cbn; lia|]. intros M [<-|[]]. pose proof (mset_build (mzd_init 1 1) (fun _ _ => true) (wf_init 1 1)) as (W & R1 & R2 & _). split; [exact W|]. split; [exact R1|exact R2]. }
  destruct (H C Z Z HZ HZ HC eq_refl eq_refl eq_refl eq_refl eq_refl eq_refl) as (C' & E & F). specialize (F 0 0 ltac:(cbn; lia) ltac:(cbn; lia)).
  vm_compute in E. injection E as <-. vm_compute in F. discriminate F.
Qed.

(** ** C50.  [_mzd_poly_adapt_depth] works up to the allocated number of coefficients and writes beyond the
    array x afterwards: it never reallocates. *)
Theorem C50_adapt_depth : forall A d, wf_mpoly A -> d <= mp_cap A -> exists A', mzd_poly_adapt_depth A d = Ok A' /\ resized A A' d.
Proof. intros. apply wp_iff. now apply poly_adapt_ok. Qed.
Theorem C50_adapt_depth_overflows : forall A d, wf_mpoly A -> mp_cap A < d -> mzd_poly_adapt_depth A d = UB.
Proof. exact poly_adapt_overflow. Qed.
(** so that a matrix fresh from mzd_poly_init cannot grow at all *)
Theorem C50_adapt_depth_refuted : ~ (forall A d, wf_mpoly A -> exists A', mzd_poly_adapt_depth A d = Ok A' /\ mp_depth A' = d).
Proof.
  intros H. destruct (H (mzd_poly_init 3 2 2) 5 (init_wf 3 2 2)) as (A' & E & _). rewrite C50_adapt_depth_overflows in E; [discriminate E|apply init_wf|cbn; lia].
Qed.

(** ** C51 *)
Lemma cmp_small a b : In (Z.lor a (cmp_int b)) [-1; 0; 1]%Z \/ ~ In a [-1; 0; 1]%Z.
Proof. destruct b; cbn [cmp_int]; destruct (Z.eq_dec a 0) as [->|]; [left; cbn; tauto| | left; cbn; tauto | |left; cbn; tauto|]; (destruct (Z.eq_dec a 1) as [->|]; [left; cbn; tauto|]); (destruct (Z.eq_dec a (-1)) as [->|]; [left; cbn; tauto|]); right; cbn; intuition congruence. Qed.
Theorem C51_cmp : forall A B, wf_mpoly A -> wf_mpoly B -> 1 <= mp_depth A ->
  exists r, mzd_poly_cmp A B = Ok r /\ In r [-1; 0; 1]%Z /\
   (r = 0%Z <-> mp_depth A = mp_depth B /\ mp_nrows A = mp_nrows B /\ mp_ncols A = mp_ncols B /\
      forall i c, i < mp_nrows A -> c < mp_ncols A -> pentry A i c = pentry B i c).
Proof.
  intros A B HA HB Hd. unfold mzd_poly_cmp. destruct (Nat.eqb_spec (mp_depth A) (mp_depth B)) as [Ed|Nd]; cbn [negb].
  2:{ destruct (Nat.ltb_spec (mp_depth A) (mp_depth B)); eexists; (split; [reflexivity|]); (split; [cbn; tauto|]); split; try discriminate; intros (E & _); lia. }
  pose proof HA as (LA & _ & SA). pose proof HB as (LB & _ & SB). pose proof (wfp_shape A HA) as ShA. pose proof (wfp_shape B HB) as ShB.
  assert (W : wp (for_ 0 (mp_depth A) (fun i r => a <- lget (mp_x A) i ;; b <- lget (mp_x B) i ;; Ok (Z.lor r (cmp_int (mzd_cmp a b)))) 0%Z)
     (fun r => In r [-1; 0; 1]%Z /\ (r = 0%Z <-> forall b, b < mp_depth A -> mzd_cmp (nth b (mp_x A) dm) (nth b (mp_x B) dm) = Eq))).
  { apply (wp_for (fun k r => In r [-1; 0; 1]%Z /\ (r = 0%Z <-> forall b, b < k -> mzd_cmp (nth b (mp_x A) dm) (nth b (mp_x B) dm) = Eq))); [lia|split; [cbn; tauto|split; [intros; lia|easy]]|].
    intros j r Hj (Hr0 & Hr). rewrite (lget_ok (mp_x A) j dm), (lget_ok (mp_x B) j dm) by lia. cbn [bind wp]. split.
    { destruct (cmp_small r (mzd_cmp (nth j (mp_x A) dm) (nth j (mp_x B) dm))); [assumption|contradiction]. }
    rewrite Z.lor_eq_0_iff, Hr. split.
    - intros [H1 H2] b Hb. destruct (Nat.eq_dec b j) as [->|Hne]; [now destruct (mzd_cmp _ _)|apply H1; lia].
    - intros H. split; [intros b Hb; apply H; lia|]. now rewrite H by lia. }
  apply wp_iff in W. destruct W as (r & E & Hin & Hr). exists r. split; [exact E|]. split; [exact Hin|]. rewrite Hr. clear E Hin Hr r. split.
  - intros H. split; [exact Ed|]. pose proof (H 0 ltac:(lia)) as H0. apply mzd_cmp_eq in H0. destruct H0 as (N1 & N2 & _).
    destruct (ShA 0 ltac:(lia)) as (_ & A1 & A2). destruct (ShB 0 ltac:(lia)) as (_ & B1 & B2). split; [congruence|]. split; [congruence|].
    intros i c Hi Hc. rewrite !pentry_pv. unfold pv. rewrite LA, LB, <- Ed. apply word_of_bits_ext. intros b Hb.
    pose proof (H b Hb) as Hb'. apply mzd_cmp_eq in Hb'. destruct Hb' as (_ & _ & Hb'). destruct (ShA b ltac:(lia)) as (_ & A1' & A2'). apply Hb'; lia.
  - intros (_ & N1 & N2 & H) b Hb. destruct (ShA b ltac:(lia)) as (_ & A1 & A2). destruct (ShB b ltac:(lia)) as (_ & B1 & B2).
    apply mzd_cmp_eq. split; [congruence|]. split; [congruence|]. intros i k Hi Hk.
    assert (G : forall X, wf_mpoly X -> b < mp_depth X -> mbit (nth b (mp_x X) dm) i k = N.testbit (pentry X i k) (N.of_nat b)).
    { intros X (LX & _) HX. rewrite pentry_pv. unfold pv. rewrite testbit_word_of_bits, LX. now replace (b <? mp_depth X) with true by lia. }
    rewrite (G A HA Hb), (G B HB) by lia. rewrite H by lia. reflexivity.
Qed.
(** the result is no order: unequal matrices can each be "smaller" than the other (the library says as much) *)
Theorem C51_cmp_no_order_refuted : ~ (forall A B, wf_mpoly A -> wf_mpoly B -> mzd_poly_cmp A B = Ok (-1)%Z -> mzd_poly_cmp B A = Ok 1%Z).
Proof.
  intros H. pose (one := mzd_build (mzd_init 1 1) (fun _ _ => true)). pose (nil := mzd_init 1 1).
  assert (W : forall x y, (x = one \/ x = nil) -> (y = one \/ y = nil) -> wf_mpoly (Mpoly 1 1 2 2 [x; y])).
  { intros x y Hx Hy. assert (P : forall z, z = one \/ z = nil -> wf_mzd z /\ mzd_nrows z = 1 /\ mzd_ncols z = 1).
    { intros z [->| ->]; [|split; [apply wf_init|split; reflexivity]]. pose proof (mset_build (mzd_init 1 1) (fun _ _ => true) (wf_init 1 1)) as (W & R1 & R2 & _). split; [exact W|split; [exact R1|exact R2]]. }
    split; [reflexivity|]. split; [cbn; lia|]. intros M [<-|[<-|[]]]; now apply P. }
  specialize (H _ _ (W one nil (or_introl eq_refl) (or_intror eq_refl)) (W nil one (or_intror eq_refl) (or_introl eq_refl))). vm_compute in H. specialize (H eq_refl). discriminate H.
Qed.
(** whatever the random source returns *)
Theorem C51_randomize : forall rnd A, wf_mpoly A ->
  exists A', mzd_poly_randomize rnd A = Ok A' /\ pbecomes A A' (fun i c => word_of_bits (mp_depth A) (fun k => rnd k i c)).
Proof.
  intros rnd A HA. apply wp_iff. unfold mzd_poly_randomize. pose proof HA as (LA & _). pose proof (wfp_shape A HA) as SA. apply wp_bind.
  eapply wp_mono; [apply (wp_each (mp_depth A) (fun i x => Ok (mzd_randomize (rnd i) x)) (mp_x A) (fun i x => mset (nth i (mp_x A) dm) x (rnd i)))|].
  - lia.
  - intros i Hi. cbn [wp]. apply mset_build. now apply SA; lia.
  - cbv beta. intros x (Lx & Hx & _). cbn [wp]. apply lbec_pbec; [exact HA| |].
    + split; [exact Lx|]. intros b Hb. eapply mset_ext; [apply Hx; lia|]. cbv beta. intros i k _ _. rewrite testbit_word_of_bits. now replace (b <? mp_depth A) with true by lia.
    + intros i c _ _. apply word_of_bits_lt.
Qed.

Print Assumptions C41_addmul_naive.
Print Assumptions C41_addmul_balanced.
Print Assumptions C41_algorithm_independent.
Print Assumptions C49_add.
Print Assumptions C50_adapt_depth.
Print Assumptions C51_cmp.
Print Assumptions C51_randomize.

(** concrete instances: (1+x)·x^2 …; a 2×2 product with three coefficients each, into NULL and into a larger C *)
Example C41_witness :
  (A <- demo_poly 2 2 2 (fun i c => N.of_nat (3 * i + 2 * c + 1)) ;; B <- demo_poly 2 2 2 (fun i c => N.of_nat (7 - i - 2 * c)) ;;
   C1 <- mzd_poly_addmul_naive None A B ;; C2 <- mzd_poly_addmul_karatsubs_balanced None A B ;; C3 <- mzd_poly_addmul_naive (Some C1) A B ;;
   Ok (rows_of A, rows_of B, rows_of C1, rows_of C2, rows_of C3, mp_depth C1)) =
  Ok ([[1; 3]; [4; 6]]%N, [[7; 5]; [6; 4]]%N, [[13; 9]; [8; 12]]%N, [[13; 9]; [8; 12]]%N, [[0; 0]; [0; 0]]%N, 6).
Proof. vm_compute. reflexivity. Qed.
Example C49_witness :
  (A <- demo_poly 1 1 2 (fun i c => N.of_nat (c + 1)) ;; B <- demo_poly 1 1 2 (fun i c => 3%N) ;; C <- demo_poly 3 1 2 (fun i c => 15%N) ;;
   C1 <- mzd_poly_add C A B ;; Ok (rows_of C1)) = Ok [[14; 13]]%N.
Proof. vm_compute. reflexivity. Qed.
Example C50_witness : (A <- demo_poly 3 1 2 (fun i c => 13%N) ;; A1 <- mzd_poly_adapt_depth A 3 ;; A2 <- mzd_poly_adapt_depth A1 4 ;; Ok (rows_of A1, rows_of A2, mp_depth A2)) = Ok ([[5; 5]]%N, [[5; 5]]%N, 4).
Proof. vm_compute. reflexivity. Qed.
Example C51_witness : (A <- demo_poly 2 1 2 (fun i c => N.of_nat (c + 1)) ;; B <- demo_poly 2 1 2 (fun i c => 3%N) ;; r1 <- mzd_poly_cmp A B ;; r2 <- mzd_poly_cmp A A ;; Ok (r1, r2)) = Ok ((-1)%Z, 0%Z).
Proof. vm_compute. reflexivity. Qed.
