(** Property theorems C69: the recursive triangular solvers reduce the problem to matrix products (README.md: "asymptotically fast
    TRiangular System solving with Matrices").  CostTrsm.v has the modelled functions with a log of the systems solved without recursion
    and the products; forgetting the log gives the functions of TrsmModel.v (erase_...). *)
From Coq Require Import NArith ZArith Lia List Bool Arith.
From Coq Require Import ZifyBool ZifyNat ZifyN.
From Verif Require Import Base Spec Gf2eModel MzdModel MzedModel MzedSpec SliceModel SliceSpec TrsmModel CostTrsm Demo PropMzed PropSlice PropTrsm.
Import ListNotations.
Local Open Scope nat_scope.

(** A bound for the cost of products (a x b by b x k) of the kind Strassen's algorithm gives: K 7^i if all sides are at most 2^i c + 128,
    q times as much if the first or the last side is q times as long. *)
Definition strassen_like (cost : nat -> nat -> nat -> nat) (K c : nat) : Prop := forall i q a b k, let s := 2 ^ i * c + 128 in
  b <= s -> (a <= s /\ k <= q * s) \/ (a <= q * s /\ k <= s) -> cost a b k <= q * (K * 7 ^ i).
(** An m x m system with n right hand sides: *)
Definition reduced_to_products (cutoff m n : nat) (l : list event) : Prop :=
  (** a small system, or one with few right hand sides, is solved at once; *)
  (m <= cutoff \/ n <= cutoff -> l = [Solve m n]) /\
  (** otherwise the systems solved are no larger than the cutoff, and the products are those of almost square blocks with n columns; *)
  (cutoff < n -> forall e, In e l ->
     match e with Solve s k => s <= cutoff /\ k = n | Product a b k => k = n /\ a <= b + 128 /\ b <= a + 128 /\ a + b <= m end) /\
  (** the systems have m rows in all, so that solving them takes at most cutoff * m * n operations; *)
  solved l = m /\
  (** their triangles and the blocks have as many entries as the triangle of the matrix: every entry is used once; *)
  area l = m * (m + 1) /\
  (** and for every such bound all products together cost at most two thirds of the bound for one product of the given size. *)
  (forall cost K c, strassen_like cost K c -> c + 128 <= cutoff ->
     forall j q, m <= 2 ^ j * c + 128 -> n <= q * (2 ^ j * c + 128) -> 3 * spent cost l <= 2 * (q * (K * 7 ^ j))).
Lemma plan_reduced cutoff m n l : 64 <= cutoff -> plan cutoff n m l -> reduced_to_products cutoff m n l.
Proof.
  intros Hc P. split; [|split; [|split; [|split]]].
  - intros H. destruct P; [reflexivity|lia].
  - intros Hn. exact (plan_events cutoff n m l Hc P Hn).
  - exact (plan_solved _ _ _ _ P).
  - exact (plan_area _ _ _ _ P).
  - intros cost K c H2 H1. apply (plan_spent cutoff n m l cost K c Hc H1); [|exact P]. intros i q a b Ha Hb Hn. apply H2; [exact Hb|]. left. now split.
Qed.
Lemma forget_inv {T} (m : tlog T) x : forget m = Ok x -> exists l, m = Ok (x, l).
Proof. unfold forget. destruct m as [[y l]| |]; cbn; intros E; try discriminate. injection E as <-. eauto. Qed.

Theorem C69_trsm : forall T B mulbs l2 cutoff, tri_input T B -> 16 <= mulbs -> (4096 <= l2)%Z -> 64 <= cutoff ->
  (exists X l, mzed_trsm_lower_left_ mulbs l2 T B cutoff = Ok X /\ mzed_trsm_lower_left_t mulbs l2 T B cutoff = Ok (X, l) /\
     reduced_to_products cutoff (mz_nrows B) (mz_ncols B) l) /\
  (exists X l, mzed_trsm_upper_left_ mulbs l2 T B cutoff = Ok X /\ mzed_trsm_upper_left_t mulbs l2 T B cutoff = Ok (X, l) /\
     reduced_to_products cutoff (mz_nrows B) (mz_ncols B) l).
Proof.
  intros T B mulbs l2 cutoff HI Hm Hl Hc. assert (Er : mz_nrows B = mz_nrows T). { destruct HI as (_ & _ & _ & _ & E1 & E2 & _). congruence. } split.
  - destruct (C30_trsm_lower T B HI) as (X0 & _ & _ & Q). destruct (Q mulbs l2 Hm Hl) as (_ & Q'). destruct (Q' cutoff Hc) as (X & E & _).
    pose proof E as E'. unfold mzed_trsm_lower_left_ in E'. rewrite <- erase_trsm_lower in E'. destruct (forget_inv _ _ E') as (l & El).
    exists X, l. split; [exact E|]. split; [exact El|]. apply plan_reduced; [exact Hc|]. rewrite Er. eapply plan_lower; eauto.
  - destruct (C30_trsm_upper T B HI) as (X0 & _ & _ & Q). destruct (Q mulbs l2 Hm Hl) as (_ & Q'). destruct (Q' cutoff Hc) as (X & E & _).
    pose proof E as E'. unfold mzed_trsm_upper_left_ in E'. rewrite <- erase_trsm_upper in E'. destruct (forget_inv _ _ E') as (l & El).
    exists X, l. split; [exact E|]. split; [exact El|]. apply plan_reduced; [exact Hc|]. rewrite Er. eapply plan_upper; eauto.
Qed.
Print Assumptions C69_trsm.
Theorem C69_slice_trsm : forall T B cutoff, stri_input T B -> 64 <= cutoff ->
  (exists X l, mzd_slice_trsm_lower_left_ T B cutoff = Ok X /\ mzd_slice_trsm_lower_left_t T B cutoff = Ok (X, l) /\
     reduced_to_products cutoff (sl_nrows B) (sl_ncols B) l) /\
  (exists X l, mzd_slice_trsm_upper_left_ T B cutoff = Ok X /\ mzd_slice_trsm_upper_left_t T B cutoff = Ok (X, l) /\
     reduced_to_products cutoff (sl_nrows B) (sl_ncols B) l).
Proof.
  intros T B cutoff HI Hc. assert (Er : sl_nrows B = sl_nrows T). { destruct HI as (_ & _ & _ & _ & _ & E1 & E2 & _). congruence. } split.
  - destruct (C30_slice_trsm_lower T B HI) as (X0 & _ & _ & _ & _ & Q). destruct (Q cutoff Hc) as (X & E & _).
    pose proof E as E'. unfold mzd_slice_trsm_lower_left_ in E'. rewrite <- erase_strsm_lower in E'. destruct (forget_inv _ _ E') as (l & El).
    exists X, l. split; [exact E|]. split; [exact El|]. apply plan_reduced; [exact Hc|]. rewrite Er. eapply splan_lower; eauto.
  - destruct (C30_slice_trsm_upper T B HI) as (X0 & _ & _ & _ & _ & Q). destruct (Q cutoff Hc) as (X & E & _).
    pose proof E as E'. unfold mzd_slice_trsm_upper_left_ in E'. rewrite <- erase_strsm_upper in E'. destruct (forget_inv _ _ E') as (l & El).
    exists X, l. split; [exact E|]. split; [exact El|]. apply plan_reduced; [exact Hc|]. rewrite Er. eapply splan_upper; eauto.
Qed.
Print Assumptions C69_slice_trsm.
(** the public functions use the cutoff 512 *)
Theorem C69_default : forall T B mulbs l2, mzed_trsm_lower_left mulbs l2 T B = mzed_trsm_lower_left_ mulbs l2 T B 512 /\
  mzed_trsm_upper_left mulbs l2 T B = mzed_trsm_upper_left_ mulbs l2 T B 512.
Proof. split; reflexivity. Qed.

(** [strassen_like] is met, for example by the exponent 5/2: *)
Example C69_strassen_like : strassen_like (fun a b k => a * k * Nat.sqrt b) (192 * 192 * 14) 64.
Proof.
  intros i q a b k s Hb H.
  assert (P0 : 1 <= 2 ^ i) by (apply Nat.neq_0_lt_0, Nat.pow_nonzero; lia).
  assert (S1 : s <= 192 * 2 ^ i) by (unfold s; lia). assert (S2 : s * s <= 192 * 192 * 4 ^ i).
  { replace (192 * 192 * 4 ^ i) with ((192 * 2 ^ i) * (192 * 2 ^ i)); [now apply Nat.mul_le_mono|]. change 4 with (2 * 2). rewrite Nat.pow_mul_l. ring. }
  assert (S3 : a * k <= q * (s * s)).
  { clear S1 S2. clearbody s. destruct H as [(Ha & Hk)|(Ha & Hk)]; [replace (q * (s * s)) with (s * (q * s)) by ring|replace (q * (s * s)) with ((q * s) * s) by ring]; now apply Nat.mul_le_mono. }
  assert (S4 : 4 ^ i * Nat.sqrt b <= 14 * 7 ^ i).
  { apply Nat.square_le_simpl_nonneg; [lia|]. pose proof (proj1 (Nat.sqrt_spec b (Nat.le_0_l b))) as Q.
    replace (4 ^ i * Nat.sqrt b * (4 ^ i * Nat.sqrt b)) with ((4 * 4) ^ i * (Nat.sqrt b * Nat.sqrt b)) by (rewrite Nat.pow_mul_l; ring).
    replace (14 * 7 ^ i * (14 * 7 ^ i)) with (196 * (7 * 7) ^ i) by (rewrite Nat.pow_mul_l; ring).
    apply Nat.le_trans with ((4 * 4) ^ i * (192 * 2 ^ i)). { apply Nat.mul_le_mono_l. lia. }
    replace ((4 * 4) ^ i * (192 * 2 ^ i)) with (192 * (16 * 2) ^ i) by (change (4 * 4) with 16; rewrite (Nat.pow_mul_l 16 2); ring).
    apply Nat.mul_le_mono; [lia|]. apply Nat.pow_le_mono_l. lia. }
  apply Nat.le_trans with (q * (192 * 192 * 4 ^ i) * Nat.sqrt b). { apply Nat.mul_le_mono_r. apply Nat.le_trans with (1 := S3). now apply Nat.mul_le_mono_l. }
  replace (q * (192 * 192 * 4 ^ i) * Nat.sqrt b) with (q * (192 * 192) * (4 ^ i * Nat.sqrt b)) by ring.
  replace (q * (192 * 192 * 14 * 7 ^ i)) with (q * (192 * 192) * (14 * 7 ^ i)) by ring. now apply Nat.mul_le_mono_l.
Qed.
(** a case with recursion: 130 rows, 66 right hand sides, cutoff 64 *)
Example C69_witness :
  (T <- mks 7 130 130 (fun i j => if i =? j then 3%N else if (j <? i) && Nat.odd (i * j) then 1%N else 0%N) ;; B <- mks 7 130 66 (fun i j => N.of_nat ((i + j) mod 4)) ;;
   x <- mzd_slice_trsm_lower_left_t T B 64 ;; Ok (snd x)) =
  Ok [Solve 64 66; Product 66 64 66; Solve 64 66; Product 2 64 66; Solve 2 66].
Proof. vm_compute. reflexivity. Qed.
