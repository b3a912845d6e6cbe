(** Property theorems C70: the recursive PLE decomposition reduces the problem to matrix products (README.md: "asymptotically fast row
    echelon form computation and matrix inversion via PLE decomposition").  CostPle.v has the modelled functions with a log of the matrices
    decomposed without recursion, the systems solved without recursion and the products; forgetting the log gives the functions of
    PleModel.v (erase_ple, erase_mzed_ple). *)
From Coq Require Import NArith ZArith Lia List Bool Arith.
From Coq Require Import ZifyBool ZifyNat ZifyN.
From Verif Require Import Base Spec Gf2eModel MzdModel MzedModel MzedSpec SliceModel SliceSpec ConvModel ConvSlice LinSpec TrsmModel PermModel PleModel CostTrsm CostPle Demo PropMzed PropSlice PropTrsmCost PropPle PropEch.
Import ListNotations.
Local Open Scope nat_scope.

(** An m x n matrix of rank r with elements of w bits, decomposed with the cutoff c (bits): *)
Definition ple_reduced (w c m n r : nat) (l : list pwork) : Prop :=
  (** a small matrix is decomposed at once; *)
  (n <= 64 \/ w * n * m <= c -> l = [Decompose m n r]) /\
  (** otherwise it is cut into small ones, systems of at most 576 rows and products, all inside the matrix; *)
  (forall e, In e l -> match e with
     | Decompose a b k => (b <= 64 \/ w * b * a <= c) /\ a <= m /\ b <= n /\ k <= a /\ k <= b
     | Then (Solve s k) => s <= 576 /\ s + k <= n /\ s <= m
     | Then (Product a b k) => a + b <= m /\ b + k <= n end) /\
  (** every column is in one of the small matrices, whose ranks sum up to that of the matrix: decomposing them (area times rank) takes at
      most (64 m + c / w) r operations, *)
  dcols l = n /\ dranks l = r /\ w * dwork l <= (64 * w * m + c) * r /\
  (** solving the systems (576 times rows times right hand sides) at most 576 r n; *)
  rhs l <= r * n /\
  (** and for every bound for products of the kind Strassen's algorithm gives (C69), all products together cost at most twice the bound for
      one product of an m x n and an n x n matrix. *)
  (forall cost K, strassen_like cost K 64 -> forall j q, n <= 2 ^ j * 64 + 128 -> m <= q * (2 ^ j * 64 + 128) -> pspent cost l <= 2 * (q * (K * 7 ^ j))).
Lemma pplan_reduced w c m n r l : pplan w c m n r l -> ple_reduced w c m n r l.
Proof.
  intros P. split; [|split; [|split; [|split; [|split; [|split]]]]].
  - intros H. destruct P; [reflexivity|lia].
  - exact (pplan_events _ _ _ _ _ _ P).
  - apply (pplan_counts _ _ _ _ _ _ P).
  - apply (pplan_counts _ _ _ _ _ _ P).
  - apply (pplan_counts _ _ _ _ _ _ P).
  - apply (pplan_counts _ _ _ _ _ _ P).
  - intros cost K HK. apply (pplan_spent cost K) with (w := w) (c := c) (r := r); [| |exact P]; intros i q a b k Ha Hb Hk; apply HK; auto.
Qed.
Lemma drop_inv {T E} (m : res (T * list E)) x : drop m = Ok x -> exists l, m = Ok (x, l).
Proof. unfold drop. destruct m as [[y l]| |]; cbn; intros H; try discriminate. injection H as <-. eauto. Qed.

(** [cutoff] = 0 stands for the default, four times the L2 cache; the sizes are compared as 64 bit numbers *)
Theorem C70_slice_ple : forall l2 A P Q cutoff w c, irreducible (spoly A) -> (2 <= pdeg (spoly A))%N -> wf_slice A ->
  length P = sl_nrows A -> length Q = sl_ncols A -> (if cutoff =? 0 then 4 * l2 else cutoff)%Z = Z.of_nat c -> (Z.of_nat c < 2 ^ 64)%Z ->
  gf2e_degree_to_w (sl_ff A) = Ok w -> (Z.of_nat w * Z.of_nat (sl_ncols A) * Z.of_nat (sl_nrows A) < 2 ^ 64)%Z ->
  exists A' P' Q' r l, mzd_slice_ple_ l2 A P Q cutoff = Ok (A', P', Q', r) /\ mzd_slice_ple_t l2 A P Q cutoff = Ok ((A', P', Q', r), l) /\
    is_rank (spoly A) (sl_nrows A) (sl_ncols A) (sentry A) r /\ ple_reduced w c (sl_nrows A) (sl_ncols A) r l.
Proof.
  intros l2 A P Q cutoff w c Hirr Hd HA HP HQ Hc H64 Hw Hs. destruct (C34_slice_ple l2 A P Q cutoff Hirr Hd HA HP HQ) as ([[[A' P'] Q'] r] & E & D).
  destruct D as (_ & _ & _ & _ & Rk). pose proof E as E'. unfold mzd_slice_ple_ in E'. rewrite <- erase_ple in E'. destruct (drop_inv _ _ E') as (l & El).
  exists A', P', Q', r, l. split; [exact E|]. split; [exact El|]. split; [exact Rk|]. apply pplan_reduced. eapply ple_plan; eauto.
Qed.
Print Assumptions C70_slice_ple.
Theorem C70_ple : forall l2 A P Q cutoff c, irreducible (ff_minpoly (mz_ff A)) -> wf_mzed A ->
  length P = mz_nrows A -> length Q = mz_ncols A -> (if cutoff =? 0 then 4 * l2 else cutoff)%Z = Z.of_nat c -> (Z.of_nat c < 2 ^ 64)%Z ->
  (Z.of_nat (mz_w A) * Z.of_nat (mz_ncols A) * Z.of_nat (mz_nrows A) < 2 ^ 64)%Z ->
  exists A' P' Q' r l, mzed_ple_ l2 A P Q cutoff = Ok (A', P', Q', r) /\ mzed_ple_t l2 A P Q cutoff = Ok ((A', P', Q', r), l) /\
    is_rank (ff_minpoly (mz_ff A)) (mz_nrows A) (mz_ncols A) (entry A) r /\ ple_reduced (mz_w A) c (mz_nrows A) (mz_ncols A) r l.
Proof.
  intros l2 A P Q cutoff c Hirr HA HP HQ Hc H64 Hs. destruct (C34_mzed_ple l2 A P Q cutoff Hirr HA HP HQ) as ([[[A' P'] Q'] r] & E & D).
  destruct D as (_ & _ & _ & _ & Rk). pose proof E as E'. rewrite <- erase_mzed_ple in E'. destruct (drop_inv _ _ E') as (l & El).
  exists A', P', Q', r, l. split; [exact E|]. split; [exact El|]. split; [exact Rk|]. apply pplan_reduced.
  pose proof HA as (_ & Hw & _). unfold mzed_ple_t in El. rewrite Hw in El. cbn [bind] in El. fold (ple_cutoff l2 cutoff) in Hc. cbv zeta in El.
  destruct ((64 <? mz_ncols A) && _) eqn:Qb.
  - destruct (proj1 (wp_iff _ _) (mzed_slice_ok None A HA Logic.I)) as (a & Ea & (H1 & H2 & H3 & H4 & H5) & _). rewrite Ea in El. cbn [bind] in El.
    apply inv_bind in El. destruct El as ([[[[a' P1] Q1] r1] l1] & El & El'). step El' A2. injection El' as _ _ _ <- <-.
    rewrite <- H3, <- H4. eapply ple_plan; [exact H64|exact El| | | | |].
    + now rewrite cutoff_twice.
    + destruct H1 as ((_ & G1 & _) & _). destruct HA as ((_ & G2 & _) & _). rewrite <- Hw. unfold gf2e_degree_to_w. replace (ff_degree (sl_ff a)) with (ff_degree (mz_ff A)) by (rewrite H2 in G1; lia). reflexivity.
    + congruence.
    + congruence.
    + now rewrite H3, H4.
  - apply inv_bind in El. destruct El as ([[[A2 P2] Q2] r2] & El & El'). injection El' as _ _ _ <- <-. pose proof (ple_nj_le _ _ _ _ _ _ _ El).
    rewrite (size_exact _ _ _ Hs), Hc in Qb. unfold usize in Qb. rewrite Z.mod_small in Qb by lia. constructor; lia.
Qed.
Print Assumptions C70_ple.

(** The (reduced) row echelon form: a decomposition, and for the reduced form one or two triangular systems. *)
Definition ech_reduced (full : bool) (w c m n r : nat) (l : list pwork) : Prop :=
  exists l1 l2, l = l1 ++ l2 /\ ple_reduced w c m n r l1 /\ (full = false -> l2 = []) /\
    (** what comes after the decomposition: triangular systems with r rows in all and the columns from the last pivot block on *)
    (forall e, In e l2 -> match e with
       | Decompose _ _ _ => False
       | Then (Solve s k) => (s <= 512 \/ k <= 512) /\ s <= r /\ k + 64 * (r / 64) <= n
       | Then (Product a b k) => a + b <= r /\ k + 64 * (r / 64) <= n end) /\
    rhs l2 <= r * (n - 64 * (r / 64)) /\
    (** all products together cost at most 8/3 of the bound for one product of an m x n and an n x n matrix *)
    (forall cost K, strassen_like cost K 64 -> forall j q, n <= 2 ^ j * 64 + 128 -> m <= q * (2 ^ j * 64 + 128) -> 3 * pspent cost l <= 8 * (q * (K * 7 ^ j))).
Lemma ech_plan_reduced full w c m n r l1 lt : pplan w c m n r l1 -> (full = false -> lt = []) -> back n r lt -> ech_reduced full w c m n r (l1 ++ map Then lt).
Proof.
  intros P Hf B. destruct (pplan_bounds _ _ _ _ _ _ P) as (B1 & B2). destruct (back_facts n r lt B2 B) as (F1 & F2 & F3).
  exists l1, (map Then lt). split; [reflexivity|]. split; [now apply pplan_reduced|]. split; [intros E; now rewrite (Hf E)|]. split; [|split; [exact F1|]].
  - intros e He. apply in_map_iff in He. destruct He as (x & <- & Hx). exact (F2 x Hx).
  - intros cost K HK j q Hn Hm. rewrite pspent_app, then_spent.
    assert (X1 : pspent cost l1 <= 2 * (q * (K * 7 ^ j))) by (destruct (pplan_reduced _ _ _ _ _ _ P) as (_ & _ & _ & _ & _ & _ & X); now apply X).
    destruct (Nat.eq_dec r 0) as [->|R0].
    { assert (spent cost lt = 0); [|lia]. destruct B as [->|[(k & _ & P0)|(k & l0 & l1' & _ & P0 & P1 & ->)]]; [reflexivity| |].
      - apply (few_rows cost _ _ _ P0). lia.
      - rewrite spent_app, (few_rows cost _ _ _ P0), (few_rows cost _ _ _ P1) by lia. reflexivity. }
    assert (X2 : 3 * spent cost lt <= 2 * (K * 7 ^ j)). { apply F3; [|exact Hn]. intros i q' a b k Ha Hb Hk. apply HK; auto. }
    assert (Q1 : 1 <= q) by (destruct q; lia). assert (1 * (K * 7 ^ j) <= q * (K * 7 ^ j)) by now apply Nat.mul_le_mono_r.
    set (x := q * (K * 7 ^ j)) in *. set (y := K * 7 ^ j) in *. clearbody x y. lia.
Qed.
Theorem C70_slice_echelonize_ple : forall l2 A full w c, irreducible (spoly A) -> (2 <= pdeg (spoly A))%N -> wf_slice A ->
  (4 * l2 = Z.of_nat c)%Z -> (Z.of_nat c < 2 ^ 64)%Z -> gf2e_degree_to_w (sl_ff A) = Ok w -> (Z.of_nat w * Z.of_nat (sl_ncols A) * Z.of_nat (sl_nrows A) < 2 ^ 64)%Z ->
  exists A' r l, mzd_slice_echelonize_ple l2 A full = Ok (A', r) /\ mzd_slice_echelonize_ple_t l2 A full = Ok ((A', r), l) /\
    is_rank (spoly A) (sl_nrows A) (sl_ncols A) (sentry A) r /\ ech_reduced full w c (sl_nrows A) (sl_ncols A) r l.
Proof.
  intros l2 A full w c Hirr Hd HA Hc H64 Hw Hs. destruct (C34_slice_echelonize_ple l2 A full Hirr Hd HA) as (A' & r & E & _ & _ & _ & Rk & _).
  pose proof E as E'. rewrite <- erase_slice_echelonize in E'. destruct (drop_inv _ _ E') as (l & El). exists A', r, l. split; [exact E|]. split; [exact El|]. split; [exact Rk|].
  destruct (ech_plan l2 w c A full A' r l El Hc H64 Hw Hs) as (l1 & lt & -> & P & F & B). now apply ech_plan_reduced.
Qed.
Print Assumptions C70_slice_echelonize_ple.
Theorem C70_echelonize_ple : forall l2 A full c, irreducible (ff_minpoly (mz_ff A)) -> wf_mzed A ->
  (4 * l2 = Z.of_nat c)%Z -> (Z.of_nat c < 2 ^ 64)%Z -> (Z.of_nat (mz_w A) * Z.of_nat (mz_ncols A) * Z.of_nat (mz_nrows A) < 2 ^ 64)%Z ->
  exists A' r l, mzed_echelonize_ple l2 A full = Ok (A', r) /\ mzed_echelonize_ple_t l2 A full = Ok ((A', r), l) /\
    is_rank (ff_minpoly (mz_ff A)) (mz_nrows A) (mz_ncols A) (entry A) r /\ ech_reduced full (mz_w A) c (mz_nrows A) (mz_ncols A) r l.
Proof.
  intros l2 A full c Hirr HA Hc H64 Hs. destruct (C34_mzed_echelonize_ple l2 A full Hirr HA) as (A' & r & E & Hech).
  pose proof E as E'. rewrite <- erase_mzed_echelonize in E'. destruct (drop_inv _ _ E') as (l & El). exists A', r, l. split; [exact E|]. split; [exact El|]. split; [apply Hech|].
  unfold mzed_echelonize_ple_t in El. destruct (proj1 (wp_iff _ _) (mzed_slice_ok None A HA Logic.I)) as (a & Ea & (H1 & H2 & H3 & H4 & H5) & _). rewrite Ea in El. cbn [bind] in El.
  apply inv_bind in El. destruct El as ([[a' r1] l1] & El & El'). step El' A2. injection El' as _ <- <-.
  destruct (ech_plan l2 (mz_w A) c a full a' r1 l1 El Hc H64) as (l3 & lt & -> & P & F & B); [|now rewrite H3, H4|].
  - pose proof HA as ((_ & G2 & _) & Hw & _). destruct H1 as ((_ & G1 & _) & _). rewrite <- Hw. unfold gf2e_degree_to_w.
    replace (ff_degree (sl_ff a)) with (ff_degree (mz_ff A)) by (rewrite H2 in G1; lia). reflexivity.
  - rewrite H3, H4 in P. rewrite H4 in B. now apply ech_plan_reduced.
Qed.
Print Assumptions C70_echelonize_ple.

(** a case with recursion: a 20 x 140 matrix over GF(4), cutoff 100 bits; the second quarter is zero *)
Example C70_witness :
  (A <- mks 7 20 140 (fun i j => if j <? 64 then N.of_nat ((i mod 3 + 1) * (j mod 5) mod 4) else if j <? 128 then (if i =? 15 then 1%N else 0%N) else N.of_nat ((i * i + j * i) mod 4)) ;;
   x <- mzd_slice_ple_t 0 A (repeat 0 20) (repeat 0 140) 100 ;; let '((_, _, _, r), l) := x in Ok (r, l)) =
  Ok (5, [Decompose 20 64 2; Then (Solve 2 76); Then (Product 18 2 76); Decompose 18 64 1; Then (Solve 1 12); Then (Product 17 1 12); Decompose 17 12 2]).
Proof. vm_compute. reflexivity. Qed.
(** and its reduced echelon form: back substitution for 5 pivots and the columns from the first block on, in two parts *)
Example C70_ech_witness :
  (A <- mks 7 20 140 (fun i j => if j <? 64 then N.of_nat ((i mod 3 + 1) * (j mod 5) mod 4) else if j <? 128 then (if i =? 15 then 1%N else 0%N) else N.of_nat ((i * i + j * i) mod 4)) ;;
   x <- mzd_slice_echelonize_ple_t 25 A true ;; let '((_, r), l) := x in Ok (r, l)) =
  Ok (5, [Decompose 20 64 2; Then (Solve 2 76); Then (Product 18 2 76); Decompose 18 64 1; Then (Solve 1 12); Then (Product 17 1 12); Decompose 17 12 2;
          Then (Solve 5 64); Then (Solve 5 76)]).
Proof. vm_compute. reflexivity. Qed.
