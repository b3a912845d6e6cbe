(** The recursive PLE decomposition again, with a log of what it reduces the problem to: the model of _mzd_slice_ple in PleModel.v
    (ple.c:89-180), in which every decomposition without recursion, every product and every system the triangular solver solves without
    recursion (CostTrsm.v) is recorded.  [erase_ple] proves that forgetting the log gives back the function of PleModel.v. *)
From Coq Require Import NArith ZArith List Bool Arith Lia.
From Coq Require Import ZifyBool ZifyNat.
From Verif Require Import Base Gf2xModel Gf2eModel MzdModel MzedModel NjModel StrassenModel SliceModel KaraModel ConvModel MulModel TrsmModel PermModel PleModel CostTrsm.
Import ListNotations.
Local Open Scope nat_scope.

(** [Decompose m n r]: an m x n matrix of rank r is decomposed without recursion; [Then e]: see CostTrsm.v *)
Inductive pwork := Decompose (m n r : nat) | Then (e : event).
Definition plog T := res (T * list pwork).
Definition drop {T E} (m : res (T * list E)) : res T := x <- m ;; Ok (fst x).

(** ple.c:89-180 [_mzd_slice_ple] *)
Fixpoint slice_ple_t (l2 : Z) (fuel : nat) (A : slice) (P Q : mzp) (cutoff : Z) : plog (slice * mzp * mzp * nat) :=
  match fuel with
  | O => UB
  | S fuel' =>
    let ncols := sl_ncols A in let nrows := sl_nrows A in
    let cutoff := ple_cutoff l2 cutoff in
    w <- gf2e_degree_to_w (sl_ff A) ;;
    if (ncols <=? 64) || (ple_size w ncols nrows <=? usize cutoff)%Z then
      Abar <- mzed_cling None A ;;
      '(Abar, P, Q, r) <- mzed_ple_newton_john Abar P Q ;;
      A <- mzed_slice (Some A) Abar ;;
      Ok ((A, P, Q, r), [Decompose nrows ncols r])
    else
      let n1 := ((ncols - 1) / 64 + 1) / 2 * 64 in
      P1 <- mzp_window P 0 nrows ;; Q1 <- mzp_window Q 0 n1 ;;
      A0 <- mzd_slice_window A 0 0 nrows n1 ;;
      '((A0, P1, Q1, r1), log1) <- slice_ple_t l2 fuel' A0 P1 Q1 cutoff ;;
      A <- mzd_slice_unwindow A 0 0 A0 ;;
      let P := mzp_unwindow P 0 P1 in let Q := mzp_unwindow Q 0 Q1 in
      '(A, log2) <- (if r1 =? 0 then Ok (A, []) else
              A <- on_swin A 0 n1 nrows ncols (fun A1 => mzd_slice_apply_p_left A1 P1) ;;
              A00 <- mzd_slice_window A 0 0 r1 r1 ;;
              '(A, lt) <- on_swin_t A 0 n1 r1 ncols (fun A01 => mzd_slice_trsm_lower_left_t A00 A01 MZED_TRSM_CUTOFF) ;;
              A10 <- mzd_slice_window A r1 0 nrows r1 ;;
              A01 <- mzd_slice_window A 0 n1 r1 ncols ;;
              '(A, lp) <- on_swin_t A r1 n1 nrows ncols (fun A11 => tell (Product (sl_nrows A10) (sl_ncols A10) (sl_ncols A01)) (mzd_slice_addmul (Some A11) A10 A01)) ;;
              Ok (A, lt ++ lp)) ;;
      P2 <- mzp_window P r1 nrows ;; Q2 <- mzp_window Q n1 ncols ;;
      A11 <- mzd_slice_window A r1 n1 nrows ncols ;;
      '((A11, P2, Q2, r2), log3) <- slice_ple_t l2 fuel' A11 P2 Q2 cutoff ;;
      A <- mzd_slice_unwindow A r1 n1 A11 ;;
      A <- on_swin A r1 0 nrows r1 (fun A10 => mzd_slice_apply_p_left A10 P2) ;;
      P2 <- for_ 0 (nrows - r1) (fun i P2 => p <- lget P2 i ;; lset P2 i (p + r1)) P2 ;;
      let P := mzp_unwindow P r1 P2 in
      Q2 <- for_ 0 (ncols - n1) (fun i Q2 => q <- lget Q2 i ;; lset Q2 i (q + n1)) Q2 ;;
      let Q := mzp_unwindow Q n1 Q2 in
      Q <- for_ 0 r2 (fun i Q => q <- lget Q (n1 + i) ;; lset Q (r1 + i) q) Q ;;
      A <- mzd_slice_compress_l A r1 n1 r2 ;;
      Ok ((A, P, Q, r1 + r2), log1 ++ map Then log2 ++ log3)
  end.
Definition mzd_slice_ple_t (l2 : Z) (A : slice) (P Q : mzp) (cutoff : Z) : plog (slice * mzp * mzp * nat) := slice_ple_t l2 (S (sl_ncols A)) A P Q cutoff.
(** ple.c:74-87 [_mzed_ple] *)
Definition mzed_ple_t (l2 : Z) (A : mzed) (P Q : mzp) (cutoff : Z) : plog (mzed * mzp * mzp * nat) :=
  let cutoff := ple_cutoff l2 cutoff in
  w <- gf2e_degree_to_w (mz_ff A) ;;
  if (64 <? mz_ncols A) && (usize cutoff <? ple_size w (mz_ncols A) (mz_nrows A))%Z then
    a <- mzed_slice None A ;;
    '((a, P, Q, r), l) <- mzd_slice_ple_t l2 a P Q cutoff ;;
    A <- mzed_cling (Some A) a ;; Ok ((A, P, Q, r), l)
  else
    '(A', P, Q, r) <- mzed_ple_newton_john A P Q ;; Ok ((A', P, Q, r), [Decompose (mz_nrows A) (mz_ncols A) r]).

(** ple.h:104-108 [mzd_slice_ple] *)
Definition mzd_slice_ple_default_t (l2 : Z) (A : slice) (P Q : mzp) : plog (slice * mzp * mzp * nat) :=
  _ <- guard ((length P =? sl_nrows A) && (length Q =? sl_ncols A)) ;; mzd_slice_ple_t l2 A P Q 0.
(** ple.c:183-193, ple.h:141-145 [mzd_slice_pluq] *)
Definition mzd_slice_pluq_t (l2 : Z) (A : slice) (P Q : mzp) : plog (slice * mzp * mzp * nat) :=
  _ <- guard ((length P =? sl_nrows A) && (length Q =? sl_ncols A)) ;;
  '((A, P, Q, r), l) <- mzd_slice_ple_t l2 A P Q 0 ;;
  A <- (if negb (r =? 0) && (r <? sl_nrows A) then
          on_swin A 0 0 r (sl_ncols A) (fun A0 => mzd_slice_apply_p_right_trans_tri A0 Q)
        else mzd_slice_apply_p_right_trans_tri A Q) ;;
  Ok ((A, P, Q, r), l).
(** echelonform.c:36-121 [mzd_slice_echelonize_ple] *)
Definition mzd_slice_echelonize_ple_t (l2 : Z) (A : slice) (full : bool) : plog (slice * nat) :=
  let nrows := sl_nrows A in let ncols := sl_ncols A in
  '((A, r), l) <- (if full then
      '((A, _, Q, r), l) <- mzd_slice_pluq_t l2 A (mzp_init nrows) (mzp_init ncols) ;;
      let r_radix := 64 * (r / 64) in
      '(A, lt) <- (if (r_radix =? r) && negb (r =? ncols) then
              A <- on_swin A 0 0 r r (unit_diag r) ;;
              U <- mzd_slice_window A 0 0 r r ;;
              on_swin_t A 0 r r ncols (fun B => mzd_slice_trsm_upper_left_t U B MZED_TRSM_CUTOFF)
            else if negb (r_radix =? r) && negb (r =? ncols) then
              if r_radix + 64 <? ncols then
                B0 <- mzd_slice_submatrix None A 0 r_radix r (r_radix + 64) ;;
                A <- on_swin A 0 0 r r (unit_diag r) ;;
                U <- mzd_slice_window A 0 0 r r ;;
                '(B0, lt0) <- mzd_slice_trsm_upper_left_t U B0 MZED_TRSM_CUTOFF ;;
                '(A, lt1) <- on_swin_t A 0 (r_radix + 64) r ncols (fun B1 => mzd_slice_trsm_upper_left_t U B1 MZED_TRSM_CUTOFF) ;;
                A <- on_swin A 0 r_radix r (r_radix + 64) (fun B0w => mzd_slice_copy (Some B0w) B0) ;;
                Ok (A, lt0 ++ lt1)
              else
                B <- mzd_slice_submatrix None A 0 r_radix r ncols ;;
                A <- on_swin A 0 0 r r (unit_diag r) ;;
                U <- mzd_slice_window A 0 0 r r ;;
                '(B, lt0) <- mzd_slice_trsm_upper_left_t U B MZED_TRSM_CUTOFF ;;
                A <- on_swin A 0 r_radix r ncols (fun Bw => mzd_slice_copy (Some Bw) B) ;;
                Ok (A, lt0)
            else Ok (A, [])) ;;
      A <- on_swin A 0 0 r r (fun U => mzd_slice_set_ui U 1) ;;
      A <- (if r =? 0 then Ok A else on_swin A 0 0 r ncols (fun A0 => mzd_slice_apply_p_right A0 Q)) ;;
      Ok ((A, r), l ++ map Then lt)
    else
      '((A, _, Q, r), l) <- mzd_slice_ple_default_t l2 A (mzp_init nrows) (mzp_init ncols) ;;
      A <- for_ 0 r (fun i A =>
             A <- sl_map A (fun _ x => for_ 0 (i + 1) (fun j x => mzd_clear_bits x i j (Nat.min 64 (i - j + 1))) x) ;;
             q <- lget Q i ;; mzd_slice_write_elem A i q 1) A ;;
      Ok ((A, r), l)) ;;
  A <- (if r =? nrows then Ok A else on_swin A r 0 nrows ncols (fun R => mzd_slice_set_ui R 0)) ;;
  Ok ((A, r), l).
(** echelonform.h:67-73 [mzed_echelonize_ple] *)
Definition mzed_echelonize_ple_t (l2 : Z) (A : mzed) (full : bool) : plog (mzed * nat) :=
  a <- mzed_slice None A ;;
  '((a, r), l) <- mzd_slice_echelonize_ple_t l2 a full ;;
  A <- mzed_cling (Some A) a ;; Ok ((A, r), l).

(** ** forgetting the log *)
Lemma drop_bind {T U E} (m : res T) (k : T -> res (U * list E)) (k' : T -> res U) : (forall x, drop (k x) = k' x) -> drop (bind m k) = bind m k'.
Proof. intros H. destruct m; cbn; auto. Qed.
Lemma drop_log {T U E F} (m : res (T * list E)) m' (k : T * list E -> res (U * list F)) k' : drop m = m' -> (forall x l, drop (k (x, l)) = k' x) -> drop (bind m k) = bind m' k'.
Proof. intros <- H. unfold drop at 2. destruct m as [[x l]| |]; cbn; auto. Qed.
Lemma drop_swin C lr lc hr hc op op' : (forall W, forget (op W) = op' W) -> drop (on_swin_t C lr lc hr hc op) = on_swin C lr lc hr hc op'.
Proof. intros H. rewrite <- (bind_ok (on_swin C lr lc hr hc op')). rewrite <- (bind_ok (on_swin_t C lr lc hr hc op)). now apply (forget_swin C lr lc hr hc op op'). Qed.
Theorem erase_ple l2 : forall fuel A P Q cutoff, drop (slice_ple_t l2 fuel A P Q cutoff) = slice_ple l2 fuel A P Q cutoff.
Proof.
  induction fuel as [|fuel IH]; intros A P Q cutoff; cbn [slice_ple_t slice_ple]; [reflexivity|]. cbv zeta.
  apply drop_bind. intros w. destruct ((sl_ncols A <=? 64) || (ple_size w (sl_ncols A) (sl_nrows A) <=? usize (ple_cutoff l2 cutoff))%Z).
  { apply drop_bind. intros Ab. apply drop_bind. intros [[[Ab' P'] Q'] r]. apply drop_bind. intros A'. reflexivity. }
  apply drop_bind. intros P1. apply drop_bind. intros Q1. apply drop_bind. intros A0. apply drop_log; [apply IH|]. intros [[[A0' P1'] Q1'] r1] log1.
  apply drop_bind. intros A1. apply drop_log.
  { destruct (r1 =? 0); [reflexivity|]. apply drop_bind. intros A2. apply drop_bind. intros A00. apply drop_log.
    { apply drop_swin. intros W. apply erase_strsm_lower. } intros A3 lt. apply drop_bind. intros A10. apply drop_bind. intros A01.
    rewrite <- (bind_ok (on_swin A3 _ _ _ _ _)). apply drop_log; [apply drop_swin; intros W; apply forget_tell|]. reflexivity. }
  intros A4 log2. apply drop_bind. intros P2. apply drop_bind. intros Q2. apply drop_bind. intros A11. apply drop_log; [apply IH|]. intros [[[A11' P2'] Q2'] r2] log3.
  do 6 (apply drop_bind; intros ?). reflexivity.
Qed.
Theorem erase_mzed_ple l2 A P Q cutoff : drop (mzed_ple_t l2 A P Q cutoff) = mzed_ple_ l2 A P Q cutoff.
Proof.
  unfold mzed_ple_t, mzed_ple_. cbv zeta. apply drop_bind. intros w. destruct ((64 <? mz_ncols A) && _).
  - apply drop_bind. intros a. apply drop_log; [apply erase_ple|]. intros [[[a' P'] Q'] r] l. apply drop_bind. reflexivity.
  - transitivity (bind (mzed_ple_newton_john A P Q) (fun x => Ok x)); [|apply bind_ok]. apply drop_bind. now intros [[[A' P'] Q'] r].
Qed.

Lemma erase_ple_default l2 A P Q : drop (mzd_slice_ple_default_t l2 A P Q) = mzd_slice_ple l2 A P Q.
Proof. unfold mzd_slice_ple_default_t, mzd_slice_ple. apply drop_bind. intros _. apply erase_ple. Qed.
Lemma erase_pluq l2 A P Q : drop (mzd_slice_pluq_t l2 A P Q) = mzd_slice_pluq l2 A P Q.
Proof.
  unfold mzd_slice_pluq_t, mzd_slice_pluq, mzd_slice_pluq_. apply drop_bind. intros _. apply drop_log; [apply erase_ple|]. intros [[[A' P'] Q'] r] l.
  apply drop_bind. reflexivity.
Qed.
Theorem erase_slice_echelonize l2 A full : drop (mzd_slice_echelonize_ple_t l2 A full) = mzd_slice_echelonize_ple l2 A full.
Proof.
  unfold mzd_slice_echelonize_ple_t, mzd_slice_echelonize_ple. cbv zeta. apply drop_log.
  - destruct full.
    + apply drop_log; [apply erase_pluq|]. intros [[[A1 P1] Q1] r] l. apply drop_log.
      * destruct ((64 * (r / 64) =? r) && negb (r =? sl_ncols A)).
        { apply drop_bind. intros A2. apply drop_bind. intros U. apply drop_swin. intros W. apply erase_strsm_upper. }
        destruct (negb (64 * (r / 64) =? r) && negb (r =? sl_ncols A)); [|reflexivity].
        destruct (64 * (r / 64) + 64 <? sl_ncols A).
        { apply drop_bind. intros B0. apply drop_bind. intros A2. apply drop_bind. intros U. apply drop_log; [apply erase_strsm_upper|]. intros B1 l0.
          apply drop_log; [apply drop_swin; intros W; apply erase_strsm_upper|]. intros A3 l1.
          match goal with |- _ = ?m => transitivity (bind m (fun x => Ok x)); [|apply bind_ok] end. apply drop_bind. reflexivity. }
        apply drop_bind. intros B0. apply drop_bind. intros A2. apply drop_bind. intros U. apply drop_log; [apply erase_strsm_upper|]. intros B1 l0.
        match goal with |- _ = ?m => transitivity (bind m (fun x => Ok x)); [|apply bind_ok] end. apply drop_bind. reflexivity.
      * intros A2 lt. apply drop_bind. intros A3. apply drop_bind. reflexivity.
    + apply drop_log; [apply erase_ple_default|]. intros [[[A1 P1] Q1] r] l. apply drop_bind. reflexivity.
  - intros [A1 r] l. apply drop_bind. reflexivity.
Qed.
Theorem erase_mzed_echelonize l2 A full : drop (mzed_echelonize_ple_t l2 A full) = mzed_echelonize_ple l2 A full.
Proof.
  unfold mzed_echelonize_ple_t, mzed_echelonize_ple. apply drop_bind. intros a. apply drop_log; [apply erase_slice_echelonize|]. intros [a' r] l. apply drop_bind. reflexivity.
Qed.

(** ** what the logs contain *)
Definition ple_split (n : nat) : nat := ((n - 1) / 64 + 1) / 2 * 64.
(** [w]: bits per element; a matrix is small if it has at most 64 columns or w m n <= c *)
Inductive pplan (w c : nat) : nat -> nat -> nat -> list pwork -> Prop :=
| pplan_base m n r : n <= 64 \/ w * n * m <= c -> r <= m -> r <= n -> pplan w c m n r [Decompose m n r]
| pplan_cut m n r1 r2 l1 lt l3 : 64 < n -> c < w * n * m -> pplan w c m (ple_split n) r1 l1 ->
    (r1 = 0 /\ lt = []) \/ (0 < r1 /\ exists ls, plan 512 (n - ple_split n) r1 ls /\ lt = ls ++ [Product (m - r1) r1 (n - ple_split n)]) ->
    pplan w c (m - r1) (n - ple_split n) r2 l3 -> pplan w c m n (r1 + r2) (l1 ++ map Then lt ++ l3).

Lemma lset_inv {X} (l : list X) i x l' : lset l i x = Ok l' -> i < length l /\ length l' = length l.
Proof. unfold lset. destruct (Nat.ltb_spec i (length l)); [|discriminate]. intros [= <-]. split; [assumption|]. apply upd_length. Qed.
Lemma ple_loop_le {X} elim : forall fuel A (T : X) P Q row col A' P' Q' r, ple_loop elim fuel A T P Q row col = Ok (A', P', Q', r) ->
  row <= length P -> row <= length Q -> r <= length P /\ r <= length Q.
Proof.
  induction fuel as [|fuel IH]; intros A T P Q row col A' P' Q' r E H1 H2; cbn [ple_loop] in E; [discriminate|].
  destruct ((row <? mz_nrows A) && (col <? mz_ncols A)). 2:{ injection E as <- <- <- <-. now split. }
  step E p. destruct p as [[[i j] x]|]. 2:{ injection E as <- <- <- <-. now split. }
  step E P0. step E Q0. apply lset_inv in H0, H3. destruct H0 as (L1 & L2), H3 as (L3 & L4). step E A0. apply inv_bind in E. destruct E as ([A1 T1] & _ & E).
  rewrite <- L2, <- L4. apply (IH _ _ _ _ _ _ _ _ _ _ E); lia.
Qed.
Lemma ple_nj_le A P Q A' P' Q' r : mzed_ple_newton_john A P Q = Ok (A', P', Q', r) -> r <= length P /\ r <= length Q.
Proof.
  unfold mzed_ple_newton_john. intros E. step E T0. apply inv_bind in E. destruct E as ([[[A1 P1] Q1] r1] & E1 & E). unfold ple_finish in E.
  step E P2. step E Q2. step E A2. injection E as _ _ _ <-. apply (ple_loop_le _ _ _ _ _ _ _ _ _ _ _ _ E1); lia.
Qed.
Lemma smap_dims A op B : sl_map A op = Ok B -> sl_ff B = sl_ff A /\ sl_nrows B = sl_nrows A /\ sl_ncols B = sl_ncols A.
Proof. unfold sl_map. intros E. step E x. injection E as <-. now cbn. Qed.
Lemma swin_ff A lr lc hr hc W : mzd_slice_window A lr lc hr hc = Ok W -> sl_ff W = sl_ff A /\ sl_nrows W = hr - lr /\ sl_ncols W = hc - lc.
Proof. unfold mzd_slice_window. intros E. step E x. injection E as <-. now cbn. Qed.
Lemma on_swin_dims A lr lc hr hc op B : on_swin A lr lc hr hc op = Ok B -> sl_ff B = sl_ff A /\ sl_nrows B = sl_nrows A /\ sl_ncols B = sl_ncols A.
Proof. unfold on_swin. intros E. step E W. step E W'. unfold mzd_slice_unwindow in E. exact (smap_dims _ _ _ E). Qed.
Lemma on_swin_t_ff A lr lc hr hc op B l : on_swin_t A lr lc hr hc op = Ok (B, l) -> sl_ff B = sl_ff A.
Proof. unfold on_swin_t. intros E. step E W. step E W'. step E A'. injection E as <- _. exact (proj1 (smap_dims _ _ _ H1)). Qed.
Lemma pwin_length P b e W : mzp_window P b e = Ok W -> length W = e - b.
Proof. unfold mzp_window. intros E. step E u. apply inv_guard in H. injection E as <-. rewrite firstn_length, skipn_length. lia. Qed.
Lemma ple_split_facts n : 64 < n -> 64 <= ple_split n /\ ple_split n < n /\ ple_split n < n - ple_split n + 64 /\
  forall b, 64 * (b - 1) < n <= 64 * b -> ple_split n = 64 * (b / 2).
Proof.
  intros Hn. set (b := (n - 1) / 64 + 1). assert (Hb : 64 * (b - 1) < n <= 64 * b).
  { unfold b. pose proof (Nat.div_mod (n - 1) 64 ltac:(lia)). pose proof (Nat.mod_upper_bound (n - 1) 64 ltac:(lia)). lia. }
  assert (E : ple_split n = 64 * (b / 2)) by (unfold ple_split; fold b; lia).
  pose proof (Nat.div_mod b 2 ltac:(lia)). pose proof (Nat.mod_upper_bound b 2 ltac:(lia)). split; [|split; [|split]]; [lia|lia|lia|].
  intros b' Hb'. assert (b' = b) by lia. congruence.
Qed.
Lemma cutoff_twice l2 c : ple_cutoff l2 (ple_cutoff l2 c) = ple_cutoff l2 c.
Proof. unfold ple_cutoff. destruct (c =? 0)%Z eqn:E; [|now rewrite E]. destruct (4 * l2 =? 0)%Z; reflexivity. Qed.
Lemma size_exact w n m : (Z.of_nat w * Z.of_nat n * Z.of_nat m < 2 ^ 64)%Z -> ple_size w n m = Z.of_nat (w * n * m).
Proof. intros H. unfold ple_size. rewrite Z.mod_small; lia. Qed.
Lemma size_mono w n m n' m' : (Z.of_nat w * Z.of_nat n * Z.of_nat m < 2 ^ 64)%Z -> n' <= n -> m' <= m -> (Z.of_nat w * Z.of_nat n' * Z.of_nat m' < 2 ^ 64)%Z.
Proof. intros H Hn Hm. eapply Z.le_lt_trans; [|exact H]. apply Z.mul_le_mono_nonneg; try lia. apply Z.mul_le_mono_nonneg_l; lia. Qed.
Lemma pplan_bounds w c m n r l : pplan w c m n r l -> r <= m /\ r <= n.
Proof.
  induction 1 as [m n r _ H1 H2|m n r1 r2 l1 lt l3 Hn Hc P1 (I1 & I2) _ P3 (I3 & I4)]; [lia|]. pose proof (ple_split_facts n Hn). lia.
Qed.
Lemma ple_plan l2 w c : (Z.of_nat c < 2 ^ 64)%Z -> forall fuel A P Q cutoff A' P' Q' r l, slice_ple_t l2 fuel A P Q cutoff = Ok ((A', P', Q', r), l) ->
  ple_cutoff l2 cutoff = Z.of_nat c -> gf2e_degree_to_w (sl_ff A) = Ok w -> length P = sl_nrows A -> length Q = sl_ncols A ->
  (Z.of_nat w * Z.of_nat (sl_ncols A) * Z.of_nat (sl_nrows A) < 2 ^ 64)%Z -> pplan w c (sl_nrows A) (sl_ncols A) r l.
Proof.
  intros Hc64. induction fuel as [|fuel IH]; intros A P Q cutoff A' P' Q' r l E Hc Hw HP HQ Hs; cbn [slice_ple_t] in E; [discriminate|]. cbv zeta in E.
  rewrite Hw in E. cbn [bind] in E. rewrite Hc in E. rewrite (size_exact _ _ _ Hs) in E. unfold usize in E. rewrite (Z.mod_small (Z.of_nat c)) in E by lia.
  fold (ple_split (sl_ncols A)) in E.
  destruct ((sl_ncols A <=? 64) || _) eqn:Qb.
  { step E Ab. apply inv_bind in E. destruct E as ([[[Ab' P1] Q1] r1] & E1 & E). step E A1. injection E as _ _ _ <- <-.
    pose proof (ple_nj_le _ _ _ _ _ _ _ E1). constructor; lia. }
  step E P1. step E Q1. step E A0. apply inv_bind in E. destruct E as ([[[[A0' P1'] Q1'] r1] log1] & E1 & E).
  pose proof (ple_split_facts (sl_ncols A) ltac:(lia)) as (F1 & F2 & F3 & _).
  apply pwin_length in H, H0. destruct (swin_ff _ _ _ _ _ _ H1) as (D1 & D2 & D3). rewrite !Nat.sub_0_r in D2, D3, H, H0.
  assert (PL1 : pplan w c (sl_nrows A0) (sl_ncols A0) r1 log1).
  { eapply IH; [exact E1|now rewrite <- Hc, cutoff_twice| | | |]; try congruence. rewrite D2, D3. eapply size_mono; [exact Hs|lia|lia]. }
  rewrite D2, D3 in PL1. destruct (pplan_bounds _ _ _ _ _ _ PL1) as (R1 & R2).
  step E A1. apply smap_dims in H2. destruct H2 as (D4 & D5 & D6).
  apply inv_bind in E. destruct E as ([A4 log2] & E2 & E).
  assert (M : (sl_ff A4 = sl_ff A /\ sl_nrows A4 = sl_nrows A /\ sl_ncols A4 = sl_ncols A) /\
    ((r1 = 0 /\ log2 = []) \/ (0 < r1 /\ exists ls, plan 512 (sl_ncols A - ple_split (sl_ncols A)) r1 ls /\ log2 = ls ++ [Product (sl_nrows A - r1) r1 (sl_ncols A - ple_split (sl_ncols A))]))).
  { destruct (Nat.eqb_spec r1 0) as [Z0|Z0]. { injection E2 as <- <-. split; [repeat split; congruence|left; now split]. }
    step E2 A2. apply on_swin_dims in H2. destruct H2 as (D7 & D8 & D9). step E2 A00. destruct (swin_ff _ _ _ _ _ _ H2) as (G1 & G2 & G3).
    apply inv_bind in E2. destruct E2 as ([A3 ls] & E3 & E2). step E2 A10. step E2 A01. apply inv_bind in E2. destruct E2 as ([A5 lp] & E4 & E2). injection E2 as <- <-.
    pose proof (on_swin_t_ff _ _ _ _ _ _ _ _ E3) as X1. pose proof (on_swin_t_ff _ _ _ _ _ _ _ _ E4) as X2.
    destruct (on_swin_inv _ _ _ _ _ _ _ _ E3) as (D10 & D11 & W & W' & D12 & D13 & E3'). destruct (on_swin_inv _ _ _ _ _ _ _ _ E4) as (D14 & D15 & W2 & W2' & _ & _ & E4').
    destruct (swin_dims _ _ _ _ _ _ H3) as (G4 & G5). destruct (swin_dims _ _ _ _ _ _ H4) as (G6 & G7).
    split; [repeat split; congruence|]. right. split; [lia|]. exists ls. apply inv_tell in E4'. subst lp.
    unfold mzd_slice_trsm_lower_left_t in E3'. apply splan_lower in E3'; [|unfold MZED_TRSM_CUTOFF; lia]. rewrite D13, G2, Nat.sub_0_r in E3'. split; [exact E3'|].
    rewrite G4, G5, G7, Nat.sub_0_r. reflexivity. }
  destruct M as ((D7 & D8 & D9) & M).
  step E P2. step E Q2. step E A11. apply inv_bind in E. destruct E as ([[[[A11' P2'] Q2'] r2] log3] & E3 & E).
  apply pwin_length in H2, H3. destruct (swin_ff _ _ _ _ _ _ H4) as (D10 & D11 & D12).
  do 6 (apply inv_bind in E; destruct E as (? & _ & E)). injection E as _ _ _ <- <-.
  assert (PL3 : pplan w c (sl_nrows A11) (sl_ncols A11) r2 log3).
  { eapply IH; [exact E3|now rewrite <- Hc, cutoff_twice| | | |]; try congruence. rewrite D11, D12. eapply size_mono; [exact Hs|lia|lia]. }
  rewrite D11, D12 in PL3. apply pplan_cut; [lia|lia|exact PL1|exact M|exact PL3].
Qed.

(** ** counting *)
(** columns, ranks and area times rank of the matrices decomposed without recursion *)
Definition dcols (l : list pwork) : nat := fold_right (fun e s => match e with Decompose _ n _ => n + s | Then _ => s end) 0 l.
Definition dranks (l : list pwork) : nat := fold_right (fun e s => match e with Decompose _ _ r => r + s | Then _ => s end) 0 l.
Definition dwork (l : list pwork) : nat := fold_right (fun e s => match e with Decompose m n r => m * n * r + s | Then _ => s end) 0 l.
(** rows times right hand sides of the systems solved without recursion *)
Definition rhs (l : list pwork) : nat := fold_right (fun e s => match e with Then (Solve m n) => m * n + s | _ => s end) 0 l.
(** the cost of the products, given the cost of one *)
Definition pspent (cost : nat -> nat -> nat -> nat) (l : list pwork) : nat := fold_right (fun e s => match e with Then (Product a b k) => cost a b k + s | _ => s end) 0 l.
Lemma dcols_app l l' : dcols (l ++ l') = dcols l + dcols l'.
Proof. induction l as [|[?|?] l IH]; cbn [app dcols fold_right]; unfold dcols in *; rewrite ?IH; lia. Qed.
Lemma dranks_app l l' : dranks (l ++ l') = dranks l + dranks l'.
Proof. induction l as [|[?|?] l IH]; cbn [app dranks fold_right]; unfold dranks in *; rewrite ?IH; lia. Qed.
Lemma dwork_app l l' : dwork (l ++ l') = dwork l + dwork l'.
Proof. induction l as [|[?|?] l IH]; cbn [app dwork fold_right]; unfold dwork in *; rewrite ?IH; lia. Qed.
Lemma rhs_app l l' : rhs (l ++ l') = rhs l + rhs l'.
Proof. induction l as [|[?|[?|?]] l IH]; cbn [app rhs fold_right]; unfold rhs in *; rewrite ?IH; lia. Qed.
Lemma pspent_app cost l l' : pspent cost (l ++ l') = pspent cost l + pspent cost l'.
Proof. induction l as [|[?|[?|?]] l IH]; cbn [app pspent fold_right]; unfold pspent in *; rewrite ?IH; lia. Qed.
Lemma then_zero l : dcols (map Then l) = 0 /\ dranks (map Then l) = 0 /\ dwork (map Then l) = 0.
Proof. induction l as [|e l IH]; cbn; [lia|exact IH]. Qed.
Lemma then_spent cost l : pspent cost (map Then l) = spent cost l.
Proof. induction l as [|[?|?] l IH]; cbn [map pspent spent fold_right]; unfold pspent, spent in *; rewrite ?IH; lia. Qed.
Lemma plan_rhs cutoff n m l : plan cutoff n m l -> rhs (map Then l) = m * n.
Proof.
  induction 1 as [m H|m c a b l1 l3 Hm Hn Ec Cl Hab P1 IH1 P3 IH3]; [cbn; lia|]. rewrite !map_app, !rhs_app, IH1, IH3. cbn [map rhs fold_right].
  assert (E : m = a + b) by lia. rewrite E. ring.
Qed.
Lemma pplan_counts w c m n r l : pplan w c m n r l -> dcols l = n /\ dranks l = r /\ rhs l <= r * n /\ w * dwork l <= (64 * w * m + c) * r.
Proof.
  intros P. induction P as [m n r Hs H1 H2|m n r1 r2 l1 lt l3 Hn Hc P1 (I1 & I2 & I3 & I4) Hl P3 (J1 & J2 & J3 & J4)].
  - cbn [dcols dranks rhs dwork fold_right]. split; [lia|]. split; [lia|]. split; [lia|]. rewrite Nat.add_0_r, Nat.mul_assoc. apply Nat.mul_le_mono_r.
    destruct Hs as [Hs|Hs]; [|nia]. apply Nat.le_trans with (w * m * 64); [|nia]. rewrite Nat.mul_assoc. now apply Nat.mul_le_mono_l.
  - destruct (then_zero lt) as (Z1 & Z2 & Z3). pose proof (ple_split_facts n Hn) as (_ & F & _). rewrite !dcols_app, !dranks_app, !rhs_app, !dwork_app, Z1, Z2, Z3, I1, I2, J1, J2.
    split; [lia|]. split; [lia|]. split.
    + assert (rhs (map Then lt) = r1 * (n - ple_split n)).
      { destruct Hl as [(-> & ->)|(_ & ls & Pl & ->)]; [reflexivity|]. rewrite map_app, rhs_app, (plan_rhs _ _ _ _ Pl). cbn. lia. }
      set (k := ple_split n) in *. clearbody k. assert (E : n = k + (n - k)) by lia. set (k' := n - k) in *. clearbody k'. subst n. nia.
    + apply Nat.le_trans with ((64 * w * m + c) * r1 + (64 * w * m + c) * r2); [|lia].
      assert ((64 * w * (m - r1) + c) * r2 <= (64 * w * m + c) * r2). { apply Nat.mul_le_mono_r. apply Nat.add_le_mono_r. apply Nat.mul_le_mono_l. lia. } lia.
Qed.
Lemma pplan_events w c m n r l : pplan w c m n r l -> forall e, In e l -> match e with
  | Decompose a b k => (b <= 64 \/ w * b * a <= c) /\ a <= m /\ b <= n /\ k <= a /\ k <= b
  | Then (Solve s k) => s <= 576 /\ s + k <= n /\ s <= m
  | Then (Product a b k) => a + b <= m /\ b + k <= n end.
Proof.
  intros P. induction P as [m n r Hs H1 H2|m n r1 r2 l1 lt l3 Hn Hc P1 IH1 Hl P3 IH3]; intros e He.
  { destruct He as [<-|[]]. lia. }
  pose proof (ple_split_facts n Hn) as (F1 & F2 & F3 & _). pose proof (pplan_bounds _ _ _ _ _ _ P1) as (B1 & B2).
  rewrite !in_app_iff in He. destruct He as [He|[He|He]].
  - specialize (IH1 e He). destruct e as [|[|]]; lia.
  - apply in_map_iff in He. destruct He as (x & <- & Hx). destruct Hl as [(-> & ->)|(R & ls & Pl & ->)]; [easy|].
    apply in_app_iff in Hx. destruct Hx as [Hx|[<-|[]]]; [|lia].
    destruct (le_lt_dec (n - ple_split n) 512) as [Hk|Hk].
    + destruct Pl; [|lia]. destruct Hx as [<-|[]]. lia.
    + pose proof (plan_events 512 _ _ _ ltac:(lia) Pl Hk x Hx) as V.
      assert (W : forall s k, In (Solve s k) ls -> s <= r1). { clear - Pl. intros s k Hi. pose proof (plan_solved _ _ _ _ Pl) as V. rewrite <- V. clear V Pl.
        induction ls as [|e ls IH]; [easy|]. destruct Hi as [->|Hi]; cbn [solved fold_right]; fold (solved ls); [lia|]. specialize (IH Hi). destruct e; lia. }
      destruct x as [s k|a b k]; [specialize (W s k Hx)|]; lia.
  - specialize (IH3 e He). destruct e as [|[|]]; lia.
Qed.
Lemma few_rhs cost n m l : plan 512 n m l -> n <= 512 -> spent cost l = 0.
Proof. intros P H. destruct P; [reflexivity|lia]. Qed.
Lemma few_rows cost n m l : plan 512 n m l -> m <= 512 -> spent cost l = 0.
Proof. intros P H. destruct P; [reflexivity|lia]. Qed.
Section Cost.
Variables (cost : nat -> nat -> nat -> nat) (K : nat).
Let side i := 2 ^ i * 64 + 128.
Hypothesis tall : forall i q a b k, a <= q * side i -> b <= side i -> k <= side i -> cost a b k <= q * (K * 7 ^ i).
Hypothesis wide : forall i q a b k, a <= side i -> b <= side i -> k <= q * side i -> cost a b k <= q * (K * 7 ^ i).
Lemma pspent_small w c m n r l : pplan w c m n r l -> forall q d, d <= 2 -> n <= 64 * S d -> m <= q * 192 -> pspent cost l <= d * (q * K).
Proof.
  intros P. induction P as [m n r Hs H1 H2|m n r1 r2 l1 lt l3 Hn Hc P1 IH1 Hl P3 IH3]; intros q d Hd Hnd Hm; [cbn; lia|].
  pose proof (ple_split_facts n Hn) as (F1 & F2 & F3 & F4). rewrite !pspent_app.
  destruct d as [|d]; [lia|].
  assert (Sp : pspent cost (map Then lt) <= q * K).
  { destruct Hl as [(-> & ->)|(R & ls & Pl & ->)]; [cbn; lia|]. rewrite map_app, pspent_app, then_spent, (few_rhs cost _ _ _ Pl) by lia. cbn [map pspent fold_right].
    pose proof (pplan_bounds _ _ _ _ _ _ P1) as (B1 & B2).
    pose proof (tall 0 q (m - r1) r1 (n - ple_split n)) as T. unfold side in T. cbn [Nat.pow] in T. lia. }
  assert (Sz : ple_split n = 64). { destruct (le_lt_dec n 128); [apply (F4 2); lia|apply (F4 3); lia]. } rewrite Sz in *.
  specialize (IH1 q 0 ltac:(lia) ltac:(lia) Hm). specialize (IH3 q d ltac:(lia) ltac:(lia) ltac:(lia)). cbn [Nat.mul]. lia.
Qed.
Lemma pplan_spent w c m n r l : pplan w c m n r l -> forall j q, n <= side j -> m <= q * side j -> pspent cost l <= 2 * (q * (K * 7 ^ j)).
Proof.
  intros P. induction P as [m n r Hs H1 H2|m n r1 r2 l1 lt l3 Hn Hc P1 IH1 Hl P3 IH3]; intros j q Hnj Hm; [cbn; lia|].
  destruct j as [|j].
  { unfold side in Hnj, Hm. cbn [Nat.pow] in *. rewrite Nat.mul_1_r. eapply (pspent_small w c m n (r1 + r2)); [eapply pplan_cut; eassumption|lia|lia|lia]. }
  pose proof (ple_split_facts n Hn) as (F1 & F2 & F3 & F4).
  assert (S1 : ple_split n <= side j). { unfold side in *. rewrite Nat.pow_succ_r' in Hnj. lia. }
  assert (S2 : n - ple_split n <= side j).
  { unfold side in *. rewrite Nat.pow_succ_r' in Hnj. set (b := (n - 1) / 64 + 1). pose proof (Nat.div_mod (n - 1) 64 ltac:(lia)). pose proof (Nat.mod_upper_bound (n - 1) 64 ltac:(lia)).
    specialize (F4 b ltac:(unfold b; lia)). pose proof (Nat.div_mod b 2 ltac:(lia)). pose proof (Nat.mod_upper_bound b 2 ltac:(lia)). unfold b in *. lia. }
  assert (S3 : m <= 2 * q * side j). { eapply Nat.le_trans; [exact Hm|]. replace (2 * q * side j) with (q * (2 * side j)) by ring. apply Nat.mul_le_mono_l. unfold side. rewrite Nat.pow_succ_r'. lia. }
  pose proof (pplan_bounds _ _ _ _ _ _ P1) as (B1 & B2).
  specialize (IH1 j (2 * q) S1 S3). specialize (IH3 j (2 * q) S2 ltac:(lia)). rewrite !pspent_app.
  replace (q * (K * 7 ^ S j)) with (7 * (q * (K * 7 ^ j))) by (rewrite Nat.pow_succ_r'; ring). rewrite <- Nat.mul_assoc in IH1, IH3.
  assert (Sp : 3 * pspent cost (map Then lt) <= 8 * (q * (K * 7 ^ j))).
  { destruct Hl as [(-> & ->)|(R & ls & Pl & ->)]; [cbn; lia|]. rewrite map_app, pspent_app, then_spent. cbn [map pspent fold_right].
    pose proof (tall j (2 * q) (m - r1) r1 (n - ple_split n) ltac:(lia) ltac:(lia) S2) as T.
    assert (U : 3 * spent cost ls <= 2 * (1 * (K * 7 ^ j))).
    { refine (plan_spent 512 (n - ple_split n) r1 ls cost K 64 ltac:(lia) ltac:(lia) _ Pl j 1 _ _); [|unfold side in *; lia|unfold side in *; lia].
      intros i q' a b. apply wide. }
    assert (Q1 : 1 <= q) by (destruct q; lia). assert (1 * (K * 7 ^ j) <= q * (K * 7 ^ j)) by now apply Nat.mul_le_mono_r.
    rewrite <- Nat.mul_assoc in T. set (x := q * (K * 7 ^ j)) in *. set (y := 1 * (K * 7 ^ j)) in *. clearbody x y. lia. }
  set (x := q * (K * 7 ^ j)) in *. clearbody x. lia.
Qed.
End Cost.

(** ** row echelon forms *)
(** back substitution, in one or two parts *)
Definition back (n r : nat) (lt : list event) : Prop :=
  lt = [] \/ (exists k, k + 64 * (r / 64) <= n /\ plan 512 k r lt) \/
  (exists k l0 l1, 64 * (r / 64) + 64 + k = n /\ plan 512 64 r l0 /\ plan 512 k r l1 /\ lt = l0 ++ l1).
Lemma submatrix_dims A lr lc hr hc B : mzd_slice_submatrix None A lr lc hr hc = Ok B -> sl_nrows B = hr - lr /\ sl_ncols B = hc - lc.
Proof. unfold mzd_slice_submatrix, sl_map_n. intros E. step E x. injection E as <-. now cbn. Qed.
Lemma mzp_init_length n : length (mzp_init n) = n.
Proof. unfold mzp_init. now rewrite ?seq_length. Qed.
Lemma ech_plan l2 w c A full A' r l : mzd_slice_echelonize_ple_t l2 A full = Ok ((A', r), l) ->
  (4 * l2 = Z.of_nat c)%Z -> (Z.of_nat c < 2 ^ 64)%Z -> gf2e_degree_to_w (sl_ff A) = Ok w ->
  (Z.of_nat w * Z.of_nat (sl_ncols A) * Z.of_nat (sl_nrows A) < 2 ^ 64)%Z ->
  exists l1 lt, l = l1 ++ map Then lt /\ pplan w c (sl_nrows A) (sl_ncols A) r l1 /\ (full = false -> lt = []) /\ back (sl_ncols A) r lt.
Proof.
  intros E Hc H64 Hw Hs. unfold mzd_slice_echelonize_ple_t in E. cbv zeta in E. apply inv_bind in E. destruct E as ([[A1 r1] l1] & E1 & E).
  apply inv_bind in E. destruct E as (A2 & _ & E). injection E as _ <- <-.
  assert (PL : forall x l, mzd_slice_ple_t l2 A (mzp_init (sl_nrows A)) (mzp_init (sl_ncols A)) 0 = Ok (x, l) -> pplan w c (sl_nrows A) (sl_ncols A) (snd x) l).
  { intros [[[A3 P3] Q3] r3] l3 E3. unfold mzd_slice_ple_t in E3. cbn [snd]. eapply ple_plan; [exact H64|exact E3|exact Hc|exact Hw| | |exact Hs]; apply mzp_init_length. }
  destruct full.
  - apply inv_bind in E1. destruct E1 as ([[[[A3 P3] Q3] r3] l3] & E3 & E1). unfold mzd_slice_pluq_t in E3. apply inv_bind in E3. destruct E3 as (u & _ & E3).
    apply inv_bind in E3. destruct E3 as ([[[[A4 P4] Q4] r4] l4] & E4 & E3). apply inv_bind in E3. destruct E3 as (A5 & _ & E3). injection E3 as <- <- <- <- <-.
    apply PL in E4. cbn [snd] in E4. apply inv_bind in E1. destruct E1 as ([A6 lt] & E5 & E1).
    apply inv_bind in E1. destruct E1 as (A7 & _ & E1). apply inv_bind in E1. destruct E1 as (A8 & _ & E1). injection E1 as _ <- <-.
    exists l4, lt. split; [reflexivity|]. split; [exact E4|]. split; [discriminate|].
    destruct (pplan_bounds _ _ _ _ _ _ E4) as (B1 & B2). pose proof (Nat.div_mod r4 64 ltac:(lia)) as DM. pose proof (Nat.mod_upper_bound r4 64 ltac:(lia)) as MB.
    assert (T512 : 64 <= MZED_TRSM_CUTOFF) by (unfold MZED_TRSM_CUTOFF; lia).
    destruct ((64 * (r4 / 64) =? r4) && negb (r4 =? sl_ncols A)) eqn:Q1.
    { step E5 A9. step E5 U. destruct (swin_dims _ _ _ _ _ _ H0) as (D1 & _). destruct (on_swin_inv _ _ _ _ _ _ _ _ E5) as (_ & _ & W & W' & _ & D2 & E6).
      apply splan_upper in E6; [|exact T512]. rewrite D1, D2, Nat.sub_0_r in E6. right. left. exists (sl_ncols A - r4). split; [lia|exact E6]. }
    destruct (negb (64 * (r4 / 64) =? r4) && negb (r4 =? sl_ncols A)) eqn:Q2; [|injection E5 as _ <-; now left].
    destruct (64 * (r4 / 64) + 64 <? sl_ncols A) eqn:Q0.
    + step E5 B0. apply submatrix_dims in H. destruct H as (_ & D0). step E5 A9. step E5 U. destruct (swin_dims _ _ _ _ _ _ H0) as (D1 & _).
      apply inv_bind in E5. destruct E5 as ([B0' l0] & E6 & E5). apply inv_bind in E5. destruct E5 as ([A10 l1'] & E7 & E5). apply inv_bind in E5. destruct E5 as (A11 & _ & E5). injection E5 as _ <-.
      destruct (on_swin_inv _ _ _ _ _ _ _ _ E7) as (_ & _ & W & W' & _ & D2 & E8). apply splan_upper in E6; [|exact T512]. apply splan_upper in E8; [|exact T512].
      rewrite D1, D0, Nat.sub_0_r in E6. rewrite D1, D2, Nat.sub_0_r in E8. right. right.
      exists (sl_ncols A - (64 * (r4 / 64) + 64)), l0, l1'. split; [lia|]. split; [|split; [exact E8|reflexivity]]. replace (64 * (r4 / 64) + 64 - 64 * (r4 / 64)) with 64 in E6 by lia. exact E6.
    + step E5 B0. apply submatrix_dims in H. destruct H as (_ & D0). step E5 A9. step E5 U. destruct (swin_dims _ _ _ _ _ _ H0) as (D1 & _).
      apply inv_bind in E5. destruct E5 as ([B0' l0] & E6 & E5). apply inv_bind in E5. destruct E5 as (A11 & _ & E5). injection E5 as _ <-.
      apply splan_upper in E6; [|exact T512]. rewrite D1, D0, Nat.sub_0_r in E6. right. left. exists (sl_ncols A - 64 * (r4 / 64)). split; [lia|exact E6].
  - apply inv_bind in E1. destruct E1 as ([[[[A3 P3] Q3] r3] l3] & E3 & E1). unfold mzd_slice_ple_default_t in E3. apply inv_bind in E3. destruct E3 as (u & _ & E3).
    apply PL in E3. cbn [snd] in E3. apply inv_bind in E1. destruct E1 as (A4 & _ & E1). injection E1 as _ <- <-.
    exists l3, []. split; [now rewrite app_nil_r|]. split; [exact E3|]. split; [reflexivity|now left].
Qed.
Lemma plan_any n m l : plan 512 n m l -> rhs (map Then l) = m * n /\ (forall cost, 512 < m -> 512 < n \/ spent cost l = 0) /\
  forall e, In e l -> match e with Solve s k => (s <= 512 \/ k <= 512) /\ s <= m /\ k = n | Product a b k => a + b <= m /\ k = n end.
Proof.
  intros P. split; [exact (plan_rhs _ _ _ _ P)|]. split.
  { intros cost _. destruct (le_lt_dec n 512); [right|now left]. now apply (few_rhs cost n m). }
  intros e He. destruct (le_lt_dec n 512) as [Hk|Hk].
  - destruct P; [|lia]. destruct He as [<-|[]]. lia.
  - pose proof (plan_events 512 n m l ltac:(lia) P Hk e He) as V. destruct e as [s k|a b k]; [|lia]. split; [lia|]. split; [|lia].
    pose proof (plan_solved _ _ _ _ P) as W. rewrite <- W. clear - He. induction l as [|e l IH]; [easy|]. destruct He as [->|He]; cbn [solved fold_right]; fold (solved l); [lia|].
    specialize (IH He). destruct e; lia.
Qed.
Lemma back_facts n r lt : r <= n -> back n r lt -> rhs (map Then lt) <= r * (n - 64 * (r / 64)) /\
  (forall e, In e lt -> match e with Solve s k => (s <= 512 \/ k <= 512) /\ s <= r /\ k + 64 * (r / 64) <= n | Product a b k => a + b <= r /\ k + 64 * (r / 64) <= n end) /\
  forall cost K, (forall i q a b k, a <= 2 ^ i * 64 + 128 -> b <= 2 ^ i * 64 + 128 -> k <= q * (2 ^ i * 64 + 128) -> cost a b k <= q * (K * 7 ^ i)) ->
    forall j, n <= 2 ^ j * 64 + 128 -> 3 * spent cost lt <= 2 * (K * 7 ^ j).
Proof.
  intros Hr B. pose proof (Nat.div_mod r 64 ltac:(lia)) as DM. set (d := 64 * (r / 64)) in *. clearbody d.
  assert (SP : forall cost K, (forall i q a b k, a <= 2 ^ i * 64 + 128 -> b <= 2 ^ i * 64 + 128 -> k <= q * (2 ^ i * 64 + 128) -> cost a b k <= q * (K * 7 ^ i)) ->
    forall j k l, n <= 2 ^ j * 64 + 128 -> k <= n -> plan 512 k r l -> 3 * spent cost l <= 2 * (K * 7 ^ j)).
  { intros cost K HK j k l Hn Hk P. pose proof (plan_spent 512 k r l cost K 64 ltac:(lia) ltac:(lia) (fun i q a b => HK i q a b k) P j 1 ltac:(lia) ltac:(lia)). lia. }
  destruct B as [->|[(k & Hk & P)|(k & l0 & l1 & Hk & P0 & P1 & ->)]].
  - split; [apply Nat.le_0_l|]. split; [easy|]. intros. apply Nat.le_0_l.
  - destruct (plan_any _ _ _ P) as (R & _ & V). split; [rewrite R; apply Nat.mul_le_mono_l; lia|]. split.
    + intros e He. specialize (V e He). destruct e; lia.
    + intros cost K HK j Hn. apply (SP cost K HK j k); [exact Hn|lia|exact P].
  - destruct (plan_any _ _ _ P0) as (R0 & _ & V0). destruct (plan_any _ _ _ P1) as (R1 & _ & V1). split; [|split].
    + rewrite map_app, rhs_app, R0, R1, <- Nat.mul_add_distr_l. apply Nat.mul_le_mono_l. lia.
    + intros e He. apply in_app_iff in He. destruct He as [He|He]; [specialize (V0 e He)|specialize (V1 e He)]; destruct e; lia.
    + intros cost K HK j Hn. rewrite spent_app, (few_rhs cost _ _ _ P0) by lia. apply (SP cost K HK j k); [exact Hn|lia|exact P1].
Qed.
