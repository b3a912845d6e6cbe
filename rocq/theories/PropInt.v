(** C64: sizes and positions in type int.  (The functions with int arithmetic: IntModel.v.) *)
From Coq Require Import NArith ZArith Lia List Bool Arith.
From Coq Require Import ZifyBool ZifyNat ZifyN.
From Verif Require Import Base Spec PolyFacts LinSpec LaneFacts Gf2xModel Gf2eModel Gf2eProofs MzdModel MzedModel MzedSpec MzedProofs MzedOps MzedOps2 NjModel IntModel Demo MatFacts EchNaive NjInv PropNj.
Import ListNotations.
Local Open Scope nat_scope.

Lemma int_of_ok z : (0 <= z < 2 ^ 31)%Z -> int_of z = Ok z.
Proof. intros H. unfold int_of, int_range. change (2 ^ 31)%Z with 2147483648%Z in H. replace ((-2147483648 <=? z)%Z && (z <? 2147483648)%Z) with true by lia. reflexivity. Qed.
Lemma int_of_over z : (2 ^ 31 <= z)%Z -> int_of z = UB.
Proof. intros H. unfold int_of, int_range. change (2 ^ 31)%Z with 2147483648%Z in H. replace ((-2147483648 <=? z)%Z && (z <? 2147483648)%Z) with false by lia. reflexivity. Qed.
Lemma pos_nat n : pos (Z.of_nat n) = Ok n.
Proof. unfold pos. replace (Z.of_nat n <? 0)%Z with false by lia. now rewrite Nat2Z.id. Qed.
Lemma imul_nat a b : (Z.of_nat a * Z.of_nat b < 2 ^ 31)%Z -> imul (Z.of_nat a) (Z.of_nat b) = Ok (Z.of_nat (a * b)).
Proof. intros H. unfold imul. rewrite int_of_ok by lia. f_equal. lia. Qed.
Lemma iadd_nat a b : (Z.of_nat a + Z.of_nat b < 2 ^ 31)%Z -> iadd (Z.of_nat a) (Z.of_nat b) = Ok (Z.of_nat (a + b)).
Proof. intros H. unfold iadd. rewrite int_of_ok by lia. f_equal. lia. Qed.
Lemma isub_nat a b : b <= a -> (Z.of_nat a < 2 ^ 31)%Z -> isub (Z.of_nat a) (Z.of_nat b) = Ok (Z.of_nat (a - b)).
Proof. intros G H. unfold isub. rewrite int_of_ok by lia. f_equal. lia. Qed.

(** slot width of the field *)
Definition slot_bits (k : gf2e) : Z := match gf2e_degree_to_w k with Ok w => Z.of_nat w | _ => 0%Z end.
(** a matrix whose rows have less than 2^31 bits, and that has less than 2^31 rows *)
Definition in_int (A : mzed) : Prop := (Z.of_nat (mz_nrows A) < 2 ^ 31)%Z /\ (Z.of_nat (mz_w A) * Z.of_nat (mz_ncols A) < 2 ^ 31)%Z.

(** mzed_init makes the matrix the other models speak about if the rows have less than 2^31 bits *)
Theorem C64_init : forall k m n, (2 <= ff_degree k <= 16) -> (slot_bits k * Z.of_nat n < 2 ^ 31)%Z ->
  mzed_init_int k (Z.of_nat m) (Z.of_nat n) = mzed_init k m n /\
  ((Z.of_nat m < 2 ^ 31)%Z -> forall A, mzed_init k m n = Ok A -> in_int A).
Proof.
  intros k m n Hd. unfold slot_bits, mzed_init_int, mzed_init. destruct (gf2e_degree_to_w_ok k Hd) as (w & -> & _). intros H. cbn [bind].
  rewrite imul_nat by easy. cbn [bind]. rewrite !pos_nat. cbn [bind]. split; [reflexivity|]. intros Hm A E. injection E as <-. split; cbn; lia.
Qed.
(** and is undefined otherwise: e.g. a single row of 2^27 elements (256 MB) over GF(2^9) .. GF(2^16) *)
Theorem C64_init_refuted : forall k m n, (2 <= ff_degree k <= 16) -> (2 ^ 31 <= slot_bits k * Z.of_nat n)%Z ->
  mzed_init_int k (Z.of_nat m) (Z.of_nat n) = UB.
Proof.
  intros k m n Hd. unfold slot_bits, mzed_init_int. destruct (gf2e_degree_to_w_ok k Hd) as (w & -> & _). intros H. cbn [bind].
  unfold imul. now rewrite int_of_over.
Qed.
Theorem C64_init_smallest : forall k, 9 <= ff_degree k <= 16 -> (2 ^ 31 <= slot_bits k * 2 ^ 27)%Z.
Proof. intros k Hk. unfold slot_bits, gf2e_degree_to_w. destruct (ff_degree k) as [|[|[|[|[|[|[|[|[|[|[|[|[|[|[|[|[|d]]]]]]]]]]]]]]]]]; try lia; vm_compute; discriminate. Qed.

Lemma wf_w A : wf_mzed A -> gf2e_degree_to_w (mz_ff A) = Ok (mz_w A) /\ ff_degree (mz_ff A) <= mz_w A /\ 2 <= ff_degree (mz_ff A) <= 16.
Proof. intros HA. destruct HA as (G & Ww & _). destruct (degree_to_w_facts _ _ Ww) as (_ & K1 & K2). split; [exact Ww|]. split; [exact K1|]. split; [exact K2|]. apply G. Qed.

Section Access.
Variable A : mzed.
Hypothesis I : in_int A.
Lemma col_small j : j <= mz_ncols A -> (Z.of_nat (mz_w A) * Z.of_nat j < 2 ^ 31)%Z.
Proof. intros Hj. destruct I as [_ H]. nia. Qed.
Theorem C64_read_elem : forall i j, j < mz_ncols A -> mzed_read_elem_int A (Z.of_nat i) (Z.of_nat j) = mzed_read_elem A i j.
Proof. intros i j Hj. unfold mzed_read_elem_int. rewrite imul_nat by (apply col_small; lia). cbn [bind]. rewrite !pos_nat. reflexivity. Qed.
Theorem C64_add_elem : forall i j v, j < mz_ncols A -> mzed_add_elem_int A (Z.of_nat i) (Z.of_nat j) v = mzed_add_elem A i j v.
Proof. intros i j v Hj. unfold mzed_add_elem_int. rewrite imul_nat by (apply col_small; lia). cbn [bind]. rewrite !pos_nat. reflexivity. Qed.
Theorem C64_write_elem : forall i j v, j < mz_ncols A -> mzed_write_elem_int A (Z.of_nat i) (Z.of_nat j) v = mzed_write_elem A i j v.
Proof. intros i j v Hj. unfold mzed_write_elem_int. rewrite imul_nat by (apply col_small; lia). cbn [bind]. rewrite !pos_nat. reflexivity. Qed.
Lemma for_ext_lt {X} (f g : nat -> X -> res X) n : (forall i x, i < n -> f i x = g i x) -> forall x, for_ 0 n f x = for_ 0 n g x.
Proof.
  intros H. enough (K : forall m, m <= n -> forall x, for_ (n - m) n f x = for_ (n - m) n g x) by (intros x; specialize (K n (le_n n) x); now rewrite Nat.sub_diag in K).
  intros m Hm x. unfold for_. replace (n - (n - m)) with m by lia. revert x. assert (Hk : n - m + m <= n) by lia. revert Hk. generalize (n - m) as k. clear Hm. induction m as [|m IH]; intros k Hk x; [reflexivity|]. cbn [forloop].
  rewrite H by lia. destruct (g k x); cbn [bind]; auto. apply IH. lia.
Qed.
Theorem C64_col_swap : forall a b, a < mz_ncols A -> b < mz_ncols A -> mzed_col_swap_int A (Z.of_nat a) (Z.of_nat b) = mzed_col_swap A a b.
Proof.
  intros a b Ha Hb. unfold mzed_col_swap_int, mzed_col_swap. rewrite (for_ext_lt _ (fun i x => mzd_col_swap x (mz_w A * a + i) (mz_w A * b + i))); [reflexivity|].
  intros i x Hi. rewrite !imul_nat by (apply col_small; lia). cbn [bind]. pose proof (col_small (S a) Ha). pose proof (col_small (S b) Hb).
  rewrite !iadd_nat by nia. cbn [bind]. now rewrite !pos_nat.
Qed.
Theorem C64_col_swap_in_rows : forall a b start stop, wf_mzed A -> a < mz_ncols A -> b < mz_ncols A -> mzed_col_swap_in_rows_int A (Z.of_nat a) (Z.of_nat b) start stop = mzed_col_swap_in_rows A a b start stop.
Proof.
  intros a b start stop HA Ha Hb. unfold mzed_col_swap_in_rows_int, mzed_col_swap_in_rows.
  rewrite (for_ext_lt _ (fun e x => mzd_col_swap_in_rows x (mz_w A * a + e) (mz_w A * b + e) start stop)); [reflexivity|].
  intros e x He. destruct (wf_w A HA) as (_ & Hw & _).
  rewrite !imul_nat by (apply col_small; lia). cbn [bind]. pose proof (col_small (S a) Ha) as K1. pose proof (col_small (S b) Hb) as K2.
  change (2 ^ 31)%Z with 2147483648%Z in K1, K2.
  rewrite !Z.mod_small by nia. rewrite <- !Nat2Z.inj_add, !int_of_ok by (change (2 ^ 31)%Z with 2147483648%Z; nia). cbn [bind]. now rewrite !pos_nat.
Qed.
Theorem C64_window : forall lr lc hr hc, wf_mzed A -> lr <= hr <= mz_nrows A -> lc <= hc <= mz_ncols A ->
  mzed_window_int A (Z.of_nat lr) (Z.of_nat lc) (Z.of_nat hr) (Z.of_nat hc) = mzed_window A lr lc hr hc.
Proof.
  intros lr lc hr hc HA Hr Hc. unfold mzed_window_int, mzed_window. destruct (wf_w A HA) as (Ww & Hw & HD). rewrite Ww. cbn [bind].
  destruct I as [I1 I2]. pose proof (col_small hc ltac:(lia)).
  rewrite !isub_nat by nia. cbn [bind]. rewrite !imul_nat by (apply col_small; lia). cbn [bind]. now rewrite !pos_nat.
Qed.
Theorem C64_submatrix : forall D lr lc hr hc, wf_mzed A -> lr <= hr <= mz_nrows A -> lc <= hc <= mz_ncols A ->
  mzed_submatrix_int D A (Z.of_nat lr) (Z.of_nat lc) (Z.of_nat hr) (Z.of_nat hc) = mzed_submatrix D A lr lc hr hc.
Proof.
  intros D lr lc hr hc HA Hr Hc. unfold mzed_submatrix_int, mzed_submatrix. destruct (wf_w A HA) as (Ww & Hw & HD).
  destruct I as [I1 I2]. pose proof (col_small hc ltac:(lia)).
  assert (E : (match D with None => m <- isub (Z.of_nat hr) (Z.of_nat lr) ;; n <- isub (Z.of_nat hc) (Z.of_nat lc) ;; mzed_init_int (mz_ff A) m n | Some D => Ok D end)
    = match D with None => mzed_init (mz_ff A) (hr - lr) (hc - lc) | Some D => Ok D end).
  { destruct D; [reflexivity|]. rewrite !isub_nat by nia. cbn [bind]. apply C64_init; [exact HD|]. unfold slot_bits. rewrite Ww. pose proof (col_small (hc - lc) ltac:(lia)). lia. }
  rewrite E. destruct (match D with None => mzed_init (mz_ff A) (hr - lr) (hc - lc) | Some D => Ok D end) as [D'| |]; cbn [bind]; auto.
  rewrite (Z.mul_comm (Z.of_nat lc)) || idtac. unfold imul at 1 2. rewrite (int_of_ok (Z.of_nat lc * _)) by (pose proof (col_small lc ltac:(lia)); lia). cbn [bind].
  rewrite (int_of_ok (Z.of_nat hc * _)) by (pose proof (col_small hc ltac:(lia)); lia). cbn [bind]. rewrite <- !Nat2Z.inj_mul, !pos_nat. cbn [bind]. reflexivity.
Qed.
End Access.
Print Assumptions C64_window.

(** concat and stack with C = NULL *)
Theorem C64_concat : forall A B, wf_mzed A -> (Z.of_nat (mz_w A) * (Z.of_nat (mz_ncols A) + Z.of_nat (mz_ncols B)) < 2 ^ 31)%Z ->
  mzed_concat_int None A B = mzed_concat None A B.
Proof.
  intros A B HA H. destruct (wf_w A HA) as (Ww & Hw & HD). unfold mzed_concat_int, mzed_concat.
  assert (2 <= mz_w A) by lia. rewrite iadd_nat by (change (2 ^ 31)%Z with 2147483648%Z in *; nia). cbn [bind]. rewrite (proj1 (C64_init (mz_ff A) (mz_nrows A) (mz_ncols A + mz_ncols B) HD ltac:(unfold slot_bits; rewrite Ww; lia))). reflexivity.
Qed.
Theorem C64_concat_refuted : forall A B, wf_mzed A -> (2 ^ 31 <= Z.of_nat (mz_w A) * (Z.of_nat (mz_ncols A) + Z.of_nat (mz_ncols B)))%Z ->
  mzed_concat_int None A B = UB.
Proof.
  intros A B HA H. destruct (wf_w A HA) as (Ww & Hw & HD). unfold mzed_concat_int. unfold iadd.
  destruct (Z.ltb (Z.of_nat (mz_ncols A) + Z.of_nat (mz_ncols B)) (2 ^ 31)) eqn:E.
  - rewrite int_of_ok by lia. cbn [bind]. rewrite <- Nat2Z.inj_add. rewrite C64_init_refuted; [reflexivity|exact HD|]. unfold slot_bits. rewrite Ww. lia.
  - rewrite int_of_over by lia. reflexivity.
Qed.
Theorem C64_stack : forall A B, wf_mzed A -> in_int A -> (Z.of_nat (mz_nrows A) + Z.of_nat (mz_nrows B) < 2 ^ 31)%Z ->
  mzed_stack_int None A B = mzed_stack None A B.
Proof.
  intros A B HA HI H. destruct (wf_w A HA) as (Ww & Hw & HD). unfold mzed_stack_int, mzed_stack.
  rewrite iadd_nat by nia. cbn [bind]. rewrite (proj1 (C64_init (mz_ff A) (mz_nrows A + mz_nrows B) (mz_ncols A) HD ltac:(unfold slot_bits; rewrite Ww; destruct HI; lia))). reflexivity.
Qed.

(** the elimination.  [optk]: what m4ri_opt_k returns (at least 1), [l2]: the size of the L2 cache M4RI is configured with *)
Lemma nj_k0_ok optk l2 n : 1 <= optk -> (6 * 2 ^ Z.of_nat (Nat.min 7 optk) * Z.of_nat n < 2 ^ 31)%Z -> exists k0, nj_k0 optk l2 n = Ok k0 /\ k0 <= 7.
Proof.
  intros Ho H. unfold nj_k0. set (kk := if 7 <=? optk then 7 else optk).
  assert (E : kk = Nat.min 7 optk) by (unfold kk; destruct (Nat.leb_spec 7 optk); lia). rewrite <- E in H.
  assert (P : (1 <= 2 ^ Z.of_nat kk <= 2 ^ 7)%Z).
  { split; [pose proof (Z.pow_pos_nonneg 2 (Z.of_nat kk)); lia|apply Z.pow_le_mono_r; lia]. }
  change (2 ^ 7)%Z with 128%Z in P. change (2 ^ 31)%Z with 2147483648%Z in H.
  unfold imul. rewrite (int_of_ok (6 * _)) by (change (2 ^ 31)%Z with 2147483648%Z; lia). cbn [bind].
  rewrite int_of_ok by (change (2 ^ 31)%Z with 2147483648%Z; nia). cbn [bind].
  destruct (_ <? _)%Z.
  - change 1%Z with (Z.of_nat 1). rewrite isub_nat by (try change (2 ^ 31)%Z with 2147483648%Z; lia). cbn [bind]. rewrite pos_nat. exists (kk - 1). split; [reflexivity|lia].
  - cbn [bind]. rewrite pos_nat. exists kk. split; [reflexivity|lia].
Qed.
Lemma nj_k0_over optk l2 n : 1 <= optk -> (2 ^ 31 <= 6 * 2 ^ Z.of_nat (Nat.min 7 optk) * Z.of_nat n)%Z -> nj_k0 optk l2 n = UB.
Proof.
  intros Ho H. unfold nj_k0. replace (if 7 <=? optk then 7 else optk) with (Nat.min 7 optk) by (destruct (Nat.leb_spec 7 optk); lia). set (kk := Nat.min 7 optk) in *.
  assert (P : (1 <= 2 ^ Z.of_nat kk <= 2 ^ 7)%Z).
  { split; [pose proof (Z.pow_pos_nonneg 2 (Z.of_nat kk)); lia|apply Z.pow_le_mono_r; lia]. }
  change (2 ^ 7)%Z with 128%Z in P.
  unfold imul. rewrite (int_of_ok (6 * _)) by (change (2 ^ 31)%Z with 2147483648%Z; lia). cbn [bind].
  rewrite int_of_over by easy. reflexivity.
Qed.
Theorem C64_echelonize : forall optk l2 A full, wf_mzed A -> irreducible (fld A) -> 1 <= optk ->
  (6 * 2 ^ Z.of_nat (Nat.min 7 optk) * Z.of_nat (mz_ncols A) < 2 ^ 31)%Z ->
  exists A' r, mzed_echelonize_newton_john_int optk l2 A full = Ok (A', r) /\ echelonises full A A' r.
Proof.
  intros optk l2 A full HA Hirr Ho H. destruct (nj_k0_ok optk l2 _ Ho H) as (k0 & E & L). unfold mzed_echelonize_newton_john_int. rewrite E. cbn [bind].
  now apply C27_echelonize_newton_john.
Qed.
(** with optk >= 7 (512 x 2048 and larger) that is violated from 2796203 columns on, where the rows of a matrix over
    GF(4) have less than 1 MB *)
Theorem C64_echelonize_refuted : forall optk l2 A full, 1 <= optk ->
  (2 ^ 31 <= 6 * 2 ^ Z.of_nat (Nat.min 7 optk) * Z.of_nat (mz_ncols A))%Z ->
  mzed_echelonize_newton_john_int optk l2 A full = UB.
Proof. intros optk l2 A full Ho H. unfold mzed_echelonize_newton_john_int. now rewrite nj_k0_over. Qed.
Theorem C64_echelonize_smallest : forall optk l2 A full, 7 <= optk -> (2796203 <= Z.of_nat (mz_ncols A))%Z ->
  mzed_echelonize_newton_john_int optk l2 A full = UB.
Proof. intros optk l2 A full Ho H. apply C64_echelonize_refuted; [lia|]. replace (Nat.min 7 optk) with 7 by lia. change (2 ^ 31)%Z with 2147483648%Z. change (2 ^ Z.of_nat 7)%Z with 128%Z. lia. Qed.

(** the inverse *)
Theorem C64_invert : forall optk l2 B A, wf_mzed A -> irreducible (fld A) -> 1 <= optk -> mz_nrows A = mz_ncols A ->
  target B (fld A) (mz_nrows A) (mz_ncols A) ->
  (Z.of_nat (mz_w A) * (2 * Z.of_nat (mz_ncols A)) < 2 ^ 31)%Z ->
  (6 * 2 ^ Z.of_nat (Nat.min 7 optk) * (2 * Z.of_nat (mz_ncols A)) < 2 ^ 31)%Z ->
  (invertible (fld A) (mz_nrows A) (entry A) ->
     exists B', mzed_invert_newton_john_int optk l2 B A = Ok B' /\ wf_mzed B' /\ fld B' = fld A /\ mz_nrows B' = mz_nrows A /\ mz_ncols B' = mz_ncols A /\
        inverse (fld A) (mz_nrows A) (entry A) (entry B')) /\
  (~ invertible (fld A) (mz_nrows A) (entry A) -> mzed_invert_newton_john_int optk l2 B A = Die).
Proof.
  intros optk l2 B A HA Hirr Ho Sq HB H1 H2. set (n := mz_nrows A) in *.
  destruct (nj_k0_ok optk l2 (n + n) Ho) as (k0 & E0 & L0).
  { rewrite <- Sq in H2. replace (Z.of_nat (n + n)) with (2 * Z.of_nat n)%Z by lia. exact H2. }
  enough (E : mzed_invert_newton_john_int optk l2 B A = mzed_invert_newton_john k0 B A).
  { rewrite E. now apply C28_invert. }
  destruct (wf_w A HA) as (Ww & Hw & HD). destruct (wf_deg2 A HA) as [Hff Hd2]. pose proof (wf_deg1 A HA) as Hd.
  assert (Hn : (Z.of_nat (mz_w A) * Z.of_nat (n + n) < 2 ^ 31)%Z) by (rewrite <- Sq in H1; fold n in H1; lia).
  unfold mzed_invert_newton_john_int, mzed_invert_newton_john. fold n. rewrite <- Sq, Nat.eqb_refl. cbn [guard bind].
  rewrite (proj1 (C64_init (mz_ff A) n n HD ltac:(unfold slot_bits; rewrite Ww; nia))).
  pose proof (mzed_init_ok (mz_ff A) n n Hff Hd2) as W. destruct (mzed_init (mz_ff A) n n) as [I0| |]; try contradiction. cbn [wp bind] in *.
  destruct W as (Ff & (W0 & F0 & R0 & C0 & _) & _).
  pose proof (mzed_set_ui_ok I0 1 W0) as W. rewrite F0 in W. specialize (W (inF1 _ Hd)).
  destruct (mzed_set_ui I0 1) as [I| |]; try contradiction. cbn [wp bind] in *.
  pose proof (becomes_holds _ _ _ W) as HI. rewrite F0, R0, C0 in HI. destruct HI as (WI & FI & RI & CI & EI). clear W.
  rewrite C64_concat by (auto; rewrite CI, <- Sq; fold n; rewrite <- Nat2Z.inj_add; exact Hn).
  pose proof (mzed_concat_ok None A I HA WI ltac:(congruence)) as W. fold n in W. rewrite RI, CI, <- Sq in W. specialize (W eq_refl Logic.I).
  destruct (mzed_concat None A I) as [T| |]; try contradiction. cbn [wp bind] in *.
  destruct W as (WT & FT & RT & CT & ET).
  unfold mzed_echelonize_newton_john_int. rewrite CT, E0. cbn [bind].
  destruct (C27_echelonize_newton_john k0 T true WT ltac:(now rewrite FT) L0) as (T' & r & -> & BT & _). cbn [bind].
  pose proof (becomes_wf _ _ _ BT) as WT'. pose proof (becomes_nr _ _ _ BT) as RT'. pose proof (becomes_nc _ _ _ BT) as CT'. pose proof (becomes_ff _ _ _ BT) as FT'.
  assert (ET' : mz_w T' = mz_w A).
  { apply same_w; auto; congruence. }
  assert (IT : in_int T').
  { assert (2 <= mz_w A) by lia. split; rewrite ?RT', ?CT', ?RT, ?CT, ?ET'; [|exact Hn]. change (2 ^ 31)%Z with 2147483648%Z in *. nia. }
  change 0%Z with (Z.of_nat 0). rewrite C64_window by (auto; rewrite ?RT', ?CT', ?RT, ?CT; lia).
  destruct (mzed_window T' 0 0 n n) as [J| |]; cbn [bind]; auto.
  destruct (mzed_cmp I J); auto. rewrite C64_submatrix; auto; rewrite ?RT', ?CT', ?RT, ?CT; lia.
Qed.
Print Assumptions C64_invert.
Print Assumptions C64_echelonize_smallest.

(** a 3 x 3 matrix over GF(8) meets the hypotheses; and a field whose rows overflow *)
Definition iA : mzed := ltac:(let x := eval vm_compute in (mk 11 3 3 (of_rows [[1;2;3];[0;5;6];[7;0;1]]%N)) in match x with Ok ?k => exact k end).
Example C64_witness : in_int iA /\ (6 * 2 ^ Z.of_nat (Nat.min 7 9) * (2 * Z.of_nat (mz_ncols iA)) < 2 ^ 31)%Z /\
  mzed_read_elem_int iA 1 2 = Ok 6%N /\
  (B <- mzed_invert_newton_john_int 9 1000000 None iA ;; P <- mzed_mul_naive None iA B ;; Ok (to_rows P)) = Ok [[1;0;0];[0;1;0];[0;0;1]]%N /\
  mzed_init_int (mz_ff iA) 1 536870912 = UB /\ mzed_read_elem_int iA 0 (-1) = UB.
Proof. repeat split; vm_compute; reflexivity. Qed.
