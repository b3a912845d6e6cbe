(** Gluing two PLE decompositions together (the recursive step of _mzd_slice_ple). *)
From Coq Require Import NArith Lia List Bool Arith.
From Coq Require Import ZifyBool ZifyNat ZifyN.
From Verif Require Import Base Spec LinSpec TrsmSpec PleSpec PolyFacts MatFacts EchFacts PleFacts.
Local Open Scope nat_scope.

Lemma swaps_cat P P2 r1 t i : (forall k, k < t -> P (r1 + k) = r1 + P2 k) ->
  swaps P (r1 + t) i = swaps P r1 (if i <? r1 then i else r1 + swaps P2 t (i - r1)).
Proof.
  revert i. induction t as [|t IH]; intros i H.
  - rewrite Nat.add_0_r. cbn [swaps]. destruct (Nat.ltb_spec i r1); [easy|]. f_equal. lia.
  - rewrite Nat.add_succ_r. cbn [swaps]. rewrite H by lia. rewrite IH by (intros; apply H; lia).
    destruct (Nat.ltb_spec i r1) as [Hi|Hi].
    + rewrite tr_out by lia. now replace (i <? r1) with true by lia.
    + pose proof (tr_ge (r1 + t) (r1 + P2 t) i r1 ltac:(lia) ltac:(lia) Hi). replace (tr (r1 + t) (r1 + P2 t) i <? r1) with false by lia.
      f_equal. f_equal. f_equal. unfold tr. destruct (Nat.eqb_spec i (r1 + t)), (Nat.eqb_spec (i - r1) t); try lia.
      destruct (Nat.eqb_spec i (r1 + P2 t)), (Nat.eqb_spec (i - r1) (P2 t)); lia.
Qed.

Section Comb.
Variable f : N.
Variables (m n n1 r1 r2 : nat) (A0 B1 X B2 A : mat) (P1 Q1 P2 Q2 P Q : nat -> nat).
Hypothesis Hn1 : n1 <= n.
(** the two halves *)
Hypothesis K1 : is_ple f m n1 A0 B1 P1 Q1 r1.
Hypothesis KX : forall i j, i < r1 -> j < n - n1 -> mmul f r1 (tril B1) X i j = A0 (swaps P1 r1 i) (n1 + j).
Hypothesis K2 : is_ple f (m - r1) (n - n1)
  (fun i j => N.lxor (A0 (swaps P1 r1 (r1 + i)) (n1 + j)) (mmul f r1 (fun i k => B1 (r1 + i) k) X i j)) B2 P2 Q2 r2.
(** the results *)
Hypothesis HP1 : forall i, i < r1 -> P i = P1 i.
Hypothesis HP2 : forall i, i < m - r1 -> P (r1 + i) = r1 + P2 i.
Hypothesis HQ1 : forall i, i < r1 -> Q i = Q1 i.
Hypothesis HQ2 : forall i, i < r2 -> Q (r1 + i) = n1 + Q2 i.
Hypothesis HQ3 : forall i, r1 + r2 <= i < n -> i <= Q i < n.
Hypothesis A00 : forall i j, i < r1 -> j < n1 -> A i j = B1 i j.
Hypothesis A01 : forall i j, i < r1 -> j < n - n1 -> A i (n1 + j) = X i j.
Hypothesis A10 : forall i j, i < m - r1 -> j < r1 -> A (r1 + i) j = B1 (r1 + swaps P2 (m - r1) i) j.
Hypothesis A11 : forall i j, i < m - r1 -> r1 <= j < n -> A (r1 + i) j =
  (let e := Nat.min (S i) r2 in
   if j <? r1 + e then B2 i (j - r1) else if j <? n1 + e then 0%N else B2 i (j - n1)).

Lemma ple_combine : is_ple f m n A0 A P Q (r1 + r2).
Proof.
  destruct K1 as (a1 & a2 & a3 & a4 & a4' & a5 & a6 & a7 & a8 & a9).
  destruct K2 as (b1 & b2 & b3 & b4 & b4' & b5 & b6 & b7 & b8 & b9).
  assert (Sp : forall i, swaps P m i = swaps P1 r1 (if i <? r1 then i else r1 + swaps P2 (m - r1) (i - r1))).
  { intros i. replace m with (r1 + (m - r1)) at 1 by lia. rewrite (swaps_cat P P2) by exact HP2. apply swaps_ext. exact HP1. }
  assert (S1 : forall i, swaps P1 m i = swaps P1 r1 i) by (intros; apply swaps_id; [lia|exact a4']).
  split; [lia|]. split; [lia|]. split; [|split; [|split; [|split; [|split; [|split; [|split]]]]]].
  - intros i Hi. destruct (Nat.lt_ge_cases i r1); [rewrite HP1 by easy; now apply a3|].
    replace i with (r1 + (i - r1)) by lia. rewrite HP2 by lia. pose proof (b3 (i - r1) ltac:(lia)). lia.
  - intros i Hi. destruct (Nat.lt_ge_cases i r1); [rewrite HQ1 by easy; pose proof (a4 i ltac:(lia)); lia|].
    destruct (Nat.lt_ge_cases i (r1 + r2)); [|apply HQ3; lia].
    replace i with (r1 + (i - r1)) by lia. rewrite HQ2 by lia. pose proof (b4 (i - r1) ltac:(lia)). lia.
  - intros i Hi. replace i with (r1 + (i - r1)) by lia. rewrite HP2, b4' by lia. lia.
  - intros i i' Hi Hi'. destruct (Nat.lt_ge_cases i' r1); [rewrite !HQ1 by lia; now apply a5|].
    replace i' with (r1 + (i' - r1)) by lia. rewrite HQ2 by lia. destruct (Nat.lt_ge_cases i r1).
    + rewrite HQ1 by lia. pose proof (a4 i ltac:(lia)). lia.
    + replace i with (r1 + (i - r1)) by lia. rewrite HQ2 by lia. pose proof (b5 (i - r1) (i' - r1) ltac:(lia) ltac:(lia)). lia.
  - intros i Hi. destruct (Nat.lt_ge_cases i r1); [rewrite A00 by lia; now apply a6|].
    replace i with (r1 + (i - r1)) by lia. rewrite A11 by lia. cbv zeta. replace (r1 + (i - r1) <? r1 + Nat.min (S (i - r1)) r2) with true by lia.
    replace (r1 + (i - r1) - r1) with (i - r1) by lia. apply b6. lia.
  - intros k j Hk Hj. destruct (Nat.lt_ge_cases k r1).
    + rewrite HQ1 in Hj by easy. pose proof (a4 k ltac:(lia)). rewrite A00 by lia. now apply a7.
    + replace k with (r1 + (k - r1)) in Hj |- * by lia. rewrite HQ2 in Hj by lia. pose proof (b4 (k - r1) ltac:(lia)).
      rewrite A11 by lia. cbv zeta. replace (j <? r1 + Nat.min (S (k - r1)) r2) with false by lia.
      destruct (Nat.ltb_spec j (n1 + Nat.min (S (k - r1)) r2)); [easy|]. apply b7; lia.
  - intros k j Hk Hj. replace k with (r1 + (k - r1)) by lia. rewrite A11 by lia. cbv zeta.
    replace (j <? r1 + Nat.min (S (k - r1)) r2) with false by lia.
    destruct (Nat.ltb_spec j (n1 + Nat.min (S (k - r1)) r2)); [easy|]. apply b8; lia.
  - intros i j Hi Hj. rewrite Sp. rewrite mmul_split.
    (* first block of terms *)
    assert (Z : i < r1 \/ j < n1 -> mmul f r2 (fun i k => ple_L A i (r1 + k)) (fun k j => ple_E Q A (r1 + k) j) i j = 0%N).
    { intros [D|D].
      - apply mmul_0_l. intros k Hk. unfold ple_L. now replace (r1 + k <=? i) with false by lia.
      - apply mmul_0_r. intros k Hk. unfold ple_E. rewrite HQ2 by easy. now replace (j <? n1 + Q2 k) with true by lia. }
    assert (E1 : forall k, k < r1 -> j < n1 -> ple_E Q A k j = ple_E Q1 B1 k j).
    { intros k Hk D. unfold ple_E. rewrite HQ1 by easy. now rewrite A00 by lia. }
    assert (E2 : forall k, k < r1 -> n1 <= j -> ple_E Q A k j = X k (j - n1)).
    { intros k Hk D. unfold ple_E. rewrite HQ1 by easy. pose proof (a4 k ltac:(lia)). replace (j <? Q1 k) with false by lia.
      replace (j =? Q1 k) with false by lia. replace j with (n1 + (j - n1)) at 1 by lia. apply A01; lia. }
    destruct (Nat.ltb_spec i r1) as [Hr|Hr].
    + rewrite Z by now left. rewrite N.lxor_0_r. destruct (Nat.lt_ge_cases j n1) as [D|D].
      * rewrite <- S1. rewrite a9 by lia. unfold mmul. apply xsum_ext. intros k Hk. rewrite E1 by easy. f_equal.
        unfold ple_L. now rewrite A00 by lia.
      * replace j with (n1 + (j - n1)) at 1 by lia. rewrite <- KX by lia. unfold mmul. apply xsum_ext. intros k Hk. rewrite E2 by easy. f_equal.
        unfold ple_L, tril. now rewrite A00 by lia.
    + set (s := swaps P2 (m - r1) (i - r1)).
      assert (Hs : s < m - r1). { apply swaps_lt; [|lia]. intros k Hk. pose proof (b3 k Hk). lia. }
      assert (EL : forall k, k < r1 -> ple_L A i k = B1 (r1 + s) k).
      { intros k Hk. unfold ple_L. replace (k <=? i) with true by lia. replace i with (r1 + (i - r1)) by lia. apply A10; lia. }
      destruct (Nat.lt_ge_cases j n1) as [D|D].
      * rewrite Z by now right. rewrite N.lxor_0_r. rewrite <- S1, a9 by lia. unfold mmul. apply xsum_ext. intros k Hk. rewrite E1, EL by easy. f_equal.
        unfold ple_L. now replace (k <=? r1 + s) with true by lia.
      * pose proof (b9 (i - r1) (j - n1) ltac:(lia) ltac:(lia)) as b9'. cbv beta in b9'. fold s in b9'. replace (n1 + (j - n1)) with j in b9' by lia.
        assert (T1 : mmul f r1 (ple_L A) (ple_E Q A) i j = mmul f r1 (fun i k => B1 (r1 + i) k) X s (j - n1)).
        { unfold mmul. apply xsum_ext. intros k Hk. now rewrite E2, EL by easy. }
        assert (T2 : mmul f r2 (fun i k => ple_L A i (r1 + k)) (fun k j => ple_E Q A (r1 + k) j) i j = mmul f r2 (ple_L B2) (ple_E Q2 B2) (i - r1) (j - n1)).
        { unfold mmul. apply xsum_ext. intros k Hk. f_equal.
          - unfold ple_L. destruct (Nat.leb_spec (r1 + k) i), (Nat.leb_spec k (i - r1)); try lia.
            replace i with (r1 + (i - r1)) at 1 by lia. rewrite A11 by lia. cbv zeta. replace (r1 + k <? r1 + Nat.min (S (i - r1)) r2) with true by lia. f_equal. lia.
          - unfold ple_E. rewrite HQ2 by easy. pose proof (b4 k ltac:(lia)).
            destruct (Nat.ltb_spec j (n1 + Q2 k)), (Nat.ltb_spec (j - n1) (Q2 k)); try lia.
            destruct (Nat.eqb_spec j (n1 + Q2 k)), (Nat.eqb_spec (j - n1) (Q2 k)); try lia.
            rewrite A11 by lia. cbv zeta. replace (j <? r1 + Nat.min (S k) r2) with false by lia. now replace (j <? n1 + Nat.min (S k) r2) with false by lia. }
        rewrite T1, T2, <- b9'. set (u := mmul f r1 _ X s (j - n1)). set (v := A0 _ j). rewrite N.lxor_comm, N.lxor_assoc, N.lxor_nilpotent, N.lxor_0_r. reflexivity.
Qed.
Hypothesis FP1 : first_pivots m B1 P1 r1.
Hypothesis FP2 : first_pivots (m - r1) B2 P2 r2.
Lemma ple_combine_first : first_pivots m A P (r1 + r2).
Proof.
  destruct K1 as (a1 & a2 & a3 & a4 & a4' & _). destruct K2 as (b1 & b2 & b3 & b4 & b4' & _).
  assert (Sp : forall i, swaps P m i = swaps P1 r1 (if i <? r1 then i else r1 + swaps P2 (m - r1) (i - r1))).
  { intros i. replace m with (r1 + (m - r1)) at 1 by lia. rewrite (swaps_cat P P2) by exact HP2. apply swaps_ext. exact HP1. }
  assert (S1 : forall i, swaps P1 m i = swaps P1 r1 i) by (intros; apply swaps_id; [lia|exact a4']).
  assert (S2 : forall i, i < m - r1 -> swaps P2 (m - r1) i < m - r1).
  { intros i Hi. apply swaps_lt; [|lia]. intros k Hk. pose proof (b3 k Hk). lia. }
  intros k i j Hk Hi Hj E. rewrite Sp in E. destruct (Nat.lt_ge_cases k r1) as [D|D].
  - rewrite HP1 in Hi by easy. rewrite (swaps_ext P P1 k) in E by (intros; apply HP1; lia). rewrite <- S1 in E.
    pose proof (fun H => FP1 k i _ D Hi H E) as Y. destruct (Nat.ltb_spec j r1).
    + specialize (Y ltac:(lia)). unfold ple_L in *. rewrite A00 by lia. exact Y.
    + pose proof (S2 (j - r1) ltac:(lia)). specialize (Y ltac:(lia)). unfold ple_L in *.
      replace (k <=? j) with true by lia. replace (k <=? r1 + swaps P2 (m - r1) (j - r1)) with true in Y by lia.
      replace j with (r1 + (j - r1)) by lia. rewrite A10 by lia. exact Y.
  - replace k with (r1 + (k - r1)) in Hi, E by lia. rewrite HP2 in Hi by lia.
    rewrite (swaps_cat P P2 r1 (k - r1)) in E by (intros; apply HP2; lia). rewrite (swaps_ext P P1 r1) in E by exact HP1.
    apply swaps_inj in E. replace (i <? r1) with false in E by lia. destruct (Nat.ltb_spec j r1) as [J|J]; [lia|].
    pose proof (FP2 (k - r1) (i - r1) (j - r1) ltac:(lia) ltac:(lia) ltac:(lia) ltac:(lia)) as Y. unfold ple_L in *.
    destruct (Nat.leb_spec k j) as [L|L]; [|easy]. replace (k - r1 <=? j - r1) with true in Y by lia.
    replace j with (r1 + (j - r1)) by lia. rewrite A11 by lia. cbv zeta. replace (k <? r1 + Nat.min (S (j - r1)) r2) with true by lia. exact Y.
Qed.
End Comb.

(** ** _mzd_compress_l on a row *)
(** the column swaps (r1, n1), ..., (r1+s, n1+s) when the columns r1 .. n1-1 are zero *)
Definition cq (r1 n1 : nat) : nat -> nat := fun j => if j <? r1 then j else n1 + (j - r1).
Lemma cq_incr r1 n1 s : r1 <= n1 -> incr s (cq r1 n1).
Proof. intros H i i' Hi _. unfold cq. destruct (Nat.ltb_spec i r1), (Nat.ltb_spec i' r1); lia. Qed.
Lemma cq_swaps {X} (z : X) r1 n1 e (g : nat -> X) k : r1 <= n1 -> (forall j, r1 <= j < n1 -> g j = z) ->
  g (swaps (cq r1 n1) (r1 + e) k) = if k <? r1 then g k else if k <? r1 + e then g (n1 + (k - r1)) else if k <? n1 + e then z else g k.
Proof.
  intros Hrn Hz. pose proof (cq_incr r1 n1 (r1 + e) Hrn) as I.
  destruct (Nat.ltb_spec k (r1 + e)) as [H1|H1].
  - rewrite (swaps_piv (r1 + e)) by (auto; lia). unfold cq. now destruct (k <? r1).
  - replace (k <? r1) with false by lia. destruct e as [|e].
    + destruct (Nat.eq_dec r1 0) as [->|Hr]; [cbn [Nat.add swaps]; destruct (Nat.ltb_spec k (n1 + 0)); [rewrite Hz by lia; easy|easy]|].
      rewrite swaps_above; [destruct (Nat.ltb_spec k (n1 + 0)); [rewrite Hz by lia; easy|easy]|].
      intros j Hj. unfold cq. replace (j <? r1) with true by lia. lia.
    + replace (r1 + S e) with (S (r1 + e)) in * by lia.
      assert (Eq1 : cq r1 n1 (r1 + e) = n1 + e) by (unfold cq; replace (r1 + e <? r1) with false by lia; lia).
      destruct (Nat.ltb_spec k (n1 + S e)) as [H2|H2].
      * pose proof (swaps_le (S (r1 + e)) _ (r1 + e) k I ltac:(lia) ltac:(lia)) as L. rewrite Eq1 in L.
        pose proof (swaps_nonpiv (S (r1 + e)) _ (S (r1 + e)) k I ltac:(lia) ltac:(lia)) as Np.
        set (x := swaps (cq r1 n1) (S (r1 + e)) k) in *. apply Hz.
        assert (r1 <= x). { destruct (Nat.lt_ge_cases x r1) as [C|]; [|easy]. exfalso. apply (Np x ltac:(lia)). unfold cq. now replace (x <? r1) with true by lia. }
        split; [easy|]. destruct (Nat.lt_ge_cases x n1) as [|C]; [easy|]. exfalso. apply (Np (r1 + (x - n1)) ltac:(lia)).
        unfold cq. replace (r1 + (x - n1) <? r1) with false by lia. lia.
      * now rewrite (swaps_right (S (r1 + e))) by (auto; lia).
Qed.
