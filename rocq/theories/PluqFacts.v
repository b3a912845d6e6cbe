(** From PLE to PLUQ, and from PLUQ to the reduced echelon form. *)
From Coq Require Import NArith Lia List Bool Arith.
From Coq Require Import ZifyBool ZifyNat ZifyN.
From Verif Require Import Base Spec LinSpec TrsmSpec PleSpec PolyFacts MatFacts EchFacts TrsmProofs TrsmRec PleFacts PleRank PermProofs.
Local Open Scope nat_scope.

(** swap j only in the rows above j: what row k sees *)
Definition above (k : nat) (Q : nat -> nat) : nat -> nat := fun j => if k <? j then Q j else j.
Lemma above_split k Q t j : S k <= t -> swaps Q t j = swaps Q (S k) (swaps (above k Q) t j).
Proof.
  intros H. revert j. induction H as [|t Ht IH]; intros j.
  - f_equal. symmetry. rewrite (swaps_id _ 0 (S k)); [reflexivity|lia|]. intros i Hi. unfold above. now replace (k <? i) with false by lia.
  - cbn [swaps]. rewrite IH. unfold above at 3. replace (k <? t) with true by lia. reflexivity.
Qed.
Lemma above_low k Q n t j : valid_perm n Q -> t <= n -> j <= k -> swaps (above k Q) t j = j.
Proof.
  intros HQ. revert j. induction t as [|t IH]; intros j Ht Hj; [reflexivity|]. cbn [swaps].
  assert (E : tr t (above k Q t) j = j); [|rewrite E; apply IH; lia].
  unfold above. destruct (Nat.ltb_spec k t); [|now rewrite tr_out_id]. pose proof (HQ t ltac:(lia)). apply tr_out; lia.
Qed.
Lemma above_high k Q n t j : valid_perm n Q -> t <= n -> k < j -> k < swaps (above k Q) t j.
Proof.
  intros HQ. revert j. induction t as [|t IH]; intros j Ht Hj; [easy|]. cbn [swaps]. apply IH; [lia|].
  unfold above. destruct (Nat.ltb_spec k t); [|now rewrite tr_out_id]. pose proof (HQ t ltac:(lia)). apply tr_ge; lia.
Qed.
Lemma above_lt k Q n j : valid_perm n Q -> j < n -> swaps (above k Q) n j < n.
Proof. intros HQ Hj. apply swaps_lt; auto. intros i Hi. split; [easy|]. unfold above. destruct (_ <? _); [apply HQ|]; lia. Qed.
Lemma perm_lt Q n j : valid_perm n Q -> j < n -> swaps Q n j < n.
Proof. intros HQ Hj. apply swaps_lt; auto. intros i Hi. split; [easy|]. now apply HQ. Qed.
Lemma unperm_lt Q n j : valid_perm n Q -> j < n -> unswaps Q n j < n.
Proof. intros HQ Hj. apply unswaps_lt; auto. intros i Hi. split; [easy|]. now apply HQ. Qed.
Lemma perm_piv Q n r i : valid_perm n Q -> incr r Q -> r <= n -> i < r -> swaps Q n i = Q i.
Proof.
  intros HQ I Hr Hi. assert (K : forall t, r <= t -> t <= n -> swaps Q t i = Q i).
  { intros t Ht. induction Ht as [|t Ht IH]; intros Htn; [now apply (swaps_piv r)|]. cbn [swaps].
    pose proof (HQ t ltac:(lia)). rewrite tr_out by lia. apply IH. lia. }
  now apply K.
Qed.

Section Pluq.
Variables (f : N) (m n r : nat) (A0 A : mat) (P Q : nat -> nat).
Hypothesis K : is_ple f m n A0 A P Q r.
(** row k after the swaps of the rows above *)
Definition pluq_row (A : mat) (n : nat) (Q : nat -> nat) : mat := fun k j => A k (swaps (above k Q) n j).

Lemma pluq_E k j : k < r -> j < n -> ple_E Q A k (swaps Q n j) = ple_U (pluq_row A n Q) k j.
Proof.
  intros Hk Hj. destruct K as (a1 & a2 & a3 & a4 & a4' & a5 & a6 & a7 & a8 & a9). change (incr r Q) in a5.
  rewrite (above_split k) by lia. unfold ple_U, pluq_row. destruct (Nat.ltb_spec j k) as [D|D].
  - rewrite (above_low k Q n) by (auto; lia). rewrite (swaps_piv r) by (auto; lia). unfold ple_E. pose proof (a5 j k D Hk). now replace (Q j <? Q k) with true by lia.
  - destruct (Nat.eqb_spec j k) as [->|D'].
    + rewrite (above_low k Q n) by (auto; lia). rewrite (swaps_piv r) by (auto; lia). unfold ple_E. now rewrite Nat.ltb_irrefl, Nat.eqb_refl.
    + pose proof (above_high k Q n n j a4 ltac:(lia) ltac:(lia)) as Hx. set (x := swaps (above k Q) n j) in *.
      destruct (Nat.lt_ge_cases (Q k) x) as [C|C].
      * rewrite (swaps_right r) by (auto; lia). unfold ple_E. replace (x <? Q k) with false by lia. now replace (x =? Q k) with false by lia.
      * rewrite a7 by lia. pose proof (swaps_le r Q k x a5 ltac:(lia) C) as L. pose proof (swaps_nonpiv r Q (S k) x a5 ltac:(lia) ltac:(lia) k ltac:(lia)) as NP.
        unfold ple_E. now replace (swaps Q (S k) x <? Q k) with true by lia.
Qed.
Lemma pluq_of_ple A' : (forall k j, k < r -> j < n -> A' k j = pluq_row A n Q k j) -> (forall k j, r <= k < m -> j < n -> A' k j = A k j) ->
  is_pluq f m n A0 A' P Q r.
Proof.
  intros E1 E2. pose proof K as (a1 & a2 & a3 & a4 & a4' & a5 & a6 & a7 & a8 & a9).
  assert (EL : forall i k, i < m -> k <= i -> k < r -> A' i k = A i k).
  { intros i k Hi Hk Hr. destruct (Nat.lt_ge_cases i r); [|apply E2; lia]. rewrite E1 by lia. unfold pluq_row. now rewrite (above_low i Q n) by (auto; lia). }
  split; [exact a1|]. split; [exact a2|]. split; [exact a3|]. split; [exact a4|]. split; [|split].
  - intros i Hi. rewrite EL by lia. now apply a6.
  - intros k j Hk Hj. rewrite E2 by lia. now apply a8.
  - intros i j Hi Hj. rewrite a9 by (auto; now apply perm_lt). unfold mmul. apply xsum_ext. intros k Hk. f_equal.
    + unfold ple_L. destruct (Nat.leb_spec k i); [|easy]. symmetry. now apply EL.
    + rewrite pluq_E by easy. unfold ple_U. destruct (_ <? _); [easy|]. destruct (_ =? _); [easy|]. symmetry. now apply E1.
Qed.
End Pluq.

(** [R] = U0^-1 * U for the left r x r block U0 of U, put back into the original column order *)
Section Red.
Variable f : N.
Hypothesis Hirr : irreducible f.
Hypothesis Hf : (1 <= pdeg f)%N.
Let f0 : f <> 0%N. Proof. now apply irreducible_no_factor. Qed.
Lemma triu_invertible n T : inM f n n T -> (forall i, i < n -> T i i <> 0%N) -> exists X, inverse f n (triu T) X.
Proof.
  intros HT Hd. destruct (triu_exists f Hirr n n T mone HT (inM_mone f n n Hf) Hd) as (X & HX & EX).
  assert (HL : inM f n n (triu T)).
  { intros i j Hi Hj. unfold triu. destruct (i <=? j); [now apply HT|now apply inF0]. }
  exists X. split; [exact HL|]. split; [exact HX|]. split; [exact EX|].
  apply (triu_unique f f0 Hirr n n T HT Hd mone (mmul f n X (triu T)) (triu T)).
  - now apply inM_mone.
  - now apply inM_mmul.
  - now apply mmul_1_r.
  - eapply meq_trans; [apply meq_sym, mmul_assoc; auto|].
    eapply meq_trans; [apply (MatFacts.mmul_ext f n n n); [exact EX|apply meq_refl]|]. now apply mmul_1_l.
Qed.

Variables (m n r : nat) (A0 A : mat) (P Q : nat -> nat) (R : mat).
Hypothesis HA0 : inM f m n A0.
Hypothesis HA : inM f m n A.
Hypothesis K : is_ple f m n A0 A P Q r.
Let U := ple_U (pluq_row A n Q).
Hypothesis HR : inM f r n R.
Hypothesis R1 : forall i j, i < r -> j < r -> R i j = mone i j.
Hypothesis R2 : forall i j, i < r -> r <= j < n -> mmul f r U R i j = U i j.

Lemma inM_U : inM f r n U.
Proof.
  destruct K as (a1 & a2 & a3 & a4 & _). intros i j Hi Hj. unfold U, ple_U, pluq_row. destruct (_ <? _); [now apply inF0|]. destruct (_ =? _); [now apply inF1|].
  apply HA; [lia|now apply above_lt].
Qed.
Lemma UR : meq r n (mmul f r U R) U.
Proof.
  intros i j Hi Hj. destruct (Nat.lt_ge_cases j r) as [D|D]; [|now apply R2].
  transitivity (mmul f r U mone i j).
  - unfold mmul. apply xsum_ext. intros k Hk. now rewrite R1.
  - assert (H : meq r r (mmul f r U mone) U); [|now apply H]. apply mmul_1_r; auto. intros a b Ha Hb. apply inM_U; [easy|]. destruct K as (a1 & a2 & _). lia.
Qed.
Definition red_final (r n : nat) (Q : nat -> nat) (R : mat) : mat := fun i j => if i <? r then R i (unswaps Q n j) else 0%N.
Lemma red_inM : inM f m n (red_final r n Q R).
Proof.
  intros i j Hi Hj. unfold red_final. destruct (Nat.ltb_spec i r); [|now apply inF0]. apply HR; [easy|]. apply unperm_lt; auto. apply K.
Qed.
Lemma red_E i j : i < r -> j < n -> ple_E Q A i j = mmul f r U (fun k j => R k (unswaps Q n j)) i j.
Proof.
  intros Hi Hj. pose proof K as (a1 & a2 & a3 & a4 & _). pose proof (unperm_lt Q n j a4 Hj) as Hu.
  rewrite <- (swaps_unswaps Q n j) at 1. rewrite (pluq_E f m n r A0 A P Q K) by easy. fold U. rewrite <- UR by easy. reflexivity.
Qed.
Lemma red_row_equiv : row_equiv f m n A0 (red_final r n Q R).
Proof.
  pose proof K as (a1 & a2 & a3 & a4 & _).
  apply (row_equiv_trans f Hf m n A0 (ple_Ehat r Q A)).
  { apply (ple_row_equiv f Hirr Hf m n A0 A P); auto. }
  apply (row_equiv_sym f Hf); [exact red_inM|].
  set (T := fun i k => if k <? r then U i k else mone i k).
  assert (HT : inM f m m T).
  { intros i k Hi Hk. unfold T. destruct (Nat.ltb_spec k r); [|now apply (inM_mone f m m Hf)]. unfold U, ple_U, pluq_row.
    destruct (_ <? _); [now apply inF0|]. destruct (_ =? _); [now apply inF1|]. apply HA; [lia|]. apply above_lt; auto. lia. }
  destruct (triu_invertible m T HT) as (T' & HT').
  { intros i Hi. unfold T, U, ple_U, mone. rewrite Nat.ltb_irrefl, Nat.eqb_refl. now destruct (i <? r). }
  exists (triu T), T'. split; [exact HT'|]. intros i j Hi Hj. unfold ple_Ehat. destruct (Nat.ltb_spec i r) as [D|D].
  - rewrite red_E by easy. replace m with (r + (m - r)) at 1 by lia. rewrite mmul_split.
    rewrite (mmul_0_r f (m - r)); [rewrite N.lxor_0_r|].
    + unfold mmul. apply xsum_ext. intros k Hk. f_equal; [|unfold red_final; now replace (k <? r) with true by lia].
      unfold triu, T. replace (k <? r) with true by lia. destruct (Nat.leb_spec i k); [easy|]. unfold U, ple_U. now replace (k <? i) with true by lia.
    + intros k Hk. unfold red_final. now replace (r + k <? r) with false by lia.
  - symmetry. unfold mmul. apply xsum_0. intros k Hk. unfold triu. destruct (Nat.leb_spec i k); [|apply fmul_0_l].
    unfold red_final. replace (k <? r) with false by lia. apply fmul_0_r.
Qed.
Lemma red_zero i j : i < r -> j < Q i -> j < n -> red_final r n Q R i j = 0%N.
Proof.
  intros Hi Hj Hn. pose proof K as (a1 & a2 & a3 & a4 & a4' & a5 & _). unfold red_final. replace (i <? r) with true by lia.
  assert (G : forall d k, r - k <= d -> i <= k -> k < r -> R k (unswaps Q n j) = 0%N); [|apply (G (r - i)); lia].
  induction d as [|d IH]; intros k Hd Hk Hr; [lia|].
  assert (E0 : ple_E Q A k j = 0%N).
  { unfold ple_E. assert (Q i <= Q k) by (destruct (Nat.eq_dec i k) as [->|]; [lia|]; pose proof (a5 i k ltac:(lia) Hr); lia). now replace (j <? Q k) with true by lia. }
  rewrite red_E in E0 by (auto; lia). unfold mmul in E0.
  rewrite (xsum_single r k) in E0; [|easy|].
  - unfold U, ple_U in E0. rewrite Nat.ltb_irrefl, Nat.eqb_refl in E0. rewrite fmul_1_l in E0; auto. apply HR; [lia|]. now apply unperm_lt.
  - intros t Ht Hne. destruct (Nat.lt_ge_cases t k) as [C|C].
    + unfold U, ple_U. replace (t <? k) with true by lia. apply fmul_0_l.
    + rewrite IH by lia. apply fmul_0_r.
Qed.
Lemma red_piv i i' : i < r -> i' < r -> red_final r n Q R i' (Q i) = mone i' i.
Proof.
  intros Hi Hi'. pose proof K as (a1 & a2 & a3 & a4 & a4' & a5 & _). unfold red_final. replace (i' <? r) with true by lia.
  rewrite <- (perm_piv Q n r i) by auto. rewrite unswaps_swaps. now apply R1.
Qed.
Theorem red_echelon : echelon m n r Q (red_final r n Q R) /\ reduced m r Q (red_final r n Q R).
Proof.
  pose proof K as (a1 & a2 & a3 & a4 & a4' & a5 & _). split; [split; [exact a1|]; split; [|split; [exact a5|]]|].
  - intros i Hi. pose proof (a4 i ltac:(lia)). split; [lia|]. split; [rewrite red_piv by easy; unfold mone; now rewrite Nat.eqb_refl|]. intros j Hj. apply red_zero; auto. lia.
  - intros i j Hi Hj. unfold red_final. now replace (i <? r) with false by lia.
  - intros i i' Hi Hi' Hne. destruct (Nat.lt_ge_cases i' r).
    + rewrite red_piv by easy. unfold mone. now replace (i' =? i) with false by lia.
    + unfold red_final. now replace (i' <? r) with false by lia.
Qed.
End Red.
