(** Linear systems through a PLUQ or PLE decomposition: the mathematics. *)
From Coq Require Import NArith Lia List Bool Arith.
From Coq Require Import ZifyBool ZifyNat ZifyN.
From Verif Require Import Spec LinSpec TrsmSpec PleSpec PolyFacts MatFacts PleFacts PermProofs PluqFacts.
Import ListNotations.
Local Open Scope nat_scope.

Lemma xsum_tr n a b g : a < n -> b < n -> xsum n (fun j => g (tr a b j)) = xsum n g.
Proof.
  intros Ha Hb. apply N.lxor_eq. rewrite <- xsum_lxor.
  set (d := N.lxor (g b) (g a)).
  rewrite (xsum_ext _ _ (fun j => N.lxor (if j =? a then d else 0%N) (if j =? b then d else 0%N))).
  - rewrite xsum_lxor, (xsum_single n a), (xsum_single n b), !Nat.eqb_refl by (auto; intros i Hi Hn; now replace (i =? _) with false by lia). apply N.lxor_nilpotent.
  - intros j Hj. unfold tr. destruct (Nat.eqb_spec j a) as [->|Na].
    + destruct (Nat.eqb_spec a b) as [->|Nb]; [subst d; now rewrite !N.lxor_nilpotent|]. now rewrite N.lxor_0_r.
    + destruct (Nat.eqb_spec j b) as [->|Nb]; [rewrite N.lxor_0_l; apply N.lxor_comm|]. rewrite N.lxor_0_l. apply N.lxor_nilpotent.
Qed.
Lemma xsum_swaps n P t g : t <= n -> (forall k, k < t -> P k < n) -> xsum n (fun j => g (swaps P t j)) = xsum n g.
Proof.
  induction t as [|t IH]; intros Ht HP; [reflexivity|]. cbn [swaps].
  rewrite (xsum_tr n t (P t) (fun j => g (swaps P t j))) by (auto; lia). apply IH; [lia|auto].
Qed.

Section Solve.
Variables (f : N) (m n w r : nat) (A0 LU : mat) (P Q : nat -> nat).
Hypothesis Hf : f <> 0%N.
Hypothesis HD : is_pluq f m n A0 LU P Q r.
(** the right hand side after the row swaps *)
Variable G : mat.
Let H : mat := fun i j => G (swaps P m i) j.
(** what solves L1 * Y = H in the first r rows *)
Variable Y : mat.
Hypothesis HY : meq r w (mmul f r (tril LU) Y) H.

Lemma L_low i k : k < r -> i < r -> ple_L LU i k = tril LU i k.
Proof. reflexivity. Qed.
Lemma L_rest i k : k < r -> r <= i -> ple_L LU i k = LU i k.
Proof. intros. unfold ple_L. now replace (k <=? i) with true by lia. Qed.
Lemma QN k : k < n -> Q k < n. Proof. intros Hk. now apply HD. Qed.
Lemma PM k : k < m -> P k < m. Proof. intros Hk. now apply HD. Qed.

(** A0 * X, rows permuted, is L * (U * permuted X) *)
Lemma product X i j : i < m -> mmul f n A0 X (swaps P m i) j = mmul f r (ple_L LU) (mmul f n (ple_U LU) (fun k j => X (swaps Q n k) j)) i j.
Proof.
  intros Hi. assert (E : meq m n (fun i j => A0 (swaps P m i) (swaps Q n j)) (mmul f r (ple_L LU) (ple_U LU))) by apply HD.
  transitivity (mmul f n (mmul f r (ple_L LU) (ple_U LU)) (fun k j => X (swaps Q n k) j) i j).
  - unfold mmul at 1. rewrite <- (xsum_swaps n Q n (fun k => fmul f (A0 (swaps P m i) k) (X k j))) by (auto using QN).
    unfold mmul at 1. apply xsum_ext. intros k Hk. specialize (E i k Hi Hk). cbv beta in E. now rewrite E.
  - apply (mmul_assoc f (S i) r n (S j)); auto; lia.
Qed.

Section Forward.
Variable Z : mat.
Hypothesis HZ : meq r w (mmul f r (triu (fun i k => if i =? k then 1%N else LU i k)) Z) Y.
Hypothesis Hres : forall i j, r <= i < m -> j < w -> N.lxor (H i j) (mmul f r LU Y i j) = 0%N.
Definition padded : mat := fun i j => if i <? r then Z i j else 0%N.
Lemma solves : meq m w (mmul f n A0 (fun i j => padded (unswaps Q n i) j)) G.
Proof.
  assert (K : forall i j, i < m -> j < w -> mmul f n A0 (fun i j => padded (unswaps Q n i) j) (swaps P m i) j = H i j).
  { intros i j Hi Hj. rewrite product by exact Hi.
    assert (U1 : meq r w (mmul f n (ple_U LU) (fun k j => padded (unswaps Q n (swaps Q n k)) j)) Y).
    { intros k c Hk Hc. rewrite <- HZ by auto. assert (Hrn : r <= n) by apply HD. replace n with (r + (n - r)) at 1 by lia.
      rewrite mmul_split. rewrite (mmul_0_r f (n - r)), N.lxor_0_r.
      - unfold mmul. apply xsum_ext. intros l Hl. rewrite unswaps_swaps. unfold padded. replace (l <? r) with true by lia. f_equal.
        unfold ple_U, triu. destruct (Nat.ltb_spec l k); [now replace (k <=? l) with false by lia|]. replace (k <=? l) with true by lia. destruct (Nat.eqb_spec l k) as [->|]; [now rewrite Nat.eqb_refl|]. now replace (k =? l) with false by lia.
      - intros l Hl. rewrite unswaps_swaps. unfold padded. now replace (r + l <? r) with false by lia. }
    rewrite (mmul_ext f (S i) r w (ple_L LU) (ple_L LU) _ Y) by (auto; intros ? ? ? ?; reflexivity).
    destruct (Nat.lt_ge_cases i r) as [Hr|Hr].
    - rewrite <- HY by auto. reflexivity.
    - assert (R := Hres i j (conj Hr Hi) Hj). apply N.lxor_eq in R. rewrite R. unfold mmul. apply xsum_ext. intros k Hk. now rewrite L_rest by lia. }
  intros i j Hi Hj. assert (Hu : unswaps P m i < m) by (apply unswaps_lt; auto; intros k Hk; split; [exact Hk|now apply PM]).
  specialize (K _ j Hu Hj). rewrite swaps_unswaps in K. rewrite K. unfold H. now rewrite swaps_unswaps.
Qed.
End Forward.

(** a solvable system leaves no residual *)
Hypothesis Huniq : forall Y', inM f r w Y' -> meq r w (mmul f r (tril LU) Y') H -> meq r w Y' Y.
Lemma no_residual X : inM f n w X -> meq m w (mmul f n A0 X) G -> forall i j, r <= i < m -> j < w -> N.lxor (H i j) (mmul f r LU Y i j) = 0%N.
Proof.
  intros HX EX i j Hi Hj.
  set (V := mmul f n (ple_U LU) (fun k j => X (swaps Q n k) j)).
  assert (K : forall i j, i < m -> j < w -> mmul f r (ple_L LU) V i j = H i j).
  { intros a b Ha Hb. unfold V. rewrite <- product by exact Ha. apply EX; [|exact Hb]. apply swaps_lt; [|exact Ha]. intros k Hk. split; [exact Hk|now apply PM]. }
  assert (VY : meq r w V Y).
  { apply Huniq.
    - unfold V. apply inM_mmul; auto.
    - intros a b Ha Hb. rewrite <- K by (auto; destruct HD as (? & _); lia). reflexivity. }
  rewrite <- (K i j) by lia. apply N.lxor_eq_0_iff. unfold mmul at 1 2. apply xsum_ext. intros k Hk. rewrite L_rest by lia. now rewrite VY by auto.
Qed.
End Solve.
