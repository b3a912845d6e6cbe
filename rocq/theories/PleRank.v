(** What a PLE decomposition tells about the original matrix. *)
From Coq Require Import NArith Lia List Bool Arith.
From Coq Require Import ZifyBool ZifyNat ZifyN.
From Verif Require Import Base Spec LinSpec TrsmSpec PleSpec PolyFacts MatFacts EchFacts TrsmProofs TrsmRec PleFacts.
Local Open Scope nat_scope.

Definition ple_Ehat (r : nat) (Q : nat -> nat) (A : mat) : mat := fun i j => if i <? r then ple_E Q A i j else 0%N.

Section Rank.
Variable f : N.
Hypothesis Hirr : irreducible f.
Hypothesis Hf : (1 <= pdeg f)%N.
Let f0 : f <> 0%N. Proof. now apply irreducible_no_factor. Qed.

Lemma tril_invertible n T : inM f n n T -> (forall i, i < n -> T i i <> 0%N) -> exists X, inverse f n (tril T) X.
Proof.
  intros HT Hd. destruct (tril_exists f Hirr n n T mone HT (inM_mone f n n Hf) Hd) as (X & HX & EX).
  assert (HL : inM f n n (tril T)).
  { intros i j Hi Hj. unfold tril. destruct (j <=? i); [now apply HT|now apply inF0]. }
  exists X. split; [exact HL|]. split; [exact HX|]. split; [exact EX|].
  apply (tril_unique f f0 Hirr n n T HT Hd mone (mmul f n X (tril T)) (tril T)).
  - now apply inM_mone.
  - now apply inM_mmul.
  - now apply mmul_1_r.
  - eapply meq_trans; [apply meq_sym, mmul_assoc; auto|].
    eapply meq_trans; [apply (MatFacts.mmul_ext f n n n); [exact EX|apply meq_refl]|]. now apply mmul_1_l.
Qed.

Lemma row_equiv_swaps m n A P t : inM f m n A -> t <= m -> (forall i, i < t -> P i < m) ->
  inM f m n (fun i j => A (swaps P t i) j) /\ row_equiv f m n A (fun i j => A (swaps P t i) j).
Proof.
  intros HA. induction t as [|t IH]; intros Ht HP.
  - split; [exact HA|]. now apply row_equiv_refl.
  - destruct IH as [I1 I2]; [lia|intros; apply HP; lia|]. split.
    + intros i j Hi Hj. apply HA; auto. apply swaps_lt; auto. intros k Hk. split; [lia|]. apply HP; lia.
    + eapply row_equiv_trans; [exact Hf|exact I2|]. cbn [swaps].
      apply (row_equiv_swap f Hf m n (fun i j => A (swaps P t i) j) t (P t)); auto.
Qed.

Lemma inM_ple_E m n r Q A : inM f m n A -> r <= m -> inM f r n (ple_E Q A).
Proof.
  intros HA Hr i j Hi Hj. unfold ple_E. destruct (j <? Q i); [now apply inF0|]. destruct (j =? Q i); [now apply inF1|apply HA; lia].
Qed.
Lemma ple_echelon m n A0 A P Q r : is_ple f m n A0 A P Q r -> echelon m n r Q (ple_Ehat r Q A).
Proof.
  intros (H1 & H2 & H3 & H4 & HP & H5 & H6 & H7 & H8 & H9). split; [easy|]. split; [|split; [exact H5|]].
  - intros i Hi. split; [apply H4; lia|]. unfold ple_Ehat, ple_E. replace (i <? r) with true by lia. rewrite Nat.ltb_irrefl, Nat.eqb_refl.
    split; [easy|]. intros j Hj. now replace (j <? Q i) with true by lia.
  - intros i j Hi Hj. unfold ple_Ehat. now replace (i <? r) with false by lia.
Qed.
Theorem ple_row_equiv m n A0 A P Q r : inM f m n A0 -> inM f m n A -> is_ple f m n A0 A P Q r ->
  row_equiv f m n A0 (ple_Ehat r Q A).
Proof.
  intros HA0 HA (H1 & H2 & H3 & H4 & HP & H5 & H6 & H7 & H8 & H9).
  destruct (row_equiv_swaps m n A0 P m HA0 ltac:(lia)) as [I1 I2]; [intros i Hi; now apply H3|].
  set (T := fun i k => if k <? r then A i k else mone i k).
  assert (HT : inM f m m T).
  { intros i k Hi Hk. unfold T. destruct (Nat.ltb_spec k r); [apply HA; lia|now apply (inM_mone f m m)]. }
  destruct (tril_invertible m T HT) as (X & IX).
  { intros i Hi. unfold T. destruct (Nat.ltb_spec i r); [now apply H6|]. unfold mone. now rewrite Nat.eqb_refl. }
  eapply row_equiv_trans; [exact Hf|exact I2|]. apply row_equiv_sym.
  - exact Hf.
  - intros i j Hi Hj. unfold ple_Ehat. destruct (Nat.ltb_spec i r); [|now apply inF0]. now apply (inM_ple_E m n r).
  - exists (tril T), X. split; [exact IX|]. eapply meq_trans; [exact H9|]. intros i j Hi Hj.
    replace m with (r + (m - r)) by lia. rewrite mmul_split.
    rewrite (mmul_0_r f (m - r)) by (intros k Hk; unfold ple_Ehat; now replace (r + k <? r) with false by lia).
    rewrite N.lxor_0_r. unfold mmul. apply xsum_ext. intros k Hk. unfold ple_Ehat. replace (k <? r) with true by lia. f_equal.
    unfold ple_L, tril, T. now replace (k <? r) with true by lia.
Qed.
Theorem ple_rank m n A0 A P Q r : inM f m n A0 -> inM f m n A -> is_ple f m n A0 A P Q r -> is_rank f m n A0 r.
Proof.
  intros HA0 HA H. apply (echelon_rank f Hf m n r Q A0 (ple_Ehat r Q A)); auto.
  - intros i j Hi Hj. unfold ple_Ehat. destruct (Nat.ltb_spec i r); [|now apply inF0]. apply (inM_ple_E m n r); auto. apply H.
  - now apply (ple_row_equiv m n A0 A P Q r).
  - now apply (ple_echelon m n A0 A P Q r).
Qed.
End Rank.
