(** A PLE decomposition with first pivots is unique. *)
From Coq Require Import NArith Lia List Bool Arith.
From Coq Require Import ZifyBool ZifyNat ZifyN.
From Verif Require Import Base Spec LinSpec PleSpec PolyFacts MatFacts EchFacts PleFacts PermProofs.
Local Open Scope nat_scope.

Lemma swaps_low P t t' i : t <= t' -> (forall k, t <= k < t' -> k <= P k) -> i < t -> swaps P t' i = swaps P t i.
Proof.
  intros Ht H Hi. induction Ht as [|t' Ht IH]; [easy|]. cbn [swaps]. pose proof (H t' ltac:(lia)).
  rewrite tr_out by lia. apply IH. intros k Hk. apply H. lia.
Qed.

Section Uniq.
Variable f : N.
Hypothesis Hirr : irreducible f.
Hypothesis Hf : (1 <= pdeg f)%N.
Let f0 : f <> 0%N. Proof. intros ->. now cbn in Hf. Qed.
Variables (m n : nat) (A0 : mat).

(** the steps before k agree *)
Definition agree (A A' : mat) (P P' Q Q' : nat -> nat) (k : nat) : Prop :=
  (forall t, t < k -> P t = P' t) /\ (forall t, t < k -> Q t = Q' t) /\
  (forall j j' t, j < m -> j' < m -> swaps P m j = swaps P' m j' -> t < k -> ple_L A j t = ple_L A' j' t) /\
  (forall t c, t < k -> c < n -> ple_E Q A t c = ple_E Q' A' t c).
Lemma agree_sym A A' P P' Q Q' k : agree A A' P P' Q Q' k -> agree A' A P' P Q' Q k.
Proof.
  clear. intros (H1 & H2 & H3 & H4). split; [intros t Ht; now rewrite H1|]. split; [intros t Ht; now rewrite H2|].
  split; [intros j j' t Hj Hj' E Ht; symmetry; now apply H3|intros t c Ht Hc; symmetry; now apply H4].
Qed.
Definition tail (A : mat) (Q : nat -> nat) (r k j c : nat) : N :=
  mmul f (r - k) (fun i t => ple_L A i (k + t)) (fun t c => ple_E Q A (k + t) c) j c.
Lemma tail_split A Q r k j c : k <= r ->
  mmul f r (ple_L A) (ple_E Q A) j c = N.lxor (mmul f k (ple_L A) (ple_E Q A) j c) (tail A Q r k j c).
Proof. clear. intros Hk. replace r with (k + (r - k)) at 1 by lia. rewrite mmul_split. unfold tail. now replace (k + (r - k) - k) with (r - k) by lia. Qed.

Lemma tail_left A P Q r k j c : is_ple f m n A0 A P Q r -> k < r -> c < Q k -> tail A Q r k j c = 0%N.
Proof.
  clear. intros (_ & _ & _ & _ & _ & H5 & _) Hk Hc. unfold tail. apply mmul_0_r. intros t Ht. unfold ple_E.
  pose proof (incr_le r Q k (k + t) H5 ltac:(lia) ltac:(lia)). now replace (c <? Q (k + t)) with true by lia.
Qed.
Lemma tail_at A P Q r k j : inM f m n A -> is_ple f m n A0 A P Q r -> k < r -> j < m -> tail A Q r k j (Q k) = ple_L A j k.
Proof.
  intros IA (H1 & H2 & H3 & H4 & H4' & H5 & _) Hk Hj. unfold tail. replace (r - k) with (1 + (r - k - 1)) by lia. rewrite mmul_split.
  rewrite (mmul_0_r f (r - k - 1)).
  - rewrite N.lxor_0_r. unfold mmul. cbn [xsum]. rewrite N.lxor_0_l. rewrite Nat.add_0_r. unfold ple_E. rewrite Nat.ltb_irrefl, Nat.eqb_refl.
    apply fmul_1_r; auto. unfold ple_L. destruct (k <=? j); [apply IA; lia|now apply inF0].
  - intros t Ht. unfold ple_E. pose proof (H5 k (k + (1 + t)) ltac:(lia) ltac:(lia)). now replace (Q k <? Q (k + (1 + t))) with true by lia.
Qed.
Lemma tail_diag A Q r k c : k < r -> tail A Q r k k c = fmul f (ple_L A k k) (ple_E Q A k c).
Proof.
  clear. intros Hk. unfold tail. replace (r - k) with (1 + (r - k - 1)) by lia. rewrite mmul_split. rewrite (mmul_0_l f (r - k - 1)).
  - rewrite N.lxor_0_r. unfold mmul. cbn [xsum]. rewrite N.lxor_0_l. now rewrite Nat.add_0_r.
  - intros t Ht. unfold ple_L. now replace (k + (1 + t) <=? k) with false by lia.
Qed.
Lemma tails A A' P P' Q Q' r r' k : is_ple f m n A0 A P Q r -> is_ple f m n A0 A' P' Q' r' -> agree A A' P P' Q Q' k -> k <= r -> k <= r' ->
  forall j j' c, j < m -> j' < m -> swaps P m j = swaps P' m j' -> c < n -> tail A Q r k j c = tail A' Q' r' k j' c.
Proof.
  clear. intros K K' (_ & _ & G3 & G4) Hk Hk' j j' c Hj Hj' E Hc.
  destruct K as (_ & _ & _ & _ & _ & _ & _ & _ & _ & KP). destruct K' as (_ & _ & _ & _ & _ & _ & _ & _ & _ & KP').
  pose proof (KP j c Hj Hc) as X. pose proof (KP' j' c Hj' Hc) as X'. cbv beta in X, X'. rewrite <- E in X'. rewrite X in X'.
  rewrite (tail_split A Q r k) in X' by easy. rewrite (tail_split A' Q' r' k) in X' by easy.
  assert (Y : mmul f k (ple_L A) (ple_E Q A) j c = mmul f k (ple_L A') (ple_E Q' A') j' c).
  { unfold mmul. apply xsum_ext. intros t Ht. now rewrite (G3 j j' t), (G4 t c) by easy. }
  rewrite Y in X'. apply (f_equal (N.lxor (mmul f k (ple_L A') (ple_E Q' A') j' c))) in X'. now rewrite <- !N.lxor_assoc, N.lxor_nilpotent, !N.lxor_0_l in X'.
Qed.
Lemma partner P P' : valid_perm m P -> valid_perm m P' -> forall j, j < m -> exists j', j' < m /\ swaps P m j = swaps P' m j'.
Proof.
  clear. intros V V' j Hj. exists (unswaps P' m (swaps P m j)). split.
  - apply unswaps_lt; [intros k Hk; pose proof (V' k Hk); lia|]. apply swaps_lt; auto. intros k Hk. pose proof (V k Hk). lia.
  - symmetry. apply swaps_unswaps.
Qed.
(** one half of a step *)
Lemma half A A' P P' Q Q' r r' k : inM f m n A -> is_ple f m n A0 A P Q r -> is_ple f m n A0 A' P' Q' r' -> agree A A' P P' Q Q' k ->
  k < r -> k <= r' -> k < r' /\ Q' k <= Q k.
Proof.
  intros IA K K' G Hk Hk'. pose proof K as (H1 & H2 & H3 & H4 & H4' & H5 & H6 & _). pose proof K' as (H1' & H2' & H3' & _).
  destruct (partner P P' H3 H3' k ltac:(lia)) as (j' & Hj' & Ej). pose proof (H4 k ltac:(lia)) as Hq.
  assert (X : tail A' Q' r' k j' (Q k) = A k k).
  { rewrite <- (tails A A' P P' Q Q' r r' k K K' G ltac:(lia) ltac:(lia) k j') by (auto; lia).
    rewrite (tail_at A P Q r k k IA K) by lia. unfold ple_L. now rewrite Nat.leb_refl. }
  specialize (H6 k Hk). destruct (Nat.lt_ge_cases k r') as [L|L].
  - split; [exact L|]. destruct (Nat.le_gt_cases (Q' k) (Q k)) as [C|C]; [exact C|]. exfalso. apply H6. rewrite <- X.
    apply (tail_left A' P' Q' r' k j' (Q k) K'); lia.
  - exfalso. apply H6. rewrite <- X. unfold tail. replace (r' - k) with 0 by lia. reflexivity.
Qed.
Lemma half_P A A' P P' r' k : valid_perm m P -> valid_perm m P' -> (forall t, t < k -> P t = P' t) -> k < r' -> k < m ->
  first_pivots m A' P' r' -> A k k <> 0%N ->
  (forall j j', j < m -> j' < m -> swaps P m j = swaps P' m j' -> ple_L A j k = ple_L A' j' k) -> P' k <= P k.
Proof.
  clear. intros V V' EP Hk Hm FP Hd EL. destruct (Nat.le_gt_cases (P' k) (P k)) as [C|C]; [exact C|]. exfalso.
  destruct (partner P P' V V' k Hm) as (j' & Hj' & Ej). pose proof (V k Hm).
  apply Hd. transitivity (ple_L A k k); [unfold ple_L; now rewrite Nat.leb_refl|]. rewrite (EL k j') by auto.
  apply (FP k (P k) j'); [lia|lia|lia|]. rewrite <- Ej. rewrite (swaps_low P (S k) m k) by (try lia; intros t Ht; pose proof (V t ltac:(lia)); lia).
  cbn [swaps]. rewrite tr_l. now apply swaps_ext.
Qed.
Lemma agree_step A A' P P' Q Q' r r' k : inM f m n A -> inM f m n A' -> is_ple f m n A0 A P Q r -> is_ple f m n A0 A' P' Q' r' ->
  first_pivots m A P r -> first_pivots m A' P' r' -> agree A A' P P' Q Q' k -> k < r -> k <= r' -> k < r' /\ agree A A' P P' Q Q' (S k).
Proof.
  intros IA IA' K K' FP FP' G Hk Hk'. destruct (half A A' P P' Q Q' r r' k IA K K' G Hk Hk') as (L & Q1).
  destruct (half A' A P' P Q' Q r' r k IA' K' K (agree_sym _ _ _ _ _ _ _ G) L ltac:(lia)) as (_ & Q2).
  split; [exact L|]. assert (EQ : Q k = Q' k) by lia. clear Q1 Q2.
  pose proof G as (G1 & G2 & G3 & G4). pose proof K as (H1 & H2 & H3 & H4 & H4' & H5 & H6 & _). pose proof K' as (H1' & H2' & H3' & _ & _ & _ & H6' & _).
  pose proof (H4 k ltac:(lia)) as Hq.
  assert (EL : forall j j', j < m -> j' < m -> swaps P m j = swaps P' m j' -> ple_L A j k = ple_L A' j' k).
  { intros j j' Hj Hj' E. rewrite <- (tail_at A P Q r k j IA K), <- (tail_at A' P' Q' r' k j' IA' K') by lia. rewrite <- EQ.
    apply (tails A A' P P' Q Q' r r' k K K' G); auto; lia. }
  assert (EP : P k = P' k).
  { apply Nat.le_antisymm.
    - apply (half_P A' A P' P r k); auto; try lia; [intros t Ht; symmetry; auto|].
      intros j j' Hj Hj' E. symmetry. apply EL; auto.
    - apply (half_P A A' P P' r' k); auto; lia. }
  assert (EPS : forall t, t < S k -> P t = P' t) by (intros t Ht; destruct (Nat.eq_dec t k) as [->|]; [exact EP|apply G1; lia]).
  split; [exact EPS|]. split; [intros t Ht; destruct (Nat.eq_dec t k) as [->|]; [exact EQ|apply G2; lia]|].
  split; [intros j j' t Hj Hj' E Ht; destruct (Nat.eq_dec t k) as [->|]; [now apply EL|apply G3; auto; lia]|].
  intros t c Ht Hc. destruct (Nat.eq_dec t k) as [->|]; [|apply G4; auto; lia].
  assert (Es : swaps P m k = swaps P' m k).
  { rewrite (swaps_low P (S k) m k), (swaps_low P' (S k) m k); try lia; [now apply swaps_ext| |]; intros t Ht'; [pose proof (H3' t ltac:(lia))|pose proof (H3 t ltac:(lia))]; lia. }
  pose proof (tails A A' P P' Q Q' r r' k K K' G ltac:(lia) ltac:(lia) k k c ltac:(lia) ltac:(lia) Es Hc) as X.
  rewrite !tail_diag in X by lia. rewrite <- (EL k k) in X by (auto; lia).
  assert (Lk : ple_L A k k = A k k) by (unfold ple_L; now rewrite Nat.leb_refl). rewrite Lk in X.
  destruct (inverse_exists f (A k k) Hirr) as (g & Hg & Eg); [rewrite pmod_small by (auto; apply IA; lia); apply H6; lia|]. rewrite fmul_comm in Eg.
  assert (InE : inF f (ple_E Q A k c)). { unfold ple_E. destruct (_ <? _); [now apply inF0|]. destruct (_ =? _); [now apply inF1|apply IA; lia]. }
  assert (InE' : inF f (ple_E Q' A' k c)). { unfold ple_E. destruct (_ <? _); [now apply inF0|]. destruct (_ =? _); [now apply inF1|apply IA'; lia]. }
  assert (InA : inF f (A k k)) by (apply IA; lia).
  apply (f_equal (fmul f g)) in X. rewrite !fmul_assoc in X by auto. rewrite Eg in X. rewrite !fmul_1_l in X by auto. exact X.
Qed.
Lemma agree_all A A' P P' Q Q' r r' : inM f m n A -> inM f m n A' -> is_ple f m n A0 A P Q r -> is_ple f m n A0 A' P' Q' r' ->
  first_pivots m A P r -> first_pivots m A' P' r' -> forall k, k <= r -> k <= r' /\ agree A A' P P' Q Q' k.
Proof.
  intros IA IA' K K' FP FP'. induction k as [|k IH]; intros Hk.
  - split; [lia|]. split; [intros; lia|]. split; [intros; lia|]. split; intros; lia.
  - destruct (IH ltac:(lia)) as (L & G). destruct (agree_step A A' P P' Q Q' r r' k IA IA' K K' FP FP' G ltac:(lia) L). split; [lia|easy].
Qed.
Theorem ple_unique A A' P P' Q Q' r r' : inM f m n A -> inM f m n A' -> is_ple f m n A0 A P Q r -> is_ple f m n A0 A' P' Q' r' ->
  first_pivots m A P r -> first_pivots m A' P' r' ->
  r = r' /\ (forall i, i < m -> P i = P' i) /\ (forall i, i < r -> Q i = Q' i) /\ meq m n A A'.
Proof.
  intros IA IA' K K' FP FP'. destruct (agree_all A A' P P' Q Q' r r' IA IA' K K' FP FP' r ltac:(lia)) as (L & G).
  destruct (agree_all A' A P' P Q' Q r' r IA' IA K' K FP' FP r' ltac:(lia)) as (L' & _).
  assert (r = r') as <- by lia. split; [easy|]. destruct G as (G1 & G2 & G3 & G4).
  destruct K as (H1 & H2 & H3 & H4 & H4' & H5 & H6 & H7 & H8 & _). destruct K' as (_ & _ & _ & _ & J4' & _ & _ & J7 & J8 & _).
  assert (EP : forall i, i < m -> P i = P' i). { intros i Hi. destruct (Nat.lt_ge_cases i r); [now apply G1|]. rewrite H4', J4' by lia. easy. }
  split; [exact EP|]. split; [exact G2|]. intros i j Hi Hj.
  assert (ES : swaps P m i = swaps P' m i) by (apply swaps_ext; exact EP).
  destruct (Nat.lt_ge_cases j r) as [Hr|Hr]; [destruct (Nat.le_gt_cases j i) as [Hji|Hji]|destruct (Nat.le_gt_cases r i) as [Hri|Hri]].
  - pose proof (G3 i i j Hi Hi ES Hr) as X. unfold ple_L in X. now replace (j <=? i) with true in X by lia.
  - destruct (Nat.le_gt_cases j (Q i)) as [C|C]; [rewrite H7, J7 by (try rewrite <- G2 by lia; lia); easy|].
    pose proof (G4 i j ltac:(lia) Hj) as X. unfold ple_E in X. rewrite <- G2 in X by lia.
    replace (j <? Q i) with false in X by lia. now replace (j =? Q i) with false in X by lia.
  - rewrite H8, J8 by lia. easy.
  - destruct (Nat.le_gt_cases j (Q i)) as [C|C]; [rewrite H7, J7 by (try rewrite <- G2 by lia; lia); easy|].
    pose proof (G4 i j ltac:(lia) Hj) as X. unfold ple_E in X. rewrite <- G2 in X by lia.
    replace (j <? Q i) with false in X by lia. now replace (j =? Q i) with false in X by lia.
Qed.
End Uniq.
