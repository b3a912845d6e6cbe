(** Facts about PLE decompositions. *)
From Coq Require Import NArith Lia List Bool Arith.
From Coq Require Import ZifyBool ZifyNat ZifyN.
From Verif Require Import Base Spec LinSpec TrsmSpec PleSpec PolyFacts MatFacts EchFacts.
Local Open Scope nat_scope.

Lemma tr_swp a b i : tr a b i = swp a b i. Proof. reflexivity. Qed.
Lemma tr_tr a b i : tr a b (tr a b i) = i. Proof. apply swp_swp. Qed.
Lemma tr_out a b i : i <> a -> i <> b -> tr a b i = i.
Proof. intros. unfold tr. replace (i =? a) with false by lia. now replace (i =? b) with false by lia. Qed.
Lemma tr_ge a b i r : r <= a -> r <= b -> r <= i -> r <= tr a b i.
Proof. intros. unfold tr. destruct (i =? a), (i =? b); lia. Qed.
Lemma tr_out_id a i : tr a a i = i.
Proof. unfold tr. destruct (Nat.eqb_spec i a); lia. Qed.
Lemma tr_l a b : tr a b a = b. Proof. unfold tr. now rewrite Nat.eqb_refl. Qed.

Lemma swaps_ext P P' t i : (forall k, k < t -> P k = P' k) -> swaps P t i = swaps P' t i.
Proof.
  revert i. induction t as [|t IH]; intros i H; cbn [swaps]; [easy|]. rewrite H by lia. apply IH. intros; apply H; lia.
Qed.
Lemma swaps_lt P t i n : (forall k, k < t -> k < n /\ P k < n) -> i < n -> swaps P t i < n.
Proof.
  revert i. induction t as [|t IH]; intros i H Hi; cbn [swaps]; [easy|]. apply IH; [intros; apply H; lia|].
  apply swp_lt; auto; apply H; lia.
Qed.
Lemma swaps_inj P t i j : swaps P t i = swaps P t j -> i = j.
Proof.
  revert i j. induction t as [|t IH]; intros i j H; cbn [swaps] in H; [easy|]. apply IH in H.
  rewrite <- (tr_tr t (P t) i), H. apply tr_tr.
Qed.
Lemma swaps_id P t t' i : t <= t' -> (forall k, t <= k < t' -> P k = k) -> swaps P t' i = swaps P t i.
Proof.
  intros Ht. revert i. induction Ht as [|t' Ht IH]; intros i H; [easy|]. cbn [swaps]. rewrite H by lia.
  rewrite IH by (intros; apply H; lia). f_equal. unfold tr. destruct (Nat.eqb_spec i t'); lia.
Qed.
(** a position which is not moved *)
Lemma swaps_above P t j : (forall k, k < t -> k < j /\ P k < j) -> swaps P t j = j.
Proof.
  revert j. induction t as [|t IH]; intros j H; cbn [swaps]; [easy|]. pose proof (H t ltac:(lia)).
  rewrite tr_out by lia. apply IH. intros; apply H; lia.
Qed.
(** increasing pivots *)
Definition incr (r : nat) (Q : nat -> nat) : Prop := forall i i', i < i' -> i' < r -> Q i < Q i'.
Lemma incr_ge r Q : incr r Q -> forall i, i < r -> i <= Q i.
Proof.
  intros H i. induction i as [|i IH]; intros Hi; [lia|]. pose proof (IH ltac:(lia)). pose proof (H i (S i) ltac:(lia) Hi). lia.
Qed.
Lemma incr_le r Q i i' : incr r Q -> i <= i' -> i' < r -> Q i <= Q i'.
Proof. intros H Hi Hr. destruct (Nat.eq_dec i i') as [->|]; [easy|]. pose proof (H i i' ltac:(lia) Hr). lia. Qed.
Lemma swaps_piv r Q s i : incr r Q -> s <= r -> i < s -> swaps Q s i = Q i.
Proof.
  intros H Hs. revert i. induction s as [|s IH]; intros i Hi; [lia|]. cbn [swaps].
  pose proof (incr_ge r Q H s ltac:(lia)).
  destruct (Nat.eq_dec i s) as [->|].
  - rewrite tr_l. destruct (Nat.eq_dec s 0) as [->|Hs0]; [easy|]. apply swaps_above. intros k Hk.
    pose proof (H k s ltac:(lia) ltac:(lia)). lia.
  - rewrite tr_out by lia. apply IH; lia.
Qed.
Lemma swaps_nonpiv r Q s j : incr r Q -> s <= r -> s <= j -> forall i, i < s -> swaps Q s j <> Q i.
Proof.
  intros H Hs Hj i Hi E. rewrite <- (swaps_piv r Q s i H Hs Hi) in E. apply swaps_inj in E. lia.
Qed.
Lemma swaps_le r Q s j : incr r Q -> S s <= r -> j <= Q s -> swaps Q (S s) j <= Q s.
Proof.
  intros H Hs Hj. apply Nat.lt_succ_r. apply swaps_lt; [|lia]. intros k Hk.
  pose proof (incr_le r Q k s H ltac:(lia) ltac:(lia)). pose proof (incr_ge r Q H s ltac:(lia)). lia.
Qed.
Lemma swaps_right r Q s j : incr r Q -> S s <= r -> Q s < j -> swaps Q (S s) j = j.
Proof.
  intros H Hs Hj. apply swaps_above. intros k Hk.
  pose proof (incr_le r Q k s H ltac:(lia) ltac:(lia)). pose proof (incr_ge r Q H s ltac:(lia)). lia.
Qed.

(** ** the main loop of the elimination *)
Section Loop.
Variable f : N.
Hypothesis Hf : (1 <= pdeg f)%N.
Let f0 : f <> 0%N. Proof. intros ->. now cbn in Hf. Qed.

Definition npiv (r : nat) (Q : nat -> nat) (j : nat) : Prop := forall i, i < r -> Q i <> j.
(** after r pivots, with the columns before c done; P and Q are only relevant below r *)
Definition ple_inv (m n : nat) (A0 F : mat) (P Q : nat -> nat) (r c : nat) : Prop :=
  r <= m /\ c <= n /\ (forall i, i < r -> i <= P i < m) /\ (forall i, i < r -> Q i < c) /\ incr r Q /\
  (forall i, i < r -> F i (Q i) <> 0%N) /\
  (forall k j, r <= k < m -> j < c -> npiv r Q j -> F k j = 0%N) /\
  (forall k j, k < r -> j < Q k -> npiv k Q j -> F k j = 0%N) /\
  (forall k j, k < m -> j < n -> A0 (swaps P r k) j =
     N.lxor (xsum r (fun i => fmul f (if i <=? k then F k (Q i) else 0%N) (ple_E Q F i j)))
            (if (r <=? k) && (c <=? j) then F k j else 0%N)).

Lemma ple_inv_init m n A0 P Q : ple_inv m n A0 A0 P Q 0 0.
Proof. clear f0 Hf.
  unfold ple_inv, incr. do 8 (split; [intros; lia|]). intros k j Hk Hj. reflexivity.
Qed.
Lemma ple_inv_cols m n A0 F P Q r c c' : ple_inv m n A0 F P Q r c -> c <= c' <= n ->
  (forall k j, r <= k < m -> c <= j < c' -> F k j = 0%N) -> ple_inv m n A0 F P Q r c'.
Proof. clear f0 Hf.
  intros (H1 & H2 & H3 & H4 & H5 & H6 & H7 & H8 & H9) Hc Hz.
  split; [easy|]. split; [easy|]. split; [easy|]. split; [intros i Hi; specialize (H4 i Hi); lia|].
  split; [easy|]. split; [easy|]. split; [|split; [easy|]].
  - intros k j Hk Hj Hn. destruct (Nat.lt_ge_cases j c); [now apply H7|apply Hz; lia].
  - intros k j Hk Hj. rewrite H9 by easy. f_equal. destruct (Nat.leb_spec r k), (Nat.leb_spec c j), (Nat.leb_spec c' j); cbn [andb]; try easy; try lia.
    now rewrite Hz by lia.
Qed.
(** the matrix after one pivot step *)
Definition pstep (p r c : nat) (g : N) (F : mat) : mat :=
  let F1 : mat := fun i j => F (tr r p i) j in
  fun i j => if j <=? c then F1 i j
             else if i =? r then fmul f g (F1 r j)
             else if r <? i then N.lxor (F1 i j) (fmul f (F1 i c) (fmul f g (F1 r j)))
             else F1 i j.
Definition upf {A} (P : nat -> A) (r : nat) (x : A) : nat -> A := fun i => if i =? r then x else P i.
Lemma upf_eq {A} (P : nat -> A) r x : upf P r x r = x. Proof. unfold upf. now rewrite Nat.eqb_refl. Qed.
Lemma upf_ne {A} (P : nat -> A) r x i : i <> r -> upf P r x i = P i. Proof. intros. unfold upf. now replace (i =? r) with false by lia. Qed.

Lemma ple_inv_step m n A0 F P Q r c p g : inM f m n F -> ple_inv m n A0 F P Q r c -> c < n -> r <= p < m ->
  F p c <> 0%N -> inF f g -> fmul f g (F p c) = 1%N ->
  ple_inv m n A0 (pstep p r c g F) (upf P r p) (upf Q r c) (S r) (S c).
Proof.
  intros HF (H1 & H2 & H3 & H4 & H5 & H6 & H7 & H8 & H9) Hc Hp Hx Hg Eg.
  set (F1 := fun i j => F (tr r p i) j).
  assert (Lo : forall k j, k < r -> pstep p r c g F k j = F k j).
  { intros k j Hk. unfold pstep. rewrite tr_out by lia. replace (k =? r) with false by lia. replace (r <? k) with false by lia.
    now destruct (j <=? c). }
  assert (Lf : forall k j, j <= c -> pstep p r c g F k j = F (tr r p k) j).
  { intros k j Hj. unfold pstep. now replace (j <=? c) with true by lia. }
  assert (Np : forall i, i < r -> upf Q r c i = Q i) by (intros; apply upf_ne; lia).
  assert (Incr : incr (S r) (upf Q r c)).
  { intros i i' Hi Hi'. destruct (Nat.eq_dec i' r) as [->|].
    - rewrite upf_eq, Np by lia. apply H4; lia.
    - rewrite !Np by lia. apply H5; lia. }
  split; [lia|]. split; [lia|]. split; [|split; [|split; [exact Incr|split; [|split; [|split]]]]].
  - intros i Hi. destruct (Nat.eq_dec i r) as [->|]; [rewrite upf_eq; lia|]. rewrite upf_ne by lia. apply H3; lia.
  - intros i Hi. destruct (Nat.eq_dec i r) as [->|]; [rewrite upf_eq; lia|]. rewrite Np by lia. specialize (H4 i ltac:(lia)). lia.
  - intros i Hi. destruct (Nat.eq_dec i r) as [->|].
    + rewrite upf_eq, Lf by lia. rewrite tr_l. exact Hx.
    + rewrite Np, Lo by lia. apply H6; lia.
  - intros k j Hk Hj Hn. assert (j <> c). { intros ->. apply (Hn r ltac:(lia)). apply upf_eq. }
    rewrite Lf by lia. assert (r <= tr r p k) by (apply tr_ge; lia). apply H7; try lia.
    + pose proof (swp_lt r p k m ltac:(lia) ltac:(lia) ltac:(lia)). unfold tr, swp in *. lia.
    + intros i Hi. rewrite <- Np by lia. apply Hn. lia.
  - intros k j Hk Hj Hn. destruct (Nat.eq_dec k r) as [->|].
    + rewrite upf_eq in Hj. rewrite Lf, tr_l by lia. apply H7; try lia. intros i Hi. rewrite <- Np by lia. now apply Hn.
    + rewrite Np in Hj by lia. rewrite Lo by lia. apply H8; try lia. intros i Hi. rewrite <- Np by lia. now apply Hn.
  - intros k j Hk Hj. cbn [swaps]. rewrite upf_eq.
    assert (Hk' : tr r p k < m) by (apply swp_lt; lia).
    rewrite (swaps_ext (upf P r p) P) by (intros; apply upf_ne; lia). rewrite H9 by easy.
    cbn [xsum]. rewrite upf_eq.
    assert (ES : xsum r (fun i => fmul f (if i <=? tr r p k then F (tr r p k) (Q i) else 0%N) (ple_E Q F i j)) =
                 xsum r (fun i => fmul f (if i <=? k then pstep p r c g F k (upf Q r c i) else 0%N) (ple_E (upf Q r c) (pstep p r c g F) i j))).
    { apply xsum_ext. intros i Hi. f_equal.
      - rewrite Np by lia. rewrite Lf by (specialize (H4 i Hi); lia).
        replace (i <=? tr r p k) with (i <=? k); [easy|]. destruct (Nat.lt_ge_cases k r).
        + now rewrite tr_out by lia.
        + pose proof (tr_ge r p k r ltac:(lia) ltac:(lia) ltac:(lia)). lia.
      - unfold ple_E. rewrite Np by lia. now rewrite Lo by lia. }
    rewrite ES. set (S0 := xsum r _). rewrite N.lxor_assoc. f_equal. clear ES S0.
    destruct (Nat.lt_ge_cases k r) as [Hkr|Hkr].
    { rewrite tr_out by lia. replace (r <=? k) with false by lia. replace (S r <=? k) with false by lia. cbn [andb].
      now rewrite fmul_0_l. }
    replace (r <=? k) with true by lia.
    pose proof (tr_ge r p k r ltac:(lia) ltac:(lia) Hkr) as Hge.
    replace (r <=? tr r p k) with true by lia. cbn [andb].
    rewrite Lf by lia. unfold ple_E. rewrite upf_eq.
    destruct (Nat.lt_trichotomy j c) as [Hjc|[->|Hjc]].
    + replace (c <=? j) with false by lia. replace (S c <=? j) with false by lia. replace (j <? c) with true by lia.
      now rewrite andb_false_r, fmul_0_r.
    + replace (c <=? c) with true by lia. replace (S c <=? c) with false by lia. rewrite Nat.ltb_irrefl, Nat.eqb_refl, andb_false_r.
      rewrite fmul_1_r, N.lxor_0_r; auto.
    + replace (c <=? j) with true by lia. replace (S c <=? j) with true by lia. replace (j <? c) with false by lia.
      replace (j =? c) with false by lia. rewrite andb_true_r.
      assert (E1 : pstep p r c g F r j = fmul f g (F p j)).
      { unfold pstep. replace (j <=? c) with false by lia. now rewrite Nat.eqb_refl, tr_l. }
      rewrite E1. destruct (Nat.eq_dec k r) as [->|Hne].
      * replace (S r <=? r) with false by lia. rewrite N.lxor_0_r, tr_l.
        rewrite fmul_assoc by auto. rewrite (fmul_comm f (F p c) g), Eg. symmetry. apply fmul_1_l; auto. apply HF; lia.
      * replace (S r <=? k) with true by lia. unfold pstep. replace (j <=? c) with false by lia.
        replace (k =? r) with false by lia. replace (r <? k) with true by lia. rewrite tr_l.
        set (z := fmul f (F (tr r p k) c) (fmul f g (F p j))). symmetry. rewrite N.lxor_comm, N.lxor_assoc, N.lxor_nilpotent. apply N.lxor_0_r.
Qed.

(** packing: the column swaps at the end *)
Lemma ple_inv_done m n A0 F A P Q r : ple_inv m n A0 F P Q r n ->
  (forall i, r <= i < m -> P i = i) -> (forall i, r <= i < n -> Q i = i) ->
  (forall k j, k < m -> j < n -> A k j = F k (swaps Q (Nat.min r (S k)) j)) ->
  is_ple f m n A0 A P Q r.
Proof. clear f0 Hf.
  intros (H1 & H2 & H3 & H4 & H5 & H6 & H7 & H8 & H9) HP HQ HA. pose proof (incr_ge r Q H5) as Hge.
  assert (Hrn : r <= n). { destruct r as [|r']; [lia|]. specialize (Hge r' ltac:(lia)). specialize (H4 r' ltac:(lia)). lia. }
  split; [easy|]. split; [easy|]. split; [|split; [|split; [exact HP|split; [exact H5|split; [|split; [|split]]]]]].
  - intros i Hi. destruct (Nat.lt_ge_cases i r); [now apply H3|rewrite HP; lia].
  - intros i Hi. destruct (Nat.lt_ge_cases i r); [|rewrite HQ; lia]. split; [now apply Hge|now apply H4].
  - intros i Hi. rewrite HA by lia. rewrite (swaps_piv r Q) by (auto; lia). now apply H6.
  - intros k j Hk Hj. assert (Hjn : j < n) by (specialize (H4 k Hk); lia). rewrite HA by lia. replace (Nat.min r (S k)) with (S k) by lia.
    pose proof (swaps_le r Q k j H5 ltac:(lia) ltac:(lia)).
    pose proof (swaps_nonpiv r Q (S k) j H5 ltac:(lia) ltac:(lia)) as Np.
    apply H8; auto.
    + specialize (Np k ltac:(lia)). lia.
    + intros i Hi E. apply (Np i); [lia|easy].
  - intros k j Hk Hj. rewrite HA by lia. replace (Nat.min r (S k)) with r by lia.
    apply H7; try lia.
    + apply swaps_lt; [|lia]. intros i Hi. specialize (H4 i Hi). lia.
    + intros i Hi E. apply (swaps_nonpiv r Q r j H5 ltac:(lia) ltac:(lia) i Hi). easy.
  - intros k j Hk Hj. rewrite (swaps_id P r m) by (auto; lia). rewrite H9 by easy.
    replace (n <=? j) with false by lia. rewrite andb_false_r, N.lxor_0_r. unfold mmul. apply xsum_ext. intros i Hi. f_equal.
    + unfold ple_L. destruct (Nat.leb_spec i k); [|easy]. rewrite HA by lia. f_equal. symmetry. apply (swaps_piv r Q); auto; lia.
    + unfold ple_E. destruct (Nat.ltb_spec j (Q i)); [easy|]. destruct (Nat.eqb_spec j (Q i)); [easy|].
      rewrite HA by lia. replace (Nat.min r (S i)) with (S i) by lia. now rewrite (swaps_right r Q) by (auto; lia).
Qed.
End Loop.

(** ** first pivots *)
Lemma upf_here {A} (P : nat -> A) r x : upf P r x r = x. Proof. unfold upf. now rewrite Nat.eqb_refl. Qed.
Lemma upf_else {A} (P : nat -> A) r x i : i <> r -> upf P r x i = P i. Proof. intros. unfold upf. now replace (i =? r) with false by lia. Qed.
(** the rows passed over in the first r steps; the columns Q k hold L *)
Definition fp_inv (m : nat) (F : mat) (P Q : nat -> nat) (r : nat) : Prop :=
  forall k i j, k < r -> k <= i < P k -> j < m -> swaps P r j = swaps P k i -> F j (Q k) = 0%N.
Lemma fp_inv_ext m n F F' P P' Q Q' r : fp_inv m F P Q r -> meq m n F F' -> (forall i, i < r -> P i = P' i) -> (forall i, i < r -> Q i = Q' i) ->
  (forall i, i < r -> Q i < n) -> fp_inv m F' P' Q' r.
Proof.
  intros H HF HP HQ Hn k i j Hk Hi Hj E. rewrite <- HF by (auto; rewrite <- HQ by easy; now apply Hn). rewrite <- HQ by easy.
  apply (H k i j); auto; [rewrite HP by easy; exact Hi|].
  rewrite (swaps_ext P P') by exact HP. rewrite E. apply swaps_ext. intros t Ht. symmetry. apply HP. lia.
Qed.
Lemma fp_inv_step f m F P Q r c p g : fp_inv m F P Q r -> (forall i, i < r -> Q i < c) -> r <= p < m -> r < m ->
  (forall i, r <= i < p -> F i c = 0%N) -> fp_inv m (pstep f p r c g F) (upf P r p) (upf Q r c) (S r).
Proof.
  intros H HQ Hp Hr Hz k i j Hk Hi Hj E. cbn [swaps] in E. rewrite upf_here in E.
  rewrite (swaps_ext (upf P r p) P r) in E by (intros t Ht; apply upf_else; lia).
  rewrite (swaps_ext (upf P r p) P k) in E by (intros t Ht; apply upf_else; lia).
  assert (Hj' : tr r p j < m) by (apply swp_lt; lia).
  destruct (Nat.eq_dec k r) as [->|].
  - rewrite upf_here in Hi |- *. apply swaps_inj in E. unfold pstep. rewrite Nat.leb_refl, E. apply Hz. lia.
  - rewrite upf_else in Hi |- * by easy. pose proof (HQ k ltac:(lia)). unfold pstep. replace (Q k <=? c) with true by lia.
    apply (H k i); auto; lia.
Qed.
Lemma fp_inv_done m n F A P Q r : fp_inv m F P Q r -> incr r Q -> r <= m -> r <= n -> (forall i, r <= i < m -> P i = i) ->
  (forall k j, k < m -> j < n -> A k j = F k (swaps Q (Nat.min r (S k)) j)) -> first_pivots m A P r.
Proof.
  intros H HQ Hm Hn HP HA k i j Hk Hi Hj E. unfold ple_L. destruct (Nat.leb_spec k j); [|easy].
  rewrite HA by lia. rewrite (swaps_piv r Q) by (auto; lia). apply (H k i j); auto. rewrite <- E. symmetry. apply swaps_id; auto.
Qed.
