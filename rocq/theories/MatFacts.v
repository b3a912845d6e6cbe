(** Algebra of matrices over GF(2)[X]/(f), as functions. *)
From Coq Require Import NArith Lia List Bool Arith Ring.
From Coq Require Import ZifyBool ZifyNat ZifyN.
From Verif Require Import Base Spec LinSpec PolyFacts.
Local Open Scope nat_scope.

(** ** sums *)
Lemma xsum_0 n g : (forall i, i < n -> g i = 0%N) -> xsum n g = 0%N.
Proof.
  induction n as [|n IH]; intros H; cbn [xsum]; [reflexivity|]. rewrite IH, H by (intros; try apply H; lia). reflexivity.
Qed.
Lemma xsum_lxor n g h : xsum n (fun i => N.lxor (g i) (h i)) = N.lxor (xsum n g) (xsum n h).
Proof. induction n as [|n IH]; cbn [xsum]; [reflexivity|]. rewrite IH. ring. Qed.
Lemma xsum_fmul_l f n a g : f <> 0%N -> fmul f a (xsum n g) = xsum n (fun i => fmul f a (g i)).
Proof.
  intros f0. induction n as [|n IH]; cbn [xsum]; [apply fmul_0_r|]. now rewrite fmul_lxor_r, IH.
Qed.
Lemma xsum_fmul_r f n a g : f <> 0%N -> fmul f (xsum n g) a = xsum n (fun i => fmul f (g i) a).
Proof.
  intros f0. rewrite fmul_comm, xsum_fmul_l by easy. apply xsum_ext. intros. apply fmul_comm.
Qed.
Lemma xsum_swap m n (g : nat -> nat -> N) :
  xsum m (fun i => xsum n (fun j => g i j)) = xsum n (fun j => xsum m (fun i => g i j)).
Proof.
  induction m as [|m IH]; cbn [xsum].
  - symmetry. now apply xsum_0.
  - rewrite IH, <- xsum_lxor. reflexivity.
Qed.
Lemma xsum_split a b g : xsum (a + b) g = N.lxor (xsum a g) (xsum b (fun i => g (a + i))).
Proof.
  induction b as [|b IH]; cbn [xsum].
  - now rewrite Nat.add_0_r, N.lxor_0_r.
  - rewrite Nat.add_succ_r. cbn [xsum]. rewrite IH. ring.
Qed.
Lemma xsum_single n k g : k < n -> (forall i, i < n -> i <> k -> g i = 0%N) -> xsum n g = g k.
Proof.
  intros Hk H. induction n as [|n IH]; [lia|]. cbn [xsum]. destruct (Nat.eq_dec k n) as [->|Hne].
  - rewrite xsum_0; [apply N.lxor_0_l|]. intros i Hi. apply H; lia.
  - rewrite IH, (H n) by (intros; try apply H; lia). apply N.lxor_0_r.
Qed.
Lemma xsum_lt n g b : (forall i, i < n -> (g i < 2 ^ b)%N) -> (xsum n g < 2 ^ b)%N.
Proof.
  induction n as [|n IH]; intros H; cbn [xsum].
  - apply N.neq_0_lt_0, N.pow_nonzero. lia.
  - apply lxor_lt_pow2; [apply IH; intros; apply H|apply H]; lia.
Qed.
Lemma xsum_1 g : xsum 1 g = g 0. Proof. cbn. apply N.lxor_0_l. Qed.

(** ** matrices *)
Lemma meq_refl m n A : meq m n A A. Proof. now intros i j _ _. Qed.
Lemma meq_sym m n A B : meq m n A B -> meq m n B A.
Proof. intros H i j Hi Hj. symmetry. now apply H. Qed.
Lemma meq_trans m n A B C : meq m n A B -> meq m n B C -> meq m n A C.
Proof. intros H1 H2 i j Hi Hj. rewrite H1 by easy. now apply H2. Qed.

Lemma inM_mmul f m l n A B : f <> 0%N -> inM f m n (mmul f l A B).
Proof. intros f0 i j _ _. apply xsum_lt. intros k _. now apply fmul_lt. Qed.
Lemma inM_madd f m n A B : inM f m n A -> inM f m n B -> inM f m n (madd A B).
Proof. intros HA HB i j Hi Hj. apply lxor_lt_pow2; [now apply HA|now apply HB]. Qed.
Lemma inM_mone f m n : (1 <= pdeg f)%N -> inM f m n mone.
Proof.
  intros H i j _ _. unfold mone, inF. destruct (i =? j).
  - apply (N.pow_lt_mono_r 2 0); lia.
  - apply N.neq_0_lt_0, N.pow_nonzero. lia.
Qed.
Lemma inM_meq f m n A B : meq m n A B -> inM f m n A -> inM f m n B.
Proof. intros E H i j Hi Hj. rewrite <- E by easy. now apply H. Qed.

Lemma mmul_ext f m l n A A' B B' : meq m l A A' -> meq l n B B' -> meq m n (mmul f l A B) (mmul f l A' B').
Proof.
  intros HA HB i j Hi Hj. unfold mmul. apply xsum_ext. intros k Hk. now rewrite HA, HB.
Qed.
Lemma mmul_assoc f m l p n A B C : f <> 0%N ->
  meq m n (mmul f p (mmul f l A B) C) (mmul f l A (mmul f p B C)).
Proof.
  intros f0 i j Hi Hj. unfold mmul.
  transitivity (xsum p (fun k => xsum l (fun q => fmul f (fmul f (A i q) (B q k)) (C k j)))).
  { apply xsum_ext. intros k Hk. now apply xsum_fmul_r. }
  rewrite xsum_swap. apply xsum_ext. intros q Hq. rewrite xsum_fmul_l by easy.
  apply xsum_ext. intros k Hk. symmetry. now apply fmul_assoc.
Qed.
Lemma mmul_1_l f m n A : f <> 0%N -> inM f m n A -> meq m n (mmul f m mone A) A.
Proof.
  intros f0 HA i j Hi Hj. unfold mmul, mone. rewrite (xsum_single _ i); auto.
  - rewrite Nat.eqb_refl. apply fmul_1_l; auto.
  - intros k Hk Hne. replace (i =? k) with false by lia. apply fmul_0_l.
Qed.
Lemma mmul_1_r f m n A : f <> 0%N -> inM f m n A -> meq m n (mmul f n A mone) A.
Proof.
  intros f0 HA i j Hi Hj. unfold mmul, mone. rewrite (xsum_single _ j); auto.
  - rewrite Nat.eqb_refl. apply fmul_1_r; auto.
  - intros k Hk Hne. replace (k =? j) with false by lia. apply fmul_0_r.
Qed.
Lemma mmul_add_l f l A A' B i j : f <> 0%N ->
  mmul f l (madd A A') B i j = N.lxor (mmul f l A B i j) (mmul f l A' B i j).
Proof.
  intros f0. unfold mmul, madd. rewrite <- xsum_lxor. apply xsum_ext. intros k Hk. now apply fmul_lxor_l.
Qed.
Lemma mmul_add_r f l A B B' i j : f <> 0%N ->
  mmul f l A (madd B B') i j = N.lxor (mmul f l A B i j) (mmul f l A B' i j).
Proof.
  intros f0. unfold mmul, madd. rewrite <- xsum_lxor. apply xsum_ext. intros k Hk. now apply fmul_lxor_r.
Qed.
Lemma mmul_0_l f l B i j A : (forall k, k < l -> A i k = 0%N) -> mmul f l A B i j = 0%N.
Proof. intros H. apply xsum_0. intros k Hk. rewrite H by easy. apply fmul_0_l. Qed.
Lemma mmul_0_r f l A i j B : (forall k, k < l -> B k j = 0%N) -> mmul f l A B i j = 0%N.
Proof. intros H. apply xsum_0. intros k Hk. rewrite H by easy. apply fmul_0_r. Qed.
Lemma mmul_split f a b A B i j :
  mmul f (a + b) A B i j = N.lxor (mmul f a A B i j) (mmul f b (fun i k => A i (a + k)) (fun k j => B (a + k) j) i j).
Proof. unfold mmul. apply xsum_split. Qed.

(** ** invertible matrices and row equivalence *)

Section Field.
Variable f : N.
Hypothesis Hf : (1 <= pdeg f)%N.
Let f0 : f <> 0%N.
Proof. intros ->. cbn in Hf. lia. Qed.

Lemma inverse_one m : inverse f m mone mone.
Proof.
  repeat split; try now apply inM_mone.
  - apply mmul_1_l; auto. now apply inM_mone.
  - apply mmul_1_l; auto. now apply inM_mone.
Qed.
Lemma inverse_mul m S S' T T' : inverse f m S S' -> inverse f m T T' ->
  inverse f m (mmul f m S T) (mmul f m T' S').
Proof.
  intros (S1 & S2 & S3 & S4) (T1 & T2 & T3 & T4). repeat split; try now apply inM_mmul.
  - eapply meq_trans; [apply mmul_assoc; auto|].
    eapply meq_trans; [apply mmul_ext; [apply meq_refl|]; eapply meq_trans; [apply meq_sym, mmul_assoc; auto|]; 
      apply mmul_ext; [exact T3|apply meq_refl]|].
    eapply meq_trans; [apply mmul_ext; [apply meq_refl|apply mmul_1_l; auto]|]. exact S3.
  - eapply meq_trans; [apply mmul_assoc; auto|].
    eapply meq_trans; [apply mmul_ext; [apply meq_refl|]; eapply meq_trans; [apply meq_sym, mmul_assoc; auto|]; 
      apply mmul_ext; [exact S4|apply meq_refl]|].
    eapply meq_trans; [apply mmul_ext; [apply meq_refl|apply mmul_1_l; auto]|]. exact T4.
Qed.
Lemma row_equiv_refl m n A : inM f m n A -> row_equiv f m n A A.
Proof.
  intros HA. exists mone, mone. split; [apply inverse_one|]. apply meq_sym. now apply mmul_1_l.
Qed.
Lemma row_equiv_trans m n A B C : row_equiv f m n A B -> row_equiv f m n B C -> row_equiv f m n A C.
Proof.
  intros (S & S' & HS & ES) (T & T' & HT & ET). exists (mmul f m T S), (mmul f m S' T').
  split; [now apply inverse_mul|]. eapply meq_trans; [exact ET|].
  eapply meq_trans; [apply mmul_ext; [apply meq_refl|exact ES]|]. apply meq_sym. now apply mmul_assoc.
Qed.
Lemma row_equiv_ext m n A R R' : row_equiv f m n A R -> meq m n R R' -> row_equiv f m n A R'.
Proof.
  intros (T & T' & HT & ET) E. exists T, T'. split; [easy|]. eapply meq_trans; [apply meq_sym; exact E|easy].
Qed.
Lemma row_equiv_ext_l m n A A' R : row_equiv f m n A R -> meq m n A A' -> row_equiv f m n A' R.
Proof.
  intros (T & T' & HT & ET) E. exists T, T'. split; [easy|]. eapply meq_trans; [exact ET|].
  apply mmul_ext; [apply meq_refl|easy].
Qed.
Lemma row_equiv_sym m n A R : inM f m n A -> row_equiv f m n A R -> row_equiv f m n R A.
Proof.
  intros HA (T & T' & (H1 & H2 & H3 & H4) & E). exists T', T. split; [now repeat split|].
  apply meq_sym. eapply meq_trans; [apply mmul_ext; [apply meq_refl|exact E]|].
  eapply meq_trans; [apply meq_sym, mmul_assoc; auto|].
  eapply meq_trans; [apply mmul_ext; [exact H4|apply meq_refl]|]. now apply mmul_1_l.
Qed.

(** swapping two rows *)
Definition swp (a b i : nat) : nat := if i =? a then b else if i =? b then a else i.
Lemma swp_lt a b i m : a < m -> b < m -> i < m -> swp a b i < m.
Proof. clear f0 Hf. unfold swp. destruct (i =? a), (i =? b); lia. Qed.
Lemma swp_swp a b i : swp a b (swp a b i) = i.
Proof.
  clear f0 Hf. unfold swp. destruct (Nat.eqb_spec i a) as [E1|E1], (Nat.eqb_spec i b) as [E2|E2];
    repeat match goal with |- context [?x =? ?y] => destruct (Nat.eqb_spec x y) end; lia.
Qed.
Lemma perm_mul m n (s : nat -> nat) A i j : inM f m n A -> s i < m -> j < n ->
  mmul f m (fun i k => if k =? s i then 1%N else 0%N) A i j = A (s i) j.
Proof.
  intros HA Hs Hj. unfold mmul. rewrite (xsum_single _ (s i)); auto.
  - rewrite Nat.eqb_refl. apply fmul_1_l; auto.
  - intros k Hk Hne. replace (k =? s i) with false by lia. apply fmul_0_l.
Qed.
Lemma row_equiv_swap m n A a b : inM f m n A -> a < m -> b < m -> row_equiv f m n A (fun i j => A (swp a b i) j).
Proof.
  intros HA Ha Hb. set (T := fun i k : nat => if k =? swp a b i then 1%N else 0%N).
  assert (HT : inM f m m T).
  { intros i k _ _. unfold T. pose proof (inM_mone f 1 1 Hf 0 0 Nat.lt_0_1 Nat.lt_0_1) as O. unfold mone in O. cbn in O.
    destruct (k =? swp a b i); [exact O|]. apply N.neq_0_lt_0, N.pow_nonzero. lia. }
  assert (TT : meq m m (mmul f m T T) mone).
  { intros i j Hi Hj. unfold T at 1. rewrite perm_mul with (n := m) (s := swp a b); auto using swp_lt.
    unfold T, mone. rewrite swp_swp. now rewrite Nat.eqb_sym. }
  exists T, T. split; [now repeat split|]. intros i j Hi Hj. unfold T. symmetry.
  apply (perm_mul m n (swp a b)); auto using swp_lt.
Qed.

(** scaling row p by g <> 0 and adding beta i times row p to the rows i <> p *)
Definition pivot_op (p : nat) (g : N) (beta : nat -> N) (A : mat) : mat :=
  fun i j => if i =? p then fmul f g (A p j) else N.lxor (A i j) (fmul f (beta i) (A p j)).
Definition pivot_mat (p : nat) (g : N) (beta : nat -> N) : mat :=
  fun i k => if i =? p then (if k =? p then g else 0%N)
             else N.lxor (if k =? i then 1%N else 0%N) (if k =? p then beta i else 0%N).
Lemma pivot_mat_mul m n p g beta A i j : inM f m n A -> p < m -> i < m -> j < n ->
  mmul f m (pivot_mat p g beta) A i j = pivot_op p g beta A i j.
Proof.
  intros HA Hp Hi Hj. unfold mmul, pivot_mat, pivot_op. destruct (Nat.eqb_spec i p) as [->|Hne].
  - rewrite (xsum_single _ p); auto.
    + now rewrite Nat.eqb_refl.
    + intros k Hk Hkp. replace (k =? p) with false by lia. apply fmul_0_l.
  - transitivity (xsum m (fun k => N.lxor (fmul f (if k =? i then 1%N else 0%N) (A k j)) (fmul f (if k =? p then beta i else 0%N) (A k j)))).
    { apply xsum_ext. intros k Hk. now apply fmul_lxor_l. }
    rewrite xsum_lxor. f_equal.
    + rewrite (xsum_single _ i); auto.
      * rewrite Nat.eqb_refl. apply fmul_1_l; auto.
      * intros k Hk Hki. replace (k =? i) with false by lia. apply fmul_0_l.
    + rewrite (xsum_single _ p); auto.
      * now rewrite Nat.eqb_refl.
      * intros k Hk Hkp. replace (k =? p) with false by lia. apply fmul_0_l.
Qed.
Lemma inF1 : inF f 1.
Proof. unfold inF. apply (N.pow_lt_mono_r 2 0); lia. Qed.
Lemma inF0 : inF f 0.
Proof. apply N.neq_0_lt_0, N.pow_nonzero. lia. Qed.
Lemma inM_pivot_mat m p g beta : inF f g -> (forall i, i < m -> inF f (beta i)) -> inM f m m (pivot_mat p g beta).
Proof.
  intros Hg Hb i k Hi Hk. unfold pivot_mat.
  destruct (i =? p); [destruct (k =? p); auto using inF0|].
  apply lxor_lt_pow2; [destruct (k =? i); [apply inF1|apply inF0]|destruct (k =? p); [now apply Hb|apply inF0]].
Qed.
Lemma pivot_mat_inverse m p g g' beta : p < m -> inF f g -> inF f g' -> fmul f g g' = 1%N ->
  (forall i, i < m -> inF f (beta i)) ->
  inverse f m (pivot_mat p g beta) (pivot_mat p g' (fun i => fmul f (beta i) g')).
Proof.
  intros Hp Hg Hg' E Hb.
  assert (Hb' : forall i, i < m -> inF f (fmul f (beta i) g')) by (intros; now apply fmul_lt).
  split; [now apply inM_pivot_mat|]. split; [now apply inM_pivot_mat|]. split.
  - intros i j Hi Hj. rewrite (pivot_mat_mul m m); auto using inM_pivot_mat. unfold pivot_op, pivot_mat, mone.
    rewrite Nat.eqb_refl. destruct (Nat.eqb_spec i p) as [->|Hip].
    + rewrite (Nat.eqb_sym p j). destruct (j =? p); [easy|apply fmul_0_r].
    + rewrite (Nat.eqb_sym i j). destruct (Nat.eqb_spec j p) as [->|].
      * replace (p =? i) with false by lia. rewrite N.lxor_0_l. apply N.lxor_nilpotent.
      * rewrite fmul_0_r, !N.lxor_0_r. reflexivity.
  - intros i j Hi Hj. rewrite (pivot_mat_mul m m); auto using inM_pivot_mat. unfold pivot_op, pivot_mat, mone.
    rewrite Nat.eqb_refl. destruct (Nat.eqb_spec i p) as [->|Hip].
    + rewrite (Nat.eqb_sym p j). destruct (j =? p); [now rewrite fmul_comm|apply fmul_0_r].
    + rewrite (Nat.eqb_sym i j). destruct (Nat.eqb_spec j p) as [->|].
      * replace (p =? i) with false by lia. rewrite N.lxor_0_l.
        rewrite <- fmul_assoc, (fmul_comm f g' g), E, fmul_1_r by auto. apply N.lxor_nilpotent.
      * rewrite fmul_0_r, !N.lxor_0_r. reflexivity.
Qed.
Lemma row_equiv_pivot m n A p g g' beta : inM f m n A -> p < m -> inF f g -> inF f g' -> fmul f g g' = 1%N ->
  (forall i, i < m -> inF f (beta i)) -> row_equiv f m n A (pivot_op p g beta A).
Proof.
  intros HA Hp Hg Hg' E Hb. eexists _, _. split; [apply (pivot_mat_inverse m p g g' beta); auto|].
  intros i j Hi Hj. symmetry. now apply (pivot_mat_mul m n).
Qed.
End Field.
