(** Theory of GF(2)[X] on [N]: commutative ring, Euclidean division, irreducibility. *)
From Coq Require Import NArith Lia List Bool Arith Ring Setoid Morphisms.
From Coq Require Import ZifyBool ZifyNat ZifyN.
From Verif Require Import Spec.
Import ListNotations.
Local Open Scope N_scope.
Arguments N.mul : simpl never.
Arguments N.add : simpl never.
Arguments N.lxor : simpl never.
Arguments N.double : simpl never.
Arguments N.succ_double : simpl never.

Lemma double_lxor a b : N.double (N.lxor a b) = N.lxor (N.double a) (N.double b).
Proof.
  apply N.bits_inj. intro n. rewrite N.lxor_spec, !N.double_spec.
  destruct (N.eq_dec n 0) as [->|Hn].
  - now rewrite !N.testbit_even_0.
  - replace n with (N.succ (N.pred n)) by lia.
    now rewrite !N.testbit_even_succ, N.lxor_spec by lia.
Qed.

Lemma succ_double_lxor a : N.succ_double a = N.lxor 1 (N.double a).
Proof. destruct a; reflexivity. Qed.

Lemma pmul_0_l b : pmul 0 b = 0.  Proof. reflexivity. Qed.
Lemma pmul_double_l a b : pmul (N.double a) b = N.double (pmul a b).
Proof. destruct a; reflexivity. Qed.
Lemma pmul_succ_double_l a b : pmul (N.succ_double a) b = N.lxor b (N.double (pmul a b)).
Proof. destruct a; [cbn; now rewrite N.lxor_0_r | reflexivity]. Qed.
Lemma pmul_1_l b : pmul 1 b = b.  Proof. reflexivity. Qed.

Lemma N_ind2 (P : N -> Prop) :
  P 0 -> (forall a, P a -> P (N.double a)) -> (forall a, P a -> P (N.succ_double a)) ->
  forall a, P a.
Proof. intros H0 H1 H2 a. apply N.binary_ind; auto. Qed.

Ltac xor_solve :=
  apply N.bits_inj; intro; rewrite ?N.lxor_spec;
  repeat match goal with |- context [N.testbit ?a ?b] => destruct (N.testbit a b) end; reflexivity.

Lemma pmul_0_r a : pmul a 0 = 0.
Proof.
  induction a using N_ind2; [reflexivity| |].
  - now rewrite pmul_double_l, IHa.
  - now rewrite pmul_succ_double_l, IHa.
Qed.

Lemma pmul_1_r a : pmul a 1 = a.
Proof.
  induction a using N_ind2; [reflexivity| |].
  - now rewrite pmul_double_l, IHa.
  - now rewrite pmul_succ_double_l, IHa, succ_double_lxor.
Qed.

Lemma pmul_lxor_r a b c : pmul a (N.lxor b c) = N.lxor (pmul a b) (pmul a c).
Proof.
  induction a using N_ind2; [reflexivity| |].
  - now rewrite !pmul_double_l, IHa, double_lxor.
  - rewrite !pmul_succ_double_l, IHa, double_lxor. xor_solve.
Qed.

Lemma pmul_double_r a b : pmul a (N.double b) = N.double (pmul a b).
Proof.
  induction a using N_ind2; [reflexivity| |].
  - now rewrite !pmul_double_l, IHa.
  - now rewrite !pmul_succ_double_l, IHa, double_lxor.
Qed.

Lemma pmul_comm a b : pmul a b = pmul b a.
Proof.
  revert b; induction a using N_ind2; intro b; [now rewrite pmul_0_r| |].
  - now rewrite pmul_double_l, pmul_double_r, IHa.
  - rewrite pmul_succ_double_l, succ_double_lxor, pmul_lxor_r, pmul_1_r, pmul_double_r.
    now rewrite IHa.
Qed.

Lemma pmul_lxor_l a b c : pmul (N.lxor a b) c = N.lxor (pmul a c) (pmul b c).
Proof. rewrite !(pmul_comm _ c). apply pmul_lxor_r. Qed.

Lemma pmul_assoc a b c : pmul a (pmul b c) = pmul (pmul a b) c.
Proof.
  induction a using N_ind2; [reflexivity| |].
  - now rewrite !pmul_double_l, IHa.
  - now rewrite !pmul_succ_double_l, IHa, pmul_lxor_l, pmul_double_l.
Qed.

Lemma lxor_self_l a b : N.lxor a (N.lxor a b) = b.
Proof. now rewrite <- N.lxor_assoc, N.lxor_nilpotent, N.lxor_0_l. Qed.

(** ** The ring tactic on polynomials of characteristic 2 *)
Lemma pring : ring_theory 0 1 N.lxor pmul N.lxor (fun x => x) (@eq N).
Proof.
  constructor; intros.
  - apply N.lxor_0_l.
  - apply N.lxor_comm.
  - symmetry; apply N.lxor_assoc.
  - apply pmul_1_l.
  - apply pmul_comm.
  - apply pmul_assoc.
  - apply pmul_lxor_l.
  - reflexivity.
  - apply N.lxor_nilpotent.
Qed.

(** coefficients: booleans *)
Definition b2N (b : bool) : N := if b then 1 else 0.
Lemma bmorph : ring_morph 0 1 N.lxor pmul N.lxor (fun x => x) (@eq N)
                 false true xorb andb xorb (fun x => x) Bool.eqb b2N.
Proof.
  constructor; try reflexivity.
  - now intros [] [].
  - now intros [] [].
  - now intros [] [].
  - intros [] [] H; simpl in H; congruence || reflexivity.
Qed.
Ltac bcst t := InitialRing.NotConstant.
Add Ring pring2 : pring (morphism bmorph, constants [bcst]).

Goal forall a b, N.lxor (pmul (N.lxor a b) (N.lxor a b)) 0 = N.lxor (pmul a a) (pmul b b).
Proof. intros. ring. Qed.

(** ** Shifts and bits *)
Lemma pmul_pow2_l n b : pmul (2 ^ n) b = N.shiftl b n.
Proof.
  induction n using N.peano_ind.
  - now rewrite N.shiftl_0_r.
  - rewrite N.pow_succ_r', <- N.double_spec, pmul_double_l, IHn.
    rewrite N.shiftl_succ_r. now rewrite N.double_spec.
Qed.
Lemma pmul_pow2_r n b : pmul b (2 ^ n) = N.shiftl b n.
Proof. now rewrite pmul_comm, pmul_pow2_l. Qed.

Lemma ppow_2 n : ppow 2 n = 2 ^ N.of_nat n.
Proof.
  induction n; [reflexivity|].
  cbn [ppow]. rewrite IHn, Nnat.Nat2N.inj_succ, N.pow_succ_r'.
  change 2 with (2 ^ 1) at 1. rewrite pmul_pow2_l, N.shiftl_mul_pow2. lia.
Qed.

(** ** Size / degree *)
Lemma lt_pow2_bits a n : a < 2 ^ n <-> (forall k, n <= k -> N.testbit a k = false).
Proof.
  split.
  - intros H k Hk. destruct (N.eq_dec a 0) as [->|Ha]; [apply N.bits_0|].
    apply N.bits_above_log2. apply N.log2_lt_pow2 in H; lia.
  - intros H. destruct (N.eq_dec a 0) as [->|Ha].
    + assert (2 ^ n <> 0) by (apply N.pow_nonzero; lia). lia.
    + apply N.log2_lt_pow2; [lia|]. destruct (N.lt_ge_cases (N.log2 a) n); [easy|].
      pose proof (N.bit_log2 a Ha) as E. rewrite H in E by assumption. discriminate.
Qed.

Lemma lxor_lt_pow2 a b n : a < 2 ^ n -> b < 2 ^ n -> N.lxor a b < 2 ^ n.
Proof.
  rewrite !lt_pow2_bits. intros Ha Hb k Hk. now rewrite N.lxor_spec, Ha, Hb.
Qed.

Lemma double_lt_pow2 a n : a < 2 ^ n -> N.double a < 2 ^ (n + 1).
Proof. rewrite N.double_spec, N.pow_add_r. change (2^1) with 2. lia. Qed.

Lemma pmul_top a b m n :
  a < 2 ^ (m + 1) -> b < 2 ^ (n + 1) ->
  pmul a b < 2 ^ (m + n + 1) /\ N.testbit (pmul a b) (m + n) = N.testbit a m && N.testbit b n.
Proof.
  revert m; induction a using N_ind2; intros m Ha Hb.
  - rewrite pmul_0_l, !N.bits_0. split; [apply N.neq_0_lt_0, N.pow_nonzero; lia | reflexivity].
  - rewrite pmul_double_l.
    destruct (N.eq_dec m 0) as [->|Hm].
    + assert (a = 0) as -> by (change (2 ^ (0+1)) with 2 in Ha; lia).
      rewrite pmul_0_l. change (N.double 0) with 0. rewrite !N.bits_0.
      split; [apply N.neq_0_lt_0, N.pow_nonzero; lia | reflexivity].
    + assert (Ha' : a < 2 ^ ((m - 1) + 1)).
      { replace (m + 1) with (N.succ m) in Ha by lia.
        rewrite N.pow_succ_r' in Ha. replace (m-1+1) with m by lia. lia. }
      destruct (IHa (m-1) Ha' Hb) as [H1 H2]. split.
      * replace (m + n + 1) with (m - 1 + n + 1 + 1) by lia. now apply double_lt_pow2.
      * rewrite !N.double_spec. replace (m+n) with (N.succ (m-1+n)) by lia.
        replace m with (N.succ (m-1)) at 2 by lia.
        rewrite !N.testbit_even_succ by lia. exact H2.
  - rewrite pmul_succ_double_l.
    destruct (N.eq_dec m 0) as [->|Hm].
    + assert (a = 0) as -> by (change (2 ^ (0+1)) with 2 in Ha; lia).
      rewrite pmul_0_l. change (N.double 0) with 0. rewrite N.lxor_0_r.
      rewrite N.add_0_l. split; [easy|]. now rewrite N.succ_double_spec, N.testbit_odd_0.
    + assert (Ha' : a < 2 ^ ((m - 1) + 1)).
      { replace (m + 1) with (N.succ m) in Ha by lia.
        rewrite N.pow_succ_r' in Ha. replace (m-1+1) with m by lia. lia. }
      destruct (IHa (m-1) Ha' Hb) as [H1 H2].
      assert (Hb2 : b < 2 ^ (m + n)).
      { eapply N.lt_le_trans; [exact Hb|]. apply N.pow_le_mono_r; lia. }
      split.
      * apply lxor_lt_pow2.
        -- eapply N.lt_le_trans; [exact Hb2|]. apply N.pow_le_mono_r; lia.
        -- replace (m + n + 1) with (m - 1 + n + 1 + 1) by lia. now apply double_lt_pow2.
      * rewrite N.lxor_spec, N.double_spec, N.succ_double_spec.
        rewrite (proj1 (lt_pow2_bits b (m+n)) Hb2) by lia.
        replace (m+n) with (N.succ (m-1+n)) by lia.
        replace m with (N.succ (m-1)) at 2 by lia.
        rewrite N.testbit_even_succ, N.testbit_odd_succ by lia. rewrite H2. now destruct (_ && _).
Qed.

Lemma lt_pow2_log2 a : a < 2 ^ (pdeg a + 1).
Proof.
  destruct (N.eq_dec a 0) as [->|Ha]; [easy|].
  apply N.log2_lt_pow2; unfold pdeg; lia.
Qed.

Lemma pmul_eq_0 a b : pmul a b = 0 -> a = 0 \/ b = 0.
Proof.
  intros H. destruct (N.eq_dec a 0); [auto|]. destruct (N.eq_dec b 0); [auto|]. exfalso.
  destruct (pmul_top a b _ _ (lt_pow2_log2 a) (lt_pow2_log2 b)) as [_ Ht].
  unfold pdeg in Ht. rewrite H, N.bits_0, !N.bit_log2 in Ht by assumption. discriminate.
Qed.

Lemma pdeg_pmul a b : a <> 0 -> b <> 0 -> pdeg (pmul a b) = pdeg a + pdeg b.
Proof.
  intros Ha Hb.
  destruct (pmul_top a b _ _ (lt_pow2_log2 a) (lt_pow2_log2 b)) as [Hl Ht].
  unfold pdeg in Ht at 3 4. rewrite !N.bit_log2 in Ht by assumption.
  unfold pdeg at 1. apply N.le_antisymm.
  - apply N.lt_succ_r. apply N.log2_lt_pow2.
    + assert (pmul a b <> 0) by (intro E; destruct (pmul_eq_0 _ _ E); auto). lia.
    + now replace (N.succ (pdeg a + pdeg b)) with (pdeg a + pdeg b + 1) by lia.
  - destruct (N.le_gt_cases (pdeg a + pdeg b) (N.log2 (pmul a b))); [easy|].
    apply N.bits_above_log2 in H. cbn in Ht. congruence.
Qed.

Lemma pmul_lt_pow2 a b m n : a < 2 ^ m -> b < 2 ^ n -> m <> 0 -> pmul a b < 2 ^ (m + n - 1).
Proof.
  intros Ha Hb Hm.
  destruct (N.eq_dec n 0) as [->|Hn].
  { assert (b = 0) as -> by (cbn in Hb; lia). rewrite pmul_0_r. apply N.neq_0_lt_0, N.pow_nonzero; lia. }
  replace (m+n-1) with ((m-1)+(n-1)+1) by lia.
  apply pmul_top; [now replace (m-1+1) with m by lia | now replace (n-1+1) with n by lia].
Qed.

(** Coefficients of a product: convolution. *)
Lemma xsum_ext n g h : (forall i, (i < n)%nat -> g i = h i) -> xsum n g = xsum n h.
Proof.
  induction n; [easy|]. intros H. cbn [xsum]. rewrite IHn, H; auto.
Qed.

Fixpoint bxsum (n : nat) (g : nat -> bool) : bool :=
  match n with O => false | S n' => xorb (bxsum n' g) (g n') end.
Lemma bxsum_ext n g h : (forall i, (i < n)%nat -> g i = h i) -> bxsum n g = bxsum n h.
Proof. induction n; [easy|]. intros H. cbn [bxsum]. rewrite IHn, H; auto. Qed.
Lemma bxsum_Sl n g : bxsum (S n) g = xorb (g O) (bxsum n (fun i => g (S i))).
Proof.
  induction n; [cbn; now destruct (g O)|].
  cbn [bxsum] in *. rewrite IHn. now rewrite xorb_assoc.
Qed.
Lemma bxsum_false n : bxsum n (fun _ => false) = false.
Proof. induction n; cbn; now rewrite ?IHn. Qed.

Lemma testbit_double_S a k : N.testbit (N.double a) (N.of_nat (S k)) = N.testbit a (N.of_nat k).
Proof.
  rewrite N.double_spec, Nnat.Nat2N.inj_succ. now rewrite N.testbit_even_succ by lia.
Qed.
Lemma testbit_succ_double_S a k : N.testbit (N.succ_double a) (N.of_nat (S k)) = N.testbit a (N.of_nat k).
Proof.
  rewrite N.succ_double_spec, Nnat.Nat2N.inj_succ. now rewrite N.testbit_odd_succ by lia.
Qed.

Theorem pmul_coeff a b k :
  N.testbit (pmul a b) (N.of_nat k) =
  bxsum (S k) (fun i => N.testbit a (N.of_nat i) && N.testbit b (N.of_nat (k - i))).
Proof.
  revert k; induction a using N_ind2; intro k.
  - rewrite pmul_0_l, N.bits_0. rewrite (bxsum_ext _ _ (fun _ => false)).
    + now rewrite bxsum_false.
    + intros. now rewrite N.bits_0.
  - rewrite pmul_double_l, bxsum_Sl.
    assert (E0 : N.testbit (N.double a) (N.of_nat 0) = false)
      by (rewrite N.double_spec; apply N.testbit_even_0).
    rewrite E0, andb_false_l, xorb_false_l.
    destruct k as [|k].
    + cbn [bxsum]. change (N.of_nat 0) with 0. rewrite N.double_spec. now rewrite N.testbit_even_0.
    + rewrite testbit_double_S, IHa. apply bxsum_ext. intros i Hi.
      rewrite testbit_double_S. reflexivity.
  - rewrite pmul_succ_double_l, N.lxor_spec, bxsum_Sl.
    assert (E0 : N.testbit (N.succ_double a) (N.of_nat 0) = true)
      by (rewrite N.succ_double_spec; apply N.testbit_odd_0).
    rewrite E0, andb_true_l, Nat.sub_0_r.
    f_equal.
    destruct k as [|k].
    + cbn [bxsum]. change (N.of_nat 0) with 0. rewrite N.double_spec. now rewrite N.testbit_even_0.
    + rewrite testbit_double_S, IHa. apply bxsum_ext. intros i Hi.
      rewrite testbit_succ_double_S. reflexivity.
Qed.

(** ** Remainder *)
Lemma pred1_lt f r : f <> 0 -> r < 2 ^ (pdeg f + 1) -> pred1 f r < 2 ^ pdeg f.
Proof.
  intros Hf Hr. unfold pred1. apply lt_pow2_bits. intros k Hk.
  destruct (N.eq_dec k (pdeg f)) as [->|Hne].
  - destruct (N.testbit r (pdeg f)) eqn:E; [|exact E].
    rewrite N.lxor_spec, E. unfold pdeg. now rewrite N.bit_log2.
  - assert (Hk' : pdeg f + 1 <= k) by lia.
    rewrite lt_pow2_bits in Hr. pose proof (lt_pow2_log2 f) as Hf2. rewrite lt_pow2_bits in Hf2.
    destruct (N.testbit r (pdeg f)); rewrite ?N.lxor_spec, ?Hr, ?Hf2 by assumption; reflexivity.
Qed.

Lemma succ_double_lt_pow2 a n : a < 2 ^ n -> N.succ_double a < 2 ^ (n + 1).
Proof. rewrite N.succ_double_spec, N.pow_add_r. change (2^1) with 2. lia. Qed.

Lemma pmod_0 f : pmod 0 f = 0. Proof. reflexivity. Qed.
Lemma pmod_double a f : pmod (N.double a) f = pred1 f (N.double (pmod a f)).
Proof.
  destruct a; [|reflexivity]. cbn. unfold pred1.
  change (N.double 0) with 0. now rewrite N.bits_0.
Qed.
Lemma pmod_succ_double a f : pmod (N.succ_double a) f = pred1 f (N.succ_double (pmod a f)).
Proof. destruct a; reflexivity. Qed.

Lemma pmod_lt a f : f <> 0 -> pmod a f < 2 ^ pdeg f.
Proof.
  intros Hf. induction a using N_ind2.
  - apply N.neq_0_lt_0, N.pow_nonzero; lia.
  - rewrite pmod_double. apply pred1_lt; [easy|]. now apply double_lt_pow2.
  - rewrite pmod_succ_double. apply pred1_lt; [easy|]. now apply succ_double_lt_pow2.
Qed.

Lemma pmod_ex a f : exists q, a = N.lxor (pmul q f) (pmod a f).
Proof.
  induction a using N_ind2.
  - exists 0. reflexivity.
  - destruct IHa as [q Hq]. rewrite pmod_double. unfold pred1.
    destruct (N.testbit _ _).
    + exists (N.lxor (N.double q) 1). rewrite pmul_lxor_l, pmul_double_l, pmul_1_l.
      rewrite Hq at 1. rewrite double_lxor. xor_solve.
    + exists (N.double q). rewrite pmul_double_l. rewrite Hq at 1. now rewrite double_lxor.
  - destruct IHa as [q Hq]. rewrite pmod_succ_double. unfold pred1.
    destruct (N.testbit _ _).
    + exists (N.lxor (N.double q) 1). rewrite pmul_lxor_l, pmul_double_l, pmul_1_l.
      rewrite Hq at 1. rewrite !succ_double_lxor, double_lxor. xor_solve.
    + exists (N.double q). rewrite pmul_double_l. rewrite Hq at 1.
      rewrite !succ_double_lxor, double_lxor. xor_solve.
Qed.

Lemma pmul_small_0 q f : f <> 0 -> pmul q f < 2 ^ pdeg f -> q = 0.
Proof.
  intros Hf H. destruct (N.eq_dec q 0) as [|Hq]; [easy|]. exfalso.
  pose proof (pdeg_pmul q f Hq Hf) as E.
  assert (pmul q f <> 0) by (intro E'; destruct (pmul_eq_0 _ _ E'); auto).
  apply N.log2_lt_pow2 in H; [|lia]. unfold pdeg in *. lia.
Qed.

Lemma divmod_unique a f q r q' r' :
  f <> 0 -> is_divmod a f q r -> is_divmod a f q' r' -> q = q' /\ r = r'.
Proof.
  intros Hf [E1 L1] [E2 L2].
  assert (E : pmul (N.lxor q q') f = N.lxor r r').
  { rewrite pmul_lxor_l.
    assert (H : N.lxor (pmul q f) r = N.lxor (pmul q' f) r') by congruence.
    apply (f_equal (fun z => N.lxor z (N.lxor (pmul q' f) r))) in H.
    transitivity (N.lxor (N.lxor (pmul q f) r) (N.lxor (pmul q' f) r)); [xor_solve|].
    rewrite H. xor_solve. }
  assert (Hq : N.lxor q q' = 0).
  { apply (pmul_small_0 _ f Hf). rewrite E. now apply lxor_lt_pow2. }
  apply N.lxor_eq in Hq. split; [easy|]. subst q'.
  rewrite N.lxor_nilpotent, pmul_0_l in E. symmetry in E. now apply N.lxor_eq in E.
Qed.

Theorem pmod_spec a f : f <> 0 -> exists q, is_divmod a f q (pmod a f).
Proof.
  intros Hf. destruct (pmod_ex a f) as [q Hq]. exists q. split; [easy|]. now apply pmod_lt.
Qed.

Lemma pmod_unique a f q r : f <> 0 -> a = N.lxor (pmul q f) r -> r < 2 ^ pdeg f -> pmod a f = r.
Proof.
  intros Hf E L. destruct (pmod_spec a f Hf) as [q' H'].
  destruct (divmod_unique a f q' (pmod a f) q r Hf H' (conj E L)). easy.
Qed.

Lemma pmod_small a f : f <> 0 -> a < 2 ^ pdeg f -> pmod a f = a.
Proof. intros Hf H. apply (pmod_unique a f 0 a Hf); [reflexivity|easy]. Qed.

Lemma pmod_lxor a b f : f <> 0 -> pmod (N.lxor a b) f = N.lxor (pmod a f) (pmod b f).
Proof.
  intros Hf. destruct (pmod_spec a f Hf) as [qa [Ea La]]. destruct (pmod_spec b f Hf) as [qb [Eb Lb]].
  apply (pmod_unique _ f (N.lxor qa qb)); [easy| |now apply lxor_lt_pow2].
  rewrite Ea at 1. rewrite Eb at 1. rewrite pmul_lxor_l. xor_solve.
Qed.

Lemma pmod_mul_f q f : f <> 0 -> pmod (pmul q f) f = 0.
Proof.
  intros Hf. apply (pmod_unique _ f q); [easy|now rewrite N.lxor_0_r|].
  apply N.neq_0_lt_0, N.pow_nonzero; lia.
Qed.

Lemma pmod_mul_l a b f : f <> 0 -> pmod (pmul (pmod a f) b) f = pmod (pmul a b) f.
Proof.
  intros Hf. destruct (pmod_ex a f) as [q Hq]. rewrite Hq at 2.
  rewrite pmul_lxor_l, pmod_lxor by easy.
  rewrite <- pmul_assoc, (pmul_comm f b), pmul_assoc, pmod_mul_f by easy.
  now rewrite N.lxor_0_l.
Qed.
Lemma pmod_mul_r a b f : f <> 0 -> pmod (pmul a (pmod b f)) f = pmod (pmul a b) f.
Proof. intros Hf. rewrite !(pmul_comm a). now apply pmod_mul_l. Qed.

Lemma pmod_pmod a f : f <> 0 -> pmod (pmod a f) f = pmod a f.
Proof. intros Hf. apply pmod_small; [easy|]. now apply pmod_lt. Qed.

Lemma pmod_divides a f : f <> 0 -> (pmod a f = 0 <-> exists q, a = pmul q f).
Proof.
  intros Hf. split.
  - intros H. destruct (pmod_ex a f) as [q Hq]. exists q. now rewrite H, N.lxor_0_r in Hq.
  - intros [q ->]. now apply pmod_mul_f.
Qed.

(** ** Ring laws of the quotient *)
Lemma fmul_lt f a b : f <> 0 -> fmul f a b < 2 ^ pdeg f.
Proof. intros. now apply pmod_lt. Qed.
Lemma fmul_comm f a b : fmul f a b = fmul f b a.
Proof. unfold fmul. now rewrite pmul_comm. Qed.
Lemma fmul_assoc f a b c : f <> 0 -> fmul f a (fmul f b c) = fmul f (fmul f a b) c.
Proof. intros. unfold fmul. rewrite pmod_mul_l, pmod_mul_r by easy. now rewrite pmul_assoc. Qed.
Lemma fmul_lxor_l f a b c : f <> 0 -> fmul f (N.lxor a b) c = N.lxor (fmul f a c) (fmul f b c).
Proof. intros. unfold fmul. now rewrite pmul_lxor_l, pmod_lxor. Qed.
Lemma fmul_lxor_r f a b c : f <> 0 -> fmul f a (N.lxor b c) = N.lxor (fmul f a b) (fmul f a c).
Proof. intros. unfold fmul. now rewrite pmul_lxor_r, pmod_lxor. Qed.
Lemma fmul_0_l f a : fmul f 0 a = 0. Proof. reflexivity. Qed.
Lemma fmul_0_r f a : fmul f a 0 = 0. Proof. unfold fmul. now rewrite pmul_0_r. Qed.
Lemma fmul_1_l f a : f <> 0 -> inF f a -> fmul f 1 a = a.
Proof. intros. unfold fmul. rewrite pmul_1_l. now apply pmod_small. Qed.
Lemma fmul_1_r f a : f <> 0 -> inF f a -> fmul f a 1 = a.
Proof. intros. rewrite fmul_comm. now apply fmul_1_l. Qed.

(** ** Gcd and Bezout: every non-zero residue modulo an irreducible is invertible *)
Lemma bezout_aux (n : nat) : forall a b, (N.to_nat b <= n)%nat ->
  exists g u v, N.lxor (pmul u a) (pmul v b) = g /\ (exists a', a = pmul a' g) /\ (exists b', b = pmul b' g).
Proof.
  induction n as [|n IH]; intros a b Hb.
  - assert (b = 0) as -> by lia. exists a, 1, 0.
    rewrite pmul_1_l, pmul_0_l, N.lxor_0_r. split; [easy|]. split.
    + exists 1; reflexivity.
    + exists 0; reflexivity.
  - destruct (N.eq_dec b 0) as [->|Hb0].
    + exists a, 1, 0. rewrite pmul_1_l, pmul_0_l, N.lxor_0_r. split; [easy|]. split.
      * exists 1; reflexivity.
      * exists 0; reflexivity.
    + pose proof (pmod_lt a b Hb0) as L.
      assert (L2 : 2 ^ pdeg b <= b) by (apply N.log2_spec; lia).
      destruct (IH b (pmod a b)) as (g & u & v & E & [b' Hb'] & [r' Hr']); [lia|].
      destruct (pmod_ex a b) as [q Hq].
      exists g, v, (N.lxor u (pmul v q)). split; [|split].
      * rewrite <- E. rewrite Hq at 1. ring.
      * exists (N.lxor (pmul q b') r'). rewrite Hq, pmul_lxor_l, <- pmul_assoc, <- Hb', <- Hr'. reflexivity.
      * exists b'. exact Hb'.
Qed.

Theorem inverse_exists f a :
  irreducible f -> pmod a f <> 0 -> exists b, inF f b /\ fmul f a b = 1.
Proof.
  intros [Hf Hirr] Ha.
  assert (Hf0 : f <> 0) by lia.
  destruct (bezout_aux (N.to_nat f) a f (le_n _)) as (g & u & v & E & [a' Ea] & [f' Ef]).
  destruct (Hirr f' g (eq_sym Ef)) as [-> | ->].
  - rewrite pmul_1_l in Ef. exfalso. apply Ha. apply pmod_divides; [easy|]. exists a'. congruence.
  - exists (pmod u f). split; [now apply pmod_lt|].
    unfold fmul. rewrite pmod_mul_r by easy. rewrite pmul_comm.
    assert (Hm : pmod (N.lxor (pmul u a) (pmul v f)) f = pmod 1 f) by now rewrite E.
    rewrite pmod_lxor, pmod_mul_f, N.lxor_0_r in Hm by easy. rewrite Hm.
    apply pmod_small; [easy|]. unfold pdeg.
    apply N.lt_le_trans with (2 ^ 1); [easy|]. apply N.pow_le_mono_r; [easy|].
    change 1 with (N.log2 2). apply N.log2_le_mono. lia.
Qed.

Lemma fmul_zero_div f a b : irreducible f -> inF f a -> inF f b -> fmul f a b = 0 -> a = 0 \/ b = 0.
Proof.
  intros Hirr Ha Hb H.
  assert (Hf0 : f <> 0) by (destruct Hirr; lia).
  destruct (N.eq_dec a 0) as [|Ha0]; [auto|]. right.
  destruct (inverse_exists f a Hirr) as (c & Hc & Ec).
  { rewrite pmod_small by easy. easy. }
  rewrite <- (fmul_1_l f b Hf0 Hb), <- Ec, (fmul_comm f a c), <- fmul_assoc, H by easy.
  apply fmul_0_r.
Qed.

Lemma irreducible_no_factor f : irreducible f -> f <> 0.
Proof. intros [H _]. lia. Qed.
