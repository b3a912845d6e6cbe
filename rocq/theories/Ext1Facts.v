(** Evaluation of polynomials over GF(2) at elements of GF(2^e), and Vandermonde matrices. *)
From Coq Require Import NArith Lia List Bool Arith.
From Coq Require Import ZifyBool ZifyNat ZifyN.
From Verif Require Import Base Spec LinSpec PolyFacts MatFacts EchFacts SliceMul KaraProofs.
Import ListNotations.
Local Open Scope nat_scope.

(** a^n in GF(2)[x]/(f) *)
Fixpoint fpow (f a : N) (n : nat) : N := match n with O => 1%N | S n' => fmul f a (fpow f a n') end.
(** the value at alpha of the polynomial p with n coefficients *)
Definition peval (f alpha : N) (n : nat) (p : N) : N := xsum n (fun j => if N.testbit p (N.of_nat j) then fpow f alpha j else 0%N).

Lemma finite_choice {T} (d : T) (P : nat -> T -> Prop) n : (forall i, i < n -> exists x, P i x) -> exists X, forall i, i < n -> P i (X i).
Proof.
  induction n as [|n IH]; intros H; [exists (fun _ => d); intros; lia|]. destruct IH as (X & HX); [intros; apply H; lia|]. destruct (H n ltac:(lia)) as (x & Hx).
  exists (fun i => if i =? n then x else X i). intros i Hi. destruct (Nat.eqb_spec i n) as [->|]; [easy|apply HX; lia].
Qed.

Section F.
Variable f : N.
Hypothesis Hf : (1 <= pdeg f)%N.
Let f0 : f <> 0%N. Proof. intros ->. cbn in Hf. lia. Qed.

Lemma inF1 : inF f 1.
Proof. unfold inF. apply N.pow_gt_1; lia. Qed.
Lemma inF0 : inF f 0.
Proof. unfold inF. apply N.neq_0_lt_0. now apply N.pow_nonzero. Qed.
Lemma fpow_inF a n : inF f (fpow f a n).
Proof. destruct n; cbn [fpow]; [apply inF1|now apply fmul_lt]. Qed.
Lemma fpow_add a m n : fpow f a (m + n) = fmul f (fpow f a m) (fpow f a n).
Proof. induction m as [|m IH]; cbn [fpow Nat.add]; [now rewrite fmul_1_l by auto using fpow_inF|]. now rewrite IH, fmul_assoc. Qed.
Lemma fpow_0 n : fpow f 0 n = if n =? 0 then 1%N else 0%N.
Proof. destruct n; easy. Qed.
Lemma fpow_1 n : fpow f 1 n = 1%N.
Proof. induction n as [|n IH]; [easy|]. cbn [fpow]. rewrite IH. apply fmul_1_l; [easy|apply inF1]. Qed.

Lemma peval_inF a n p : inF f (peval f a n p).
Proof. unfold inF, peval. apply xsum_lt. intros i _. destruct (N.testbit _ _); [apply fpow_inF|apply inF0]. Qed.
Lemma peval_lxor a n p q : peval f a n (N.lxor p q) = N.lxor (peval f a n p) (peval f a n q).
Proof.
  unfold peval. rewrite <- xsum_lxor. apply xsum_ext. intros i _. rewrite N.lxor_spec. destruct (N.testbit p _), (N.testbit q _); cbn [xorb]; rewrite ?N.lxor_0_r, ?N.lxor_0_l, ?N.lxor_nilpotent; reflexivity.
Qed.
Lemma peval_0 a n : peval f a n 0 = 0%N.
Proof. unfold peval. apply xsum_0. intros i _. now rewrite N.bits_0. Qed.
Lemma peval_xsum a n l g : peval f a n (xsum l g) = xsum l (fun t => peval f a n (g t)).
Proof. induction l as [|l IH]; cbn [xsum]; [apply peval_0|]. now rewrite peval_lxor, IH. Qed.
Lemma peval_more a n m p : (p < 2 ^ N.of_nat n)%N -> peval f a (n + m) p = peval f a n p.
Proof.
  intros Hp. unfold peval. rewrite xsum_split, (xsum_0 m); [apply N.lxor_0_r|]. intros i _. now rewrite (proj1 (lt_pow2_bits _ _) Hp) by lia.
Qed.
Lemma peval_shift a n m p j : (p < 2 ^ N.of_nat m)%N -> j + m <= n -> peval f a n (N.shiftl p (N.of_nat j)) = fmul f (fpow f a j) (peval f a m p).
Proof.
  intros Hp Hn. replace n with (j + (m + (n - j - m))) by lia. unfold peval at 1. rewrite xsum_split, (xsum_0 j).
  2:{ intros i Hi. now rewrite N.shiftl_spec_low by lia. }
  rewrite N.lxor_0_l. rewrite <- (peval_more a m (n - j - m) p Hp). unfold peval. rewrite xsum_fmul_l by easy. apply xsum_ext. intros i Hi.
  rewrite N.shiftl_spec_high' by lia. replace (N.of_nat (j + i) - N.of_nat j)%N with (N.of_nat i) by lia. destruct (N.testbit _ _); [apply fpow_add|symmetry; apply fmul_0_r].
Qed.
Lemma peval_pmul a n m l p q : (p < 2 ^ N.of_nat n)%N -> (q < 2 ^ N.of_nat m)%N -> n + m <= l + 1 -> peval f a l (pmul p q) = fmul f (peval f a n p) (peval f a m q).
Proof.
  intros Hp Hq Hl. rewrite (bits_sum n p Hp) at 1. rewrite pmul_xsum_l, peval_xsum. unfold peval at 2. rewrite xsum_fmul_r by easy. apply xsum_ext. intros i Hi.
  destruct (N.testbit p _); [|rewrite pmul_0_l, peval_0; symmetry; apply fmul_0_l]. rewrite pmul_pow2_l. apply peval_shift; [easy|lia].
Qed.

Hypothesis Hirr : irreducible f.
Lemma vander_kernel n : forall al v, (forall i, i < n -> inF f (al i)) -> (forall i i', i < i' -> i' < n -> al i <> al i') -> (forall k, k < n -> inF f (v k)) ->
  (forall i, i < n -> xsum n (fun k => fmul f (fpow f (al i) k) (v k)) = 0%N) -> forall k, k < n -> v k = 0%N.
Proof.
  induction n as [|n IH]; intros al v Ha Hd Hv Hz; [intros; lia|].
  set (alpha := al n). assert (Hal : inF f alpha) by (apply Ha; lia).
  set (q := fun k => xsum (n - k) (fun j => fmul f (fpow f alpha j) (v (k + 1 + j)))).
  assert (Hq : forall k, inF f (q k)) by (intros k; unfold inF, q; apply xsum_lt; intros; now apply fmul_lt).
  assert (Qn : q n = 0%N) by (unfold q; now rewrite Nat.sub_diag).
  assert (Qs : forall k, k < n -> q k = N.lxor (v (S k)) (fmul f alpha (q (S k)))).
  { intros k Hk. unfold q at 1. replace (n - k) with (1 + (n - S k)) by lia. rewrite xsum_split, xsum_1. cbn [fpow]. replace (k + 1 + 0) with (S k) by lia. rewrite fmul_1_l by (auto; apply Hv; lia). f_equal.
    unfold q. rewrite xsum_fmul_l by easy. apply xsum_ext. intros j Hj. cbn [Nat.add fpow]. rewrite fmul_assoc by easy. f_equal. f_equal. lia. }
  set (Q := fun x => xsum n (fun k => fmul f (fpow f x k) (q k))).
  assert (HQ : forall x, inF f (Q x)) by (intros x; unfold inF, Q; apply xsum_lt; intros; now apply fmul_lt).
  assert (HP : forall x, inF f x -> xsum (S n) (fun k => fmul f (fpow f x k) (v k)) = N.lxor (N.lxor (v 0) (fmul f alpha (q 0))) (fmul f (N.lxor x alpha) (Q x))).
  { intros x Hx. replace (S n) with (1 + n) at 1 by lia. rewrite xsum_split, xsum_1. cbn [fpow]. rewrite fmul_1_l by (auto; apply Hv; lia). rewrite N.lxor_assoc. f_equal.
    rewrite (xsum_ext n _ (fun k => N.lxor (fmul f x (fmul f (fpow f x k) (q k))) (fmul f alpha (fmul f (fpow f x (1 + k)) (q (1 + k)))))).
    2:{ intros k Hk. cbn [Nat.add fpow]. assert (Ev : v (S k) = N.lxor (q k) (fmul f alpha (q (S k)))) by (rewrite (Qs k Hk), N.lxor_assoc, N.lxor_nilpotent; symmetry; apply N.lxor_0_r).
        rewrite Ev, fmul_lxor_r by easy. f_equal; [now rewrite fmul_assoc|]. set (y := fmul f x (fpow f x k)). rewrite !fmul_assoc by easy. f_equal. apply fmul_comm. }
    rewrite xsum_lxor, <- !xsum_fmul_l by easy. fold (Q x). rewrite fmul_lxor_l by easy. rewrite <- N.lxor_assoc, (N.lxor_comm _ (fmul f x (Q x))), N.lxor_assoc. f_equal. rewrite <- fmul_lxor_r by easy. f_equal.
    assert (E : xsum (1 + n) (fun k => fmul f (fpow f x k) (q k)) = Q x) by (cbn [Nat.add xsum]; rewrite Qn, fmul_0_r; apply N.lxor_0_r).
    rewrite xsum_split, xsum_1 in E. cbn [fpow] in E. rewrite fmul_1_l in E by auto. rewrite <- E. rewrite <- N.lxor_assoc, N.lxor_nilpotent. symmetry. apply N.lxor_0_l. }
  assert (H0 : N.lxor (v 0) (fmul f alpha (q 0)) = 0%N).
  { specialize (Hz n ltac:(lia)). fold alpha in Hz. rewrite HP in Hz by easy. rewrite N.lxor_nilpotent, fmul_0_l, N.lxor_0_r in Hz. exact Hz. }
  assert (Hq0 : forall k, k < n -> q k = 0%N).
  { apply (IH al q); [intros; apply Ha; lia|intros; apply Hd; lia|auto|]. intros i Hi. specialize (Hz i ltac:(lia)). rewrite HP in Hz by (apply Ha; lia). rewrite H0, N.lxor_0_l in Hz.
    destruct (fmul_zero_div f _ _ Hirr (lxor_lt_pow2 _ _ _ (Ha i ltac:(lia)) Hal) (HQ (al i)) Hz) as [E|E]; [|exact E]. apply N.lxor_eq in E. exfalso. apply (Hd i n ltac:(lia) ltac:(lia)). exact E. }
  assert (Hqa : forall k, k <= n -> q k = 0%N) by (intros k Hk; destruct (Nat.eq_dec k n) as [->|]; [exact Qn|apply Hq0; lia]).
  intros k Hk. destruct k as [|k].
  - rewrite (Hqa 0), fmul_0_r, N.lxor_0_r in H0 by lia. exact H0.
  - pose proof (Qs k ltac:(lia)) as E. rewrite (Hqa k), (Hqa (S k)), fmul_0_r, N.lxor_0_r in E by lia. now symmetry.
Qed.

(** a square matrix with trivial kernel is invertible *)
Lemma trivial_kernel_invertible n A : inM f n n A ->
  (forall v, (forall k, k < n -> inF f (v k)) -> (forall i, i < n -> xsum n (fun k => fmul f (A i k) (v k)) = 0%N) -> forall k, k < n -> v k = 0%N) -> invertible f n A.
Proof.
  intros HA HK.
  assert (Hs : forall c, c < n -> exists x : nat -> N, (forall k, k < n -> inF f (x k)) /\ forall i, i < n -> xsum n (fun k => fmul f (A i k) (x k)) = mone i c).
  { intros c Hc. destruct (kernel_nontrivial f Hf Hirr n (S n) (fun i k => if k <? n then A i k else mone i c)) as (v & Hv & (j & Hj & Hnz) & Hz).
    - intros i j Hi Hj. destruct (Nat.ltb_spec j n); [now apply HA|now apply (inM_mone f n n)].
    - lia.
    - assert (Hz' : forall i, i < n -> xsum n (fun k => fmul f (A i k) (v k)) = fmul f (mone i c) (v n)).
      { intros i Hi. specialize (Hz i Hi). cbn [xsum] in Hz. rewrite Nat.ltb_irrefl in Hz. rewrite (xsum_ext n _ (fun k => fmul f (A i k) (v k))) in Hz by (intros k Hk; now replace (k <? n) with true by lia). now apply N.lxor_eq in Hz. }
      destruct (N.eq_dec (v n) 0) as [En|Nn].
      + exfalso. apply Hnz. destruct (Nat.eq_dec j n) as [->|]; [exact En|]. apply (HK v); [intros; apply Hv; lia| |lia]. intros i Hi. rewrite Hz' by easy. rewrite En. apply fmul_0_r.
      + destruct (finv_ex f Hf Hirr (v n) (Hv n ltac:(lia)) Nn) as (y & Hy & Ey). exists (fun k => fmul f (v k) y). split; [intros; now apply fmul_lt|]. intros i Hi.
        rewrite (xsum_ext n _ (fun k => fmul f (fmul f (A i k) (v k)) y)) by (intros k Hk; now rewrite fmul_assoc). rewrite <- xsum_fmul_r by easy. rewrite Hz' by easy. rewrite <- fmul_assoc by easy. rewrite Ey. apply fmul_1_r; [easy|]. now apply (inM_mone f n n). }
  destruct (finite_choice (fun _ => 0%N) _ n Hs) as (X & HX). set (Y := fun k c => X c k).
  assert (HY : inM f n n Y) by (intros i j Hi Hj; unfold Y; now apply HX).
  assert (E1 : meq n n (mmul f n A Y) mone) by (intros i j Hi Hj; unfold mmul, Y; now apply HX).
  exists Y. split; [exact HA|]. split; [exact HY|]. split; [exact E1|]. intros i j Hi Hj.
  enough (N.lxor (mmul f n Y A i j) (mone i j) = 0%N) by now apply N.lxor_eq.
  apply (HK (fun k => N.lxor (mmul f n Y A k j) (mone k j))); [| |easy].
  - intros k Hk. apply lxor_lt_pow2; [now apply (inM_mmul f n n n)|now apply (inM_mone f n n)].
  - intros i' Hi'. rewrite (xsum_ext n _ (fun k => N.lxor (fmul f (A i' k) (mmul f n Y A k j)) (fmul f (A i' k) (mone k j)))) by (intros; now rewrite fmul_lxor_r).
    rewrite xsum_lxor. change (N.lxor (mmul f n A (mmul f n Y A) i' j) (mmul f n A mone i' j) = 0%N).
    rewrite <- (mmul_assoc f n n n n) by auto. rewrite (mmul_ext f n n n (mmul f n A Y) mone A A) by (auto using meq_refl). rewrite (mmul_1_l f n n A), (mmul_1_r f n n A) by auto. apply N.lxor_nilpotent.
Qed.
Lemma vander_invertible n al : (forall i, i < n -> inF f (al i)) -> (forall i i', i < i' -> i' < n -> al i <> al i') -> invertible f n (fun i k => fpow f (al i) k).
Proof.
  intros Ha Hd. apply trivial_kernel_invertible; [intros i j _ _; apply fpow_inF|]. intros v Hv Hz. now apply (vander_kernel n al v).
Qed.
End F.
