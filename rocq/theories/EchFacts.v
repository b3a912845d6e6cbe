(** Echelon forms: independence, rank, uniqueness, and one step of Gaussian elimination. *)
From Coq Require Import NArith Lia List Bool Arith Ring Wf_nat.
From Coq Require Import ZifyBool ZifyNat ZifyN.
From Verif Require Import Base Spec LinSpec PolyFacts MatFacts.
Local Open Scope nat_scope.

Section Field.
Variable f : N.
Hypothesis Hf : (1 <= pdeg f)%N.
Let f0 : f <> 0%N.
Proof. intros ->. cbn in Hf. lia. Qed.
Hypothesis Hirr : irreducible f.

(** ** independence of echelon rows *)



Lemma echelon_independent m n r piv R : inM f m n R -> echelon m n r piv R -> independent f r n R.
Proof. clear Hirr.
  intros HR (Hr & Hp & Hinc & _) v Hv Hs.
  intros k. induction k as [k IH] using lt_wf_ind. intros Hk.
  destruct (Hp k Hk) as (Hpk & E1 & Ez). specialize (Hs (piv k) Hpk).
  rewrite (xsum_single r k) in Hs; auto.
  - rewrite E1, fmul_1_r in Hs; auto.
  - intros i Hi Hne. destruct (Nat.lt_ge_cases i k) as [Hl|Hl].
    + rewrite IH by lia. apply fmul_0_l.
    + destruct (Hp i Hi) as (_ & _ & Ez'). rewrite Ez'; [apply fmul_0_r|]. apply Hinc; lia.
Qed.

Lemma echelon_rank m n r piv A R : inM f m n A -> inM f m n R -> row_equiv f m n A R -> echelon m n r piv R ->
  is_rank f m n A r.
Proof. clear Hirr.
  intros HA HR (T & T' & (HT & HT' & E1 & E2) & E) He. pose proof He as (Hr & _ & _ & Hz).
  exists R, T', T. repeat split.
  - intros i j Hi Hj. apply HR; lia.
  - intros i j Hi Hj. apply HT'; lia.
  - intros i j Hi Hj. apply HT; lia.
  - intros i j Hi Hj.
    assert (X : mmul f m T' R i j = A i j).
    { rewrite (mmul_ext f m m n T' T' R (mmul f m T A)); auto using meq_refl.
      rewrite <- (mmul_assoc f m m m n); auto.
      rewrite (mmul_ext f m m n _ mone A A); auto using meq_refl. now apply (mmul_1_l f m n). }
    rewrite <- X. replace m with (r + (m - r)) at 1 by lia. rewrite mmul_split.
    rewrite (mmul_0_r f (m - r)); [apply N.lxor_0_r|]. intros k Hk. apply Hz; lia.
  - intros i j Hi Hj. apply E; lia.
  - now apply (echelon_independent m n r piv).
Qed.

(** ** rank is unique: an underdetermined homogeneous system has a non-trivial solution *)
Lemma finv_ex x : inF f x -> x <> 0%N -> exists y, inF f y /\ fmul f x y = 1%N.
Proof.
  intros Hx Hx0. apply inverse_exists; auto. now rewrite pmod_small.
Qed.
Definition sk (j0 j : nat) : nat := if j <? j0 then j else S j.
Lemma sk_ne j0 j : sk j0 j <> j0.
Proof. clear f0 Hirr Hf. unfold sk. destruct (Nat.ltb_spec j j0); lia. Qed.
Lemma sk_lt j0 j n : j < n -> sk j0 j < S n.
Proof. clear f0 Hirr Hf. unfold sk. destruct (Nat.ltb_spec j j0); lia. Qed.
Lemma xsum_skip n j0 g : j0 <= n -> xsum (S n) g = N.lxor (g j0) (xsum n (fun j => g (sk j0 j))).
Proof. clear f0 Hirr Hf.
  intros H. replace (S n) with (j0 + (1 + (n - j0))) by lia. rewrite !xsum_split, xsum_1.
  replace n with (j0 + (n - j0)) at 2 by lia. rewrite xsum_split.
  rewrite (xsum_ext j0 (fun j => g (sk j0 j)) g).
  - rewrite (xsum_ext (n - j0) (fun i => g (sk j0 (j0 + i))) (fun i => g (j0 + (1 + i)))).
    + rewrite Nat.add_0_r. ring.
    + intros i Hi. unfold sk. replace (j0 + i <? j0) with false by lia. f_equal. lia.
  - intros i Hi. unfold sk. now replace (i <? j0) with true by lia.
Qed.
Definition unsk (j0 : nat) (x : N) (v : nat -> N) : nat -> N :=
  fun j => if j =? j0 then x else if j <? j0 then v j else v (j - 1).
Lemma unsk_sk j0 x v j : unsk j0 x v (sk j0 j) = v j.
Proof. clear f0 Hirr Hf.
  unfold unsk. destruct (Nat.eqb_spec (sk j0 j) j0) as [E|_]; [now apply sk_ne in E|].
  unfold sk. destruct (Nat.ltb_spec j j0).
  - now replace (j <? j0) with true by lia.
  - replace (S j <? j0) with false by lia. f_equal. lia.
Qed.
Lemma kernel_nontrivial k : forall n (Y : mat), inM f k n Y -> k < n ->
  exists v, (forall j, j < n -> inF f (v j)) /\ (exists j, j < n /\ v j <> 0%N) /\
    forall i, i < k -> xsum n (fun j => fmul f (Y i j) (v j)) = 0%N.
Proof.
  induction k as [|k IH]; intros n Y HY Hn.
  - exists (fun j => if j =? 0 then 1%N else 0%N). split; [|split].
    + intros j _. destruct (j =? 0); [now apply inF1|now apply inF0].
    + exists 0. split; [lia|discriminate].
    + lia.
  - assert (D : (forall j, j < n -> Y k j = 0%N) \/ exists j, j < n /\ Y k j <> 0%N).
    { clear -n. induction n as [|n IHn]; [left; lia|]. destruct IHn as [Z|(j & Hj & Hj0)].
      - destruct (N.eq_dec (Y k n) 0) as [Z'|Z'].
        + left. intros j Hj. destruct (Nat.eq_dec j n) as [->|]; [easy|apply Z; lia].
        + right. exists n. split; [lia|easy].
      - right. exists j. split; [lia|easy]. }
    destruct D as [Z|(j0 & Hj0 & Ha)].
    + destruct (IH n Y) as (v & Hv & Hnz & Hs); [intros i j Hi Hj; apply HY; lia|lia|].
      exists v. split; [easy|]. split; [easy|]. intros i Hi. destruct (Nat.eq_dec i k) as [->|]; [|apply Hs; lia].
      apply xsum_0. intros j Hj. rewrite Z by easy. apply fmul_0_l.
    + destruct n as [|n]; [lia|].
      destruct (finv_ex (Y k j0)) as (b & Hb & Eb); [apply HY; lia|easy|].
      set (Y' := fun i j => N.lxor (Y i (sk j0 j)) (fmul f (Y i j0) (fmul f b (Y k (sk j0 j))))).
      destruct (IH n Y') as (v & Hv & (jz & Hjz & Hnz) & Hs); [|lia|].
      { intros i j Hi Hj. unfold Y'. apply lxor_lt_pow2; [apply HY; [lia|now apply sk_lt]|now apply fmul_lt]. }
      set (x := xsum n (fun j => fmul f (fmul f b (Y k (sk j0 j))) (v j))).
      assert (Hx : inF f x) by (apply xsum_lt; intros; now apply fmul_lt).
      exists (unsk j0 x v). split; [|split].
      * intros j Hj. unfold unsk. destruct (Nat.eqb_spec j j0); [easy|]. destruct (Nat.ltb_spec j j0); apply Hv; lia.
      * exists (sk j0 jz). split; [now apply sk_lt|]. now rewrite unsk_sk.
      * assert (Hrow : forall i, i < S k -> xsum (S n) (fun j => fmul f (Y i j) (unsk j0 x v j)) =
           N.lxor (fmul f (Y i j0) x) (xsum n (fun j => fmul f (Y i (sk j0 j)) (v j)))).
        { intros i Hi. rewrite (xsum_skip n j0) by lia. f_equal.
          - unfold unsk. now rewrite Nat.eqb_refl.
          - apply xsum_ext. intros j Hj. now rewrite unsk_sk. }
        intros i Hi. rewrite Hrow by easy. destruct (Nat.eq_dec i k) as [->|Hne].
        { unfold x. rewrite xsum_fmul_l by easy. rewrite <- xsum_lxor. apply xsum_0. intros j Hj.
          rewrite fmul_assoc, fmul_assoc, Eb, fmul_1_l by first [exact f0 | apply HY; [lia|now apply sk_lt]]. apply N.lxor_nilpotent. }
        { rewrite <- (Hs i) by lia. unfold x, Y'. rewrite xsum_fmul_l by easy. rewrite <- xsum_lxor.
          apply xsum_ext. intros j Hj. rewrite fmul_lxor_l, !fmul_assoc by easy. apply N.lxor_comm. }
Qed.
(** the identity of size r does not factor through fewer than r dimensions *)
Lemma factor_le r r' X Y : inM f r r' X -> inM f r' r Y -> meq r r (mmul f r' X Y) mone -> r <= r'.
Proof.
  intros HX HY E. destruct (Nat.le_gt_cases r r') as [|Hlt]; [easy|]. exfalso.
  destruct (kernel_nontrivial r' r Y HY Hlt) as (v & Hv & (j & Hj & Hnz) & Hs).
  apply Hnz. transitivity (mmul f r mone (fun k _ => v k) j 0).
  - symmetry. apply (mmul_1_l f r 1); auto; try lia. intros a b Ha _. now apply Hv.
  - rewrite <- (mmul_ext f r r 1 _ _ (fun k _ => v k) _ E (meq_refl _ _ _)) by (auto; lia).
    rewrite (mmul_assoc f r r' r 1) by (auto; lia). apply mmul_0_r. intros k Hk. unfold mmul. now apply Hs.
Qed.
(** two matrices with independent rows spanning the same space have the same number of rows *)
Lemma independent_le r r' n Q Q' X Y : inM f r n Q -> inM f r r' X -> inM f r' r Y ->
  independent f r n Q -> meq r n Q (mmul f r' X Q') -> meq r' n Q' (mmul f r Y Q) -> r <= r'.
Proof.
  intros HQ HX HY Hi E1 E2. apply (factor_le r r' X Y HX HY). intros i j Hii Hj.
  assert (Z : N.lxor (mmul f r' X Y i j) (mone i j) = 0%N).
  { refine (Hi (fun j => N.lxor (mmul f r' X Y i j) (mone i j)) _ _ j Hj).
    - intros k Hk. apply lxor_lt_pow2; [now apply (inM_mmul f r r' r)|now apply (inM_mone f r r)].
    - intros c Hc. change (mmul f r (madd (mmul f r' X Y) mone) Q i c = 0%N).
      rewrite mmul_add_l by easy. rewrite (mmul_assoc f r r' r n) by auto.
      rewrite (mmul_1_l f r n) by auto. rewrite <- (mmul_ext f r r' n X X Q' _ (meq_refl _ _ _) E2) by auto.
      rewrite <- E1 by easy. apply N.lxor_nilpotent. }
  now apply N.lxor_eq.
Qed.
Theorem rank_unique m n A r r' : inM f m n A -> is_rank f m n A r -> is_rank f m n A r' -> r = r'.
Proof.
  intros HA (Q & P & L & HQ & HP & HL & E1 & E2 & Hi) (Q' & P' & L' & HQ' & HP' & HL' & E1' & E2' & Hi').
  assert (forall p p' Q Q' P L', inM f p' m L' -> inM f m p P -> meq m n A (mmul f p P Q) ->
     meq p' n Q' (mmul f m L' A) -> meq p' n Q' (mmul f p (mmul f m L' P) Q)) as K.
  { clear - f0. intros p p' Q Q' P L' HL' HP E1 E2'. eapply meq_trans; [exact E2'|].
    eapply meq_trans; [apply mmul_ext; [apply meq_refl|exact E1]|]. apply meq_sym. now apply mmul_assoc. }
  apply Nat.le_antisymm.
  - apply (independent_le r r' n Q Q' (mmul f m L P') (mmul f m L' P)); auto; try now apply inM_mmul.
  - apply (independent_le r' r n Q' Q (mmul f m L' P) (mmul f m L P')); auto; try now apply inM_mmul.
Qed.

(** ** one column of Gaussian elimination *)
(** after treating the columns below c: r pivots found *)
Definition ech_inv (full : bool) (m n c r : nat) (piv : nat -> nat) (R : mat) : Prop :=
  r <= m /\
  (forall i, i < r -> piv i < c /\ R i (piv i) = 1%N /\ forall j, j < piv i -> R i j = 0%N) /\
  (forall i i', i < i' -> i' < r -> piv i < piv i') /\
  (forall i j, r <= i < m -> j < c -> R i j = 0%N) /\
  (full = true -> reduced m r piv R).
Lemma ech_inv_init full m n R : ech_inv full m n 0 0 (fun _ => 0) R.
Proof. clear f0 Hirr Hf. unfold ech_inv, reduced. repeat split; intros; lia. Qed.
Lemma ech_inv_none full m n c r piv R : ech_inv full m n c r piv R ->
  (forall i, r <= i < m -> R i c = 0%N) -> ech_inv full m n (S c) r piv R.
Proof. clear f0 Hirr Hf.
  intros (H1 & H2 & H3 & H4 & H5) Hz. split; [easy|]. split; [|split; [easy|split; [|easy]]].
  - intros i Hi. destruct (H2 i Hi) as (A & B & C). split; [lia|easy].
  - intros i j Hi Hj. destruct (Nat.eq_dec j c) as [->|]; [now apply Hz|apply H4; lia].
Qed.
Lemma ech_inv_done full m n r piv R : ech_inv full m n n r piv R ->
  echelon m n r piv R /\ (full = true -> reduced m r piv R).
Proof. clear f0 Hirr Hf. intros (H1 & H2 & H3 & H4 & H5). split; [|easy]. split; [easy|]. split; [easy|]. split; easy. Qed.

(** scale row p by g, swap it to row r, clear column c in the rows below (and above if full) *)
Definition gstep (full : bool) (p r c : nat) (g : N) (R : mat) : mat :=
  let R1 : mat := fun i j => if i =? r then fmul f g (R p j) else if i =? p then R r j else R i j in
  fun i j => if (negb (i =? r)) && (full || (r <? i)) then N.lxor (R1 i j) (fmul f (R1 i c) (R1 r j)) else R1 i j.

Lemma ech_inv_step full m n c r piv p g R : inM f m n R -> ech_inv full m n c r piv R ->
  c < n -> r <= p < m -> inF f g -> fmul f g (R p c) = 1%N ->
  ech_inv full m n (S c) (S r) (fun i => if i =? r then c else piv i) (gstep full p r c g R).
Proof. clear Hirr.
  intros HR (H1 & H2 & H3 & H4 & H5) Hc Hp Hg Eg.
  set (R1 := fun i j => if i =? r then fmul f g (R p j) else if i =? p then R r j else R i j).
  assert (R1p : R1 r c = 1%N) by (unfold R1; now rewrite Nat.eqb_refl).
  assert (R1z : forall j, j < c -> R1 r j = 0%N).
  { intros j Hj. unfold R1. rewrite Nat.eqb_refl, (H4 p j) by lia. apply fmul_0_r. }
  assert (R1lo : forall i j, i < r -> R1 i j = R i j).
  { intros i j Hi. unfold R1. replace (i =? r) with false by lia. now replace (i =? p) with false by lia. }
  assert (R1hi : forall i j, r <= i < m -> j < c -> R1 i j = 0%N).
  { intros i j Hi Hj. unfold R1. destruct (i =? r); [rewrite H4 by lia; apply fmul_0_r|].
    destruct (i =? p); apply H4; lia. }
  assert (HR1 : inM f m n R1).
  { intros i j Hi Hj. unfold R1. destruct (i =? r); [now apply fmul_lt|]. destruct (i =? p); apply HR; lia. }
  assert (G : forall i j, gstep full p r c g R i j =
     if (negb (i =? r)) && (full || (r <? i)) then N.lxor (R1 i j) (fmul f (R1 i c) (R1 r j)) else R1 i j) by reflexivity.
  assert (Gz : forall i j, j < c -> gstep full p r c g R i j = R1 i j).
  { intros i j Hj. rewrite G, R1z, fmul_0_r, N.lxor_0_r by easy. now destruct (_ && _). }
  assert (Gr : forall j, gstep full p r c g R r j = R1 r j).
  { intros j. rewrite G. now rewrite Nat.eqb_refl. }
  assert (Gc : forall i, i < m -> i <> r -> full = true \/ r < i -> gstep full p r c g R i c = 0%N).
  { intros i Hi Hne Ho. rewrite G. replace (i =? r) with false by lia. replace (full || (r <? i)) with true.
    - cbn [negb andb]. rewrite R1p, fmul_1_r by (auto; apply HR1; lia). apply N.lxor_nilpotent.
    - symmetry. destruct Ho as [-> |]; [easy|]. apply orb_true_iff. right. lia. }
  split; [lia|]. split; [|split; [|split]].
  - intros i Hi. destruct (Nat.eqb_spec i r) as [->|Hne].
    + split; [lia|]. rewrite Gr. split; [easy|]. intros j Hj. rewrite Gr. now apply R1z.
    + destruct (H2 i ltac:(lia)) as (P1 & P2 & P3). split; [lia|]. split.
      * rewrite Gz, R1lo by lia. easy.
      * intros j Hj. rewrite Gz, R1lo by lia. now apply P3.
  - intros i i' Hlt Hi'. destruct (Nat.eqb_spec i r); [lia|]. destruct (Nat.eqb_spec i' r) as [->|].
    + apply H2. lia.
    + apply H3; lia.
  - intros i j Hi Hj. destruct (Nat.eq_dec j c) as [->|].
    + apply Gc; [lia|lia|]. right. lia.
    + rewrite Gz by lia. apply R1hi; lia.
  - intros Hfull i i' Hi Hi' Hne. cbv beta. destruct (Nat.eqb_spec i r) as [->|Hir].
    + apply Gc; auto.
    + specialize (H5 Hfull). destruct (H2 i ltac:(lia)) as (P1 & _ & _). rewrite Gz by easy.
      destruct (Nat.lt_ge_cases i' r).
      * rewrite R1lo by easy. apply H5; lia.
      * apply R1hi; lia.
Qed.
Lemma gstep_equiv full m n c r p g x R : inM f m n R -> r < m -> p < m -> c < n -> inF f g -> inF f x -> fmul f g x = 1%N ->
  row_equiv f m n R (gstep full p r c g R).
Proof. clear Hirr.
  intros HR Hr Hp Hc Hg Hx E.
  (* scale row p *)
  assert (S1 : row_equiv f m n R (pivot_op f p g (fun _ => 0%N) R)).
  { apply (row_equiv_pivot f Hf m n R p g x); auto. intros. now apply inF0. }
  set (A1 := pivot_op f p g (fun _ => 0%N) R) in *.
  assert (H1 : inM f m n A1).
  { intros i j Hi Hj. unfold A1, pivot_op. destruct (i =? p); [now apply fmul_lt|].
    apply lxor_lt_pow2; [now apply HR|now apply fmul_lt]. }
  assert (S2 : row_equiv f m n A1 (fun i j => A1 (swp p r i) j)) by now apply row_equiv_swap.
  set (A2 := fun i j => A1 (swp p r i) j) in *.
  assert (H2 : inM f m n A2) by (intros i j Hi Hj; apply H1; [now apply swp_lt|easy]).
  set (beta := fun i => if negb (i =? r) && (full || (r <? i)) then A2 i c else 0%N).
  assert (S3 : row_equiv f m n A2 (pivot_op f r 1 beta A2)).
  { apply (row_equiv_pivot f Hf m n A2 r 1 1); auto using inF1.
    - apply fmul_1_l; auto. now apply inF1.
    - intros i Hi. unfold beta. destruct (_ && _); [now apply H2|now apply inF0]. }
  eapply row_equiv_trans; [exact Hf|exact S1|]. eapply row_equiv_trans; [exact Hf|exact S2|].
  eapply row_equiv_ext; [exact S3|].
  assert (K : forall i j, i < m -> j < n -> A2 i j =
     if i =? r then fmul f g (R p j) else if i =? p then R r j else R i j).
  { intros i j Hi Hj. unfold A2, A1, swp, pivot_op.
    destruct (Nat.eqb_spec i p) as [->|Hip].
    - rewrite (Nat.eqb_sym r p). destruct (Nat.eqb_spec p r) as [->|Hrp]; [reflexivity|].
      rewrite fmul_0_l, N.lxor_0_r. reflexivity.
    - destruct (Nat.eqb_spec i r) as [->|Hir].
      + now rewrite Nat.eqb_refl.
      + replace (i =? p) with false by lia. now rewrite fmul_0_l, N.lxor_0_r. }
  intros i j Hi Hj. unfold pivot_op, gstep, beta. rewrite !K by lia. rewrite Nat.eqb_refl.
  destruct (Nat.eqb_spec i r) as [->|Hne]; cbn [negb andb].
  - apply fmul_1_l; auto. now apply fmul_lt.
  - destruct (full || (r <? i)); [reflexivity|]. now rewrite fmul_0_l, N.lxor_0_r.
Qed.
Lemma inM_gstep full m n c r p g R : inM f m n R -> r < m -> p < m -> c < n -> inM f m n (gstep full p r c g R).
Proof. clear Hirr.
  intros HR Hr Hp Hc i j Hi Hj. unfold gstep.
  assert (K : forall i j, i < m -> j < n -> inF f (if i =? r then fmul f g (R p j) else if i =? p then R r j else R i j)).
  { intros i' j' Hi' Hj'. destruct (i' =? r); [now apply fmul_lt|]. destruct (i' =? p); apply HR; auto. }
  destruct (_ && _); [|now apply K]. apply lxor_lt_pow2; [now apply K|now apply fmul_lt].
Qed.

(** ** the reduced row echelon form is unique *)
(** a combination v = w * R of the rows of a reduced echelon form has coefficients w k = v (piv k) *)
Lemma rref_coeff m n r piv R w : inM f m n R -> echelon m n r piv R -> reduced m r piv R ->
  (forall k, k < r -> inF f (w k)) ->
  forall k, k < r -> xsum r (fun i => fmul f (w i) (R i (piv k))) = w k.
Proof. clear Hirr.
  intros HR (H1 & H2 & H3 & H4) H5 Hw k Hk. rewrite (xsum_single r k); auto.
  - destruct (H2 k Hk) as (_ & -> & _). apply fmul_1_r; auto.
  - intros i Hi Hne. rewrite H5; [apply fmul_0_r|lia|lia|easy].
Qed.
Lemma rref_lead m n r piv R w c : inM f m n R -> echelon m n r piv R -> reduced m r piv R ->
  (forall k, k < r -> inF f (w k)) -> c < n ->
  xsum r (fun i => fmul f (w i) (R i c)) <> 0%N ->
  (forall j, j < c -> xsum r (fun i => fmul f (w i) (R i j)) = 0%N) ->
  exists k, k < r /\ piv k = c.
Proof.
  intros HR He Hred Hw Hc Hnz Hz. pose proof He as (H1 & H2 & H3 & H4).
  assert (D : forall t, t <= r -> (forall k, k < t -> w k = 0%N) \/ exists k, k < t /\ w k <> 0%N /\ forall k', k' < k -> w k' = 0%N).
  { induction t as [|t IH]; intros Ht; [left; lia|]. destruct IH as [Z|(k & Hk & Hk0 & Hkz)]; [lia| |].
    - destruct (N.eq_dec (w t) 0) as [E|E].
      + left. intros k Hk. destruct (Nat.eq_dec k t) as [->|]; [easy|apply Z; lia].
      + right. exists t. split; [lia|]. now split.
    - right. exists k. split; [lia|]. now split. }
  destruct (D r (le_n r)) as [Z|(k & Hk & Hk0 & Hkz)].
  - exfalso. apply Hnz. apply xsum_0. intros i Hi. rewrite Z by easy. apply fmul_0_l.
  - exists k. split; [easy|]. destruct (H2 k Hk) as (P1 & P2 & P3).
    pose proof (rref_coeff m n r piv R w HR He Hred Hw k Hk) as E.
    destruct (Nat.lt_trichotomy (piv k) c) as [Hlt|[Heq|Hgt]]; [|easy|].
    + rewrite Hz in E by easy. congruence.
    + exfalso. apply Hnz. apply xsum_0. intros i Hi. destruct (Nat.lt_ge_cases i k) as [|Hge].
      * rewrite Hkz by easy. apply fmul_0_l.
      * destruct (H2 i Hi) as (_ & _ & P3'). rewrite P3'; [apply fmul_0_r|].
        destruct (Nat.eq_dec i k) as [->|]; [easy|]. specialize (H3 k i). lia.
Qed.
Lemma increasing_range r (p q : nat -> nat) :
  (forall i i', i < i' -> i' < r -> p i < p i') -> (forall i i', i < i' -> i' < r -> q i < q i') ->
  (forall i, i < r -> exists k, k < r /\ p k = q i) -> (forall i, i < r -> exists k, k < r /\ q k = p i) ->
  forall i, i < r -> p i = q i.
Proof.
  clear. intros Hp Hq H1 H2 i. induction i as [i IH] using lt_wf_ind. intros Hi.
  destruct (H1 i Hi) as (k & Hk & Ek). destruct (H2 i Hi) as (k' & Hk' & Ek').
  assert (i <= k).
  { destruct (Nat.le_gt_cases i k) as [|Hlt]; [easy|]. pose proof (IH k Hlt Hk). pose proof (Hq k i Hlt Hi). lia. }
  assert (i <= k').
  { destruct (Nat.le_gt_cases i k') as [|Hlt]; [easy|]. pose proof (IH k' Hlt Hk'). pose proof (Hp k' i Hlt Hi). lia. }
  assert (p i <= p k) by (destruct (Nat.eq_dec i k) as [->|]; [easy|]; apply Nat.lt_le_incl, Hp; lia).
  assert (q i <= q k') by (destruct (Nat.eq_dec i k') as [->|]; [easy|]; apply Nat.lt_le_incl, Hq; lia).
  lia.
Qed.
Lemma echelon_span m n r piv R S i j T : inM f m n R -> echelon m n r piv R -> meq m n S (mmul f m T R) ->
  i < m -> j < n -> S i j = xsum r (fun k => fmul f (T i k) (R k j)).
Proof. clear Hirr.
  intros HR (H1 & _ & _ & H4) E Hi Hj. rewrite E by easy. replace m with (r + (m - r)) at 1 by lia.
  rewrite mmul_split, (mmul_0_r f (m - r)); [apply N.lxor_0_r|]. intros k Hk. apply H4; lia.
Qed.
Theorem rref_unique m n A r piv R r' piv' R' : inM f m n A -> inM f m n R -> inM f m n R' ->
  row_equiv f m n A R -> row_equiv f m n A R' ->
  echelon m n r piv R -> reduced m r piv R -> echelon m n r' piv' R' -> reduced m r' piv' R' ->
  r = r' /\ meq m n R R' /\ forall i, i < r -> piv i = piv' i.
Proof.
  intros HA HR HR' Q Q' He Hd He' Hd'.
  assert (E : r = r').
  { apply (rank_unique m n A); auto; [apply (echelon_rank m n r piv A R)|apply (echelon_rank m n r' piv' A R')]; auto. }
  subst r'. split; [easy|].
  assert (QR : row_equiv f m n R R') by (apply (row_equiv_trans f Hf m n R A R'); [apply (row_equiv_sym f Hf); auto|exact Q']).
  assert (QR' : row_equiv f m n R' R) by (apply (row_equiv_sym f Hf); auto).
  assert (L : forall piv piv' R R', inM f m n R -> inM f m n R' -> row_equiv f m n R R' -> echelon m n r piv R -> reduced m r piv R ->
     echelon m n r piv' R' -> forall i, i < r -> exists k, k < r /\ piv k = piv' i).
  { clear - Hf Hirr f0. intros piv piv' R R' HR HR' (T & T' & (HT & _) & E) He Hd (G1 & G2 & G3 & G4) i Hi.
    destruct (G2 i Hi) as (P1 & P2 & P3).
    apply (rref_lead m n r piv R (T i)); auto.
    - intros k Hk. apply HT; destruct He; lia.
    - rewrite <- (echelon_span m n r piv R R' i (piv' i) T); auto; try lia.
    - intros j Hj. rewrite <- (echelon_span m n r piv R R' i j T); auto; try lia. }
  assert (EP : forall i, i < r -> piv i = piv' i).
  { apply increasing_range.
    - apply He.
    - apply He'.
    - apply (L piv piv' R R'); auto.
    - apply (L piv' piv R' R); auto. }
  split; [|easy]. destruct QR as (T & T' & (HT & _) & E).
  pose proof He as (G1 & G2 & G3 & G4). pose proof He' as (F1 & F2 & F3 & F4).
  intros i j Hi Hj. destruct (Nat.lt_ge_cases i r) as [Hir|Hir].
  - rewrite (echelon_span m n r piv R R' i j T) by auto.
    assert (C : forall k, k < r -> T i k = if k =? i then 1%N else 0%N).
    { intros k Hk. rewrite <- (rref_coeff m n r piv R (T i)); auto; [|intros; apply HT; lia].
      rewrite <- (echelon_span m n r piv R R' i (piv k) T); auto; [|apply G2; easy].
      rewrite EP by easy. destruct (Nat.eqb_spec k i) as [->|Hne]; [now apply F2|]. apply Hd'; auto. }
    rewrite (xsum_single r i); auto.
    + rewrite C, Nat.eqb_refl by easy. symmetry. apply fmul_1_l; auto.
    + intros k Hk Hne. rewrite C by easy. replace (k =? i) with false by lia. apply fmul_0_l.
  - rewrite G4, F4 by lia. reflexivity.
Qed.
End Field.
