(** Property theorems C71: the laws of matrix algebra hold for what the library computes.  Nothing in the statements refers to how a
    product, an inverse or an echelon form is defined: only results of calls are compared, with the library's own comparison. *)
From Coq Require Import NArith ZArith Lia List Bool Arith.
From Coq Require Import ZifyBool ZifyNat ZifyN.
From Verif Require Import Base Spec PolyFacts Gf2eModel Gf2eProofs MzdModel MzedModel MzedSpec LinSpec MatFacts EchFacts EchNaive MzedProofs NjModel MulModel NjInv PleModel HistProofs Demo PropMzed PropNj PropMul PropEch PropSolve PleTop.
Import ListNotations.
Local Open Scope nat_scope.

(** both calls succeed and mzed_cmp finds the results equal *)
Definition same (x y : res mzed) : Prop := exists X Y, x = Ok X /\ y = Ok Y /\ mzed_cmp X Y = Eq.
Notation poly A := (ff_minpoly (mz_ff A)).
(** A is an m x n matrix over GF(2)[X]/(f) *)
Definition over (f : N) (m n : nat) (A : mzed) : Prop := wf_mzed A /\ poly A = f /\ mz_nrows A = m /\ mz_ncols A = n.

Lemma over_holds f m n A : over f m n A -> holds A f m n (entry A).
Proof. intros (H1 & H2 & H3 & H4). split; [exact H1|]. split; [exact H2|]. split; [exact H3|]. split; [exact H4|]. reflexivity. Qed.
Lemma holds_over f m n A F : holds A f m n F -> over f m n A /\ meq m n (entry A) F.
Proof. intros (H1 & H2 & H3 & H4 & H5). split; [split; [exact H1|]; now repeat split|exact H5]. Qed.
Lemma over_inM f m n A : over f m n A -> inM f m n (entry A).
Proof. intros (H1 & H2 & H3 & H4). pose proof (wf_inM A H1) as X. now rewrite H2, H3, H4 in X. Qed.
Lemma over_f f m n A : over f m n A -> f <> 0%N /\ (1 <= pdeg f)%N.
Proof. intros (H1 & H2 & _). pose proof (wf_deg1 A H1) as X. rewrite H2 in X. split; [intros ->; cbn in X; lia|exact X]. Qed.
Lemma cmp_same f m n A B F G : holds A f m n F -> holds B f m n G -> meq m n F G -> mzed_cmp A B = Eq.
Proof.
  intros (H1 & H2 & H3 & H4 & H5) (K1 & K2 & K3 & K4 & K5) E. apply (C16_cmp_is_zero A B H1 K1); [congruence|]. split; [congruence|]. split; [congruence|].
  rewrite H3, H4. intros i c Hi Hc. rewrite H5, K5 by auto. now apply E.
Qed.

Section Ring.
(** the parameters mzed_mul computes with, see C24 *)
Variables (mulbs : nat) (l2 : Z).
Hypotheses (Hb : 16 <= mulbs) (Hl : (4096 <= l2)%Z).
Notation mul A B := (mzed_mul mulbs l2 None A B).
Notation add A B := (mzed_add None A B).
Lemma mul_ok f m k n A B : over f m k A -> over f k n B -> 0 < n -> exists C, mul A B = Ok C /\ holds C f m n (mmul f k (entry A) (entry B)).
Proof.
  intros (A1 & A2 & A3 & A4) (B1 & B2 & B3 & B4) Hn. destruct (C24_mul mulbs l2 None A B Hb Hl A1 B1 ltac:(congruence) ltac:(congruence) ltac:(lia) Logic.I) as (C & E & H).
  exists C. split; [exact E|]. now rewrite A2, A3, A4, B4 in H.
Qed.
Lemma add_ok f m n A B : over f m n A -> over f m n B -> exists C, add A B = Ok C /\ holds C f m n (madd (entry A) (entry B)).
Proof.
  intros (A1 & A2 & A3 & A4) (B1 & B2 & B3 & B4). destruct (proj1 (C15_add None A B A1 B1) ltac:(congruence) ltac:(congruence) ltac:(congruence) Logic.I) as (C & E & H).
  exists C. split; [exact E|]. now rewrite A2, A3, A4 in H.
Qed.
(** ** addition: a commutative group in which every matrix is its own inverse *)
Theorem C71_addition : forall f m n A B C, over f m n A -> over f m n B -> over f m n C ->
  same (add A B) (add B A) /\ same (S <- add A B ;; add S C) (S <- add B C ;; add A S) /\
  (exists Z, add A A = Ok Z /\ over f m n Z /\ mzed_is_zero Z = true /\ same (add A Z) (Ok A)).
Proof.
  intros f m n A B C HA HB HC. destruct (add_ok f m n A B HA HB) as (S & ES & KS). destruct (add_ok f m n B A HB HA) as (S' & ES' & KS').
  destruct (add_ok f m n B C HB HC) as (T & ET & KT). destruct (add_ok f m n A A HA HA) as (Z & EZ & KZ).
  destruct (holds_over _ _ _ _ _ KS) as (OS & MS). destruct (holds_over _ _ _ _ _ KT) as (OT & MT). destruct (holds_over _ _ _ _ _ KZ) as (OZ & MZ).
  destruct (add_ok f m n S C OS HC) as (U & EU & KU). destruct (add_ok f m n A T HA OT) as (V & EV & KV). destruct (add_ok f m n A Z HA OZ) as (W & EW & KW).
  split; [|split].
  - exists S, S'. split; [exact ES|]. split; [exact ES'|]. apply (cmp_same _ _ _ _ _ _ _ KS KS'). intros i j _ _. apply N.lxor_comm.
  - rewrite ES, ET. cbn [bind]. exists U, V. split; [exact EU|]. split; [exact EV|]. apply (cmp_same _ _ _ _ _ _ _ KU KV). intros i j Hi Hj. unfold madd in *. rewrite MS, MT by auto. apply N.lxor_assoc.
  - exists Z. split; [exact EZ|]. split; [exact OZ|].
    assert (Z0 : forall i c, i < m -> c < n -> entry Z i c = 0%N) by (intros i c Hi Hc; rewrite MZ by auto; apply N.lxor_nilpotent). split.
    + destruct OZ as (W1 & W2 & W3 & W4). apply (C16_cmp_is_zero Z Z W1 W1 eq_refl). now rewrite W3, W4.
    + exists W, A. split; [exact EW|]. split; [reflexivity|]. apply (cmp_same _ _ _ _ _ _ _ KW (over_holds _ _ _ _ HA)). intros i j Hi Hj. unfold madd. rewrite Z0 by auto. apply N.lxor_0_r.
Qed.
(** ** multiplication: associative, distributive, with identity matrices *)
Theorem C71_mul_assoc : forall f m k l n A B C, over f m k A -> over f k l B -> over f l n C -> 0 < l -> 0 < n ->
  same (X <- mul A B ;; mul X C) (X <- mul B C ;; mul A X).
Proof.
  intros f m k l n A B C HA HB HC L0 N0. destruct (over_f _ _ _ _ HA) as (f0 & _).
  destruct (mul_ok f m k l A B HA HB L0) as (X & EX & KX). destruct (mul_ok f k l n B C HB HC N0) as (Y & EY & KY).
  destruct (holds_over _ _ _ _ _ KX) as (OX & MX). destruct (holds_over _ _ _ _ _ KY) as (OY & MY).
  destruct (mul_ok f m l n X C OX HC N0) as (U & EU & KU). destruct (mul_ok f m k n A Y HA OY N0) as (V & EV & KV).
  rewrite EX, EY. cbn [bind]. exists U, V. split; [exact EU|]. split; [exact EV|]. apply (cmp_same _ _ _ _ _ _ _ KU KV).
  eapply meq_trans; [apply mmul_ext; [exact MX|apply meq_refl]|]. eapply meq_trans; [apply (mmul_assoc f m k l n); exact f0|]. apply mmul_ext; [apply meq_refl|now apply meq_sym].
Qed.
Theorem C71_distributive : forall f m k n A A' B B', over f m k A -> over f m k A' -> over f k n B -> over f k n B' -> 0 < n ->
  same (X <- add A A' ;; mul X B) (X <- mul A B ;; Y <- mul A' B ;; add X Y) /\
  same (X <- add B B' ;; mul A X) (X <- mul A B ;; Y <- mul A B' ;; add X Y).
Proof.
  intros f m k n A A' B B' HA HA' HB HB' N0. destruct (over_f _ _ _ _ HA) as (f0 & _).
  destruct (add_ok f m k A A' HA HA') as (S & ES & KS). destruct (add_ok f k n B B' HB HB') as (T & ET & KT). destruct (holds_over _ _ _ _ _ KS) as (OS & MS). destruct (holds_over _ _ _ _ _ KT) as (OT & MT).
  destruct (mul_ok f m k n A B HA HB N0) as (P1 & E1 & K1). destruct (mul_ok f m k n A' B HA' HB N0) as (P2 & E2 & K2). destruct (mul_ok f m k n A B' HA HB' N0) as (P3 & E3 & K3).
  destruct (holds_over _ _ _ _ _ K1) as (O1 & M1). destruct (holds_over _ _ _ _ _ K2) as (O2 & M2). destruct (holds_over _ _ _ _ _ K3) as (O3 & M3).
  destruct (mul_ok f m k n S B OS HB N0) as (U & EU & KU). destruct (mul_ok f m k n A T HA OT N0) as (V & EV & KV).
  destruct (add_ok f m n P1 P2 O1 O2) as (W & EW & KW). destruct (add_ok f m n P1 P3 O1 O3) as (Y & EY & KY).
  rewrite ES, ET, E1, E2, E3. cbn [bind]. split.
  - exists U, W. split; [exact EU|]. split; [exact EW|]. apply (cmp_same _ _ _ _ _ _ _ KU KW). eapply meq_trans; [apply mmul_ext; [exact MS|apply meq_refl]|].
    intros i j Hi Hj. rewrite mmul_add_l by exact f0. unfold madd. now rewrite M1, M2.
  - exists V, Y. split; [exact EV|]. split; [exact EY|]. apply (cmp_same _ _ _ _ _ _ _ KV KY). eapply meq_trans; [apply mmul_ext; [apply meq_refl|exact MT]|].
    intros i j Hi Hj. rewrite mmul_add_r by exact f0. unfold madd. now rewrite M1, M3.
Qed.
Lemma unit_ok ff n : gf2e_wf ff -> 2 <= ff_degree ff -> exists I, (X <- mzed_init ff n n ;; mzed_set_ui X 1) = Ok I /\ holds I (ff_minpoly ff) n n mone.
Proof.
  intros W D. destruct (C15_init ff n n W D) as (X & EX & Ef & KX). destruct (holds_over _ _ _ _ _ KX) as ((X1 & X2 & X3 & X4) & _).
  assert (H1 : inF (fld X) 1). { apply inF1. now apply wf_deg1. }
  destruct (C15_set_ui X 1 X1 H1) as (I & EI & BI). exists I. rewrite EX. split; [exact EI|]. destruct BI as (B1 & (B2 & B3 & B4 & B5) & B6 & _).
  split; [exact B1|]. split; [rewrite <- B2; exact X2|]. split; [congruence|]. split; [congruence|]. rewrite X3, X4 in B6. exact B6.
Qed.
Theorem C71_identity : forall f m n A, over f m n A -> 2 <= ff_degree (mz_ff A) -> 0 < n -> 0 < m ->
  same (I <- (X <- mzed_init (mz_ff A) m m ;; mzed_set_ui X 1) ;; mul I A) (Ok A) /\
  same (I <- (X <- mzed_init (mz_ff A) n n ;; mzed_set_ui X 1) ;; mul A I) (Ok A).
Proof.
  intros f m n A HA Hd N0 M0. destruct (over_f _ _ _ _ HA) as (f0 & _). pose proof HA as (W & Ef & _ & _). assert (Wf : gf2e_wf (mz_ff A)) by apply W.
  destruct (unit_ok (mz_ff A) m Wf Hd) as (I & EI & KI). destruct (unit_ok (mz_ff A) n Wf Hd) as (J & EJ & KJ). rewrite Ef in KI, KJ.
  destruct (holds_over _ _ _ _ _ KI) as (OI & MI). destruct (holds_over _ _ _ _ _ KJ) as (OJ & MJ).
  destruct (mul_ok f m m n I A OI HA N0) as (U & EU & KU). destruct (mul_ok f m n n A J HA OJ N0) as (V & EV & KV). rewrite EI, EJ. cbn [bind].
  pose proof (over_inM _ _ _ _ HA) as IA. split.
  - exists U, A. split; [exact EU|]. split; [reflexivity|]. apply (cmp_same _ _ _ _ _ _ _ KU (over_holds _ _ _ _ HA)). eapply meq_trans; [apply mmul_ext; [exact MI|apply meq_refl]|]. now apply mmul_1_l.
  - exists V, A. split; [exact EV|]. split; [reflexivity|]. apply (cmp_same _ _ _ _ _ _ _ KV (over_holds _ _ _ _ HA)). eapply meq_trans; [apply mmul_ext; [apply meq_refl|exact MJ]|]. now apply mmul_1_r.
Qed.
End Ring.
Print Assumptions C71_addition.
Print Assumptions C71_mul_assoc.
Print Assumptions C71_distributive.
Print Assumptions C71_identity.

(** ** inverses *)
Lemma full_rank_one n A' piv : echelon n n n piv A' -> reduced n n piv A' -> meq n n A' mone.
Proof.
  intros (_ & Hp & Inc & _) Hr. assert (K : forall i, i < n -> i <= piv i). { induction i as [|i IH]; intros Hi; [lia|]. specialize (Inc i (S i) ltac:(lia) Hi). specialize (IH ltac:(lia)). lia. }
  assert (K' : forall d i, i < n -> n - i = S d -> piv i <= i). { induction d as [|d IH]; intros i Hi Hd; [destruct (Hp i Hi); lia|]. pose proof (Inc i (S i) ltac:(lia) ltac:(lia)). pose proof (IH (S i) ltac:(lia) ltac:(lia)). lia. }
  assert (E : forall i, i < n -> piv i = i). { intros i Hi. specialize (K i Hi). destruct (n - i) as [|d] eqn:D; [lia|]. specialize (K' d i Hi D). lia. }
  intros i j Hi Hj. unfold mone. destruct (Nat.eqb_spec i j) as [->|Ne].
  - destruct (Hp j Hj) as (_ & H & _). now rewrite E in H.
  - specialize (Hr j i Hj Hi ltac:(lia)). now rewrite E in Hr.
Qed.
Lemma inverse_sym f n A B : inverse f n A B -> inverse f n B A.
Proof. intros (H1 & H2 & H3 & H4). now repeat split. Qed.
Lemma inverse_ext f n A A' B B' : f <> 0%N -> meq n n A A' -> meq n n B B' -> inverse f n A B -> inverse f n A' B'.
Proof.
  intros f0 EA EB (H1 & H2 & H3 & H4). split; [exact (inM_meq _ _ _ _ _ EA H1)|]. split; [exact (inM_meq _ _ _ _ _ EB H2)|]. split.
  - eapply meq_trans; [apply mmul_ext; apply meq_sym; eassumption|exact H3].
  - eapply meq_trans; [apply mmul_ext; apply meq_sym; eassumption|exact H4].
Qed.
(** a square matrix has full rank and an inverse, or smaller rank and not even a one-sided inverse *)
Lemma square_cases f n A : irreducible f -> over f n n A ->
  (is_rank f n n (entry A) n /\ invertible f n (entry A)) \/
  (exists r, r < n /\ is_rank f n n (entry A) r /\ ~ invertible f n (entry A) /\ forall C, inM f n n C -> ~ meq n n (mmul f n (entry A) C) mone).
Proof.
  intros Hi HA. destruct (over_f _ _ _ _ HA) as (f0 & fd). pose proof (over_inM _ _ _ _ HA) as IA. pose proof HA as (A1 & A2 & A3 & A4). destruct (C26_echelonize_naive A true A1 ltac:(now rewrite A2)) as (A' & r & _ & _ & Hq & (piv & He & Hr) & Rk & _).
  rewrite A2, A3, A4 in *. specialize (Hr eq_refl). destruct (Nat.eq_dec r n) as [->|Ne].
  - left. split; [exact Rk|]. destruct Hq as (T & T' & IT & Eq). pose proof (full_rank_one _ _ _ He Hr) as E1. exists T. apply inverse_sym.
    apply (inverse_ext f n T T T' (entry A) f0 (meq_refl _ _ _)); [|exact IT]. destruct IT as (T1 & T2 & T3 & T4).
    eapply meq_trans; [apply meq_sym; exact (mmul_1_r f n n T' f0 T2)|]. eapply meq_trans; [apply mmul_ext; [apply meq_refl|]; apply meq_sym; exact E1|].
    eapply meq_trans; [apply mmul_ext; [apply meq_refl|exact Eq]|]. eapply meq_trans; [apply meq_sym; apply (mmul_assoc f n n n n); exact f0|].
    eapply meq_trans; [apply mmul_ext; [exact T4|apply meq_refl]|]. now apply mmul_1_l.
  - right. exists r. assert (Rn : forall C, inM f n n C -> meq n n (mmul f n (entry A) C) mone -> n <= r).
    { intros C IC EC. destruct Rk as (Q & P & L & HQ & HP & HL & E1 & _). apply (factor_le f fd Hi n r P (mmul f n Q C)); [exact HP|now apply inM_mmul|].
      eapply meq_trans; [|exact EC]. eapply meq_trans; [apply meq_sym; apply (mmul_assoc f n r n n); exact f0|]. apply mmul_ext; [apply meq_sym; exact E1|apply meq_refl]. }
    assert (Rlt : r < n). { destruct He as (Hle & _). lia. } split; [exact Rlt|]. split; [exact Rk|]. split.
    + intros (V & I1 & I2 & I3 & I4). specialize (Rn V I2 I3). lia.
    + intros C IC EC. specialize (Rn C IC EC). lia.
Qed.
Lemma right_inverse f n A C : irreducible f -> over f n n A -> inM f n n C -> meq n n (mmul f n (entry A) C) mone -> inverse f n (entry A) C.
Proof.
  intros Hi HA IC EC. destruct (over_f _ _ _ _ HA) as (f0 & fd). destruct (square_cases f n A Hi HA) as [(_ & V & IV)|(r & _ & _ & _ & H)]; [|now elim (H C IC)].
  apply (inverse_ext f n (entry A) (entry A) V C f0 (meq_refl _ _ _)); [|exact IV]. destruct IV as (V1 & V2 & V3 & V4).
  eapply meq_trans; [apply meq_sym; exact (mmul_1_r f n n V f0 V2)|]. eapply meq_trans; [apply mmul_ext; [apply meq_refl|apply meq_sym; exact EC]|].
  eapply meq_trans; [apply meq_sym; apply (mmul_assoc f n n n n); exact f0|]. eapply meq_trans; [apply mmul_ext; [exact V4|apply meq_refl]|]. now apply mmul_1_l.
Qed.

Section Inverse.
Variables (mulbs : nat) (l2 : Z) (k0 : nat).
Hypotheses (Hb : 16 <= mulbs) (Hl : (4096 <= l2)%Z) (Hk : k0 <= 7).
Notation mul A B := (mzed_mul mulbs l2 None A B).
Notation inv A := (mzed_invert_newton_john k0 None A).
(** the identity matrix *)
Notation one A n := (X <- mzed_init (mz_ff A) n n ;; mzed_set_ui X 1).
Lemma inv_ok f n A : irreducible f -> over f n n A -> (invertible f n (entry A) -> exists B, inv A = Ok B /\ over f n n B /\ inverse f n (entry A) (entry B)) /\
  (~ invertible f n (entry A) -> inv A = Die).
Proof.
  intros Hi (A1 & A2 & A3 & A4). destruct (C28_invert k0 None A A1 ltac:(now rewrite A2) Hk ltac:(congruence) Logic.I) as (H1 & H2). rewrite A2, A3, A4 in *. split; [|exact H2].
  intros H. destruct (H1 H) as (B & E & W1 & W2 & W3 & W4 & I). exists B. split; [exact E|]. split; [split; [exact W1|]; now repeat split|exact I].
Qed.
Lemma inv_inv f n A B : irreducible f -> over f n n A -> inv A = Ok B -> over f n n B /\ inverse f n (entry A) (entry B).
Proof.
  intros Hi HA E. destruct (inv_ok f n A Hi HA) as (H1 & H2). destruct (square_cases f n A Hi HA) as [(_ & H)|(r & _ & _ & H & _)].
  - destruct (H1 H) as (B' & E' & K). rewrite E in E'. injection E' as <-. exact K.
  - rewrite (H2 H) in E. discriminate.
Qed.
Lemma one_ok f n A I : over f n n A -> 2 <= ff_degree (mz_ff A) -> one A n = Ok I -> holds I f n n mone.
Proof. intros (A1 & A2 & _ & _) Hd E. destruct (unit_ok (mz_ff A) n ltac:(apply A1) Hd) as (I' & E' & K). rewrite E in E'. injection E' as <-. now rewrite A2 in K. Qed.
Lemma mul_same f n A C I : over f n n A -> over f n n C -> 0 < n -> holds I f n n mone -> same (mul A C) (Ok I) <-> meq n n (mmul f n (entry A) (entry C)) mone.
Proof.
  intros HA HC N0 KI. destruct (mul_ok mulbs l2 Hb Hl f n n n A C HA HC N0) as (P & EP & KP). split.
  - intros (X & Y & EX & EY & Ec). rewrite EP in EX. injection EX as <-. injection EY as <-.
    destruct KP as (P1 & P2 & P3 & P4 & P5). destruct KI as (I1 & I2 & I3 & I4 & I5). apply (C16_cmp_is_zero P I P1 I1) in Ec; [|congruence].
    destruct Ec as (_ & _ & Ec). intros i j Hi Hj. rewrite <- P5, <- I5 by auto. apply Ec; congruence.
  - intros E. exists P, I. split; [exact EP|]. split; [reflexivity|]. exact (cmp_same _ _ _ _ _ _ _ KP KI E).
Qed.
(** what mzed_invert_newton_john returns is the inverse: on both sides, and the only matrix that is one on either side; inverting it gives
    the matrix back *)
Theorem C71_inverse : forall f n A B I, irreducible f -> 0 < n -> over f n n A -> 2 <= ff_degree (mz_ff A) -> inv A = Ok B -> one A n = Ok I ->
  over f n n B /\ same (mul A B) (Ok I) /\ same (mul B A) (Ok I) /\ same (inv B) (Ok A) /\
  (forall C, over f n n C -> same (mul A C) (Ok I) \/ same (mul C A) (Ok I) -> mzed_cmp C B = Eq).
Proof.
  intros f n A B I Hi N0 HA Hd EB EI. pose proof (one_ok f n A I HA Hd EI) as KI. destruct (inv_inv f n A B Hi HA EB) as (HB & IB). destruct (over_f _ _ _ _ HA) as (f0 & fd).
  split; [exact HB|]. split; [apply (mul_same f n A B I); auto; apply IB|]. split; [apply (mul_same f n B A I); auto; apply IB|]. split.
  - destruct (proj1 (inv_ok f n B Hi HB) (ex_intro _ _ (inverse_sym _ _ _ _ IB))) as (A' & EA' & HA' & IA'). exists A', A. split; [exact EA'|]. split; [reflexivity|].
    apply (cmp_same _ _ _ _ _ _ _ (over_holds _ _ _ _ HA') (over_holds _ _ _ _ HA)). exact (inverse_unique f n _ _ _ f0 IA' (inverse_sym _ _ _ _ IB)).
  - intros C HC [H|H].
    + apply (mul_same f n A C I) in H; auto. apply right_inverse in H; [|exact Hi|exact HA|now apply over_inM].
      apply (cmp_same _ _ _ _ _ _ _ (over_holds _ _ _ _ HC) (over_holds _ _ _ _ HB)). exact (inverse_unique f n _ _ _ f0 H IB).
    + apply (mul_same f n C A I) in H; auto. apply right_inverse in H; [|exact Hi|exact HC|now apply over_inM].
      apply (cmp_same _ _ _ _ _ _ _ (over_holds _ _ _ _ HC) (over_holds _ _ _ _ HB)). exact (inverse_unique f n _ _ _ f0 (inverse_sym _ _ _ _ H) IB).
Qed.
(** inversion succeeds if and only if there is a matrix that is an inverse on one side, and otherwise dies; that is if and only if
    elimination finds full rank *)
Theorem C71_inverse_exists : forall f n A I, irreducible f -> 0 < n -> over f n n A -> 2 <= ff_degree (mz_ff A) -> one A n = Ok I ->
  ((exists B, inv A = Ok B) <-> exists C, over f n n C /\ (same (mul A C) (Ok I) \/ same (mul C A) (Ok I))) /\
  ((exists B, inv A = Ok B) <-> exists E, mzed_echelonize_newton_john k0 A true = Ok (E, n)) /\
  ((exists B, inv A = Ok B) \/ inv A = Die).
Proof.
  intros f n A I Hi N0 HA Hd EI. pose proof (one_ok f n A I HA Hd EI) as KI. destruct (inv_ok f n A Hi HA) as (H1 & H2). pose proof HA as (A1 & A2 & A3 & A4).
  destruct (C27_echelonize_newton_john k0 A true A1 ltac:(now rewrite A2) Hk) as (E & r & EE & _ & _ & _ & Rk & Ru). rewrite A2, A3, A4 in *. split; [|split].
  - split.
    + intros (B & EB). destruct (inv_inv f n A B Hi HA EB) as (HB & IB). exists B. split; [exact HB|]. left. apply (mul_same f n A B I); auto. apply IB.
    + intros (C & HC & [H|H]).
      * apply (mul_same f n A C I) in H; auto. apply right_inverse in H; [|exact Hi|exact HA|now apply over_inM]. destruct (H1 (ex_intro _ _ H)) as (B & EB & _). eauto.
      * apply (mul_same f n C A I) in H; auto. apply right_inverse in H; [|exact Hi|exact HC|now apply over_inM]. destruct (H1 (ex_intro _ _ (inverse_sym _ _ _ _ H))) as (B & EB & _). eauto.
  - destruct (square_cases f n A Hi HA) as [(R & H)|(r' & Hr' & R & H & _)].
    + pose proof (Ru n R). subst r. destruct (H1 H) as (B & EB & _). split; eauto.
    + pose proof (Ru r' R). subst r'. rewrite (H2 H). split; [intros (B & EB); discriminate|]. rewrite EE. intros (E' & E2). injection E2 as _ ->. lia.
  - destruct (square_cases f n A Hi HA) as [(_ & H)|(r' & _ & _ & H & _)]; [left; destruct (H1 H) as (B & EB & _); eauto|right; now apply H2].
Qed.
(** the inverse of a product *)
Theorem C71_inverse_mul : forall f n A B A' B', irreducible f -> 0 < n -> over f n n A -> over f n n B -> inv A = Ok A' -> inv B = Ok B' ->
  same (X <- mul A B ;; inv X) (mul B' A').
Proof.
  intros f n A B A' B' Hi N0 HA HB EA EB. destruct (over_f _ _ _ _ HA) as (f0 & fd). destruct (inv_inv f n A A' Hi HA EA) as (HA' & IA). destruct (inv_inv f n B B' Hi HB EB) as (HB' & IB).
  destruct (mul_ok mulbs l2 Hb Hl f n n n A B HA HB N0) as (P & EP & KP). destruct (mul_ok mulbs l2 Hb Hl f n n n B' A' HB' HA' N0) as (Q & EQ & KQ).
  destruct (holds_over _ _ _ _ _ KP) as (OP & MP). destruct (holds_over _ _ _ _ _ KQ) as (OQ & MQ).
  assert (IP : inverse f n (entry P) (entry Q)). { apply (inverse_ext f n (mmul f n (entry A) (entry B)) _ (mmul f n (entry B') (entry A')) _ f0); [now apply meq_sym|now apply meq_sym|]. now apply inverse_mul. }
  destruct (proj1 (inv_ok f n P Hi OP) (ex_intro _ _ IP)) as (R & ER & HR & IR). rewrite EP. cbn [bind]. exists R, Q. split; [exact ER|]. split; [exact EQ|].
  apply (cmp_same _ _ _ _ _ _ _ (over_holds _ _ _ _ HR) (over_holds _ _ _ _ OQ)). exact (inverse_unique f n _ _ _ f0 IR IP).
Qed.
End Inverse.
Print Assumptions C71_inverse.
Print Assumptions C71_inverse_exists.
Print Assumptions C71_inverse_mul.

(** ** ranks and reduced echelon forms *)
Lemma independent_bound f r s n Q X Y : (1 <= pdeg f)%N -> irreducible f -> inM f r s X -> independent f r n Q -> meq r n Q (mmul f s X Y) -> r <= s.
Proof.
  intros fd Hi HX Ind E. assert (f0 : f <> 0%N) by (intros ->; cbn in fd; lia). destruct (Nat.le_gt_cases r s) as [|Hlt]; [easy|]. exfalso.
  destruct (kernel_nontrivial f fd Hi s r (fun i j => X j i) ltac:(intros i j Hi' Hj; now apply HX) Hlt) as (v & Hv & (j & Hj & Hnz) & Hs). apply Hnz. apply (Ind v Hv); [|exact Hj].
  intros c Hc. change (mmul f r (fun _ k => v k) Q 0 c = 0%N). transitivity (mmul f r (fun _ k => v k) (mmul f s X Y) 0 c).
  - apply (mmul_ext f 1 r n); [apply meq_refl|exact E|lia|exact Hc].
  - rewrite <- (mmul_assoc f 1 r s n) by (auto; lia). transitivity (mmul f s mzero Y 0 c).
    + apply (mmul_ext f 1 s n); [|apply meq_refl|lia|exact Hc]. intros i k _ Hk. unfold mmul, mzero. rewrite <- (Hs k Hk). apply xsum_ext. intros t Ht. apply fmul_comm.
    + unfold mmul, mzero. apply xsum_0. intros t Ht. apply fmul_0_l.
Qed.
(** a matrix that factors through dimension s has rank at most s *)
Lemma rank_factor f m s n M X Y r : (1 <= pdeg f)%N -> irreducible f -> inM f m s X -> meq m n M (mmul f s X Y) -> is_rank f m n M r -> r <= s.
Proof.
  intros fd Hi HX E (Q & P & L & HQ & HP & HL & E1 & E2 & Ind). assert (f0 : f <> 0%N) by (intros ->; cbn in fd; lia).
  apply (independent_bound f r s n Q (mmul f m L X) Y fd Hi); [now apply inM_mmul|exact Ind|].
  eapply meq_trans; [exact E2|]. eapply meq_trans; [apply mmul_ext; [apply meq_refl|exact E]|]. apply meq_sym. now apply mmul_assoc.
Qed.
Section Rank.
Variables (mulbs : nat) (l2 : Z) (k0 : nat).
Hypotheses (Hb : 16 <= mulbs) (Hl : (4096 <= l2)%Z) (Hk : k0 <= 7).
Notation mul A B := (mzed_mul mulbs l2 None A B).
Notation add A B := (mzed_add None A B).
Notation inv A := (mzed_invert_newton_john k0 None A).
(** the reduced echelon form and the number of its non-zero rows, which is the rank; mzed_echelonize succeeds except on matrices so large
    that it overflows an int (C34) *)
Notation ech A := (mzed_echelonize k0 l2 A true).
Lemma ech_facts f m n A E r : irreducible f -> over f m n A -> ech A = Ok (E, r) ->
  over f m n E /\ row_equiv f m n (entry A) (entry E) /\ is_rank f m n (entry A) r /\ r <= m /\ r <= n /\ exists piv, echelon m n r piv (entry E) /\ reduced m r piv (entry E).
Proof.
  intros Hi HA EE. pose proof (over_inM _ _ _ _ HA) as IA. destruct (over_f _ _ _ _ HA) as (f0 & fd). pose proof HA as (A1 & A2 & A3 & A4). assert (Hi' : irreducible (fld A)) by now rewrite A2.
  destruct (mzed_echelonize_ret A A1 Hi' k0 l2 true E r Hk EE) as (B1 & Q1 & piv & He & Hr).
  assert (HE : over f m n E). { split; [exact (becomes_wf _ _ _ B1)|]. rewrite (becomes_ff _ _ _ B1), (becomes_nr _ _ _ B1), (becomes_nc _ _ _ B1). now repeat split. }
  pose proof (over_inM _ _ _ _ HE) as IE. rewrite A2, A3, A4 in *. specialize (Hr eq_refl). assert (Rk : is_rank f m n (entry A) r) by (eapply echelon_rank; eassumption).
  split; [exact HE|]. split; [exact Q1|]. split; [exact Rk|]. split; [apply He|]. split; [|now exists piv].
  apply (rank_factor f m n n (entry A) (entry A) mone r fd Hi IA); [|exact Rk]. apply meq_sym. now apply mmul_1_r.
Qed.
Lemma ech_ok f m n A E r : irreducible f -> over f m n A -> ech A = Ok (E, r) -> is_rank f m n (entry A) r.
Proof. intros Hi HA EE. apply (ech_facts f m n A E r Hi HA EE). Qed.
(** the rank of a matrix is at most the number of rows and of columns, that of a sum at most the sum of the ranks, and that of a product
    at most either rank *)
Theorem C71_rank_le : forall f m n A E r, irreducible f -> over f m n A -> ech A = Ok (E, r) -> r <= m /\ r <= n.
Proof. intros f m n A E r Hi HA EE. destruct (ech_facts f m n A E r Hi HA EE) as (_ & _ & _ & H1 & H2 & _). now split. Qed.
Theorem C71_rank_add : forall f m n A B C EA EB EC ra rb rc, irreducible f -> over f m n A -> over f m n B -> add A B = Ok C ->
  ech A = Ok (EA, ra) -> ech B = Ok (EB, rb) -> ech C = Ok (EC, rc) -> rc <= ra + rb.
Proof.
  intros f m n A B C EA EB EC ra rb rc Hi HA HB EqC KA KB KC. destruct (add_ok f m n A B HA HB) as (C' & EC' & HC'). rewrite EqC in EC'. injection EC' as <-.
  destruct (holds_over _ _ _ _ _ HC') as (HC & MC). destruct (over_f _ _ _ _ HA) as (f0 & fd).
  pose proof (ech_ok _ _ _ _ _ _ Hi HC KC) as RC. destruct (ech_ok _ _ _ _ _ _ Hi HA KA) as (Q1 & P1 & L1 & HQ1 & HP1 & HL1 & E1 & _). destruct (ech_ok _ _ _ _ _ _ Hi HB KB) as (Q2 & P2 & L2 & HQ2 & HP2 & HL2 & E2 & _).
  apply (rank_factor f m (ra + rb) n (entry C) (fun i j => if j <? ra then P1 i j else P2 i (j - ra)) (fun i j => if i <? ra then Q1 i j else Q2 (i - ra) j) rc fd Hi); [| |exact RC].
  - intros i j Hi' Hj. destruct (Nat.ltb_spec j ra); [now apply HP1|apply HP2; lia].
  - intros i j Hi' Hj. rewrite MC by auto. unfold madd. rewrite E1, E2 by auto. rewrite mmul_split. f_equal; unfold mmul; apply xsum_ext; intros k Hk'.
    + now replace (k <? ra) with true by lia.
    + replace (ra + k <? ra) with false by lia. now replace (ra + k - ra) with k by lia.
Qed.
Theorem C71_rank_mul : forall f m k n A B C EA EB EC ra rb rc, irreducible f -> over f m k A -> over f k n B -> 0 < n -> mul A B = Ok C ->
  ech A = Ok (EA, ra) -> ech B = Ok (EB, rb) -> ech C = Ok (EC, rc) -> rc <= ra /\ rc <= rb.
Proof.
  intros f m k n A B C EA EB EC ra rb rc Hi HA HB N0 EqC KA KB KC. destruct (mul_ok mulbs l2 Hb Hl f m k n A B HA HB N0) as (C' & EC' & HC'). rewrite EqC in EC'. injection EC' as <-.
  destruct (holds_over _ _ _ _ _ HC') as (HC & MC). destruct (over_f _ _ _ _ HA) as (f0 & fd). pose proof (over_inM _ _ _ _ HA) as IA.
  pose proof (ech_ok _ _ _ _ _ _ Hi HC KC) as RC. destruct (ech_ok _ _ _ _ _ _ Hi HA KA) as (Q1 & P1 & L1 & HQ1 & HP1 & HL1 & E1 & _). destruct (ech_ok _ _ _ _ _ _ Hi HB KB) as (Q2 & P2 & L2 & HQ2 & HP2 & HL2 & E2 & _). split.
  - apply (rank_factor f m ra n (entry C) P1 (mmul f k Q1 (entry B)) rc fd Hi HP1); [|exact RC]. eapply meq_trans; [exact MC|]. eapply meq_trans; [apply mmul_ext; [exact E1|apply meq_refl]|]. now apply mmul_assoc.
  - apply (rank_factor f m rb n (entry C) (mmul f k (entry A) P2) Q2 rc fd Hi); [now apply inM_mmul| |exact RC]. eapply meq_trans; [exact MC|]. eapply meq_trans; [apply mmul_ext; [apply meq_refl|exact E2]|]. apply meq_sym. now apply mmul_assoc.
Qed.
(** the reduced echelon form of a reduced echelon form is itself *)
Theorem C71_echelon_idempotent : forall f m n A E r E' r', irreducible f -> over f m n A -> ech A = Ok (E, r) -> ech E = Ok (E', r') ->
  r' = r /\ mzed_cmp E' E = Eq.
Proof.
  intros f m n A E r E' r' Hi HA K1 K2. destruct (over_f _ _ _ _ HA) as (f0 & fd). destruct (ech_facts f m n A E r Hi HA K1) as (HE & Q1 & _ & _ & _ & piv & He & Hr).
  destruct (ech_facts f m n E E' r' Hi HE K2) as (HE' & Q2 & _ & _ & _ & piv' & He' & Hr'). pose proof (over_inM _ _ _ _ HE) as IE. pose proof (over_inM _ _ _ _ HE') as IE'.
  destruct (rref_unique f fd Hi m n (entry E) r' piv' (entry E') r piv (entry E)) as (R & M & _); auto; [now apply row_equiv_refl|]. split; [exact R|].
  exact (cmp_same _ _ _ _ _ _ _ (over_holds _ _ _ _ HE') (over_holds _ _ _ _ HE) M).
Qed.
(** two matrices have the same reduced echelon form if and only if one is the other multiplied from the left by an invertible matrix *)
Theorem C71_echelon_invariant : forall f m n A B EA ra EB rb, irreducible f -> (2 <= pdeg f <= 16)%N -> 0 < n -> over f m n A -> over f m n B -> ech A = Ok (EA, ra) -> ech B = Ok (EB, rb) ->
  (mzed_cmp EA EB = Eq <-> exists T, over f m m T /\ (exists T', inv T = Ok T') /\ same (mul T A) (Ok B)) /\
  (mzed_cmp EA EB = Eq -> ra = rb).
Proof.
  intros f m n A B EA ra EB rb Hi Hd N0 HA HB KA KB. destruct (over_f _ _ _ _ HA) as (f0 & fd). pose proof (over_inM _ _ _ _ HA) as IA. pose proof (over_inM _ _ _ _ HB) as IB.
  destruct (ech_facts f m n A EA ra Hi HA KA) as (HEA & QA & _ & _ & _ & pa & Hpa & Hra). destruct (ech_facts f m n B EB rb Hi HB KB) as (HEB & QB & _ & _ & _ & pb & Hpb & Hrb).
  pose proof (over_inM _ _ _ _ HEA) as IEA. pose proof (over_inM _ _ _ _ HEB) as IEB.
  assert (Ec : mzed_cmp EA EB = Eq -> meq m n (entry EA) (entry EB)).
  { destruct HEA as (a1 & a2 & a3 & a4). destruct HEB as (b1 & b2 & b3 & b4). intros E. apply (C16_cmp_is_zero EA EB a1 b1) in E; [|congruence]. destruct E as (_ & _ & E). now rewrite a3, a4 in E. }
  assert (Eq' : mzed_cmp EA EB = Eq -> row_equiv f m n (entry A) (entry EB)). { intros E. eapply row_equiv_ext; [exact QA|now apply Ec]. }
  split.
  - split.
    + intros E. assert (Q : row_equiv f m n (entry A) (entry B)). { eapply row_equiv_trans; [exact fd|exact (Eq' E)|]. now apply row_equiv_sym. }
      destruct Q as (T & T' & IT & ET). destruct (mk_realises f m m T Hd ltac:(apply IT)) as (T0 & _ & K0). destruct (holds_over _ _ _ _ _ K0) as (O0 & M0).
      exists T0. split; [exact O0|]. split.
      * destruct (proj1 (inv_ok k0 Hk f m T0 Hi O0)) as (V & EV & _); [|eauto]. exists T'. eapply inverse_ext; [exact f0|apply meq_sym; exact M0|apply meq_refl|exact IT].
      * destruct (mul_ok mulbs l2 Hb Hl f m m n T0 A O0 HA N0) as (P & EP & KP). exists P, B. split; [exact EP|]. split; [reflexivity|].
        apply (cmp_same _ _ _ _ _ _ _ KP (over_holds _ _ _ _ HB)). eapply meq_trans; [apply mmul_ext; [exact M0|apply meq_refl]|]. now apply meq_sym.
    + intros (T & OT & (T' & ET) & (P & B' & EP & EB' & Ep)). injection EB' as <-. destruct (inv_inv k0 Hk f m T T' Hi OT ET) as (_ & IT).
      destruct (mul_ok mulbs l2 Hb Hl f m m n T A OT HA N0) as (P' & EP' & KP). rewrite EP in EP'. injection EP' as <-. destruct (holds_over _ _ _ _ _ KP) as (OP & MP).
      assert (M : meq m n (entry B) (mmul f m (entry T) (entry A))).
      { eapply meq_trans; [|exact MP]. apply meq_sym. destruct OP as (a1 & a2 & a3 & a4). destruct HB as (b1 & b2 & b3 & b4). apply (C16_cmp_is_zero P B a1 b1) in Ep; [|congruence]. destruct Ep as (_ & _ & Ep). now rewrite a3, a4 in Ep. }
      assert (Q : row_equiv f m n (entry A) (entry B)) by (exists (entry T), (entry T'); now split).
      destruct (rref_unique f fd Hi m n (entry A) ra pa (entry EA) rb pb (entry EB)) as (_ & R & _); auto; [eapply row_equiv_trans; eauto|].
      exact (cmp_same _ _ _ _ _ _ _ (over_holds _ _ _ _ HEA) (over_holds _ _ _ _ HEB) R).
  - intros E. destruct (rref_unique f fd Hi m n (entry A) ra pa (entry EA) rb pb (entry EB)) as (R & _); auto.
Qed.
End Rank.
Print Assumptions C71_rank_le.
Print Assumptions C71_rank_add.
Print Assumptions C71_rank_mul.
Print Assumptions C71_echelon_idempotent.
Print Assumptions C71_echelon_invariant.

(** ** scalar multiples (of matrices with fewer than 2^17 elements; see C18 for larger ones) *)
Section Scalar.
Variables (mulbs : nat) (l2 : Z).
Hypotheses (Hb : 16 <= mulbs) (Hl : (4096 <= l2)%Z).
Notation mul A B := (mzed_mul mulbs l2 None A B).
Notation add A B := (mzed_add None A B).
Notation scal a A := (mzed_mul_scalar None a A).
Lemma scal_ok f m n a A : over f m n A -> inF f a -> 0 < n -> (N.of_nat m * N.of_nat n < 2 ^ 17)%N -> exists C, scal a A = Ok C /\ holds C f m n (mscal f a (entry A)).
Proof.
  intros (A1 & A2 & A3 & A4) Ha N0 Hs. destruct (C18_mul_scalar None a A A1 ltac:(now rewrite A2) Logic.I ltac:(lia)) as (C & E & H).
  - intros _. rewrite A3, A4. change (2 ^ 31)%N with 2147483648%N. change (2 ^ 17)%N with 131072%N in Hs. lia.
  - intros _ X. rewrite A3, A4 in X. lia.
  - exists C. split; [exact E|]. now rewrite A2, A3, A4 in H.
Qed.
Theorem C71_scalar : forall f m n A B a b, over f m n A -> over f m n B -> inF f a -> inF f b -> 0 < n -> (N.of_nat m * N.of_nat n < 2 ^ 17)%N ->
  same (scal 1 A) (Ok A) /\
  same (X <- scal b A ;; scal a X) (c <- gf2e_mul (mz_ff A) a b ;; scal c A) /\
  same (scal (N.lxor a b) A) (X <- scal a A ;; Y <- scal b A ;; add X Y) /\
  same (X <- add A B ;; scal a X) (X <- scal a A ;; Y <- scal a B ;; add X Y).
Proof.
  intros f m n A B a b HA HB Ha Hb' N0 Hs. destruct (over_f _ _ _ _ HA) as (f0 & fd). pose proof (over_inM _ _ _ _ HA) as IA. pose proof HA as (A1 & A2 & _ & _).
  assert (Hc : inF f (fmul f a b)) by now apply fmul_lt. assert (Hx : inF f (N.lxor a b)) by now apply lxor_lt_pow2.
  destruct (scal_ok f m n 1 A HA (inF1 f fd) N0 Hs) as (C1 & E1 & K1). destruct (scal_ok f m n b A HA Hb' N0 Hs) as (Cb & Eb & Kb). destruct (scal_ok f m n a A HA Ha N0 Hs) as (Ca & Ea & Ka).
  destruct (scal_ok f m n _ A HA Hc N0 Hs) as (Cc & Ec & Kc). destruct (scal_ok f m n _ A HA Hx N0 Hs) as (Cx & Ex & Kx). destruct (scal_ok f m n a B HB Ha N0 Hs) as (Da & Fa & La).
  destruct (add_ok f m n A B HA HB) as (S & ES & KS).
  destruct (holds_over _ _ _ _ _ Ka) as (Oa & Ma). destruct (holds_over _ _ _ _ _ Kb) as (Ob & Mb). destruct (holds_over _ _ _ _ _ La) as (Od & Md). destruct (holds_over _ _ _ _ _ KS) as (OS & MS).
  destruct (scal_ok f m n a Cb Ob Ha N0 Hs) as (U & EU & KU). destruct (scal_ok f m n a S OS Ha N0 Hs) as (V & EV & KV). destruct (add_ok f m n Ca Cb Oa Ob) as (W & EW & KW). destruct (add_ok f m n Ca Da Oa Od) as (Y & EY & KY).
  assert (Em : gf2e_mul (mz_ff A) a b = Ok (fmul f a b)). { rewrite <- A2. apply gf2e_mul_ok; [apply A1|now rewrite A2|now rewrite A2]. }
  split; [|split; [|split]].
  - exists C1, A. split; [exact E1|]. split; [reflexivity|]. apply (cmp_same _ _ _ _ _ _ _ K1 (over_holds _ _ _ _ HA)). intros i j Hi Hj. unfold mscal. rewrite fmul_1_l; [reflexivity|exact f0|now apply IA].
  - rewrite Eb, Em. cbn [bind]. exists U, Cc. split; [exact EU|]. split; [exact Ec|]. apply (cmp_same _ _ _ _ _ _ _ KU Kc). intros i j Hi Hj. unfold mscal in *. rewrite Mb by auto. now apply fmul_assoc.
  - rewrite Ea, Eb. cbn [bind]. exists Cx, W. split; [exact Ex|]. split; [exact EW|]. apply (cmp_same _ _ _ _ _ _ _ Kx KW). intros i j Hi Hj. unfold mscal, madd in *. rewrite Ma, Mb by auto. now apply fmul_lxor_l.
  - rewrite ES, Ea, Fa. cbn [bind]. exists V, Y. split; [exact EV|]. split; [exact EY|]. apply (cmp_same _ _ _ _ _ _ _ KV KY). intros i j Hi Hj. unfold mscal, madd in *. rewrite MS, Ma, Md by auto. now apply fmul_lxor_r.
Qed.
(** scalars move through products *)
Theorem C71_scalar_mul : forall f m k n A B a, over f m k A -> over f k n B -> inF f a -> 0 < k -> 0 < n ->
  (N.of_nat m * N.of_nat k < 2 ^ 17)%N -> (N.of_nat k * N.of_nat n < 2 ^ 17)%N -> (N.of_nat m * N.of_nat n < 2 ^ 17)%N ->
  same (X <- scal a A ;; mul X B) (X <- mul A B ;; scal a X) /\ same (X <- scal a B ;; mul A X) (X <- mul A B ;; scal a X).
Proof.
  intros f m k n A B a HA HB Ha K0 N0 S1 S2 S3. destruct (over_f _ _ _ _ HA) as (f0 & fd).
  destruct (scal_ok f m k a A HA Ha K0 S1) as (X & EX & KX). destruct (scal_ok f k n a B HB Ha N0 S2) as (Y & EY & KY). destruct (mul_ok mulbs l2 Hb Hl f m k n A B HA HB N0) as (P & EP & KP).
  destruct (holds_over _ _ _ _ _ KX) as (OX & MX). destruct (holds_over _ _ _ _ _ KY) as (OY & MY). destruct (holds_over _ _ _ _ _ KP) as (OP & MP).
  destruct (mul_ok mulbs l2 Hb Hl f m k n X B OX HB N0) as (U & EU & KU). destruct (mul_ok mulbs l2 Hb Hl f m k n A Y HA OY N0) as (V & EV & KV). destruct (scal_ok f m n a P OP Ha N0 S3) as (W & EW & KW).
  rewrite EX, EY, EP. cbn [bind]. split.
  - exists U, W. split; [exact EU|]. split; [exact EW|]. apply (cmp_same _ _ _ _ _ _ _ KU KW). intros i j Hi Hj. unfold mscal, mmul in *. rewrite MP by auto. rewrite xsum_fmul_l by exact f0. apply xsum_ext. intros t Ht. rewrite MX by auto. symmetry. now apply fmul_assoc.
  - exists V, W. split; [exact EV|]. split; [exact EW|]. apply (cmp_same _ _ _ _ _ _ _ KV KW). intros i j Hi Hj. unfold mscal, mmul in *. rewrite MP by auto. rewrite xsum_fmul_l by exact f0. apply xsum_ext. intros t Ht. rewrite MY by auto.
    rewrite !fmul_assoc by exact f0. f_equal. apply fmul_comm.
Qed.
End Scalar.
Print Assumptions C71_scalar.
Print Assumptions C71_scalar_mul.

(** over GF(8): an invertible 3 x 3 matrix, its inverse and their product; a singular one; the ranks of A (3), B (2), A B (2), the reduced
    echelon form of A B, which is that of B *)
Example C71_witness :
  (A <- mk 0xb 3 3 (of_rows [[1; 2; 3]; [4; 5; 6]; [7; 1; 1]]%N) ;; B <- mk 0xb 3 3 (of_rows [[0; 2; 5]; [3; 1; 1]; [3; 3; 4]]%N) ;;
   A' <- mzed_invert_newton_john 2 None A ;; P <- mzed_mul 2048 262144 None A A' ;; Q <- mzed_mul 2048 262144 None A B ;;
   '(_, ra) <- mzed_echelonize 2 262144 A true ;; '(EB, rb) <- mzed_echelonize 2 262144 B true ;; '(EQ, rq) <- mzed_echelonize 2 262144 Q true ;;
   Ok (to_rows A', to_rows P, to_rows Q, (ra, rb, rq), to_rows EB, to_rows EQ, match mzed_invert_newton_john 2 None B with Die => true | _ => false end))
  = Ok ([[6; 2; 6]; [0; 6; 2]; [4; 3; 7]]%N, [[1; 0; 0]; [0; 1; 0]; [0; 0; 1]]%N, [[3; 5; 0]; [5; 7; 2]; [0; 7; 3]]%N,
        (3, 2, 2), [[1; 0; 2]; [0; 1; 7]; [0; 0; 0]]%N, [[1; 0; 2]; [0; 1; 7]; [0; 0; 0]]%N, true).
Proof. vm_compute. reflexivity. Qed.
(** matrices over every supported field meet the hypotheses *)
Lemma C71_inhabited : forall f m n F, irreducible f -> (2 <= pdeg f <= 16)%N -> (forall i c, i < m -> c < n -> inF f (F i c)) ->
  exists A, mk f m n F = Ok A /\ over f m n A /\ 2 <= ff_degree (mz_ff A) /\ forall i c, i < m -> c < n -> entry A i c = F i c.
Proof.
  intros f m n F _ Hd HF. destruct (mk_realises f m n F Hd HF) as (A & E & K). exists A. split; [exact E|]. destruct (holds_over _ _ _ _ _ K) as (O & M). split; [exact O|]. split; [|exact M].
  destruct O as (((_ & D & _) & _) & P & _). rewrite P in D. lia.
Qed.
