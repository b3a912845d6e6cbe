(** Triangular solving: the recursive solvers on packed and sliced matrices. *)
From Coq Require Import NArith ZArith Lia List Bool Arith.
From Coq Require Import ZifyBool ZifyNat ZifyN.
From Verif Require Import Base Spec LinSpec PolyFacts MatFacts Gf2xModel Gf2eModel Gf2eProofs.
From Verif Require Import MzdModel MzedModel MzedSpec LaneFacts MzedProofs MzedOps MzedOps2 EchFacts NjModel NjTable NjMul.
From Verif Require Import StrassenModel StrassenProofs SliceModel SliceSpec SliceProofs SliceOps KaraModel ConvModel ConvBits ConvSlice ConvCling PropSlice.
From Verif Require Import MulModel MulProofs TrsmSpec TrsmModel TrsmProofs.
Import ListNotations.
Local Open Scope nat_scope.

(** ** the solution exists *)
Section Exist.
Variable f : N.
Hypothesis Hirr : irreducible f.
Variables (n w : nat) (T B : mat).
Hypothesis HT : inM f n n T.
Hypothesis HB : inM f n w B.
Hypothesis Hd : nz_diag n T.

Let f0 : f <> 0%N := irreducible_no_factor f Hirr.
Lemma part_in lo m A X i j : inF f (part f lo m A X i j).
Proof. unfold part. apply xsum_lt. intros k _. now apply fmul_lt. Qed.
Lemma solve1 d y : inF f d -> d <> 0%N -> inF f y -> exists x, inF f x /\ fmul f d x = y.
Proof.
  intros H1 H2 H3. destruct (inverse_exists f d Hirr) as (e & He & Ee); [now rewrite pmod_small|]. exists (fmul f e y). split.
  - now apply fmul_lt.
  - rewrite fmul_assoc, Ee by auto. now apply fmul_1_l.
Qed.
(** one new row, for all columns at once *)
Lemma solve_row d (v : nat -> N) : inF f d -> d <> 0%N -> (forall j, j < w -> inF f (v j)) -> exists x, forall j, j < w -> inF f (x j) /\ fmul f d (x j) = v j.
Proof.
  intros H1 H2 H3. destruct (solve1 d 1 H1 H2) as (e & He & Ee).
  - unfold inF. pose proof Hirr as (K & _). apply N.lt_le_trans with (2 ^ 1)%N; [reflexivity|]. apply N.pow_le_mono_r; [discriminate|].
    unfold pdeg. change 1%N with (N.log2 2). apply N.log2_le_mono. lia.
  - exists (fun j => fmul f e (v j)). intros j Hj. split; [now apply fmul_lt|]. rewrite fmul_assoc, Ee by auto. apply fmul_1_l; auto.
Qed.
Lemma tril_exists : exists X, inM f n w X /\ meq n w (mmul f n (tril T) X) B.
Proof.
  assert (K : forall m, m <= n -> exists X, inM f m w X /\ forall i j, i < m -> j < w -> N.lxor (part f 0 i T X i j) (fmul f (T i i) (X i j)) = B i j).
  { induction m as [|m IH]; intros Hm; [exists mzero; split; intros i j Hi; lia|]. destruct IH as (X & X1 & X2); [lia|].
    destruct (solve_row (T m m) (fun j => N.lxor (part f 0 m T X m j) (B m j))) as (x & Hx); [apply HT; lia|apply Hd; lia|intros j Hj; apply lxor_lt_pow2; [apply part_in|apply HB; lia]|].
    exists (fun i j => if i =? m then x j else X i j). split.
    - intros i j Hi Hj. destruct (Nat.eqb_spec i m); [now apply Hx|apply X1; lia].
    - intros i j Hi Hj. rewrite (part_ext f 0 i T _ X) by (intros t Ht; replace (0 + t =? m) with false by lia; reflexivity).
      destruct (Nat.eqb_spec i m) as [->|Hne]; [|apply X2; lia]. rewrite (proj2 (Hx j Hj)), <- N.lxor_assoc, N.lxor_nilpotent. apply N.lxor_0_l. }
  destruct (K n (le_n n)) as (X & X1 & X2). exists X. split; [exact X1|]. intros i j Hi Hj. rewrite mmul_tril by easy. now apply X2.
Qed.
Lemma triu_exists : exists X, inM f n w X /\ meq n w (mmul f n (triu T) X) B.
Proof.
  assert (K : forall m, m <= n -> exists X, (forall i j, n - m <= i < n -> j < w -> inF f (X i j)) /\
      forall i j, n - m <= i < n -> j < w -> N.lxor (fmul f (T i i) (X i j)) (part f (S i) (n - S i) T X i j) = B i j).
  { induction m as [|m IH]; intros Hm; [exists mzero; split; intros i j Hi; lia|]. destruct IH as (X & X1 & X2); [lia|]. set (r := n - S m) in *.
    destruct (solve_row (T r r) (fun j => N.lxor (part f (S r) (n - S r) T X r j) (B r j))) as (x & Hx); [apply HT; lia|apply Hd; lia|intros j Hj; apply lxor_lt_pow2; [apply part_in|apply HB; lia]|].
    exists (fun i j => if i =? r then x j else X i j). split.
    - intros i j Hi Hj. destruct (Nat.eqb_spec i r); [now apply Hx|apply X1; lia].
    - intros i j Hi Hj. rewrite (part_ext f (S i) (n - S i) T _ X) by (intros t Ht; replace (S i + t =? r) with false by lia; reflexivity).
      destruct (Nat.eqb_spec i r) as [->|Hne]; [|apply X2; lia]. rewrite (proj2 (Hx j Hj)), (N.lxor_comm (part _ _ _ _ _ _ _)), N.lxor_assoc, N.lxor_nilpotent. apply N.lxor_0_r. }
  destruct (K n (le_n n)) as (X & X1 & X2). exists X. split; [intros i j Hi Hj; apply X1; lia|]. intros i j Hi Hj. rewrite mmul_triu by easy. apply X2; lia.
Qed.
End Exist.

(** ** the blocks of a triangular system *)
Lemma tril_block0 f n c k T X B : c <= n -> meq n k (mmul f n (tril T) X) B ->
  meq c k (mmul f c (tril (sub T 0 0)) (sub X 0 0)) (sub B 0 0).
Proof.
  intros Hc E i j Hi Hj. rewrite mmul_tril by easy. unfold sub. rewrite <- E by lia. rewrite mmul_tril by lia. reflexivity.
Qed.
Lemma tril_block1 f n c k T X B : c <= n -> meq n k (mmul f n (tril T) X) B ->
  meq (n - c) k (mmul f (n - c) (tril (sub T c c)) (sub X c 0)) (madd (sub B c 0) (mmul f c (sub T c 0) (sub X 0 0))).
Proof.
  intros Hc E i j Hi Hj. rewrite mmul_tril by easy. unfold madd. change (sub B c 0 i j) with (B (c + i) j). rewrite <- E by lia. rewrite mmul_tril by lia.
  rewrite part_app. change (mmul f c (sub T c 0) (sub X 0 0) i j) with (part f 0 c T X (c + i) j). rewrite Nat.add_0_l.
  change (part f 0 i (sub T c c) (sub X c 0) i j) with (part f c i T X (c + i) j). unfold sub. rewrite Nat.add_0_l.
  set (a := part f 0 c T X (c + i) j). set (b := part f c i T X (c + i) j). set (d := fmul _ _ _).
  rewrite (N.lxor_comm a b), !N.lxor_assoc. f_equal. rewrite (N.lxor_comm d a), <- N.lxor_assoc, N.lxor_nilpotent. symmetry. apply N.lxor_0_l.
Qed.
Lemma triu_block1 f n c k T X B : c <= n -> meq n k (mmul f n (triu T) X) B ->
  meq (n - c) k (mmul f (n - c) (triu (sub T c c)) (sub X c 0)) (sub B c 0).
Proof.
  intros Hc E i j Hi Hj. rewrite mmul_triu by easy. change (sub B c 0 i j) with (B (c + i) j). rewrite <- E by lia. rewrite mmul_triu by lia. unfold sub at 1 2. f_equal.
  unfold part. replace (n - c - S i) with (n - S (c + i)) by lia. apply xsum_ext. intros t Ht. unfold sub. now replace (c + (S i + t)) with (S (c + i) + t) by lia.
Qed.
Lemma triu_block0 f n c k T X B : c <= n -> meq n k (mmul f n (triu T) X) B ->
  meq c k (mmul f c (triu (sub T 0 0)) (sub X 0 0)) (madd (sub B 0 0) (mmul f (n - c) (sub T 0 c) (sub X c 0))).
Proof.
  intros Hc E i j Hi Hj. rewrite mmul_triu by easy. unfold madd. change (sub B 0 0 i j) with (B i j). rewrite <- E by lia. rewrite mmul_triu by lia.
  replace (n - S i) with (c - S i + (n - c)) by lia. rewrite part_app. replace (S i + (c - S i)) with c by lia.
  change (mmul f (n - c) (sub T 0 c) (sub X c 0) i j) with (part f c (n - c) T X i j).
  change (part f (S i) (c - S i) (sub T 0 0) (sub X 0 0) i j) with (part f (S i) (c - S i) T X i j). unfold sub. rewrite !Nat.add_0_l.
  rewrite <- N.lxor_assoc. now rewrite (N.lxor_assoc (N.lxor _ _)), N.lxor_nilpotent, N.lxor_0_r.
Qed.

(** ** the split point *)
Lemma trsm_split_ok n : 64 < n -> trsm_split n mod 64 = 0 /\ 0 < trsm_split n < n.
Proof.
  intros Hn. unfold trsm_split. pose proof (Nat.div_mod (n / 2) 64 ltac:(lia)) as E. pose proof (Nat.mod_upper_bound (n / 2) 64 ltac:(lia)).
  pose proof (Nat.div_mod n 2 ltac:(lia)). pose proof (Nat.mod_upper_bound n 2 ltac:(lia)).
  destruct (Nat.max_spec (n / 2 - n / 2 mod 64) 64) as [(A & ->)|(A & ->)]; [split; [reflexivity|lia]|].
  split; [|lia]. replace (n / 2 - (n / 2) mod 64) with ((n / 2 / 64) * 64) by lia. apply Nat.mod_mul. lia.
Qed.
Lemma mod64_per c w : good_w w -> c mod 64 = 0 -> c mod per w = 0.
Proof.
  intros Hw H. apply Nat.mod_divide in H; [|lia]. destruct H as (q & ->). unfold per.
  destruct Hw as [-> | [-> | [-> | ->]]]; [change (64 / 2) with 32|change (64 / 4) with 16|change (64 / 8) with 8|change (64 / 16) with 4]; apply Nat.mod_divide; try lia;
    [exists (q * 2)|exists (q * 4)|exists (q * 8)|exists (q * 16)]; lia.
Qed.

(** ** packed matrices *)
Lemma solved_lower_to f n k L B B' FL FB X : irreducible f -> holds L f n n FL -> holds B f n k FB -> nz_diag n FL ->
  inM f n k X -> meq n k (mmul f n (tril FL) X) FB -> solved tril (entry L) B B' -> becomes B B' X.
Proof.
  intros Hirr HL HB Hd HX EX (S1 & S2). pose proof HL as (L1 & L2 & L3 & L4 & L5). pose proof HB as (B1 & B2 & B3 & B4 & B5).
  assert (InL : inM f n n FL) by (intros i j Hi Hj; rewrite <- L5 by lia; rewrite <- L2; apply wf_entry; auto; lia).
  eapply becomes_ext; [exact S1|]. rewrite B3, B4 in *. rewrite B2 in S2. intros i j Hi Hj.
  revert i j Hi Hj. apply (tril_unique f (irreducible_no_factor f Hirr) Hirr n k FL InL Hd X _ FB HX).
  - intros i j Hi Hj. destruct S1 as (S1 & SH & _). rewrite <- B2. replace (fld B) with (fld B') by (destruct SH as (E & _); now rewrite E).
    pose proof (becomes_nr B B' (entry B')). apply wf_entry; auto; destruct SH as (_ & _ & E1 & E2); lia.
  - exact EX.
  - intros i j Hi Hj. rewrite <- B5 by easy. rewrite <- S2 by easy. rewrite !mmul_tril by easy. rewrite L5 by easy. f_equal.
    unfold part. apply xsum_ext. intros t Ht. rewrite L5 by lia. reflexivity.
Qed.
Lemma solved_upper_to f n k U B B' FU FB X : irreducible f -> holds U f n n FU -> holds B f n k FB -> nz_diag n FU ->
  inM f n k X -> meq n k (mmul f n (triu FU) X) FB -> solved triu (entry U) B B' -> becomes B B' X.
Proof.
  intros Hirr HL HB Hd HX EX (S1 & S2). pose proof HL as (L1 & L2 & L3 & L4 & L5). pose proof HB as (B1 & B2 & B3 & B4 & B5).
  assert (InL : inM f n n FU) by (intros i j Hi Hj; rewrite <- L5 by lia; rewrite <- L2; apply wf_entry; auto; lia).
  eapply becomes_ext; [exact S1|]. rewrite B3, B4 in *. rewrite B2 in S2. intros i j Hi Hj.
  revert i j Hi Hj. apply (triu_unique f (irreducible_no_factor f Hirr) Hirr n k FU InL Hd X _ FB HX).
  - intros i j Hi Hj. destruct S1 as (S1 & SH & _). rewrite <- B2. replace (fld B) with (fld B') by (destruct SH as (E & _); now rewrite E).
    pose proof (becomes_nr B B' (entry B')). apply wf_entry; auto; destruct SH as (_ & _ & E1 & E2); lia.
  - exact EX.
  - intros i j Hi Hj. rewrite <- B5 by easy. rewrite <- S2 by easy. rewrite !mmul_triu by easy. rewrite L5 by easy. f_equal.
    unfold part. apply xsum_ext. intros t Ht. rewrite L5 by lia. reflexivity.
Qed.
Lemma addmul_h mulbs l2 C A B f m l n FA FB FC : 16 <= mulbs -> (4096 <= l2)%Z -> holds C f m n FC -> holds A f m l FA -> holds B f l n FB -> 0 < n ->
  wp (mzed_addmul mulbs l2 (Some C) A B) (fun C' => becomes C C' (madd FC (mmul f l FA FB))).
Proof.
  intros Hm Hl (C1 & C2 & C3 & C4 & C5) (A1 & A2 & A3 & A4 & A5) (B1 & B2 & B3 & B4 & B5) Hn. unfold mzed_addmul, mzed_mul_init.
  replace (mz_ncols A =? mz_nrows B) with true by lia. rewrite (proj2 (same_ff_iff A B) ltac:(congruence)). cbn [andb check bind].
  rewrite (proj2 (same_ff_iff C A) ltac:(congruence)). replace (mz_nrows C =? mz_nrows A) with true by lia. replace (mz_ncols C =? mz_ncols B) with true by lia. cbn [andb check bind].
  eapply wp_mono; [apply mzed_addmul_in_ok; auto; congruence|]. cbv beta. intros C' HC. eapply becomes_ext; [exact HC|]. rewrite C3, C4. intros i j Hi Hj. unfold madd. rewrite C5 by easy. f_equal.
  rewrite A2, A4. apply (mmul_ext f l _ _ _ _ m n); auto.
Qed.

Ltac wsel := match goal with |- context [if ?b then _ else _] => destruct b eqn:? end.
Section Rec.
Variable f : N.
Hypothesis Hirr : irreducible f.
Variables (mulbs : nat) (l2 : Z) (cutoff : nat).
Hypothesis Hm : 16 <= mulbs.
Hypothesis Hl : (4096 <= l2)%Z.
Hypothesis Hc : 64 <= cutoff.

Theorem trsm_lower_ok fuel : forall n k L B FL FB X, n < fuel -> holds L f n n FL -> holds B f n k FB -> 0 < k -> nz_diag n FL ->
  inM f n k X -> meq n k (mmul f n (tril FL) X) FB ->
  wp (trsm_lower mulbs l2 fuel L B cutoff) (fun B' => becomes B B' X).
Proof.
  induction fuel as [|fuel IH]; intros n k L B FL FB X Hf HL HB Hk Hd HX EX; [lia|].
  pose proof HL as (L1 & L2 & L3 & L4 & L5). pose proof HB as (B1 & B2 & B3 & B4 & B5).
  cbn [trsm_lower]. rewrite trsm_assert_true by congruence. cbn [guard bind]. rewrite L3, B3, B4.
  destruct ((n <=? cutoff) || (k <=? cutoff)) eqn:Ecut.
  - eapply wp_mono; [apply trsm_lower_nj_ok; auto; try congruence; try lia|].
    + intros i Hi. rewrite L5 by lia. apply Hd. lia.
    + cbv beta. intros B' HS. exact (solved_lower_to f n k L B B' FL FB X Hirr HL HB Hd HX EX HS).
  - destruct (trsm_split_ok n ltac:(lia)) as (Hc64 & Hcn). set (c := trsm_split n) in *. clearbody c.
    pose proof (wf_good _ L1) as WL. pose proof (wf_good _ B1) as WB.
    pose proof (mod64_per c _ WL Hc64) as ML. assert (M0 : forall x, 0 mod x = 0) by (intros [|x]; [reflexivity|apply Nat.mod_0_l; lia]).
    apply wp_bind. eapply wp_mono; [apply (win_h L f n n FL 0 0 c c HL); auto; lia|]. cbv beta. intros L00 (H00 & W00 & _). rewrite Nat.sub_0_r in H00.
    apply wp_bind. eapply wp_mono; [apply (win_h L f n n FL c 0 n c HL); auto; lia|]. cbv beta. intros L10 (H10 & _). rewrite Nat.sub_0_r in H10.
    apply wp_bind. eapply wp_mono; [apply (win_h L f n n FL c c n n HL); auto; lia|]. cbv beta. intros L11 (H11 & _).
    apply wp_bind. eapply wp_mono; [apply (on_win_h B f n k FB 0 0 c k _ (sub X 0 0) HB); auto; try lia|].
    { intros W HW _ _. rewrite !Nat.sub_0_r in HW. apply (IH c k L00 W _ _ _ ltac:(lia) H00 HW Hk).
      - intros i Hi. apply Hd. lia.
      - intros i j Hi Hj. apply HX; lia.
      - apply (tril_block0 f n); [lia|exact EX]. }
    cbv beta. intros Ba Ka. pose proof (holds_becomes _ _ _ _ _ _ _ HB Ka) as Ha. pose proof (becomes_w _ _ _ Ka) as Wa.
    apply wp_bind. eapply wp_mono; [apply (win_h Ba f n k _ 0 0 c k Ha); auto; lia|]. cbv beta. intros B0 (HB0 & _). rewrite !Nat.sub_0_r in HB0.
    apply wp_bind. eapply wp_mono; [apply (on_win_h Ba f n k _ c 0 n k _ (madd (sub FB c 0) (mmul f c (sub FL c 0) (sub X 0 0))) Ha); auto; try lia|].
    { intros W HW _ _. rewrite Nat.sub_0_r in HW. eapply wp_mono; [apply (addmul_h mulbs l2 W L10 B0 f (n - c) c k _ _ _ Hm Hl HW H10 HB0 Hk)|].
      cbv beta. intros W' KW. eapply becomes_meq; [exact HW|exact KW|]. intros i j Hi Hj. unfold madd. f_equal.
      - unfold sub. replace (c + i <? c) with false by lia. now rewrite andb_false_r.
      - apply (mmul_ext f c _ _ _ _ (n - c) k); [apply meq_refl| |exact Hi|exact Hj]. intros x y Hx Hy. unfold sub. wsel; [f_equal; lia|lia]. }
    cbv beta. intros Bb Kb. pose proof (holds_becomes _ _ _ _ _ _ _ Ha Kb) as Hb. pose proof (becomes_w _ _ _ Kb) as Wb.
    eapply wp_mono; [apply (on_win_h Bb f n k _ c 0 n k _ (sub X c 0) Hb); auto; try lia|].
    { intros W HW _ _. rewrite Nat.sub_0_r in HW. eapply (IH (n - c) k L11 W _ _ _ ltac:(lia) H11 HW Hk).
      - intros i Hi. apply Hd. lia.
      - intros i j Hi Hj. apply HX; lia.
      - intros i j Hi Hj. rewrite (tril_block1 f n c k FL X FB) by (auto; lia). symmetry. unfold sub at 1. wsel; [|lia]. f_equal; lia. }
    cbv beta. intros Bc Kc. eapply becomes_trans in Kc; [|eapply becomes_trans; [exact Ka|exact Kb]]. eapply becomes_ext; [exact Kc|]. cbv beta.
    rewrite B3, B4. intros i j Hi Hj. unfold sub. repeat wsel; try lia; f_equal; lia.
Qed.
Theorem trsm_upper_ok fuel : forall n k U B FU FB X, n < fuel -> holds U f n n FU -> holds B f n k FB -> 0 < k -> nz_diag n FU ->
  inM f n k X -> meq n k (mmul f n (triu FU) X) FB ->
  wp (trsm_upper mulbs l2 fuel U B cutoff) (fun B' => becomes B B' X).
Proof.
  induction fuel as [|fuel IH]; intros n k U B FU FB X Hf HL HB Hk Hd HX EX; [lia|].
  pose proof HL as (L1 & L2 & L3 & L4 & L5). pose proof HB as (B1 & B2 & B3 & B4 & B5).
  cbn [trsm_upper]. rewrite trsm_assert_true by congruence. cbn [guard bind]. rewrite L3, B3, B4.
  destruct ((n <=? cutoff) || (k <=? cutoff)) eqn:Ecut.
  - eapply wp_mono; [apply trsm_upper_nj_ok; auto; try congruence; try lia|].
    + intros i Hi. rewrite L5 by lia. apply Hd. lia.
    + cbv beta. intros B' HS. exact (solved_upper_to f n k U B B' FU FB X Hirr HL HB Hd HX EX HS).
  - destruct (trsm_split_ok n ltac:(lia)) as (Hc64 & Hcn). set (c := trsm_split n) in *. clearbody c.
    pose proof (wf_good _ L1) as WL. pose proof (wf_good _ B1) as WB.
    pose proof (mod64_per c _ WL Hc64) as ML. assert (M0 : forall x, 0 mod x = 0) by (intros [|x]; [reflexivity|apply Nat.mod_0_l; lia]).
    apply wp_bind. eapply wp_mono; [apply (win_h U f n n FU 0 0 c c HL); auto; lia|]. cbv beta. intros U00 (H00 & W00 & _). rewrite Nat.sub_0_r in H00.
    apply wp_bind. eapply wp_mono; [apply (win_h U f n n FU 0 c c n HL); auto; lia|]. cbv beta. intros U01 (H01 & _). rewrite Nat.sub_0_r in H01.
    apply wp_bind. eapply wp_mono; [apply (win_h U f n n FU c c n n HL); auto; lia|]. cbv beta. intros U11 (H11 & _).
    apply wp_bind. eapply wp_mono; [apply (on_win_h B f n k FB c 0 n k _ (sub X c 0) HB); auto; try lia|].
    { intros W HW _ _. rewrite !Nat.sub_0_r in HW. apply (IH (n - c) k U11 W _ _ _ ltac:(lia) H11 HW Hk).
      - intros i Hi. apply Hd. lia.
      - intros i j Hi Hj. apply HX; lia.
      - apply (triu_block1 f n); [lia|exact EX]. }
    cbv beta. intros Ba Ka. pose proof (holds_becomes _ _ _ _ _ _ _ HB Ka) as Ha. pose proof (becomes_w _ _ _ Ka) as Wa.
    apply wp_bind. eapply wp_mono; [apply (win_h Ba f n k _ c 0 n k Ha); auto; lia|]. cbv beta. intros B1' (HB1 & _). rewrite !Nat.sub_0_r in HB1.
    apply wp_bind. eapply wp_mono; [apply (on_win_h Ba f n k _ 0 0 c k _ (madd (sub FB 0 0) (mmul f (n - c) (sub FU 0 c) (sub X c 0))) Ha); auto; try lia|].
    { intros W HW _ _. rewrite !Nat.sub_0_r in HW. eapply wp_mono; [apply (addmul_h mulbs l2 W U01 B1' f c (n - c) k _ _ _ Hm Hl HW H01 HB1 Hk)|].
      cbv beta. intros W' KW. eapply becomes_meq; [exact HW|exact KW|]. intros i j Hi Hj. unfold madd. f_equal.
      - unfold sub. wsel; [lia|reflexivity].
      - apply (mmul_ext f (n - c) _ _ _ _ c k); [apply meq_refl| |exact Hi|exact Hj]. intros x y Hx Hy. unfold sub. wsel; [f_equal; lia|lia]. }
    cbv beta. intros Bb Kb. pose proof (holds_becomes _ _ _ _ _ _ _ Ha Kb) as Hb. pose proof (becomes_w _ _ _ Kb) as Wb.
    eapply wp_mono; [apply (on_win_h Bb f n k _ 0 0 c k _ (sub X 0 0) Hb); auto; try lia|].
    { intros W HW _ _. rewrite !Nat.sub_0_r in HW. eapply (IH c k U00 W _ _ _ ltac:(lia) H00 HW Hk).
      - intros i Hi. apply Hd. lia.
      - intros i j Hi Hj. apply HX; lia.
      - intros i j Hi Hj. rewrite (triu_block0 f n c k FU X FB) by (auto; lia). symmetry. unfold sub at 1. wsel; [|lia]. f_equal; lia. }
    cbv beta. intros Bc Kc. eapply becomes_trans in Kc; [|eapply becomes_trans; [exact Ka|exact Kb]]. eapply becomes_ext; [exact Kc|]. cbv beta.
    rewrite B3, B4. intros i j Hi Hj. unfold sub. repeat wsel; try lia; f_equal; lia.
Qed.
End Rec.

(** ** sliced matrices *)
Lemma strsm_assert_true L B : sfld L = sfld B -> sl_nrows L = sl_ncols L -> sl_nrows B = sl_ncols L -> strsm_assert L B = true.
Proof. intros H1 H2 H3. unfold strsm_assert. rewrite (proj2 (sl_same_ff_iff L B) H1), (proj2 (Nat.eqb_eq _ _) H2), (proj2 (Nat.eqb_eq _ _) H3). reflexivity. Qed.
Lemma holds_slice_depth A Z f m n F : holds A f m n F -> wf_slice Z -> sfld Z = f -> 2 <= sl_depth Z.
Proof. intros (H1 & H2 & _) HZ E. pose proof (wfs_deg Z HZ) as Q. rewrite E, <- H2 in Q. destruct H1 as ((_ & Dg & _) & Ww & _). destruct (degree_to_w_facts _ _ Ww) as (_ & _ & K). lia. Qed.

Section SRec.
Variable f : N.
Hypothesis Hirr : irreducible f.
Hypothesis Hdeg : (2 <= pdeg f)%N.
Lemma depth2 Z : wf_slice Z -> sfld Z = f -> 2 <= sl_depth Z.
Proof. intros HZ E. pose proof (wfs_deg Z HZ) as Q. rewrite E in Q. lia. Qed.

Lemma strsm_lower_naive_ok n k L B FL FB X : sholds L f n n FL -> sholds B f n k FB -> 0 < k -> nz_diag n FL ->
  inM f n k X -> meq n k (mmul f n (tril FL) X) FB ->
  wp (mzd_slice_trsm_lower_left_naive L B) (fun B' => sbecomes B B' X).
Proof.
  intros HL HB Hk Hd HX EX. pose proof HL as (L1 & L2 & L3 & L4 & L5). pose proof HB as (B1 & B2 & B3 & B4 & B5).
  unfold mzd_slice_trsm_lower_left_naive. rewrite strsm_assert_true by congruence. cbn [guard bind].
  apply wp_bind. eapply wp_mono; [apply (mzed_cling_ok None L L1 (depth2 L L1 L2) Logic.I)|]. cbv beta. rewrite L2, L3, L4. intros Le (KL & _).
  apply wp_bind. eapply wp_mono; [apply (mzed_cling_ok None B B1 (depth2 B B1 B2) Logic.I)|]. cbv beta. rewrite B2, B3, B4. intros Be (KB & _).
  apply (holds_ext _ _ _ _ _ FL) in KL; [|exact L5]. apply (holds_ext _ _ _ _ _ FB) in KB; [|exact B5].
  pose proof KL as (M1 & M2 & M3 & M4 & M5). pose proof KB as (N1 & N2 & N3 & N4 & N5).
  apply wp_bind. eapply wp_mono; [apply trsm_lower_naive_ok; auto; try congruence; try lia|].
  { intros i Hi. rewrite M5 by lia. apply Hd. lia. }
  cbv beta. intros Bf HS. pose proof (solved_lower_to f n k Le Be Bf FL FB X Hirr KL KB Hd HX EX HS) as KF. pose proof (holds_becomes _ _ _ _ _ _ _ KB KF) as (F1 & F2 & F3 & F4 & F5).
  eapply wp_mono; [apply (mzed_slice_ok (Some B) Bf F1); exact (conj B1 (conj (eq_trans B2 (eq_sym F2)) (conj (eq_trans B3 (eq_sym F3)) (eq_trans B4 (eq_sym F4)))))|].
  cbv beta. intros B' (_ & K). eapply sb_ext; [exact K|]. rewrite B3, B4. exact F5.
Qed.
Lemma strsm_upper_naive_ok n k L B FL FB X : sholds L f n n FL -> sholds B f n k FB -> 0 < k -> nz_diag n FL ->
  inM f n k X -> meq n k (mmul f n (triu FL) X) FB ->
  wp (mzd_slice_trsm_upper_left_naive L B) (fun B' => sbecomes B B' X).
Proof.
  intros HL HB Hk Hd HX EX. pose proof HL as (L1 & L2 & L3 & L4 & L5). pose proof HB as (B1 & B2 & B3 & B4 & B5).
  unfold mzd_slice_trsm_upper_left_naive. rewrite strsm_assert_true by congruence. cbn [guard bind].
  apply wp_bind. eapply wp_mono; [apply (mzed_cling_ok None L L1 (depth2 L L1 L2) Logic.I)|]. cbv beta. rewrite L2, L3, L4. intros Le (KL & _).
  apply wp_bind. eapply wp_mono; [apply (mzed_cling_ok None B B1 (depth2 B B1 B2) Logic.I)|]. cbv beta. rewrite B2, B3, B4. intros Be (KB & _).
  apply (holds_ext _ _ _ _ _ FL) in KL; [|exact L5]. apply (holds_ext _ _ _ _ _ FB) in KB; [|exact B5].
  pose proof KL as (M1 & M2 & M3 & M4 & M5). pose proof KB as (N1 & N2 & N3 & N4 & N5).
  apply wp_bind. eapply wp_mono; [apply trsm_upper_naive_ok; auto; try congruence; try lia|].
  { intros i Hi. rewrite M5 by lia. apply Hd. lia. }
  cbv beta. intros Bf HS. pose proof (solved_upper_to f n k Le Be Bf FL FB X Hirr KL KB Hd HX EX HS) as KF. pose proof (holds_becomes _ _ _ _ _ _ _ KB KF) as (F1 & F2 & F3 & F4 & F5).
  eapply wp_mono; [apply (mzed_slice_ok (Some B) Bf F1); exact (conj B1 (conj (eq_trans B2 (eq_sym F2)) (conj (eq_trans B3 (eq_sym F3)) (eq_trans B4 (eq_sym F4)))))|].
  cbv beta. intros B' (_ & K). eapply sb_ext; [exact K|]. rewrite B3, B4. exact F5.
Qed.
(** a solved system for a matrix given only by its elements *)
Lemma solved_lower_gen n k B B' FL FB X : inM f n n FL -> holds B f n k FB -> nz_diag n FL ->
  inM f n k X -> meq n k (mmul f n (tril FL) X) FB -> solved tril FL B B' -> becomes B B' X.
Proof.
  intros InL HB Hd HX EX (S1 & S2). pose proof HB as (B1 & B2 & B3 & B4 & B5).
  eapply becomes_ext; [exact S1|]. rewrite B3, B4 in *. rewrite B2 in S2. intros i j Hi Hj.
  revert i j Hi Hj. apply (tril_unique f (irreducible_no_factor f Hirr) Hirr n k FL InL Hd X _ FB HX).
  - intros i j Hi Hj. destruct S1 as (S1 & SH & _). rewrite <- B2. replace (fld B) with (fld B') by (destruct SH as (E & _); now rewrite E).
    apply wf_entry; auto; destruct SH as (_ & _ & E1 & E2); lia.
  - exact EX.
  - intros i j Hi Hj. rewrite <- B5 by easy. now rewrite <- S2 by easy.
Qed.
Lemma solved_upper_gen n k B B' FL FB X : inM f n n FL -> holds B f n k FB -> nz_diag n FL ->
  inM f n k X -> meq n k (mmul f n (triu FL) X) FB -> solved triu FL B B' -> becomes B B' X.
Proof.
  intros InL HB Hd HX EX (S1 & S2). pose proof HB as (B1 & B2 & B3 & B4 & B5).
  eapply becomes_ext; [exact S1|]. rewrite B3, B4 in *. rewrite B2 in S2. intros i j Hi Hj.
  revert i j Hi Hj. apply (triu_unique f (irreducible_no_factor f Hirr) Hirr n k FL InL Hd X _ FB HX).
  - intros i j Hi Hj. destruct S1 as (S1 & SH & _). rewrite <- B2. replace (fld B) with (fld B') by (destruct SH as (E & _); now rewrite E).
    apply wf_entry; auto; destruct SH as (_ & _ & E1 & E2); lia.
  - exact EX.
  - intros i j Hi Hj. rewrite <- B5 by easy. now rewrite <- S2 by easy.
Qed.
Lemma strsm_lower_nj_ok n k L B FL FB X : sholds L f n n FL -> sholds B f n k FB -> 0 < k -> nz_diag n FL ->
  inM f n k X -> meq n k (mmul f n (tril FL) X) FB ->
  wp (mzd_slice_trsm_lower_left_newton_john L B) (fun B' => sbecomes B B' X).
Proof.
  intros HL HB Hk Hd HX EX. pose proof HL as (L1 & L2 & L3 & L4 & L5). pose proof HB as (B1 & B2 & B3 & B4 & B5).
  unfold mzd_slice_trsm_lower_left_newton_john. rewrite strsm_assert_true by congruence. cbn [guard bind].
  destruct (_ <=? _); [now apply (strsm_lower_naive_ok n k L B FL FB)|].
  apply wp_bind. eapply wp_mono; [apply (mzed_cling_ok None B B1 (depth2 B B1 B2) Logic.I)|]. cbv beta. rewrite B2, B3, B4. intros Be (KB & Ff).
  apply (holds_ext _ _ _ _ _ FB) in KB; [|exact B5]. pose proof KB as (N1 & N2 & N3 & N4 & N5). rewrite N3.
  pose proof N1 as (WB & Ww & _). destruct (degree_to_w_facts _ _ Ww) as (_ & _ & D2).
  apply wp_bind. rewrite <- Ff. eapply wp_mono; [apply (njt_init_ok (mz_ff Be) k WB D2)|]. cbv beta. intros T0 (HT & _).
  assert (InL : inM f n n FL) by exact (sh_in _ _ _ _ _ HL).
  pose proof (trsm_lower_nj_loop (sl_ff L) (mzd_slice_read_elem L) FL Be T0) as LP. rewrite N2, N3, N4 in LP.
  apply wp_bind. eapply wp_mono; [apply LP; auto; clear LP|].
  - now destruct L1.
  - intros j i Hj Hi. rewrite slice_read_elem_ok by (auto; lia). rewrite L5 by lia. split; [reflexivity|]. now apply InL.
  - rewrite <- N2. exact HT.
  - cbv beta. intros (Bf, T') HS. pose proof (solved_lower_gen n k Be Bf FL FB X InL KB Hd HX EX HS) as KF. pose proof (holds_becomes _ _ _ _ _ _ _ KB KF) as (F1 & F2 & F3 & F4 & F5).
    eapply wp_mono; [apply (mzed_slice_ok (Some B) Bf F1); exact (conj B1 (conj (eq_trans B2 (eq_sym F2)) (conj (eq_trans B3 (eq_sym F3)) (eq_trans B4 (eq_sym F4)))))|].
    cbv beta. intros B' (_ & K). eapply sb_ext; [exact K|]. rewrite B3, B4. exact F5.
Qed.
Lemma strsm_upper_nj_ok n k L B FL FB X : sholds L f n n FL -> sholds B f n k FB -> 0 < k -> nz_diag n FL ->
  inM f n k X -> meq n k (mmul f n (triu FL) X) FB ->
  wp (mzd_slice_trsm_upper_left_newton_john L B) (fun B' => sbecomes B B' X).
Proof.
  intros HL HB Hk Hd HX EX. pose proof HL as (L1 & L2 & L3 & L4 & L5). pose proof HB as (B1 & B2 & B3 & B4 & B5).
  unfold mzd_slice_trsm_upper_left_newton_john. rewrite strsm_assert_true by congruence. cbn [guard bind].
  destruct (_ <=? _); [now apply (strsm_upper_naive_ok n k L B FL FB)|].
  apply wp_bind. eapply wp_mono; [apply (mzed_cling_ok None B B1 (depth2 B B1 B2) Logic.I)|]. cbv beta. rewrite B2, B3, B4. intros Be (KB & Ff).
  apply (holds_ext _ _ _ _ _ FB) in KB; [|exact B5]. pose proof KB as (N1 & N2 & N3 & N4 & N5).
  pose proof N1 as (WB & Ww & _). destruct (degree_to_w_facts _ _ Ww) as (_ & _ & D2).
  apply wp_bind. rewrite N4. eapply wp_mono; [apply (njt_init_ok (mz_ff Be) k WB D2)|]. cbv beta. intros T0 (HT & _).
  assert (InL : inM f n n FL) by exact (sh_in _ _ _ _ _ HL).
  pose proof (trsm_upper_nj_loop (sl_ff L) (mzd_slice_read_elem L) FL Be T0) as LP. rewrite N2, N3, N4 in LP.
  apply wp_bind. eapply wp_mono; [apply LP; auto; clear LP|].
  - now destruct L1.
  - intros j i Hj Hi. rewrite slice_read_elem_ok by (auto; lia). rewrite L5 by lia. split; [reflexivity|]. now apply InL.
  - rewrite <- N2. exact HT.
  - cbv beta. intros (Bf, T') HS. pose proof (solved_upper_gen n k Be Bf FL FB X InL KB Hd HX EX HS) as KF. pose proof (holds_becomes _ _ _ _ _ _ _ KB KF) as (F1 & F2 & F3 & F4 & F5).
    eapply wp_mono; [apply (mzed_slice_ok (Some B) Bf F1); exact (conj B1 (conj (eq_trans B2 (eq_sym F2)) (conj (eq_trans B3 (eq_sym F3)) (eq_trans B4 (eq_sym F4)))))|].
    cbv beta. intros B' (_ & K). eapply sb_ext; [exact K|]. rewrite B3, B4. exact F5.
Qed.
Lemma saddmul_h C A B m l n FA FB FC : sholds C f m n FC -> sholds A f m l FA -> sholds B f l n FB ->
  wp (mzd_slice_addmul (Some C) A B) (fun C' => sbecomes C C' (madd FC (mmul f l FA FB))).
Proof.
  intros (C1 & C2 & C3 & C4 & C5) (A1 & A2 & A3 & A4 & A5) (B1 & B2 & B3 & B4 & B5).
  eapply wp_mono; [apply slice_addmul_ok; auto; congruence|]. cbv beta. intros C' HC. eapply sb_ext; [exact HC|]. rewrite C3, C4. intros i j Hi Hj. unfold madd. rewrite C5 by easy. f_equal.
  rewrite A2, A4. apply (mmul_ext f l _ _ _ _ m n); auto.
Qed.
Variable cutoff : nat.
Hypothesis Hc : 64 <= cutoff.
Theorem strsm_lower_ok fuel : forall n k L B FL FB X, n < fuel -> sholds L f n n FL -> sholds B f n k FB -> 0 < k -> nz_diag n FL ->
  inM f n k X -> meq n k (mmul f n (tril FL) X) FB ->
  wp (strsm_lower fuel L B cutoff) (fun B' => sbecomes B B' X).
Proof.
  induction fuel as [|fuel IH]; intros n k L B FL FB X Hf HL HB Hk Hd HX EX; [lia|].
  pose proof HL as (L1 & L2 & L3 & L4 & L5). pose proof HB as (B1 & B2 & B3 & B4 & B5).
  cbn [strsm_lower]. rewrite strsm_assert_true by congruence. cbn [guard bind]. rewrite L3, B3, B4.
  destruct ((n <=? cutoff) || (k <=? cutoff)) eqn:Ecut.
  - now apply (strsm_lower_nj_ok n k L B FL FB).
  - destruct (trsm_split_ok n ltac:(lia)) as (Hc64 & Hcn). set (c := trsm_split n) in *. clearbody c. assert (M0 : 0 mod 64 = 0) by reflexivity.
    apply wp_bind. eapply wp_mono; [apply (swin_ok L f n n FL 0 0 c c HL); auto; lia|]. cbv beta. intros L00 (H00 & _). rewrite Nat.sub_0_r in H00.
    apply wp_bind. eapply wp_mono; [apply (swin_ok L f n n FL c 0 n c HL); auto; lia|]. cbv beta. intros L10 (H10 & _). rewrite Nat.sub_0_r in H10.
    apply wp_bind. eapply wp_mono; [apply (swin_ok L f n n FL c c n n HL); auto; lia|]. cbv beta. intros L11 (H11 & _).
    apply wp_bind. eapply wp_mono; [apply (on_swin_ok B f n k FB 0 0 c k _ (sub X 0 0) HB); auto; try lia|].
    { intros W HW _. rewrite !Nat.sub_0_r in HW. apply (IH c k L00 W _ _ _ ltac:(lia) H00 HW Hk).
      - intros i Hi. apply Hd. lia.
      - intros i j Hi Hj. apply HX; lia.
      - apply (tril_block0 f n); [lia|exact EX]. }
    cbv beta. intros Ba Ka. pose proof (sh_becomes _ _ _ _ _ _ _ HB Ka) as Ha.
    apply wp_bind. eapply wp_mono; [apply (swin_ok Ba f n k _ 0 0 c k Ha); auto; lia|]. cbv beta. intros B0 (HB0 & _). rewrite !Nat.sub_0_r in HB0.
    apply wp_bind. eapply wp_mono; [apply (on_swin_ok Ba f n k _ c 0 n k _ (madd (sub FB c 0) (mmul f c (sub FL c 0) (sub X 0 0))) Ha); auto; try lia|].
    { intros W HW _. rewrite Nat.sub_0_r in HW. eapply wp_mono; [apply (saddmul_h W L10 B0 (n - c) c k _ _ _ HW H10 HB0)|].
      cbv beta. intros W' KW. eapply sb_meq; [exact HW|exact KW|]. intros i j Hi Hj. unfold madd. f_equal.
      - unfold sub. replace (c + i <? c) with false by lia. now rewrite andb_false_r.
      - apply (mmul_ext f c _ _ _ _ (n - c) k); [apply meq_refl| |exact Hi|exact Hj]. intros x y Hx Hy. unfold sub. wsel; [f_equal; lia|lia]. }
    cbv beta. intros Bb Kb. pose proof (sh_becomes _ _ _ _ _ _ _ Ha Kb) as Hb.
    eapply wp_mono; [apply (on_swin_ok Bb f n k _ c 0 n k _ (sub X c 0) Hb); auto; try lia|].
    { intros W HW _. rewrite Nat.sub_0_r in HW. eapply (IH (n - c) k L11 W _ _ _ ltac:(lia) H11 HW Hk).
      - intros i Hi. apply Hd. lia.
      - intros i j Hi Hj. apply HX; lia.
      - intros i j Hi Hj. rewrite (tril_block1 f n c k FL X FB) by (auto; lia). symmetry. unfold sub at 1. wsel; [|lia]. f_equal; lia. }
    cbv beta. intros Bc Kc. eapply (sb_step B Ba Bb _ _ _ B1 Ka) in Kb; [|intros; reflexivity]. eapply (sb_step B Bb Bc _ _ _ B1 Kb) in Kc; [|intros; reflexivity]. eapply sb_ext; [exact Kc|]. cbv beta.
    rewrite B3, B4. intros i j Hi Hj. unfold sub. repeat wsel; try lia; f_equal; lia.
Qed.
Theorem strsm_upper_ok fuel : forall n k U B FU FB X, n < fuel -> sholds U f n n FU -> sholds B f n k FB -> 0 < k -> nz_diag n FU ->
  inM f n k X -> meq n k (mmul f n (triu FU) X) FB ->
  wp (strsm_upper fuel U B cutoff) (fun B' => sbecomes B B' X).
Proof.
  induction fuel as [|fuel IH]; intros n k U B FU FB X Hf HL HB Hk Hd HX EX; [lia|].
  pose proof HL as (L1 & L2 & L3 & L4 & L5). pose proof HB as (B1 & B2 & B3 & B4 & B5).
  cbn [strsm_upper]. rewrite strsm_assert_true by congruence. cbn [guard bind]. rewrite L3, B3, B4.
  destruct ((n <=? cutoff) || (k <=? cutoff)) eqn:Ecut.
  - now apply (strsm_upper_nj_ok n k U B FU FB).
  - destruct (trsm_split_ok n ltac:(lia)) as (Hc64 & Hcn). set (c := trsm_split n) in *. clearbody c. assert (M0 : 0 mod 64 = 0) by reflexivity.
    apply wp_bind. eapply wp_mono; [apply (swin_ok U f n n FU 0 0 c c HL); auto; lia|]. cbv beta. intros U00 (H00 & _). rewrite Nat.sub_0_r in H00.
    apply wp_bind. eapply wp_mono; [apply (swin_ok U f n n FU 0 c c n HL); auto; lia|]. cbv beta. intros U01 (H01 & _). rewrite Nat.sub_0_r in H01.
    apply wp_bind. eapply wp_mono; [apply (swin_ok U f n n FU c c n n HL); auto; lia|]. cbv beta. intros U11 (H11 & _).
    apply wp_bind. eapply wp_mono; [apply (on_swin_ok B f n k FB c 0 n k _ (sub X c 0) HB); auto; try lia|].
    { intros W HW _. rewrite !Nat.sub_0_r in HW. apply (IH (n - c) k U11 W _ _ _ ltac:(lia) H11 HW Hk).
      - intros i Hi. apply Hd. lia.
      - intros i j Hi Hj. apply HX; lia.
      - apply (triu_block1 f n); [lia|exact EX]. }
    cbv beta. intros Ba Ka. pose proof (sh_becomes _ _ _ _ _ _ _ HB Ka) as Ha.
    apply wp_bind. eapply wp_mono; [apply (swin_ok Ba f n k _ c 0 n k Ha); auto; lia|]. cbv beta. intros B1' (HB1 & _). rewrite !Nat.sub_0_r in HB1.
    apply wp_bind. eapply wp_mono; [apply (on_swin_ok Ba f n k _ 0 0 c k _ (madd (sub FB 0 0) (mmul f (n - c) (sub FU 0 c) (sub X c 0))) Ha); auto; try lia|].
    { intros W HW _. rewrite !Nat.sub_0_r in HW. eapply wp_mono; [apply (saddmul_h W U01 B1' c (n - c) k _ _ _ HW H01 HB1)|].
      cbv beta. intros W' KW. eapply sb_meq; [exact HW|exact KW|]. intros i j Hi Hj. unfold madd. f_equal.
      - unfold sub. wsel; [lia|reflexivity].
      - apply (mmul_ext f (n - c) _ _ _ _ c k); [apply meq_refl| |exact Hi|exact Hj]. intros x y Hx Hy. unfold sub. wsel; [f_equal; lia|lia]. }
    cbv beta. intros Bb Kb. pose proof (sh_becomes _ _ _ _ _ _ _ Ha Kb) as Hb.
    eapply wp_mono; [apply (on_swin_ok Bb f n k _ 0 0 c k _ (sub X 0 0) Hb); auto; try lia|].
    { intros W HW _. rewrite !Nat.sub_0_r in HW. eapply (IH c k U00 W _ _ _ ltac:(lia) H00 HW Hk).
      - intros i Hi. apply Hd. lia.
      - intros i j Hi Hj. apply HX; lia.
      - intros i j Hi Hj. rewrite (triu_block0 f n c k FU X FB) by (auto; lia). symmetry. unfold sub at 1. wsel; [|lia]. f_equal; lia. }
    cbv beta. intros Bc Kc. eapply (sb_step B Ba Bb _ _ _ B1 Ka) in Kb; [|intros; reflexivity]. eapply (sb_step B Bb Bc _ _ _ B1 Kb) in Kc; [|intros; reflexivity]. eapply sb_ext; [exact Kc|]. cbv beta.
    rewrite B3, B4. intros i j Hi Hj. unfold sub. repeat wsel; try lia; f_equal; lia.
Qed.
End SRec.
