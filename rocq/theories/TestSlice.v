(** Canaries of bit-sliced matrices: proofs. *)
From Coq Require Import NArith ZArith Lia List Bool Arith.
From Coq Require Import ZifyBool ZifyNat ZifyN.
From Verif Require Import HistSpec HistModel HistProofs.
From Verif Require Import Base Spec LinSpec PolyFacts MatFacts Gf2xModel Gf2eModel Gf2eProofs MzdModel MzdFacts MzedModel MzedSpec LaneFacts MzedProofs MzedOps MzedOps2 FrameProofs.
From Verif Require Import SliceModel SliceSpec SliceProofs SliceOps.
From Verif Require Import TestModel TestCanary TestSliceModel.
Import ListNotations.
Local Open Scope nat_scope.

(** where column k of a row is *)
Lemma last_index nc : 0 < nc -> width nc - 1 < width nc /\ forall k, k < 64 * width nc -> (k / 64 = width nc - 1 -> (k <? nc) = (N.of_nat (k mod 64) <? N.of_nat (if nc mod 64 =? 0 then 64 else nc mod 64)%nat)%N) /\
  (k / 64 <> width nc - 1 -> k < nc).
Proof.
  intros H. unfold width. pose proof (Nat.div_mod nc 64 ltac:(lia)). pose proof (Nat.mod_upper_bound nc 64 ltac:(lia)).
  pose proof (Nat.div_mod (nc + 63) 64 ltac:(lia)). pose proof (Nat.mod_upper_bound (nc + 63) 64 ltac:(lia)).
  set (w := (nc + 63) / 64) in *. split; [lia|]. intros k Hk. pose proof (Nat.div_mod k 64 ltac:(lia)). pose proof (Nat.mod_upper_bound k 64 ltac:(lia)).
  set (q := k / 64) in *. set (r := k mod 64) in *. destruct (Nat.eqb_spec (nc mod 64) 0) as [E|E].
  - rewrite E in *. assert (nc / 64 = w) by lia. split; intros; lia.
  - assert (nc / 64 + 1 = w) by lia. set (t := nc mod 64) in *. split; intros; lia.
Qed.
(** the word c shows behind the last column *)
Lemma last_words_ok m g c x : wf_mzd x -> mzd_nrows x = m -> 0 < mzd_ncols x ->
  (forall v, (v < 2 ^ 64)%N -> (g v < 2 ^ 64)%N /\ forall k, k < 64 ->
     N.testbit (g v) (N.of_nat k) = if (N.of_nat k <? N.of_nat (if mzd_ncols x mod 64 =? 0 then 64 else mzd_ncols x mod 64)%nat)%N then N.testbit v (N.of_nat k) else N.testbit c (N.of_nat k)) ->
  wp (last_words m (width (mzd_ncols x) - 1) g x) (fun x' => wf_mzd x' /\ mzd_nrows x' = mzd_nrows x /\ mzd_ncols x' = mzd_ncols x /\
    forall i k, i < m -> k < 64 * width (mzd_ncols x) -> mbit x' i k = if k <? mzd_ncols x then mbit x i k else N.testbit c (N.of_nat (k mod 64))).
Proof.
  intros (Hl & Hr) Hm Hc Hg. destruct (last_index (mzd_ncols x) Hc) as (L1 & L2). set (n := width (mzd_ncols x) - 1) in *. unfold last_words.
  set (v := fun i => g (nth n (mrow x i) 0%N)). apply wp_bind. eapply wp_mono.
  - apply (wp_for (fun i rows => length rows = m /\ forall j, nth j rows [] = if j <? i then upd (mrow x j) n (v j) else mrow x j)); [lia|split; [lia|reflexivity]|].
    intros i rows Hi (Lr & Hn). rewrite (lget_nth rows i []) by lia. cbn [bind]. rewrite Hn. replace (i <? i) with false by lia.
    destruct (Hr i ltac:(lia)) as (W1 & _). rewrite (lget_nth _ n 0%N) by lia. cbn [bind]. unfold lset at 1. replace (n <? length (mrow x i)) with true by lia. cbn [bind].
    unfold lset. replace (i <? length rows) with true by lia. cbn [wp]. split; [now rewrite upd_length|]. intros j. rewrite nth_upd by lia.
    destruct (Nat.eqb_spec i j) as [<-|Ne]; [replace (i <? S i) with true by lia; reflexivity|]. rewrite Hn. replace (j <? S i) with (j <? i) by lia. reflexivity.
  - cbv beta. intros rows (Lr & Hn). cbn [wp]. assert (Er : forall i, i < m -> mrow (Mzd (mzd_nrows x) (mzd_ncols x) rows) i = upd (mrow x i) n (v i)).
    { intros i Hi. unfold mrow at 1. cbn [mzd_rows]. rewrite Hn. now replace (i <? m) with true by lia. }
    split; [|split; [reflexivity|split; [reflexivity|]]].
    + split; [cbn [mzd_rows mzd_nrows]; lia|]. cbn [mzd_nrows mzd_ncols]. intros i Hi. rewrite Er by lia. destruct (Hr i Hi) as (W1 & W2). split; [now rewrite upd_length|].
      apply Forall_forall. intros y Hy. apply (In_nth _ _ 0%N) in Hy. destruct Hy as (j & Hj & <-). rewrite upd_length in Hj. rewrite nth_upd by lia.
      rewrite Forall_nth in W2. destruct (n =? j); [unfold v; apply Hg; apply W2; lia|apply W2; lia].
    + intros i k Hi Hk. destruct (Hr i ltac:(lia)) as (W1 & W2). unfold mbit, rbit. rewrite Er by exact Hi. rewrite nth_upd by lia.
      destruct (L2 k Hk) as (K1 & K2). destruct (Nat.eqb_spec n (k / 64)) as [E|E].
      * unfold v. rewrite Forall_nth in W2. destruct (Hg (nth n (mrow x i) 0%N) ltac:(apply W2; lia)) as (_ & Hg2).
        rewrite Hg2 by (apply Nat.mod_upper_bound; lia). rewrite <- K1 by congruence. destruct (k <? mzd_ncols x); [|reflexivity]. now rewrite E.
      * replace (k <? mzd_ncols x) with true by (symmetry; apply Nat.ltb_lt; apply K2; congruence). reflexivity.
Qed.
(** behind the last column of every slice there are the bits of c *)
Definition smarked (c : N) (A : slice) : Prop :=
  forall b i k, b < sl_depth A -> i < sl_nrows A -> sl_ncols A <= k < 64 * width (sl_ncols A) -> mbit (sx A b) i k = N.testbit c (N.of_nat (k mod 64)).
Lemma smarked_kept c A A' : wf_slice A -> smarked c A -> kept_s A A' -> smarked c A'.
Proof.
  intros WA H (W & E1 & E2 & E3 & _ & P) b i k Hb Hi Hk. assert (D : sl_depth A' = sl_depth A). { destruct W as (_ & d & _). destruct WA as (_ & d' & _). congruence. }
  rewrite D, E2, E3 in *. rewrite P by auto. now apply H.
Qed.
Lemma depth_pos A : wf_slice A -> 0 < sl_depth A.
Proof. intros H. pose proof (wfs_depth A H). lia. Qed.
Section Canary.
Variable A : slice.
Hypothesis W : wf_slice A.
Hypothesis Hc : 0 < sl_ncols A.
Let e := left_bitmask (sl_ncols A mod 64).
Let n := width (sl_ncols A) - 1.
Lemma e_bit k : k < 64 -> N.testbit e (N.of_nat k) = (N.of_nat k <? N.of_nat (if sl_ncols A mod 64 =? 0 then 64 else sl_ncols A mod 64)%nat)%N.
Proof. intros Hk. apply testbit_left_bitmask. apply Nat.mod_upper_bound. lia. Qed.
Lemma ne_bit k : k < 64 -> N.testbit (wnot e) (N.of_nat k) = negb (N.testbit e (N.of_nat k)).
Proof. intros Hk. rewrite testbit_wnot. replace (N.of_nat k <? 64)%N with true by lia. replace (64 <=? N.of_nat k)%N with false by lia. cbn [andb]. now rewrite orb_false_r. Qed.
Lemma each_ok g c : (forall v, (v < 2 ^ 64)%N -> (g v < 2 ^ 64)%N /\ forall k, k < 64 ->
     N.testbit (g v) (N.of_nat k) = if N.testbit e (N.of_nat k) then N.testbit v (N.of_nat k) else N.testbit c (N.of_nat k)) ->
  wp (sl_map_n (ff_degree (sl_ff A)) A (fun _ => last_words (sl_nrows A) n g)) (fun A' => wf_slice A' /\ sl_ff A' = sl_ff A /\ sl_nrows A' = sl_nrows A /\ sl_ncols A' = sl_ncols A /\
    (forall i c, i < sl_nrows A -> c < sl_ncols A -> sentry A' i c = sentry A i c) /\ smarked c A').
Proof.
  intros Hg. pose proof W as (W1 & W2 & W3 & W4). rewrite <- W2. unfold sl_map_n. apply wp_bind. eapply wp_mono.
  - apply (wp_each (sl_depth A) _ (sl_x A) (fun b x' => wf_mzd x' /\ mzd_nrows x' = sl_nrows A /\ mzd_ncols x' = sl_ncols A /\
      forall i k, i < sl_nrows A -> k < 64 * width (sl_ncols A) -> mbit x' i k = if k <? sl_ncols A then mbit (sx A b) i k else N.testbit c (N.of_nat (k mod 64)))); [lia|].
    intros b Hb. fold (sx A b). destruct (W4 b Hb) as (X1 & X2 & X3). unfold n. rewrite <- X3.
    eapply wp_mono; [apply (last_words_ok (sl_nrows A) g c (sx A b) X1 X2); [lia|]|].
    + intros v Hv. destruct (Hg v Hv) as (G1 & G2). split; [exact G1|]. intros k Hk. rewrite G2, e_bit by exact Hk. now rewrite X3.
    + cbv beta. rewrite X2, X3. intros x' (Y1 & Y2 & Y3 & Y4). auto.
  - cbv beta. intros x (Lx & Hx & _). cbn [wp]. unfold sl_set_x, smarked, sentry, sx. cbn [sl_ff sl_depth sl_nrows sl_ncols sl_x].
    split; [|split; [reflexivity|split; [reflexivity|split; [reflexivity|split]]]].
    + split; [exact W1|]. split; [exact W2|]. split; [cbn [sl_x sl_depth]; lia|]. cbn [sl_depth sl_nrows sl_ncols]. intros b Hb. unfold sx. cbn [sl_x]. destruct (Hx b Hb) as (Y1 & Y2 & Y3 & _). auto.
    + intros i k Hi Hk. apply word_of_bits_ext. intros b Hb. destruct (Hx b Hb) as (_ & _ & _ & Y). assert (sl_ncols A <= 64 * width (sl_ncols A)).
      { unfold width. pose proof (Nat.div_mod (sl_ncols A + 63) 64 ltac:(lia)). pose proof (Nat.mod_upper_bound (sl_ncols A + 63) 64 ltac:(lia)). lia. }
      rewrite Y by lia. now replace (k <? sl_ncols A) with true by lia.
    + intros b i k Hb Hi Hk. destruct (Hx b Hb) as (_ & _ & _ & Y). rewrite Y by lia. now replace (k <? sl_ncols A) with false by lia.
Qed.
Lemma first_slice : exists x0, lget (sl_x A) 0 = Ok x0 /\ mzd_ncols x0 = sl_ncols A.
Proof.
  pose proof (depth_pos A W) as D. exists (sx A 0). split; [now apply lget_sx|]. now apply W.
Qed.
Definition spadded (c : N) (A' : slice) : Prop := wf_slice A' /\ sl_ff A' = sl_ff A /\ sl_nrows A' = sl_nrows A /\ sl_ncols A' = sl_ncols A /\
  (forall i c, i < sl_nrows A -> c < sl_ncols A -> sentry A' i c = sentry A i c) /\ smarked c A'.
Lemma canary_lt : (m4rie_canary < 2 ^ 64)%N. Proof. vm_compute. reflexivity. Qed.
Theorem sset_canary_ok : wp (mzd_slice_set_canary A) (spadded m4rie_canary).
Proof.
  unfold mzd_slice_set_canary. destruct first_slice as (x0 & E0 & N0). rewrite E0. cbn [bind]. rewrite N0. fold e n. apply each_ok. intros v Hv. split.
  - apply lor_lt_pow2; [now apply land_lt_pow2|apply land_lt_pow2; exact canary_lt].
  - intros k Hk. rewrite N.lor_spec, !N.land_spec, ne_bit by exact Hk. destruct (N.testbit e (N.of_nat k)); cbn [negb]; now rewrite ?andb_true_r, ?andb_false_r, ?orb_false_r.
Qed.
Theorem sclear_canary_ok : wp (mzd_slice_clear_canary A) (spadded 0).
Proof.
  unfold mzd_slice_clear_canary. destruct first_slice as (x0 & E0 & N0). rewrite E0. cbn [bind]. rewrite N0. fold e n. apply each_ok. intros v Hv. split.
  - now apply land_lt_pow2.
  - intros k Hk. rewrite N.land_spec, N.bits_0. destruct (N.testbit e (N.of_nat k)); now rewrite ?andb_true_r, ?andb_false_r.
Qed.
Theorem salive_ok : exists b, mzd_slice_canary_is_alive A = Ok (c_bool b) /\ (b = true <-> smarked m4rie_canary A).
Proof.
  unfold mzd_slice_canary_is_alive. destruct first_slice as (x0 & E0 & N0). rewrite E0. cbn [bind]. rewrite N0. fold e n.
  pose proof W as (_ & D & _ & W4). destruct (last_index (sl_ncols A) Hc) as (L1 & L2). fold n in L1, L2.
  set (t := fun b i => (N.land (nth n (mrow (sx A b) i) 0%N) (wnot e) =? N.land m4rie_canary (wnot e))%N).
  assert (T : forall b i, b < sl_depth A -> i < sl_nrows A -> t b i = true <-> forall k, sl_ncols A <= k < 64 * width (sl_ncols A) -> mbit (sx A b) i k = N.testbit m4rie_canary (N.of_nat (k mod 64))).
  { intros b i Hb Hi. destruct (W4 b Hb) as ((X0 & X) & X2 & X3). destruct (X i ltac:(lia)) as (Y1 & Y2). rewrite X3 in Y1. rewrite Forall_nth in Y2. pose proof (Y2 n 0%N ltac:(lia)) as Lt.
    unfold t. rewrite N.eqb_eq. split.
    - intros E k Hk. destruct (L2 k ltac:(lia)) as (K1 & K2). assert (Q : k / 64 = n) by (destruct (Nat.eq_dec (k / 64) n); [assumption|exfalso; specialize (K2 ltac:(assumption)); lia]).
      specialize (K1 Q). pose proof (Nat.mod_upper_bound k 64 ltac:(lia)) as Bk. apply (f_equal (fun y => N.testbit y (N.of_nat (k mod 64)))) in E. rewrite !N.land_spec, ne_bit, e_bit in E by exact Bk.
      rewrite <- K1 in E. replace (k <? sl_ncols A) with false in E by lia. cbn [negb] in E. rewrite !andb_true_r in E. unfold mbit, rbit. now rewrite Q.
    - intros H. apply N.bits_inj. intro j. destruct (N.lt_ge_cases j 64) as [Hj|Hj].
      + rewrite <- (N2Nat.id j). set (k := N.to_nat j). assert (Hk : k < 64) by lia. rewrite !N.land_spec, ne_bit by exact Hk. rewrite e_bit by exact Hk.
        assert (Q1 : (64 * n + k) / 64 = n) by (symmetry; apply (Nat.div_unique _ 64 n k); lia). assert (Q2 : (64 * n + k) mod 64 = k) by (symmetry; apply (Nat.mod_unique _ 64 n k); lia).
        destruct (L2 (64 * n + k) ltac:(lia)) as (K1 & _). specialize (K1 Q1). rewrite Q2 in K1. rewrite <- K1. destruct (Nat.ltb_spec (64 * n + k) (sl_ncols A)) as [|G]; [now rewrite !andb_false_r|].
        cbn [negb]. rewrite !andb_true_r. rewrite <- Q2 at 2. rewrite <- H by lia. unfold mbit, rbit. now rewrite Q1, Q2.
      + rewrite !N.land_spec. rewrite (proj1 (lt_pow2_bits _ _) Lt j Hj), (proj1 (lt_pow2_bits _ _) canary_lt j Hj). reflexivity. }
  assert (L : wp (for_ 0 (ff_degree (sl_ff A)) (fun e' b => for_ 0 (sl_nrows A) (fun i b => if b : bool then x <- lget (sl_x A) e' ;; r <- lget (mzd_rows x) i ;; v <- lget r n ;;
      Ok (N.land v (wnot e) =? N.land m4rie_canary (wnot e))%N else Ok false) b) true) (fun b => b = true <-> forall c i, c < sl_depth A -> i < sl_nrows A -> t c i = true)).
  { rewrite <- D. apply (wp_for (fun c b => b = true <-> forall c' i, c' < c -> i < sl_nrows A -> t c' i = true)); [lia|split; [lia|easy]|].
    intros c b Hcc Hb. eapply wp_mono; [apply (wp_for (fun j b => b = true <-> (forall c' i, c' < c -> i < sl_nrows A -> t c' i = true) /\ forall i, i < j -> t c i = true)); [lia| |]|].
    - rewrite Hb. split; [intros H; split; [exact H|lia]|now intros (H & _)].
    - intros i b' Hi Hb'. destruct b'.
      + rewrite lget_sx by (auto; lia). cbn [bind]. destruct (W4 c ltac:(lia)) as ((X0 & X) & X2 & X3). destruct (X i ltac:(lia)) as (Y1 & _). rewrite X3 in Y1.
        rewrite (lget_nth (mzd_rows (sx A c)) i []) by lia. cbn [bind]. fold (mrow (sx A c) i). rewrite (lget_nth _ n 0%N) by lia. cbn [bind wp]. fold (t c i). split.
        * intros Ti. split; [now apply Hb'|]. intros j Hj. destruct (Nat.eq_dec j i) as [->|]; [exact Ti|]. apply Hb'; auto. lia.
        * intros (_ & H). apply H. lia.
      + cbn [wp]. split; [discriminate|]. intros (H1 & H2). apply Hb'. split; [exact H1|]. intros j Hj. apply H2. lia.
    - cbv beta. intros b' Hb'. rewrite Hb'. split.
      + intros (H1 & H2) c' i Hc' Hi. destruct (Nat.eq_dec c' c) as [->|]; [now apply H2|]. apply H1; auto. lia.
      + intros H. split; [intros c' i Hc' Hi; apply H; auto|intros i Hi; apply H; auto]. }
  apply wp_iff in L. destruct L as (b & E & Hb). rewrite E. cbn [bind]. exists b. split; [reflexivity|]. rewrite Hb. unfold smarked. split.
  - intros H c i k H1 H2 H3. now apply (proj1 (T c i H1 H2)); [apply H|].
  - intros H c i H1 H2. apply (proj2 (T c i H1 H2)). intros k Hk. now apply H.
Qed.
End Canary.
