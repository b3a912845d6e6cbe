(** Bit-level facts about the M4RI contracts of MzdModel.v: well-formed GF(2) matrices, in-place
    updates, windows. *)
From Coq Require Import NArith Lia List Bool Arith.
From Coq Require Import ZifyBool ZifyNat ZifyN.
From Verif Require Import Base Spec PolyFacts Gf2xModel Gf2xProofs Gf2eModel MzdModel MzedModel MzedSpec LaneFacts MzedProofs MzedOps MzedOps2 SliceModel SliceSpec.
Import ListNotations.
Local Open Scope nat_scope.

Lemma width_ge n : n <= 64 * width n.
Proof. unfold width. pose proof (Nat.div_mod (n + 63) 64 ltac:(lia)). pose proof (Nat.mod_upper_bound (n + 63) 64 ltac:(lia)). lia. Qed.
Lemma width_lt n : 64 * width n < n + 64.
Proof. unfold width. pose proof (Nat.mul_div_le (n + 63) 64 ltac:(lia)). lia. Qed.

Lemma mset_wf M M' g : mset M M' g -> wf_mzd M'. Proof. now intros (H & _). Qed.
Lemma mset_nr M M' g : mset M M' g -> mzd_nrows M' = mzd_nrows M. Proof. now intros (_ & H & _). Qed.
Lemma mset_nc M M' g : mset M M' g -> mzd_ncols M' = mzd_ncols M. Proof. now intros (_ & _ & H & _). Qed.
Lemma mset_bit M M' g i k : mset M M' g -> i < mzd_nrows M -> k < mzd_ncols M -> mbit M' i k = g i k.
Proof. intros (_ & _ & _ & H & _). apply H. Qed.
Lemma mset_refl M : wf_mzd M -> mset M M (mbit M).
Proof. intros H. split; [exact H|]. repeat split. Qed.
Lemma mset_ext M M' g h : mset M M' g -> (forall i k, i < mzd_nrows M -> k < mzd_ncols M -> g i k = h i k) -> mset M M' h.
Proof. intros (H1 & H2 & H3 & H4 & H5) E. split; [exact H1|]. repeat split; auto. intros i k Hi Hk. rewrite H4 by easy. now apply E. Qed.
Lemma mset_trans A B C g h : mset A B g -> mset B C h -> mset A C h.
Proof.
  intros (H1 & H2 & H3 & H4 & H5) (K1 & K2 & K3 & K4 & K5). split; [exact K1|]. split; [congruence|]. split; [congruence|]. split.
  - intros i k Hi Hk. apply K4; lia.
  - intros i k Hi Hk. rewrite K5 by (rewrite ?H2, ?H3; easy). now apply H5.
Qed.
Lemma mset_step A B C g h k : mset A B g -> mset B C h ->
  (forall i j, i < mzd_nrows A -> j < mzd_ncols A -> h i j = k i j) -> mset A C k.
Proof. intros H1 H2 E. eapply mset_ext; [eapply mset_trans; eauto|]. exact E. Qed.

Lemma mset_build M g : wf_mzd M -> mset M (mzd_build M g) g.
Proof.
  intros (L & R).
  assert (E : forall i, i < mzd_nrows M -> mrow (mzd_build M g) i = mk_row (mrow M i) (mzd_ncols M) (g i)).
  { intros i Hi. unfold mrow at 1, mzd_build. cbn [mzd_rows].
    set (h := fun i => mk_row (mrow M i) (mzd_ncols M) (g i)). rewrite (nth_indep _ [] (h 0)) by (rewrite map_length, seq_length; lia).
    rewrite (map_nth h), seq_nth by lia. reflexivity. }
  assert (Hb : forall i k, i < mzd_nrows M -> k < 64 * width (mzd_ncols M) -> mbit (mzd_build M g) i k = if k <? mzd_ncols M then g i k else mbit M i k).
  { intros i k Hi Hk. unfold mbit. rewrite E by easy. apply mk_row_bit. now rewrite (proj1 (R i Hi)). }
  split; [|split; [easy|split; [easy|split]]].
  - split; [unfold mzd_build; cbn [mzd_rows mzd_nrows]; now rewrite map_length, seq_length|].
    intros i Hi. cbn [mzd_build mzd_nrows mzd_ncols] in *. rewrite E by easy. rewrite mk_row_length. split; [apply R; easy|apply mk_row_words].
  - intros i k Hi Hk. pose proof (width_ge (mzd_ncols M)). rewrite Hb by lia. now replace (k <? mzd_ncols M) with true by lia.
  - intros i k Hi Hk. rewrite Hb by lia. now replace (k <? mzd_ncols M) with false by lia.
Qed.
Lemma wf_init m n : wf_mzd (mzd_init m n).
Proof.
  split; [apply repeat_length|]. intros i Hi. cbn [mzd_init mzd_nrows mzd_ncols] in *. unfold mrow, mzd_init. cbn [mzd_rows].
  rewrite (nth_indep _ [] (repeat 0%N (width n))) by (rewrite repeat_length; lia). rewrite nth_repeat. split; [apply repeat_length|]. apply Forall_forall. intros x Hx. apply repeat_spec in Hx. subst x. reflexivity.
Qed.
Lemma init_bit m n i k : mbit (mzd_init m n) i k = false.
Proof.
  unfold mbit, mrow, mzd_init. cbn [mzd_rows].
  assert (E : rbit (nth i (repeat (repeat 0%N (width n)) m) []) k = rbit (repeat 0%N (width n)) k \/ rbit (nth i (repeat (repeat 0%N (width n)) m) []) k = rbit [] k).
  { destruct (Nat.lt_ge_cases i m); [left; now rewrite (nth_indep _ [] (repeat 0%N (width n))), nth_repeat by (rewrite repeat_length; lia)|right; now rewrite nth_overflow by (rewrite repeat_length; lia)]. }
  assert (Z : forall l : list N, (forall x, In x l -> x = 0%N) -> rbit l k = false).
  { intros l Hl. unfold rbit. destruct (Nat.lt_ge_cases (k / 64) (length l)).
    - rewrite (Hl (nth (k / 64) l 0%N)) by now apply nth_In. apply N.bits_0.
    - rewrite nth_overflow by lia. apply N.bits_0. }
  destruct E as [-> | ->]; apply Z; [|easy]. intros x Hx. now apply repeat_spec in Hx.
Qed.

(** ** the contracts as [mset] *)
Lemma add_ok C A B : wf_mzd C -> mzd_nrows A = mzd_nrows C -> mzd_ncols A = mzd_ncols C -> mzd_nrows B = mzd_nrows C -> mzd_ncols B = mzd_ncols C ->
  wp (mzd_add C A B) (fun C' => mset C C' (fun i k => xorb (mbit A i k) (mbit B i k))).
Proof.
  intros HC H1 H2 H3 H4. unfold mzd_add. rewrite H1, H2, H3, H4, !Nat.eqb_refl. cbn [check bind andb wp]. now apply mset_build.
Qed.
Lemma copy_ok T P : wf_mzd T -> mzd_nrows P = mzd_nrows T -> mzd_ncols P = mzd_ncols T ->
  wp (mzd_copy T P) (fun T' => mset T T' (mbit P)).
Proof.
  intros HT H1 H2. unfold mzd_copy. rewrite H1, H2, !Nat.leb_refl. cbn [check bind andb wp].
  eapply mset_ext; [now apply mset_build|]. cbv beta. intros i k Hi Hk. now replace ((i <? mzd_nrows T) && (k <? mzd_ncols T)) with true by lia.
Qed.
Lemma row_swap_ok M a b : wf_mzd M -> a < mzd_nrows M -> b < mzd_nrows M ->
  wp (mzd_row_swap M a b) (fun M' => mset M M' (fun i k => if i =? a then mbit M b k else if i =? b then mbit M a k else mbit M i k)).
Proof.
  intros HM Ha Hb. unfold mzd_row_swap. replace ((a <? mzd_nrows M) && (b <? mzd_nrows M)) with true by lia. cbn [guard bind wp]. now apply mset_build.
Qed.
Lemma copy_row_ok B i A j : wf_mzd B -> i < mzd_nrows B -> j < mzd_nrows A -> mzd_ncols A <= mzd_ncols B ->
  wp (mzd_copy_row B i A j) (fun B' => mset B B' (fun r k => if (r =? i) && (k <? mzd_ncols A) then mbit A j k else mbit B r k)).
Proof.
  intros HB H1 H2 H3. unfold mzd_copy_row. replace ((i <? mzd_nrows B) && (j <? mzd_nrows A) && (mzd_ncols A <=? mzd_ncols B)) with true by lia.
  cbn [guard bind wp]. now apply mset_build.
Qed.
Lemma col_swap_in_rows_ok M a b s t : wf_mzd M -> a < mzd_ncols M -> b < mzd_ncols M -> t <= mzd_nrows M ->
  wp (mzd_col_swap_in_rows M a b s t) (fun M' => mset M M' (fun i k =>
        if (s <=? i) && (i <? t) then (if k =? a then mbit M i b else if k =? b then mbit M i a else mbit M i k) else mbit M i k)).
Proof.
  intros HM Ha Hb Ht. unfold mzd_col_swap_in_rows. replace ((a <? mzd_ncols M) && (b <? mzd_ncols M) && (t <=? mzd_nrows M)) with true by lia.
  cbn [guard bind wp]. now apply mset_build.
Qed.
Lemma col_swap_ok M a b : wf_mzd M -> a < mzd_ncols M -> b < mzd_ncols M ->
  wp (mzd_col_swap M a b) (fun M' => mset M M' (fun i k => if k =? a then mbit M i b else if k =? b then mbit M i a else mbit M i k)).
Proof.
  intros HM Ha Hb. unfold mzd_col_swap. eapply wp_mono; [now apply col_swap_in_rows_ok|]. cbv beta. intros M' H. eapply mset_ext; [exact H|].
  cbv beta. intros i k Hi Hk. now replace ((0 <=? i) && (i <? mzd_nrows M)) with true by lia.
Qed.
Lemma row_add_ok M s d : wf_mzd M -> s < mzd_nrows M -> d < mzd_nrows M ->
  wp (mzd_row_add M s d) (fun M' => mset M M' (fun i k => if i =? d then xorb (mbit M d k) (mbit M s k) else mbit M i k)).
Proof.
  intros HM Ha Hb. unfold mzd_row_add. replace ((s <? mzd_nrows M) && (d <? mzd_nrows M)) with true by lia. cbn [guard bind wp]. now apply mset_build.
Qed.
Lemma concat_ok C A B : wf_mzd C -> mzd_nrows A = mzd_nrows B -> mzd_nrows C = mzd_nrows A -> mzd_ncols C = mzd_ncols A + mzd_ncols B ->
  wp (mzd_concat C A B) (fun C' => mset C C' (fun i k => if k <? mzd_ncols A then mbit A i k else mbit B i (k - mzd_ncols A))).
Proof.
  intros HC H1 H2 H3. unfold mzd_concat. rewrite <- H1, H2, H3, !Nat.eqb_refl. cbn [check bind andb wp]. now apply mset_build.
Qed.
Lemma stack_ok C A B : wf_mzd C -> mzd_ncols A = mzd_ncols B -> mzd_ncols C = mzd_ncols A -> mzd_nrows C = mzd_nrows A + mzd_nrows B ->
  wp (mzd_stack C A B) (fun C' => mset C C' (fun i k => if i <? mzd_nrows A then mbit A i k else mbit B (i - mzd_nrows A) k)).
Proof.
  intros HC H1 H2 H3. unfold mzd_stack. rewrite <- H1, H2, H3, !Nat.eqb_refl. cbn [check bind andb wp]. now apply mset_build.
Qed.
Lemma submatrix_ok S M lr lc hr hc : wf_mzd S -> lr <= hr <= mzd_nrows M -> lc <= hc <= mzd_ncols M -> mzd_nrows S = hr - lr -> mzd_ncols S = hc - lc ->
  wp (mzd_submatrix S M lr lc hr hc) (fun S' => mset S S' (fun i k => mbit M (lr + i) (lc + k))).
Proof.
  intros HS H1 H2 H3 H4. unfold mzd_submatrix.
  replace ((lr <=? hr) && (lc <=? hc) && (hr <=? mzd_nrows M) && (hc <=? mzd_ncols M)) with true by lia.
  rewrite H3, H4, !Nat.leb_refl. cbn [guard check bind andb wp].
  eapply mset_ext; [now apply mset_build|]. cbv beta. intros i k Hi Hk.
  replace ((i <? hr - lr) && (k <? hc - lc)) with true by (rewrite H3 in Hi; rewrite H4 in Hk; lia). reflexivity.
Qed.
Lemma set_ui_ok M v : wf_mzd M -> mset M (mzd_set_ui M v) (fun i k => N.odd v && (i =? k)).
Proof. apply mset_build. Qed.
Lemma is_zero_ok M : mzd_is_zero M = true <-> forall i k, i < mzd_nrows M -> k < mzd_ncols M -> mbit M i k = false.
Proof.
  unfold mzd_is_zero. rewrite forallb_forall. split.
  - intros H i k Hi Hk. specialize (H i ltac:(apply in_seq; lia)). rewrite forallb_forall in H. specialize (H k ltac:(apply in_seq; lia)).
    now apply negb_true_iff.
  - intros H i Hi. apply in_seq in Hi. apply forallb_forall. intros k Hk. apply in_seq in Hk. apply negb_true_iff. apply H; lia.
Qed.
Lemma build_words_bit M g : wf_mzd M -> wf_mzd (mzd_build_words M g) /\
  (forall i k, i < mzd_nrows M -> k < 64 * width (mzd_ncols M) -> mbit (mzd_build_words M g) i k = g i k).
Proof.
  intros (L & R).
  assert (E : forall i, i < mzd_nrows M -> mrow (mzd_build_words M g) i = mk_row (mrow M i) (64 * width (mzd_ncols M)) (g i)).
  { intros i Hi. unfold mrow at 1, mzd_build_words. cbn [mzd_rows].
    set (h := fun i => mk_row (mrow M i) (64 * width (mzd_ncols M)) (g i)). rewrite (nth_indep _ [] (h 0)) by (rewrite map_length, seq_length; lia).
    rewrite (map_nth h), seq_nth by lia. reflexivity. }
  split.
  - split; [unfold mzd_build_words; cbn [mzd_rows mzd_nrows]; now rewrite map_length, seq_length|].
    intros i Hi. cbn [mzd_build_words mzd_nrows mzd_ncols] in *. rewrite E by easy. rewrite mk_row_length. split; [apply R; easy|apply mk_row_words].
  - intros i k Hi Hk. unfold mbit at 1. rewrite E by easy. rewrite mk_row_bit by now rewrite (proj1 (R i Hi)). now replace (k <? 64 * width (mzd_ncols M)) with true by lia.
Qed.
Lemma mul_ok C A B : wf_mzd C -> mzd_ncols A = mzd_nrows B -> mzd_nrows C = mzd_nrows A -> mzd_ncols C = mzd_ncols B ->
  wp (mzd_mul C A B) (fun C' => mgot C C' (bmul (mzd_ncols A) (mbit A) (mbit B))).
Proof.
  intros HC H1 H2 H3. unfold mzd_mul. rewrite <- H1, H2, H3, !Nat.eqb_refl. cbn [check bind andb wp].
  edestruct build_words_bit as (W & K); [exact HC|]. split; [exact W|]. split; [reflexivity|]. split; [reflexivity|].
  intros i k Hi Hk. pose proof (width_ge (mzd_ncols C)). rewrite K by lia. now replace (k <? mzd_ncols B) with true by lia.
Qed.
Lemma addmul_ok C A B : wf_mzd C -> mzd_ncols A = mzd_nrows B -> mzd_nrows C = mzd_nrows A -> mzd_ncols C = mzd_ncols B ->
  wp (mzd_addmul C A B) (fun C' => mgot C C' (fun i k => xorb (mbit C i k) (bmul (mzd_ncols A) (mbit A) (mbit B) i k))).
Proof.
  intros HC H1 H2 H3. unfold mzd_addmul. rewrite <- H1, H2, H3, !Nat.eqb_refl. cbn [check bind andb wp].
  edestruct build_words_bit as (W & K); [exact HC|]. split; [exact W|]. split; [reflexivity|]. split; [reflexivity|].
  intros i k Hi Hk. pose proof (width_ge (mzd_ncols C)). now rewrite K by lia.
Qed.
(** the padding of B is zero *)
Definition clean (B : mzd) : Prop := forall l k, l < mzd_nrows B -> mzd_ncols B <= k < 64 * width (mzd_ncols B) -> mbit B l k = false.
Lemma clean_init m n : clean (mzd_init m n).
Proof. intros l k _ _. apply init_bit. Qed.
Lemma clean_mset A B g : mset A B g -> clean A -> clean B.
Proof. intros (_ & R & C & _ & F) HA l k Hl Hk. rewrite R in Hl. rewrite C in Hk. rewrite F by assumption. now apply HA. Qed.
Lemma addmul_clean C A B : wf_mzd C -> clean B -> mzd_ncols A = mzd_nrows B -> mzd_nrows C = mzd_nrows A -> mzd_ncols C = mzd_ncols B ->
  wp (mzd_addmul C A B) (fun C' => mset C C' (fun i k => xorb (mbit C i k) (bmul (mzd_ncols A) (mbit A) (mbit B) i k))).
Proof.
  intros HC HB H1 H2 H3. pose proof (addmul_ok C A B HC H1 H2 H3) as K0. unfold mzd_addmul in K0 |- *. rewrite <- H1, H2, H3, !Nat.eqb_refl in K0 |- *. cbn [check bind andb wp] in K0 |- *.
  destruct K0 as (W & R & Cc & E). split; [exact W|]. split; [exact R|]. split; [exact Cc|]. split; [exact E|]. intros i k Hi Hk. 
  edestruct build_words_bit as (_ & K); [exact HC|]. rewrite K by lia. cbv beta. unfold bmul.
  replace (bxsum _ _) with false; [apply xorb_false_r|]. symmetry.
  assert (Z : forall n g, (forall l, l < n -> g l = false) -> bxsum n g = false).
  { induction n as [|n IH]; intros g Hg; [reflexivity|]. cbn [bxsum]. rewrite IH by (intros; apply Hg; lia). now rewrite Hg by lia. }
  apply Z. intros l Hl. rewrite HB; [apply andb_false_r|lia|now rewrite <- H3].
Qed.
Lemma mul_clean C A B : wf_mzd C -> clean B -> mzd_ncols A = mzd_nrows B -> mzd_nrows C = mzd_nrows A -> mzd_ncols C = mzd_ncols B ->
  wp (mzd_mul C A B) (fun C' => mset C C' (bmul (mzd_ncols A) (mbit A) (mbit B))).
Proof.
  intros HC HB H1 H2 H3. pose proof (mul_ok C A B HC H1 H2 H3) as K0. unfold mzd_mul in K0 |- *. rewrite <- H1, H2, H3, !Nat.eqb_refl in K0 |- *. cbn [check bind andb wp] in K0 |- *.
  destruct K0 as (W & R & Cc & E). split; [exact W|]. split; [exact R|]. split; [exact Cc|]. split; [exact E|]. intros i k Hi Hk.
  edestruct build_words_bit as (_ & K); [exact HC|]. rewrite K by lia. cbv beta. replace (k <? mzd_ncols B) with false by lia. unfold bmul.
  replace (bxsum _ _) with false; [apply xorb_false_r|]. symmetry.
  assert (Z : forall n g, (forall l, l < n -> g l = false) -> bxsum n g = false).
  { induction n as [|n IH]; intros g Hg; [reflexivity|]. cbn [bxsum]. rewrite IH by (intros; apply Hg; lia). now rewrite Hg by lia. }
  apply Z. intros l Hl. rewrite HB; [apply andb_false_r|lia|now rewrite <- H3].
Qed.
Lemma mset_got M M' g : mset M M' g -> mgot M M' g.
Proof. intros (H1 & H2 & H3 & H4 & _). split; [exact H1|]. split; [exact H2|]. split; [exact H3|exact H4]. Qed.
Lemma mgot_wf M M' g : mgot M M' g -> wf_mzd M'. Proof. intros H. apply H. Qed.
Lemma mgot_nr M M' g : mgot M M' g -> mzd_nrows M' = mzd_nrows M. Proof. intros H. apply H. Qed.
Lemma mgot_nc M M' g : mgot M M' g -> mzd_ncols M' = mzd_ncols M. Proof. intros H. apply H. Qed.
Lemma mgot_bit M M' g i k : mgot M M' g -> i < mzd_nrows M -> k < mzd_ncols M -> mbit M' i k = g i k.
Proof. intros H. apply H. Qed.
Lemma mgot_ext M M' g h : mgot M M' g -> (forall i k, i < mzd_nrows M -> k < mzd_ncols M -> g i k = h i k) -> mgot M M' h.
Proof. intros (H1 & H2 & H3 & H4) E. split; [exact H1|]. repeat split; auto. intros i k Hi Hk. rewrite H4 by easy. now apply E. Qed.

(** ** single words *)
Lemma upd_row_set M x row' g : wf_mzd M -> x < mzd_nrows M -> length row' = width (mzd_ncols M) -> Forall (fun v => (v < 2 ^ 64)%N) row' ->
  (forall k, k < mzd_ncols M -> rbit row' k = g x k) ->
  (forall k, mzd_ncols M <= k < 64 * width (mzd_ncols M) -> rbit row' k = mbit M x k) ->
  (forall i k, i < mzd_nrows M -> i <> x -> k < mzd_ncols M -> g i k = mbit M i k) ->
  mset M (Mzd (mzd_nrows M) (mzd_ncols M) (upd (mzd_rows M) x row')) g.
Proof.
  intros (L & R) Hx H1 H2 H3 H4 H5.
  assert (E : forall i, mrow (Mzd (mzd_nrows M) (mzd_ncols M) (upd (mzd_rows M) x row')) i = if x =? i then row' else mrow M i).
  { intros i. unfold mrow. cbn [mzd_rows]. apply nth_upd. lia. }
  split; [|split; [easy|split; [easy|split]]].
  - split; [cbn [mzd_rows mzd_nrows]; now rewrite upd_length|]. intros i Hi. cbn [mzd_ncols mzd_nrows] in *. rewrite E.
    destruct (x =? i); [easy|now apply R].
  - intros i k Hi Hk. unfold mbit. rewrite E. destruct (Nat.eqb_spec x i) as [<-|Hne]; [now apply H3|]. symmetry. now apply H5; auto.
  - intros i k Hi Hk. unfold mbit. rewrite E. destruct (Nat.eqb_spec x i) as [<-|Hne]; [now apply H4|reflexivity].
Qed.
Lemma wf_lget_row M i : wf_mzd M -> i < mzd_nrows M -> lget (mzd_rows M) i = Ok (mrow M i).
Proof. intros (L & _) Hi. unfold mrow. apply lget_ok. lia. Qed.
Lemma rbit_upd r j v k : j < length r -> rbit (upd r j v) k = if k / 64 =? j then N.testbit v (N.of_nat (k mod 64)) else rbit r k.
Proof. intros Hj. unfold rbit. rewrite nth_upd by easy. rewrite Nat.eqb_sym. now destruct (_ =? _). Qed.
Lemma wf_word M i j : wf_mzd M -> i < mzd_nrows M -> (nth j (mrow M i) 0 < 2 ^ 64)%N.
Proof.
  intros (_ & R) Hi. destruct (R i Hi) as [R1 R2]. destruct (Nat.lt_ge_cases j (length (mrow M i))) as [H|H].
  - rewrite Forall_forall in R2. apply R2. now apply nth_In.
  - now rewrite nth_overflow by easy.
Qed.
Lemma word_index n k : k < n -> k / 64 < width n.
Proof. intros H. apply Nat.div_lt_upper_bound; [lia|]. pose proof (width_ge n). lia. Qed.

Lemma xor_bit_ok M x y (b : bool) : wf_mzd M -> x < mzd_nrows M -> y < mzd_ncols M ->
  wp (mzd_xor_bits_ M x y 1 (N.b2n b)) (fun M' => mset M M' (fun i k => if (i =? x) && (k =? y) then xorb (mbit M i k) b else mbit M i k)).
Proof.
  intros HM Hx Hy. pose proof HM as (L & R). destruct (R x Hx) as [R1 R2]. unfold mzd_xor_bits_. rewrite wf_lget_row by easy. cbn [bind].
  pose proof (word_index _ _ Hy) as Hj. rewrite (lget_ok _ _ 0%N) by lia. cbn [bind]. rewrite lset_ok by lia. cbn [bind wp].
  pose proof (Nat.mod_upper_bound y 64 ltac:(lia)) as Hm.
  assert (Eb : forall k, rbit (upd (mrow M x) (y / 64) (N.lxor (nth (y / 64) (mrow M x) 0%N) (wshl (N.b2n b) (y mod 64)))) k =
     if k =? y then xorb (mbit M x k) b else mbit M x k).
  { intros k. rewrite rbit_upd by lia. pose proof (Nat.mod_upper_bound k 64 ltac:(lia)) as Hk. pose proof (Nat.div_mod k 64 ltac:(lia)) as Dk. pose proof (Nat.div_mod y 64 ltac:(lia)) as Dy.
    destruct (Nat.eqb_spec (k / 64) (y / 64)) as [E|E].
    - rewrite N.lxor_spec. unfold mbit, rbit. rewrite E. rewrite wshl_spec. replace (N.of_nat (k mod 64) <? 64)%N with true by lia. rewrite andb_true_r.
      destruct (Nat.eqb_spec k y) as [->|Hne].
      + f_equal. replace (N.of_nat (y mod 64) <=? N.of_nat (y mod 64))%N with true by lia. replace (N.of_nat (y mod 64) - N.of_nat (y mod 64))%N with 0%N by lia. now destruct b.
      + assert (k mod 64 <> y mod 64) by (intros EE; apply Hne; lia).
        destruct (N.leb_spec (N.of_nat (y mod 64)) (N.of_nat (k mod 64))); cbn [andb]; [|apply xorb_false_r].
        rewrite (N.bits_above_log2 (N.b2n b)); [apply xorb_false_r|]. destruct b; cbn [N.b2n N.log2]; lia.
    - replace (k =? y) with false; [reflexivity|]. symmetry. apply Nat.eqb_neq. intros ->. now apply E. }
  apply upd_row_set; auto.
  - now rewrite upd_length.
  - apply Forall_upd; [easy|]. apply lxor_lt_pow2; [now apply wf_word|]. apply wshl_lt.
  - intros k Hk. rewrite Eb, Nat.eqb_refl. reflexivity.
  - intros k Hk. rewrite Eb. now replace (k =? y) with false by lia.
  - intros i k Hi Hne Hk. now replace (i =? x) with false by lia.
Qed.
Lemma write_bit_ok M x y b : wf_mzd M -> x < mzd_nrows M -> y < mzd_ncols M ->
  wp (mzd_write_bit M x y b) (fun M' => mset M M' (fun i k => if (i =? x) && (k =? y) then b else mbit M i k)).
Proof.
  intros HM Hx Hy. unfold mzd_write_bit. replace ((x <? mzd_nrows M) && (y <? mzd_ncols M)) with true by lia. cbn [guard bind wp]. now apply mset_build.
Qed.
Lemma read_bit_ok M x y : x < mzd_nrows M -> y < mzd_ncols M -> mzd_read_bit M x y = Ok (mbit M x y).
Proof. intros Hx Hy. unfold mzd_read_bit. now replace ((x <? mzd_nrows M) && (y <? mzd_ncols M)) with true by lia. Qed.

(** ** windows *)
Lemma rbit_window r o wd k : k < 64 * wd -> rbit (firstn wd (skipn o r)) k = rbit r (64 * o + k).
Proof.
  intros Hk. unfold rbit. assert (k / 64 < wd) by (apply Nat.div_lt_upper_bound; lia). rewrite nth_firstn_skipn by easy.
  rewrite (Nat.mul_comm 64 o), (Nat.add_comm (o * 64) k), Nat.div_add, Nat.mod_add by lia. now rewrite Nat.add_comm.
Qed.
Lemma rbit_splice r o new k : o + length new <= length r ->
  rbit (splice r o new) k = if (64 * o <=? k) && (k <? 64 * (o + length new)) then rbit new (k - 64 * o) else rbit r k.
Proof.
  intros H. unfold rbit. rewrite nth_splice by easy. pose proof (Nat.div_mod k 64 ltac:(lia)). pose proof (Nat.mod_upper_bound k 64 ltac:(lia)).
  destruct (Nat.leb_spec (64 * o) k) as [C1|C1]; cbn [andb].
  - replace (o <=? k / 64) with true by lia. cbn [andb].
    destruct (Nat.ltb_spec k (64 * (o + length new))) as [C2|C2].
    + replace (k / 64 <? o + length new) with true by lia.
      assert (Ek : k = (k - 64 * o) + o * 64) by lia.
      assert (E1 : k / 64 = (k - 64 * o) / 64 + o) by (rewrite Ek at 1; rewrite Nat.div_add; lia).
      assert (E2 : k mod 64 = (k - 64 * o) mod 64) by (rewrite Ek at 1; rewrite Nat.mod_add; lia).
      rewrite E2, E1. f_equal. f_equal. lia.
    + replace (k / 64 <? o + length new) with false by lia. reflexivity.
  - replace (o <=? k / 64) with false by lia. reflexivity.
Qed.
Lemma mod64 lc : lc mod 64 = 0 -> lc = 64 * (lc / 64).
Proof. intros H. pose proof (Nat.div_mod lc 64 ltac:(lia)). lia. Qed.
Lemma window_fits64 lc hc n : lc mod 64 = 0 -> lc <= hc <= n -> lc / 64 + width (hc - lc) <= width n.
Proof.
  intros H Hc. apply mod64 in H. pose proof (width_lt (hc - lc)). pose proof (width_ge n).
  assert (64 * (lc / 64 + width (hc - lc)) < 64 * (width n + 1)) by lia. lia.
Qed.
Lemma window_ok M lr lc hr hc : wf_mzd M -> lr <= hr <= mzd_nrows M -> lc <= hc <= mzd_ncols M -> lc mod 64 = 0 ->
  wp (mzd_window M lr lc hr hc) (fun W => wf_mzd W /\ mzd_nrows W = hr - lr /\ mzd_ncols W = hc - lc /\
    forall i k, i < hr - lr -> k < 64 * width (hc - lc) -> mbit W i k = mbit M (lr + i) (lc + k)).
Proof.
  intros (L & R) Hr Hc Ha. pose proof (mod64 _ Ha) as E. pose proof (window_fits64 _ _ _ Ha Hc) as Fit. unfold mzd_window.
  replace ((lr <=? hr) && (lc <=? hc) && (hr <=? mzd_nrows M) && (hc <=? mzd_ncols M) && (lc mod 64 =? 0)) with true by lia. cbn [guard bind wp].
  set (W := Mzd _ _ _).
  assert (Hrow : forall i, i < hr - lr -> mrow W i = firstn (width (hc - lc)) (skipn (lc / 64) (mrow M (lr + i)))).
  { intros i Hi. unfold mrow at 1. cbn [W mzd_rows]. set (g := fun r : list N => _).
    rewrite (nth_indep _ [] (g [])) by (rewrite map_length, firstn_skipn_length; lia).
    rewrite (map_nth g). unfold g. now rewrite nth_firstn_skipn. }
  split; [|split; [easy|split; [easy|]]].
  - split; [cbn [W mzd_rows mzd_nrows]; rewrite map_length, firstn_skipn_length; lia|]. cbn [W mzd_nrows mzd_ncols]. intros i Hi. rewrite Hrow by easy.
    destruct (R (lr + i) ltac:(lia)) as [R1 R2]. split; [apply firstn_skipn_length; lia|].
    apply Forall_forall. intros x Hx. rewrite Forall_forall in R2. apply R2.
    rewrite <- (firstn_skipn (lc / 64) (mrow M (lr + i))). apply in_or_app. right.
    rewrite <- (firstn_skipn (width (hc - lc)) (skipn _ _)). apply in_or_app. now left.
  - intros i k Hi Hk. unfold mbit. rewrite Hrow by easy. rewrite rbit_window by easy. now rewrite <- E.
Qed.
Lemma unwindow_ok M lr lc hr hc W W' g : wf_mzd M -> lr <= hr <= mzd_nrows M -> lc <= hc <= mzd_ncols M -> lc mod 64 = 0 ->
  mzd_window M lr lc hr hc = Ok W -> mset W W' g ->
  mset M (mzd_unwindow M lr lc W') (fun i k => if (lr <=? i) && (i <? hr) && (lc <=? k) && (k <? hc) then g (i - lr) (k - lc) else mbit M i k).
Proof.
  intros HM Hr Hc Ha EW B. pose proof (window_ok M lr lc hr hc HM Hr Hc Ha) as HW. rewrite EW in HW. cbn [wp] in HW. destruct HW as (HW & N1 & N2 & HE).
  pose proof (mod64 _ Ha) as E. pose proof (window_fits64 _ _ _ Ha Hc) as Fit. destruct HM as (L & R). destruct B as ((L' & R') & B1 & B2 & B3 & B4).
  pose proof (width_ge (hc - lc)) as Wg. rewrite B1, N1, B2, N2 in R'. rewrite N1, N2 in B3, B4. rewrite N1 in B1.
  assert (Hrow : forall i, i < mzd_nrows M -> mrow (mzd_unwindow M lr lc W') i =
     if (lr <=? i) && (i <? hr) then splice (mrow M i) (lc / 64) (mrow W' (i - lr)) else mrow M i).
  { intros i Hi. unfold mrow at 1, mzd_unwindow. cbn [mzd_rows]. set (h := fun i => _). rewrite (nth_indep _ [] (h 0)) by (rewrite map_length, seq_length; lia).
    rewrite (map_nth h), seq_nth by lia. cbn [Nat.add]. unfold h. rewrite B1. now replace (i <? lr + (hr - lr)) with (i <? hr) by lia. }
  assert (Hb : forall i k, i < mzd_nrows M -> k < 64 * width (mzd_ncols M) -> mbit (mzd_unwindow M lr lc W') i k =
     if (lr <=? i) && (i <? hr) && (lc <=? k) && (k <? hc) then g (i - lr) (k - lc) else mbit M i k).
  { intros i k Hi Hk. unfold mbit. rewrite Hrow by easy. destruct ((lr <=? i) && (i <? hr)) eqn:Ei; cbn [andb]; [|easy].
    destruct (R' (i - lr) ltac:(lia)) as [R1' _]. destruct (R i Hi) as [R1 _]. rewrite rbit_splice by lia. rewrite R1', <- E.
    replace (64 * (lc / 64 + width (hc - lc))) with (lc + 64 * width (hc - lc)) by lia.
    destruct (Nat.leb_spec lc k) as [C1|C1]; cbn [andb]; [|easy].
    destruct (Nat.ltb_spec k hc) as [C2|C2].
    - replace (k <? lc + 64 * width (hc - lc)) with true by lia. apply B3; lia.
    - destruct (Nat.ltb_spec k (lc + 64 * width (hc - lc))) as [C3|C3]; [|easy].
      change (mbit W' (i - lr) (k - lc) = rbit (mrow M i) k). rewrite B4 by lia. rewrite HE by lia. unfold mbit. f_equal; [f_equal|]; lia. }
  split; [|split; [easy|split; [easy|split]]].
  - split; [unfold mzd_unwindow; cbn [mzd_rows mzd_nrows]; now rewrite map_length, seq_length|]. cbn [mzd_unwindow mzd_nrows mzd_ncols]. intros i Hi. rewrite Hrow by easy.
    destruct (R i Hi) as [R1 R2]. destruct ((lr <=? i) && (i <? hr)) eqn:Ei; [|easy]. destruct (R' (i - lr) ltac:(lia)) as [R1' R2'].
    split; [rewrite splice_length; lia|]. unfold splice. rewrite !Forall_app. split; [|split]; [|easy|].
    + rewrite <- (firstn_skipn (lc / 64) (mrow M i)) in R2. now apply Forall_app in R2.
    + rewrite <- (firstn_skipn (lc / 64 + length (mrow W' (i - lr))) (mrow M i)) in R2. now apply Forall_app in R2.
  - intros i k Hi Hk. pose proof (width_ge (mzd_ncols M)). apply Hb; lia.
  - intros i k Hi Hk. rewrite Hb by lia. replace (k <? hc) with false by lia. now rewrite andb_false_r.
Qed.
