(** Lanes of words, elements of rows, and the row operations of mzed.h / mzed.c. *)
From Coq Require Import NArith Lia List Bool Arith.
From Coq Require Import ZifyBool ZifyNat ZifyN.
From Verif Require Import Base Spec PolyFacts Gf2xModel Gf2xProofs Gf2eModel Gf2eProofs MzdModel MzedModel MzedSpec.
Import ListNotations.
Local Open Scope nat_scope.

Definition good_w (w : nat) : Prop := w = 2 \/ w = 4 \/ w = 8 \/ w = 16.

Lemma per_mul w : good_w w -> w * per w = 64.
Proof. now intros [-> | [-> | [-> | ->]]]. Qed.
Lemma per_pos w : good_w w -> 0 < per w.
Proof. intros [-> | [-> | [-> | ->]]]; cbn; lia. Qed.
Lemma good_w_pos w : good_w w -> 0 < w <= 16.
Proof. intros [-> | [-> | [-> | ->]]]; lia. Qed.

(** ** lanes *)
Lemma lane_0 w k : lane w 0 k = 0%N.
Proof. unfold lane. now rewrite N.shiftr_0_l. Qed.
Lemma lane_lxor w x y k : lane w (N.lxor x y) k = N.lxor (lane w x k) (lane w y k).
Proof.
  apply N.bits_inj. intro i. rewrite N.lxor_spec, !lane_spec, N.lxor_spec.
  now destruct (i <? N.of_nat w)%N; cbn.
Qed.
Lemma lane_lor w x y k : lane w (N.lor x y) k = N.lor (lane w x k) (lane w y k).
Proof.
  apply N.bits_inj. intro i. rewrite N.lor_spec, !lane_spec, N.lor_spec.
  now destruct (i <? N.of_nat w)%N; cbn.
Qed.
Lemma lane_land_mask w x m k b :
  (forall i, (i < N.of_nat w)%N -> N.testbit m (i + N.of_nat (w * k)) = b) ->
  lane w (N.land x m) k = if b then lane w x k else 0%N.
Proof.
  intros H. apply N.bits_inj. intro i. rewrite lane_spec, N.land_spec.
  destruct (N.ltb_spec i (N.of_nat w)) as [Hi|Hi].
  - rewrite H by easy. destruct b; cbn [andb]; [|now rewrite andb_false_r, N.bits_0].
    rewrite lane_spec. replace (i <? N.of_nat w)%N with true by lia. cbn. apply andb_true_r.
  - destruct b; [rewrite lane_spec; replace (i <? N.of_nat w)%N with false by lia; easy|now rewrite N.bits_0].
Qed.
Lemma lane_wshl w v j k n :
  good_w w -> (v < 2 ^ N.of_nat w)%N -> j < per w -> k < per w -> n = w * j ->
  lane w (wshl v n) k = if k =? j then v else 0%N.
Proof.
  intros Hw Hv Hj Hk ->. pose proof (per_mul w Hw) as P. pose proof (good_w_pos w Hw) as W.
  apply N.bits_inj. intro i. rewrite lane_spec, wshl_spec.
  rewrite lt_pow2_bits in Hv.
  destruct (N.ltb_spec i (N.of_nat w)) as [Hi|Hi]; cbn [andb].
  - destruct (Nat.eqb_spec k j) as [->|Hne].
    + replace (i + N.of_nat (w * j)%nat <? 64)%N with true by nia.
      replace (N.of_nat (w * j)%nat <=? i + N.of_nat (w * j)%nat)%N with true by lia. cbn. f_equal. lia.
    + rewrite N.bits_0. destruct (Nat.lt_ge_cases k j) as [L|L].
      * replace (N.of_nat (w * j)%nat <=? i + N.of_nat (w * k)%nat)%N with false by nia.
        now rewrite ?andb_false_r.
      * rewrite Hv by nia. now rewrite ?andb_false_r.
  - destruct (k =? j); [|now rewrite N.bits_0]. symmetry. apply Hv. lia.
Qed.

(** ** masks *)
Lemma testbit_right_bitmask n k : n <= 64 ->
  N.testbit (right_bitmask n) k = (N.of_nat (64 - n)%nat <=? k)%N && (k <? 64)%N.
Proof.
  intros Hn. unfold right_bitmask. rewrite wshl_spec, testbit_ffff. lia.
Qed.
Lemma testbit_left_bitmask n k : n < 64 ->
  N.testbit (left_bitmask n) k = (k <? N.of_nat (if n =? 0 then 64 else n)%nat)%N.
Proof.
  intros Hn. unfold left_bitmask. rewrite wshr_spec, testbit_ffff.
  destruct (Nat.eqb_spec n 0) as [->|].
  - change ((64 - 0) mod 64) with 0. lia.
  - rewrite Nat.mod_small by lia. lia.
Qed.
Lemma testbit_wnot x k : N.testbit (wnot x) k = (k <? 64)%N && negb (N.testbit x k) || (64 <=? k)%N && N.testbit x k.
Proof. unfold wnot. rewrite N.lxor_spec, testbit_ffff. destruct (N.ltb_spec k 64), (N.testbit x k); cbn; lia. Qed.
Lemma wnot_lt x : (x < 2 ^ 64)%N -> (wnot x < 2 ^ 64)%N.
Proof. intros H. unfold wnot. apply lxor_lt_pow2; [easy|now vm_compute]. Qed.
Lemma land_lt_pow2 a b n : (a < 2 ^ n)%N -> (N.land a b < 2 ^ n)%N.
Proof. rewrite !lt_pow2_bits. intros H k Hk. rewrite N.land_spec, H by easy. reflexivity. Qed.
Lemma lor_lt_pow2 a b n : (a < 2 ^ n)%N -> (b < 2 ^ n)%N -> (N.lor a b < 2 ^ n)%N.
Proof. rewrite !lt_pow2_bits. intros H1 H2 k Hk. rewrite N.lor_spec, H1, H2 by easy. reflexivity. Qed.

(** masks that are constant on each lane *)
Definition lmask (w : nat) (m : N) (p : nat -> bool) : Prop :=
  forall k i, k < per w -> (i < N.of_nat w)%N -> N.testbit m (i + N.of_nat (w * k)) = p k.
Lemma lane_lmask w x m p k : lmask w m p -> k < per w -> lane w (N.land x m) k = if p k then lane w x k else 0%N.
Proof. intros H Hk. apply lane_land_mask. intros i Hi. now apply H. Qed.
Lemma lmask_land w m p m' p' : lmask w m p -> lmask w m' p' -> lmask w (N.land m m') (fun k => p k && p' k).
Proof. intros H H' k i Hk Hi. now rewrite N.land_spec, H, H'. Qed.
Lemma lmask_not w m p : good_w w -> lmask w m p -> lmask w (wnot m) (fun k => negb (p k)).
Proof.
  intros Hw H k i Hk Hi. pose proof (per_mul w Hw). rewrite testbit_wnot, H by easy.
  replace (i + N.of_nat (w * k)%nat <? 64)%N with true by nia.
  replace (64 <=? i + N.of_nat (w * k)%nat)%N with false by nia. cbn. now rewrite orb_false_r.
Qed.
(** first lane >= s *)
Lemma lmask_right w s : good_w w -> s < per w -> lmask w (right_bitmask (64 - w * s)) (fun k => s <=? k).
Proof.
  intros Hw Hs k i Hk Hi. pose proof (per_mul w Hw).
  rewrite testbit_right_bitmask by lia. replace (64 - (64 - w * s)) with (w * s) by nia.
  replace (i + N.of_nat (w * k)%nat <? 64)%N with true by nia. rewrite andb_true_r.
  destruct (Nat.leb_spec s k); nia.
Qed.
(** number of elements in the last word *)
Definition lastn (w ncols : nat) : nat := if ncols mod per w =? 0 then per w else ncols mod per w.
Lemma mod_w w n : good_w w -> (w * n) mod 64 = w * (n mod per w).
Proof.
  intros Hw. pose proof (per_mul w Hw) as P. pose proof (per_pos w Hw). pose proof (good_w_pos w Hw).
  rewrite <- P. apply Nat.mul_mod_distr_l; lia.
Qed.
Lemma div_w w n : good_w w -> (w * n) / 64 = n / per w.
Proof.
  intros Hw. pose proof (per_mul w Hw) as P. pose proof (per_pos w Hw). pose proof (good_w_pos w Hw).
  rewrite <- P. apply Nat.div_mul_cancel_l; lia.
Qed.
Lemma lmask_left w n : good_w w -> lmask w (left_bitmask ((w * n) mod 64)) (fun k => k <? lastn w n).
Proof.
  intros Hw k i Hk Hi. pose proof (per_mul w Hw). pose proof (good_w_pos w Hw). pose proof (per_pos w Hw).
  rewrite testbit_left_bitmask by (apply Nat.mod_upper_bound; lia).
  rewrite mod_w by easy. unfold lastn.
  pose proof (Nat.mod_upper_bound n (per w) ltac:(lia)).
  replace (w * (n mod per w) =? 0) with (n mod per w =? 0) by nia.
  destruct (Nat.eqb_spec (n mod per w) 0); destruct (Nat.ltb_spec k (n mod per w)); nia.
Qed.
Lemma last_lanes_eq w n : good_w w -> last_lanes w (w * n) = lastn w n.
Proof.
  intros Hw. unfold last_lanes, lastn. rewrite mod_w by easy. pose proof (good_w_pos w Hw).
  replace (w * (n mod per w) =? 0) with (n mod per w =? 0) by nia.
  destruct (n mod per w =? 0); [reflexivity|]. rewrite Nat.mul_comm. apply Nat.div_mul. lia.
Qed.

(** ** width *)
Lemma width_eq w n : good_w w -> width (w * n) = (n + per w - 1) / per w.
Proof.
  intros Hw. pose proof (per_mul w Hw) as P. pose proof (per_pos w Hw). pose proof (good_w_pos w Hw).
  unfold width. rewrite <- P at 1.
  rewrite <- Nat.div_div by lia. f_equal.
  symmetry. apply (Nat.div_unique _ _ _ (63 - w * (per w - 1))); nia.
Qed.
Lemma width_bounds w n : good_w w -> n <= per w * width (w * n) /\ per w * width (w * n) < n + per w.
Proof.
  intros Hw. pose proof (per_pos w Hw). rewrite width_eq by easy.
  pose proof (Nat.div_mod (n + per w - 1) (per w) ltac:(lia)).
  pose proof (Nat.mod_upper_bound (n + per w - 1) (per w) ltac:(lia)). lia.
Qed.
Lemma mul_sandwich p q x : 0 < p -> p * q < p * (x + 1) -> p * x < p * (q + 1) -> x = q.
Proof. intros Hp H1 H2. apply Nat.mul_lt_mono_pos_l in H1, H2; lia. Qed.
(** position of the end of the row in the last word *)
Lemma lastn_spec w n : good_w w -> 0 < n ->
  n = per w * (width (w * n) - 1) + lastn w n /\ 0 < lastn w n <= per w /\ 0 < width (w * n).
Proof.
  intros Hw Hn. pose proof (per_pos w Hw). destruct (width_bounds w n Hw) as [B1 B2].
  unfold lastn.
  pose proof (Nat.div_mod n (per w) ltac:(lia)).
  pose proof (Nat.mod_upper_bound n (per w) ltac:(lia)).
  destruct (Nat.eqb_spec (n mod per w) 0).
  - assert (width (w * n) = n / per w) by (apply (mul_sandwich (per w)); lia).
    assert (0 < n / per w) by (apply Nat.div_str_pos; split; [lia|]; destruct (Nat.le_gt_cases (per w) n) as [|G]; [easy|]; rewrite Nat.mod_small in e by easy; lia). nia.
  - assert (E : width (w * n) = n / per w + 1) by (apply (mul_sandwich (per w)); lia).
    rewrite E. replace (n / per w + 1 - 1) with (n / per w) by lia. lia.
Qed.
Lemma slot_lt w n c : good_w w -> c < per w * width (w * n) -> c / per w < width (w * n).
Proof. intros Hw Hc. apply Nat.div_lt_upper_bound; [pose proof (per_pos w Hw); lia|easy]. Qed.

(** ** elements of rows *)
Lemma rel_upd w r j x c : j < length r ->
  rel w (upd r j x) c = if c / per w =? j then lane w x (c mod per w) else rel w r c.
Proof.
  intros Hj. unfold rel. rewrite nth_upd by easy. rewrite (Nat.eqb_sym j).
  now destruct (c / per w =? j).
Qed.
Lemma rel_bit w r c i : good_w w ->
  N.testbit (rel w r c) (N.of_nat i) = (i <? w) && rbit r (w * c + i).
Proof.
  intros Hw. unfold rel, rbit. rewrite lane_spec.
  pose proof (per_mul w Hw) as P. pose proof (per_pos w Hw). pose proof (good_w_pos w Hw).
  destruct (Nat.ltb_spec i w) as [Hi|Hi].
  - replace (N.of_nat i <? N.of_nat w)%N with true by lia. cbn [andb].
    pose proof (Nat.div_mod c (per w) ltac:(lia)).
    pose proof (Nat.mod_upper_bound c (per w) ltac:(lia)).
    assert (E : w * c + i = 64 * (c / per w) + (w * (c mod per w) + i)) by nia.
    rewrite <- (Nat.div_unique (w * c + i) 64 (c / per w) (w * (c mod per w) + i)) by nia.
    rewrite <- (Nat.mod_unique (w * c + i) 64 (c / per w) (w * (c mod per w) + i)) by nia.
    f_equal. lia.
  - replace (N.of_nat i <? N.of_nat w)%N with false by lia. reflexivity.
Qed.
Lemma rel_lt w r c : (rel w r c < 2 ^ N.of_nat w)%N.
Proof. apply lane_lt. Qed.
Lemma rel_ext w x y : good_w w -> (x < 2 ^ N.of_nat w)%N -> (y < 2 ^ N.of_nat w)%N ->
  (forall i, i < w -> N.testbit x (N.of_nat i) = N.testbit y (N.of_nat i)) -> x = y.
Proof.
  intros Hw Hx Hy H. rewrite lt_pow2_bits in Hx, Hy. apply N.bits_inj. intro i.
  destruct (N.lt_ge_cases i (N.of_nat w)) as [L|L].
  - replace i with (N.of_nat (N.to_nat i)) by lia. apply H. lia.
  - now rewrite Hx, Hy.
Qed.
(** elements determine bits *)
Lemma rbit_rel w r k : good_w w -> rbit r k = N.testbit (rel w r (k / w)) (N.of_nat (k mod w)).
Proof.
  intros Hw. pose proof (good_w_pos w Hw). rewrite rel_bit by easy.
  pose proof (Nat.mod_upper_bound k w ltac:(lia)). replace (k mod w <? w) with true by lia. cbn.
  f_equal. apply Nat.div_mod. lia.
Qed.

(** ** well-formed rows *)
Definition wf_row (f : N) (w n : nat) (r : list N) : Prop :=
  length r = width (w * n) /\ Forall (fun x => (x < 2 ^ 64)%N) r /\
  (forall c, c < per w * width (w * n) -> inF f (rel w r c)).

Lemma wf_row_word f w n r j : wf_row f w n r -> (nth j r 0 < 2 ^ 64)%N.
Proof.
  intros (_ & H & _). destruct (Nat.lt_ge_cases j (length r)).
  - rewrite Forall_forall in H. apply H. now apply nth_In.
  - now rewrite nth_overflow.
Qed.
Lemma rel_word w r j k : k < per w -> rel w r (per w * j + k) = lane w (nth j r 0%N) k.
Proof.
  intros Hk. unfold rel.
  rewrite <- (Nat.div_unique (per w * j + k) (per w) j k) by lia.
  now rewrite <- (Nat.mod_unique (per w * j + k) (per w) j k) by lia.
Qed.
Lemma wf_row_lane f w n r j k : good_w w -> wf_row f w n r -> j < width (w * n) -> k < per w ->
  inF f (lane w (nth j r 0%N) k).
Proof. intros Hw (_ & _ & H) Hj Hk. rewrite <- rel_word by easy. apply H. nia. Qed.
Lemma inF_lt_w f w e v : pdeg f = N.of_nat e -> e <= w -> inF f v -> (v < 2 ^ N.of_nat w)%N.
Proof. intros Hd He Hv. unfold inF in Hv. eapply N.lt_le_trans; [apply Hv|]. apply N.pow_le_mono_r; lia. Qed.

(** ** axpy on the lanes of one word *)
Section FF.
Variables (ff : gf2e) (w : nat).
Hypothesis Hwf : gf2e_wf ff.
Hypothesis Hww : gf2e_degree_to_w ff = Ok w.
Let f := ff_minpoly ff.

Lemma degree_to_w_facts : good_w w /\ ff_degree ff <= w /\ 2 <= ff_degree ff.
Proof.
  clear Hwf f. revert Hww. unfold gf2e_degree_to_w.
  generalize (ff_degree ff). intros e.
  do 17 (try destruct e as [|e]); intros [=<-]; unfold good_w; lia.
Qed.
Let Hw : good_w w.
Proof. apply degree_to_w_facts. Qed.
Let f0 : f <> 0%N.
Proof. exact (gf2e_wf_f0 ff Hwf). Qed.

Lemma fmul_lt_w a b : (fmul f a b < 2 ^ N.of_nat w)%N.
Proof.
  pose proof Hwf as (_ & Hd & _). pose proof degree_to_w_facts as (_ & He & _).
  eapply inF_lt_w; [exact Hd|exact He|]. now apply fmul_lt.
Qed.

Definition lanes_in (x : N) : Prop := forall k, k < per w -> inF f (lane w x k).

Lemma axpy_lane_step x fw t k : k < per w -> inF f x -> lanes_in fw -> (t < 2 ^ 64)%N ->
  wp (v <- gf2e_mul ff x (N.land (wshr fw (w * k)) (N.ones (N.of_nat w))) ;;
      Ok (N.lxor t (wshl v (w * k))))
     (fun t' => (t' < 2 ^ 64)%N /\
        forall j, j < per w -> lane w t' j = if j =? k then N.lxor (lane w t k) (fmul f x (lane w fw k)) else lane w t j).
Proof.
  intros Hk Hx Hf Ht.
  change (N.land (wshr fw (w * k)) (N.ones (N.of_nat w))) with (lane w fw k).
  rewrite gf2e_mul_ok; auto. cbn [bind wp]. split.
  - apply lxor_lt_pow2; [easy|apply wshl_lt].
  - intros j Hj. rewrite lane_lxor. rewrite (lane_wshl w _ k); auto using fmul_lt_w.
    destruct (Nat.eqb_spec j k) as [->|]; [reflexivity|apply N.lxor_0_r].
Qed.

Lemma axpy_lanes_ok x lo hi fw t : lo <= hi -> hi <= per w -> inF f x -> lanes_in fw -> (t < 2 ^ 64)%N ->
  wp (axpy_lanes ff w x lo hi fw t)
     (fun t' => (t' < 2 ^ 64)%N /\
        forall j, j < per w -> lane w t' j =
           if (lo <=? j) && (j <? hi) then N.lxor (lane w t j) (fmul f x (lane w fw j)) else lane w t j).
Proof.
  intros Hl Hh Hx Hf Ht. unfold axpy_lanes.
  apply (wp_for (fun i t' => (t' < 2 ^ 64)%N /\
        forall j, j < per w -> lane w t' j =
           if (lo <=? j) && (j <? i) then N.lxor (lane w t j) (fmul f x (lane w fw j)) else lane w t j)); auto.
  - split; [easy|]. intros j Hj. now replace ((lo <=? j) && (j <? lo)) with false by lia.
  - intros k t1 Hk [L H]. eapply wp_mono; [apply axpy_lane_step; auto; lia|].
    cbv beta. intros t2 [L2 H2]. split; [easy|]. intros j Hj. rewrite H2 by easy.
    destruct (Nat.eqb_spec j k) as [->|].
    + rewrite H by easy. replace ((lo <=? k) && (k <? k)) with false by lia.
      now replace ((lo <=? k) && (k <? S k)) with true by lia.
    + rewrite H by easy. now replace ((lo <=? j) && (j <? S k)) with ((lo <=? j) && (j <? k)) by lia.
Qed.
Lemma axpy_lanes_down_ok x hi fw t : hi <= per w -> inF f x -> lanes_in fw -> (t < 2 ^ 64)%N ->
  wp (axpy_lanes_down ff w x hi fw t)
     (fun t' => (t' < 2 ^ 64)%N /\
        forall j, j < per w -> lane w t' j =
           if (j <? hi) then N.lxor (lane w t j) (fmul f x (lane w fw j)) else lane w t j).
Proof.
  intros Hh Hx Hf Ht. unfold axpy_lanes_down.
  eapply wp_mono.
  - apply (wp_for_down (fun i t' => (t' < 2 ^ 64)%N /\
        forall j, j < per w -> lane w t' j =
           if (i <=? j) && (j <? hi) then N.lxor (lane w t j) (fmul f x (lane w fw j)) else lane w t j)); [lia| |].
    + split; [easy|]. intros j Hj. now replace ((hi <=? j) && (j <? hi)) with false by lia.
    + intros k t1 Hk [L H]. eapply wp_mono; [apply axpy_lane_step; auto; lia|].
      cbv beta. intros t2 [L2 H2]. split; [easy|]. intros j Hj. rewrite H2 by easy.
      destruct (Nat.eqb_spec j k) as [->|].
      * rewrite H by easy. replace ((S k <=? k) && (k <? hi)) with false by lia.
        now replace ((k <=? k) && (k <? hi)) with true by lia.
      * rewrite H by easy. now replace ((S k <=? j) && (j <? hi)) with ((k <=? j) && (j <? hi)) by lia.
  - cbv beta. intros t' [L H]. split; [easy|]. intros j Hj. rewrite H by easy. reflexivity.
Qed.

(** ** the bulk loops *)
Lemma wp_chunk_loop (Inv : nat -> list N -> Prop) body c wid :
  0 < c ->
  forall fuel j r, wid - 1 - j <= fuel -> j <= wid - 1 -> 0 < wid -> Inv j r ->
  (forall i s, j <= i < wid - 1 -> Inv i s -> wp (body i s) (Inv (S i))) ->
  wp (chunk_loop fuel c wid body j r)
     (fun '(j', r') => j <= j' <= wid - 1 /\ wid <= j' + c /\ Inv j' r').
Proof.
  intros Hc. induction fuel as [|fuel IH]; intros j r Hfuel Hj Hwid HI Hb.
  - cbn. split; [lia|]. split; [lia|exact HI].
  - cbn [chunk_loop]. destruct (Nat.ltb_spec (j + c) wid) as [L|L].
    + apply wp_bind. eapply wp_mono.
      * apply (wp_for Inv); [lia|exact HI|]. intros i s Hi Hs. apply Hb; [lia|exact Hs].
      * cbv beta. intros r' Hr'. eapply wp_mono.
        -- apply IH; auto; [lia|lia|]. intros i s Hi. apply Hb. lia.
        -- cbv beta. intros [j' r'']. intros (H1 & H2 & H3). repeat split; auto; lia.
    + cbn. split; [lia|]. split; [lia|exact HI].
Qed.
Lemma wp_bulk_loop (Inv : nat -> list N -> Prop) body c wid j r :
  0 < c -> j <= wid - 1 -> 0 < wid -> Inv j r ->
  (forall i s, j <= i < wid - 1 -> Inv i s -> wp (body i s) (Inv (S i))) ->
  wp (bulk_loop c wid body j r) (fun '(j', r') => j' = wid - 1 /\ Inv (wid - 1) r').
Proof.
  intros Hc Hj Hwid HI Hb. unfold bulk_loop. apply wp_bind. eapply wp_mono.
  - apply (wp_chunk_loop Inv body c wid Hc wid j r); auto; lia.
  - intros [j1 r1]. cbv beta. intros (H1 & _ & H3). eapply wp_mono.
    + apply (wp_chunk_loop Inv body 1 wid Nat.lt_0_1 wid j1 r1); auto; [lia|lia|].
      intros i s Hi. apply Hb. lia.
    + intros [j2 r2]. cbv beta. intros (H4 & H5 & H6). assert (j2 = wid - 1) as -> by lia. auto.
Qed.
Lemma unroll_pos : 0 < unroll w.
Proof. unfold unroll. destruct (w =? 16), (w =? 8); lia. Qed.

(** ** row operations *)
Variable n : nat.   (* number of columns *)
Let wid := width (w * n).

(** position arithmetic *)
Lemma pos_lt s c : good_w w -> c / per w < s / per w -> c < s.
Proof.
  intros Hgw H. pose proof (per_pos w Hgw).
  pose proof (Nat.div_mod c (per w) ltac:(lia)). pose proof (Nat.mod_upper_bound c (per w) ltac:(lia)).
  pose proof (Nat.div_mod s (per w) ltac:(lia)). nia.
Qed.
Lemma pos_le_same s c : good_w w -> c / per w = s / per w -> (s <=? c) = (s mod per w <=? c mod per w).
Proof.
  intros Hgw H. pose proof (per_pos w Hgw).
  pose proof (Nat.div_mod c (per w) ltac:(lia)). pose proof (Nat.div_mod s (per w) ltac:(lia)).
  rewrite H in *. destruct (Nat.leb_spec s c), (Nat.leb_spec (s mod per w) (c mod per w)); lia.
Qed.
Lemma pos_last c : 0 < n -> c / per w = wid - 1 -> (c <? n) = (c mod per w <? lastn w n).
Proof.
  intros Hn H. pose proof (per_pos w Hw). destruct (lastn_spec w n Hw Hn) as (E & L & W). fold wid in E, W.
  pose proof (Nat.div_mod c (per w) ltac:(lia)). pose proof (Nat.mod_upper_bound c (per w) ltac:(lia)).
  rewrite H in *. destruct (Nat.ltb_spec c n), (Nat.ltb_spec (c mod per w) (lastn w n)); nia.
Qed.
Lemma pos_not_last c : 0 < n -> c / per w < wid - 1 -> c < n.
Proof.
  intros Hn H. pose proof (per_pos w Hw). destruct (lastn_spec w n Hw Hn) as (E & L & W). fold wid in E, W.
  pose proof (Nat.div_mod c (per w) ltac:(lia)). pose proof (Nat.mod_upper_bound c (per w) ltac:(lia)). nia.
Qed.
Lemma start_in s : s < n -> s / per w <= wid - 1 /\ 0 < wid.
Proof.
  intros Hn. pose proof (per_pos w Hw). destruct (width_bounds w n Hw) as [B1 B2]. fold wid in B1, B2.
  assert (s / per w < wid) by (apply Nat.div_lt_upper_bound; lia). lia.
Qed.

(** generic: from a characterisation of the elements, well-formedness *)
Lemma wf_row_intro r : length r = wid -> (forall j, j < wid -> (nth j r 0 < 2 ^ 64)%N) ->
  (forall c, c < per w * wid -> inF f (rel w r c)) -> wf_row f w n r.
Proof.
  intros H1 H2 H3. split; [easy|]. split; [|easy]. apply Forall_forall. intros x Hx.
  apply (In_nth _ _ 0%N) in Hx as (j & Hj & <-). apply H2. lia.
Qed.
Lemma wf_row_rel r c : wf_row f w n r -> c < per w * wid -> inF f (rel w r c).
Proof. intros (_ & _ & H). apply H. Qed.

(** Shape shared by the three row operations: the word holding the start column, then whole words,
    then the last word.  G c is the new value of element c for s <= c < n. *)
Section Shape.
Variables (s : nat) (a : list N) (G : nat -> N).
Hypothesis Hs : s < n.
Hypothesis Ha : wf_row f w n a.
Hypothesis HG : forall c, c < per w * wid -> inF f (G c).

Definition row_inv (j : nat) (t : list N) : Prop :=
  length t = wid /\ (forall i, (nth i t 0 < 2^64)%N) /\
  (forall i, j <= i -> nth i t 0%N = nth i a 0%N) /\
  (forall c, c / per w < j -> rel w t c = if s <=? c then G c else rel w a c).
Definition row_done (t : list N) : Prop :=
  wf_row f w n t /\
  forall c, c < per w * wid -> rel w t c = if (s <=? c) && (c <? n) then G c else rel w a c.

Lemma row_done_intro t : length t = wid -> (forall j, (nth j t 0 < 2 ^ 64)%N) ->
  (forall c, c < per w * wid -> rel w t c = if (s <=? c) && (c <? n) then G c else rel w a c) -> row_done t.
Proof.
  intros H1 H2 H3. split; [|exact H3]. apply wf_row_intro; auto.
  intros c Hc. rewrite H3 by easy. destruct ((s <=? c) && (c <? n)); auto. now apply wf_row_rel.
Qed.
Lemma row_first x : (x < 2 ^ 64)%N ->
  (forall c, c / per w = s / per w ->
     lane w x (c mod per w) = if s mod per w <=? c mod per w then G c else rel w a c) ->
  row_inv (s / per w + 1) (upd a (s / per w) x).
Proof.
  intros Hx H. assert (La : length a = wid) by apply Ha. destruct (start_in s Hs) as [S1 S2].
  assert (WA := fun j => wf_row_word _ _ _ _ j Ha).
  split; [now rewrite upd_length|]. split; [|split].
  - intros i. rewrite nth_upd by lia. now destruct (s / per w =? i).
  - intros i Hi. apply nth_upd_ne. lia.
  - intros c Hc. rewrite rel_upd by lia. destruct (Nat.eqb_spec (c / per w) (s / per w)) as [E|E].
    + rewrite H by easy. now rewrite (pos_le_same s c Hw E).
    + pose proof (pos_lt s c Hw ltac:(lia)). now replace (s <=? c) with false by lia.
Qed.
Lemma row_mid j t x : row_inv j t -> s / per w < j < wid -> (x < 2 ^ 64)%N ->
  (forall c, c / per w = j -> lane w x (c mod per w) = G c) ->
  row_inv (S j) (upd t j x).
Proof.
  intros (T1 & T2 & T3 & T4) Hj Hx H.
  split; [now rewrite upd_length|]. split; [|split].
  - intros i. rewrite nth_upd by lia. now destruct (j =? i).
  - intros i Hi. rewrite nth_upd_ne by lia. apply T3. lia.
  - intros c Hc. rewrite rel_upd by lia. destruct (Nat.eqb_spec (c / per w) j) as [E|E].
    + rewrite H by easy. pose proof (pos_lt c s Hw ltac:(lia)). now replace (s <=? c) with true by lia.
    + apply T4. lia.
Qed.
Lemma row_last t x : row_inv (wid - 1) t -> s / per w < wid - 1 -> (x < 2 ^ 64)%N ->
  (forall c, c / per w = wid - 1 ->
     lane w x (c mod per w) = if c mod per w <? lastn w n then G c else rel w a c) ->
  row_done (upd t (wid - 1) x).
Proof.
  intros (T1 & T2 & T3 & T4) Hj Hx H. destruct (start_in s Hs) as [S1 S2]. apply row_done_intro.
  - now rewrite upd_length.
  - intros i. rewrite nth_upd by lia. now destruct (wid - 1 =? i).
  - intros c Hc. assert (Hd := slot_lt w n c Hw Hc). fold wid in Hd.
    rewrite rel_upd by lia. destruct (Nat.eqb_spec (c / per w) (wid - 1)) as [E|E].
    + rewrite H by easy. rewrite <- pos_last by (easy || lia).
      pose proof (pos_lt c s Hw ltac:(lia)). now replace (s <=? c) with true by lia.
    + rewrite T4 by lia. pose proof (pos_not_last c ltac:(lia) ltac:(lia)).
      replace (c <? n) with true by lia. now rewrite andb_true_r.
Qed.
Lemma row_single x : s / per w = wid - 1 -> (x < 2 ^ 64)%N ->
  (forall c, c / per w = s / per w ->
     lane w x (c mod per w) = if (s mod per w <=? c mod per w) && (c mod per w <? lastn w n) then G c else rel w a c) ->
  row_done (upd a (s / per w) x).
Proof.
  intros E Hx H. assert (La : length a = wid) by apply Ha. destruct (start_in s Hs) as [S1 S2].
  assert (WA := fun j => wf_row_word _ _ _ _ j Ha). apply row_done_intro.
  - now rewrite upd_length.
  - intros i. rewrite nth_upd by lia. now destruct (s / per w =? i).
  - intros c Hc. assert (Hd := slot_lt w n c Hw Hc). fold wid in Hd.
    rewrite rel_upd by lia. destruct (Nat.eqb_spec (c / per w) (s / per w)) as [E'|E'].
    + rewrite H by easy. rewrite <- pos_last by lia. now rewrite (pos_le_same s c Hw E').
    + assert (c < s) by (apply pos_lt; auto; lia). now replace (s <=? c) with false by lia.
Qed.
End Shape.

Lemma cmod c : c mod per w < per w.
Proof. apply Nat.mod_upper_bound. pose proof (per_pos w Hw). lia. Qed.
Lemma right_mask_first s : right_bitmask (64 - (w * s) mod 64) = right_bitmask (64 - w * (s mod per w)).
Proof. now rewrite mod_w. Qed.
Lemma left_bitmask_lt m : (left_bitmask m < 2 ^ 64)%N.
Proof.
  unfold left_bitmask. apply lt_pow2_bits. intros k Hk. rewrite wshr_spec, testbit_ffff. lia.
Qed.
Lemma right_bitmask_lt m : (right_bitmask m < 2 ^ 64)%N.
Proof. apply wshl_lt. Qed.

(** mzed_add_row on rows *)
Lemma add_row_words_ok s a b : s < n -> wf_row f w n a -> wf_row f w n b ->
  wp (add_row_words w (w * n) s a b) (row_done s a (fun c => N.lxor (rel w a c) (rel w b c))).
Proof.
  intros Hs Ha Hb. unfold add_row_words. fold wid.
  rewrite div_w, mod_w by exact Hw. destruct (start_in s Hs) as [S1 S2].
  assert (La : length a = wid) by apply Ha. assert (Lb : length b = wid) by apply Hb.
  assert (M1 := lmask_right w (s mod per w) Hw (cmod s)). assert (M2 := lmask_left w n Hw).
  set (m1 := right_bitmask _) in *. set (m2 := left_bitmask _) in *.
  assert (WA := fun j => wf_row_word _ _ _ _ j Ha). assert (WB := fun j => wf_row_word _ _ _ _ j Hb).
  set (G := fun c => N.lxor (rel w a c) (rel w b c)).
  assert (HG : forall c, c < per w * wid -> inF f (G c)).
  { intros c Hc. apply lxor_lt_pow2; now apply wf_row_rel. }
  assert (Lw : forall j m, (N.lxor (nth j a 0) (N.land (nth j b 0) m) < 2 ^ 64)%N).
  { intros j m. apply lxor_lt_pow2; [apply WA|]. apply land_lt_pow2, WB. }
  assert (Step : forall j m p c, lmask w m p -> c / per w = j ->
     lane w (N.lxor (nth j a 0%N) (N.land (nth j b 0%N) m)) (c mod per w) = if p (c mod per w) then G c else rel w a c).
  { intros j m p c Hm Hc. rewrite lane_lxor, (lane_lmask _ _ _ _ _ Hm) by apply cmod.
    unfold G, rel. rewrite Hc. destruct (p (c mod per w)); [reflexivity|apply N.lxor_0_r]. }
  destruct (Nat.ltb_spec 1 (wid - s / per w)) as [L|L].
  - rewrite (lget_ok a _ 0%N), (lget_ok b _ 0%N) by lia. cbn [bind]. rewrite lset_ok by lia. cbn [bind].
    apply wp_bind. eapply wp_mono.
    + apply (wp_for (row_inv s a G)); [lia| |].
      * apply row_first; auto.
      * intros j t Hj Ht. pose proof Ht as (T1 & T2 & T3 & T4).
        rewrite (lget_ok t j 0%N), (lget_ok b j 0%N) by lia. cbn [bind]. rewrite lset_ok by lia. cbn [wp].
        rewrite T3 by lia. apply row_mid; auto; [lia|now apply lxor_lt_pow2|].
        intros c Hc. rewrite lane_lxor. unfold G, rel. now rewrite Hc.
    + cbv beta. intros t Ht. pose proof Ht as (T1 & T2 & T3 & T4).
      rewrite (lget_ok t _ 0%N), (lget_ok b _ 0%N) by lia. cbn [bind]. rewrite lset_ok by lia. cbn [wp].
      rewrite T3 by lia. apply row_last; auto; [lia|]. intros c Hc. now apply (Step _ _ _ _ M2).
  - rewrite (lget_ok a _ 0%N), (lget_ok b _ 0%N) by lia. cbn [bind]. rewrite lset_ok by lia. cbn [wp].
    apply row_single; auto; [lia|]. intros c Hc. now apply (Step _ _ _ _ (lmask_land _ _ _ _ _ M1 M2)).
Qed.

Lemma wf_row_lanes r j : wf_row f w n r -> j < wid -> lanes_in (nth j r 0%N).
Proof. intros Hr Hj k Hk. now apply (wf_row_lane f w n r j k Hw Hr). Qed.

(** mzed_add_multiple_of_row on rows *)
Lemma axpy_words_ok x s a b : inF f x -> s < n -> wf_row f w n a -> wf_row f w n b ->
  wp (axpy_words ff w x (w * n) s a b) (row_done s a (fun c => N.lxor (rel w a c) (fmul f x (rel w b c)))).
Proof.
  intros Hx Hs Ha Hb. unfold axpy_words. fold wid.
  replace (w * s / w) with s by (rewrite Nat.mul_comm, Nat.div_mul; [easy|pose proof (good_w_pos w Hw); lia]).
  rewrite div_w by exact Hw. rewrite last_lanes_eq by exact Hw. fold (per w).
  destruct (start_in s Hs) as [S1 S2].
  assert (La : length a = wid) by apply Ha. assert (Lb : length b = wid) by apply Hb.
  assert (M2 := lmask_left w n Hw). set (m2 := left_bitmask _) in *.
  assert (WA := fun j => wf_row_word _ _ _ _ j Ha). assert (WB := fun j => wf_row_word _ _ _ _ j Hb).
  set (G := fun c => N.lxor (rel w a c) (fmul f x (rel w b c))).
  assert (HG : forall c, c < per w * wid -> inF f (G c)).
  { intros c Hc. apply lxor_lt_pow2; [now apply wf_row_rel|now apply fmul_lt]. }
  destruct (lastn_spec w n Hw ltac:(lia)) as (_ & HL & _).
  pose proof (cmod s) as Ms.
  rewrite (lget_ok b _ 0%N), (lget_ok a _ 0%N) by lia. cbn [bind].
  apply wp_bind. eapply wp_mono.
  { apply axpy_lanes_ok; auto; [lia|apply wf_row_lanes; auto; lia]. }
  cbv beta. intros t0 [Lt0 Ht0].
  assert (Ht0' : forall c, c / per w = s / per w ->
     lane w t0 (c mod per w) = if s mod per w <=? c mod per w then G c else rel w a c).
  { intros c Hc. pose proof (cmod c). rewrite Ht0 by easy. replace (c mod per w <? per w) with true by lia.
    rewrite andb_true_r. unfold G, rel. now rewrite Hc. }
  destruct (Nat.eqb_spec (wid - s / per w) 1) as [L|L].
  - rewrite lset_ok by lia. cbn [wp]. apply row_single; auto; [lia| |].
    + apply lxor_lt_pow2; now apply land_lt_pow2.
    + intros c Hc. pose proof (cmod c) as Mc.
      rewrite lane_lxor, (lane_lmask _ _ _ _ _ (lmask_not w _ _ Hw M2) Mc), (lane_lmask _ _ _ _ _ M2 Mc).
      rewrite Ht0' by easy. destruct (c mod per w <? lastn w n); cbn [negb].
      * rewrite andb_true_r. apply N.lxor_0_l.
      * rewrite andb_false_r, N.lxor_0_r. unfold rel. now rewrite Hc.
  - rewrite lset_ok by lia. cbn [bind]. apply wp_bind. eapply wp_mono.
    + apply (wp_bulk_loop (row_inv s a G)); auto using unroll_pos; [lia| |].
      * apply row_first; auto.
      * intros j t Hj Ht. pose proof Ht as (T1 & T2 & T3 & T4).
        rewrite (lget_ok b j 0%N), (lget_ok t j 0%N) by lia. cbn [bind].
        apply wp_bind. eapply wp_mono; [apply axpy_lanes_ok; auto; [lia|apply wf_row_lanes; auto; lia]|].
        cbv beta. intros t1 [Lt1 Ht1]. rewrite lset_ok by lia. cbn [wp].
        apply row_mid; auto; [lia|]. intros c Hc. pose proof (cmod c). rewrite Ht1 by easy.
        replace (c mod per w <? per w) with true by lia. cbn [Nat.leb andb]. rewrite T3 by lia.
        unfold G, rel. now rewrite Hc.
    + intros [j t] [-> Ht]. pose proof Ht as (T1 & T2 & T3 & T4).
      rewrite (lget_ok b _ 0%N), (lget_ok t _ 0%N) by lia. cbn [bind].
      apply wp_bind. eapply wp_mono; [apply axpy_lanes_down_ok; auto; [lia|apply wf_row_lanes; auto; lia]|].
      cbv beta. intros t1 [Lt1 Ht1]. rewrite lset_ok by lia. cbn [wp].
      apply row_last; auto; [lia|]. intros c Hc. pose proof (cmod c). rewrite Ht1 by easy.
      rewrite T3 by lia. unfold G, rel. now rewrite Hc.
Qed.

(** mzed_rescale_row on rows *)
Lemma rescale_words_ok x s a : inF f x -> s < n -> wf_row f w n a ->
  wp (rescale_words ff w x (w * n) s a) (row_done s a (fun c => fmul f x (rel w a c))).
Proof.
  intros Hx Hs Ha. unfold rescale_words. fold wid.
  replace (w * s / w) with s by (rewrite Nat.mul_comm, Nat.div_mul; [easy|pose proof (good_w_pos w Hw); lia]).
  rewrite div_w, mod_w by exact Hw. rewrite last_lanes_eq by exact Hw. fold (per w).
  destruct (start_in s Hs) as [S1 S2].
  assert (La : length a = wid) by apply Ha.
  assert (M1 := lmask_right w (s mod per w) Hw (cmod s)). assert (M2 := lmask_left w n Hw).
  set (m1 := right_bitmask _) in *. set (m2 := left_bitmask _) in *.
  assert (WA := fun j => wf_row_word _ _ _ _ j Ha).
  set (G := fun c => fmul f x (rel w a c)).
  assert (HG : forall c, c < per w * wid -> inF f (G c)).
  { intros c Hc. now apply fmul_lt. }
  destruct (lastn_spec w n Hw ltac:(lia)) as (_ & HL & _).
  pose proof (cmod s) as Ms.
  rewrite (lget_ok a _ 0%N) by lia. cbn [bind].
  apply wp_bind. eapply wp_mono.
  { apply axpy_lanes_ok; auto; [lia|apply wf_row_lanes; auto; lia|now vm_compute]. }
  cbv beta. intros t0 [Lt0 Ht0].
  assert (Ht0' : forall c, c / per w = s / per w ->
     lane w t0 (c mod per w) = if s mod per w <=? c mod per w then G c else 0%N).
  { intros c Hc. pose proof (cmod c). rewrite Ht0 by easy. replace (c mod per w <? per w) with true by lia.
    rewrite andb_true_r, lane_0, N.lxor_0_l. unfold G, rel. now rewrite Hc. }
  destruct (Nat.eqb_spec (wid - s / per w) 1) as [L|L].
  - rewrite lset_ok by lia. cbn [wp]. apply row_single; auto; [lia| |].
    + apply lxor_lt_pow2; now apply land_lt_pow2.
    + intros c Hc. pose proof (cmod c) as Mc. assert (M3 := lmask_land _ _ _ _ _ M1 M2).
      rewrite lane_lxor, (lane_lmask _ _ _ _ _ (lmask_not w _ _ Hw M3) Mc), (lane_lmask _ _ _ _ _ M3 Mc).
      rewrite Ht0' by easy. cbv beta.
      destruct (s mod per w <=? c mod per w), (c mod per w <? lastn w n); cbn [negb andb];
        rewrite ?N.lxor_0_l, ?N.lxor_0_r; try reflexivity; unfold rel; now rewrite Hc.
  - rewrite lset_ok by lia. cbn [bind]. apply wp_bind. eapply wp_mono.
    + apply (wp_bulk_loop (row_inv s a G)); auto using unroll_pos; [lia| |].
      * apply row_first; auto.
        -- apply lxor_lt_pow2; now apply land_lt_pow2.
        -- intros c Hc. pose proof (cmod c) as Mc.
           rewrite lane_lxor, (lane_lmask _ _ _ _ _ (lmask_not w _ _ Hw M1) Mc), (lane_lmask _ _ _ _ _ M1 Mc).
           rewrite Ht0' by easy. cbv beta.
           destruct (s mod per w <=? c mod per w); cbn [negb andb];
             rewrite ?N.lxor_0_l, ?N.lxor_0_r; try reflexivity; unfold rel; now rewrite Hc.
      * intros j t Hj Ht. pose proof Ht as (T1 & T2 & T3 & T4).
        rewrite (lget_ok t j 0%N) by lia. cbn [bind]. rewrite T3 by lia.
        apply wp_bind. eapply wp_mono; [apply axpy_lanes_ok; auto; [lia|apply wf_row_lanes; auto; lia|now vm_compute]|].
        cbv beta. intros t1 [Lt1 Ht1]. rewrite lset_ok by lia. cbn [wp].
        apply row_mid; auto; [lia|]. intros c Hc. pose proof (cmod c). rewrite Ht1 by easy.
        replace (c mod per w <? per w) with true by lia. cbn [Nat.leb andb].
        rewrite lane_0, N.lxor_0_l. unfold G, rel. now rewrite Hc.
    + intros [j t] [-> Ht]. pose proof Ht as (T1 & T2 & T3 & T4).
      rewrite (lget_ok t _ 0%N) by lia. cbn [bind]. rewrite T3 by lia.
      apply wp_bind. eapply wp_mono; [apply axpy_lanes_down_ok; auto; [lia|apply wf_row_lanes; auto; lia|now apply land_lt_pow2]|].
      cbv beta. intros t1 [Lt1 Ht1]. rewrite lset_ok by lia. cbn [wp].
      apply row_last; auto; [lia|]. intros c Hc. pose proof (cmod c) as Mc. rewrite Ht1 by easy.
      rewrite (lane_lmask _ _ _ _ _ (lmask_not w _ _ Hw M2) Mc). unfold G, rel. rewrite Hc.
      destruct (c mod per w <? lastn w n); cbn [negb]; [apply N.lxor_0_l|reflexivity].
Qed.
End FF.
