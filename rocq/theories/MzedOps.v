(** Element-level specifications of the structural operations of mzed.h / mzed.c. *)
From Coq Require Import NArith Lia List Bool Arith.
From Coq Require Import ZifyBool ZifyNat ZifyN.
From Verif Require Import Base Spec PolyFacts Gf2xModel Gf2xProofs Gf2eModel Gf2eProofs MzdModel MzedModel MzedSpec LaneFacts MzedProofs.
Import ListNotations.
Local Open Scope nat_scope.

Lemma becomes_holds A A' F : becomes A A' F -> holds A' (fld A) (mz_nrows A) (mz_ncols A) F.
Proof.
  intros (H & (E1 & E2 & E3 & E4) & HE & _). split; [easy|].
  rewrite E1, E3, E4. split; [easy|]. split; [easy|]. split; [easy|].
  intros i c Hi Hc. apply HE; congruence.
Qed.
Lemma becomes_holds' A A' F f m n G : becomes A A' F -> fld A = f -> mz_nrows A = m -> mz_ncols A = n ->
  (forall i c, i < m -> c < n -> F i c = G i c) -> holds A' f m n G.
Proof.
  intros B <- <- <- H. apply becomes_holds. eapply becomes_ext; eauto.
Qed.
Lemma inF_0 f : inF f 0.
Proof. apply N.neq_0_lt_0, N.pow_nonzero. lia. Qed.

(** ** mzed_init *)
Lemma rel_repeat w n c : rel w (repeat 0%N n) c = 0%N.
Proof. unfold rel. rewrite nth_repeat. apply lane_0. Qed.
Theorem mzed_init_ok ff m n : gf2e_wf ff -> 2 <= ff_degree ff ->
  wp (mzed_init ff m n) (fun A => mz_ff A = ff /\ holds A (ff_minpoly ff) m n mzero /\
     forall i c, entry A i c = 0%N).
Proof.
  intros H He. unfold mzed_init. pose proof H as (He16 & _).
  destruct (gf2e_degree_to_w_ok ff ltac:(lia)) as (w & Ew & _). rewrite Ew. cbn [bind wp mz_ff].
  assert (E : forall i c, entry (Mzed ff w m n (mzd_init m (w * n))) i c = 0%N).
  { intros i c. unfold entry, mrow, mzd_init. cbn.
    destruct (Nat.lt_ge_cases i m) as [L|L].
    - rewrite nth_indep with (d' := repeat 0%N (width (w * n))) by now rewrite repeat_length.
      rewrite nth_repeat. apply rel_repeat.
    - rewrite nth_overflow by now rewrite repeat_length. unfold rel.
      rewrite nth_overflow by (cbn; apply Nat.le_0_l). apply lane_0. }
  split; [easy|]. split; [|exact E]. split.
  - unfold mzd_init. apply wf_intro; auto; [now rewrite repeat_length|].
    intros i Hi. rewrite nth_indep with (d' := repeat 0%N (width (w * n))) by now rewrite repeat_length.
    rewrite nth_repeat. split; [now rewrite repeat_length|]. split.
    + apply Forall_forall. intros x Hx. apply repeat_spec in Hx. now subst.
    + intros c Hc. rewrite rel_repeat. apply inF_0.
  - cbn. repeat (split; [easy|]). intros. apply E.
Qed.
Lemma wf_deg2 A : wf_mzed A -> gf2e_wf (mz_ff A) /\ 2 <= ff_degree (mz_ff A).
Proof. intros (H1 & H2 & _). split; [easy|]. now apply (degree_to_w_facts _ _ H2). Qed.
(** allocate-or-check of an optional target *)
Lemma target_ok {T} C A m n : wf_mzed A -> target C (fld A) m n ->
  forall (k : mzed -> res T) P,
  (forall D, wf_mzed D -> fld D = fld A -> mz_nrows D = m -> mz_ncols D = n -> wp (k D) P) ->
  wp (D <- match C with None => mzed_init (mz_ff A) m n | Some D => Ok D end ;; k D) P.
Proof.
  intros HA HC k P Hk. destruct C as [C|]; cbn [target] in HC.
  - cbn [bind]. destruct HC as (H1 & H2 & H3 & H4). now apply Hk.
  - apply wp_bind. destruct (wf_deg2 A HA) as [G1 G2].
    eapply wp_mono; [now apply mzed_init_ok|]. cbv beta.
    intros D (E & (W & Ef & E1 & E2 & _) & _). apply Hk; auto; congruence.
Qed.

(** ** mzed_set_ui *)
Lemma set_ui_0_ok A : wf_mzed A -> becomes A (mz_set_x A (mzd_set_ui_0 (mz_x A))) mzero.
Proof.
  intros H. apply becomes_build; auto.
  - intros. apply inF_0.
Qed.
Theorem mzed_set_ui_ok A v : wf_mzed A -> inF (fld A) v ->
  wp (mzed_set_ui A v) (fun A' => becomes A A' (fun i c => if i =? c then v else 0%N)).
Proof.
  intros H Hv. unfold mzed_set_ui. pose proof (set_ui_0_ok A H) as B0.
  destruct (N.eqb_spec v 0) as [->|Hv0].
  - cbn [wp]. eapply becomes_ext; [exact B0|]. cbv beta. intros i c _ _. unfold mzero. now destruct (i =? c).
  - eapply wp_mono.
    + apply (wp_for (fun r A' => becomes A A' (fun i c => if (i =? c) && (i <? r) then v else 0%N))); [lia| |].
      * eapply becomes_ext; [exact B0|]. cbv beta. intros i c _ _. unfold mzero.
        replace (i <? 0) with false by lia. now rewrite andb_false_r.
      * intros r A' Hr B. pose proof (becomes_nr _ _ _ B) as E1. pose proof (becomes_nc _ _ _ B) as E2.
        pose proof (becomes_ff _ _ _ B) as E3.
        eapply wp_mono; [apply mzed_write_elem_ok; [exact (becomes_wf _ _ _ B)|lia|lia|now rewrite E3]|].
        cbv beta. intros A'' B'. eapply becomes_step; [exact B|exact B'|]. cbv beta. intros i c Hi Hc.
        rewrite (becomes_entry _ _ _ _ _ B) by easy.
        destruct (Nat.eqb_spec i r) as [->|]; destruct (Nat.eqb_spec c r) as [->|]; cbn [andb].
        -- rewrite Nat.eqb_refl. now replace (r <? S r) with true by lia.
        -- replace (r =? c) with false by lia. reflexivity.
        -- replace (i =? r) with false by lia. reflexivity.
        -- now replace (i <? S r) with (i <? r) by lia.
    + cbv beta. intros A' B. eapply becomes_ext; [exact B|]. cbv beta. intros i c Hi Hc.
      destruct (Nat.eqb_spec i c); cbn [andb]; [|easy]. now replace (i <? Nat.min _ _) with true by lia.
Qed.

(** ** mzed_add, mzed_copy *)
Ltac wp_check_ := apply wp_bind; apply wp_check; [|].
Ltac wp_guard_ := apply wp_bind; apply wp_guard; [|].
Ltac btrue := rewrite ?andb_true_iff, ?same_ff_iff, ?Nat.eqb_eq, ?Nat.ltb_lt, ?Nat.leb_le.

Lemma mzd_add_ok C A B : wf_mzed A -> wf_mzed B -> wf_mzed C -> fld A = fld C -> fld B = fld C ->
  mz_nrows A = mz_nrows C -> mz_nrows B = mz_nrows C -> mz_ncols A = mz_ncols C -> mz_ncols B = mz_ncols C ->
  wp (mzd_add (mz_x C) (mz_x A) (mz_x B)) (fun x => becomes C (mz_set_x C x) (madd (entry A) (entry B))).
Proof.
  intros HA HB HC fA fB rA rB cA cB.
  assert (wA : mz_w A = mz_w C) by now apply same_w. assert (wB : mz_w B = mz_w C) by now apply same_w.
  pose proof HA as (_ & _ & A1 & A2 & _). pose proof HB as (_ & _ & B1 & B2 & _). pose proof HC as (_ & _ & C1 & C2 & _).
  unfold mzd_add. wp_check_; [btrue; split; congruence|]. wp_check_; [btrue; split; congruence|].
  cbn [wp]. apply becomes_build; auto.
  - intros i c Hi Hc. unfold madd. apply lxor_lt_pow2; [rewrite <- fA|rewrite <- fB]; apply wf_entry; auto; lia.
  - intros i c b Hi Hc Hb. unfold madd. rewrite N.lxor_spec.
    rewrite <- wA at 1. rewrite <- wB. rewrite !mbit_entry; auto; lia.
Qed.
Theorem mzed_add_inplace_ok C A B : wf_mzed A -> wf_mzed B -> wf_mzed C -> fld A = fld C -> fld B = fld C ->
  mz_nrows A = mz_nrows C -> mz_nrows B = mz_nrows C -> mz_ncols A = mz_ncols C -> mz_ncols B = mz_ncols C ->
  wp (mzed_add_ C A B) (fun C' => becomes C C' (madd (entry A) (entry B))).
Proof.
  intros. unfold mzed_add_. apply wp_bind. eapply wp_mono; [now apply mzd_add_ok|]. now cbn.
Qed.
Lemma mzed_add_ok C A B : wf_mzed A -> wf_mzed B -> fld A = fld B ->
  mz_nrows A = mz_nrows B -> mz_ncols A = mz_ncols B -> target C (fld A) (mz_nrows A) (mz_ncols A) ->
  wp (mzed_add C A B) (fun C' => holds C' (fld A) (mz_nrows A) (mz_ncols A) (madd (entry A) (entry B)) /\
    forall C0, C = Some C0 -> becomes C0 C' (madd (entry A) (entry B))).
Proof.
  intros HA HB Ef Er Ec HC. unfold mzed_add.
  wp_check_; [btrue; auto|].
  assert (K : forall D, wf_mzed D -> fld D = fld A -> mz_nrows D = mz_nrows A -> mz_ncols D = mz_ncols A ->
     wp (x <- mzd_add (mz_x D) (mz_x A) (mz_x B) ;; Ok (mz_set_x D x))
        (fun C' => becomes D C' (madd (entry A) (entry B)))).
  { intros D HD E1 E2 E3. apply mzed_add_inplace_ok; auto; congruence. }
  destruct C as [C|]; cbn [target] in HC.
  - destruct HC as (H1 & H2 & H3 & H4). apply wp_bind; wp_check_; [btrue; auto|]. cbn [wp].
    eapply wp_mono; [now apply K|]. cbv beta. intros C' B'. split.
    + rewrite <- H2, <- H3, <- H4. now apply becomes_holds.
    + now intros C0 [=<-].
  - apply wp_bind. destruct (wf_deg2 A HA) as [G1 G2].
    eapply wp_mono; [now apply mzed_init_ok|]. cbv beta.
    intros D (E & (W & Ef' & E1 & E2 & _) & _).
    eapply wp_mono; [apply K; auto|]. cbv beta. intros C' B'. split; [|easy].
    apply becomes_holds in B'. now rewrite Ef', E1, E2 in B'.
Qed.
Theorem mzed_copy_ok C B : wf_mzed B -> target C (fld B) (mz_nrows B) (mz_ncols B) ->
  wp (mzed_copy C B) (fun C' => holds C' (fld B) (mz_nrows B) (mz_ncols B) (entry B) /\
     forall C0, C = Some C0 -> becomes C0 C' (entry B)).
Proof.
  intros HB HC. unfold mzed_copy.
  assert (K : forall D, wf_mzed D -> fld D = fld B -> mz_nrows D = mz_nrows B -> mz_ncols D = mz_ncols B ->
     wp (_ <- check (same_ff D B && (mz_nrows D =? mz_nrows B) && (mz_ncols D =? mz_ncols B));; 
         x <- mzd_copy (mz_x D) (mz_x B) ;; Ok (mz_set_x D x))
        (fun C' => becomes D C' (entry B))).
  { intros D HD E1 E2 E3. assert (wB : mz_w B = mz_w D) by now apply same_w.
    wp_check_; [btrue; auto|]. unfold mzd_copy.
    pose proof HB as (_ & _ & B1 & B2 & _). pose proof HD as (_ & _ & C1 & C2 & _).
    apply wp_bind. wp_check_; [btrue; split; [lia|]; rewrite B2, C2, wB; lia|]. cbn [wp].
    apply becomes_build; auto.
    - intros i c Hi Hc. rewrite E1. apply wf_entry; auto; lia.
    - intros i c b Hi Hc Hb. replace (i <? mzd_nrows (mz_x B)) with true by lia.
      replace (mz_w D * c + b <? mzd_ncols (mz_x B)) with true by (rewrite B2; nia). cbn [andb].
      rewrite <- wB. apply mbit_entry; auto. lia. }
  destruct C as [C|]; cbn [target] in HC.
  - destruct HC as (H1 & H2 & H3 & H4). cbn [bind].
    eapply wp_mono; [now apply K|]. cbv beta. intros C' B'. split.
    + rewrite <- H2, <- H3, <- H4. now apply becomes_holds.
    + now intros C0 [=<-].
  - apply wp_bind. destruct (wf_deg2 B HB) as [G1 G2].
    eapply wp_mono; [now apply mzed_init_ok|]. cbv beta.
    intros D (E & (W & Ef' & E1 & E2 & _) & _).
    eapply wp_mono; [apply K; auto|]. cbv beta. intros C' B'. split; [|easy].
    apply becomes_holds in B'. now rewrite Ef', E1, E2 in B'.
Qed.

(** ** concat, stack, submatrix *)
Theorem mzed_concat_ok C A B : wf_mzed A -> wf_mzed B -> fld A = fld B -> mz_nrows A = mz_nrows B ->
  target C (fld A) (mz_nrows A) (mz_ncols A + mz_ncols B) ->
  wp (mzed_concat C A B) (fun C' => holds C' (fld A) (mz_nrows A) (mz_ncols A + mz_ncols B)
     (fun i c => if c <? mz_ncols A then entry A i c else entry B i (c - mz_ncols A))).
Proof.
  intros HA HB Ef Er HC. unfold mzed_concat. apply (target_ok C A _ _ HA HC).
  intros D HD E1 E2 E3.
  assert (wA : mz_w A = mz_w D) by now apply same_w. assert (wB : mz_w B = mz_w D) by (apply same_w; auto; congruence).
  pose proof HA as (_ & _ & A1 & A2 & _). pose proof HB as (_ & _ & B1 & B2 & _). pose proof HD as (_ & _ & C1 & C2 & _).
  apply wp_bind. unfold mzd_concat. wp_check_; [btrue; congruence|].
  wp_check_; [btrue; split; [congruence|]; rewrite A2, B2, C2, wA, wB, E3; lia|]. cbn [wp].
  rewrite <- E1, <- E2, <- E3. apply becomes_holds. pose proof (good_w_pos _ (wf_good D HD)) as Pw.
  apply becomes_build; auto.
  - intros i c Hi Hc. destruct (Nat.ltb_spec c (mz_ncols A)).
    + rewrite E1. apply wf_entry; auto; lia.
    + rewrite E1, Ef. apply wf_entry; auto; lia.
  - intros i c b Hi Hc Hb. rewrite A2, wA. destruct (Nat.ltb_spec c (mz_ncols A)).
    + replace (mz_w D * c + b <? mz_w D * mz_ncols A) with true by nia. rewrite <- wA. apply mbit_entry; auto. lia.
    + replace (mz_w D * c + b <? mz_w D * mz_ncols A) with false by nia.
      replace (mz_w D * c + b - mz_w D * mz_ncols A) with (mz_w D * (c - mz_ncols A) + b) by nia.
      rewrite <- wB. apply mbit_entry; auto. lia.
Qed.
Theorem mzed_stack_ok C A B : wf_mzed A -> wf_mzed B -> fld A = fld B -> mz_ncols A = mz_ncols B ->
  target C (fld A) (mz_nrows A + mz_nrows B) (mz_ncols A) ->
  wp (mzed_stack C A B) (fun C' => holds C' (fld A) (mz_nrows A + mz_nrows B) (mz_ncols A)
     (fun i c => if i <? mz_nrows A then entry A i c else entry B (i - mz_nrows A) c)).
Proof.
  intros HA HB Ef Er HC. unfold mzed_stack. apply (target_ok C A _ _ HA HC).
  intros D HD E1 E2 E3.
  assert (wA : mz_w A = mz_w D) by now apply same_w. assert (wB : mz_w B = mz_w D) by (apply same_w; auto; congruence).
  pose proof HA as (_ & _ & A1 & A2 & _). pose proof HB as (_ & _ & B1 & B2 & _). pose proof HD as (_ & _ & C1 & C2 & _).
  apply wp_bind. unfold mzd_stack. wp_check_; [btrue; congruence|].
  wp_check_; [btrue; split; congruence|]. cbn [wp].
  rewrite <- E1, <- E2, <- E3. apply becomes_holds. pose proof (good_w_pos _ (wf_good D HD)) as Pw.
  apply becomes_build; auto.
  - intros i c Hi Hc. destruct (Nat.ltb_spec i (mz_nrows A)).
    + rewrite E1. apply wf_entry; auto; lia.
    + rewrite E1, Ef. apply wf_entry; auto; lia.
  - intros i c b Hi Hc Hb. rewrite A1. destruct (Nat.ltb_spec i (mz_nrows A)).
    + rewrite <- wA. apply mbit_entry; auto. lia.
    + rewrite <- wB. apply mbit_entry; auto. lia.
Qed.
Theorem mzed_submatrix_ok C A lr lc hr hc : wf_mzed A -> lr <= hr <= mz_nrows A -> lc <= hc <= mz_ncols A ->
  target C (fld A) (hr - lr) (hc - lc) ->
  wp (mzed_submatrix C A lr lc hr hc) (fun C' => holds C' (fld A) (hr - lr) (hc - lc)
     (fun i c => entry A (lr + i) (lc + c))).
Proof.
  intros HA Hr Hc HC. unfold mzed_submatrix. apply (target_ok C A _ _ HA HC).
  intros D HD E1 E2 E3.
  assert (wA : mz_w A = mz_w D) by now apply same_w.
  pose proof HA as (_ & _ & A1 & A2 & _). pose proof HD as (_ & _ & C1 & C2 & _).
  apply wp_bind. unfold mzd_submatrix. wp_guard_; [btrue; rewrite A1, A2; nia|].
  wp_check_; [btrue; rewrite C1, C2, <- wA, E2, E3; nia|]. cbn [wp].
  rewrite <- E1, <- E2, <- E3. apply becomes_holds. pose proof (good_w_pos _ (wf_good D HD)) as Pw.
  apply becomes_build; auto.
  - intros i c Hi Hc'. rewrite E1. apply wf_entry; auto; lia.
  - intros i c b Hi Hc' Hb. rewrite <- ?E2. replace (i <? mz_nrows D) with true by lia.
    replace (mz_w D * c + b <? hc * mz_w A - lc * mz_w A) with true by nia. cbn [andb].
    replace (lc * mz_w A + (mz_w D * c + b)) with (mz_w A * (lc + c) + b) by nia.
    apply mbit_entry; auto. lia.
Qed.

(** ** swaps *)
Theorem mzed_row_swap_ok A a b : wf_mzed A -> a < mz_nrows A -> b < mz_nrows A ->
  wp (mzed_row_swap A a b) (fun A' => becomes A A'
     (fun i c => if i =? a then entry A b c else if i =? b then entry A a c else entry A i c)).
Proof.
  intros HA Ha Hb. unfold mzed_row_swap, mzd_row_swap. pose proof HA as (_ & _ & A1 & A2 & _).
  apply wp_bind. wp_guard_; [btrue; lia|]. cbn [wp]. apply becomes_build; auto.
  - intros i c Hi Hc. destruct (i =? a), (i =? b); apply wf_entry; auto.
  - intros i c k Hi Hc Hk. destruct (i =? a), (i =? b); apply mbit_entry; auto.
Qed.
Theorem mzed_copy_row_ok B i A j : wf_mzed B -> wf_mzed A -> fld A = fld B -> mz_ncols A <= mz_ncols B ->
  i < mz_nrows B -> j < mz_nrows A ->
  wp (mzed_copy_row B i A j) (fun B' => becomes B B'
     (fun r c => if (r =? i) && (c <? mz_ncols A) then entry A j c else entry B r c)).
Proof.
  intros HB HA Ef Hc Hi Hj. unfold mzed_copy_row, mzd_copy_row.
  assert (wA : mz_w A = mz_w B) by now apply same_w.
  pose proof HA as (_ & _ & A1 & A2 & _). pose proof HB as (_ & _ & B1 & B2 & _).
  pose proof (good_w_pos _ (wf_good B HB)) as Pw.
  apply wp_bind. wp_guard_; [btrue; rewrite A1, A2, B1, B2, wA; nia|]. cbn [wp]. apply becomes_build; auto.
  - intros r c Hr Hcc. destruct (r =? i); cbn [andb]; [|now apply wf_entry].
    destruct (Nat.ltb_spec c (mz_ncols A)); [rewrite <- Ef|]; apply wf_entry; auto.
  - intros r c k Hr Hcc Hk. rewrite A2, wA.
    replace (mz_w B * c + k <? mz_w B * mz_ncols A) with (c <? mz_ncols A).
    2:{ destruct (Nat.ltb_spec c (mz_ncols A)); symmetry; [apply Nat.ltb_lt|apply Nat.ltb_ge]; nia. }
    destruct ((r =? i) && (c <? mz_ncols A)).
    + rewrite <- wA. apply mbit_entry; auto. lia.
    + apply mbit_entry; auto.
Qed.
Theorem mzed_row_add_ok A s d : wf_mzed A -> s < mz_nrows A -> d < mz_nrows A ->
  wp (mzed_row_add A s d) (fun A' => becomes A A'
     (fun i c => if i =? d then N.lxor (entry A d c) (entry A s c) else entry A i c)).
Proof.
  intros HA Ha Hb. unfold mzed_row_add, mzd_row_add. pose proof HA as (_ & _ & A1 & A2 & _).
  apply wp_bind. wp_guard_; [btrue; lia|]. cbn [wp]. apply becomes_build; auto.
  - intros i c Hi Hc. destruct (i =? d); [apply lxor_lt_pow2|]; apply wf_entry; auto.
  - intros i c k Hi Hc Hk. destruct (i =? d); [rewrite N.lxor_spec, !mbit_entry by easy; easy|]. apply mbit_entry; auto.
Qed.

(** element whose bits below t come from u, the others from v *)
Definition mix (t : nat) (u v : N) : N := N.lxor v (N.land (N.lxor u v) (N.ones (N.of_nat t))).
Lemma testbit_mix t u v k : N.testbit (mix t u v) (N.of_nat k) = N.testbit (if k <? t then u else v) (N.of_nat k).
Proof.
  unfold mix. rewrite N.lxor_spec, N.land_spec, N.lxor_spec.
  destruct (Nat.ltb_spec k t).
  - rewrite N.ones_spec_low by lia. destruct (N.testbit u _), (N.testbit v _); reflexivity.
  - rewrite N.ones_spec_high by lia. now rewrite andb_false_r, xorb_false_r.
Qed.
Lemma mix_lt t u v n : (u < 2 ^ n)%N -> (v < 2 ^ n)%N -> (mix t u v < 2 ^ n)%N.
Proof. intros Hu Hv. apply lxor_lt_pow2; auto. apply land_lt_pow2. now apply lxor_lt_pow2. Qed.
Lemma mix_0 u v : mix 0 u v = v.
Proof. unfold mix. change (N.ones (N.of_nat 0)) with 0%N. rewrite N.land_0_r. apply N.lxor_0_r. Qed.
Lemma mix_full t u v : (u < 2 ^ N.of_nat t)%N -> (v < 2 ^ N.of_nat t)%N -> mix t u v = u.
Proof.
  intros Hu Hv. unfold mix. rewrite N.land_ones, N.mod_small by now apply lxor_lt_pow2.
  xor_solve.
Qed.

(** the loop of bit-column swaps of mzed_col_swap_in_rows / mzed_col_swap *)
Lemma col_swap_loop A n a b start stop : wf_mzed A -> a < mz_ncols A -> b < mz_ncols A -> stop <= mz_nrows A ->
  ff_degree (mz_ff A) <= n <= mz_w A ->
  wp (for_ 0 n (fun e x => mzd_col_swap_in_rows x (mz_w A * a + e) (mz_w A * b + e) start stop) (mz_x A))
     (fun x => becomes A (mz_set_x A x)
        (fun i c => if (start <=? i) && (i <? stop) then
             (if c =? a then entry A i b else if c =? b then entry A i a else entry A i c) else entry A i c)).
Proof.
  intros HA Ha Hb Hst Hn. pose proof HA as (Wf & Ww & _). pose proof (good_w_pos _ (wf_good A HA)) as Pw.
  set (sw := fun (t i c : nat) => if (start <=? i) && (i <? stop) then
             (if c =? a then mix t (entry A i b) (entry A i c)
              else if c =? b then mix t (entry A i a) (entry A i c) else entry A i c) else entry A i c).
  assert (Hsw : forall t i c, i < mz_nrows A -> c < mz_ncols A -> inF (fld A) (sw t i c)).
  { intros t i c Hi Hc. unfold sw.
    destruct ((start <=? i) && (i <? stop)); [|now apply wf_entry].
    destruct (c =? a); [apply mix_lt; now apply wf_entry|].
    destruct (c =? b); [apply mix_lt; now apply wf_entry|now apply wf_entry]. }
  eapply wp_mono.
  - apply (wp_for (fun t x => becomes A (mz_set_x A x) (sw t))); [lia| |].
    + assert (E : mz_set_x A (mz_x A) = A) by now destruct A. rewrite E.
      eapply becomes_ext; [now apply becomes_refl|]. unfold sw. intros i c _ _. rewrite !mix_0.
      destruct ((start <=? i) && (i <? stop)); [|easy]. destruct (c =? a), (c =? b); reflexivity.
    + intros t x Ht B. set (A1 := mz_set_x A x) in *. pose proof (becomes_wf _ _ _ B) as H1.
      pose proof H1 as (_ & _ & X1 & X2 & _). cbn in X1, X2.
      unfold mzd_col_swap_in_rows. wp_guard_; [btrue; rewrite X1, X2; cbn; nia|]. cbn [wp].
      assert (B2 : becomes A1 (mz_set_x A1 (mzd_build x
           (fun i k => if (start <=? i) && (i <? stop) then
               if k =? mz_w A * a + t then mbit x i (mz_w A * b + t)
               else if k =? mz_w A * b + t then mbit x i (mz_w A * a + t) else mbit x i k else mbit x i k))) (sw (S t))).
      { apply (becomes_build A1); auto.
        intros i c k Hi Hc Hk. change (mz_nrows A1) with (mz_nrows A) in Hi. change (mz_ncols A1) with (mz_ncols A) in Hc.
        change (mz_w A1) with (mz_w A) in *.
        assert (Me : forall c k, k < mz_w A -> c < mz_ncols A -> mbit x i (mz_w A * c + k) = N.testbit (sw t i c) (N.of_nat k)).
        { intros c' k' Hk' Hc'. rewrite <- (becomes_entry _ _ _ _ _ B) by easy. now apply (mbit_entry A1). }
        assert (Eq : forall c c', (mz_w A * c + k =? mz_w A * c' + t) = (c =? c') && (k =? t)).
        { intros c1 c2. destruct (Nat.eqb_spec c1 c2) as [->|Hne]; cbn [andb].
          - destruct (Nat.eqb_spec k t); lia.
          - apply Nat.eqb_neq. nia. }
        rewrite !Eq. unfold sw.
        destruct ((start <=? i) && (i <? stop)) eqn:Ei.
        2:{ rewrite Me by easy. unfold sw. now rewrite Ei. }
        rewrite !Me by lia. unfold sw. rewrite Ei. rewrite !Nat.eqb_refl.
        destruct (Nat.eqb_spec c a) as [->|Hca]; cbn [andb].
        - destruct (Nat.eqb_spec k t) as [->|Hkt]; cbn [andb].
          + rewrite (testbit_mix (S t)). replace (t <? S t) with true by lia.
            destruct (Nat.eqb_spec b a) as [->|]; rewrite testbit_mix; now replace (t <? t) with false by lia.
          + destruct ((a =? b) && false) eqn:Z; [now rewrite andb_false_r in Z|].
            rewrite !testbit_mix. now replace (k <? S t) with (k <? t) by lia.
        - destruct (Nat.eqb_spec c b) as [->|Hcb]; cbn [andb]; [|easy].
          destruct (Nat.eqb_spec k t) as [->|Hkt].
          + rewrite !testbit_mix. replace (t <? S t) with true by lia. now replace (t <? t) with false by lia.
          + rewrite !testbit_mix. now replace (k <? S t) with (k <? t) by lia. }
      exact (becomes_trans _ _ _ _ _ B B2).
  - cbv beta. intros x B. eapply becomes_ext; [exact B|]. unfold sw. intros i c Hi Hc.
    destruct Wf as (_ & Hd & _).
    assert (Hlt : forall c, c < mz_ncols A -> (entry A i c < 2 ^ N.of_nat n)%N).
    { intros c' Hc'. eapply inF_lt_w; [exact Hd|lia|]. now apply wf_entry. }
    destruct ((start <=? i) && (i <? stop)); [|easy].
    destruct (c =? a); [apply mix_full; auto|]. destruct (c =? b); [apply mix_full; auto|easy].
Qed.
Theorem mzed_col_swap_in_rows_ok A a b start stop : wf_mzed A -> a < mz_ncols A -> b < mz_ncols A -> stop <= mz_nrows A ->
  wp (mzed_col_swap_in_rows A a b start stop) (fun A' => becomes A A'
     (fun i c => if (start <=? i) && (i <? stop) then
             (if c =? a then entry A i b else if c =? b then entry A i a else entry A i c) else entry A i c)).
Proof.
  intros HA Ha Hb Hs. unfold mzed_col_swap_in_rows. apply wp_bind. pose proof HA as (_ & Ww & _).
  destruct (degree_to_w_facts _ _ Ww) as (_ & H & _).
  eapply wp_mono; [apply col_swap_loop; eauto|]. now cbn.
Qed.
Theorem mzed_col_swap_ok A a b : wf_mzed A -> a < mz_ncols A -> b < mz_ncols A ->
  wp (mzed_col_swap A a b) (fun A' => becomes A A'
     (fun i c => if c =? a then entry A i b else if c =? b then entry A i a else entry A i c)).
Proof.
  intros HA Ha Hb. unfold mzed_col_swap. apply wp_bind. pose proof HA as (_ & Ww & Wn & _).
  destruct (degree_to_w_facts _ _ Ww) as (_ & H & _).
  assert (E : forall n j x, mzd_nrows x = mz_nrows A ->
     forloop n j (fun i x => mzd_col_swap x (mz_w A * a + i) (mz_w A * b + i)) x =
     forloop n j (fun i x => mzd_col_swap_in_rows x (mz_w A * a + i) (mz_w A * b + i) 0 (mz_nrows A)) x).
  { induction n as [|n IH]; intros j x Hx; [cbn [forloop]; reflexivity|].
    cbn [forloop]. unfold mzd_col_swap at 1. rewrite Hx.
    match goal with |- bind ?m _ = _ => destruct m as [y| |] eqn:Ey end; cbn [bind]; [|reflexivity|reflexivity]. apply IH.
    unfold mzd_col_swap_in_rows in Ey. destruct (guard _); cbn [bind] in Ey; try discriminate. injection Ey as <-. exact Hx. }
  unfold for_. rewrite E by exact Wn.
  eapply wp_mono; [apply (col_swap_loop A (mz_w A) a b 0 (mz_nrows A)); auto|].
  cbn [wp]. intros x B. eapply becomes_ext; [exact B|]. cbv beta. intros i c Hi Hc.
  now replace (i <? mz_nrows A) with true by lia.
Qed.
