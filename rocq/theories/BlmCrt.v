(** The matrices F and G of a CRT multiplication scheme determine the product. *)
From Coq Require Import NArith List Bool Arith Lia ZifyN ZifyNat ZifyBool.
From Verif Require Import Base Spec PolyFacts MatFacts Gf2xModel Gf2xProofs SliceMul KaraProofs IrrTable IrrProofs MzdModel MzedSpec SliceModel SliceSpec MzdFacts MzedProofs BlmTable BlmModel BlmSpec BlmFacts.
Import ListNotations.
Local Open Scope nat_scope.

(** ** partial correctness *)
Definition wlp {A} (m : res A) (P : A -> Prop) : Prop := match m with Ok a => P a | _ => True end.
Lemma wlp_bind {A B} (m : res A) (k : A -> res B) P : wlp m (fun a => wlp (k a) P) -> wlp (bind m k) P.
Proof. destruct m; cbn; easy. Qed.
Lemma wlp_mono {A} (m : res A) (P Q : A -> Prop) : wlp m P -> (forall a, P a -> Q a) -> wlp m Q.
Proof. destruct m; cbn; auto. Qed.
Lemma wlp_wp {A} (m : res A) P : wp m P -> wlp m P.
Proof. destruct m; cbn; easy. Qed.
Lemma wlp_guard (b : bool) (P : unit -> Prop) : (b = true -> P tt) -> wlp (guard b) P.
Proof. destruct b; cbn; auto. Qed.
Lemma wlp_forloop {S} (Inv : nat -> S -> Prop) n i body (s : S) : Inv i s ->
  (forall j t, i <= j < i + n -> Inv j t -> wlp (body j t) (Inv (Datatypes.S j))) -> wlp (forloop n i body s) (Inv (i + n)).
Proof.
  revert i s. induction n as [|n IH]; intros i s H0 Hs; [cbn; now rewrite Nat.add_0_r|].
  cbn [forloop]. apply wlp_bind. eapply wlp_mono; [apply Hs; [lia|exact H0]|].
  cbn. intros t Ht. replace (i + Datatypes.S n) with (Datatypes.S i + n) by lia.
  apply IH; [exact Ht|]. intros j u Hj Hu. apply Hs; [lia|exact Hu].
Qed.
Lemma wlp_for {S} (Inv : nat -> S -> Prop) lo hi body (s : S) : lo <= hi -> Inv lo s ->
  (forall j t, lo <= j < hi -> Inv j t -> wlp (body j t) (Inv (Datatypes.S j))) -> wlp (for_ lo hi body s) (Inv hi).
Proof.
  intros Hle H0 Hs. unfold for_. replace hi with (lo + (hi - lo)) at 2 by lia. apply wlp_forloop; [exact H0|]. intros j t Hj. apply Hs. lia.
Qed.
Lemma wlp_lget {A} (l : list A) i d (P : A -> Prop) : (i < length l -> P (nth i l d)) -> wlp (lget l i) P.
Proof. intros H. destruct (Nat.lt_ge_cases i (length l)); [rewrite (lget_ok l i d) by easy; cbn; auto|]. unfold lget. now rewrite (proj2 (nth_error_None l i)). Qed.
Lemma wlp_lset {A} (l : list A) i x (P : list A -> Prop) : (i < length l -> P (upd l i x)) -> wlp (lset l i x) P.
Proof. intros H. unfold lset. destruct (Nat.ltb_spec i (length l)); cbn; auto. Qed.

(** ** _crt_modred_mat *)
Lemma log2_shift poly k : poly <> 0%N -> N.log2 (N.shiftl poly k) = (N.log2 poly + k)%N.
Proof. intros H. apply N.log2_shiftl. easy. Qed.
Lemma while_ok poly d : poly <> 0%N -> pdeg poly = N.of_nat d -> 1 <= d ->
  forall fuel f ii, ii < fuel -> ii = N.to_nat (N.log2 f) ->
  wp (modred_while fuel poly d f ii) (fun r => fst r = pmod f poly /\ (fst r < 2 ^ N.of_nat (snd r + 1))%N /\ snd r < d).
Proof.
  intros Hp Hd H1. induction fuel as [|fuel IH]; intros f ii Hf Hi; [lia|]. cbn [modred_while].
  destruct (Nat.ltb_spec ii d) as [Hlt|Hge].
  - cbn [wp fst snd]. assert (Hfl : (f < 2 ^ N.of_nat (ii + 1))%N).
    { destruct (N.eq_dec f 0) as [->|Hf0]; [pose proof (N.pow_nonzero 2 (N.of_nat (ii + 1))); lia|]. apply N.log2_lt_pow2; lia. }
    split; [|now split]. rewrite pmod_small; [easy|easy|]. rewrite Hd. eapply N.lt_le_trans; [exact Hfl|]. apply N.pow_le_mono_r; lia.
  - set (f1 := N.lxor f _). assert (Hf0 : f <> 0%N) by (intros ->; cbn in Hi; lia).
    assert (Hf1 : (f1 < 2 ^ N.of_nat ii)%N).
    { apply lt_pow2_bits. intros k Hk. unfold f1. rewrite N.lxor_spec. destruct (N.eq_dec k (N.of_nat ii)) as [->|Hne].
      - rewrite N.shiftl_spec_high' by lia. replace (N.of_nat ii - N.of_nat (ii - d))%N with (N.log2 poly) by (unfold pdeg in Hd; lia).
        replace (N.of_nat ii) with (N.log2 f) by lia. rewrite !N.bit_log2 by easy. reflexivity.
      - rewrite (N.bits_above_log2 f) by lia. rewrite N.bits_above_log2; [easy|]. rewrite log2_shift by easy. unfold pdeg in Hd. lia. }
    assert (Hl : N.to_nat (N.log2 f1) < ii).
    { destruct (N.eq_dec f1 0) as [->|Hf10]; [cbn; lia|]. apply N.log2_lt_pow2 in Hf1; lia. }
    eapply wp_mono; [apply IH; [lia|reflexivity]|]. intros r (E & Hr). split; [|easy]. rewrite E. unfold f1. rewrite pmod_lxor by easy.
    rewrite <- pmul_pow2_l, pmod_mul_f by easy. apply N.lxor_0_r.
Qed.
Lemma while_bad poly d : (pdeg poly < N.of_nat d)%N -> 1 <= d ->
  forall fuel f ii, ii = N.to_nat (N.log2 f) -> wlp (modred_while fuel poly d f ii) (fun _ => ii < d).
Proof.
  intros Hd H1. induction fuel as [|fuel IH]; intros f ii Hi; cbn [modred_while]; destruct (Nat.ltb_spec ii d) as [Hlt|Hge]; try easy.
  set (f1 := N.lxor f _). assert (Hf0 : f <> 0%N) by (intros ->; cbn in Hi; lia).
  assert (El : N.log2 f1 = N.log2 f).
  { apply N.log2_bits_unique.
    - unfold f1. rewrite N.lxor_spec, N.bit_log2 by easy. rewrite N.bits_above_log2; [easy|].
      destruct (N.eq_dec poly 0) as [->|Hp]; [rewrite N.shiftl_0_l; cbn; lia|]. rewrite log2_shift by easy. unfold pdeg in Hd. lia.
    - intros k Hk. unfold f1. rewrite N.lxor_spec, !N.bits_above_log2; try easy.
      destruct (N.eq_dec poly 0) as [->|Hp]; [rewrite N.shiftl_0_l; cbn; lia|]. rewrite log2_shift by easy. unfold pdeg in Hd. lia. }
  replace (N.to_nat (N.log2 f1)) with ii by (rewrite El; exact Hi). eapply wlp_mono; [apply (IH f1 ii); rewrite El; exact Hi|]. cbv beta. auto.
Qed.
(** column i *)
Definition colv (poly : N) (d i : nat) : N := if i <? d then (2 ^ N.of_nat i)%N else pmod (2 ^ N.of_nat i) poly.
Lemma colv_pmod poly d i : poly <> 0%N -> pdeg poly = N.of_nat d -> colv poly d i = pmod (2 ^ N.of_nat i) poly.
Proof. intros Hp Hd. unfold colv. destruct (Nat.ltb_spec i d); [|easy]. rewrite pmod_small; [easy|easy|]. rewrite Hd. apply N.pow_lt_mono_r; lia. Qed.
Lemma colv_lt poly d i : poly <> 0%N -> pdeg poly = N.of_nat d \/ i < d -> (colv poly d i < 2 ^ N.of_nat d)%N.
Proof.
  intros Hp H. unfold colv. destruct (Nat.ltb_spec i d).
  - apply N.pow_lt_mono_r; lia.
  - destruct H as [H|H]; [|lia]. rewrite <- H. now apply pmod_lt.
Qed.
Lemma while_any poly d i : poly <> 0%N -> (pdeg poly <= N.of_nat d)%N -> 1 <= d ->
  wlp (modred_while (S i) poly d (2 ^ N.of_nat i) i) (fun r => (pdeg poly = N.of_nat d \/ i < d) /\ fst r = colv poly d i /\ (fst r < 2 ^ N.of_nat (snd r + 1))%N /\ snd r < d).
Proof.
  intros Hp Hd H1. assert (Hl : i = N.to_nat (N.log2 (2 ^ N.of_nat i))) by (rewrite N.log2_pow2 by lia; lia).
  destruct (N.eq_dec (pdeg poly) (N.of_nat d)) as [E|E].
  - eapply wlp_mono; [apply wlp_wp, (while_ok poly d Hp E H1 (S i) _ i); [lia|exact Hl]|]. intros r (A & B & C). rewrite colv_pmod by easy. auto.
  - destruct (Nat.lt_ge_cases i d) as [Hi|Hi].
    + cbn [modred_while]. replace (i <? d) with true by lia. cbn [wlp fst snd]. unfold colv. replace (i <? d) with true by lia.
      split; [now right|]. split; [easy|]. split; [apply N.pow_lt_mono_r; lia|lia].
    + eapply wlp_mono; [apply (while_bad poly d ltac:(lia) H1 (S i) _ i Hl)|]. cbv beta. intros r Hr. lia.
Qed.
(** the effect on A of writing one column *)
Lemma column_ok A d len i f ii : wf_mzd A -> mzd_nrows A = d -> mzd_ncols A = len -> i < len -> ii < d -> (f < 2 ^ N.of_nat (ii + 1))%N ->
  (forall j, j < d -> mbit A j i = false) ->
  wp (for_ 0 (ii + 1) (fun j A => mzd_write_bit A j i (N.testbit f (N.of_nat j))) A)
     (fun A' => mset A A' (fun j k => if k =? i then N.testbit f (N.of_nat j) else mbit A j k)).
Proof.
  intros HA Hn Hc Hi Hii Hf Hz.
  eapply wp_mono; [apply (wp_for (fun j B => mset A B (fun j' k => if (j' <? j) && (k =? i) then N.testbit f (N.of_nat j') else mbit A j' k))); [lia| |]|].
  - apply (mset_ext _ _ (mbit A)); [now apply mset_refl|]. intros. now replace (i0 <? 0) with false by lia.
  - intros j B Hj HB. pose proof (mset_wf _ _ _ HB) as WB. pose proof (mset_nr _ _ _ HB) as RB. pose proof (mset_nc _ _ _ HB) as CB.
    eapply wp_mono; [apply write_bit_ok; [easy|lia|lia]|]. intros B' HB'. eapply mset_step; [exact HB|exact HB'|]. cbv beta. intros j' k Hj' Hk.
    rewrite (mset_bit _ _ _ _ _ HB) by easy. destruct (Nat.eqb_spec j' j), (Nat.eqb_spec k i); subst; cbn [andb]; rewrite ?andb_false_r, ?andb_true_r; try easy.
    + now replace (j <? S j) with true by lia.
    + destruct (Nat.ltb_spec j' j); [now replace (j' <? S j) with true by lia|now replace (j' <? S j) with false by lia].
  - cbv beta. intros B HB. apply (mset_ext _ _ _ _ HB). intros j k Hj Hk. destruct (Nat.eqb_spec k i) as [->|]; [|now rewrite andb_false_r].
    rewrite andb_true_r. destruct (Nat.ltb_spec j (ii + 1)); [easy|]. rewrite Hz by lia. symmetry. apply (proj1 (lt_pow2_bits f (N.of_nat (ii + 1))) Hf). lia.
Qed.
Lemma modred_any len poly d : poly <> 0%N -> (pdeg poly <= N.of_nat d)%N -> 1 <= d ->
  wlp (crt_modred_mat len poly d) (fun M => (pdeg poly = N.of_nat d \/ len <= d) /\ mset (mzd_init d len) M (fun j i => N.testbit (colv poly d i) (N.of_nat j))).
Proof.
  intros Hp Hd H1. unfold crt_modred_mat. replace (poly =? 0)%N with false by lia.
  eapply wlp_mono; [apply (wlp_for (fun n M => (pdeg poly = N.of_nat d \/ n <= d) /\ mset (mzd_init d len) M (fun j i => (i <? n) && N.testbit (colv poly d i) (N.of_nat j)))); [lia| |]|].
  - split; [right; lia|]. apply (mset_ext _ _ (mbit (mzd_init d len))); [apply mset_refl, wf_init|]. intros i k _ _. now rewrite init_bit.
  - intros i M Hi (Hc & HM). apply wlp_bind. eapply wlp_mono; [now apply while_any|]. intros [f ii] (Hor & Ef & Hf & Hii). cbn [fst snd] in *.
    pose proof (mset_wf _ _ _ HM) as WM. pose proof (mset_nr _ _ _ HM) as RM. pose proof (mset_nc _ _ _ HM) as CM. cbn in RM, CM.
    eapply wlp_mono; [apply wlp_wp, (column_ok M d len i f ii); auto; [lia|]|].
    + intros j Hj. rewrite (mset_bit _ _ _ _ _ HM) by (cbn; lia). now rewrite Nat.ltb_irrefl.
    + cbv beta. intros M' HM'. split; [destruct Hor; [now left|right; lia]|]. eapply mset_step; [exact HM|exact HM'|]. cbv beta. cbn [mzd_init mzd_nrows mzd_ncols]. intros j k Hj Hk.
      rewrite (mset_bit _ _ _ _ _ HM) by (cbn; lia). destruct (Nat.eqb_spec k i) as [->|Hne].
      * replace (i <? S i) with true by lia. now rewrite Ef.
      * destruct (Nat.ltb_spec k i); [now replace (k <? S i) with true by lia|now replace (k <? S i) with false by lia].
  - cbv beta. intros M (Hc & HM). split; [easy|]. apply (mset_ext _ _ _ _ HM). cbn [mzd_init mzd_nrows mzd_ncols]. intros j k _ Hk. now replace (k <? len) with true by lia.
Qed.
Lemma modred_ok_deg len poly d : poly <> 0%N -> pdeg poly = N.of_nat d -> 1 <= d ->
  wp (crt_modred_mat len poly d) (fun M => mset (mzd_init d len) M (fun j i => N.testbit (pmod (2 ^ N.of_nat i) poly) (N.of_nat j))).
Proof.
  intros Hp Hd H1.
  assert (Ht : wp (crt_modred_mat len poly d) (fun _ => True)).
  { unfold crt_modred_mat. replace (poly =? 0)%N with false by lia.
    eapply wp_mono; [apply (wp_for (fun n M => mset (mzd_init d len) M (fun j i => (i <? n) && mbit M j i))); [lia| |]|easy].
    - apply (mset_ext _ _ (mbit (mzd_init d len))); [apply mset_refl, wf_init|]. intros i k _ _. rewrite init_bit. now rewrite andb_false_r.
    - intros i M Hi HM. apply wp_bind. eapply wp_mono; [apply (while_ok poly d Hp Hd H1 (S i) _ i); [lia|rewrite N.log2_pow2 by lia; lia]|].
      intros [f ii] (Ef & Hf & Hii). cbn [fst snd] in *.
      pose proof (mset_wf _ _ _ HM) as WM. pose proof (mset_nr _ _ _ HM) as RM. pose proof (mset_nc _ _ _ HM) as CM. cbn in RM, CM.
      eapply wp_mono; [apply (column_ok M d len i f ii); auto; [lia|]|].
      + intros j Hj. rewrite (mset_bit _ _ _ _ _ HM) by (cbn; lia). now rewrite Nat.ltb_irrefl.
      + cbv beta. intros M' HM'. eapply mset_step; [exact HM|exact HM'|]. cbv beta. cbn [mzd_init mzd_nrows mzd_ncols]. intros j k Hj Hk.
        rewrite (mset_bit _ _ _ j k HM') by lia. destruct (Nat.eqb_spec k i) as [->|Hne]; [now replace (i <? S i) with true by lia|].
        rewrite (mset_bit _ _ _ _ _ HM) by (cbn; lia). destruct (Nat.ltb_spec k i); [now replace (k <? S i) with true by lia|now replace (k <? S i) with false by lia]. }
  destruct (proj1 (wp_iff _ _) Ht) as (M & EM & _). rewrite EM. cbn. pose proof (modred_any len poly d Hp ltac:(lia) H1) as Ha. rewrite EM in Ha. cbn in Ha.
  destruct Ha as (_ & Ha). apply (mset_ext _ _ _ _ Ha). cbn [mzd_init mzd_nrows mzd_ncols]. intros j k _ _. now rewrite colv_pmod.
Qed.
Lemma modred_inf len d : d <= len ->
  wp (crt_modred_mat len 0 d) (fun M => mset (mzd_init d len) M (fun j i => j + i + 1 =? len)).
Proof.
  intros H. unfold crt_modred_mat. change (0 =? 0)%N with true. cbv iota.
  eapply wp_mono; [apply (wp_for (fun n M => mset (mzd_init d len) M (fun j i => (j <? n) && (j + i + 1 =? len)))); [lia| |]|].
  - apply (mset_ext _ _ (mbit (mzd_init d len))); [apply mset_refl, wf_init|]. intros i k _ _. now rewrite init_bit.
  - intros i M Hi HM. apply wp_bind, wp_guard; [lia|]. pose proof (mset_wf _ _ _ HM) as WM. pose proof (mset_nr _ _ _ HM) as RM. pose proof (mset_nc _ _ _ HM) as CM. cbn in RM, CM.
    eapply wp_mono; [apply write_bit_ok; [easy|lia|lia]|]. intros M' HM'. eapply mset_step; [exact HM|exact HM'|]. cbv beta. cbn [mzd_init mzd_nrows mzd_ncols]. intros j k Hj Hk.
    rewrite (mset_bit _ _ _ _ _ HM) by (cbn; lia). destruct (Nat.eqb_spec j i) as [->|Hne]; cbn [andb].
    + replace (i <? S i) with true by lia. destruct (Nat.eqb_spec k (len - i - 1)); cbn [andb]; [lia|]. rewrite Nat.ltb_irrefl. cbn [andb]. lia.
    + destruct (Nat.ltb_spec j i); [now replace (j <? S i) with true by lia|now replace (j <? S i) with false by lia].
  - cbv beta. intros M HM. apply (mset_ext _ _ _ _ HM). cbn [mzd_init mzd_nrows mzd_ncols]. intros j k Hj _. now replace (j <? d) with true by lia.
Qed.
Lemma modred_inf_conv len d : wlp (crt_modred_mat len 0 d) (fun _ => d <= len).
Proof.
  unfold crt_modred_mat. change (0 =? 0)%N with true. cbv iota. eapply wlp_mono; [apply (wlp_for (fun n _ => n <= len)); [lia|lia|]|easy].
  cbv beta. intros i M Hi Hl. apply wlp_bind, wlp_guard. intros Hg. destruct (mzd_write_bit M i (len - i - 1) true); cbn; lia.
Qed.
