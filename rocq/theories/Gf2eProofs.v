(** Proofs about the model of gf2e_init and field multiplication. *)
From Coq Require Import NArith Lia List Bool Arith Ring.
From Coq Require Import ZifyBool ZifyNat ZifyN.
From Verif Require Import Base Spec PolyFacts Gf2xModel Gf2xProofs Gf2eModel.
Import ListNotations.
Local Open Scope N_scope.

Lemma pow_nat_N n : N.of_nat (2 ^ n) = 2 ^ N.of_nat n.
Proof. now rewrite Nnat.Nat2N.inj_pow. Qed.
Lemma pow2_pos n : (0 < 2 ^ n)%nat.
Proof. pose proof (Nat.pow_nonzero 2 n). lia. Qed.

(** ** degree *)
Lemma gf2e_init_degree_spec n f :
  f <> 0 -> f < 2 ^ N.of_nat n -> gf2e_init_degree n f = N.to_nat (pdeg f).
Proof.
  revert f. induction n as [|n IH]; intros f Hf L.
  - change (2 ^ N.of_nat 0) with 1 in L. lia.
  - cbn [gf2e_init_degree]. destruct (N.testbit f (N.of_nat n)) eqn:E.
    + assert (pdeg f = N.of_nat n); [|lia]. unfold pdeg. apply N.le_antisymm.
      * rewrite Nnat.Nat2N.inj_succ in L. apply N.log2_lt_pow2 in L; lia.
      * destruct (N.le_gt_cases (N.of_nat n) (N.log2 f)); [easy|].
        apply N.bits_above_log2 in H. congruence.
    + apply IH; [easy|]. apply lt_pow2_bits. intros k Hk.
      destruct (N.eq_dec k (N.of_nat n)) as [->|]; [easy|].
      rewrite lt_pow2_bits in L. apply L. lia.
Qed.

(** ** red *)
Lemma twopow_land j i : (j < 64)%nat -> (N.land (twopow j) i =? 0) = negb (N.testbit i (N.of_nat j)).
Proof.
  intros Hj. rewrite twopow_spec by easy. destruct (N.testbit i (N.of_nat j)) eqn:E; cbn.
  - apply N.eqb_neq. intro H. apply (f_equal (fun z => N.testbit z (N.of_nat j))) in H.
    rewrite N.land_spec, N.pow2_bits_true, E, N.bits_0 in H. discriminate.
  - apply N.eqb_eq. apply N.bits_inj. intro k. rewrite N.land_spec, N.bits_0, N.pow2_bits_eqb.
    destruct (N.eqb_spec (N.of_nat j) k) as [<-|]; [now rewrite E|reflexivity].
Qed.

Lemma red_tmp_spec n i f m :
  f < 2 ^ m -> m + N.of_nat n <= 65 -> (n <= 64)%nat ->
  gf2e_init_red_tmp n i f = pmul (N.land i (N.ones (N.of_nat n))) f.
Proof.
  induction n as [|n IH]; intros Hf Hm Hn.
  - change (N.ones (N.of_nat 0)) with 0. now rewrite N.land_0_r.
  - cbn [gf2e_init_red_tmp]. rewrite IH by lia.
    rewrite Nnat.Nat2N.inj_succ, pmul_low_step. f_equal. rewrite twopow_land by lia.
    destruct (N.testbit i (N.of_nat n)); cbn [negb]; [|reflexivity].
    apply (wshl_small _ _ _ Hf). lia.
Qed.

(** what a table of reductors must satisfy *)
Definition red_ok (f : N) (e : nat) (red : list N) : Prop :=
  length red = (2 ^ e)%nat /\
  forall h, h < 2 ^ N.of_nat e ->
    (exists q, q < 2 ^ N.of_nat e /\ nth (N.to_nat h) red 0 = pmul q f) /\
    N.shiftr (nth (N.to_nat h) red 0) (N.of_nat e) = h.

Lemma shiftr_eq_lxor_lt a b e : N.shiftr a e = N.shiftr b e <-> N.lxor a b < 2 ^ e.
Proof.
  split.
  - intros H. apply lt_pow2_bits. intros k Hk. rewrite N.lxor_spec.
    apply (f_equal (fun z => N.testbit z (k - e))) in H. rewrite !N.shiftr_spec' in H.
    replace (k - e + e) with k in H by lia. rewrite H. apply xorb_nilpotent.
  - intros H. rewrite lt_pow2_bits in H. apply N.bits_inj. intro k. rewrite !N.shiftr_spec'.
    specialize (H (k + e)). rewrite N.lxor_spec in H. apply Bool.xorb_eq. apply H. lia.
Qed.

Lemma shiftr_lt a e n : a < 2 ^ (e + n) -> N.shiftr a e < 2 ^ n.
Proof.
  intros H. apply lt_pow2_bits. intros k Hk. rewrite N.shiftr_spec'.
  rewrite lt_pow2_bits in H. apply H. lia.
Qed.

Section Red.
Variables (f : N) (e : nat).
Hypothesis He : pdeg f = N.of_nat e.
Hypothesis He16 : (1 <= e <= 16)%nat.
Let f0 : f <> 0.
Proof. intros E. rewrite E in He. cbn in He. lia. Qed.
Let Lf : f < 2 ^ (N.of_nat e + 1).
Proof. rewrite <- He. apply lt_pow2_log2. Qed.

Lemma top_mul_inj q q' : N.shiftr (pmul q f) (N.of_nat e) = N.shiftr (pmul q' f) (N.of_nat e) -> q = q'.
Proof.
  intros H. rewrite shiftr_eq_lxor_lt in H. rewrite <- pmul_lxor_l in H.
  rewrite <- He in H. apply pmul_small_0 in H; [|exact f0]. now apply N.lxor_eq.
Qed.
Lemma top_mul_surj h : h < 2 ^ N.of_nat e ->
  exists q, q < 2 ^ N.of_nat e /\ N.shiftr (pmul q f) (N.of_nat e) = h.
Proof.
  intros Hh. destruct (pmod_spec (N.shiftl h (N.of_nat e)) f f0) as [q Hq].
  exists q. assert (S1 := quo_size _ _ _ _ f0 Hq). destruct Hq as [Eq Lq]. split.
  - apply size_lt_pow2. rewrite (size_pdeg f) in S1 by exact f0.
    assert (N.size (N.shiftl h (N.of_nat e)) <= N.of_nat e + N.of_nat e); [|lia].
    apply lt_pow2_size. rewrite N.shiftl_mul_pow2, N.pow_add_r.
    apply N.mul_lt_mono_pos_r; [|easy]. apply N.neq_0_lt_0, N.pow_nonzero; lia.
  - transitivity (N.shiftr (N.shiftl h (N.of_nat e)) (N.of_nat e)).
    + apply shiftr_eq_lxor_lt. set (r := pmod (N.shiftl h (N.of_nat e)) f) in *.
      rewrite Eq, <- He.
      match goal with |- ?x < _ => replace x with r by xor_solve end. exact Lq.
    + apply N.bits_inj. intro k. rewrite N.shiftr_spec', N.shiftl_spec_high' by lia.
      f_equal. lia.
Qed.

Lemma gf2e_init_red_ok : wp (gf2e_init_red e f) (red_ok f e).
Proof.
  unfold gf2e_init_red.
  set (top := fun i : nat => N.to_nat (N.shiftr (pmul (N.of_nat i) f) (N.of_nat e))).
  assert (Htmp : forall i, (i < 2 ^ e)%nat ->
     gf2e_init_red_tmp e (N.of_nat i) f = pmul (N.of_nat i) f).
  { intros i Hi. rewrite (red_tmp_spec e (N.of_nat i) f (N.of_nat e + 1)) by lia.
    rewrite N.land_ones, N.mod_small; [reflexivity|]. rewrite <- pow_nat_N. lia. }
  assert (Htop : forall i, (i < 2 ^ e)%nat -> (top i < 2 ^ e)%nat).
  { intros i Hi. unfold top.
    assert (N.shiftr (pmul (N.of_nat i) f) (N.of_nat e) < 2 ^ N.of_nat e).
    { apply shiftr_lt. eapply N.lt_le_trans.
      - apply (pmul_lt_pow2 _ _ (N.of_nat e) (N.of_nat e + 1)); [rewrite <- pow_nat_N; lia | exact Lf | lia].
      - apply N.pow_le_mono_r; lia. }
    rewrite <- pow_nat_N in H. lia. }
  eapply wp_mono.
  - apply (wp_for (fun i red => length red = (2 ^ e)%nat /\
       (forall j, (j < i)%nat -> nth (top j) red 0 = pmul (N.of_nat j) f) /\
       (forall j, (i <= j < 2 ^ e)%nat -> nth (top j) red 0 = 0))).
    + pose proof (pow2_pos e). lia.
    + split; [apply repeat_length|]. split.
      * intros j Hj. assert (j = O) as -> by lia. rewrite pmul_0_l. apply nth_repeat.
      * intros. apply nth_repeat.
    + intros i red Hi (Hlen & H1 & H2). rewrite Htmp by lia. unfold wshr. fold (top i).
      assert (Hti := Htop i ltac:(lia)).
      rewrite (lget_ok red (top i) 0) by lia. cbn [bind].
      rewrite H2 by lia. cbn [guard bind N.eqb]. rewrite lset_ok by lia. cbn [wp].
      assert (Hinj : forall j, (j < 2^e)%nat -> top i = top j -> i = j).
      { intros j Hj Hij. unfold top in Hij. apply Nnat.N2Nat.inj in Hij.
        apply top_mul_inj in Hij. lia. }
      split; [now rewrite upd_length|]. split.
      * intros j Hj. rewrite nth_upd by lia. destruct (Nat.eqb_spec (top i) (top j)) as [Hij|Hij].
        -- apply Hinj in Hij; [now subst j | lia].
        -- apply H1. assert (i <> j) by (intros ->; now apply Hij). lia.
      * intros j Hj. rewrite nth_upd by lia. destruct (Nat.eqb_spec (top i) (top j)) as [Hij|Hij].
        -- apply Hinj in Hij; lia.
        -- apply H2. lia.
  - intros red (Hlen & H1 & _). split; [easy|]. intros h Hh.
    destruct (top_mul_surj h Hh) as (q & Lq & Eq).
    assert (E : nth (N.to_nat h) red 0 = pmul q f).
    { specialize (H1 (N.to_nat q)). unfold top in H1. rewrite Nnat.N2Nat.id, Eq in H1.
      apply H1. rewrite <- pow_nat_N in Lq. lia. }
    rewrite E. split; [now exists q | exact Eq].
Qed.

Lemma red_reduces red a : red_ok f e red -> a < 2 ^ (N.of_nat e + N.of_nat e) ->
  wp (lget red (N.to_nat (wshr a e))) (fun q => N.lxor a q = pmod a f).
Proof.
  intros [Hlen Hred] Ha.
  assert (Hh : N.shiftr a (N.of_nat e) < 2 ^ N.of_nat e) by now apply shiftr_lt.
  unfold wshr. rewrite (lget_ok red _ 0) by (rewrite Hlen; rewrite <- pow_nat_N in Hh; lia). cbn [wp].
  destruct (Hred _ Hh) as [(q & Lq & Eq) Et]. symmetry.
  apply (pmod_unique a f q _ f0).
  - rewrite Eq. xor_solve.
  - rewrite He. apply shiftr_eq_lxor_lt. now rewrite Et.
Qed.

(** ** pow_gen *)
Lemma pow_loop_spec n p :
  (n + e <= 2 * e)%nat -> p < 2 ^ N.of_nat (e + n) ->
  gf2e_init_pow_loop n e f p = pmod p f.
Proof.
  revert p. induction n as [|s IH]; intros p Hn Hp.
  - cbn. symmetry. apply pmod_small; [exact f0|]. rewrite He. now rewrite Nat.add_0_r in Hp.
  - cbn [gf2e_init_pow_loop]. rewrite N.land_comm, twopow_land by lia.
    destruct (N.testbit p (N.of_nat (e + s))) eqn:E; cbn [negb].
    + rewrite IH.
      * rewrite pmod_lxor by exact f0. rewrite (wshl_small _ _ _ Lf) by lia.
        rewrite <- pmul_pow2_l, pmod_mul_f by exact f0. now rewrite N.lxor_0_r.
      * lia.
      * rewrite (wshl_small _ _ _ Lf) by lia.
        apply lt_pow2_bits. intros k Hk. rewrite N.lxor_spec, N.shiftl_spec_high' by lia.
        destruct (N.eq_dec k (N.of_nat (e + s))) as [->|Hne].
        -- rewrite E. replace (N.of_nat (e + s) - N.of_nat s) with (pdeg f) by lia.
           unfold pdeg. now rewrite N.bit_log2.
        -- pose proof Lf as Lf'. rewrite lt_pow2_bits in Hp, Lf'. rewrite Hp, Lf' by lia. reflexivity.
    + apply IH; [lia|]. apply lt_pow2_bits. intros k Hk.
      destruct (N.eq_dec k (N.of_nat (e + s))) as [->|Hne]; [easy|].
      rewrite lt_pow2_bits in Hp. apply Hp. lia.
Qed.

Definition pow_ok (pow : list N) : Prop :=
  length pow = (2 * e - 1)%nat /\
  forall i, (i < 2 * e - 1)%nat -> nth i pow 0 = pmod (ppow 2 i) f.

Lemma gf2e_init_pow_ok : pow_ok (gf2e_init_pow e f).
Proof.
  split.
  - unfold gf2e_init_pow. now rewrite map_length, seq_length.
  - intros i Hi. unfold gf2e_init_pow.
    rewrite (nth_indep _ 0 (gf2e_init_pow_loop (S (0%nat) - e) e f (twopow 0)))
      by now rewrite map_length, seq_length.
    rewrite (map_nth (fun i => gf2e_init_pow_loop (S i - e) e f (twopow i))).
    rewrite seq_nth by easy. cbn [Nat.add].
    rewrite twopow_spec by lia. rewrite ppow_2. apply pow_loop_spec; [lia|].
    apply N.pow_lt_mono_r; lia.
Qed.

(** ** multiplication table *)
Definition tab_ok (tab : list (list N)) : Prop :=
  length tab = (2 ^ e)%nat /\
  forall a, a < 2 ^ N.of_nat e ->
    length (nth (N.to_nat a) tab []) = (2 ^ e)%nat /\
    forall b, b < 2 ^ N.of_nat e -> nth (N.to_nat b) (nth (N.to_nat a) tab []) 0 = fmul f a b.

Lemma mul_red_step red a b :
  red_ok f e red -> a < 2 ^ N.of_nat e -> b < 2 ^ N.of_nat e ->
  wp (r <- gf2x_mul a b e ;; q <- lget red (N.to_nat (wshr r e)) ;; Ok (N.lxor r q))
     (fun v => v = fmul f a b).
Proof.
  intros Hred Ha Hb. rewrite (gf2x_mul_correct a b e (N.of_nat e)) by (easy || lia). cbn [bind].
  apply wp_bind. eapply wp_mono.
  - apply (red_reduces red (pmul a b) Hred). eapply N.lt_le_trans.
    + apply (pmul_lt_pow2 _ _ _ _ Ha Hb). lia.
    + apply N.pow_le_mono_r; lia.
  - cbn. intros q ->. reflexivity.
Qed.

Lemma gf2e_init_mul_row_ok red i :
  red_ok f e red -> (i < 2 ^ e)%nat ->
  wp (gf2e_init_mul_row e red i) (fun row => length row = (2 ^ e)%nat /\
     forall j, (j < 2 ^ e)%nat -> nth j row 0 = fmul f (N.of_nat i) (N.of_nat j)).
Proof.
  intros Hred Hi. unfold gf2e_init_mul_row. eapply wp_mono.
  - apply (wp_for (fun j row => length row = (2 ^ e)%nat /\
      forall k, (k < j)%nat -> nth k row 0 = fmul f (N.of_nat i) (N.of_nat k))).
    + pose proof (pow2_pos e). lia.
    + split; [apply repeat_length|]. intros k Hk. assert (k = O) as -> by lia.
      rewrite nth_repeat. now rewrite fmul_0_r.
    + intros j row Hj [Hlen Hrow].
      assert (S1 := mul_red_step red (N.of_nat i) (N.of_nat j) Hred).
      rewrite <- pow_nat_N in S1. specialize (S1 ltac:(lia) ltac:(lia)).
      destruct (gf2x_mul _ _ _) as [r| |]; cbn [bind] in *; try easy.
      destruct (lget _ _) as [q| |]; cbn [bind wp] in *; try easy.
      rewrite lset_ok by lia. cbn [wp]. split; [now rewrite upd_length|].
      intros k Hk. rewrite nth_upd by lia. destruct (Nat.eqb_spec j k) as [->|]; [easy|].
      apply Hrow. lia.
  - cbn. intros row [H1 H2]. split; auto.
Qed.

Lemma gf2e_init_mul_ok red : red_ok f e red -> wp (gf2e_init_mul e red) tab_ok.
Proof.
  intros Hred. unfold gf2e_init_mul. eapply wp_mono.
  - apply (wp_for (fun i tab => length tab = i /\
      forall k, (k < i)%nat -> length (nth k tab []) = (2 ^ e)%nat /\
        forall j, (j < 2 ^ e)%nat -> nth j (nth k tab []) 0 = fmul f (N.of_nat k) (N.of_nat j))).
    + pose proof (pow2_pos e). lia.
    + split; [reflexivity|]. intros k Hk. assert (k = O) as -> by lia. cbn [nth].
      split; [apply repeat_length|]. intros. now rewrite nth_repeat.
    + intros i tab Hi [Hlen Htab]. apply wp_bind. eapply wp_mono; [apply gf2e_init_mul_row_ok; [easy|lia]|].
      cbn. intros row [R1 R2]. split; [rewrite app_length; cbn; lia|].
      intros k Hk. destruct (Nat.eq_dec k i) as [->|Hne].
      * rewrite app_nth2, Hlen, Nat.sub_diag by lia. cbn [nth]. auto.
      * rewrite app_nth1 by lia. apply Htab. lia.
  - cbn. intros tab [H1 H2]. split; [easy|]. intros a Ha. rewrite <- pow_nat_N in Ha.
    destruct (H2 (N.to_nat a)) as [H3 H4]; [lia|]. split; [easy|].
    intros b Hb. rewrite <- pow_nat_N in Hb. rewrite H4 by lia. now rewrite !Nnat.N2Nat.id.
Qed.
End Red.

(** ** Well-formed field handles *)
Definition gf2e_wf (ff : gf2e) : Prop :=
  let f := ff_minpoly ff in let e := ff_degree ff in
  (1 <= e <= 16)%nat /\ pdeg f = N.of_nat e /\
  pow_ok f e (ff_pow_gen ff) /\ red_ok f e (ff_red ff) /\
  match ff_tab ff with
  | Some tab => (e <= 8)%nat /\ tab_ok f e tab
  | None => (8 < e)%nat
  end.

Theorem gf2e_init_wf f :
  1 <= pdeg f <= 16 ->
  wp (gf2e_init f) (fun ff => ff_minpoly ff = f /\ N.of_nat (ff_degree ff) = pdeg f /\ gf2e_wf ff).
Proof.
  intros Hd.
  assert (f0 : f <> 0) by (intros ->; cbn in Hd; lia).
  unfold gf2e_init. rewrite (gf2e_init_degree_spec 17 f f0).
  2:{ apply N.log2_lt_pow2; unfold pdeg in Hd; lia. }
  set (e := N.to_nat (pdeg f)).
  assert (He : pdeg f = N.of_nat e) by (subst e; lia).
  assert (He16 : (1 <= e <= 16)%nat) by lia.
  replace (e =? 0)%nat with false by lia. cbn [negb guard bind].
  apply wp_bind. eapply wp_mono; [apply (gf2e_init_red_ok f e He He16)|].
  cbn. intros red Hred.
  destruct (Nat.leb_spec e 8) as [H8|H8].
  - apply wp_bind. eapply wp_mono; [apply (gf2e_init_mul_ok f e He He16 red Hred)|].
    intros tab Htab. cbn. split; [easy|]. split; [easy|].
    split; [easy|]. split; [easy|]. split; [now apply gf2e_init_pow_ok|]. split; [easy|]. cbn. auto.
  - cbn. split; [easy|]. split; [easy|].
    split; [easy|]. split; [easy|]. split; [now apply gf2e_init_pow_ok|]. split; easy.
Qed.

Lemma gf2e_wf_f0 ff : gf2e_wf ff -> ff_minpoly ff <> 0.
Proof. intros (He & Hd & _) E. rewrite E in Hd. cbn in Hd. lia. Qed.

Theorem gf2e_mul_ok ff a b :
  gf2e_wf ff -> inF (ff_minpoly ff) a -> inF (ff_minpoly ff) b ->
  gf2e_mul ff a b = Ok (fmul (ff_minpoly ff) a b).
Proof.
  intros Hwf Ha Hb. pose proof Hwf as (He & Hd & Hp & Hr & Ht).
  unfold inF in Ha, Hb. rewrite Hd in Ha, Hb.
  unfold gf2e_mul. destruct (ff_tab ff) as [tab|].
  - destruct Ht as (H8 & Hlen & Htab). unfold gf2e_mul_table.
    rewrite <- pow_nat_N in Ha, Hb.
    rewrite (lget_ok tab _ []) by lia. cbn [bind].
    destruct (Htab a) as [H1 H2]; [now rewrite <- pow_nat_N|].
    rewrite (lget_ok _ _ 0) by (rewrite H1; lia). f_equal. apply H2. now rewrite <- pow_nat_N.
  - unfold gf2e_mul_arith.
    pose proof (mul_red_step _ _ Hd He (ff_red ff) a b Hr Ha Hb) as S1.
    destruct (gf2x_mul a b (ff_degree ff)) as [r| |]; cbn [bind] in *; try easy.
    destruct (lget _ _) as [q| |]; cbn [bind wp] in *; try easy. now rewrite S1.
Qed.

Theorem gf2e_inv_ok ff a :
  gf2e_wf ff -> irreducible (ff_minpoly ff) -> inF (ff_minpoly ff) a -> a <> 0 ->
  exists b, gf2e_inv ff a = Ok b /\ inF (ff_minpoly ff) b /\ fmul (ff_minpoly ff) a b = 1.
Proof.
  intros (He & Hd & _) Hirr Ha Ha0. apply gf2x_invmod_correct; auto. lia.
Qed.

Theorem gf2e_degree_to_w_ok ff :
  (2 <= ff_degree ff <= 16)%nat ->
  exists w, gf2e_degree_to_w ff = Ok w /\ (w = 2 \/ w = 4 \/ w = 8 \/ w = 16)%nat /\
    (ff_degree ff <= w)%nat /\
    (forall v, (v = 2 \/ v = 4 \/ v = 8 \/ v = 16)%nat -> (ff_degree ff <= v)%nat -> (w <= v)%nat).
Proof.
  intros He. unfold gf2e_degree_to_w.
  generalize dependent (ff_degree ff). intros e He.
  do 17 (try destruct e as [|e]); first [lia | eexists; split; [reflexivity|]; repeat split; intros; lia].
Qed.
Theorem gf2e_degree_to_w_dies ff :
  ~ (2 <= ff_degree ff <= 16)%nat -> gf2e_degree_to_w ff = Die.
Proof.
  intros He. unfold gf2e_degree_to_w.
  generalize dependent (ff_degree ff). intros e He.
  do 17 (try destruct e as [|e]); first [lia | reflexivity].
Qed.

(** ** gf2e_t16_init *)
Lemma lane_spec w x k i : N.testbit (lane w x k) i = (i <? N.of_nat w) && N.testbit x (i + N.of_nat (w * k)).
Proof.
  unfold lane. rewrite N.land_spec, N.shiftr_spec'. rewrite andb_comm. f_equal.
  destruct (N.ltb_spec i (N.of_nat w)); [now apply N.ones_spec_low|now apply N.ones_spec_high].
Qed.
Lemma lane_lt w x k : lane w x k < 2 ^ N.of_nat w.
Proof.
  unfold lane. rewrite N.land_ones. apply N.mod_upper_bound, N.pow_nonzero. lia.
Qed.
Lemma lane_ext_word w x y n :
  (0 < w)%nat -> x < 2 ^ N.of_nat (w * n) -> y < 2 ^ N.of_nat (w * n) ->
  (forall k, (k < n)%nat -> lane w x k = lane w y k) -> x = y.
Proof.
  intros Hw Hx Hy H. apply N.bits_inj. intro i.
  destruct (N.lt_ge_cases i (N.of_nat (w * n))) as [Hi|Hi].
  - pose (k := (N.to_nat i / w)%nat). pose (j := (N.to_nat i mod w)%nat).
    assert (E : N.to_nat i = (w * k + j)%nat) by (apply Nat.div_mod_eq).
    assert (Hj : (j < w)%nat) by (apply Nat.mod_upper_bound; lia).
    assert (Hk : (k < n)%nat) by (apply Nat.div_lt_upper_bound; lia).
    specialize (H k Hk). apply (f_equal (fun z => N.testbit z (N.of_nat j))) in H.
    rewrite !lane_spec in H. replace (N.of_nat j <? N.of_nat w) with true in H by lia.
    cbn in H. replace (N.of_nat j + N.of_nat (w * k)) with i in H by lia. exact H.
  - rewrite lt_pow2_bits in Hx, Hy. now rewrite Hx, Hy.
Qed.

Lemma t16_entry_spec ff a w x :
  gf2e_wf ff -> inF (ff_minpoly ff) a -> (0 < w <= 16)%nat -> (ff_degree ff <= w)%nat ->
  (forall k, (k < 16 / w)%nat -> inF (ff_minpoly ff) (lane w x k)) ->
  wp (gf2e_t16_entry ff a w x) (fun v =>
    v < 2 ^ N.of_nat (w * (16 / w)) /\
    forall k, (k < 16 / w)%nat -> lane w v k = fmul (ff_minpoly ff) a (lane w x k)).
Proof.
  intros Hwf Ha Hw Hew Hx. unfold gf2e_t16_entry.
  pose proof (gf2e_wf_f0 ff Hwf) as f0. pose proof Hwf as (He & Hd & _).
  assert (H16 : (w * (16 / w) <= 16)%nat) by (apply Nat.mul_div_le; lia).
  apply (wp_for (fun n v => v < 2 ^ N.of_nat (w * n) /\
     forall k, (k < n)%nat -> lane w v k = fmul (ff_minpoly ff) a (lane w x k))).
  - lia.
  - split; [|lia]. rewrite Nat.mul_0_r. now cbn.
  - intros n acc Hn [Hacc Hl]. unfold gf2e_t16_lane.
    change (N.land (wshr x (w * n)) (N.ones (N.of_nat w))) with (lane w x n).
    rewrite gf2e_mul_ok by (first [assumption | apply Hx; lia]). cbn [bind wp].
    set (v := fmul (ff_minpoly ff) a (lane w x n)).
    assert (Hv : v < 2 ^ N.of_nat w).
    { eapply N.lt_le_trans; [now apply fmul_lt|]. apply N.pow_le_mono_r; lia. }
    assert (Hwn : (w * n + w <= w * (16 / w))%nat) by nia.
    rewrite (wshl_small _ _ _ Hv) by lia.
    assert (Hb : forall i, N.testbit (N.lor acc (N.shiftl v (N.of_nat (w * n)))) i =
                if i <? N.of_nat (w * n) then N.testbit acc i else N.testbit v (i - N.of_nat (w * n))).
    { intro i. rewrite N.lor_spec. destruct (N.ltb_spec i (N.of_nat (w * n))).
      - rewrite N.shiftl_spec_low by easy. apply orb_false_r.
      - rewrite N.shiftl_spec_high' by easy. rewrite lt_pow2_bits in Hacc. now rewrite Hacc. }
    split.
    + apply lt_pow2_bits. intros i Hi. rewrite Hb.
      replace (i <? N.of_nat (w * n)) with false by nia.
      rewrite lt_pow2_bits in Hv. apply Hv. nia.
    + intros k Hk. apply N.bits_inj. intro i. rewrite lane_spec, Hb.
      destruct (N.ltb_spec i (N.of_nat w)) as [Hi|Hi]; cbn [andb].
      * destruct (Nat.eq_dec k n) as [->|Hne].
        -- replace (i + N.of_nat (w * n) <? N.of_nat (w * n)) with false by lia.
           f_equal. lia.
        -- assert (k < n)%nat by lia.
           assert (w * k + w <= w * n)%nat by nia.
           replace (i + N.of_nat (w * k) <? N.of_nat (w * n)) with true by lia.
           rewrite <- Hl by lia. rewrite lane_spec.
           now replace (i <? N.of_nat w) with true by lia.
      * symmetry. pose proof (fmul_lt (ff_minpoly ff) a (lane w x k) f0) as L.
        rewrite lt_pow2_bits in L. apply L. lia.
Qed.

Theorem gf2e_t16_init_ok ff a :
  gf2e_wf ff -> (ff_degree ff = 2 \/ ff_degree ff = 4 \/ ff_degree ff = 8)%nat ->
  inF (ff_minpoly ff) a ->
  wp (gf2e_t16_init ff a) (fun T =>
    length T = (2 ^ 16)%nat /\
    forall x, x < 2 ^ 16 ->
      nth (N.to_nat x) T 0 < 2 ^ 16 /\
      forall k, (k < 16 / ff_degree ff)%nat ->
        lane (ff_degree ff) (nth (N.to_nat x) T 0) k =
        fmul (ff_minpoly ff) a (lane (ff_degree ff) x k)).
Proof.
  intros Hwf Hw Ha. unfold gf2e_t16_init.
  assert (Ew : gf2e_degree_to_w ff = Ok (ff_degree ff)).
  { unfold gf2e_degree_to_w. now destruct Hw as [-> | [-> | ->]]. }
  rewrite Ew. cbn [bind]. clear Ew.
  assert (Hdiv : (ff_degree ff * (16 / ff_degree ff) = 16)%nat) by now destruct Hw as [-> | [-> | ->]].
  pose proof Hwf as (He & Hd & _).
  assert (E16 : N.of_nat (2 ^ 16) = 2 ^ 16) by apply (pow_nat_N 16).
  set (n16 := (2 ^ 16)%nat) in *. clearbody n16.
  eapply wp_mono.
  - apply (wp_for (fun i T => length T = n16 /\
      forall x, x < N.of_nat i ->
      nth (N.to_nat x) T 0 < 2 ^ 16 /\
      forall k, (k < 16 / ff_degree ff)%nat ->
        lane (ff_degree ff) (nth (N.to_nat x) T 0) k =
        fmul (ff_minpoly ff) a (lane (ff_degree ff) x k))).
    + lia.
    + split; [apply repeat_length|]. intros; lia.
    + intros i T Hi [Hlen HT]. apply wp_bind. eapply wp_mono.
      * apply t16_entry_spec; auto; try lia.
        intros k Hk. unfold inF. rewrite Hd. apply lane_lt.
      * cbn. intros v [Lv Hv]. rewrite lset_ok by lia. cbn [wp].
        split; [now rewrite upd_length|]. intros x Hx. rewrite nth_upd by lia.
        destruct (Nat.eqb_spec i (N.to_nat x)) as [E|E].
        -- rewrite Hdiv in Lv. split; [exact Lv|]. intros k Hk. rewrite Hv by easy.
           now replace (N.of_nat i) with x by lia.
        -- apply HT. lia.
  - cbn. intros T [H1 H2]. split; [easy|]. intros x Hx. apply H2. lia.
Qed.

(** For the degrees where elements do not fill their slot (3, 5, 6, 7) the eager fill of the
    table reads [_mul[a][2^e]], one past the end of a row. *)
Lemma forloop_stuck {S} n i (body : nat -> S -> res S) s j :
  (i <= j < i + n)%nat -> (forall t, body j t = UB) -> (forall k t, body k t <> Die) ->
  forloop n i body s = UB.
Proof.
  revert i s. induction n as [|n IH]; intros i s Hj Hub Hnd; [lia|].
  cbn [forloop]. destruct (Nat.eq_dec i j) as [->|Hne]; [now rewrite Hub|].
  destruct (body i s) as [t| |] eqn:E; cbn [bind]; [|now apply Hnd in E|reflexivity].
  apply IH; auto. lia.
Qed.

Theorem gf2e_t16_init_oob ff a :
  gf2e_wf ff -> (ff_degree ff = 3 \/ ff_degree ff = 5 \/ ff_degree ff = 6 \/ ff_degree ff = 7)%nat ->
  inF (ff_minpoly ff) a -> gf2e_t16_init ff a = UB.
Proof.
  intros Hwf Hdeg Ha. unfold gf2e_t16_init.
  pose proof Hwf as (He & Hd & _ & _ & Ht). unfold inF in Ha. rewrite Hd in Ha.
  destruct (ff_tab ff) as [tab|] eqn:Etab; [|lia]. destruct Ht as (_ & Hlen & Htab).
  assert (Hw : exists w, gf2e_degree_to_w ff = Ok w /\ (ff_degree ff < w <= 8)%nat /\ (1 <= 16 / w)%nat).
  { unfold gf2e_degree_to_w.
    destruct Hdeg as [-> | [-> | [-> | ->]]]; eexists; (split; [reflexivity|]); (split; [lia|cbn; lia]). }
  destruct Hw as (w & -> & Hw & Hw16). cbn [bind].
  destruct (Htab a Ha) as [Hrow _].
  assert (La : (N.to_nat a < length tab)%nat) by (rewrite Hlen; rewrite <- pow_nat_N in Ha; lia).
  assert (Hnd : forall k x, gf2e_t16_lane ff a w x k <> Die).
  { intros k x. unfold gf2e_t16_lane, gf2e_mul. rewrite Etab. unfold gf2e_mul_table.
    rewrite (lget_ok tab _ [] La). cbn [bind]. unfold lget. now destruct (nth_error _ _). }
  unfold for_. apply forloop_stuck with (j := (2 ^ ff_degree ff)%nat).
  - assert (2 ^ ff_degree ff <= 2 ^ 7)%nat by (apply Nat.pow_le_mono_r; lia).
    assert (2 ^ 7 <= 2 ^ 16)%nat by (apply Nat.pow_le_mono_r; lia). lia.
  - intros T.
    assert (E : gf2e_t16_entry ff a w (N.of_nat (2 ^ ff_degree ff)) = UB); [|now rewrite E].
    unfold gf2e_t16_entry, for_. apply forloop_stuck with (j := O).
    + lia.
    + intros t. unfold gf2e_t16_lane, gf2e_mul. rewrite Etab. unfold gf2e_mul_table.
      rewrite (lget_ok tab _ [] La). cbn [bind].
      replace (N.land (wshr (N.of_nat (2 ^ ff_degree ff)) (w * 0)) (N.ones (N.of_nat w)))
        with (N.of_nat (2 ^ ff_degree ff)).
      * unfold lget. rewrite Nnat.Nat2N.id. rewrite (proj2 (nth_error_None _ _)); [easy|].
        rewrite Hrow. lia.
      * unfold wshr. rewrite Nat.mul_0_r, N.shiftr_0_r, N.land_ones, pow_nat_N.
        symmetry. apply N.mod_small. apply N.pow_lt_mono_r; lia.
    + intros k t. specialize (Hnd k (N.of_nat (2 ^ ff_degree ff))).
      destruct (gf2e_t16_lane _ _ _ _ _); cbn [bind]; easy.
  - intros i T. assert (E : gf2e_t16_entry ff a w (N.of_nat i) <> Die).
    + unfold gf2e_t16_entry, for_. generalize (16 / w - 0)%nat; generalize 0 at 1; generalize O.
      intros k0 acc n; revert n k0 acc.
      intros n; induction n as [|n IH]; intros k0 acc; cbn [forloop]; [easy|].
      specialize (Hnd k0 (N.of_nat i)).
      destruct (gf2e_t16_lane _ _ _ _ _); cbn [bind]; try easy; try apply IH.
    + destruct (gf2e_t16_entry _ _ _ _) as [v| |]; cbn [bind]; try easy.
      unfold lset. now destruct (_ <? _)%nat.
Qed.
