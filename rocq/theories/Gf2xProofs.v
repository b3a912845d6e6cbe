(** Proofs about the model of src/gf2x.h. *)
From Coq Require Import NArith Lia List Bool Arith Ring.
From Coq Require Import ZifyBool ZifyNat ZifyN.
From Verif Require Import Base Spec PolyFacts Gf2xModel.
Import ListNotations.
Local Open Scope N_scope.

Lemma ffff_ones : ffff = N.ones 64. Proof. reflexivity. Qed.
Lemma testbit_ffff k : N.testbit ffff k = (k <? 64).
Proof.
  rewrite ffff_ones. destruct (N.ltb_spec k 64).
  - now apply N.ones_spec_low.
  - now apply N.ones_spec_high.
Qed.
Lemma lt64_bits a : a < 2 ^ 64 <-> forall k, 64 <= k -> N.testbit a k = false.
Proof. apply lt_pow2_bits. Qed.

Lemma wshl_spec a n k :
  N.testbit (wshl a n) k = (N.of_nat n <=? k) && (k <? 64) && N.testbit a (k - N.of_nat n).
Proof.
  unfold wshl. rewrite N.land_spec, testbit_ffff.
  destruct (N.leb_spec (N.of_nat n) k).
  - rewrite N.shiftl_spec_high' by assumption. cbn. apply andb_comm.
  - now rewrite N.shiftl_spec_low.
Qed.
Lemma wshl_lt a n : wshl a n < 2 ^ 64.
Proof.
  apply lt64_bits. intros k Hk. rewrite wshl_spec.
  destruct (N.ltb_spec k 64); [lia|]. now rewrite andb_false_r.
Qed.
Lemma wshr_spec a n k : N.testbit (wshr a n) k = N.testbit a (k + N.of_nat n).
Proof. unfold wshr. now rewrite N.shiftr_spec'. Qed.

Lemma wshl_small a n m : a < 2 ^ m -> m + N.of_nat n <= 64 -> wshl a n = N.shiftl a (N.of_nat n).
Proof.
  intros Ha Hm. apply N.bits_inj. intro k. rewrite wshl_spec.
  destruct (N.leb_spec (N.of_nat n) k).
  - rewrite N.shiftl_spec_high' by assumption. cbn.
    destruct (N.ltb_spec k 64); [reflexivity|].
    symmetry. rewrite lt_pow2_bits in Ha. apply Ha. lia.
  - now rewrite N.shiftl_spec_low.
Qed.
Lemma twopow_spec n : (n < 64)%nat -> twopow n = 2 ^ N.of_nat n.
Proof.
  intros H. unfold twopow. rewrite (wshl_small 1 n 1) by (cbn; lia).
  now rewrite N.shiftl_1_l.
Qed.

Lemma w1tF_0 : w1tF 0 = 0. Proof. reflexivity. Qed.
Lemma w1tF_1 : w1tF 1 = ffff. Proof. reflexivity. Qed.
Lemma w1tF_b2N b : w1tF (N.b2n b) = if b then ffff else 0.
Proof. now destruct b. Qed.

Lemma land_ffff a : a < 2 ^ 64 -> N.land ffff a = a.
Proof.
  intros H. rewrite N.land_comm, ffff_ones, N.land_ones. now apply N.mod_small.
Qed.

Lemma testbit_shr_land a k : N.shiftr (N.land a (2 ^ k)) k = N.b2n (N.testbit a k).
Proof.
  apply N.bits_inj. intro i. rewrite N.shiftr_spec', N.land_spec.
  rewrite N.pow2_bits_eqb.
  destruct (N.eqb_spec k (i + k)).
  - assert (i = 0) as -> by lia. rewrite N.add_0_l. rewrite andb_true_r.
    now destruct (N.testbit a k).
  - rewrite andb_false_r. destruct (N.testbit a k); cbn [N.b2n].
    + symmetry. apply N.bits_above_log2. change (N.log2 1) with 0. lia.
    + now rewrite N.bits_0.
Qed.

(** ** gf2x_mul *)
(** low part: a mod 2^d, as bits *)
Lemma pmul_low_step a b k :
  pmul (N.land a (N.ones (N.succ k))) b =
  N.lxor (pmul (N.land a (N.ones k)) b) (if N.testbit a k then N.shiftl b k else 0).
Proof.
  assert (E : N.land a (N.ones (N.succ k)) =
              N.lxor (N.land a (N.ones k)) (if N.testbit a k then 2 ^ k else 0)).
  { apply N.bits_inj. intro i. rewrite N.lxor_spec, !N.land_spec.
    destruct (N.lt_trichotomy i k) as [H|[->|H]].
    - rewrite !N.ones_spec_low by lia.
      destruct (N.testbit a k); rewrite ?N.bits_0, ?N.pow2_bits_false by lia;
        now rewrite xorb_false_r.
    - rewrite N.ones_spec_low, N.ones_spec_high by lia.
      destruct (N.testbit a k); rewrite ?N.bits_0, ?N.pow2_bits_true; reflexivity.
    - rewrite !N.ones_spec_high by lia.
      destruct (N.testbit a k); rewrite ?N.bits_0, ?N.pow2_bits_false by lia; now destruct (N.testbit a i). }
  rewrite E, pmul_lxor_l. f_equal. destruct (N.testbit a k); [apply pmul_pow2_l|reflexivity].
Qed.

Lemma gf2x_mul_cases_spec k a b r m :
  b < 2 ^ m -> m + N.of_nat k <= 65 -> (k <= 64)%nat ->
  gf2x_mul_cases k a b r = N.lxor r (pmul (N.land a (N.ones (N.of_nat k))) b).
Proof.
  revert r. induction k as [|k IH]; intros r Hb Hm Hk.
  - cbn [gf2x_mul_cases]. change (N.ones (N.of_nat 0)) with 0. rewrite N.land_0_r.
    now rewrite pmul_0_l, N.lxor_0_r.
  - cbn [gf2x_mul_cases]. rewrite IH by lia.
    rewrite Nnat.Nat2N.inj_succ, pmul_low_step.
    rewrite twopow_spec by lia. unfold wshr. rewrite testbit_shr_land, w1tF_b2N.
    destruct (N.testbit a (N.of_nat k)).
    + rewrite land_ffff by apply wshl_lt. rewrite (wshl_small b k m) by lia. ring.
    + rewrite N.land_0_l. ring.
Qed.

Theorem gf2x_mul_correct a b d m :
  (1 <= d <= 32)%nat -> a < 2 ^ N.of_nat d -> b < 2 ^ m -> m + N.of_nat d <= 65 ->
  gf2x_mul a b d = Ok (pmul a b).
Proof.
  intros Hd Ha Hb Hm. unfold gf2x_mul.
  replace ((1 <=? d) && (d <=? 32))%nat with true by lia.
  rewrite (gf2x_mul_cases_spec d a b 0 m) by lia.
  rewrite N.lxor_0_l, N.land_ones, N.mod_small by easy. reflexivity.
Qed.

(** without a bound on [a]: the first factor is truncated to its low d coefficients *)
Theorem gf2x_mul_trunc a b d m :
  (1 <= d <= 32)%nat -> b < 2 ^ m -> m + N.of_nat d <= 65 ->
  gf2x_mul a b d = Ok (pmul (N.land a (N.ones (N.of_nat d))) b).
Proof.
  intros Hd Hb Hm. unfold gf2x_mul.
  replace ((1 <=? d) && (d <=? 32))%nat with true by lia.
  rewrite (gf2x_mul_cases_spec d a b 0 m) by lia.
  now rewrite N.lxor_0_l.
Qed.

Theorem gf2x_mul_dies a b d : ~ (1 <= d <= 32)%nat -> gf2x_mul a b d = Die.
Proof.
  intros H. unfold gf2x_mul. now replace ((1 <=? d) && (d <=? 32))%nat with false by lia.
Qed.

(** ** gf2x_deg *)
Lemma deg_step (a mask : N) (s : nat) :
  mask = N.shiftl (N.ones (N.of_nat s)) (N.of_nat s) ->
  a < 2 ^ N.of_nat (2 * s) ->
  (N.land a mask = 0 /\ a < 2 ^ N.of_nat s) \/
  (N.land a mask <> 0 /\ a <> 0 /\ wshr a s < 2 ^ N.of_nat s /\ wshr a s <> 0 /\
   N.log2 a = N.of_nat s + N.log2 (wshr a s)).
Proof.
  intros -> Ha.
  destruct (N.lt_ge_cases a (2 ^ N.of_nat s)) as [H|H].
  - left. split; [|easy]. apply N.bits_inj. intro k. rewrite N.land_spec, N.bits_0.
    destruct (N.lt_ge_cases k (N.of_nat s)).
    + rewrite N.shiftl_spec_low by easy. apply andb_false_r.
    + rewrite lt_pow2_bits in H. now rewrite H.
  - right.
    assert (Ha0 : a <> 0).
    { assert (2 ^ N.of_nat s <> 0) by (apply N.pow_nonzero; lia). lia. }
    assert (Hl : N.of_nat s <= N.log2 a) by (apply N.log2_le_pow2; lia).
    assert (Hl2 : N.log2 a < N.of_nat (2 * s)) by (apply N.log2_lt_pow2; lia).
    assert (Hsr : N.log2 (wshr a s) = N.log2 a - N.of_nat s).
    { unfold wshr. rewrite N.log2_shiftr. lia. }
    assert (Hnz : wshr a s <> 0).
    { intro E. assert (Hb : N.testbit (wshr a s) (N.log2 a - N.of_nat s) = true).
      { rewrite wshr_spec. replace (N.log2 a - N.of_nat s + N.of_nat s) with (N.log2 a) by lia.
        now apply N.bit_log2. }
      rewrite E, N.bits_0 in Hb. discriminate. }
    repeat split; try easy.
    + intro E. assert (Hb : N.testbit (N.land a (N.shiftl (N.ones (N.of_nat s)) (N.of_nat s))) (N.log2 a) = true).
      { rewrite N.land_spec, N.bit_log2, N.shiftl_spec_high', N.ones_spec_low by lia. reflexivity. }
      rewrite E, N.bits_0 in Hb. discriminate.
    + apply N.log2_lt_pow2; lia.
    + lia.
Qed.

Lemma gf2x_deg_spec a : a < 2 ^ 64 -> gf2x_deg a = N.to_nat (pdeg a).
Proof.
  intros Ha. unfold gf2x_deg, pdeg.
  assert (H0 : 0%nat = (N.to_nat (N.log2 a) - N.to_nat (N.log2 a))%nat) by lia.
  enough (G : forall mask s d a0, mask = N.shiftl (N.ones (N.of_nat s)) (N.of_nat s) ->
     a0 < 2 ^ N.of_nat (2 * s) -> (d + N.to_nat (N.log2 a0) = N.to_nat (N.log2 a))%nat ->
     exists d' a', (if N.land a0 mask =? 0 then (d, a0) else ((d + s)%nat, wshr a0 s)) = (d', a') /\
       a' < 2 ^ N.of_nat s /\ (d' + N.to_nat (N.log2 a') = N.to_nat (N.log2 a))%nat).
  { destruct (G 18446744069414584320 32%nat 0%nat a eq_refl Ha eq_refl) as (d1 & a1 & -> & L1 & E1).
    destruct (G 4294901760 16%nat d1 a1 eq_refl L1 E1) as (d2 & a2 & -> & L2 & E2).
    destruct (G 65280 8%nat d2 a2 eq_refl L2 E2) as (d3 & a3 & -> & L3 & E3).
    destruct (G 240 4%nat d3 a3 eq_refl L3 E3) as (d4 & a4 & -> & L4 & E4).
    destruct (G 12 2%nat d4 a4 eq_refl L4 E4) as (d5 & a5 & -> & L5 & E5).
    destruct (G 2 1%nat d5 a5 eq_refl L5 E5) as (d6 & a6 & -> & L6 & E6).
    cbn [fst].
    assert (H6 : a6 = 0 \/ a6 = 1) by (change (2 ^ N.of_nat 1) with 2 in L6; lia).
    destruct H6 as [-> | ->]; cbn in E6; lia. }
  intros mask s d a0 Hm L E.
  destruct (deg_step a0 mask s Hm L) as [[H1 H2]|(H1 & H2 & H3 & H4 & H5)].
  - rewrite H1. cbn. eauto.
  - replace (N.land a0 mask =? 0) with false by lia.
    do 2 eexists; split; [reflexivity|]. split; [easy|]. lia.
Qed.

(** ** gf2x_divmod *)
Lemma shr_bit a n : a < 2 ^ (N.of_nat n + 1) -> wshr a n = N.b2n (N.testbit a (N.of_nat n)).
Proof.
  intros H. unfold wshr. rewrite <- testbit_shr_land.
  apply N.bits_inj. intro i. rewrite !N.shiftr_spec', N.land_spec, N.pow2_bits_eqb.
  destruct (N.eqb_spec (N.of_nat n) (i + N.of_nat n)); [now rewrite andb_true_r|].
  rewrite andb_false_r. rewrite lt_pow2_bits in H. apply H. lia.
Qed.

Lemma divmod_loop_spec n db b a r :
  b <> 0 -> pdeg b = N.of_nat db -> (db + n <= 64)%nat ->
  a < 2 ^ N.of_nat (db + n) ->
  (exists h, r = N.shiftl h (N.of_nat n)) ->
  r < 2 ^ 64 ->
  let '(q, m) := gf2x_divmod_loop n db b a r in
  m < 2 ^ pdeg b /\ N.lxor (pmul q b) m = N.lxor (pmul r b) a.
Proof.
  revert a r. induction n as [|s IH]; intros a r Hb Hdb Hn Ha Hr Hr64.
  - cbn. rewrite Hdb. rewrite Nat.add_0_r in Ha. easy.
  - cbn [gf2x_divmod_loop].
    assert (Hb2 : b < 2 ^ (N.of_nat db + 1)) by (rewrite <- Hdb; apply lt_pow2_log2).
    assert (Ha' : a < 2 ^ (N.of_nat (db + s) + 1)).
    { eapply N.lt_le_trans; [exact Ha|]. apply N.pow_le_mono_r; lia. }
    rewrite (shr_bit a (db + s)) by exact Ha'. rewrite w1tF_b2N, twopow_spec by lia.
    assert (Hsb : wshl b s = N.shiftl b (N.of_nat s)) by (apply (wshl_small _ _ _ Hb2); lia).
    destruct Hr as [h Hr].
    destruct (N.testbit a (N.of_nat (db + s))) eqn:Ebit.
    + rewrite !land_ffff by (first [apply wshl_lt | apply N.pow_lt_mono_r; lia]). rewrite Hsb.
      assert (Hor : N.lor r (2 ^ N.of_nat s) = N.lxor r (2 ^ N.of_nat s)).
      { apply N.bits_inj. intro k. rewrite N.lor_spec, N.lxor_spec, Hr.
        rewrite N.pow2_bits_eqb. destruct (N.eqb_spec (N.of_nat s) k) as [<-|].
        - rewrite N.shiftl_spec_low by lia. reflexivity.
        - now destruct (N.testbit _ _). }
      rewrite Hor.
      specialize (IH (N.lxor a (N.shiftl b (N.of_nat s))) (N.lxor r (2 ^ N.of_nat s)) Hb Hdb).
      destruct (gf2x_divmod_loop _ _ _ _ _) as [q m].
      destruct IH as [I1 I2].
      * lia.
      * apply lt_pow2_bits. intros k Hk. rewrite N.lxor_spec.
        rewrite N.shiftl_spec_high' by lia.
        destruct (N.eq_dec k (N.of_nat (db + s))) as [->|Hne].
        -- rewrite Ebit. replace (N.of_nat (db + s) - N.of_nat s) with (pdeg b) by lia.
           unfold pdeg. now rewrite N.bit_log2.
        -- rewrite lt_pow2_bits in Ha', Hb2. rewrite Ha', Hb2 by lia. reflexivity.
      * exists (N.lxor (N.double h) 1). rewrite Hr. apply N.bits_inj. intro k.
        rewrite N.lxor_spec, N.pow2_bits_eqb.
        destruct (N.lt_ge_cases k (N.of_nat s)).
        -- rewrite !N.shiftl_spec_low by lia. destruct (N.eqb_spec (N.of_nat s) k); [lia|reflexivity].
        -- rewrite (N.shiftl_spec_high' _ (N.of_nat s)) by lia. rewrite N.lxor_spec.
           destruct (N.eqb_spec (N.of_nat s) k) as [<-|].
           ++ rewrite N.shiftl_spec_low by lia. rewrite N.sub_diag, N.double_spec, N.testbit_even_0.
              reflexivity.
           ++ rewrite N.shiftl_spec_high' by lia. rewrite N.double_spec.
              replace (k - N.of_nat s) with (N.succ (k - N.of_nat (S s))) by lia.
              rewrite N.testbit_even_succ by lia.
              replace (N.testbit 1 _) with false; [reflexivity|].
              symmetry. apply N.bits_above_log2. change (N.log2 1) with 0. lia.
      * apply lxor_lt_pow2; [easy|]. apply N.pow_lt_mono_r; lia.
      * split; [easy|]. rewrite I2. rewrite pmul_lxor_l, pmul_pow2_l. ring.
    + rewrite !N.land_0_l, N.lor_0_r, N.lxor_0_r. apply IH; try easy.
      * lia.
      * apply lt_pow2_bits. intros k Hk.
        destruct (N.eq_dec k (N.of_nat (db + s))) as [->|Hne]; [easy|].
        rewrite lt_pow2_bits in Ha'. apply Ha'. lia.
      * exists (N.double h). rewrite Hr, Nnat.Nat2N.inj_succ.
        rewrite !N.shiftl_mul_pow2, N.double_spec.
        assert (E2 : 2 ^ N.succ (N.of_nat s) = 2 * 2 ^ N.of_nat s) by apply N.pow_succ_r'.
        rewrite E2. lia.
Qed.

Theorem gf2x_divmod_correct a b :
  a < 2 ^ 64 -> b < 2 ^ 64 -> b <> 0 ->
  is_divmod a b (fst (gf2x_divmod a b)) (snd (gf2x_divmod a b)).
Proof.
  intros Ha Hb Hb0. unfold gf2x_divmod.
  rewrite !gf2x_deg_spec by easy.
  assert (La : a < 2 ^ (pdeg a + 1)) by apply lt_pow2_log2.
  assert (Da : pdeg a < 64).
  { unfold pdeg. destruct (N.eq_dec a 0) as [->|]; [now cbn|]. apply N.log2_lt_pow2; lia. }
  assert (Db : pdeg b < 64).
  { unfold pdeg. apply N.log2_lt_pow2; lia. }
  pose proof (divmod_loop_spec (S (N.to_nat (pdeg a)) - N.to_nat (pdeg b)) (N.to_nat (pdeg b)) b a 0) as H.
  destruct (gf2x_divmod_loop _ _ _ _ _) as [q m]. cbn [fst snd].
  destruct H as [H1 H2]; try easy; try lia.
  - eapply N.lt_le_trans; [exact La|]. apply N.pow_le_mono_r; lia.
  - exists 0. reflexivity.
Qed.

Theorem gf2x_div_correct a b :
  a < 2 ^ 64 -> b < 2 ^ 64 -> b <> 0 -> exists r, is_divmod a b (gf2x_div a b) r.
Proof.
  intros. exists (snd (gf2x_divmod a b)). unfold gf2x_div. now apply gf2x_divmod_correct.
Qed.

Lemma gf2x_mod_loop_eq n db b a r : gf2x_mod_loop n db b a = snd (gf2x_divmod_loop n db b a r).
Proof. revert a r; induction n as [|s IH]; intros a r; cbn; [easy|]. apply IH. Qed.

Lemma gf2x_mod_divmod a b : gf2x_mod a b = snd (gf2x_divmod a b).
Proof. apply gf2x_mod_loop_eq. Qed.

Theorem gf2x_mod_correct a b :
  a < 2 ^ 64 -> b < 2 ^ 64 -> b <> 0 -> gf2x_mod a b = pmod a b.
Proof.
  intros Ha Hb Hb0. rewrite gf2x_mod_divmod.
  destruct (gf2x_divmod_correct a b Ha Hb Hb0) as [E L]. symmetry.
  now apply (pmod_unique a b (fst (gf2x_divmod a b))).
Qed.

(** ** gf2x_invmod *)
(** Invariant: x*A = b, lastx*A = a (mod f); degrees of the cofactors are controlled by
    deg x + deg a <= e, deg lastx + deg b < e. *)
Lemma size_pdeg a : a <> 0 -> N.size a = pdeg a + 1.
Proof. intros. rewrite N.size_log2 by easy. unfold pdeg. lia. Qed.
Lemma size_lt_pow2 a n : N.size a <= n -> a < 2 ^ n.
Proof.
  intros H. eapply N.lt_le_trans; [apply N.size_gt|]. apply N.pow_le_mono_r; lia.
Qed.
Lemma lt_pow2_size a n : a < 2 ^ n -> N.size a <= n.
Proof.
  intros H. destruct (N.eq_dec a 0) as [->|Ha]; [cbn; lia|].
  rewrite size_pdeg by easy. apply N.log2_lt_pow2 in H; unfold pdeg; lia.
Qed.


Lemma quo_size a b q r :
  b <> 0 -> is_divmod a b q r -> N.size q + N.size b <= N.max (N.size a + 1) (N.size b).
Proof.
  intros Hb [E L].
  destruct (N.eq_dec q 0) as [->|Hq]; [cbn [N.size]; lia|].
  assert (Eq : pmul q b = N.lxor a r) by (rewrite E; xor_solve).
  pose proof (pdeg_pmul q b Hq Hb) as D.
  assert (Lr : r < 2 ^ N.max (N.size a) (pdeg b)).
  { eapply N.lt_le_trans; [exact L|]. apply N.pow_le_mono_r; lia. }
  assert (La : a < 2 ^ N.max (N.size a) (pdeg b)).
  { eapply N.lt_le_trans; [apply N.size_gt|]. apply N.pow_le_mono_r; lia. }
  pose proof (lxor_lt_pow2 a r _ La Lr) as Lx. rewrite <- Eq in Lx.
  apply N.log2_lt_pow2 in Lx.
  - rewrite !size_pdeg by easy. unfold pdeg in *. lia.
  - assert (pmul q b <> 0) by (intro E'; destruct (pmul_eq_0 _ _ E'); auto). lia.
Qed.

Lemma size_pmul a b : a <> 0 -> b <> 0 -> N.size (pmul a b) + 1 = N.size a + N.size b.
Proof.
  intros Ha Hb. assert (pmul a b <> 0) by (intro E'; destruct (pmul_eq_0 _ _ E'); auto).
  rewrite !size_pdeg, pdeg_pmul by easy. lia.
Qed.
Lemma size_lxor a b n : N.size a <= n -> N.size b <= n -> N.size (N.lxor a b) <= n.
Proof. intros. apply lt_pow2_size, lxor_lt_pow2; now apply size_lt_pow2. Qed.
Lemma size_1_eq a : a <> 0 -> N.size a <= 1 -> a = 1.
Proof. intros Ha H. apply size_lt_pow2 in H. change (2^1) with 2 in H. lia. Qed.

Section Invmod.
Variables (f A : N) (e : nat).
Hypothesis He : pdeg f = N.of_nat e.
Hypothesis He32 : (1 <= e <= 32)%nat.
Hypothesis f0 : f <> 0.

Lemma invmod_loop_spec fuel : forall a b x lastx y lasty,
  (N.to_nat (N.size b) <= fuel)%nat ->
  b <> 0 -> N.size b < N.size a -> N.size a <= N.of_nat e + 1 ->
  (forall d, (exists u, a = pmul u d) -> (exists v, b = pmul v d) -> d = 1) ->
  pmod (pmul lastx A) f = pmod a f ->
  pmod (pmul x A) f = pmod b f ->
  N.size x + N.size a <= N.of_nat e + 2 ->
  N.size lastx + N.size b <= N.of_nat e + 2 ->
  exists r, gf2x_invmod_loop fuel a b x lastx y lasty e = Ok r /\
            pmod (pmul r A) f = pmod 1 f /\ N.size r <= N.of_nat e.
Proof.
  induction fuel as [|fuel IH]; intros a b x lastx y lasty Hfu Hb Hba Hae Hgcd Hla Hx Sx Slx.
  - exfalso. rewrite size_pdeg in Hfu by easy. lia.
  - cbn [gf2x_invmod_loop]. replace (b =? 0) with false by lia.
    assert (La : a < 2 ^ 64) by (apply size_lt_pow2; lia).
    assert (Lb : b < 2 ^ 64) by (apply size_lt_pow2; lia).
    pose proof (gf2x_divmod_correct a b La Lb Hb) as Hdm.
    destruct (gf2x_divmod a b) as [quo rem]. cbn [fst snd] in Hdm.
    pose proof (quo_size a b quo rem Hb Hdm) as Sq.
    destruct Hdm as [Ea Lr].
    assert (Lx : x < 2 ^ N.of_nat e).
    { apply size_lt_pow2. rewrite size_pdeg in Hba by easy. lia. }
    rewrite (gf2x_mul_trunc quo x e (N.of_nat e)) by lia. cbn [bind].
    set (qx := pmul (N.land quo _) x).
    unfold gf2x_mul at 1.
    replace ((1 <=? e) && (e <=? 32))%nat with true by lia. cbn [bind].
    destruct (N.eq_dec b 1) as [->|Hb1].
    + assert (rem = 0) as ->. { change (2 ^ pdeg 1) with 1 in Lr. lia. }
      exists x. split; [|split].
      * destruct fuel; reflexivity.
      * exact Hx.
      * cbn [N.size] in Hba. change (N.pos (Pos.size 1)) with 1 in Hba. lia.
    + assert (Hrem : rem <> 0).
      { intros ->. rewrite N.lxor_0_r in Ea. apply Hb1. apply Hgcd.
        - now exists quo.
        - exists 1. now rewrite pmul_1_l. }
      assert (Sb2 : 2 <= N.size b).
      { destruct (N.le_gt_cases 2 (N.size b)); [easy|]. exfalso. apply Hb1. apply size_1_eq; [easy|lia]. }
      assert (Hq : N.land quo (N.ones (N.of_nat e)) = quo).
      { rewrite N.land_ones. apply N.mod_small. apply size_lt_pow2. lia. }
      subst qx. rewrite Hq.
      assert (Srem : N.size rem < N.size b).
      { apply lt_pow2_size in Lr. rewrite (size_pdeg b) by easy. lia. }
      assert (Hx0 : x <> 0 \/ pmul quo x = 0).
      { destruct (N.eq_dec x 0) as [->|]; [right; apply pmul_0_r|now left]. }
      assert (Sqx : N.size (pmul quo x) + N.size b <= N.of_nat e + 2).
      { destruct Hx0 as [Hx0|Hx0].
        - destruct (N.eq_dec quo 0) as [->|Hq0]; [rewrite pmul_0_l; cbn [N.size]; lia|].
          pose proof (size_pmul quo x Hq0 Hx0). lia.
        - rewrite Hx0. cbn [N.size]. lia. }
      apply IH; try easy.
      * lia.
      * lia.
      * intros d [u Hu] [v Hv]. apply Hgcd.
        -- exists (N.lxor (pmul quo u) v). rewrite Ea, pmul_lxor_l, <- pmul_assoc, <- Hu, <- Hv. reflexivity.
        -- now exists u.
      * rewrite pmul_lxor_l, pmod_lxor, Hla by easy.
        rewrite <- pmul_assoc, <- (pmod_mul_r quo), Hx, pmod_mul_r by easy.
        rewrite <- pmod_lxor by easy. f_equal. rewrite Ea. xor_solve.
      * assert (N.size (N.lxor lastx (pmul quo x)) <= N.of_nat e + 2 - N.size b); [|lia].
        apply size_lxor; lia.
      * lia.
Qed.
End Invmod.

Theorem gf2x_invmod_correct f e a :
  irreducible f -> pdeg f = N.of_nat e -> (1 <= e <= 32)%nat -> inF f a -> a <> 0 ->
  exists b, gf2x_invmod a f e = Ok b /\ inF f b /\ fmul f a b = 1.
Proof.
  intros Hirr He He32 Ha Ha0.
  assert (f0 : f <> 0) by now apply irreducible_no_factor.
  assert (Sf : N.size f = N.of_nat e + 1) by (rewrite size_pdeg by easy; lia).
  assert (Sa : N.size a <= N.of_nat e). { apply lt_pow2_size. unfold inF in Ha. now rewrite He in Ha. }
  unfold gf2x_invmod. rewrite Sf. replace (N.to_nat (N.of_nat e + 1)) with (S e) by lia.
  cbn [gf2x_invmod_loop]. replace (f =? 0) with false by lia.
  assert (La : a < 2 ^ 64) by (apply size_lt_pow2; lia).
  assert (Lf : f < 2 ^ 64) by (apply size_lt_pow2; lia).
  pose proof (gf2x_divmod_correct a f La Lf f0) as Hdm.
  destruct (gf2x_divmod a f) as [quo rem]. cbn [fst snd] in Hdm.
  assert (Hd2 : is_divmod a f 0 a) by (split; [reflexivity|exact Ha]).
  destruct (divmod_unique _ _ _ _ _ _ f0 Hdm Hd2) as [-> ->].
  rewrite (gf2x_mul_trunc 0 0 e 1), (gf2x_mul_trunc 0 1 e 1) by (cbn; lia).
  cbn [bind]. rewrite N.land_0_l, !pmul_0_l, !N.lxor_0_r.
  destruct (invmod_loop_spec f a e He He32 f0 e f a 1 0 0 1) as (r & Er & Hr & Sr); try easy; try lia.
  - intros d [u Hu] [v Hv]. destruct Hirr as [_ Hirr]. destruct (Hirr u d (eq_sym Hu)) as [-> | ->]; [|easy].
    exfalso. rewrite pmul_1_l in Hu. subst d.
    assert (v = 0) by (apply (pmul_small_0 v f f0); now rewrite <- Hv). subst v.
    now rewrite pmul_0_l in Hv.
  - rewrite pmul_0_l, pmod_0. symmetry. exact (pmod_mul_f 1 f f0).
  - change (N.size 1) with 1. lia.
  - change (N.size 0) with 0. lia.
  - exists r. split; [exact Er|]. split.
    + unfold inF. rewrite He. now apply size_lt_pow2.
    + unfold fmul. rewrite pmul_comm, Hr. apply pmod_small; [easy|].
      rewrite He. apply N.lt_le_trans with (2 ^ 1); [easy|]. apply N.pow_le_mono_r; lia.
Qed.
