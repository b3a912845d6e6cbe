(** The tests of test_smallops.c and test_scalar: proofs. *)
From Coq Require Import NArith ZArith Lia List Bool Arith.
From Coq Require Import ZifyBool ZifyNat ZifyN.
From Verif Require Import HistSpec HistModel HistProofs.
From Verif Require Import Base Spec LinSpec PolyFacts MatFacts Gf2xModel Gf2eModel Gf2eProofs MzdModel MzdFacts MzedModel MzedSpec LaneFacts MzedProofs MzedOps MzedOps2 FrameProofs.
From Verif Require Import SliceModel SliceSpec SliceProofs SliceOps SliceMul ConvModel PropSlice PropMzed PropLaws.
From Verif Require Import TestModel TestCanary TestProofs TestSliceModel TestSlice.
Import ListNotations.
Local Open Scope nat_scope.

(** a sliced matrix with canaries *)
Definition sdrawn (f : N) (m n : nat) (A : slice) (F : mat) : Prop := sholds A f m n F /\ smarked m4rie_canary A.
Lemma sdrawn_canary f m n A F : sholds A f m n F -> 0 < n -> exists A', mzd_slice_set_canary A = Ok A' /\ sdrawn f m n A' F /\ sl_ff A' = sl_ff A.
Proof.
  intros (W & Ef & Er & Ec & Ee) Hn. destruct (proj1 (wp_iff _ _) (sset_canary_ok A W ltac:(lia))) as (A' & E & W' & s1 & s2 & s3 & En & Hm).
  exists A'. split; [exact E|]. split; [|exact s1]. split; [|exact Hm]. split; [exact W'|]. repeat (split; [congruence|]).
  intros i c Hi Hc. rewrite En by lia. now apply Ee.
Qed.
Lemma srandom_ok ff rnd m n : gf2e_wf ff -> 0 < n -> exists A F, random_mzd_slice_t ff rnd m n = Ok A /\ sdrawn (ff_minpoly ff) m n A F /\ sl_ff A = ff.
Proof.
  intros Hf Hn. unfold random_mzd_slice_t. pose proof (slice_init_ok ff m n Hf) as K0.
  destruct (proj1 (wp_iff _ _) (slice_randomize_ok rnd _ (sh_wf _ _ _ _ _ K0))) as (A1 & E1 & B1). rewrite E1. cbn [bind].
  pose proof (sh_becomes _ _ _ _ _ _ _ K0 B1) as K1. destruct (sdrawn_canary _ _ _ _ _ K1 Hn) as (A & E & D & G). exists A. eexists. split; [exact E|]. split; [exact D|].
  rewrite G, (sb_ff _ _ _ B1). reflexivity.
Qed.
Lemma sdrawn_becomes f m n A A' F G : sdrawn f m n A F -> sbecomes A A' G -> sdrawn f m n A' G.
Proof.
  intros (K & Hm) B. split; [exact (sh_becomes _ _ _ _ _ _ _ K B)|]. eapply smarked_kept; [exact (sh_wf _ _ _ _ _ K)|exact Hm|]. eapply skept_of; eauto.
Qed.
Lemma salive_all_ok f l : Forall (fun A => exists m n F, sdrawn f m n A F /\ 0 < n) l -> salive_all l = Ok 0.
Proof.
  induction 1 as [|A l (m & n & F & (K & Hm) & Hn) _ IH]; [reflexivity|]. cbn [salive_all]. destruct K as (W & _ & _ & Ec & _).
  destruct (salive_ok A W ltac:(lia)) as (b & E & Hb). rewrite E, IH. cbn [bind]. rewrite (proj2 Hb Hm). reflexivity.
Qed.
Lemma pdrawn_becomes f m n A A' F G : drawn f m n A F -> becomes A A' G -> drawn f m n A' G.
Proof.
  intros D B. eapply drawn_kept; [exact D| |eapply kept_of; exact B].
  destruct D as ((W & Ef & Er & Ec & _) & _). pose proof B as (W' & (s1 & s2 & s3 & s4) & En & _). split; [exact W'|]. repeat (split; [congruence|]). intros i c Hi Hc. apply En; lia.
Qed.
Lemma drawn_ext f m n A F G : drawn f m n A F -> meq m n F G -> drawn f m n A G.
Proof. intros ((W & Ef & Er & Ec & Ee) & Hm) HE. split; [|exact Hm]. split; [exact W|]. repeat (split; [assumption|]). intros i c Hi Hc. rewrite Ee by auto. now apply HE. Qed.

Lemma scmp_same f m n a b F : sholds a f m n F -> sholds b f m n F -> mzd_slice_cmp a b = Ok 0%Z.
Proof.
  intros (W & Ef & Er & Ec & Ee) (W' & Ef' & Er' & Ec' & Ee'). destruct (slice_cmp_ok a b W W') as (r & E & H). rewrite E. f_equal. apply H. repeat (split; [congruence|]).
  intros i c Hi Hc. rewrite Ee, Ee' by lia. reflexivity.
Qed.

Section Small.
Variables (f : N) (ff : gf2e).
Hypothesis Wff : gf2e_wf ff.
Hypothesis Eff : ff_minpoly ff = f.
Hypothesis D2 : 2 <= ff_degree ff.
Hypothesis Irr : irreducible f.

Lemma pdeg_f : pdeg f = N.of_nat (ff_degree ff). Proof. clear D2 Irr. destruct Wff as (_ & D & _). rewrite <- Eff. lia. Qed.
Lemma depth2 A m n F : sholds A f m n F -> 2 <= sl_depth A.
Proof. intros (W & E & _). pose proof (wfs_deg A W) as D. rewrite E, pdeg_f in D. lia. Qed.
(** slice and cling, with targets *)
Lemma sl_none m n A F : holds A f m n F -> exists a, mzed_slice None A = Ok a /\ sholds a f m n F.
Proof.
  intros (W & Ef & Er & Ec & Ee). destruct (proj1 (wp_iff _ _) (ConvSlice.mzed_slice_ok None A W Logic.I)) as (a & E & K & _). exists a. split; [exact E|].
  rewrite Ef, Er, Ec in K. eapply sh_ext; [exact K|]. intros i c Hi Hc. now apply Ee.
Qed.
Lemma sl_some m n A F b G : holds A f m n F -> sdrawn f m n b G -> exists a, mzed_slice (Some b) A = Ok a /\ sdrawn f m n a F.
Proof.
  intros (W & Ef & Er & Ec & Ee) Db. pose proof Db as ((Wb & b1 & b2 & b3 & _) & _).
  assert (T : starget (Some b) (ff_minpoly (mz_ff A)) (mz_nrows A) (mz_ncols A)) by (split; [exact Wb|]; repeat split; congruence).
  destruct (proj1 (wp_iff _ _) (ConvSlice.mzed_slice_ok (Some b) A W T)) as (a & E & K & B).
  exists a. split; [exact E|]. eapply sdrawn_becomes; [exact Db|]. eapply sb_ext; [exact B|]. intros i c Hi Hc. apply Ee; lia.
Qed.
Lemma cl_none m n a F : sholds a f m n F -> exists A, mzed_cling None a = Ok A /\ holds A f m n F.
Proof.
  intros K. pose proof K as (W & Ef & Er & Ec & Ee). destruct (proj1 (wp_iff _ _) (ConvCling.mzed_cling_ok None a W (depth2 _ _ _ _ K) Logic.I)) as (A & E & KA & _). exists A. split; [exact E|].
  rewrite Ef, Er, Ec in KA. destruct KA as (k1 & k2 & k3 & k4 & k5). split; [exact k1|]. repeat (split; [assumption|]). intros i c Hi Hc. rewrite k5 by auto. now apply Ee.
Qed.
Lemma cl_some m n a F A G : sholds a f m n F -> drawn f m n A G -> exists A', mzed_cling (Some A) a = Ok A' /\ drawn f m n A' F.
Proof.
  intros K DA. pose proof K as (W & Ef & Er & Ec & Ee). pose proof DA as ((WA & a1 & a2 & a3 & _) & _).
  assert (T : target (Some A) (ff_minpoly (sl_ff a)) (sl_nrows a) (sl_ncols a)) by (split; [exact WA|]; repeat split; congruence).
  destruct (proj1 (wp_iff _ _) (ConvCling.mzed_cling_ok (Some A) a W (depth2 _ _ _ _ K) T)) as (A' & E & _ & B).
  exists A'. split; [exact E|]. eapply drawn_ext; [eapply pdrawn_becomes; [exact DA|exact B]|]. intros i c Hi Hc. now apply Ee.
Qed.

Lemma twopow_ff : twopow (ff_degree ff) = (2 ^ N.of_nat (ff_degree ff))%N.
Proof. clear D2 Irr. apply Gf2xProofs.twopow_spec. destruct Wff as (He & _). lia. Qed.
Theorem test_gf2e_passes : test_gf2e ff = Ok 0.
Proof.
  clear D2. assert (H : wp (test_gf2e ff) (fun r => r = 0)).
  { unfold test_gf2e. assert (P : 1 <= N.to_nat (twopow (ff_degree ff))).
    { rewrite twopow_ff. assert (2 ^ N.of_nat (ff_degree ff) <> 0)%N; [apply N.pow_nonzero; lia|lia]. }
    apply (wp_for (fun _ r => r = 0)); [exact P|reflexivity|]. intros k r Hk ->.
    assert (Hin : inF (ff_minpoly ff) (N.of_nat k)). { rewrite Eff. unfold inF. rewrite pdeg_f. rewrite twopow_ff in Hk. lia. }
    assert (Irr' : irreducible (ff_minpoly ff)) by now rewrite Eff.
    destruct (gf2e_inv_ok ff (N.of_nat k) Wff Irr' Hin ltac:(lia)) as (b & E1 & Hb & Mb). rewrite E1. cbn [bind].
    assert (f0 : ff_minpoly ff <> 0%N) by now apply gf2e_wf_f0.
    assert (Hb0 : b <> 0%N). { intros ->. rewrite fmul_comm, fmul_0_l in Mb. discriminate. }
    destruct (gf2e_inv_ok ff b Wff Irr' Hb Hb0) as (c & E2 & Hc & Mc). rewrite E2. cbn [bind wp].
    assert (Q : c = N.of_nat k).
    { rewrite <- (fmul_1_l (ff_minpoly ff) c) by auto. rewrite <- Mb. rewrite <- fmul_assoc by auto. rewrite Mc. now apply fmul_1_r. }
    now rewrite Q, N.eqb_refl. }
  apply wp_iff in H. destruct H as (r & -> & ->). reflexivity.
Qed.

Theorem test_slice_passes rnd srnd m n : 0 < n -> test_slice ff rnd srnd m n = Ok 0.
Proof.
  intros Hn. unfold test_slice. destruct (random_ok ff rnd m n Wff D2 Hn) as (A & EA & DA & _). rewrite EA. cbn [bind]. rewrite Eff in DA. set (F := draws _ _) in DA.
  destruct (sl_none m n A F (proj1 DA)) as (a0 & E1 & K1). rewrite E1. cbn [bind]. destruct (sdrawn_canary _ _ _ _ _ K1 Hn) as (a & E2 & Da & _). rewrite E2. cbn [bind].
  destruct (srandom_ok ff srnd m n Wff Hn) as (b0 & G & E3 & Db0 & _). rewrite E3. cbn [bind]. rewrite Eff in Db0.
  destruct (sl_some m n A F b0 G (proj1 DA) Db0) as (b & E4 & Db). rewrite E4. cbn [bind].
  rewrite (salive_all_ok f) by (repeat constructor; eauto 6). cbn [bind]. rewrite (alive_all_ok f) by (repeat constructor; eauto 6). cbn [bind].
  rewrite (scmp_same f m n a b F (proj1 Da) (proj1 Db)). cbn [bind].
  destruct (cl_none m n b F (proj1 Db)) as (B & E5 & KB). rewrite E5. cbn [bind]. destruct (cl_some m n a F A F (proj1 Da) DA) as (A' & E6 & DA'). rewrite E6. cbn [bind].
  rewrite (chk_cmp A B) by (apply (cmp_same f m n A B F F); auto; [apply DA|easy]). rewrite (chk_cmp A' B) by (apply (cmp_same f m n A' B F F); auto; [apply DA'|easy]). reflexivity.
Qed.

Theorem test_known_passes m n : 0 < n -> test_slice_known_answers ff m n = Ok 0.
Proof.
  intros Hn. unfold test_slice_known_answers. destruct (proj1 (wp_iff _ _) (mzed_init_ok ff m n Wff D2)) as (A0 & E0 & F0 & K0 & _).
  rewrite E0. cbn [bind]. rewrite Eff in K0. destruct (drawn_canary _ _ _ _ _ K0 Hn) as (A & E1 & DA & _). rewrite E1. cbn [bind].
  set (one := mzd_set_ui (mzd_init m n) 1).
  assert (W1 : mset (mzd_init m n) one (fun i k => i =? k)).
  { eapply mset_ext; [apply set_ui_ok; apply wf_init|]. cbv beta. intros i k _ _. reflexivity. }
  match goal with |- bind ?L _ = _ => assert (H : wp L (fun '(A, r) => r = 0)) end.
  { eapply wp_mono; [apply (wp_for (fun _ '(A, r) => (exists F, drawn f m n A F) /\ r = 0)); [lia|split; [eauto|reflexivity]|]|].
    2:{ cbv beta. intros (A1 & r). intuition. }
    intros j (A1 & r) Hj ((F & D1) & ->). pose proof D1 as ((WA & a1 & a2 & a3 & _) & _).
    assert (Hv : inF (ff_minpoly (mz_ff A1)) (N.shiftl 1 (N.of_nat j))).
    { rewrite a1. unfold inF. rewrite pdeg_f, N.shiftl_1_l. apply N.pow_lt_mono_r; lia. }
    apply wp_bind. eapply wp_mono; [apply (mzed_set_ui_ok A1 _ WA Hv)|]. cbv beta. intros A2 B2. pose proof (pdrawn_becomes _ _ _ _ _ _ _ D1 B2) as DD.
    set (U := fun i c => if i =? c then N.shiftl 1 (N.of_nat j) else 0%N) in DD.
    destruct (sl_none m n A2 U (proj1 DD)) as (a & E2 & Ka). rewrite E2. cbn [bind]. pose proof Ka as (Wa & b1 & b2 & b3 & b4).
    pose proof Wa as (_ & _ & _ & Wx).
    assert (Bx : forall b i c, b < sl_depth a -> i < m -> c < n -> mbit (sx a b) i c = (i =? c) && (b =? j)).
    { intros b i c Hb Hi Hc. rewrite sbit by exact Hb. rewrite b4 by auto. unfold U. destruct (i =? c); cbn [andb]; [|apply N.bits_0].
      rewrite N.shiftl_1_l, N.pow2_bits_eqb. lia. }
    apply wp_bind. eapply wp_mono; [apply (wp_for (fun _ c => c = 0)); [lia|reflexivity|]|].
    { intros i c Hi ->. rewrite lget_sx by (auto; lia). cbn [bind wp]. destruct (Wx i ltac:(lia)) as (X1 & X2 & X3). destruct (Nat.eqb_spec i j) as [->|Ne]; cbn [negb].
      - cbn [Nat.add]. apply chk_cmp_iff. apply mzd_cmp_eq. destruct W1 as (Wo & o1 & o2 & o3 & _). cbn [mzd_init mzd_nrows mzd_ncols] in o1, o2, o3. repeat (split; [congruence|]).
        intros i' c' Hi' Hc'. rewrite Bx by lia. rewrite o3 by lia. now rewrite Nat.eqb_refl, andb_true_r.
      - replace (mzd_is_zero (sx a i)) with true; [reflexivity|]. symmetry. apply is_zero_ok. intros i' c' Hi' Hc'. rewrite Bx by lia. replace (i =? j) with false by lia. apply andb_false_r. }
    cbv beta. intros c ->. destruct (cl_none m n a U Ka) as (AA & E3 & KA). rewrite E3. cbn [bind]. rewrite (alive_all_ok f) by (repeat constructor; eauto 6). cbn [bind wp].
    split; [eauto|]. rewrite (chk_cmp AA A2); [reflexivity|]. apply (cmp_same f m n AA A2 U U); auto; [apply DD|easy]. }
  apply wp_iff in H. destruct H as ((A' & r) & -> & ->). reflexivity.
Qed.

Lemma add_some m n C A B G F1 F2 : drawn f m n C G -> holds A f m n F1 -> holds B f m n F2 -> exists C', mzed_add (Some C) A B = Ok C' /\ drawn f m n C' (madd F1 F2).
Proof.
  intros DC (W & Ef & Er & Ec & Ee) (W2 & Ef2 & Er2 & Ec2 & Ee2). pose proof DC as ((WC & c1 & c2 & c3 & _) & _).
  assert (T : target (Some C) (ff_minpoly (mz_ff A)) (mz_nrows A) (mz_ncols A)) by (split; [exact WC|]; repeat split; congruence).
  destruct (proj1 (wp_iff _ _) (mzed_add_ok (Some C) A B W W2 ltac:(congruence) ltac:(congruence) ltac:(congruence) T)) as (C' & E & _ & Bc). exists C'. split; [exact E|].
  eapply drawn_ext; [eapply pdrawn_becomes; [exact DC|exact (Bc C eq_refl)]|]. intros i c Hi Hc. unfold madd. rewrite Ee, Ee2 by auto. reflexivity.
Qed.
Theorem test_add_passes rA rB rC m n : 0 < n -> test_add ff rA rB rC m n = Ok 0.
Proof.
  intros Hn. unfold test_add. destruct (random_ok ff rA m n Wff D2 Hn) as (A & EA & DA & _). rewrite EA. cbn [bind]. rewrite Eff in DA.
  destruct (random_ok ff rB m n Wff D2 Hn) as (B & EB & DB & _). rewrite EB. cbn [bind]. rewrite Eff in DB.
  destruct (random_ok ff rC m n Wff D2 Hn) as (C0 & EC & DC & _). rewrite EC. cbn [bind]. rewrite Eff in DC.
  set (FA := draws ff rA) in *. set (FB := draws ff rB) in *.
  destruct (add_some _ _ _ _ _ _ _ _ DC (proj1 DA) (proj1 DB)) as (C1 & E1 & D1). rewrite E1. cbn [bind].
  destruct (TestProofs.copy_ok _ _ _ _ _ (proj1 D1)) as (D0 & E2 & K2). rewrite E2. cbn [bind]. destruct (drawn_canary _ _ _ _ _ K2 Hn) as (D & E3 & DD & _). rewrite E3. cbn [bind].
  destruct (add_some _ _ _ _ _ _ _ _ D1 (proj1 D1) (proj1 DA)) as (C3 & E4 & D4). rewrite E4. cbn [bind].
  destruct (add_some _ _ _ _ _ _ _ _ D4 (proj1 D4) (proj1 DB)) as (C4 & E5 & D5). rewrite E5. cbn [bind].
  replace (mzed_is_zero C4) with true.
  2:{ symmetry. destruct D5 as ((W & _ & e1 & e2 & e3) & _). apply (mzed_is_zero_ok C4 W). rewrite e1, e2. intros i c Hi Hc. rewrite e3 by auto. unfold madd.
      rewrite (N.lxor_comm (FA i c)), (N.lxor_assoc (FB i c)), N.lxor_nilpotent, N.lxor_0_r. apply N.lxor_nilpotent. }
  destruct (add_some _ _ _ _ _ _ _ _ D5 (proj1 DA) (proj1 DB)) as (C & E6 & D6). rewrite E6. cbn [bind].
  rewrite (chk_cmp D C) by (apply (cmp_same f m n D C (madd FA FB) (madd FA FB)); [apply DD|apply D6|easy]).
  destruct (sl_none m n A FA (proj1 DA)) as (a0 & G1 & Ka). destruct (sl_none m n B FB (proj1 DB)) as (b0 & G2 & Kb). destruct (sl_none m n C _ (proj1 D6)) as (c0 & G3 & Kc).
  rewrite G1. cbn [bind]. rewrite G2. cbn [bind]. rewrite G3. cbn [bind].
  destruct (sdrawn_canary _ _ _ _ _ Ka Hn) as (a & H1 & Da & _). destruct (sdrawn_canary _ _ _ _ _ Kb Hn) as (b & H2 & Db & _). destruct (sdrawn_canary _ _ _ _ _ Kc Hn) as (c & H3 & Dc & _).
  rewrite H1. cbn [bind]. rewrite H2. cbn [bind]. rewrite H3. cbn [bind].
  pose proof Da as ((Wa & a1 & a2 & a3 & a4) & _). pose proof Db as ((Wb & b1 & b2 & b3 & b4) & _). pose proof Dc as ((Wc & c1 & c2 & c3 & _) & _).
  assert (T : starget (Some c) (ff_minpoly (sl_ff a)) (sl_nrows a) (sl_ncols a)) by (split; [exact Wc|]; repeat split; congruence).
  destruct (proj1 (wp_iff _ _) (slice_add_ok (Some c) a b Wa Wb ltac:(congruence) ltac:(congruence) ltac:(congruence) T)) as (c' & H4 & _ & Bc). rewrite H4. cbn [bind].
  pose proof (sdrawn_becomes _ _ _ _ _ _ _ Dc Bc) as Dc'.
  assert (Dc2 : sdrawn f m n c' (madd FA FB)). { split; [|apply Dc']. eapply sh_ext; [apply Dc'|]. intros i k Hi Hk. unfold madd. rewrite a4, b4 by auto. reflexivity. }
  pose proof (proj1 Dc2) as (Wc' & c1' & c2' & c3' & c4').
  destruct (proj1 (wp_iff _ _) (slice_copy_ok None c' Wc' Logic.I)) as (d0 & H5 & Kd & _). rewrite H5. cbn [bind]. rewrite c1', c2', c3' in Kd.
  destruct (sdrawn_canary _ _ _ _ _ Kd Hn) as (d & H6 & Dd & _). rewrite H6. cbn [bind].
  destruct (cl_some m n d _ D _ (proj1 Dd) DD) as (D' & H7 & DD'). rewrite H7. cbn [bind].
  rewrite (alive_all_ok f) by (repeat constructor; eauto 6). cbn [bind]. rewrite (salive_all_ok f) by (repeat constructor; eauto 6). cbn [bind].
  rewrite (chk_cmp D' C); [reflexivity|]. apply (cmp_same f m n D' C (sentry c') (madd FA FB)); [apply DD'|apply D6|]. intros i k Hi Hk. now apply c4'.
Qed.

(** scalar multiples *)
Definition scalar_sizes (m n : nat) : Prop := ff_degree ff <= 8 -> (N.of_nat m * N.of_nat n < 2 ^ 31)%N /\
  ((2 ^ 17 <= N.of_nat m * N.of_nat n)%N -> ff_degree ff = 2 \/ ff_degree ff = 4 \/ ff_degree ff = 8).
Lemma scal_ok m n T a B F : 0 < n -> scalar_sizes m n -> inF f a -> holds B f m n F -> match T with None => True | Some C => exists G, holds C f m n G end ->
  exists C', mzed_mul_scalar T a B = Ok C' /\ holds C' f m n (mscal f a F).
Proof.
  intros Hn Hs Ha (W & Ef & Er & Ec & Ee) HT. assert (Dg : ff_degree (mz_ff B) = ff_degree ff). { destruct W as ((_ & D & _) & _). rewrite Ef, pdeg_f in D. lia. }
  destruct (C18_mul_scalar T a B W) as (C' & E & K); rewrite ?Ef, ?Er, ?Ec, ?Dg; auto.
  - destruct T as [C|]; [|exact Logic.I]. destruct HT as (G & Wc & c1 & c2 & c3 & _). split; [exact Wc|]. auto.
  - intros H8. now apply Hs.
  - intros H8. now apply Hs.
  - exists C'. split; [exact E|]. rewrite Ef, Er, Ec in K. destruct K as (k1 & k2 & k3 & k4 & k5). split; [exact k1|]. repeat (split; [assumption|]). intros i c Hi Hc. rewrite k5 by auto. unfold mscal. now rewrite Ee.
Qed.
Theorem test_scalar_passes a rB r1 r2 m n : 0 < n -> scalar_sizes m n -> inF f a -> a <> 0%N -> test_scalar ff a rB r1 r2 m n = Ok 0.
Proof.
  intros Hn Hs Ha Ha0. unfold test_scalar. destruct (random_ok ff rB m n Wff D2 Hn) as (B & EB & (KB & _) & _). rewrite EB. cbn [bind]. rewrite Eff in KB. set (F := draws ff rB) in *.
  destruct (proj1 (wp_iff _ _) (mzed_init_ok ff m n Wff D2)) as (Z & EZ & _ & KZ & _). rewrite Eff in KZ.
  destruct (random_ok ff r1 m n Wff D2 Hn) as (C1 & E1 & (K1 & _) & _). rewrite Eff in K1. destruct (random_ok ff r2 m n Wff D2 Hn) as (C2 & E2 & (K2 & _) & _). rewrite Eff in K2.
  repeat (rewrite EZ; cbn [bind]). rewrite E1. cbn [bind].
  destruct (scal_ok m n (Some Z) a B F Hn Hs Ha KB (ex_intro _ _ KZ)) as (X0 & G0 & L0). destruct (scal_ok m n (Some C1) a B F Hn Hs Ha KB (ex_intro _ _ K1)) as (X1 & G1 & L1). destruct (scal_ok m n None a B F Hn Hs Ha KB Logic.I) as (X2 & G2 & L2).
  rewrite G0. cbn [bind]. rewrite G1. cbn [bind]. rewrite G2. cbn [bind].
  destruct (sl_none m n B F KB) as (b & G3 & Kb). rewrite G3. cbn [bind]. pose proof Kb as (Wb & b1 & b2 & b3 & b4).
  assert (Hab : inF (ff_minpoly (sl_ff b)) a) by now rewrite b1.
  destruct (proj1 (wp_iff _ _) (slice_mul_scalar_ok None a b Wb Logic.I Hab)) as (c & G4 & Kc). rewrite G4. cbn [bind]. rewrite b1, b2, b3 in Kc.
  assert (Kc' : sholds c f m n (mscal f a F)). { eapply sh_ext; [exact Kc|]. intros i k Hi Hk. unfold mscal. now rewrite b4. }
  destruct (cl_none m n c _ Kc') as (X3 & G5 & L3). rewrite G5. cbn [bind].
  assert (Irr' : irreducible (ff_minpoly ff)) by now rewrite Eff. assert (Ha' : inF (ff_minpoly ff) a) by now rewrite Eff.
  destruct (gf2e_inv_ok ff a Wff Irr' Ha' Ha0) as (v & G6 & Hv & Mv). rewrite G6. cbn [bind]. rewrite Eff in Hv, Mv.
  rewrite E2. cbn [bind].
  destruct (scal_ok m n (Some Z) v X0 _ Hn Hs Hv L0 (ex_intro _ _ KZ)) as (Y0 & J0 & M0). destruct (scal_ok m n (Some C2) v X1 _ Hn Hs Hv L1 (ex_intro _ _ K2)) as (Y1 & J1 & M1). destruct (scal_ok m n None v X2 _ Hn Hs Hv L2 Logic.I) as (Y2 & J2 & M2).
  rewrite J0. cbn [bind]. rewrite J1. cbn [bind]. rewrite J2. cbn [bind].
  assert (f0 : f <> 0%N) by (rewrite <- Eff; now apply gf2e_wf_f0).
  assert (Q : meq m n F (mscal f v (mscal f a F))).
  { intros i k Hi Hk. unfold mscal. rewrite fmul_assoc by exact f0. rewrite (fmul_comm f v a), Mv. symmetry. apply fmul_1_l; [exact f0|]. destruct KB as (WB & q1 & q2 & q3 & q4).
    change (inF f (F i k)). rewrite <- q4 by auto. rewrite <- q1. apply wf_entry; auto; lia. }
  rewrite (equal_all_ok f m n (mscal f a F)) by (repeat constructor; eexists; (split; [eassumption|easy])).
  rewrite (chk_cmp B Y0) by (eapply cmp_same; eauto). rewrite (chk_cmp B Y1) by (eapply cmp_same; eauto). rewrite (chk_cmp B Y2) by (eapply cmp_same; eauto). reflexivity.
Qed.
End Small.
