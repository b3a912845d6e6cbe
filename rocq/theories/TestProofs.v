(** The checks of the library's test programs hold: proofs. *)
From Coq Require Import NArith ZArith Lia List Bool Arith.
From Coq Require Import ZifyBool ZifyNat ZifyN.
From Verif Require Import HistSpec HistModel HistProofs.
From Verif Require Import Base Spec LinSpec PolyFacts MatFacts Gf2xModel Gf2eModel Gf2eProofs MzdModel MzedModel MzedSpec LaneFacts MzedProofs MzedOps MzedOps2 FrameProofs.
From Verif Require Import EchFacts EchNaive PropNj PropLaws.
From Verif Require Import TestModel TestCanary.
Import ListNotations.
Local Open Scope nat_scope.

(** a random matrix with canaries *)
Definition drawn (f : N) (m n : nat) (A : mzed) (F : mat) : Prop := holds A f m n F /\ marked A.
Lemma drawn_canary f m n A F : holds A f m n F -> 0 < n -> exists A', mzed_set_canary A = Ok A' /\ drawn f m n A' F /\ mz_ff A' = mz_ff A.
Proof.
  intros (W & Ef & Er & Ec & Ee) Hn. destruct (proj1 (wp_iff _ _) (set_canary_ok A W ltac:(lia))) as (A' & E & W' & (s1 & s2 & s3 & s4) & En & Hm).
  exists A'. split; [exact E|]. split; [|congruence]. split; [|exact Hm]. split; [exact W'|]. repeat (split; [congruence|]).
  intros i c Hi Hc. rewrite En by lia. now apply Ee.
Qed.
Definition draws (ff : gf2e) (rnd : nat -> nat -> N) : mat := fun i c => N.land (rnd i c) (N.ones (N.of_nat (ff_degree ff))).
Lemma random_ok ff rnd m n : gf2e_wf ff -> 2 <= ff_degree ff -> 0 < n ->
  exists A, random_mzed_t ff rnd m n = Ok A /\ drawn (ff_minpoly ff) m n A (draws ff rnd) /\ mz_ff A = ff.
Proof.
  intros Hf Hd Hn. unfold random_mzed_t. destruct (proj1 (wp_iff _ _) (mzed_init_ok ff m n Hf Hd)) as (A0 & E0 & F0 & K0 & _).
  rewrite E0. cbn [bind]. pose proof K0 as (W0 & G0 & R0 & C0 & _).
  destruct (proj1 (wp_iff _ _) (mzed_randomize_ok rnd A0 W0)) as (A1 & E1 & B1). rewrite E1. cbn [bind].
  assert (K1 : holds A1 (ff_minpoly ff) m n (draws ff rnd)).
  { pose proof B1 as (W1 & (s1 & s2 & s3 & s4) & En & _). split; [exact W1|]. repeat (split; [congruence|]). intros i c Hi Hc.
    rewrite En by lia. now rewrite F0. }
  destruct (drawn_canary _ _ _ _ _ K1 Hn) as (A & E & D & G). exists A. split; [exact E|]. split; [exact D|]. rewrite G, (becomes_ff _ _ _ B1). exact F0.
Qed.
Lemma copy_ok f m n A F : holds A f m n F -> exists A', mzed_copy None A = Ok A' /\ holds A' f m n F.
Proof.
  intros (W & Ef & Er & Ec & Ee). destruct (proj1 (wp_iff _ _) (mzed_copy_ok None A W Logic.I)) as (A' & E & K & _).
  exists A'. split; [exact E|]. destruct K as (k1 & k2 & k3 & k4 & k5). split; [exact k1|]. repeat (split; [congruence|]). intros i c Hi Hc. rewrite k5 by lia. now apply Ee.
Qed.
Lemma drawn_kept f m n A A' F G : drawn f m n A F -> holds A' f m n G -> kept_p A A' -> drawn f m n A' G.
Proof. intros (_ & Hm) K Kp. split; [exact K|]. eapply marked_kept; eauto. Qed.
Lemma alive_all_ok f l : Forall (fun A => exists m n F, drawn f m n A F /\ 0 < n) l -> alive_all l = Ok 0.
Proof.
  induction 1 as [|A l (m & n & F & (K & Hm) & Hn) _ IH]; [reflexivity|]. cbn [alive_all]. destruct K as (W & _ & _ & Ec & _).
  destruct (alive_ok A W ltac:(lia)) as (b & E & Hb). rewrite E, IH. cbn [bind]. rewrite (proj2 Hb Hm). reflexivity.
Qed.
Lemma chk_cmp A B : mzed_cmp A B = Eq -> chk_eq (c_cmp (mzed_cmp A B)) 0 = 0.
Proof. now intros ->. Qed.
(** checking "x == 0" for a comparison does what it should: [!x == 0] *)
Lemma chk_cmp_iff c : chk_eq (c_cmp c) 0 = 0 <-> c = Eq.
Proof. destruct c; cbn; split; easy. Qed.
Lemma chk_rank r : chk_eq (Z.of_nat r) (Z.of_nat r) = 0.
Proof. unfold chk_eq, lneg. destruct (Z.of_nat r =? 0)%Z eqn:E; destruct (_ =? Z.of_nat r)%Z eqn:E'; lia. Qed.
Lemma chk_rank_iff r s : chk_eq (Z.of_nat r) (Z.of_nat s) = 0 <-> ~ (r = 0 /\ s = 1) /\ ~ (0 < r /\ s = 0).
Proof. unfold chk_eq, lneg. destruct (Z.of_nat r =? 0)%Z eqn:E; destruct (_ =? Z.of_nat s)%Z eqn:E'; lia. Qed.
Lemma equal_all_ok f m n F l : Forall (fun A => exists G, holds A f m n G /\ meq m n G F) l -> equal_all l = 0.
Proof.
  induction 1 as [|A l (G & KA & EA) Hl IH]; [reflexivity|]. cbn [equal_all]. destruct l as [|B l']; [reflexivity|]. rewrite IH.
  inversion Hl as [|? ? (G' & KB & EB) _]; subst. rewrite chk_cmp; [reflexivity|]. apply (cmp_same f m n A B G G'); auto.
  intros i j Hi Hj. rewrite EA, EB by auto. reflexivity.
Qed.
Lemma holds_tab f m n M F : holds M f m n F -> holds M f (a_m (tab m n F)) (a_n (tab m n F)) (val (tab m n F)).
Proof. intros (h1 & h2 & h3 & h4 & h5). split; [exact h1|]. repeat (split; [assumption|]). intros i c Hi Hc. rewrite val_tab by assumption. now apply h5. Qed.

Section Tests.
Variables (f : N) (cf : config).
Hypothesis CF : config_ok f cf.

(** *** elimination *)
Lemma reduced_same m n A B F A' r B' s : irreducible f -> (1 <= pdeg f)%N -> holds A f m n F -> holds B f m n F -> echelonises true A A' r -> echelonises true B B' s ->
  r = s /\ mzed_cmp A' B' = Eq.
Proof.
  intros Hirr Hd (W & Ef & Er & Ec & Ee) (W2 & Ef2 & Er2 & Ec2 & Ee2) (BA & QA & (pa & Ea & Ra) & _) (BB & QB & (pb & Eb & Rb) & _).
  assert (f0 : f <> 0%N) by (intros E0; rewrite E0 in Hd; vm_compute in Hd; congruence).
  specialize (Ra eq_refl). specialize (Rb eq_refl). rewrite Ef, Er, Ec in *. rewrite Ef2, Er2, Ec2 in *.
  assert (EF : meq m n (entry B) (entry A)). { intros i j Hi Hj. rewrite Ee, Ee2 by auto. reflexivity. }
  assert (IA : inM f m n (entry A)). { pose proof (wf_inM A W) as X. now rewrite Ef, Er, Ec in X. }
  assert (IA' : inM f m n (entry A')). { pose proof (wf_inM A' (becomes_wf _ _ _ BA)) as X. now rewrite (becomes_ff _ _ _ BA), (becomes_nr _ _ _ BA), (becomes_nc _ _ _ BA), Ef, Er, Ec in X. }
  assert (IB' : inM f m n (entry B')). { pose proof (wf_inM B' (becomes_wf _ _ _ BB)) as X. now rewrite (becomes_ff _ _ _ BB), (becomes_nr _ _ _ BB), (becomes_nc _ _ _ BB), Ef2, Er2, Ec2 in X. }
  assert (QB' : row_equiv f m n (entry A) (entry B')).
  { eapply row_equiv_ext_l; [exact QB|exact EF]. }
  destruct (rref_unique f Hd Hirr m n (entry A) r pa (entry A') s pb (entry B') IA IA' IB' QA QB' Ea Ra Eb Rb) as (R & M & _).
  split; [exact R|]. apply (cmp_same f m n A' B' (entry A') (entry B')); auto.
  - split; [exact (becomes_wf _ _ _ BA)|]. rewrite (becomes_ff _ _ _ BA), (becomes_nr _ _ _ BA), (becomes_nc _ _ _ BA). now repeat split.
  - split; [exact (becomes_wf _ _ _ BB)|]. rewrite (becomes_ff _ _ _ BB), (becomes_nr _ _ _ BB), (becomes_nc _ _ _ BB). now repeat split.
Qed.
Definition good_elim (m n : nat) (e : mzed -> bool -> res (mzed * nat)) : Prop :=
  forall A F, holds A f m n F -> exists A' r, e A true = Ok (A', r) /\ echelonises true A A' r.
(** the same matrix and, if the rank is not 0, any rank but 0 *)
Definition good_matrix (m n : nat) (e : mzed -> bool -> res (mzed * nat)) : Prop :=
  forall A F, holds A f m n F -> exists A' r s, e A true = Ok (A', s) /\ echelonises true A A' r /\ (r = 0 <-> s = 0).
Lemma good_elim_matrix m n e : good_elim m n e -> good_matrix m n e.
Proof. intros H A F K. destruct (H A F K) as (A' & r & E & X). exists A', r, r. split; [exact E|]. split; [exact X|]. reflexivity. Qed.
Lemma equality_test_passes e0 e1 e2 e3 rnd m n : 0 < n -> good_matrix m n e0 -> good_matrix m n e1 -> good_matrix m n e2 -> good_matrix m n e3 ->
  (forall A0 A1 A2 A3 s0 s1 s2 s3 F A0' A1' A2' A3', holds A0 f m n F -> holds A1 f m n F -> holds A2 f m n F -> holds A3 f m n F ->
    e0 A0 true = Ok (A0', s0) -> e1 A1 true = Ok (A1', s1) -> e2 A2 true = Ok (A2', s2) -> e3 A3 true = Ok (A3', s3) ->
    chk_eq (Z.of_nat s0) (Z.of_nat s1) = 0 /\ chk_eq (Z.of_nat s1) (Z.of_nat s2) = 0 /\ chk_eq (Z.of_nat s2) (Z.of_nat s3) = 0 /\ chk_eq (Z.of_nat s3) (Z.of_nat s0) = 0) ->
  equality_test e0 e1 e2 e3 (cf_ff cf) rnd m n = Ok 0.
Proof.
  intros Hn H0 H1 H2 H3 Hr. destruct CF as (F1 & F2 & F3 & F4 & _). unfold equality_test.
  assert (fd : (1 <= pdeg f)%N). { destruct F1 as (_ & D & _). rewrite F2 in D. lia. }
  destruct (random_ok (cf_ff cf) rnd m n F1 F3 Hn) as (A0 & E0 & D0 & _). rewrite E0. cbn [bind]. rewrite F2 in D0. set (F := draws _ _) in D0.
  destruct (copy_ok _ _ _ _ _ (proj1 D0)) as (A1 & E1 & K1). destruct (drawn_canary _ _ _ _ _ K1 Hn) as (C1 & G1 & D1 & _).
  repeat (rewrite E1; cbn [bind]). repeat (rewrite G1; cbn [bind]). clear E1 G1.
  destruct (H0 A0 F (proj1 D0)) as (B0 & r0 & s0 & X0 & Y0 & Z0). destruct (H1 C1 F (proj1 D1)) as (B1 & r1 & s1 & X1 & Y1 & Z1).
  destruct (H2 C1 F (proj1 D1)) as (B2 & r2 & s2 & X2 & Y2 & Z2). destruct (H3 C1 F (proj1 D1)) as (B3 & r3 & s3 & X3 & Y3 & Z3).
  rewrite X0. cbn [bind]. rewrite X1. cbn [bind]. rewrite X2. cbn [bind]. rewrite X3. cbn [bind].
  assert (AL : forall A A' r, drawn f m n A F -> echelonises true A A' r -> exists m n F, drawn f m n A' F /\ 0 < n).
  { intros A A' r D (BA & _). exists m, n, (entry A'). split; [|exact Hn]. eapply drawn_kept; [exact D| |eapply kept_of; exact BA].
    destruct D as ((W & Ef & Er & Ec & _) & _). split; [exact (becomes_wf _ _ _ BA)|]. rewrite (becomes_ff _ _ _ BA), (becomes_nr _ _ _ BA), (becomes_nc _ _ _ BA). now repeat split. }
  rewrite (alive_all_ok f) by (repeat constructor; eauto). cbn [bind].
  destruct (Hr _ _ _ _ _ _ _ _ _ _ _ _ _ (proj1 D0) (proj1 D1) (proj1 D1) (proj1 D1) X0 X1 X2 X3) as (R1 & R2 & R3 & R4). rewrite R1, R2, R3, R4.
  destruct (reduced_same m n A0 C1 F B0 r0 B1 r1 F4 fd (proj1 D0) (proj1 D1) Y0 Y1) as (_ & Q1). destruct (reduced_same m n C1 C1 F B1 r1 B2 r2 F4 fd (proj1 D1) (proj1 D1) Y1 Y2) as (_ & Q2).
  destruct (reduced_same m n C1 C1 F B2 r2 B3 r3 F4 fd (proj1 D1) (proj1 D1) Y2 Y3) as (_ & Q3). destruct (reduced_same m n C1 A0 F B3 r3 B0 r0 F4 fd (proj1 D1) (proj1 D0) Y3 Y0) as (_ & Q4).
  now rewrite (chk_cmp _ _ Q1), (chk_cmp _ _ Q2), (chk_cmp _ _ Q3), (chk_cmp _ _ Q4).
Qed.
Theorem test_equality_passes rnd m n : 0 < n -> (N.to_nat (pdeg f) <= m -> (Z.of_nat m * Z.of_nat n * Z.of_nat (slot (N.to_nat (pdeg f))) < 2 ^ 31)%Z) ->
  test_equality cf rnd m n = Ok 0.
Proof.
  intros Hn Hs. pose proof CF as (F1 & F2 & F3 & F4 & _).
  assert (fd : (1 <= pdeg f)%N). { destruct F1 as (_ & D & _). rewrite F2 in D. lia. }
  assert (G : forall ch, echelon_ok f Packed ch m n -> good_elim m n (p_echelon cf ch)).
  { intros ch Hc A F K. exact (p_echelon_ok f cf CF ch true A (tab m n F) (holds_tab _ _ _ _ _ K) Hc). }
  assert (G1 := G NewtonJohn Logic.I). assert (G2 := G Naive Logic.I). assert (G3 := G Default Hs). assert (G4 := G ByPle Logic.I).
  apply equality_test_passes; auto using good_elim_matrix.
  intros A0 A1 A2 A3 s0 s1 s2 s3 F A0' A1' A2' A3' K0 K1 K2 K3 X0 X1 X2 X3.
  destruct (G1 A0 F K0) as (? & ? & Y0 & Z0). destruct (G2 A1 F K1) as (? & ? & Y1 & Z1). destruct (G3 A2 F K2) as (? & ? & Y2 & Z2). destruct (G4 A3 F K3) as (? & ? & Y3 & Z3).
  rewrite X0 in Y0. rewrite X1 in Y1. rewrite X2 in Y2. rewrite X3 in Y3. injection Y0 as <- <-. injection Y1 as <- <-. injection Y2 as <- <-. injection Y3 as <- <-.
  destruct (reduced_same m n A0 A1 F A0' s0 A1' s1) as (-> & _); auto. destruct (reduced_same m n A1 A2 F A1' s1 A2' s2) as (-> & _); auto. destruct (reduced_same m n A2 A3 F A2' s2 A3' s3) as (-> & _); auto.
  now rewrite !chk_rank.
Qed.

(** *** products *)
Lemma p_mul_kept ch C M M2 m l n F G : holds M f m l F -> holds M2 f l n G -> wf_mzed C -> ff_minpoly (mz_ff C) = f -> mz_nrows C = m -> mz_ncols C = n ->
  product_ok f Packed ch n -> wp (p_mul cf ch (Some C) M M2) (kept_p C).
Proof.
  intros (W & Ef & Er & Ec & _) (W2 & Ef2 & Er2 & Ec2 & _) WC EfC ErC EcC Hp. destruct CF as (F1 & F2 & F3 & F4 & F5 & F6 & F7 & F8).
  assert (HT : target (Some C) (ff_minpoly (mz_ff M)) (mz_nrows M) (mz_ncols M2)) by (split; [exact WC|]; repeat split; congruence).
  destruct ch; cbn [product_ok] in Hp; try contradiction; cbn [p_mul].
  - apply mul_frame; auto; try congruence; lia.
  - apply naive_frame; auto; try congruence; lia.
  - apply nj_frame; auto; try congruence; lia.
  - destruct Hp as (Hp & Hcut). apply strassen_frame; auto; try congruence; try lia. rewrite (slot_w f M W Ef). exact Hcut.
  - eapply wp_mono; [apply (ConvCling.mzed_mul_karatsuba_ok (Some C) M M2); auto; congruence|]. cbv beta. intros C' (_ & B'). eapply kept_of. exact B'.
  - destruct (PropBlm.C52_mzed_mul BLM_FUEL (cf_x cf) (Some C) M M2) as (M' & -> & _ & E2); auto using fuel_p; try congruence. cbn [ended wp]. eapply kept_of; eauto.
Qed.

Lemma six_ok ch n : In ch six -> 0 < n -> product_ok f Packed ch n.
Proof.
  intros Hc Hn. cbn in Hc. repeat (destruct Hc as [<-|Hc]; [cbn [product_ok]; auto|]); [|contradiction].
  split; [exact Hn|]. assert (Q : 64 / slot (deg f) <= 32).
  { transitivity (64 / 2); [|reflexivity]. apply Nat.div_le_compat_l. unfold slot. repeat destruct (_ <=? _); lia. }
  lia.
Qed.
Lemma map_res_ok {X Y} (g : X -> res Y) (P : X -> Prop) (Q : Y -> Prop) l : (forall x, P x -> exists y, g x = Ok y /\ Q y) -> Forall P l ->
  exists ys, map_res g l = Ok ys /\ Forall Q ys /\ length ys = length l.
Proof.
  intros H. induction 1 as [|x l Hx _ IH]; [now exists []|]. cbn [map_res]. destruct (H x Hx) as (y & -> & Hy). destruct IH as (ys & -> & Hys & L).
  cbn [bind]. exists (y :: ys). split; [reflexivity|]. split; [now constructor|]. cbn. now rewrite L.
Qed.
Lemma Forall_combine {X Y} (P : X -> Prop) (Q : Y -> Prop) l l' : Forall P l -> Forall Q l' -> Forall (fun p => P (fst p) /\ Q (snd p)) (combine l l').
Proof. intros H. revert l'. induction H; intros l' H'; [constructor|]. inversion H'; subst; cbn; constructor; auto. Qed.
Lemma Forall_tl {X} (P : X -> Prop) l : Forall P l -> Forall P (tl l).
Proof. destruct 1; cbn; auto. Qed.
Definition outcome (m n : nat) (T : mat) (C : mzed) : Prop := exists G, drawn f m n C G /\ meq m n G T.
Lemma outcomes m n T l : Forall (outcome m n T) l -> equal_all l = 0.
Proof. intros H. apply (equal_all_ok f m n T). eapply Forall_impl; [|exact H]. intros C (G & (K & _) & E). eauto. Qed.
Lemma outcomes_alive m n T l : 0 < n -> Forall (outcome m n T) l -> Forall (fun A => exists m n F, drawn f m n A F /\ 0 < n) l.
Proof. intros Hn. apply Forall_impl. intros C (G & D & _). eauto. Qed.
Theorem test_mul_passes rA rB rC m n l : 0 < n -> 0 < l -> test_mul cf rA rB rC m n l = Ok 0.
Proof.
  intros Hn Hl. pose proof CF as (F1 & F2 & F3 & F4 & _). unfold test_mul.
  destruct (random_ok (cf_ff cf) rA m l F1 F3 Hl) as (A & EA & DA & _). rewrite EA. cbn [bind]. rewrite F2 in DA. set (F := draws _ rA) in DA.
  destruct (random_ok (cf_ff cf) rB l n F1 F3 Hn) as (B & EB & DB & _). rewrite EB. cbn [bind]. rewrite F2 in DB. set (G := draws _ rB) in DB.
  destruct (map_res_ok (fun k => random_mzed_t (cf_ff cf) (rC k) m n) (fun _ => True) (fun C => exists X, drawn f m n C X) (seq 0 6)) as (Cs & E1 & H1 & _).
  { intros k _. destruct (random_ok (cf_ff cf) (rC k) m n F1 F3 Hn) as (C & E & D & _). rewrite F2 in D. eauto. }
  { now apply Forall_forall. }
  rewrite E1. cbn [bind].
  destruct (map_res_ok (fun '(ch, C) => p_mul cf ch (Some C) A B) (fun p => In (fst p) six /\ exists X, drawn f m n (snd p) X) (outcome m n (mmul f l F G)) (combine six Cs)) as (Ds & E2 & H2 & _).
  { intros (ch & C) (Hc & X & DC). cbn [fst snd] in *. pose proof (six_ok ch n Hc Hn) as Hp.
    destruct DC as (KC & MC). pose proof KC as (WC & fC & rC' & cC & _).
    destruct (p_mul_ok f cf CF ch (Some C) A B (tab m l F) (tab l n G)) as (C' & Y & E & K & EY);
      [split; [exact WC|repeat split; assumption]|apply holds_tab, DA|apply holds_tab, DB|reflexivity|exact Hp|].
    exists C'. split; [exact E|]. exists Y. split.
    - eapply drawn_kept; [split; [exact KC|exact MC]|exact K|].
      pose proof (p_mul_kept ch C A B m l n F G (proj1 DA) (proj1 DB) WC fC rC' cC Hp) as Q. rewrite E in Q. exact Q.
    - eapply meq_trans; [exact EY|]. cbn [a_m a_n tab]. apply mmul_ext; intros i j Hi Hj; now apply val_tab. }
  { apply (Forall_combine (fun ch => In ch six) (fun C => exists X, drawn f m n C X)); [apply Forall_forall; auto|exact H1]. }
  rewrite E2. cbn [bind]. rewrite (alive_all_ok f).
  - cbn [bind]. now rewrite (outcomes m n _ Ds H2).
  - constructor; [exists m, l, F; auto|]. constructor; [exists l, n, G; auto|]. apply Forall_tl. now apply (outcomes_alive m n (mmul f l F G)).
Qed.
Theorem test_addmul_passes rA rB rC m n l : 0 < n -> 0 < l -> test_addmul cf rA rB rC m n l = Ok 0.
Proof.
  intros Hn Hl. pose proof CF as (F1 & F2 & F3 & F4 & _). unfold test_addmul.
  destruct (random_ok (cf_ff cf) rA m l F1 F3 Hl) as (A & EA & DA & _). rewrite EA. cbn [bind]. rewrite F2 in DA. set (F := draws _ rA) in DA.
  destruct (random_ok (cf_ff cf) rB l n F1 F3 Hn) as (B & EB & DB & _). rewrite EB. cbn [bind]. rewrite F2 in DB. set (G := draws _ rB) in DB.
  destruct (random_ok (cf_ff cf) rC m n F1 F3 Hn) as (C0 & EC & DC & _). rewrite EC. cbn [bind]. rewrite F2 in DC. set (K := draws _ rC) in DC.
  destruct (map_res_ok (fun _ : nat => mzed_copy None C0) (fun _ => True) (fun C => holds C f m n K) (seq 1 5)) as (Cs & E1 & H1 & _).
  { intros k _. apply copy_ok, DC. } { now apply Forall_forall. }
  rewrite E1. cbn [bind].
  destruct (map_res_ok mzed_set_canary (fun C => holds C f m n K) (fun C => drawn f m n C K) Cs) as (Ds & E2 & H2 & _); [|exact H1|].
  { intros C HC. destruct (drawn_canary _ _ _ _ _ HC Hn) as (C' & E & D & _). eauto. }
  rewrite E2. cbn [bind].
  destruct (map_res_ok (fun '(ch, C) => p_addmul cf ch C A B) (fun p => In (fst p) six /\ drawn f m n (snd p) K) (outcome m n (madd K (mmul f l F G))) (combine six (C0 :: Ds))) as (Es & E3 & H3 & _).
  { intros (ch & C) (Hc & DC'). cbn [fst snd] in *. pose proof (six_ok ch n Hc Hn) as Hp.
    destruct (p_addmul_ok f cf CF ch C A B (tab m l F) (tab l n G) K) as (C' & E & HC' & Q);
      [exact (proj1 DC')|apply holds_tab, DA|apply holds_tab, DB|reflexivity|exact Hp|].
    exists C'. split; [exact E|]. eexists. split; [eapply drawn_kept; [exact DC'|exact HC'|exact Q]|].
    intros i j Hi Hj. unfold madd. f_equal. cbn [a_m a_n tab]. revert i j Hi Hj. change (meq m n (mmul f l (val (tab m l F)) (val (tab l n G))) (mmul f l F G)).
    apply mmul_ext; intros i j Hi Hj; now apply val_tab. }
  { apply (Forall_combine (fun ch => In ch six) (fun C => drawn f m n C K)); [apply Forall_forall; auto|]. constructor; [exact DC|exact H2]. }
  rewrite E3. cbn [bind]. rewrite (alive_all_ok f).
  - cbn [bind]. now rewrite (outcomes m n _ Es H3).
  - constructor; [exists m, l, F; auto|]. constructor; [exists l, n, G; auto|]. apply Forall_tl. now apply (outcomes_alive m n (madd K (mmul f l F G))).
Qed.
End Tests.
