(** The tests of the triangular solvers for bit-sliced matrices: proofs. *)
From Coq Require Import NArith ZArith Lia List Bool Arith.
From Coq Require Import ZifyBool ZifyNat ZifyN.
From Verif Require Import HistSpec HistModel HistProofs.
From Verif Require Import Base Spec LinSpec PolyFacts MatFacts Gf2xModel Gf2eModel Gf2eProofs MzdModel MzedModel MzedSpec LaneFacts MzedProofs MzedOps MzedOps2 FrameProofs.
From Verif Require Import SliceModel SliceSpec SliceProofs SliceOps SliceMul KaraModel MulModel TrsmModel.
From Verif Require Import TrsmSpec EchFacts EchNaive PropNj PropLaws PropSlice PropTrsm.
From Verif Require Import TestModel TestCanary TestProofs TestTrsm TestSliceModel TestSlice TestSmall.
Import ListNotations.
Local Open Scope nat_scope.

Lemma sdrawn_ext f m n A F G : sdrawn f m n A F -> meq m n F G -> sdrawn f m n A G.
Proof. intros (K & Hm) HE. split; [|exact Hm]. eapply sh_ext; eauto. Qed.
Lemma write_ok f m n A F i j v : sdrawn f m n A F -> i < m -> j < n -> inF f v ->
  exists A', mzd_slice_write_elem A i j v = Ok A' /\ sdrawn f m n A' (fun r c => if (r =? i) && (c =? j) then v else F r c) /\ sl_ff A' = sl_ff A.
Proof.
  intros D Hi Hj Hv. pose proof D as ((W & Ef & Er & Ec & Ee) & _).
  destruct (proj1 (wp_iff _ _) (slice_write_elem_ok A i j v W ltac:(lia) ltac:(lia) ltac:(congruence))) as (A' & E & B). exists A'. split; [exact E|].
  split; [|exact (sb_ff _ _ _ B)]. eapply sdrawn_ext; [eapply sdrawn_becomes; eauto|]. intros r c Hr Hc. cbv beta. destruct (_ && _); [reflexivity|]. now apply Ee.
Qed.
Lemma read_ok f m n A F i j : sdrawn f m n A F -> i < m -> j < n -> mzd_slice_read_elem A i j = Ok (F i j).
Proof. intros ((W & Ef & Er & Ec & Ee) & _) Hi Hj. rewrite slice_read_elem_ok by (auto; lia). now rewrite Ee. Qed.

(** zeros in columns lo .. hi-1 of row i *)
Lemma zeros_ok f m n U F i lo hi : sdrawn f m n U F -> i < m -> lo <= hi -> hi <= n ->
  wp (for_ lo hi (fun j U => mzd_slice_write_elem U i j 0) U) (fun U' => sdrawn f m n U' (fun r c => if (r =? i) && (lo <=? c) && (c <? hi) then 0%N else F r c) /\ sl_ff U' = sl_ff U).
Proof.
  intros D Hi Hl Hh.
  apply (wp_for (fun k U' => sdrawn f m n U' (fun r c => if (r =? i) && (lo <=? c) && (c <? k) then 0%N else F r c) /\ sl_ff U' = sl_ff U)); [exact Hl| |].
  - split; [|reflexivity]. eapply sdrawn_ext; [exact D|]. intros r c Hr Hc. replace ((r =? i) && (lo <=? c) && (c <? lo)) with false by lia. reflexivity.
  - intros j U' Hj (D' & E'). destruct (write_ok f m n U' _ i j 0 D' Hi ltac:(lia) (inF_0 f)) as (V & E & DV & EV). rewrite E. cbn [wp]. split; [|congruence].
    eapply sdrawn_ext; [exact DV|]. intros r c Hr Hc. cbv beta. destruct ((r =? i) && (c =? j)) eqn:C1.
    + replace ((r =? i) && (lo <=? c) && (c <? S j)) with true by lia. reflexivity.
    + replace ((r =? i) && (lo <=? c) && (c <? S j)) with ((r =? i) && (lo <=? c) && (c <? j)) by lia. reflexivity.
Qed.
Lemma szero_side_ok f lower m U F i : sdrawn f m m U F -> i < m ->
  wp (szero_side lower m U i) (fun U' => sdrawn f m m U' (fun r c => if (r =? i) && side lower i c then 0%N else F r c) /\ sl_ff U' = sl_ff U).
Proof.
  intros D Hi. unfold szero_side, side. destruct lower.
  - eapply wp_mono; [apply (zeros_ok f m m U F i (i + 1) m); auto; lia|]. cbv beta. intros U' (D' & E'). split; [|exact E']. eapply sdrawn_ext; [exact D'|].
    intros r c Hr Hc. cbv beta. replace ((r =? i) && (i + 1 <=? c) && (c <? m)) with ((r =? i) && (i <? c)) by lia. reflexivity.
  - eapply wp_mono; [apply (zeros_ok f m m U F i 0 i); auto; lia|]. cbv beta. intros U' (D' & E'). split; [|exact E']. eapply sdrawn_ext; [exact D'|].
    intros r c Hr Hc. cbv beta. replace ((r =? i) && (0 <=? c) && (c <? i)) with ((r =? i) && (c <? i)) by lia. reflexivity.
Qed.
Lemma sretry_ok f m U0 i : i < m -> forall tries draw k U F, sl_ff U = sl_ff U0 -> wf_slice U0 -> ff_minpoly (sl_ff U0) = f ->
  (exists k', k <= k' < k + tries /\ N.land (draw k') (N.ones (N.of_nat (ff_degree (sl_ff U0)))) <> 0%N) -> sdrawn f m m U F ->
  wp (sretry tries draw k U i) (fun U' => (exists v, v <> 0%N /\ sdrawn f m m U' (fun r c => if (r =? i) && (c =? i) then v else F r c)) /\ sl_ff U' = sl_ff U0).
Proof.
  intros Hi. induction tries as [|t IH]; intros draw k U F EU W0 Ef (k' & Hk & Hz) D; [lia|].
  cbn [sretry]. rewrite (read_ok f m m U F i i D Hi Hi). cbn [bind]. destruct (N.eqb_spec (F i i) 0) as [Z|Z].
  - rewrite EU, mask_ones. set (v := N.land (draw k) _).
    assert (Iv : inF f v). { unfold inF, v. destruct W0 as ((_ & Hd & _) & _). rewrite <- Ef, Hd, N.land_ones. apply N.mod_upper_bound, N.pow_nonzero. lia. }
    destruct (write_ok f m m U F i i v D Hi Hi Iv) as (V & E & DV & EV). rewrite E. cbn [bind].
    destruct (N.eq_dec v 0) as [Zv|Zv].
    + assert (k' <> k) by (intros ->; now apply Hz).
      eapply wp_mono; [apply (IH draw (S k) V _ ltac:(congruence) W0 Ef ltac:(exists k'; split; [lia|exact Hz]) DV)|]. cbv beta. intros U' ((v' & Hv' & D') & E'). split; [|exact E'].
      exists v'. split; [exact Hv'|]. eapply sdrawn_ext; [exact D'|]. intros r c Hr Hc. cbv beta. destruct (_ && _); reflexivity.
    + destruct t; cbn [sretry]; rewrite (read_ok _ _ _ _ _ i i DV Hi Hi), Nat.eqb_refl; cbn [bind andb]; rewrite (proj2 (N.eqb_neq _ _) Zv); cbn [wp]; (split; [eauto|congruence]).
  - cbn [wp]. split; [|exact EU]. exists (F i i). split; [exact Z|]. eapply sdrawn_ext; [exact D|]. intros r c Hr Hc. cbv beta.
    destruct ((r =? i) && (c =? i)) eqn:C; [|reflexivity]. replace r with i by lia. now replace c with i by lia.
Qed.
(** the diagonal made non-zero, the rest kept *)
Lemma diag_ok f m U F tries draw : sdrawn f m m U F -> (forall i, i < m -> lucky (ff_degree (sl_ff U)) tries (draw i)) ->
  wp (for_ 0 m (fun i U => sretry tries (draw i) 0 U i) U) (fun U' => sl_ff U' = sl_ff U /\ exists G, sdrawn f m m U' G /\ (forall i, i < m -> G i i <> 0%N)).
Proof.
  intros D Hl. pose proof D as ((W & Ef & _) & _).
  eapply wp_mono; [apply (wp_for (fun k U' => sl_ff U' = sl_ff U /\ exists G, sdrawn f m m U' G /\ (forall i, i < k -> G i i <> 0%N)))|]; [lia|split; [reflexivity|]; exists F; split; [exact D|lia]| |cbv beta; auto].
  intros i U' Hi (E' & G & D' & HG). destruct (Hl i ltac:(lia)) as (k & Hk & Hz).
  eapply wp_mono; [apply (sretry_ok f m U i ltac:(lia) tries (draw i) 0 U' G E' W Ef ltac:(exists k; split; [lia|exact Hz]) D')|]. cbv beta. intros V ((v & Hv & DV) & EV). split; [exact EV|].
  eexists. split; [exact DV|]. intros r Hr. cbv beta. destruct (Nat.eqb_spec r i) as [->|]; cbn [andb]; [exact Hv|]. apply HG. lia.
Qed.
Lemma sides_ok f lower m U F : sdrawn f m m U F ->
  wp (for_ 0 m (fun i U => szero_side lower m U i) U) (fun U' => sdrawn f m m U' (fun r c => if side lower r c then 0%N else F r c)).
Proof.
  intros D. eapply wp_mono; [apply (wp_for (fun k U' => sdrawn f m m U' (fun r c => if (r <? k) && side lower r c then 0%N else F r c))); [lia|exact D|]|].
  - intros i U' Hi D'. eapply wp_mono; [apply (szero_side_ok f lower m U' _ i D' ltac:(lia))|]. cbv beta. intros V (DV & _). eapply sdrawn_ext; [exact DV|].
    intros r c Hr Hc. cbv beta. destruct ((r =? i) && side lower i c) eqn:C.
    + assert (r = i) by lia. subst r. replace (i <? S i) with true by lia. replace (side lower i c) with true by lia. reflexivity.
    + destruct (Nat.eq_dec r i) as [->|]; [|replace (r <? S i) with (r <? i) by lia; reflexivity].
      rewrite Nat.eqb_refl in C. cbn [andb] in C. rewrite C, !andb_false_r. reflexivity.
  - cbv beta. intros V DV. eapply sdrawn_ext; [exact DV|]. intros r c Hr Hc. cbv beta. now replace (r <? m) with true by lia.
Qed.
(** the random triangular matrices *)
Lemma triangle_ok lower ff tries draw rnd m : gf2e_wf ff -> 0 < m -> (forall i, i < m -> lucky (ff_degree ff) tries (draw i)) ->
  exists U F, srandom_triangle lower ff tries draw rnd m = Ok U /\ sdrawn (ff_minpoly ff) m m U F /\ (forall i, i < m -> F i i <> 0%N) /\
    (forall i j, i < m -> j < m -> side lower i j = true -> F i j = 0%N).
Proof.
  intros Hf Hm Hl. unfold srandom_triangle. destruct (srandom_ok ff rnd m m Hf Hm) as (U & F & E & D & EU). rewrite E. cbn [bind].
  set (f := ff_minpoly ff) in *. pose proof D as ((W & Ef & _) & _).
  assert (Q : wp (for_ 0 m (fun i U => U <- szero_side lower m U i ;; sretry tries (draw i) 0 U i) U) (fun U' => sl_ff U' = ff /\ exists G, sdrawn f m m U' G /\
      (forall i, i < m -> G i i <> 0%N) /\ (forall i j, i < m -> j < m -> side lower i j = true -> G i j = 0%N))).
  { apply (wp_for (fun k U' => sl_ff U' = ff /\ exists G, sdrawn f m m U' G /\ (forall i, i < k -> G i i <> 0%N) /\ (forall i j, i < k -> j < m -> side lower i j = true -> G i j = 0%N))).
    - lia.
    - split; [exact EU|]. exists F. split; [exact D|]. split; intros; lia.
    - intros i U' Hi (E' & G & D' & HG & HS). apply wp_bind. eapply wp_mono; [apply (szero_side_ok f lower m U' G i D' ltac:(lia))|]. cbv beta. intros V (DV & EV).
      destruct (Hl i ltac:(lia)) as (k & Hk & Hz). pose proof DV as ((WV & EfV & _) & _).
      eapply wp_mono; [apply (sretry_ok f m V i ltac:(lia) tries (draw i) 0 V _ eq_refl WV EfV ltac:(exists k; split; [lia|rewrite EV, E'; exact Hz]) DV)|]. cbv beta. intros Y ((v & Hv & DY) & EY).
      split; [congruence|]. eexists. split; [exact DY|]. cbv beta. split.
      + intros r Hr. destruct (Nat.eqb_spec r i) as [->|]; cbn [andb]; [exact Hv|]. apply HG. lia.
      + intros r c Hr Hc Hs. destruct (Nat.eqb_spec r i) as [->|]; cbn [andb].
        * destruct (Nat.eqb_spec c i) as [->|]; [unfold side in Hs; destruct lower; lia|]. now rewrite Hs.
        * apply HS; auto. lia. }
  apply wp_iff in Q. destruct Q as (V & EV & EfV & G & DV & HG & HS). rewrite EV. cbn [bind].
  destruct (sdrawn_canary f m m V G (proj1 DV) Hm) as (Y & EY & DY & _). rewrite EY. exists Y, G. auto.
Qed.


Section Tests.
Variables (f : N) (ff : gf2e).
Hypothesis Wff : gf2e_wf ff.
Hypothesis Eff : ff_minpoly ff = f.
Hypothesis D2 : 2 <= ff_degree ff.
Hypothesis Irr : irreducible f.
(** the solver: X with tri(U) X = B, canaries alive *)
Lemma solve_ok' (lower : bool) m n U F X B : 0 < n -> sdrawn f m m U F -> sdrawn f m n X B -> (forall i, i < m -> F i i <> 0%N) ->
  exists X' Y, (if lower then mzd_slice_trsm_lower_left else mzd_slice_trsm_upper_left) U X = Ok X' /\ sdrawn f m n X' Y /\ meq m n (mmul f m (tri lower F) Y) B.
Proof.
  intros Hn DU DX Hd. pose proof DU as ((WU & u1 & u2 & u3 & u4) & _). pose proof DX as ((WX & x1 & x2 & x3 & x4) & _).
  assert (TI : stri_input U X).
  { unfold stri_input. rewrite x1, x2, x3, u1, u2, u3. split; [exact Irr|]. split; [rewrite (pdeg_f f ff Wff Eff); lia|]. repeat (split; [assumption || reflexivity|]). intros i Hi. rewrite u4 by auto. now apply Hd. }
  assert (K : exists Y, (exists X', (if lower then mzd_slice_trsm_lower_left else mzd_slice_trsm_upper_left) U X = Ok X' /\ sbecomes X X' Y) /\ the_solution (ff_minpoly (sl_ff X)) (sl_nrows X) (sl_ncols X) (tri lower (sentry U)) Y (sentry X)).
  { unfold tri. destruct lower.
    - destruct (C30_slice_trsm_lower U X TI) as (Y & S & _ & _ & E & _). eauto.
    - destruct (C30_slice_trsm_upper U X TI) as (Y & S & _ & _ & E & _). eauto. }
  destruct K as (Y & (X' & E & Bc) & _ & ES & _). rewrite x1, x2, x3 in ES. exists X', Y. split; [exact E|]. split; [eapply sdrawn_becomes; eauto|].
  intros i j Hi Hj. transitivity (mmul f m (tri lower (sentry U)) Y i j).
  - symmetry. apply (mmul_ext f m m n (tri lower (sentry U)) (tri lower F) Y Y); auto; [|now intros ? ? ? ?]. intros r c Hr Hc. rewrite !tri_side. now rewrite u4.
  - rewrite ES by auto. now apply x4.
Qed.
(** B + tri(U) X = 0 *)
Lemma residue lower m n U F X Y B Bm : sdrawn f m m U F -> (forall i j, i < m -> j < m -> side lower i j = true -> F i j = 0%N) ->
  sholds X f m n Y -> sdrawn f m n B Bm -> meq m n (mmul f m (tri lower F) Y) Bm ->
  exists B' Z, mzd_slice_addmul (Some B) U X = Ok B' /\ sdrawn f m n B' Z /\ mzd_slice_is_zero B' = true.
Proof.
  intros DU HS KX DB ES. pose proof DU as ((WU & u1 & u2 & u3 & u4) & _). pose proof KX as (WX & x1 & x2 & x3 & x4). pose proof DB as ((WB & b1 & b2 & b3 & b4) & _).
  destruct (C37_addmul B U X WU WX WB ltac:(congruence) ltac:(congruence) ltac:(congruence) ltac:(congruence) ltac:(congruence)) as (B' & E & Bc).
  exists B'. eexists. split; [exact E|]. pose proof (sdrawn_becomes _ _ _ _ _ _ _ DB Bc) as D'. split; [exact D'|].
  destruct D' as ((W & _ & Er & Ec & Ee) & _). apply (proj2 (slice_is_zero_ok B' W)). rewrite Er, Ec. intros i c Hi Hc. rewrite Ee by auto. unfold madd.
  rewrite b4 by auto. rewrite <- (ES i c) by auto. rewrite u1, u3. replace (mmul f m (sentry U) (sentry X) i c) with (mmul f m (tri lower F) Y i c); [apply N.lxor_nilpotent|].
  symmetry. apply (mmul_ext f m m n); auto.
  - intros r k Hr Hk. rewrite u4 by auto. rewrite tri_side. destruct (side lower r k) eqn:S; [now apply HS|reflexivity].
Qed.
Lemma copy_ok' m n A F : sholds A f m n F -> exists A', mzd_slice_copy None A = Ok A' /\ sholds A' f m n F.
Proof.
  intros (W & a1 & a2 & a3 & a4). destruct (proj1 (wp_iff _ _) (slice_copy_ok None A W Logic.I)) as (A' & E & K & _). exists A'. split; [exact E|].
  rewrite a1, a2, a3 in K. eapply sh_ext; [exact K|]. intros i c Hi Hc. now apply a4.
Qed.
Lemma clear_ok' m n A F : sholds A f m n F -> 0 < n -> exists A', mzd_slice_clear_canary A = Ok A' /\ sholds A' f m n F.
Proof.
  intros (W & a1 & a2 & a3 & a4) Hn. destruct (proj1 (wp_iff _ _) (sclear_canary_ok A W ltac:(lia))) as (A' & E & W' & s1 & s2 & s3 & En & _). exists A'. split; [exact E|].
  split; [exact W'|]. repeat (split; [congruence|]). intros i c Hi Hc. rewrite En by lia. now apply a4.
Qed.
(** the random values: within [st_tries] rounds random() gives something for every place of the diagonal *)
Definition slucky_run (m : nat) (R : strsm_rnd) : Prop :=
  forall i, i < m -> lucky (ff_degree ff) (st_tries R) (st_d R i) /\ lucky (ff_degree ff) (st_tries R) (st_d2 R i).
Theorem test_strsm_passes lower R m n : 0 < m -> 0 < n -> slucky_run m R -> test_slice_trsm lower ff R m n = Ok 0.
Proof.
  intros Hm Hn HL. unfold test_slice_trsm.
  assert (L2 : forall l, Forall (fun A => exists m n F, sdrawn f m n A F /\ 0 < n) l -> salive_all l = Ok 0) by (intros l; apply salive_all_ok).
  destruct (triangle_ok lower ff (st_tries R) (st_d R) (st_U R) m Wff Hm) as (U & F & EU & DU & HF & HS); [intros i Hi; now apply HL|].
  rewrite EU. cbn [bind]. rewrite Eff in DU.
  destruct (copy_ok' _ _ _ _ (proj1 DU)) as (H & EH & KH). rewrite EH. cbn [bind].
  destruct (srandom_ok ff (st_B R) m n Wff Hn) as (B & Bm & EB & DB & _). rewrite EB. cbn [bind]. rewrite Eff in DB.
  destruct (copy_ok' _ _ _ _ (proj1 DB)) as (X & EX & KX). rewrite EX. cbn [bind].
  destruct (sdrawn_canary _ _ _ _ _ KH Hm) as (H' & EH' & DH' & _). rewrite EH'. cbn [bind].
  destruct (sdrawn_canary _ _ _ _ _ KX Hn) as (X' & EX' & DX' & _). rewrite EX'. cbn [bind].
  destruct (solve_ok' lower m n U F X' Bm Hn DU DX' HF) as (X1 & Y & ES & DX1 & SY). rewrite ES. cbn [bind].
  rewrite (L2 [U; X1]) by (repeat constructor; eauto 8). cbn [bind].
  destruct (clear_ok' _ _ _ _ (proj1 DX1) Hn) as (X1' & EC & KC). rewrite EC. cbn [bind].
  destruct (residue lower m n U F X1' Y B Bm DU HS KC DB SY) as (B1 & Z & EB1 & DB1 & Zero). rewrite EB1. cbn [bind].
  rewrite (L2 [B1; U]) by (repeat constructor; eauto 8). cbn [bind].
  rewrite (scmp_same f m m U H' F (proj1 DU) (proj1 DH')). cbn [bind]. rewrite Zero.
  clear EU EH EX EB EH' EX' ES EB1 EC.
  destruct (srandom_ok ff (st_U2 R) m m Wff Hm) as (V & V0 & EV & DV & FV). rewrite EV. cbn [bind]. rewrite Eff in DV.
  destruct (srandom_ok ff (st_B2 R) m n Wff Hn) as (B2 & Bm2 & EB2 & DB2 & _). rewrite EB2. cbn [bind]. rewrite Eff in DB2.
  destruct (copy_ok' _ _ _ _ (proj1 DB2)) as (X2 & EX2 & KX2). rewrite EX2. cbn [bind].
  destruct (sdrawn_canary _ _ _ _ _ KX2 Hn) as (X3 & EX3 & DX3 & _). rewrite EX3. cbn [bind].
  destruct (proj1 (wp_iff _ _) (diag_ok f m V _ (st_tries R) (st_d2 R) DV ltac:(intros i Hi; rewrite FV; now apply HL))) as (V1 & EV1 & _ & G & DV1 & HG). rewrite EV1. cbn [bind].
  destruct (copy_ok' _ _ _ _ (proj1 DV1)) as (H2 & EH2 & KH2). rewrite EH2. cbn [bind].
  destruct (sdrawn_canary _ _ _ _ _ KH2 Hm) as (H3 & EH3 & DH3 & _). rewrite EH3. cbn [bind].
  destruct (solve_ok' lower m n V1 G X3 Bm2 Hn DV1 DX3 HG) as (X4 & Y4 & ES & DX4 & SY4). rewrite ES. cbn [bind].
  rewrite (L2 [V1; X4]) by (repeat constructor; eauto 8). cbn [bind].
  rewrite (scmp_same f m m V1 H3 G (proj1 DV1) (proj1 DH3)). cbn [bind].
  destruct (proj1 (wp_iff _ _) (sides_ok f lower m V1 G DV1)) as (V3 & EV3 & DV3). rewrite EV3. cbn [bind].
  destruct (clear_ok' _ _ _ _ (proj1 DX4) Hn) as (X5 & EC & KC5). rewrite EC. cbn [bind].
  destruct (residue lower m n V3 _ X5 Y4 B2 Bm2 DV3) as (B3 & Z3 & EB3 & DB3 & Zero3); auto.
  { intros i j Hi Hj Hs. cbv beta. now rewrite Hs. }
  { intros i j Hi Hj. rewrite <- SY4 by auto. apply (mmul_ext f m m n); auto; [|now intros ? ? ? ?]. intros r c Hr Hc. rewrite !tri_side. destruct (side lower r c); reflexivity. }
  rewrite EB3. cbn [bind]. rewrite (L2 [B3; V3]) by (repeat constructor; eauto 8). cbn [bind]. rewrite Zero3. reflexivity.
Qed.
End Tests.
