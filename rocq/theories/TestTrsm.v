(** The tests of the triangular solvers: proofs. *)
From Coq Require Import NArith ZArith Lia List Bool Arith.
From Coq Require Import ZifyBool ZifyNat ZifyN.
From Verif Require Import HistSpec HistModel HistProofs.
From Verif Require Import Base Spec LinSpec PolyFacts MatFacts Gf2xModel Gf2eModel Gf2eProofs MzdModel MzedModel MzedSpec LaneFacts MzedProofs MzedOps MzedOps2 FrameProofs.
From Verif Require Import TrsmSpec EchFacts EchNaive PropNj PropLaws.
From Verif Require Import TestModel TestCanary TestProofs.
Import ListNotations.
Local Open Scope nat_scope.

Lemma drawn_becomes f m n A F A' G : drawn f m n A F -> becomes A A' G -> drawn f m n A' G.
Proof.
  intros D B. eapply drawn_kept; [exact D| |eapply kept_of; exact B]. destruct D as ((W & Ef & Er & Ec & _) & _).
  pose proof (becomes_ff _ _ _ B). pose proof (becomes_nr _ _ _ B). pose proof (becomes_nc _ _ _ B).
  split; [exact (becomes_wf _ _ _ B)|]. repeat (split; [congruence|]). intros i c Hi Hc. apply (becomes_entry _ _ _ i c B); lia.
Qed.
Lemma drawn_ext f m n A F G : drawn f m n A F -> meq m n F G -> drawn f m n A G.
Proof. intros ((W & Ef & Er & Ec & Ee) & Hm) E. split; [|exact Hm]. split; [exact W|]. repeat (split; [assumption|]). intros i c Hi Hc. rewrite Ee by auto. now apply E. Qed.
Lemma write_ok f m n A F i j v : drawn f m n A F -> i < m -> j < n -> inF f v ->
  exists A', mzed_write_elem A i j v = Ok A' /\ drawn f m n A' (fun r c => if (r =? i) && (c =? j) then v else F r c) /\ mz_ff A' = mz_ff A.
Proof.
  intros D Hi Hj Hv. pose proof D as ((W & Ef & Er & Ec & Ee) & _).
  destruct (proj1 (wp_iff _ _) (mzed_write_elem_ok A i j v W ltac:(lia) ltac:(lia) ltac:(congruence))) as (A' & E & B). exists A'. split; [exact E|].
  split; [|exact (becomes_ff _ _ _ B)]. eapply drawn_ext; [eapply drawn_becomes; eauto|]. intros r c Hr Hc. cbv beta. destruct (_ && _); [reflexivity|]. now apply Ee.
Qed.
Lemma read_ok f m n A F i j : drawn f m n A F -> i < m -> j < n -> mzed_read_elem A i j = Ok (F i j).
Proof. intros ((W & Ef & Er & Ec & Ee) & _) Hi Hj. rewrite mzed_read_elem_ok by (auto; lia). now rewrite Ee. Qed.

(** zeros in columns lo .. hi-1 of row i *)
Lemma zeros_ok f m n U F i lo hi : drawn f m n U F -> i < m -> lo <= hi -> hi <= n ->
  wp (for_ lo hi (fun j U => mzed_write_elem U i j 0) U) (fun U' => drawn f m n U' (fun r c => if (r =? i) && (lo <=? c) && (c <? hi) then 0%N else F r c) /\ mz_ff U' = mz_ff U).
Proof.
  intros D Hi Hl Hh.
  apply (wp_for (fun k U' => drawn f m n U' (fun r c => if (r =? i) && (lo <=? c) && (c <? k) then 0%N else F r c) /\ mz_ff U' = mz_ff U)); [exact Hl| |].
  - split; [|reflexivity]. eapply drawn_ext; [exact D|]. intros r c Hr Hc. replace ((r =? i) && (lo <=? c) && (c <? lo)) with false by lia. reflexivity.
  - intros j U' Hj (D' & E'). destruct (write_ok f m n U' _ i j 0 D' Hi ltac:(lia) (inF_0 f)) as (V & E & DV & EV). rewrite E. cbn [wp]. split; [|congruence].
    eapply drawn_ext; [exact DV|]. intros r c Hr Hc. cbv beta. destruct ((r =? i) && (c =? j)) eqn:C1.
    + replace ((r =? i) && (lo <=? c) && (c <? S j)) with true by lia. reflexivity.
    + replace ((r =? i) && (lo <=? c) && (c <? S j)) with ((r =? i) && (lo <=? c) && (c <? j)) by lia. reflexivity.
Qed.
Definition side (lower : bool) (i j : nat) : bool := if lower then i <? j else j <? i.
Lemma zero_side_ok f lower m U F i : drawn f m m U F -> i < m ->
  wp (zero_side lower m U i) (fun U' => drawn f m m U' (fun r c => if (r =? i) && side lower i c then 0%N else F r c) /\ mz_ff U' = mz_ff U).
Proof.
  intros D Hi. unfold zero_side, side. destruct lower.
  - eapply wp_mono; [apply (zeros_ok f m m U F i (i + 1) m); auto; lia|]. cbv beta. intros U' (D' & E'). split; [|exact E']. eapply drawn_ext; [exact D'|].
    intros r c Hr Hc. cbv beta. replace ((r =? i) && (i + 1 <=? c) && (c <? m)) with ((r =? i) && (i <? c)) by lia. reflexivity.
  - eapply wp_mono; [apply (zeros_ok f m m U F i 0 i); auto; lia|]. cbv beta. intros U' (D' & E'). split; [|exact E']. eapply drawn_ext; [exact D'|].
    intros r c Hr Hc. cbv beta. replace ((r =? i) && (0 <=? c) && (c <? i)) with ((r =? i) && (c <? i)) by lia. reflexivity.
Qed.
(** random() returns a value with a bit among the low [d] bits within the given number of rounds *)
Definition lucky (d tries : nat) (draw : nat -> N) : Prop := exists k, k < tries /\ N.land (draw k) (N.ones (N.of_nat d)) <> 0%N.
Lemma mask_ones d : (N.shiftl 1 (N.of_nat d) - 1)%N = N.ones (N.of_nat d).
Proof. unfold N.ones. lia. Qed.
Lemma retry_ok f m U0 i : i < m -> forall tries draw k U F, mz_ff U = mz_ff U0 -> wf_mzed U0 -> ff_minpoly (mz_ff U0) = f ->
  (exists k', k <= k' < k + tries /\ N.land (draw k') (N.ones (N.of_nat (ff_degree (mz_ff U0)))) <> 0%N) -> drawn f m m U F ->
  wp (retry tries draw k U i) (fun U' => (exists v, v <> 0%N /\ drawn f m m U' (fun r c => if (r =? i) && (c =? i) then v else F r c)) /\ mz_ff U' = mz_ff U0).
Proof.
  intros Hi. induction tries as [|t IH]; intros draw k U F EU W0 Ef (k' & Hk & Hz) D; [lia|].
  cbn [retry]. rewrite (read_ok f m m U F i i D Hi Hi). cbn [bind]. destruct (N.eqb_spec (F i i) 0) as [Z|Z].
  - rewrite EU, mask_ones. set (v := N.land (draw k) _).
    assert (Iv : inF f v). { unfold inF, v. destruct W0 as ((_ & Hd & _) & _). rewrite <- Ef, Hd, N.land_ones. apply N.mod_upper_bound, N.pow_nonzero. lia. }
    destruct (write_ok f m m U F i i v D Hi Hi Iv) as (V & E & DV & EV). rewrite E. cbn [bind].
    destruct (N.eq_dec v 0) as [Zv|Zv].
    + assert (k' <> k) by (intros ->; now apply Hz).
      eapply wp_mono; [apply (IH draw (S k) V _ ltac:(congruence) W0 Ef ltac:(exists k'; split; [lia|exact Hz]) DV)|]. cbv beta. intros U' ((v' & Hv' & D') & E'). split; [|exact E'].
      exists v'. split; [exact Hv'|]. eapply drawn_ext; [exact D'|]. intros r c Hr Hc. cbv beta. destruct (_ && _); reflexivity.
    + destruct t; cbn [retry]; rewrite (read_ok _ _ _ _ _ i i DV Hi Hi), Nat.eqb_refl; cbn [bind andb]; rewrite (proj2 (N.eqb_neq _ _) Zv); cbn [wp]; (split; [eauto|congruence]).
  - cbn [wp]. split; [|exact EU]. exists (F i i). split; [exact Z|]. eapply drawn_ext; [exact D|]. intros r c Hr Hc. cbv beta.
    destruct ((r =? i) && (c =? i)) eqn:C; [|reflexivity]. replace r with i by lia. now replace c with i by lia.
Qed.
(** the diagonal made non-zero, the rest kept *)
Lemma diag_ok f m U F tries draw : drawn f m m U F -> (forall i, i < m -> lucky (ff_degree (mz_ff U)) tries (draw i)) ->
  wp (for_ 0 m (fun i U => retry tries (draw i) 0 U i) U) (fun U' => mz_ff U' = mz_ff U /\ exists G, drawn f m m U' G /\ (forall i, i < m -> G i i <> 0%N)).
Proof.
  intros D Hl. pose proof D as ((W & Ef & _) & _).
  eapply wp_mono; [apply (wp_for (fun k U' => mz_ff U' = mz_ff U /\ exists G, drawn f m m U' G /\ (forall i, i < k -> G i i <> 0%N)))|]; [lia|split; [reflexivity|]; exists F; split; [exact D|lia]| |cbv beta; auto].
  intros i U' Hi (E' & G & D' & HG). destruct (Hl i ltac:(lia)) as (k & Hk & Hz).
  eapply wp_mono; [apply (retry_ok f m U i ltac:(lia) tries (draw i) 0 U' G E' W Ef ltac:(exists k; split; [lia|exact Hz]) D')|]. cbv beta. intros V ((v & Hv & DV) & EV). split; [exact EV|].
  eexists. split; [exact DV|]. intros r Hr. cbv beta. destruct (Nat.eqb_spec r i) as [->|]; cbn [andb]; [exact Hv|]. apply HG. lia.
Qed.
Lemma sides_ok f lower m U F : drawn f m m U F ->
  wp (for_ 0 m (fun i U => zero_side lower m U i) U) (fun U' => drawn f m m U' (fun r c => if side lower r c then 0%N else F r c)).
Proof.
  intros D. eapply wp_mono; [apply (wp_for (fun k U' => drawn f m m U' (fun r c => if (r <? k) && side lower r c then 0%N else F r c))); [lia|exact D|]|].
  - intros i U' Hi D'. eapply wp_mono; [apply (zero_side_ok f lower m U' _ i D' ltac:(lia))|]. cbv beta. intros V (DV & _). eapply drawn_ext; [exact DV|].
    intros r c Hr Hc. cbv beta. destruct ((r =? i) && side lower i c) eqn:C.
    + assert (r = i) by lia. subst r. replace (i <? S i) with true by lia. replace (side lower i c) with true by lia. reflexivity.
    + destruct (Nat.eq_dec r i) as [->|]; [|replace (r <? S i) with (r <? i) by lia; reflexivity].
      rewrite Nat.eqb_refl in C. cbn [andb] in C. rewrite C, !andb_false_r. reflexivity.
  - cbv beta. intros V DV. eapply drawn_ext; [exact DV|]. intros r c Hr Hc. cbv beta. now replace (r <? m) with true by lia.
Qed.
(** the random triangular matrices *)
Lemma triangle_ok lower ff tries draw rnd m : gf2e_wf ff -> 2 <= ff_degree ff -> 0 < m -> (forall i, i < m -> lucky (ff_degree ff) tries (draw i)) ->
  exists U F, random_triangle lower ff tries draw rnd m = Ok U /\ drawn (ff_minpoly ff) m m U F /\ (forall i, i < m -> F i i <> 0%N) /\
    (forall i j, i < m -> j < m -> side lower i j = true -> F i j = 0%N).
Proof.
  intros Hf Hd Hm Hl. unfold random_triangle. destruct (random_ok ff rnd m m Hf Hd Hm) as (U & E & D & EU). rewrite E. cbn [bind].
  set (F := draws ff rnd) in D. set (f := ff_minpoly ff) in *. pose proof D as ((W & Ef & _) & _).
  assert (Q : wp (for_ 0 m (fun i U => U <- zero_side lower m U i ;; retry tries (draw i) 0 U i) U) (fun U' => mz_ff U' = ff /\ exists G, drawn f m m U' G /\
      (forall i, i < m -> G i i <> 0%N) /\ (forall i j, i < m -> j < m -> side lower i j = true -> G i j = 0%N))).
  { apply (wp_for (fun k U' => mz_ff U' = ff /\ exists G, drawn f m m U' G /\ (forall i, i < k -> G i i <> 0%N) /\ (forall i j, i < k -> j < m -> side lower i j = true -> G i j = 0%N))).
    - lia.
    - split; [exact EU|]. exists F. split; [exact D|]. split; intros; lia.
    - intros i U' Hi (E' & G & D' & HG & HS). apply wp_bind. eapply wp_mono; [apply (zero_side_ok f lower m U' G i D' ltac:(lia))|]. cbv beta. intros V (DV & EV).
      destruct (Hl i ltac:(lia)) as (k & Hk & Hz). pose proof DV as ((WV & EfV & _) & _).
      eapply wp_mono; [apply (retry_ok f m V i ltac:(lia) tries (draw i) 0 V _ eq_refl WV EfV ltac:(exists k; split; [lia|rewrite EV, E'; exact Hz]) DV)|]. cbv beta. intros Y ((v & Hv & DY) & EY).
      split; [congruence|]. eexists. split; [exact DY|]. cbv beta. split.
      + intros r Hr. destruct (Nat.eqb_spec r i) as [->|]; cbn [andb]; [exact Hv|]. apply HG. lia.
      + intros r c Hr Hc Hs. destruct (Nat.eqb_spec r i) as [->|]; cbn [andb].
        * destruct (Nat.eqb_spec c i) as [->|]; [unfold side in Hs; destruct lower; lia|]. now rewrite Hs.
        * apply HS; auto. lia. }
  apply wp_iff in Q. destruct Q as (V & EV & EfV & G & DV & HG & HS). rewrite EV. cbn [bind].
  destruct (drawn_canary f m m V G (proj1 DV) Hm) as (Y & EY & DY & _). rewrite EY. exists Y, G. auto.
Qed.

Section Tests.
Variables (f : N) (cf : config).
Hypothesis CF : config_ok f cf.
Definition tri (lower : bool) (F : mat) : mat := if lower then tril F else triu F.
Lemma tri_side lower F i j : tri lower F i j = if side lower i j then 0%N else F i j.
Proof. unfold tri, tril, triu, side. destruct lower; destruct (i <? j) eqn:E1, (j <? i) eqn:E2, (i <=? j) eqn:E3, (j <=? i) eqn:E4; try lia; reflexivity. Qed.
(** the solver: X with tri(U) X = B, canaries alive *)
Lemma solve_ok' (lower : bool) m n U F X B : 0 < n -> drawn f m m U F -> drawn f m n X B -> (forall i, i < m -> F i i <> 0%N) ->
  exists X' Y, (if lower then p_lower cf Default else p_upper cf Default) U X = Ok X' /\ drawn f m n X' Y /\ meq m n (mmul f m (tri lower F) Y) B.
Proof.
  intros Hn DU DX Hd.
  assert (TO : triangular_ok (tab m m F) (tab m n B)).
  { split; [reflexivity|]. split; [reflexivity|]. split; [exact Hn|]. intros i Hi. cbn [a_m tab] in Hi. rewrite val_tab by auto. now apply Hd. }
  assert (K : exists Y, (exists X', (if lower then p_lower cf Default else p_upper cf Default) U X = Ok X' /\ becomes X X' Y) /\ the_solution f m n (tri lower (val (tab m m F))) Y (val (tab m n B))).
  { unfold tri. destruct lower.
    - exact (p_lower_ok f cf CF Default (tab m m F) (tab m n B) U X (holds_tab _ _ _ _ _ (proj1 DU)) (holds_tab _ _ _ _ _ (proj1 DX)) TO (or_introl eq_refl)).
    - exact (p_upper_ok f cf CF Default (tab m m F) (tab m n B) U X (holds_tab _ _ _ _ _ (proj1 DU)) (holds_tab _ _ _ _ _ (proj1 DX)) TO (or_introl eq_refl)). }
  destruct K as (Y & (X' & E & Bc) & _ & ES & _). exists X', Y. split; [exact E|]. split; [eapply drawn_becomes; eauto|].
  intros i j Hi Hj. transitivity (mmul f m (tri lower (val (tab m m F))) Y i j).
  - symmetry. apply (mmul_ext f m m n (tri lower (val (tab m m F))) (tri lower F) Y Y); auto; [|now intros ? ? ? ?]. intros r c Hr Hc. rewrite !tri_side. now rewrite val_tab.
  - rewrite ES by auto. now apply val_tab.
Qed.
(** B + tri(U) X = 0 *)
Lemma residue lower m n U F X Y B Bm : 0 < n -> drawn f m m U F -> (forall i j, i < m -> j < m -> side lower i j = true -> F i j = 0%N) ->
  drawn f m n X Y -> drawn f m n B Bm -> meq m n (mmul f m (tri lower F) Y) Bm ->
  exists B' Z, p_addmul cf Default B U X = Ok B' /\ drawn f m n B' Z /\ mzed_is_zero B' = true.
Proof.
  intros Hn DU HS DX DB ES.
  destruct (p_addmul_ok f cf CF Default B U X (tab m m F) (tab m n Y) Bm) as (B' & E & K & Q);
    [exact (proj1 DB)|apply holds_tab, DU|apply holds_tab, DX|reflexivity|exact Hn|]. cbn [a_m a_n tab] in K.
  exists B'. eexists. split; [exact E|]. split; [eapply drawn_kept; [exact DB|exact K|exact Q]|].
  destruct K as (W & _ & Er & Ec & Ee). apply (proj2 (mzed_is_zero_ok B' W)). rewrite Er, Ec. intros i c Hi Hc. rewrite Ee by auto. unfold madd.
  rewrite <- (ES i c) by auto. replace (mmul f m (val (tab m m F)) (val (tab m n Y)) i c) with (mmul f m (tri lower F) Y i c); [apply N.lxor_nilpotent|].
  symmetry. apply (mmul_ext f m m n); auto.
  - intros r k Hr Hk. rewrite val_tab by auto. rewrite tri_side. destruct (side lower r k) eqn:S; [now apply HS|reflexivity].
  - intros r k Hr Hk. now apply val_tab.
Qed.
Lemma drawn_cmp m n A B F : drawn f m n A F -> drawn f m n B F -> chk_eq (c_cmp (mzed_cmp A B)) 0 = 0.
Proof. intros (KA & _) (KB & _). apply chk_cmp. apply (cmp_same f m n A B F F); auto. now intros ? ? ? ?. Qed.
(** the random values: within [tr_tries] rounds random() gives something for every place of the diagonal *)
Definition lucky_run (m : nat) (R : trsm_rnd) : Prop :=
  forall i, i < m -> lucky (deg f) (tr_tries R) (tr_d R i) /\ lucky (deg f) (tr_tries R) (tr_d2 R i).
Lemma deg_ff : ff_degree (cf_ff cf) = deg f.
Proof. destruct CF as ((_ & D & _) & E & _). unfold deg. rewrite E in D. lia. Qed.
Theorem test_trsm_passes lower R m n : 0 < m -> 0 < n -> lucky_run m R -> test_mzed_trsm lower cf R m n = Ok 0.
Proof.
  intros Hm Hn HL. pose proof CF as (F1 & F2 & F3 & F4 & _). unfold test_mzed_trsm.
  assert (L2 : forall l, Forall (fun A => exists m n F, drawn f m n A F /\ 0 < n) l -> alive_all l = Ok 0) by (intros l; apply alive_all_ok).
  destruct (triangle_ok lower (cf_ff cf) (tr_tries R) (tr_d R) (tr_U R) m F1 F3 Hm) as (U & F & EU & DU & HF & HS); [intros i Hi; rewrite deg_ff; now apply HL|].
  rewrite EU. cbn [bind]. rewrite F2 in DU.
  destruct (copy_ok _ _ _ _ _ (proj1 DU)) as (H & EH & KH). rewrite EH. cbn [bind].
  destruct (random_ok (cf_ff cf) (tr_B R) m n F1 F3 Hn) as (B & EB & DB & _). rewrite EB. cbn [bind]. rewrite F2 in DB. set (Bm := draws _ _) in DB.
  destruct (copy_ok _ _ _ _ _ (proj1 DB)) as (X & EX & KX). rewrite EX. cbn [bind].
  destruct (drawn_canary _ _ _ _ _ KH Hm) as (H' & EH' & DH' & _). rewrite EH'. cbn [bind].
  destruct (drawn_canary _ _ _ _ _ KX Hn) as (X' & EX' & DX' & _). rewrite EX'. cbn [bind].
  destruct (solve_ok' lower m n U F X' Bm Hn DU DX' HF) as (X1 & Y & ES & DX1 & SY). rewrite ES. cbn [bind].
  rewrite (L2 [U; X1]) by (repeat constructor; eauto 6). cbn [bind].
  destruct (residue lower m n U F X1 Y B Bm Hn DU HS DX1 DB SY) as (B1 & Z & EB1 & DB1 & Zero). rewrite EB1. cbn [bind].
  rewrite (L2 [B1; U; X1]) by (repeat constructor; eauto 6). cbn [bind].
  rewrite Zero, (drawn_cmp m m U H' F DU DH').
  clear EU EH EX EB EH' EX' ES EB1.
  destruct (random_ok (cf_ff cf) (tr_U2 R) m m F1 F3 Hm) as (V & EV & DV & FV). rewrite EV. cbn [bind]. rewrite F2 in DV.
  destruct (random_ok (cf_ff cf) (tr_B2 R) m n F1 F3 Hn) as (B2 & EB2 & DB2 & _). rewrite EB2. cbn [bind]. rewrite F2 in DB2. set (Bm2 := draws _ (tr_B2 R)) in DB2.
  destruct (copy_ok _ _ _ _ _ (proj1 DB2)) as (X2 & EX2 & KX2). rewrite EX2. cbn [bind].
  destruct (drawn_canary _ _ _ _ _ KX2 Hn) as (X3 & EX3 & DX3 & _). rewrite EX3. cbn [bind].
  destruct (proj1 (wp_iff _ _) (diag_ok f m V _ (tr_tries R) (tr_d2 R) DV ltac:(intros i Hi; rewrite FV, deg_ff; now apply HL))) as (V1 & EV1 & _ & G & DV1 & HG). rewrite EV1. cbn [bind].
  destruct (copy_ok _ _ _ _ _ (proj1 DV1)) as (H2 & EH2 & KH2). rewrite EH2. cbn [bind].
  destruct (drawn_canary _ _ _ _ _ KH2 Hm) as (H3 & EH3 & DH3 & _). rewrite EH3. cbn [bind].
  destruct (solve_ok' lower m n V1 G X3 Bm2 Hn DV1 DX3 HG) as (X4 & Y4 & ES & DX4 & SY4). rewrite ES. cbn [bind].
  rewrite (L2 [V1; X4]) by (repeat constructor; eauto 6). cbn [bind].
  rewrite (drawn_cmp m m V1 H3 G DV1 DH3).
  destruct (drawn_canary _ _ _ _ _ (proj1 DV1) Hm) as (V2 & EV2 & DV2 & _). rewrite EV2. cbn [bind].
  destruct (proj1 (wp_iff _ _) (sides_ok f lower m V2 G DV2)) as (V3 & EV3 & DV3). rewrite EV3. cbn [bind].
  destruct (residue lower m n V3 _ X4 Y4 B2 Bm2 Hn DV3) as (B3 & Z3 & EB3 & DB3 & Zero3); auto.
  { intros i j Hi Hj Hs. cbv beta. now rewrite Hs. }
  { intros i j Hi Hj. rewrite <- SY4 by auto. apply (mmul_ext f m m n); auto; [|now intros ? ? ? ?]. intros r c Hr Hc. rewrite !tri_side. destruct (side lower r c); reflexivity. }
  rewrite EB3. cbn [bind]. rewrite (L2 [B3; V3; X4]) by (repeat constructor; eauto 6). cbn [bind]. rewrite Zero3. reflexivity.
Qed.
End Tests.
