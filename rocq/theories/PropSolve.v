(** Property C61: factorisations, permutations, triangular solvers and products fit together: linear systems are solved by
    the calls of SolveModel.v. *)
From Coq Require Import NArith ZArith Lia List Bool Arith.
From Coq Require Import ZifyBool ZifyNat ZifyN.
From Verif Require Import Base Spec LinSpec TrsmSpec PleSpec PolyFacts MatFacts Gf2xModel Gf2eModel Gf2eProofs IrrProofs.
From Verif Require Import MzdModel MzedModel MzedSpec LaneFacts MzedProofs MzedOps MzedOps2 Demo StrassenModel StrassenProofs SliceModel SliceSpec MzdFacts SliceProofs SliceOps KaraModel ConvModel PropSlice.
From Verif Require Import TrsmModel TrsmProofs TrsmRec PermModel PermProofs PleModel PleFacts PleRank PleProofs PropPle PleRec PleEch PropTrsm PropEch SolveModel SolveMath.
Import ListNotations.
Local Open Scope nat_scope.

(** Y solves A * Y = B (A m x n, B m x k) by field elements *)
Definition solution (f : N) (m n k : nat) (A B Y : mat) : Prop := inM f n k Y /\ meq m k (mmul f n A Y) B.

Lemma at_fits m P : length P = m -> valid_perm m (at_ P) -> perm_fits m P.
Proof. intros L V i Hi. unfold valid_perm, at_ in V. specialize (V i). lia. Qed.

Lemma lower_ok f L Y n k FL FY X : irreducible f -> (2 <= pdeg f)%N -> sholds L f n n FL -> sholds Y f n k FY -> 0 < k -> nz_diag n FL ->
  inM f n k X -> meq n k (mmul f n (tril FL) X) FY -> wp (mzd_slice_trsm_lower_left L Y) (fun Y' => sbecomes Y Y' X).
Proof.
  intros Hirr Hd KL KY Hk Dg IX EX. pose proof KL as (L1 & L2 & L3 & L4 & L5). unfold mzd_slice_trsm_lower_left, mzd_slice_trsm_lower_left_.
  eapply (strsm_lower_ok f Hirr Hd MZED_TRSM_CUTOFF ltac:(unfold MZED_TRSM_CUTOFF; lia) (S (sl_nrows L)) n k L Y FL FY X ltac:(lia) KL KY); auto.
Qed.
Lemma upper_ok f L Y n k FL FY X : irreducible f -> (2 <= pdeg f)%N -> sholds L f n n FL -> sholds Y f n k FY -> 0 < k -> nz_diag n FL ->
  inM f n k X -> meq n k (mmul f n (triu FL) X) FY -> wp (mzd_slice_trsm_upper_left L Y) (fun Y' => sbecomes Y Y' X).
Proof.
  intros Hirr Hd KL KY Hk Dg IX EX. pose proof KL as (L1 & L2 & L3 & L4 & L5). unfold mzd_slice_trsm_upper_left, mzd_slice_trsm_upper_left_.
  eapply (strsm_upper_ok f Hirr Hd MZED_TRSM_CUTOFF ltac:(unfold MZED_TRSM_CUTOFF; lia) (S (sl_nrows L)) n k L Y FL FY X ltac:(lia) KL KY); auto.
Qed.

(** Every linear system over the field, of any shape and rank: the client finds a solution or tells that there is none. *)
Theorem C61_solve : forall l2 A B, irreducible (spoly A) -> (2 <= pdeg (spoly A))%N -> wf_slice A -> wf_slice B -> spoly B = spoly A ->
  sl_nrows B = sl_nrows A -> 0 < sl_ncols B ->
  exists R, slice_solve l2 A B = Ok R /\
    match R with
    | Some X => exists F, sholds X (spoly A) (sl_ncols A) (sl_ncols B) F /\ solution (spoly A) (sl_nrows A) (sl_ncols A) (sl_ncols B) (sentry A) (sentry B) F
    | None => forall F, ~ solution (spoly A) (sl_nrows A) (sl_ncols A) (sl_ncols B) (sentry A) (sentry B) F
    end.
Proof.
  intros l2 A B Hirr Hdeg HA HB Ef En Hk. set (f := spoly A) in *. set (m := sl_nrows A) in *. set (n := sl_ncols A) in *. set (k := sl_ncols B) in *.
  assert (Hf0 : f <> 0%N) by now apply irreducible_no_factor.
  apply wp_iff. unfold slice_solve. cbv zeta. fold m n k.
  apply wp_bind. eapply wp_mono; [apply (slice_copy_ok None A HA Logic.I)|]. cbv beta. intros LU0 (KL0 & _). fold f m n in KL0.
  pose proof KL0 as (W0 & F0 & R0 & N0 & E0). rewrite <- F0 in Hirr, Hdeg.
  assert (HP0 : length (mzp_init m) = sl_nrows LU0) by (unfold mzp_init; rewrite seq_length; congruence).
  assert (HQ0 : length (mzp_init n) = sl_ncols LU0) by (unfold mzp_init; rewrite seq_length; congruence).
  destruct (proj1 (C34_slice_wrappers l2 LU0 (mzp_init m) (mzp_init n) Hirr Hdeg W0) HP0 HQ0) as (_ & ([[[LU P] Q] r] & EP & DP)).
  rewrite F0 in Hirr, Hdeg. rewrite EP. cbn [bind]. clear EP HP0 HQ0.
  destruct DP as (B1 & LP & LQ & D & _). rewrite F0, R0, N0 in D. rewrite R0 in LP. rewrite N0 in LQ. pose proof (sh_becomes _ _ _ _ _ _ _ KL0 B1) as KL. clear B1 W0 F0 R0 N0.
  assert (D' : is_pluq f m n (sentry A) (sentry LU) (at_ P) (at_ Q) r).
  { destruct D as (D1 & D2 & D3 & D4 & D5 & D6 & D7). repeat (split; [assumption|]). intros i j Hi Hj. rewrite <- D7 by auto. symmetry. apply E0; [now apply PluqFacts.perm_lt|now apply PluqFacts.perm_lt]. }
  clear D E0 KL0. pose proof D' as (Hrm & Hrn & VP & VQ & Dg & _ & _).
  apply wp_bind. eapply wp_mono; [apply (slice_copy_ok None B HB Logic.I)|]. cbv beta. intros Y0 (KY0 & _). fold k in KY0. rewrite Ef, En in KY0.
  apply wp_bind. eapply wp_mono; [apply slice_apply_left_ok; [apply KY0|]|].
  { replace (sl_nrows Y0) with m by (symmetry; apply KY0). now apply at_fits. }
  cbv beta. intros Y1 B1. replace (sl_nrows Y0) with m in B1 by (symmetry; apply KY0). replace (Nat.min (length P) m) with m in B1 by lia.
  set (H := fun i j => sentry B (swaps (at_ P) m i) j).
  assert (KY1 : sholds Y1 f m k H).
  { eapply sh_ext; [exact (sh_becomes _ _ _ _ _ _ _ KY0 B1)|]. intros i j Hi Hj. unfold H. apply KY0; [now apply PluqFacts.perm_lt|exact Hj]. }
  clear B1 KY0 Y0.
  apply wp_bind. eapply wp_mono; [apply (swin_ok LU f m n (sentry LU) 0 0 r r KL); try lia; reflexivity|]. cbv beta. intros L1 (KL1 & _). rewrite Nat.sub_0_r in KL1.
  assert (KT : sholds Y1 f m k H) by exact KY1.
  assert (IL : inM f r r (sentry LU)) by (intros i j Hi Hj; replace f with (sfld LU) by apply KL; apply sentry_in; apply KL).
  assert (IH : inM f r k H) by (intros i j Hi Hj; rewrite <- Ef; apply sentry_in, HB).
  destruct (tril_exists f Hirr r k (sentry LU) H IL IH Dg) as (Y & IY & MY).
  assert (UY : forall Y', inM f r k Y' -> meq r k (mmul f r (tril (sentry LU)) Y') H -> meq r k Y' Y).
  { intros Y' IY' MY'. exact (tril_unique _ (irreducible_no_factor _ Hirr) Hirr _ _ _ IL Dg Y Y' _ IY IY' MY MY'). }
  apply wp_bind. eapply wp_mono; [apply (on_swin_ok Y1 f m k H 0 0 r k _ Y KY1); try lia; try reflexivity|].
  { rewrite !Nat.sub_0_r. intros W KW _. apply (lower_ok f L1 W r k _ _ Y Hirr Hdeg KL1 KW Hk Dg IY MY). }
  cbv beta. intros Y2 BY2. assert (KY2 : sholds Y2 f m k (fun i j => if i <? r then Y i j else H i j)).
  { eapply sh_ext; [exact (sh_becomes _ _ _ _ _ _ _ KY1 BY2)|]. intros i j Hi Hj. cbv beta. cbn [Nat.leb andb]. rewrite !Nat.sub_0_r. replace (j <? k) with true by lia. now rewrite !andb_true_r. }
  apply wp_bind. eapply wp_mono; [apply (swin_ok LU f m n (sentry LU) r 0 m r KL); try lia; reflexivity|]. cbv beta. intros L2 (KL2 & _). rewrite Nat.sub_0_r in KL2.
  apply wp_bind. eapply wp_mono; [apply (swin_ok Y2 f m k _ 0 0 r k KY2); try lia; reflexivity|]. cbv beta. intros T1 (KT1 & _). rewrite !Nat.sub_0_r in KT1.
  assert (KT1' : sholds T1 f r k Y). { eapply sh_ext; [exact KT1|]. intros i j Hi Hj. unfold sub. cbn [Nat.add]. now replace (i <? r) with true by lia. } clear KT1.
  set (R := fun i j => N.lxor (H (r + i) j) (mmul f r (sentry LU) Y (r + i) j)).
  apply wp_bind. eapply wp_mono; [apply (on_swin_ok Y2 f m k _ r 0 m k _ R KY2); try lia; try reflexivity|].
  { intros W KW _. rewrite Nat.sub_0_r in KW. pose proof KW as (V1 & V2 & V3 & V4 & V5). pose proof KL2 as (M1 & M2 & M3 & M4 & M5). pose proof KT1' as (T2 & T3 & T4 & T5 & T6).
    eapply wp_mono; [apply slice_addmul_ok; auto; congruence|]. cbv beta. intros W' BW. eapply sb_ext; [exact BW|]. rewrite V3, V4. intros i j Hi Hj.
    unfold madd, R. rewrite V5 by auto. f_equal; [unfold sub; cbn [Nat.add]; now replace (r + i <? r) with false by lia|].
    rewrite M2, M4. unfold mmul. apply xsum_ext. intros l Hl. rewrite M5, T6 by auto. reflexivity. }
  cbv beta. intros Y3 BY3. pose proof (sh_becomes _ _ _ _ _ _ _ KY2 BY3) as KY3.
  apply wp_bind. eapply wp_mono; [apply (swin_ok Y3 f m k _ r 0 m k KY3); try lia; reflexivity|]. cbv beta. intros T2 (KT2 & _). rewrite Nat.sub_0_r in KT2.
  assert (KR : sholds T2 f (m - r) k R).
  { eapply sh_ext; [exact KT2|]. intros i j Hi Hj. unfold sub. cbv beta. cbn [Nat.add]. replace ((r <=? r + i) && (r + i <? m) && (0 <=? j) && (j <? k)) with true by (symmetry; clear - Hi Hj; lia). replace (r + i - r) with i by (clear; lia). now rewrite Nat.sub_0_r. }
  clear KT2 KY3 BY3 Y3. destruct (mzd_slice_is_zero T2) eqn:EZ; cbn [negb].
  - assert (Z0 : forall i j, r <= i < m -> j < k -> N.lxor (H i j) (mmul f r (sentry LU) Y i j) = 0%N).
    { intros i j Hi Hj. pose proof KR as (Q1 & Q2 & Q3 & Q4 & Q5). pose proof (proj1 (slice_is_zero_ok T2 Q1) EZ (i - r) j) as Q0. rewrite Q5 in Q0 by lia. unfold R in Q0. replace (r + (i - r)) with i in Q0 by lia. apply Q0; lia. }
    unfold unit_upper. apply wp_bind. apply wp_bind. pose proof KL as (W1 & W2 & W3 & W4 & W5).
    eapply wp_mono; [apply (slice_submatrix_ok None LU 0 0 r r); auto; try lia; exact Logic.I|]. cbv beta. intros U0 KU0. rewrite W2, Nat.sub_0_r in KU0.
    eapply wp_mono; [apply (unit_diag_ok f Hdeg U0 r _ KU0)|]. cbv beta. intros U1 BU. pose proof (sh_becomes _ _ _ _ _ _ _ KU0 BU) as KU1.
    assert (Hff : gf2e_wf (sl_ff A)) by apply HA. pose proof (slice_init_ok (sl_ff A) n k Hff) as KX0. fold f in KX0.
    apply wp_bind. eapply wp_mono; [apply (on_swin_ok _ f n k _ 0 0 r k _ Y KX0); try lia; try reflexivity|].
    { intros W KW _. rewrite !Nat.sub_0_r in KW. pose proof KW as (V1 & V2 & V3 & V4 & V5). pose proof KT1' as (T3 & T4 & T5 & T6 & T7).
      eapply wp_mono; [apply (slice_copy_ok (Some W) T1 T3); split; [exact V1|]; split; [congruence|split; congruence]|]. cbv beta. intros W' (_ & BW). eapply sb_ext; [exact BW|]. rewrite V3, V4. intros i j Hi Hj. now apply T7. }
    cbv beta. intros X1 BX1. pose proof (sh_becomes _ _ _ _ _ _ _ KX0 BX1) as KX1.
    assert (KX1' : sholds X1 f n k (fun i j => if i <? r then Y i j else 0%N)).
    { eapply sh_ext; [exact KX1|]. intros i j Hi Hj. cbv beta. cbn [Nat.leb andb]. rewrite !Nat.sub_0_r. replace (j <? k) with true by lia. now rewrite !andb_true_r. } clear KX1 BX1 KX0.
    set (U := fun i c => if i =? c then 1%N else sub (sentry LU) 0 0 i c).
    assert (DU : nz_diag r U). { intros i Hi. unfold U. rewrite Nat.eqb_refl. discriminate. }
    assert (IU : inM f r r U). { intros i j Hi Hj. unfold U. destruct (i =? j); [unfold inF; apply (N.pow_lt_mono_r 2 0); lia|]. unfold sub. now apply IL. }
    destruct (triu_exists f Hirr r k U Y IU IY DU) as (Z & IZ & MZ).
    apply wp_bind. eapply wp_mono; [apply (on_swin_ok X1 f n k _ 0 0 r k _ Z KX1'); try lia; try reflexivity|].
    { rewrite !Nat.sub_0_r. intros W KW _. apply (upper_ok f U1 W r k U Y Z Hirr Hdeg KU1); auto.
      eapply sh_ext; [exact KW|]. intros i j Hi Hj. unfold sub. cbn [Nat.add]. now replace (i <? r) with true by lia. }
    cbv beta. intros X2 BX2. assert (KX2 : sholds X2 f n k (padded r Z)).
    { eapply sh_ext; [exact (sh_becomes _ _ _ _ _ _ _ KX1' BX2)|]. intros i j Hi Hj. cbv beta. cbn [Nat.leb andb]. rewrite !Nat.sub_0_r. replace (j <? k) with true by lia. rewrite !andb_true_r. unfold padded. now destruct (i <? r). }
    apply wp_bind. eapply wp_mono; [apply slice_apply_left_trans_ok; [apply KX2|]|].
    { replace (sl_nrows X2) with n by (symmetry; apply KX2). now apply at_fits. }
    cbv beta. intros X3 BX3. replace (sl_nrows X2) with n in BX3 by (symmetry; apply KX2). replace (Nat.min (length Q) n) with n in BX3 by lia.
    exists (fun i j => padded r Z (unswaps (at_ Q) n i) j).
    assert (KX3 : sholds X3 f n k (fun i j => padded r Z (unswaps (at_ Q) n i) j)).
    { eapply sh_ext; [exact (sh_becomes _ _ _ _ _ _ _ KX2 BX3)|]. intros i j Hi Hj. cbv beta. apply KX2; [now apply PluqFacts.unperm_lt|exact Hj]. }
    split; [exact KX3|]. split.
    + intros i j Hi Hj. unfold padded. destruct (Nat.ltb_spec (unswaps (at_ Q) n i) r); [now apply IZ|apply inF_0].
    + apply (solves f m n k r (sentry A) (sentry LU) (at_ P) (at_ Q) Hf0 D' (sentry B) Y MY Z); [|exact Z0]. exact MZ.
  - intros F (IF & MF).
    assert (Z0 := no_residual f m n k r (sentry A) (sentry LU) (at_ P) (at_ Q) Hf0 D' (sentry B) Y UY F IF MF).
    enough (mzd_slice_is_zero T2 = true) by congruence. pose proof KR as (Q1 & Q2 & Q3 & Q4 & Q5). apply (slice_is_zero_ok T2 Q1). rewrite Q3, Q4. intros i j Hi Hj. rewrite Q5 by auto.
    unfold R. apply (Z0 (r + i) j); lia.
Qed.
Print Assumptions C61_solve.

(** ** packed, square *)
Lemma full_ple f n A0 A P Q : is_ple f n n A0 A P Q n -> (forall j, swaps Q n j = j) /\ is_pluq f n n A0 A P Q n.
Proof.
  intros (D1 & D2 & VP & VQ & _ & Inc & Dg & _ & _ & E).
  assert (Qk : forall k, k < n -> Q k = k).
  { assert (K : forall k, k < n -> k <= Q k) by (intros k Hk; apply VQ, Hk).
    assert (K' : forall d k, k < n -> n - k = S d -> Q k <= k); [|intros k Hk; specialize (K k Hk); destruct (n - k) eqn:En; [lia|]; specialize (K' _ k Hk En); lia].
    induction d as [|d IH]; intros k Hk Hd; [pose proof (VQ k Hk); lia|]. pose proof (Inc k (S k) ltac:(lia) ltac:(lia)). pose proof (IH (S k) ltac:(lia) ltac:(lia)). lia. }
  assert (Qs : forall t j, t <= n -> swaps Q t j = j).
  { induction t as [|t IH]; intros j Ht; [reflexivity|]. cbn [swaps]. rewrite Qk by lia. unfold tr. destruct (Nat.eqb_spec j t) as [->|]; apply IH; lia. }
  split; [intros j; apply Qs; lia|]. split; [exact D1|]. split; [exact D2|]. split; [exact VP|]. split; [exact VQ|]. split; [exact Dg|]. split; [intros; lia|].
  intros i j Hi Hj. rewrite Qs by lia. rewrite E by auto. unfold mmul. apply xsum_ext. intros k Hk. f_equal. unfold ple_E, ple_U. now rewrite Qk.
Qed.
Lemma invertible_rank f n A : irreducible f -> (1 <= pdeg f)%N -> invertible f n A -> is_rank f n n A n.
Proof.
  intros Hirr Hd (V & IA & IV & E1 & E2). pose proof (irreducible_no_factor _ Hirr) as Hf. exists mone, A, V. split; [now apply inM_mone|]. split; [exact IA|]. split; [exact IV|].
  split; [intros i j Hi Hj; symmetry; now apply (mmul_1_r f n n)|]. split; [intros i j Hi Hj; symmetry; now apply E2|].
  intros v Hv Z k Hk. specialize (Z k Hk). rewrite (xsum_single n k) in Z; [|exact Hk|].
  - unfold mone in Z. rewrite Nat.eqb_refl, fmul_1_r in Z; auto.
  - intros i Hi Hn. unfold mone. replace (i =? k) with false by lia. apply fmul_0_r.
Qed.

(** A square system: the client returns the only solution, or tells that A has no inverse. *)
Theorem C61_solve_square : forall mulbs l2 A B, 16 <= mulbs -> (4096 <= l2)%Z -> irreducible (ff_minpoly (mz_ff A)) -> wf_mzed A -> wf_mzed B ->
  ff_minpoly (mz_ff B) = ff_minpoly (mz_ff A) -> mz_nrows A = mz_ncols A -> mz_nrows B = mz_nrows A -> 0 < mz_ncols B ->
  exists R, mzed_solve mulbs l2 A B = Ok R /\
    match R with
    | Some X => exists F, holds X (ff_minpoly (mz_ff A)) (mz_nrows A) (mz_ncols B) F /\ the_solution (ff_minpoly (mz_ff A)) (mz_nrows A) (mz_ncols B) (entry A) F (entry B)
    | None => ~ invertible (ff_minpoly (mz_ff A)) (mz_nrows A) (entry A)
    end.
Proof.
  intros mulbs l2 A B Hm Hl Hirr HA HB Ef Sq En Hk. set (f := ff_minpoly (mz_ff A)) in *. set (n := mz_nrows A) in *. set (k := mz_ncols B) in *.
  assert (Hf0 : f <> 0%N) by now apply irreducible_no_factor.
  assert (Hdeg : (2 <= pdeg f)%N). { destruct (MzedOps.wf_deg2 A HA) as (Wf & H2). destruct Wf as (_ & Wd & _). fold f in Wd. rewrite Wd. lia. }
  apply wp_iff. unfold mzed_solve. cbv zeta. fold n k.
  apply wp_bind. eapply wp_mono; [apply (mzed_copy_ok None A HA Logic.I)|]. cbv beta. intros L0 (KL0 & _). rewrite <- Sq in KL0. fold f n in KL0.
  pose proof KL0 as (W0 & F0 & R0 & N0 & E0). 
  assert (HP0 : length (mzp_init n) = mz_nrows L0) by (unfold mzp_init; rewrite seq_length; congruence).
  assert (HQ0 : length (mzp_init n) = mz_ncols L0) by (unfold mzp_init; rewrite seq_length; congruence).
  destruct (C34_mzed_ple l2 L0 (mzp_init n) (mzp_init n) (4 * l2) ltac:(now rewrite F0) W0 HP0 HQ0) as ([[[LE P] Q] r] & EP & DP).
  unfold mzed_ple. rewrite EP. cbn [bind]. clear EP HP0 HQ0.
  destruct DP as (B1 & LP & LQ & D & Rk). rewrite F0, R0, N0 in D, Rk. rewrite R0 in LP. rewrite N0 in LQ. pose proof (holds_becomes _ _ _ _ _ _ _ KL0 B1) as KL. clear B1.
  destruct (Nat.ltb_spec r n) as [Hr|Hr].
  - cbn [wp]. intros Hi. apply invertible_rank in Hi; [|exact Hirr|lia].
    assert (IL0 : inM f n n (entry L0)) by (intros i j Hi' Hj; rewrite E0 by auto; apply wf_entry; auto; congruence).
    assert (Hi0 : is_rank f n n (entry L0) n).
    { destruct Hi as (q & p & l & I1 & I2 & I3 & I4 & I5 & I6). exists q, p, l. repeat (split; [assumption|]). split; [intros i j Hi Hj; rewrite E0 by auto; now apply I4|]. split; [|exact I6].
      intros i j Hi Hj. rewrite I5 by auto. apply (mmul_ext f n n n); auto; [intros ? ? ? ?; reflexivity|]. intros a b Ha Hb. symmetry. now apply E0. }
    pose proof (EchFacts.rank_unique f ltac:(lia) Hirr n n _ _ _ IL0 Rk Hi0). lia.
  - assert (r = n) by (destruct D as (D1 & _); lia). subst r. clear Hr Rk.
    destruct (full_ple _ _ _ _ _ _ D) as (Qid & D2). clear D.
    assert (D' : is_pluq f n n (entry A) (entry LE) (at_ P) (at_ Q) n).
    { destruct D2 as (D1 & D2 & D3 & D4 & D5 & D6 & D7). repeat (split; [assumption|]). intros i j Hi Hj. rewrite <- D7 by auto. symmetry. apply E0; [now apply PluqFacts.perm_lt|now apply PluqFacts.perm_lt]. }
    clear D2. pose proof D' as (_ & _ & VP & VQ & Dg & _ & _).
    apply wp_bind. eapply wp_mono; [apply (mzed_copy_ok None B HB Logic.I)|]. cbv beta. intros Y0 (KY0 & _). fold k in KY0. rewrite Ef, En in KY0.
    apply wp_bind. eapply wp_mono; [apply mzed_apply_left_ok; [apply KY0|]|].
    { replace (mz_nrows Y0) with n by (symmetry; apply KY0). now apply at_fits. }
    cbv beta. intros Y1 B1. replace (mz_nrows Y0) with n in B1 by (symmetry; apply KY0). replace (Nat.min (length P) n) with n in B1 by lia.
    set (H := fun i j => entry B (swaps (at_ P) n i) j).
    assert (KY1 : holds Y1 f n k H).
    { eapply holds_ext; [exact (holds_becomes _ _ _ _ _ _ _ KY0 B1)|]. intros i j Hi Hj. unfold H. apply KY0; [now apply PluqFacts.perm_lt|exact Hj]. }
    pose proof KL as (W1 & W2 & W3 & W4 & W5).
    assert (IL : inM f n n (entry LE)) by (intros i j Hi Hj; rewrite <- W2; apply wf_entry; auto; congruence).
    assert (IH : inM f n k H) by (intros i j Hi Hj; rewrite <- Ef; apply wf_entry; [exact HB|rewrite En; now apply PluqFacts.perm_lt|exact Hj]).
    destruct (tril_exists f Hirr n k (entry LE) H IL IH Dg) as (Y & IY & MY).
    assert (UY : forall Y', inM f n k Y' -> meq n k (mmul f n (tril (entry LE)) Y') H -> meq n k Y' Y).
    { intros Y' IY' MY'. exact (tril_unique _ (irreducible_no_factor _ Hirr) Hirr _ _ _ IL Dg Y Y' _ IY IY' MY MY'). }
    apply wp_bind. eapply wp_mono.
    { unfold mzed_trsm_lower_left, mzed_trsm_lower_left_. apply (trsm_lower_ok f Hirr mulbs l2 MZED_TRSM_CUTOFF Hm Hl ltac:(unfold MZED_TRSM_CUTOFF; lia) (S (mz_nrows LE)) n k LE Y1 _ _ Y ltac:(lia) KL KY1 Hk Dg IY MY). }
    cbv beta. intros Y2 BY2. pose proof (holds_becomes _ _ _ _ _ _ _ KY1 BY2) as KY2.
    set (U := fun i c => if i =? c then 1%N else entry LE i c).
    assert (I1 : inF f 1) by (unfold inF; apply (N.pow_lt_mono_r 2 0); lia).
    apply wp_bind. eapply wp_mono.
    { apply (wp_for (fun t V => becomes LE V (fun i c => if (i <? t) && (i =? c) then 1%N else entry LE i c))); [lia| |].
      - eapply becomes_ext; [apply becomes_refl; exact W1|]. intros i c Hi Hc. reflexivity.
      - intros t V Ht BV. pose proof (holds_becomes _ _ _ _ _ _ _ KL BV) as (V1 & V2 & V3 & V4 & V5).
        eapply wp_mono; [apply mzed_write_elem_ok; [exact V1|lia|lia|now rewrite V2]|]. cbv beta. intros V' BV'.
        eapply becomes_step; [exact BV|exact BV'|]. cbv beta. intros i c Hi Hc. rewrite V5 by lia.
        destruct (Nat.eqb_spec i t), (Nat.eqb_spec c t), (Nat.eqb_spec i c), (Nat.ltb_spec i t), (Nat.ltb_spec i (S t)); cbn [andb]; try lia; reflexivity. }
    cbv beta. intros U1 BU. assert (KU : holds U1 f n n U).
    { eapply holds_ext; [exact (holds_becomes _ _ _ _ _ _ _ KL BU)|]. intros i c Hi Hc. cbv beta. unfold U. now replace (i <? n) with true by lia. }
    assert (DU : nz_diag n U). { intros i Hi. unfold U. rewrite Nat.eqb_refl. discriminate. }
    assert (IU : inM f n n U). { intros i j Hi Hj. unfold U. destruct (i =? j); [exact I1|]. now apply IL. }
    destruct (triu_exists f Hirr n k U Y IU IY DU) as (Z & IZ & MZ).
    apply wp_bind. eapply wp_mono.
    { unfold mzed_trsm_upper_left, mzed_trsm_upper_left_. apply (trsm_upper_ok f Hirr mulbs l2 MZED_TRSM_CUTOFF Hm Hl ltac:(unfold MZED_TRSM_CUTOFF; lia) (S (mz_nrows U1)) n k U1 Y2 _ _ Z ltac:(replace (mz_nrows U1) with n by (symmetry; apply KU); lia) KU KY2 Hk DU IZ MZ). }
    cbv beta. intros X BX. pose proof (holds_becomes _ _ _ _ _ _ _ KY2 BX) as KX. cbn [wp].
    assert (Quid : forall j, unswaps (at_ Q) n j = j) by (intros j; rewrite <- (Qid j) at 1; apply unswaps_swaps).
    exists Z. split; [exact KX|]. split; [exact IZ|]. split.
    + pose proof (solves f n n k n (entry A) (entry LE) (at_ P) (at_ Q) Hf0 D' (entry B) Y MY Z MZ ltac:(intros; lia)) as S.
      intros i j Hi Hj. rewrite <- S by auto. apply (mmul_ext f n n k); auto; [intros ? ? ? ?; reflexivity|]. intros a b Ha Hb. rewrite Quid. unfold padded. now replace (a <? n) with true by lia.
    + intros X' IX' MX'.
      assert (V : meq n k (mmul f n (ple_U (entry LE)) (fun k j => X' (swaps (at_ Q) n k) j)) Y).
      { apply UY; [now apply inM_mmul|]. intros i j Hi Hj. pose proof (product f n n n (entry A) (entry LE) (at_ P) (at_ Q) Hf0 D' X' i j Hi) as E. cbv beta in E.
        change (mmul f n (ple_L (entry LE)) (mmul f n (ple_U (entry LE)) (fun k j => X' (swaps (at_ Q) n k) j)) i j = H i j). rewrite <- E. apply MX'; [now apply PluqFacts.perm_lt|exact Hj]. }
      apply (triu_unique _ (irreducible_no_factor _ Hirr) Hirr _ _ _ IU DU Z X' Y IZ IX' MZ). intros i j Hi Hj. rewrite <- V by auto.
      unfold mmul. apply xsum_ext. intros l Hl'. rewrite Qid. f_equal. unfold ple_U, triu, U. destruct (Nat.ltb_spec l i); [now replace (i <=? l) with false by lia|]. replace (i <=? l) with true by lia.
      destruct (Nat.eqb_spec l i) as [->|]; [now rewrite Nat.eqb_refl|]. now replace (i =? l) with false by lia.
Qed.
Print Assumptions C61_solve_square.

(** systems with a solution, without one, with more unknowns than equations, and with a singular matrix *)
Example C61_witness :
  (A <- mks 0xb 3 2 (of_rows [[0; 2]; [3; 1]; [3; 3]]%N) ;; B <- mks 0xb 3 1 (of_rows [[6]; [5]; [3]]%N) ;;
   B' <- mks 0xb 3 1 (of_rows [[6]; [5]; [2]]%N) ;; At <- mks 0xb 2 3 (of_rows [[0; 3; 3]; [2; 1; 3]]%N) ;; Bt <- mks 0xb 2 2 (of_rows [[1; 5]; [4; 0]]%N) ;;
   X <- slice_solve 262144 A B ;; X' <- slice_solve 262144 A B' ;; Xt <- slice_solve 262144 At Bt ;;
   Ok (option_map sl_rows X, option_map sl_rows X', option_map sl_rows Xt)) =
  Ok (Some [[2]; [3]]%N, None, Some [[1; 4]; [6; 3]; [0; 0]]%N) /\
  (A <- mk 0xb 2 2 (of_rows [[0; 2]; [3; 1]]%N) ;; B <- mk 0xb 2 1 (of_rows [[6]; [5]]%N) ;; S <- mk 0xb 2 2 (of_rows [[1; 2]; [2; 4]]%N) ;;
   X <- mzed_solve 2048 262144 A B ;; X' <- mzed_solve 2048 262144 S B ;; Ok (option_map to_rows X, option_map to_rows X')) = Ok (Some [[2]; [3]]%N, None).
Proof. split; vm_compute; reflexivity. Qed.
