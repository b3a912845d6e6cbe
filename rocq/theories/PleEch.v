(** PLUQ and the echelon form computed from it, on bit-sliced matrices. *)
From Coq Require Import NArith ZArith Lia List Bool Arith.
From Coq Require Import ZifyBool ZifyNat ZifyN.
From Verif Require Import Base Spec LinSpec TrsmSpec PolyFacts MatFacts EchFacts Gf2xModel Gf2eModel Gf2eProofs MzdModel MzedModel MzedSpec.
From Verif Require Import LaneFacts MzedProofs MzedOps StrassenModel StrassenProofs SliceModel SliceSpec MzdFacts SliceProofs SliceOps SliceMul KaraModel KaraProofs ConvModel ConvSlice ConvCling.
From Verif Require Import MulModel MulProofs TrsmModel TrsmProofs TrsmRec PermModel PleModel PleSpec PleFacts PleRank PleProofs PermProofs PleComb PleSlice PleRec PluqFacts.
Import ListNotations.
Local Open Scope nat_scope.

Lemma tri_above k Q : (fun j => if k <? j then at_ Q j else j) = above k (at_ Q).
Proof. reflexivity. Qed.

Section Ple.
Variable f : N.
Hypothesis Hirr : irreducible f.
Hypothesis Hdeg : (2 <= pdeg f)%N.
Variable l2 : Z.
Let Hf : (1 <= pdeg f)%N. Proof. lia. Qed.

Definition spluq_res (A : slice) (f : N) (m n : nat) (F : mat) (x : slice * mzp * mzp * nat) : Prop :=
  let '(A', P', Q', r) := x in
  sbecomes A A' (sentry A') /\ length P' = m /\ length Q' = n /\
  exists B, inM f m n B /\ is_ple f m n F B (at_ P') (at_ Q') r /\
    (forall k j, k < r -> j < n -> sentry A' k j = pluq_row B n (at_ Q') k j) /\ (forall k j, r <= k < m -> j < n -> sentry A' k j = B k j).
Theorem spluq_ok m n A P Q F cutoff : sholds A f m n F -> length P = m -> length Q = n ->
  wp (mzd_slice_pluq_ l2 A P Q cutoff) (spluq_res A f m n F).
Proof.
  intros KA LP LQ. pose proof KA as (A1 & A2 & A3 & A4 & A5). unfold mzd_slice_pluq_, mzd_slice_ple_. apply wp_bind.
  eapply wp_mono; [apply (sple_ok f Hirr Hdeg l2 _ m n A P Q F cutoff); auto; lia|]. cbv beta.
  intros [[[A' P'] Q'] r] (K1 & LP' & LQ' & I1). pose proof (sh_becomes _ _ _ _ _ _ _ KA K1) as Ha.
  pose proof Ha as (B1 & B2 & B3 & B4 & B5). pose proof I1 as (a1 & a2 & a3 & a4 & a4' & a5 & a6 & a7 & a8 & a9).
  assert (IB : inM f m n (sentry A')) by (intros i j Hi Hj; apply (sh_in _ _ _ _ _ Ha); easy).
  apply wp_bind. rewrite B3, B4. destruct (negb (r =? 0) && (r <? m)) eqn:Z.
  - eapply wp_mono; [apply (on_swin_ok A' f m n _ 0 0 r n _ (pluq_row (sentry A') n (at_ Q')) Ha); try lia; try reflexivity|].
    + intros W HW _. rewrite !Nat.sub_0_r in HW. pose proof HW as (W1 & W2 & W3 & W4 & W5).
      eapply wp_mono; [apply slice_apply_tri_ok; [exact W1|lia|]|].
      * intros i Hi. rewrite W4 in *. apply a4. lia.
      * cbv beta. rewrite W4. intros W' BW. eapply sb_meq; [exact HW|exact BW|]. intros i j Hi Hj. cbv beta. rewrite tri_above.
        rewrite W5 by (auto; now apply above_lt). unfold sub, pluq_row. f_equal.
    + cbv beta. intros A'' K2. cbn [wp]. unfold spluq_res.
      split; [eapply sb_step; [exact A1|exact K1|exact K2|]; intros i c Hi Hc; symmetry; apply (sb_entry _ _ _ _ _ K2); lia|].
      split; [exact LP'|]. split; [exact LQ'|]. exists (sentry A'). split; [exact IB|]. split; [exact I1|]. split; intros k j Hk Hj.
      * rewrite (sb_entry _ _ _ _ _ K2) by lia. wsel; [f_equal; lia|lia].
      * rewrite (sb_entry _ _ _ _ _ K2) by lia. wsel; [lia|]. reflexivity.
  - eapply wp_mono; [apply slice_apply_tri_ok; [exact B1|lia|]|].
    + intros i Hi. rewrite B4 in *. apply a4. lia.
    + cbv beta. rewrite B4. intros A'' K2. cbn [wp]. unfold spluq_res.
      split; [eapply sb_step; [exact A1|exact K1|exact K2|]; intros i c Hi Hc; symmetry; apply (sb_entry _ _ _ _ _ K2); lia|].
      split; [exact LP'|]. split; [exact LQ'|]. exists (sentry A'). split; [exact IB|]. split; [exact I1|]. split; intros k j Hk Hj.
      * rewrite (sb_entry _ _ _ _ _ K2) by lia. reflexivity.
      * assert (r = 0) by lia. subst r. rewrite (sb_entry _ _ _ _ _ K2) by lia. rewrite tri_above. pose proof (above_lt k (at_ Q') n j a4 Hj).
        rewrite !a8 by lia. reflexivity.
Qed.
Lemma spluq_is_pluq A m n F A' P' Q' r : spluq_res A f m n F (A', P', Q', r) -> is_pluq f m n F (sentry A') (at_ P') (at_ Q') r.
Proof. intros (_ & _ & _ & B & _ & I1 & E1 & E2). exact (pluq_of_ple f m n r F B (at_ P') (at_ Q') I1 (sentry A') E1 E2). Qed.

(** ** triangular solving and the ones on the diagonal *)
Lemma utrsm U W r k FU FB X : sholds U f r r FU -> sholds W f r k FB -> 0 < k -> (forall i, i < r -> FU i i <> 0%N) -> inM f r k X ->
  meq r k (mmul f r (triu FU) X) FB -> wp (mzd_slice_trsm_upper_left U W) (fun W' => sbecomes W W' X).
Proof.
  intros HU HW Hk Hd HX EX. unfold mzd_slice_trsm_upper_left, mzd_slice_trsm_upper_left_. pose proof HU as (_ & _ & U3 & _ & _).
  eapply (strsm_upper_ok f Hirr Hdeg MZED_TRSM_CUTOFF ltac:(unfold MZED_TRSM_CUTOFF; lia) (S (sl_nrows U)) r k U W FU FB X ltac:(lia) HU HW); auto.
Qed.
Lemma unit_diag_ok W r F : sholds W f r r F -> wp (unit_diag r W) (fun W' => sbecomes W W' (fun i c => if i =? c then 1%N else F i c)).
Proof.
  intros KW. pose proof KW as (W1 & W2 & W3 & W4 & W5). unfold unit_diag. eapply wp_mono.
  - apply (wp_for (fun t W' => sbecomes W W' (fun i c => if (i <? t) && (i =? c) then 1%N else F i c))); [lia| |].
    + eapply sb_meq; [exact KW|now apply sb_refl|]. intros i c Hi Hc. cbn [Nat.ltb Nat.leb andb]. now apply W5.
    + intros t W' Ht B. pose proof (sh_becomes _ _ _ _ _ _ _ KW B) as (V1 & V2 & V3 & V4 & V5).
      eapply wp_mono; [apply slice_write_elem_ok; [exact V1|lia|lia|rewrite V2; now apply inF1]|]. cbv beta. intros W'' B'.
      eapply sb_step; [exact W1|exact B|exact B'|]. cbv beta. intros i c Hi Hc. rewrite V5 by lia.
      destruct (Nat.eqb_spec i t), (Nat.eqb_spec c t), (Nat.eqb_spec i c), (Nat.ltb_spec i t), (Nat.ltb_spec i (S t)); cbn [andb]; try lia; reflexivity.
  - cbv beta. intros W' B. eapply sb_meq; [exact KW|exact B|]. intros i c Hi Hc. cbv beta. now replace (i <? r) with true by lia.
Qed.

Section Full.
Variables (m n r : nat) (F1 X : mat).
Hypothesis Hr : r <= m.
Hypothesis Hr' : r <= n.
Let U1 : mat := fun i c => if i =? c then 1%N else F1 i c.
Hypothesis HX : inM f r n X.
Hypothesis EX : meq r n (mmul f r (triu U1) X) F1.
Let Fa : mat := fun i c => if (i <? r) && (i =? c) then 1%N else F1 i c.

Lemma diag_ok A : sholds A f m n F1 -> wp (on_swin A 0 0 r r (unit_diag r)) (fun A' => sbecomes A A' Fa).
Proof.
  intros KA. eapply wp_mono; [apply (on_swin_ok A f m n F1 0 0 r r _ U1 KA); try lia; try reflexivity|].
  - intros W HW _. rewrite !Nat.sub_0_r in HW. eapply wp_mono; [apply (unit_diag_ok W r _ HW)|]. cbv beta. intros W' B.
    eapply sb_meq; [exact HW|exact B|]. intros i c Hi Hc. reflexivity.
  - cbv beta. intros A' B. eapply sb_meq; [exact KA|exact B|]. intros i c Hi Hc. cbv beta. unfold U1, Fa.
    destruct (Nat.ltb_spec i r); cbn [andb].
    + wsel; [now rewrite !Nat.sub_0_r|]. now replace (i =? c) with false by lia.
    + now rewrite andb_false_r.
Qed.
Lemma U_window A : sholds A f m n Fa -> wp (mzd_slice_window A 0 0 r r) (fun U => sholds U f r r U1).
Proof.
  intros KA. eapply wp_mono; [apply (swin_ok A f m n Fa 0 0 r r KA); try lia; try reflexivity|]. cbv beta. intros U (HU & _).
  rewrite Nat.sub_0_r in HU. eapply sh_ext; [exact HU|]. intros i j Hi Hj. unfold sub, Fa, U1. cbn [Nat.add]. now replace (i <? r) with true by lia.
Qed.
Lemma U1_diag i : i < r -> U1 i i <> 0%N.
Proof. intros _. unfold U1. rewrite Nat.eqb_refl. easy. Qed.
Lemma X_sub c0 k : c0 + k <= n -> inM f r k (sub X 0 c0) /\ meq r k (mmul f r (triu U1) (sub X 0 c0)) (sub F1 0 c0).
Proof.
  intros H. split; [intros i j Hi Hj; apply HX; lia|]. intros i j Hi Hj. unfold sub at 2. rewrite <- EX by lia. reflexivity.
Qed.
Lemma Fa_F1 i c : r <= c -> i < m -> Fa i c = F1 i c \/ r <= i.
Proof. intros H _. unfold Fa. destruct (Nat.ltb_spec i r); [|now right]. left. cbn [andb]. now replace (i =? c) with false by lia. Qed.

Lemma ech_solve_ok A : sholds A f m n F1 ->
  wp (if (64 * (r / 64) =? r) && negb (r =? n) then
              A <- on_swin A 0 0 r r (unit_diag r) ;;
              U <- mzd_slice_window A 0 0 r r ;;
              on_swin A 0 r r n (fun B => mzd_slice_trsm_upper_left U B)
            else if negb (64 * (r / 64) =? r) && negb (r =? n) then
              if 64 * (r / 64) + 64 <? n then
                B0 <- mzd_slice_submatrix None A 0 (64 * (r / 64)) r (64 * (r / 64) + 64) ;;
                A <- on_swin A 0 0 r r (unit_diag r) ;;
                U <- mzd_slice_window A 0 0 r r ;;
                B0 <- mzd_slice_trsm_upper_left U B0 ;;
                A <- on_swin A 0 (64 * (r / 64) + 64) r n (fun B1 => mzd_slice_trsm_upper_left U B1) ;;
                on_swin A 0 (64 * (r / 64)) r (64 * (r / 64) + 64) (fun B0w => mzd_slice_copy (Some B0w) B0)
              else
                B <- mzd_slice_submatrix None A 0 (64 * (r / 64)) r n ;;
                A <- on_swin A 0 0 r r (unit_diag r) ;;
                U <- mzd_slice_window A 0 0 r r ;;
                B <- mzd_slice_trsm_upper_left U B ;;
                on_swin A 0 (64 * (r / 64)) r n (fun Bw => mzd_slice_copy (Some Bw) B)
            else Ok A)
   (fun A' => sbecomes A A' (sentry A') /\ forall i c, i < r -> r <= c < n -> sentry A' i c = X i c).
Proof.
  intros KA. pose proof KA as (A1 & A2 & A3 & A4 & A5). set (rr := 64 * (r / 64)).
  assert (Hrr : rr <= r < rr + 64) by (unfold rr; pose proof (Nat.div_mod r 64 ltac:(lia)); pose proof (Nat.mod_upper_bound r 64 ltac:(lia)); lia).
  assert (Hmod : rr mod 64 = 0) by (unfold rr; rewrite Nat.mul_comm; apply Nat.mod_mul; lia).
  assert (Hmod' : (rr + 64) mod 64 = 0) by (unfold rr; replace (64 * (r / 64) + 64) with ((r / 64 + 1) * 64) by lia; apply Nat.mod_mul; lia). clearbody rr.
  assert (Hcopy : forall W B c0 k, sholds W f r k (fun i c => sentry W i c) -> sholds B f r k (sub X 0 c0) -> wp (mzd_slice_copy (Some W) B) (fun W' => sbecomes W W' (sub X 0 c0))).
  { intros W B c0 k (W1 & W2 & W3 & W4 & _) KB. pose proof KB as (B1 & B2 & B3 & B4 & B5).
    eapply wp_mono; [apply (slice_copy_ok (Some W) B B1)|].
    - cbn [starget]. split; [exact W1|]. split; [congruence|]. split; congruence.
    - cbv beta. intros W' (_ & HW'). eapply sb_ext; [exact HW'|]. intros i c Hi Hc. apply B5; lia. }
  destruct ((rr =? r) && negb (r =? n)) eqn:C1.
  - assert (rr = r) by lia. subst rr. apply wp_bind. eapply wp_mono; [apply (diag_ok A KA)|]. cbv beta. intros Aa Ka. pose proof (sh_becomes _ _ _ _ _ _ _ KA Ka) as Ha.
    apply wp_bind. eapply wp_mono; [apply (U_window Aa Ha)|]. cbv beta. intros U HU.
    eapply wp_mono; [apply (on_swin_ok Aa f m n Fa 0 r r n _ (sub X 0 r) Ha); auto; try lia|].
    + intros W HW _. rewrite Nat.sub_0_r in HW. destruct (X_sub r (n - r) ltac:(lia)) as (X1 & X2).
      eapply utrsm; [exact HU|exact HW|lia|exact U1_diag|exact X1|]. eapply meq_trans; [exact X2|]. intros i j Hi Hj. unfold sub.
      destruct (Fa_F1 (0 + i) (r + j) ltac:(lia) ltac:(lia)); [easy|lia].
    + cbv beta. intros Ab Kb. split.
      * eapply sb_step; [exact A1|exact Ka|exact Kb|]. intros i c Hi Hc. symmetry. apply (sb_entry _ _ _ _ _ Kb); [rewrite (sb_nr _ _ _ Ka)|rewrite (sb_nc _ _ _ Ka)]; easy.
      * intros i c Hi Hc. pose proof Ha as (_ & _ & V3 & V4 & _). rewrite (sb_entry _ _ _ _ _ Kb) by lia. wsel; [|lia]. unfold sub. f_equal; lia.
  - destruct (negb (rr =? r) && negb (r =? n)) eqn:C2; [|cbn [wp]; split; [now apply sb_refl|intros; lia]].
    destruct (Nat.ltb_spec (rr + 64) n) as [C3|C3].
    + apply wp_bind. eapply wp_mono; [apply (slice_submatrix_ok None A 0 rr r (rr + 64) A1); try lia; exact I|]. cbv beta. intros B0 KB0.
      rewrite A2 in KB0. rewrite Nat.sub_0_r in KB0. replace (rr + 64 - rr) with 64 in KB0 by lia.
      apply wp_bind. eapply wp_mono; [apply (diag_ok A KA)|]. cbv beta. intros Aa Ka. pose proof (sh_becomes _ _ _ _ _ _ _ KA Ka) as Ha.
      apply wp_bind. eapply wp_mono; [apply (U_window Aa Ha)|]. cbv beta. intros U HU.
      destruct (X_sub rr 64 ltac:(lia)) as (X1 & X2).
      apply wp_bind. eapply wp_mono; [eapply (utrsm U B0 r 64 U1 _ (sub X 0 rr) HU KB0); [lia|exact U1_diag|exact X1|]|].
      { eapply meq_trans; [exact X2|]. intros i j Hi Hj. unfold sub. symmetry. apply A5; lia. }
      cbv beta. intros B0' KB'. pose proof (sh_becomes _ _ _ _ _ _ _ KB0 KB') as HB0'.
      destruct (X_sub (rr + 64) (n - (rr + 64)) ltac:(lia)) as (X3 & X4).
      apply wp_bind. eapply wp_mono; [apply (on_swin_ok Aa f m n Fa 0 (rr + 64) r n _ (sub X 0 (rr + 64)) Ha); auto; try lia|].
      { intros W HW _. rewrite Nat.sub_0_r in HW. eapply utrsm; [exact HU|exact HW|lia|exact U1_diag|exact X3|]. eapply meq_trans; [exact X4|]. intros i j Hi Hj. unfold sub.
        destruct (Fa_F1 (0 + i) (rr + 64 + j) ltac:(lia) ltac:(lia)); [easy|lia]. }
      cbv beta. intros Ab Kb. pose proof (sh_becomes _ _ _ _ _ _ _ Ha Kb) as Hb.
      eapply wp_mono; [apply (on_swin_ok Ab f m n _ 0 rr r (rr + 64) _ (sub X 0 rr) Hb); auto; try lia|].
      { intros W HW _. rewrite Nat.sub_0_r in HW. replace (rr + 64 - rr) with 64 in HW by lia. apply (Hcopy W B0' rr 64); [|exact HB0'].
        destruct HW as (W1 & W2 & W3 & W4 & _). split; [exact W1|]. now repeat (split; [easy|]). }
      cbv beta. intros Ac Kc. split.
      * eapply sb_step; [exact A1|eapply sb_step; [exact A1|exact Ka|exact Kb|intros; reflexivity]|exact Kc|]. intros i c Hi Hc. symmetry.
        destruct Hb as (_ & _ & V3 & V4 & _). apply (sb_entry _ _ _ _ _ Kc); lia.
      * intros i c Hi Hc. destruct Hb as (_ & _ & V3 & V4 & _). rewrite (sb_entry _ _ _ _ _ Kc) by lia. wsel; [unfold sub; f_equal; lia|]. wsel; [unfold sub; f_equal; lia|lia].
    + apply wp_bind. eapply wp_mono; [apply (slice_submatrix_ok None A 0 rr r n A1); try lia; exact I|]. cbv beta. intros B0 KB0.
      rewrite A2 in KB0. rewrite Nat.sub_0_r in KB0.
      apply wp_bind. eapply wp_mono; [apply (diag_ok A KA)|]. cbv beta. intros Aa Ka. pose proof (sh_becomes _ _ _ _ _ _ _ KA Ka) as Ha.
      apply wp_bind. eapply wp_mono; [apply (U_window Aa Ha)|]. cbv beta. intros U HU.
      destruct (X_sub rr (n - rr) ltac:(lia)) as (X1 & X2).
      apply wp_bind. eapply wp_mono; [eapply (utrsm U B0 r (n - rr) U1 _ (sub X 0 rr) HU KB0); [lia|exact U1_diag|exact X1|]|].
      { eapply meq_trans; [exact X2|]. intros i j Hi Hj. unfold sub. symmetry. apply A5; lia. }
      cbv beta. intros B0' KB'. pose proof (sh_becomes _ _ _ _ _ _ _ KB0 KB') as HB0'.
      eapply wp_mono; [apply (on_swin_ok Aa f m n _ 0 rr r n _ (sub X 0 rr) Ha); auto; try lia|].
      { intros W HW _. rewrite Nat.sub_0_r in HW. apply (Hcopy W B0' rr (n - rr)); [|exact HB0'].
        destruct HW as (W1 & W2 & W3 & W4 & _). split; [exact W1|]. now repeat (split; [easy|]). }
      cbv beta. intros Ac Kc. destruct Ha as (_ & _ & V3 & V4 & _). split.
      * eapply sb_step; [exact A1|exact Ka|exact Kc|]. intros i c Hi Hc. symmetry. apply (sb_entry _ _ _ _ _ Kc); lia.
      * intros i c Hi Hc. rewrite (sb_entry _ _ _ _ _ Kc) by lia. wsel; [unfold sub; f_equal; lia|lia].
Qed.
End Full.

(** ** clearing the part left of the pivot (non-full case) *)
Lemma clear_left_ok M i : wf_mzd M -> i < mzd_nrows M -> i < mzd_ncols M ->
  wp (for_ 0 (i + 1) (fun j x => mzd_clear_bits x i j (Nat.min 64 (i - j + 1))) M)
     (fun M' => mset M M' (fun a k => if (a =? i) && (k <=? i) then false else mbit M a k)).
Proof.
  intros HM Hi Hc. eapply wp_mono.
  - apply (wp_for (fun t M' => mset M M' (fun a k => if (a =? i) && (k <=? i) && ((1 <=? t) && (k <? t + 63)) then false else mbit M a k))); [lia| |].
    + eapply mset_ext; [now apply mset_refl|]. cbv beta. intros a k _ _. cbn [Nat.ltb Nat.leb orb andb]. now rewrite andb_false_r.
    + intros t M' Ht Sm. pose proof (mset_nr _ _ _ Sm) as E1. pose proof (mset_nc _ _ _ Sm) as E2. unfold mzd_clear_bits.
      replace ((1 <=? Nat.min 64 (i - t + 1)) && (Nat.min 64 (i - t + 1) <=? 64) && (i <? mzd_nrows M') && (t + Nat.min 64 (i - t + 1) <=? mzd_ncols M')) with true by lia.
      cbn [guard bind wp]. eapply mset_step; [exact Sm|apply mset_build; apply Sm|]. cbv beta. intros a k Ha Hk.
      rewrite (mset_bit _ _ _ _ _ Sm) by lia. destruct (Nat.eqb_spec a i) as [->|]; cbn [andb]; [|easy].
      destruct (Nat.leb_spec k i); cbn [andb].
      * destruct ((t <=? k) && (k <? t + Nat.min 64 (i - t + 1))) eqn:Z1; destruct ((1 <=? t) && (k <? t + 63)) eqn:Z2; destruct ((1 <=? S t) && (k <? S t + 63)) eqn:Z3; try easy; lia.
      * destruct (_ && _) eqn:Z1; [lia|easy].
  - cbv beta. intros M' Sm. eapply mset_ext; [exact Sm|]. cbv beta. intros a k _ _. destruct (Nat.eqb_spec a i), (Nat.leb_spec k i); cbn [andb]; try easy.
    now replace ((1 <=? i + 1) && (k <? i + 1 + 63)) with true by lia.
Qed.
Lemma row_clean_ok A m n F i q : sholds A f m n F -> i < m -> i <= q < n ->
  wp (A <- sl_map A (fun _ x => for_ 0 (i + 1) (fun j x => mzd_clear_bits x i j (Nat.min 64 (i - j + 1))) x) ;; mzd_slice_write_elem A i q 1)
     (fun A' => sbecomes A A' (fun a k => if a =? i then (if k =? q then 1%N else if k <=? i then 0%N else F a k) else F a k)).
Proof.
  intros KA Hi Hq. pose proof KA as (A1 & A2 & A3 & A4 & A5). apply wp_bind.
  eapply wp_mono; [apply (map_ok A _ (fun a k => if (a =? i) && (k <=? i) then 0%N else sentry A a k) A1)|].
  - intros a k _ _. destruct (_ && _); [rewrite A2; now apply inF0|now apply sentry_in].
  - intros b Hb W R1 R2. eapply wp_mono; [apply clear_left_ok; auto; lia|]. cbv beta. intros x' Hx. eapply mset_ext; [exact Hx|]. cbv beta. intros a k _ _.
    destruct (_ && _); [easy|now rewrite sbit].
  - cbv beta. intros A' B. pose proof (sh_becomes _ _ _ _ _ _ _ KA B) as (V1 & V2 & V3 & V4 & V5).
    eapply wp_mono; [apply slice_write_elem_ok; [exact V1|lia|lia|rewrite V2; now apply inF1]|]. cbv beta. intros A'' B'.
    eapply sb_step; [exact A1|exact B|exact B'|]. cbv beta. intros a k Ha Hk. rewrite V5 by lia. rewrite A5 by lia.
    destruct (a =? i), (k =? q), (k <=? i); reflexivity.
Qed.

Definition sech_result (full : bool) (A : slice) (f : N) (m n : nat) (F : mat) (x : slice * nat) : Prop :=
  let '(A', r) := x in sbecomes A A' (sentry A') /\ row_equiv f m n F (sentry A') /\
  exists piv, echelon m n r piv (sentry A') /\ (full = true -> reduced m r piv (sentry A')).
Lemma meq_row_equiv m n A B C : row_equiv f m n A B -> meq m n B C -> row_equiv f m n A C.
Proof. intros (T & T' & HT & E) E'. exists T, T'. split; [exact HT|]. eapply meq_trans; [apply meq_sym; exact E'|exact E]. Qed.
Lemma meq_echelon m n r piv A B : echelon m n r piv A -> meq m n A B -> echelon m n r piv B.
Proof.
  intros (H1 & H2 & H3 & H4) E. split; [exact H1|]. split; [|split; [exact H3|]].
  - intros i Hi. destruct (H2 i Hi) as (P1 & P2 & P3). split; [exact P1|]. split; [rewrite <- E by lia; exact P2|]. intros j Hj. rewrite <- E by lia. now apply P3.
  - intros i j Hi Hj. rewrite <- E by lia. now apply H4.
Qed.
Lemma meq_reduced m n r piv A B : (forall i, i < r -> piv i < n) -> reduced m r piv A -> meq m n A B -> reduced m r piv B.
Proof. intros Hp H E i i' Hi Hi' Hne. rewrite <- E by auto. now apply H. Qed.

Lemma zero_rows_ok A m n F r : sholds A f m n F -> r <= m ->
  wp (if r =? m then Ok A else on_swin A r 0 m n (fun R => mzd_slice_set_ui R 0)) (fun A' => sbecomes A A' (fun i j => if i <? r then F i j else 0%N)).
Proof.
  intros KA Hr. pose proof KA as (A1 & A2 & A3 & A4 & A5). destruct (Nat.eqb_spec r m) as [->|Hne].
  - cbn [wp]. eapply sb_meq; [exact KA|now apply sb_refl|]. intros i j Hi Hj. replace (i <? m) with true by lia. now apply A5.
  - eapply wp_mono; [apply (on_swin_ok A f m n F r 0 m n _ mzero KA); try lia; try reflexivity|].
    + intros W HW _. pose proof HW as (W1 & W2 & W3 & W4 & W5). eapply wp_mono; [apply slice_set_ui_ok; [exact W1|rewrite W2; now apply inF0]|].
      cbv beta. intros W' B. eapply sb_meq; [exact HW|exact B|]. intros i j Hi Hj. cbv beta. unfold mzero. now destruct (i =? j).
    + cbv beta. intros A' B. eapply sb_meq; [exact KA|exact B|]. intros i j Hi Hj. cbv beta. unfold mzero. destruct (Nat.ltb_spec i r); wsel; try lia; reflexivity.
Qed.

Lemma at_valid m n A P Q F0 r : is_ple f m n F0 A P Q r -> valid_perm n Q. Proof. now intros (_ & _ & _ & H & _). Qed.
Theorem slice_echelonize_ple_ok m n A F full : sholds A f m n F ->
  wp (mzd_slice_echelonize_ple l2 A full) (sech_result full A f m n F).
Proof.
  intros KA. pose proof KA as (A1 & A2 & A3 & A4 & A5).
  assert (IF : inM f m n F) by (intros i j Hi Hj; now apply (sh_in _ _ _ _ _ KA)).
  unfold mzd_slice_echelonize_ple. cbv zeta. rewrite A3, A4. apply wp_bind. destruct full.
  - unfold mzd_slice_pluq, mzp_init. rewrite !seq_length, A3, A4, !Nat.eqb_refl. cbn [andb guard bind]. apply wp_bind.
    eapply wp_mono; [apply (spluq_ok m n A _ _ F 0 KA); apply seq_length|]. cbv beta. intros [[[Aa P] Q] r] (Ka & LP & LQ & B & IB & I1 & E1 & E2).
    pose proof (sh_becomes _ _ _ _ _ _ _ KA Ka) as Ha. pose proof I1 as (a1 & a2 & a3 & a4 & a4' & a5 & a6 & a7 & a8 & a9).
    set (F1 := sentry Aa) in *. assert (IF1 : inM f m n F1) by (intros i j Hi Hj; now apply (sh_in _ _ _ _ _ Ha)).
    set (U1 := fun i c => if i =? c then 1%N else F1 i c).
    destruct (triu_exists f Hirr r n U1 F1) as (X & HX & EX).
    { intros i j Hi Hj. unfold U1. destruct (i =? j); [now apply inF1|apply IF1; lia]. }
    { intros i j Hi Hj. apply IF1; lia. }
    { intros i Hi. unfold U1. rewrite Nat.eqb_refl. easy. }
    apply wp_bind. eapply wp_mono; [apply (ech_solve_ok m n r F1 X a1 a2 HX EX Aa Ha)|]. cbv beta. intros Ab (Kb & Eb).
    pose proof (sh_becomes _ _ _ _ _ _ _ Ha Kb) as Hb.
    apply wp_bind. eapply wp_mono; [apply (on_swin_ok Ab f m n _ 0 0 r r _ mone Hb); try lia; try reflexivity|].
    { intros W HW _. pose proof HW as (W1 & W2 & W3 & W4 & W5). eapply wp_mono; [apply slice_set_ui_ok; [exact W1|rewrite W2; now apply inF1]|].
      cbv beta. intros W' BW. exact BW. }
    cbv beta. intros Ac Kc. pose proof (sh_becomes _ _ _ _ _ _ _ Hb Kc) as Hc.
    set (R := fun i c => if c <? r then mone i c else X i c).
    set (G := fun i c => if i <? r then R i c else sentry Ab i c).
    assert (Hc' : sholds Ac f m n G).
    { eapply sh_ext; [exact Hc|]. intros i c Hi Hcc. unfold G, R. destruct (Nat.ltb_spec i r).
      - destruct (Nat.ltb_spec c r); wsel; try lia; [f_equal; lia|]. apply Eb; lia.
      - wsel; [lia|]. reflexivity. }
    clear Hc. apply wp_bind.
    assert (L : wp (if r =? 0 then Ok Ac else on_swin Ac 0 0 r n (fun A0 => mzd_slice_apply_p_right A0 Q))
       (fun Ad => sbecomes Ac Ad (fun i j => if i <? r then R i (unswaps (at_ Q) n j) else sentry Ab i j))).
    { destruct (Nat.eqb_spec r 0) as [E0|Hne].
      - cbn [wp]. pose proof Hc' as (C1 & _ & _ & _ & C5). eapply sb_meq; [exact Hc'|apply sb_refl; exact C1|]. intros i j Hi Hj. rewrite C5 by easy. unfold G. now replace (i <? r) with false by lia.
      - eapply wp_mono; [apply (on_swin_ok Ac f m n G 0 0 r n _ (fun i j => R i (unswaps (at_ Q) n j)) Hc'); try lia; try reflexivity|].
        + intros W HW _. rewrite !Nat.sub_0_r in HW. pose proof HW as (W1 & W2 & W3 & W4 & W5).
          eapply wp_mono; [apply slice_apply_right_ok; [exact W1|]|].
          * intros i Hi. rewrite W4 in *. apply a4. lia.
          * cbv beta. rewrite W4, LQ, Nat.min_id. intros W' BW. eapply sb_meq; [exact HW|exact BW|]. intros i j Hi Hj. cbv beta.
            rewrite W5 by (auto; now apply unperm_lt). unfold sub, G. cbn [Nat.add]. now replace (i <? r) with true by lia.
        + cbv beta. intros Ad Bd. eapply sb_meq; [exact Hc'|exact Bd|]. intros i j Hi Hj. cbv beta. destruct (Nat.ltb_spec i r).
          * wsel; [now rewrite !Nat.sub_0_r|lia].
          * wsel; [lia|]. unfold G. now replace (i <? r) with false by lia. }
    eapply wp_mono; [exact L|]. cbv beta. intros Ad Kd. clear L. cbn [wp]. pose proof (sh_becomes _ _ _ _ _ _ _ Hc' Kd) as Hd.
    apply wp_bind. eapply wp_mono; [apply (zero_rows_ok Ad m n _ r Hd a1)|]. cbv beta. intros Ae Ke. cbn [wp].
    pose proof (sh_becomes _ _ _ _ _ _ _ Hd Ke) as He. destruct Hd as (_ & _ & D3 & D4 & _).
    assert (Ef : meq m n (red_final r n (at_ Q) R) (sentry Ae)).
    { intros i j Hi Hj. destruct He as (_ & _ & _ & _ & He). rewrite He by easy. unfold red_final. now destruct (i <? r). }
    assert (HR : inM f r n R). { intros i j Hi Hj. unfold R. destruct (_ <? _); [now apply (inM_mone f r n Hf)|now apply HX]. }
    assert (R1 : forall i j, i < r -> j < r -> R i j = mone i j) by (intros i j Hi Hj; unfold R; now replace (j <? r) with true by lia).
    assert (R2 : forall i j, i < r -> r <= j < n -> mmul f r (ple_U (pluq_row B n (at_ Q))) R i j = ple_U (pluq_row B n (at_ Q)) i j).
    { intros i j Hi Hj. unfold ple_U at 2. replace (j <? i) with false by lia. replace (j =? i) with false by lia. rewrite <- E1 by lia. fold F1.
      rewrite <- EX by lia. unfold mmul. apply xsum_ext. intros k Hk. f_equal; [|unfold R; now replace (j <? r) with false by lia].
      unfold ple_U, triu, U1. destruct (Nat.ltb_spec k i), (Nat.leb_spec i k); try lia. rewrite Nat.eqb_sym. destruct (i =? k); [easy|]. symmetry. apply E1; lia. }
    destruct (red_echelon f Hirr Hf m n r F B (at_ P) (at_ Q) R IB I1 HR R1 R2) as (Q1 & Q2).
    unfold sech_result. split; [|split].
    + eapply sb_step; [exact A1|eapply sb_step; [exact A1|eapply sb_step; [exact A1|eapply sb_step; [exact A1|exact Ka|exact Kb|intros; reflexivity]|exact Kc|intros; reflexivity]|exact Kd|intros; reflexivity]|exact Ke|].
      intros i c Hi Hcc. symmetry. apply (sb_entry _ _ _ _ _ Ke); lia.
    + eapply meq_row_equiv; [|exact Ef]. apply (red_row_equiv f Hirr Hf m n r F B (at_ P) (at_ Q) R IF IB I1 HR R1 R2).
    + exists (at_ Q). split; [eapply meq_echelon; [exact Q1|exact Ef]|]. intros _. eapply (meq_reduced m n); [|exact Q2|exact Ef].
      intros i Hi. apply a4. lia.
  - unfold mzd_slice_ple, mzp_init. rewrite !seq_length, A3, A4, !Nat.eqb_refl. cbn [andb guard bind]. unfold mzd_slice_ple_. apply wp_bind.
    eapply wp_mono; [apply (sple_ok f Hirr Hdeg l2 _ m n A _ _ F 0%Z); auto; [lia|apply seq_length|apply seq_length]|]. cbv beta.
    intros [[[Aa P] Q] r] (Ka & LP & LQ & I1). pose proof (sh_becomes _ _ _ _ _ _ _ KA Ka) as Ha.
    pose proof I1 as (a1 & a2 & a3 & a4 & a4' & a5 & a6 & a7 & a8 & a9). set (B := sentry Aa) in *.
    assert (IB : inM f m n B) by (intros i j Hi Hj; now apply (sh_in _ _ _ _ _ Ha)). pose proof Ha as (B1 & B2 & B3 & B4 & _).
    apply wp_bind. eapply wp_mono.
    + apply (wp_for (fun t A' => sbecomes Aa A' (fun i j => if i <? t then ple_E (at_ Q) B i j else B i j))); [lia|now apply sb_refl|].
      intros t A' Ht BA. pose proof (sh_becomes _ _ _ _ _ _ _ Ha BA) as HA'. pose proof (a4 t ltac:(lia)) as Hq.
      rewrite (lget_ok Q t 0) by lia. cbn [bind]. fold (at_ Q t).
      eapply wp_mono; [apply (row_clean_ok A' m n _ t (at_ Q t) HA'); lia|]. cbv beta. intros A'' BA'.
      eapply sb_step; [exact B1|exact BA|exact BA'|]. cbv beta. rewrite B3, B4. intros i j Hi Hj. unfold ple_E.
      destruct (Nat.eqb_spec i t) as [->|Hne].
      * replace (t <? S t) with true by lia. rewrite Nat.ltb_irrefl. destruct (Nat.eqb_spec j (at_ Q t)) as [->|]; [now rewrite Nat.ltb_irrefl|].
        destruct (Nat.leb_spec j t), (Nat.ltb_spec j (at_ Q t)); try lia; try easy. apply a7; lia.
      * destruct (Nat.ltb_spec i t), (Nat.ltb_spec i (S t)); try lia; reflexivity.
    + cbv beta. intros Ab Kb. cbn [wp]. pose proof (sh_becomes _ _ _ _ _ _ _ Ha Kb) as Hb.
      apply wp_bind. eapply wp_mono; [apply (zero_rows_ok Ab m n _ r Hb a1)|]. cbv beta. intros Ae Ke. cbn [wp].
      pose proof (sh_becomes _ _ _ _ _ _ _ Hb Ke) as He. destruct Hb as (_ & _ & D3 & D4 & _).
      assert (Ef : meq m n (ple_Ehat r (at_ Q) B) (sentry Ae)).
      { intros i j Hi Hj. destruct He as (_ & _ & _ & _ & He). rewrite He by easy. unfold ple_Ehat. now destruct (i <? r). }
      unfold sech_result. split; [|split].
      * eapply sb_step; [exact A1|eapply sb_step; [exact A1|exact Ka|exact Kb|intros; reflexivity]|exact Ke|].
        intros i c Hi Hcc. symmetry. apply (sb_entry _ _ _ _ _ Ke); lia.
      * eapply meq_row_equiv; [|exact Ef]. now apply (ple_row_equiv f Hirr Hf m n F B (at_ P)).
      * exists (at_ Q). split; [|discriminate]. eapply meq_echelon; [|exact Ef]. now apply (ple_echelon f Hirr Hf m n F B (at_ P)).
Qed.
End Ple.
