(** Products through bilinear maps. *)
From Coq Require Import NArith List Bool Arith Lia ZifyN ZifyNat ZifyBool.
From Verif Require Import Base Spec PolyFacts MatFacts LinSpec Gf2eModel Gf2eProofs IrrTable MzdModel MzedModel MzedSpec LaneFacts MzedProofs MzedOps MzedOps2 SliceModel SliceSpec MzdFacts SliceProofs SliceOps SliceMul KaraProofs ConvModel ConvSlice ConvCling.
From Verif Require Import PolyMatModel PolyMatSpec PolyMatProofs DjbModel DjbSpec BlmTable BlmModel BlmSpec BlmFacts BlmFG BlmFin BlmMult BlmApply BlmInit BlmSpan BlmSched BlmOps.
Import ListNotations.
Local Open Scope nat_scope.

(** the computation ends, without an error, in a state with P *)
Definition owp {T} (o : option (res T)) (P : T -> Prop) : Prop := match o with Some r => wp r P | None => False end.
Lemma owp_omap {T U} (o : option (res T)) (k : T -> res U) P : owp o (fun a => wp (k a) P) -> owp (omap o k) P.
Proof. destruct o as [r|]; [|easy]. cbn [owp omap]. apply wp_bind. Qed.
Lemma owp_orun {T U} (r : res T) (k : T -> option (res U)) P : wp r (fun a => owp (k a) P) -> owp (orun r k) P.
Proof. destruct r; easy. Qed.
Lemma owp_mono {T} (o : option (res T)) (P Q : T -> Prop) : owp o P -> (forall a, P a -> Q a) -> owp o Q.
Proof. destruct o; [|easy]. intros H1 H2. cbn [owp] in *. eapply wp_mono; eauto. Qed.
Lemma owp_iff {T} (o : option (res T)) P : owp o P <-> exists a, o = Some (Ok a) /\ P a.
Proof.
  destruct o as [[a| |]|]; cbn [owp wp]; split; try easy; try (intros (b & E & _); discriminate E).
  - intros H. now exists a.
  - intros (b & E & H). now injection E as ->.
Qed.
Lemma wf_fits k : gf2e_wf k -> ff_fits (Some k).
Proof. intros (H1 & H2 & _). cbn [ff_fits]. split; [lia|easy]. Qed.
Lemma one_modulus_covers d : 1 <= d <= 16 -> covers d d (one_modulus d).
Proof. intros Hd. right. exists d. unfold one_modulus. rewrite nth_upd_eq by (rewrite repeat_length; lia). lia. Qed.

(** maps that fit the field *)
Definition fits_map (k : gf2e) (f : option blm) : Prop := match f with None => True | Some f => multiplies (Some k) (ff_degree k) (ff_degree k) f /\ usable f end.
Theorem slice_mul_blm_in_ok fuel x C A B f : m4ri_ok x -> wf_slice A -> wf_slice B -> sfld A = sfld B -> sl_ncols A = sl_nrows B -> starget C (sfld A) (sl_nrows A) (sl_ncols B) ->
  fits_map (sl_ff (sl_or_init C (sl_ff A) (sl_nrows A) (sl_ncols B))) f -> (f = None -> sl_depth A * sl_depth A + sl_depth A <= fuel) ->
  (match C with Some C => (forall i c, i < sl_nrows C -> c < sl_ncols C -> sentry C i c = 0%N) \/ match f with Some f => bl_f f <> None | None => True end | None => True end) ->
  owp (mzd_slice_mul_blm_ fuel x C A B f) (fun C' => sholds C' (sfld A) (sl_nrows A) (sl_ncols B) (mmul (sfld A) (sl_ncols A) (sentry A) (sentry B)) /\
     match C with Some C => sbecomes C C' (mmul (sfld A) (sl_ncols A) (sentry A) (sentry B)) | None => True end).
Proof.
  intros Hx HA HB Ef En HC Hf Hfuel H0. unfold mzd_slice_mul_blm_. assert (Hk : gf2e_wf (sl_ff A)) by apply HA. assert (f0 := wfs_f0 A HA).
  pose proof (or_init_ok C _ _ _ _ Hk eq_refl HC) as K. set (D := sl_or_init _ _ _ _) in *. pose proof K as (D1 & D2 & D3 & D4 & D5).
  pose proof (same_depth A B HA HB Ef) as Ed. pose proof (same_depth D A D1 HA D2) as Ed'. assert (De : sl_depth D = ff_degree (sl_ff D)) by apply D1.
  pose proof HA as (_ & _ & LA & _). pose proof HB as (_ & _ & LB & _). pose proof D1 as (GD & _ & LD & _). assert (Hdeg := wfs_depth A HA). cbv zeta.
  set (d := ff_degree (sl_ff D)) in *.
  assert (FM : owp (match f with Some f => Some (Ok f) | None => if 16 <? d then Some Die else blm_init_crt fuel x (Some (sl_ff D)) d d (upd (repeat 0 17) d 1) true end)
     (fun f => multiplies (Some (sl_ff D)) d d f /\ usable f /\ (bl_f f <> None \/ forall i c, i < sl_nrows A -> c < sl_ncols B -> sentry D i c = 0%N))).
  { assert (Z0 : C = None -> forall i c, i < sl_nrows A -> c < sl_ncols B -> sentry D i c = 0%N) by (intros -> i c Hi Hc; now rewrite D5).
    destruct f as [f|].
    { cbn [owp wp]. destruct Hf as [Hf1 Hf2]. split; [exact Hf1|]. split; [exact Hf2|]. destruct C as [C|]; [|right; now apply Z0]. destruct H0 as [H0|H0]; [|now left].
      right. intros i c Hi Hc. rewrite D5 by easy. destruct HC as (_ & _ & C3 & C4). apply H0; lia. }
    replace (16 <? d) with false by lia. fold (one_modulus d).
    destruct (init_crt_total fuel x (Some (sl_ff D)) d d (one_modulus d) true Hx (wf_fits _ GD) ltac:(lia) (one_modulus_covers d ltac:(lia)) (one_modulus_terminates d ltac:(lia))) as (f & E & HM & HU).
    - specialize (Hfuel eq_refl). rewrite <- Ed', De in Hfuel. exact Hfuel.
    - rewrite E. cbn [owp wp]. split; [exact HM|]. split; [now right|]. left. destruct HU as (pf & pg & ph & Eu & _). rewrite Eu. discriminate. }
  apply owp_omap. eapply owp_mono; [exact FM|]. cbv beta. clear f Hf Hfuel FM H0. intros f (HM & HU & HZ).
  assert (RH : mzd_nrows (bl_H f) = d) by (destruct HM as (_ & _ & _ & _ & _ & _ & _ & RH & _); exact RH).
  assert (BD : wp (X <- ptr_apply_blm (sl_x D) (sl_x A) (sl_x B) f ;; Ok (sl_set_x D X)) (fun C' => sbecomes D C' (mmul (sfld A) (sl_ncols A) (sentry A) (sentry B)))).
  { apply wp_bind. eapply wp_mono; [apply (apply_blm_ok (Some (sl_ff D)) d d (sl_x D) (sl_x A) (sl_x B) f (sl_nrows A) (sl_ncols A) (sl_ncols B)); auto; try lia|].
    - now apply wf_fits.
    - rewrite <- D3, <- D4. now apply shape_slice.
    - now apply shape_slice.
    - rewrite En. now apply shape_slice.
    - cbv beta. intros X' H. cbn [wp]. apply lbec_slice; auto.
      + eapply (lbec_ext (sl_x D) X' _ _ (sl_nrows D) (sl_ncols D)); [now apply shape_slice|exact H|]. cbv beta. intros i c Hi Hc. rewrite pv_sentry by easy.
        replace (kept f (sentry D i c)) with 0%N.
        2:{ unfold kept. destruct HZ as [HZ|HZ].
            - destruct (bl_f f); [|now destruct HZ]. symmetry. apply high_small. rewrite RH, <- De. apply word_of_bits_lt.
            - rewrite HZ by lia. destruct (bl_f f); [unfold high; now rewrite N.shiftr_0_l, N.shiftl_0_l|easy]. }
        rewrite N.lxor_0_l.
        unfold mmul. apply xsum_ext. intros t Ht. cbn [redp]. rewrite D2, !pv_sentry by easy. reflexivity.
      + intros r' c Hr Hc. rewrite D2. apply (inM_mmul _ (sl_nrows A) (sl_ncols A) (sl_ncols B)); auto; lia. }
  eapply wp_mono; [exact BD|]. cbv beta. intros C' HC'. split; [exact (sh_becomes _ _ _ _ _ _ _ K HC')|]. destruct C; [exact HC'|exact I].
Qed.

Lemma starget_none f m n : starget None f m n. Proof. exact I. Qed.
Lemma fits_same k k' f : fits_map k f -> ff_minpoly k = ff_minpoly k' -> ff_degree k = ff_degree k' -> fits_map k' f.
Proof.
  intros H E1 E2. destruct f as [f|]; [|easy]. destruct H as [H1 H2]. split; [|easy]. rewrite <- E2. destruct H1 as (A1 & A2 & A3 & A4 & A5 & A6 & A7 & A8 & A9).
  unfold multiplies. repeat (split; [assumption|]). split; [now rewrite <- E2|]. intros a b Ha Hb. rewrite <- E1. now apply A9.
Qed.
Lemma fits_field A k f : wf_slice A -> gf2e_wf k -> ff_minpoly k = sfld A -> fits_map (sl_ff A) f -> fits_map k f.
Proof.
  intros HA Hk E H. apply (fits_same (sl_ff A)); auto. destruct Hk as (_ & D1 & _). assert (HA' : gf2e_wf (sl_ff A)) by apply HA. destruct HA' as (_ & D2 & _). rewrite E in D1. lia.
Qed.
Theorem slice_mul_blm_ok fuel x C A B f : m4ri_ok x -> wf_slice A -> wf_slice B -> sfld A = sfld B -> sl_ncols A = sl_nrows B -> starget C (sfld A) (sl_nrows A) (sl_ncols B) ->
  fits_map (sl_ff A) f -> (f = None -> sl_depth A * sl_depth A + sl_depth A <= fuel) ->
  owp (mzd_slice_mul_blm fuel x C A B f) (fun C' => sholds C' (sfld A) (sl_nrows A) (sl_ncols B) (mmul (sfld A) (sl_ncols A) (sentry A) (sentry B)) /\
     match C with Some C => sbecomes C C' (mmul (sfld A) (sl_ncols A) (sentry A) (sentry B)) | None => True end).
Proof.
  intros Hx HA HB Ef En HC Hf Hfuel. unfold mzd_slice_mul_blm. apply owp_orun. rewrite (proj2 (Nat.eqb_eq _ _) En), (proj2 (sl_same_ff_iff A B) Ef). cbn [andb check bind].
  destruct C as [C|].
  - pose proof HC as (C1 & C2 & C3 & C4). rewrite (proj2 (sl_same_ff_iff C A) C2), C3, C4, !Nat.eqb_refl. cbn [andb check bind].
    apply wp_bind. eapply wp_mono; [apply slice_set_ui_ok; [exact C1|]|].
    { unfold inF. apply N.neq_0_lt_0. now apply N.pow_nonzero. }
    cbv beta. intros C0 B0. cbn [wp]. pose proof B0 as (W0 & F0 & R0 & K0 & E0 & _).
    eapply owp_mono; [apply (slice_mul_blm_in_ok fuel x (Some C0) A B f); auto|].
    + split; [exact W0|]. rewrite F0, R0, K0. auto.
    + cbn [sl_or_init]. rewrite F0. apply (fits_field A); auto. apply C1.
    + left. intros i c Hi Hc. rewrite E0 by lia. now destruct (i =? c).
    + cbv beta. intros C' (K & Bc). split; [exact K|]. eapply sb_step; [exact C1|exact B0|exact Bc|]. intros i c Hi Hc. reflexivity.
  - cbn [wp]. eapply owp_mono; [apply (slice_mul_blm_in_ok fuel x None A B f); auto|]. cbv beta. auto.
Qed.
Theorem slice_addmul_blm_ok fuel x C A B f : m4ri_ok x -> wf_slice A -> wf_slice B -> wf_slice C -> sfld A = sfld B -> sl_ncols A = sl_nrows B -> sfld C = sfld A -> sl_nrows C = sl_nrows A -> sl_ncols C = sl_ncols B ->
  fits_map (sl_ff A) f -> (f = None -> sl_depth A * sl_depth A + sl_depth A <= fuel) ->
  owp (mzd_slice_addmul_blm fuel x (Some C) A B f) (fun C' => sbecomes C C' (madd (sentry C) (mmul (sfld A) (sl_ncols A) (sentry A) (sentry B)))).
Proof.
  intros Hx HA HB HC Ef En C2 C3 C4 Hf Hfuel. unfold mzd_slice_addmul_blm. apply owp_orun. rewrite (proj2 (Nat.eqb_eq _ _) En), (proj2 (sl_same_ff_iff A B) Ef). cbn [andb check bind].
  rewrite (proj2 (sl_same_ff_iff C A) C2), C3, C4, !Nat.eqb_refl. cbn [andb check wp].
  apply owp_omap. eapply owp_mono; [apply (slice_mul_blm_in_ok fuel x None A B f); auto; exact Logic.I|]. cbv beta. intros T HT. destruct HT as [HT _]. destruct HT as (T1 & T2 & T3 & T4 & T5).
  eapply wp_mono; [apply slice_add_ok; [exact HC|exact T1|congruence|congruence|congruence|]|].
  { cbn [starget]. auto. }
  cbv beta. intros C' (_ & HB'). eapply sb_ext; [exact HB'|]. intros i c Hi Hc. unfold madd. now rewrite T5 by lia.
Qed.
Theorem mzed_addmul_blm_in_ok fuel x C A B : m4ri_ok x -> wf_mzed A -> wf_mzed B -> fld A = fld B -> mz_ncols A = mz_nrows B -> target C (fld A) (mz_nrows A) (mz_ncols B) ->
  ff_degree (mz_ff A) * ff_degree (mz_ff A) + ff_degree (mz_ff A) <= fuel ->
  owp (mzed_addmul_blm_ fuel x C A B) (fun C' => holds C' (fld A) (mz_nrows A) (mz_ncols B)
     (madd (match C with Some C => entry C | None => mzero end) (mmul (fld A) (mz_ncols A) (entry A) (entry B))) /\
     match C with Some C => becomes C C' (madd (entry C) (mmul (fld A) (mz_ncols A) (entry A) (entry B))) | None => True end).
Proof.
  intros Hx HA HB Ef En HC Hfuel. unfold mzed_addmul_blm_. apply owp_orun.
  apply wp_bind. eapply wp_mono; [apply (mzed_slice_ok None A HA Logic.I)|]. cbv beta. intros As (KA & _). pose proof KA as (A1 & A2 & A3 & A4 & A5).
  apply wp_bind. eapply wp_mono; [apply (mzed_slice_ok None B HB Logic.I)|]. cbv beta. intros Bs (KB & _). pose proof KB as (B1 & B2 & B3 & B4 & B5). cbn [wp fst snd].
  assert (Hd : sl_depth As = ff_degree (mz_ff A)). { pose proof (wfs_deg As A1) as Q. rewrite A2 in Q. destruct HA as ((_ & Dg & _) & _). lia. }
  apply owp_omap. eapply owp_mono; [apply (slice_mul_blm_in_ok fuel x None As Bs None); auto; [congruence|congruence|exact Logic.I|exact Logic.I|intros _; now rewrite Hd]|].
  cbv beta. intros Ds (KD & _). rewrite A2, A3, A4, B4 in KD. pose proof KD as (D1 & D2 & D3 & D4 & D5).
  assert (E : meq (mz_nrows A) (mz_ncols B) (sentry Ds) (mmul (fld A) (mz_ncols A) (entry A) (entry B))).
  { intros i j Hi Hj. rewrite D5 by easy.
    apply (mmul_ext (fld A) (mz_ncols A) _ _ _ _ (mz_nrows A) (mz_ncols B)); [intros a b Ha Hb; now apply A5|intros a b Ha Hb; apply B5; lia|exact Hi|exact Hj]. }
  apply wp_bind. eapply wp_mono; [apply mzed_cling_ok; [exact D1| |exact Logic.I]|].
  - pose proof (wfs_deg Ds D1) as Q. rewrite D2 in Q. destruct HA as ((_ & Dg & _) & Ww & _). destruct (degree_to_w_facts _ _ Ww) as (_ & _ & H2). lia.
  - cbv beta. rewrite D2, D3, D4. intros T ((H1 & H2 & H3 & H4 & H5) & _). destruct C as [C|].
    + destruct HC as (C1 & C2 & C3 & C4). eapply wp_mono; [apply (mzed_add_ok (Some C) C T); [exact C1|exact H1|congruence|congruence|congruence|]|].
      { cbn [target]. auto. }
      cbv beta. intros C' (K & Bc). specialize (Bc C eq_refl). rewrite C2, C3, C4 in K.
      assert (E' : meq (mz_nrows A) (mz_ncols B) (madd (entry C) (entry T)) (madd (entry C) (mmul (fld A) (mz_ncols A) (entry A) (entry B)))).
      { intros i j Hi Hj. unfold madd. f_equal. rewrite H5 by easy. now apply E. }
      split.
      * destruct K as (K1 & K2 & K3 & K4 & K5). split; [exact K1|]. split; [exact K2|]. split; [exact K3|]. split; [exact K4|]. intros i c Hi Hc. rewrite K5 by easy. now apply E'.
      * eapply becomes_ext; [exact Bc|]. rewrite C3, C4. exact E'.
    + cbn [wp]. split; [|exact Logic.I]. split; [exact H1|]. split; [exact H2|]. split; [exact H3|]. split; [exact H4|]. intros i c Hi Hc. rewrite H5 by easy. unfold madd, mzero. rewrite N.lxor_0_l. now apply E.
Qed.
Theorem mzed_mul_blm_ok fuel x C A B : m4ri_ok x -> wf_mzed A -> wf_mzed B -> fld A = fld B -> mz_ncols A = mz_nrows B -> target C (fld A) (mz_nrows A) (mz_ncols B) ->
  ff_degree (mz_ff A) * ff_degree (mz_ff A) + ff_degree (mz_ff A) <= fuel ->
  owp (mzed_mul_blm fuel x C A B) (fun C' => holds C' (fld A) (mz_nrows A) (mz_ncols B) (mmul (fld A) (mz_ncols A) (entry A) (entry B)) /\
     match C with Some C => becomes C C' (mmul (fld A) (mz_ncols A) (entry A) (entry B)) | None => True end).
Proof.
  intros Hx HA HB Ef En HC Hfuel. unfold mzed_mul_blm. apply owp_orun. rewrite (proj2 (Nat.eqb_eq _ _) En), (proj2 (same_ff_iff A B) Ef). cbn [andb check bind].
  destruct C as [C|].
  - pose proof HC as (C1 & C2 & C3 & C4). rewrite (proj2 (same_ff_iff C A) C2), C3, C4, !Nat.eqb_refl. cbn [andb check bind].
    apply wp_bind. eapply wp_mono; [apply mzed_set_ui_ok; [exact C1|]|].
    { unfold inF. apply N.neq_0_lt_0. now apply N.pow_nonzero. }
    cbv beta. intros C0 B0. cbn [wp]. pose proof (becomes_wf _ _ _ B0). pose proof (becomes_nr _ _ _ B0). pose proof (becomes_nc _ _ _ B0). pose proof (becomes_ff _ _ _ B0) as E4.
    eapply owp_mono; [apply (mzed_addmul_blm_in_ok fuel x (Some C0)); auto; split; [assumption|]; rewrite E4; repeat split; congruence|].
    cbv beta. intros C' (K & Bc).
    assert (E : meq (mz_nrows A) (mz_ncols B) (madd (entry C0) (mmul (fld A) (mz_ncols A) (entry A) (entry B))) (mmul (fld A) (mz_ncols A) (entry A) (entry B))).
    { intros i j Hi Hj. unfold madd. rewrite (becomes_entry _ _ _ _ _ B0) by lia. destruct (i =? j); apply N.lxor_0_l. }
    split.
    + destruct K as (K1 & K2 & K3 & K4 & K5). split; [exact K1|]. repeat split; auto. intros i c Hi Hc. rewrite K5 by easy. now apply E.
    + eapply becomes_step; [exact B0|exact Bc|]. rewrite C3, C4. exact E.
  - cbn [wp]. eapply owp_mono; [apply (mzed_addmul_blm_in_ok fuel x None); auto|]. cbv beta. intros C' ((K1 & K2 & K3 & K4 & K5) & _). split; [|exact Logic.I].
    split; [exact K1|]. repeat split; auto.
Qed.
Theorem mzed_addmul_blm_ok fuel x C A B : m4ri_ok x -> wf_mzed A -> wf_mzed B -> wf_mzed C -> fld A = fld B -> mz_ncols A = mz_nrows B -> fld C = fld A -> mz_nrows C = mz_nrows A -> mz_ncols C = mz_ncols B ->
  ff_degree (mz_ff A) * ff_degree (mz_ff A) + ff_degree (mz_ff A) <= fuel ->
  owp (mzed_addmul_blm fuel x (Some C) A B) (fun C' => becomes C C' (madd (entry C) (mmul (fld A) (mz_ncols A) (entry A) (entry B)))).
Proof.
  intros Hx HA HB HC Ef En E1 E2 E3 Hfuel. unfold mzed_addmul_blm. apply owp_orun. rewrite (proj2 (Nat.eqb_eq _ _) En), (proj2 (same_ff_iff A B) Ef). cbn [andb check bind].
  rewrite (proj2 (same_ff_iff C A) E1), E2, E3, !Nat.eqb_refl. cbn [andb check wp].
  eapply owp_mono; [apply (mzed_addmul_blm_in_ok fuel x (Some C)); auto; exact (conj HC (conj E1 (conj E2 E3)))|]. cbv beta. intros C' (_ & B'). exact B'.
Qed.

(** ** matrices of polynomials *)
Lemma high_lt d v n : (v < 2 ^ N.of_nat n)%N -> (high d v < 2 ^ N.of_nat n)%N.
Proof.
  intros H. apply lt_pow2_bits. intros b Hb. rewrite <- (N2Nat.id b), high_bit. apply andb_false_intro2. apply (proj1 (lt_pow2_bits _ _) H). lia.
Qed.
Theorem poly_addmul_blm_ok C A B f : wf_mpoly A -> wf_mpoly B -> mp_ncols A = mp_nrows B -> 1 <= mp_depth A -> 1 <= mp_depth B -> ptarget C A B ->
  multiplies None (mp_depth A) (mp_depth B) f -> usable f ->
  wp (mzd_poly_addmul_blm C A B f) (fun C' => pbecomes (mp_or_init C A B) C' (fun i c => N.lxor (kept f (pold C i c)) (pmmul (mp_ncols A) (pentry A) (pentry B) i c))).
Proof.
  intros HA HB En DA DB HC HM HU. pose proof HM as (_ & _ & _ & CF & CG & _ & _ & RH & _).
  unfold mzd_poly_addmul_blm. rewrite CF, CG, !Nat.eqb_refl. cbn [andb guard bind]. cbv zeta.
  destruct (or_init_poly C A B HA HB HC) as (W & N1 & N2 & Dd & Ep). set (D := mp_or_init C A B) in *.
  pose proof HA as (LA & _). pose proof HB as (LB & _). pose proof W as (LD & _).
  apply wp_bind. eapply wp_mono; [apply (apply_blm_ok None (mp_depth A) (mp_depth B) (mp_x D) (mp_x A) (mp_x B) f (mp_nrows A) (mp_ncols A) (mp_ncols B)); auto; try lia|].
  - exact Logic.I.
  - rewrite <- N1, <- N2. now apply wfp_shape.
  - now apply wfp_shape.
  - rewrite En. now apply wfp_shape.
  - cbv beta. intros X HX. cbn [wp]. apply lbec_pbec; [exact W| |].
    + eapply (lbec_ext (mp_x D) X _ _ (mp_nrows D) (mp_ncols D)); [now apply wfp_shape|exact HX|]. cbv beta. intros i c Hi Hc. rewrite <- pentry_pv. rewrite Ep by lia. f_equal. unfold pmmul.
      apply xsum_ext. intros t Ht. cbn [redp]. now rewrite !pentry_pv.
    + intros i c Hi Hc. apply lxor_lt.
      * rewrite <- Ep by lia. pose proof (pentry_lt D i c W) as Hl. unfold kept. destruct (bl_f f); [now apply high_lt|exact Hl].
      * eapply N.lt_le_trans; [now apply pmmul_lt|]. apply N.pow_le_mono_r; lia.
Qed.
