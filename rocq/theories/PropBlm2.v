(** C52, the kernel [_mzd_slice_mul_blm] with a target (src/mzd_slice.h:706-729, documented as C = A*B): with a compiled map, or
    none, the target is overwritten; with a map given by its matrices only, the product is added to the target. *)
From Coq Require Import NArith Lia List Bool Arith.
From Coq Require Import ZifyBool ZifyNat ZifyN.
From Verif Require Import Base Spec LinSpec PolyFacts MatFacts Gf2eModel Gf2eProofs IrrTable MzdModel MzedModel MzedSpec MzedProofs SliceModel SliceSpec MzdFacts SliceProofs SliceOps SliceMul ConvModel.
From Verif Require Import PolyMatModel PolyMatSpec PolyMatProofs PropPoly Demo PropSlice DjbModel DjbSpec BlmTable BlmModel BlmSpec BlmFacts BlmFG BlmInit BlmSpan BlmSched BlmOps BlmOpsProofs BlmOracle PropBlm.
Import ListNotations.
Local Open Scope nat_scope.

Theorem C52_mul_kernel : forall fuel x C A B f, m4ri_ok x -> wf_slice A -> wf_slice B -> wf_slice C -> sfld A = sfld B -> sl_ncols A = sl_nrows B ->
  sfld C = sfld A -> sl_nrows C = sl_nrows A -> sl_ncols C = sl_ncols B ->
  fits_map (sl_ff C) f -> sl_depth A * sl_depth A + sl_depth A <= fuel ->
  (match f with Some f => bl_f f <> None | None => True end) ->
  exists C', mzd_slice_mul_blm_ fuel x (Some C) A B f = Some (Ok C') /\ sbecomes C C' (mmul (sfld A) (sl_ncols A) (sentry A) (sentry B)).
Proof.
  intros fuel x C A B f Hx HA HB HC Ef En E1 E2 E3 Hf Hfuel Hc.
  destruct (proj1 (owp_iff _ _) (slice_mul_blm_in_ok fuel x (Some C) A B f Hx HA HB Ef En (conj HC (conj E1 (conj E2 E3))) Hf (fun _ => Hfuel) (or_intror Hc))) as (C' & E & _ & K).
  exists C'. split; assumption.
Qed.
Theorem C52_mul_kernel_refuted : forall fuel x C A B f, wf_slice A -> wf_slice B -> wf_slice C -> sfld A = sfld B -> sl_ncols A = sl_nrows B ->
  sfld C = sfld A -> sl_nrows C = sl_nrows A -> sl_ncols C = sl_ncols B -> fits_map (sl_ff C) (Some f) -> bl_f f = None ->
  exists C', mzd_slice_mul_blm_ fuel x (Some C) A B (Some f) = Some (Ok C') /\ sbecomes C C' (madd (sentry C) (mmul (sfld A) (sl_ncols A) (sentry A) (sentry B))).
Proof.
  intros fuel x C A B f HA HB D1 Ef En D2 D3 D4 Hf Hn. apply owp_iff. unfold mzd_slice_mul_blm_. cbn [sl_or_init]. assert (f0 := wfs_f0 A HA).
  pose proof (same_depth A B HA HB Ef) as Ed. pose proof (same_depth C A D1 HA D2) as Ed'. assert (De : sl_depth C = ff_degree (sl_ff C)) by apply D1.
  pose proof HA as (_ & _ & LA & _). pose proof HB as (_ & _ & LB & _). pose proof D1 as (GD & _ & LD & _). assert (Hdeg := wfs_depth A HA). cbv zeta.
  set (d := ff_degree (sl_ff C)) in *. apply owp_omap. cbn [owp wp]. destruct Hf as (HM & HU). fold d in HM.
  assert (RH : mzd_nrows (bl_H f) = d) by (destruct HM as (_ & _ & _ & _ & _ & _ & _ & RH & _); exact RH).
  apply wp_bind. eapply wp_mono; [apply (apply_blm_ok (Some (sl_ff C)) d d (sl_x C) (sl_x A) (sl_x B) f (sl_nrows A) (sl_ncols A) (sl_ncols B)); auto; try lia|].
  - now apply wf_fits.
  - rewrite <- D3, <- D4. now apply shape_slice.
  - now apply shape_slice.
  - rewrite En. now apply shape_slice.
  - cbv beta. intros X' H. cbn [wp]. apply lbec_slice; auto.
    + eapply (lbec_ext (sl_x C) X' _ _ (sl_nrows C) (sl_ncols C)); [now apply shape_slice|exact H|]. cbv beta. intros i c Hi Hc. rewrite pv_sentry by easy.
      unfold kept. rewrite Hn. unfold madd. f_equal.
      unfold mmul. apply xsum_ext. intros t Ht. cbn [redp]. rewrite D2, !pv_sentry by easy. reflexivity.
    + intros r' c Hr Hc. rewrite D2. unfold madd. apply inF_lxor.
      * rewrite <- D2. now apply sentry_in.
      * apply (inM_mmul _ (sl_nrows A) (sl_ncols A) (sl_ncols B)); auto; lia.
Qed.
Print Assumptions C52_mul_kernel.
Print Assumptions C52_mul_kernel_refuted.
(** such maps exist for every field: blm_init_crt without compilation *)
Theorem C52_uncompiled_reachable : forall x k, m4ri_ok x -> gf2e_wf k -> exists f,
  blm_init_crt (ff_degree k * ff_degree k + ff_degree k) x (Some k) (ff_degree k) (ff_degree k) (upd (repeat 0 17) (ff_degree k) 1) false = Some (Ok f) /\
  fits_map k (Some f) /\ bl_f f = None.
Proof.
  intros x k Hx Hk. pose proof Hk as (Hr & _).
  assert (Hd : 1 <= ff_degree k <= 16) by lia.
  destruct (C42_init_crt_one_modulus (ff_degree k * ff_degree k + ff_degree k) x (Some k) (ff_degree k) false Hx (wf_fits _ Hk) Hd (le_n _)) as (f & E & M & Hn).
  exists f. split; [exact E|]. split; [|exact Hn]. split; [exact M|now left].
Qed.
Print Assumptions C52_uncompiled_reachable.
