(** Properties C42 (construction of bilinear maps), C43 (crt_init), C44 (products of matrices of polynomials by Chinese
    remaindering), C52 (products through bilinear maps), C53 (products of matrices of polynomials through a given map):
    src/blm.c and its callers. *)
From Coq Require Import NArith Lia List Bool Arith.
From Coq Require Import ZifyBool ZifyNat ZifyN.
From Verif Require Import Base Spec LinSpec PolyFacts MatFacts Gf2eModel Gf2eProofs IrrTable MzdModel MzedModel MzedSpec MzedProofs SliceModel SliceSpec MzdFacts SliceProofs SliceOps ConvModel.
From Verif Require Import PolyMatModel PolyMatSpec PolyMatProofs PropPoly Demo PropSlice DjbModel DjbSpec BlmTable BlmModel BlmSpec BlmFacts BlmFG BlmInit BlmSpan BlmSched BlmOps BlmOpsProofs BlmOracle.
Import ListNotations.
Local Open Scope nat_scope.

(** ** C52.  x stands for the routines of M4RI of which only the specification is used (BlmSpec.v), fuel bounds the number of
    iterations of the loop in _blm_finish_polymult.  f: the map given by the caller, or NULL. *)
Theorem C52_slice_mul : forall fuel x C A B f, m4ri_ok x -> wf_slice A -> wf_slice B -> sfld A = sfld B -> sl_ncols A = sl_nrows B ->
  starget C (sfld A) (sl_nrows A) (sl_ncols B) -> fits_map (sl_ff A) f -> sl_depth A * sl_depth A + sl_depth A <= fuel ->
  exists C', mzd_slice_mul_blm fuel x C A B f = Some (Ok C') /\
    sholds C' (sfld A) (sl_nrows A) (sl_ncols B) (mmul (sfld A) (sl_ncols A) (sentry A) (sentry B)) /\
    match C with Some C => sbecomes C C' (mmul (sfld A) (sl_ncols A) (sentry A) (sentry B)) | None => True end.
Proof. intros. apply owp_iff. apply slice_mul_blm_ok; auto. Qed.
Theorem C52_slice_addmul : forall fuel x C A B f, m4ri_ok x -> wf_slice A -> wf_slice B -> wf_slice C -> sfld A = sfld B -> sl_ncols A = sl_nrows B ->
  sfld C = sfld A -> sl_nrows C = sl_nrows A -> sl_ncols C = sl_ncols B -> fits_map (sl_ff A) f -> sl_depth A * sl_depth A + sl_depth A <= fuel ->
  exists C', mzd_slice_addmul_blm fuel x (Some C) A B f = Some (Ok C') /\
    sbecomes C C' (madd (sentry C) (mmul (sfld A) (sl_ncols A) (sentry A) (sentry B))).
Proof. intros. apply owp_iff. apply slice_addmul_blm_ok; auto. Qed.
Theorem C52_mzed_mul : forall fuel x C A B, m4ri_ok x -> wf_mzed A -> wf_mzed B -> fld A = fld B -> mz_ncols A = mz_nrows B -> target C (fld A) (mz_nrows A) (mz_ncols B) ->
  ff_degree (mz_ff A) * ff_degree (mz_ff A) + ff_degree (mz_ff A) <= fuel ->
  exists C', mzed_mul_blm fuel x C A B = Some (Ok C') /\
    holds C' (fld A) (mz_nrows A) (mz_ncols B) (mmul (fld A) (mz_ncols A) (entry A) (entry B)) /\
    match C with Some C => becomes C C' (mmul (fld A) (mz_ncols A) (entry A) (entry B)) | None => True end.
Proof. intros. apply owp_iff. now apply mzed_mul_blm_ok. Qed.
Theorem C52_mzed_addmul : forall fuel x C A B, m4ri_ok x -> wf_mzed A -> wf_mzed B -> wf_mzed C -> fld A = fld B -> mz_ncols A = mz_nrows B ->
  fld C = fld A -> mz_nrows C = mz_nrows A -> mz_ncols C = mz_ncols B ->
  ff_degree (mz_ff A) * ff_degree (mz_ff A) + ff_degree (mz_ff A) <= fuel ->
  exists C', mzed_addmul_blm fuel x (Some C) A B = Some (Ok C') /\ becomes C C' (madd (entry C) (mmul (fld A) (mz_ncols A) (entry A) (entry B))).
Proof. intros. apply owp_iff. now apply mzed_addmul_blm_ok. Qed.

(** ** C43, C42 *)
(** crt_init: a scheme that suffices and is cheaper than the school method, or none *)
Theorem C43_crt_init : forall f g, (N.of_nat (f + g) <= 130487)%N ->
  exists p, crt_init f g = Ok p /\
   (p = repeat 0 17 \/
    (length p = 17 /\ nth 0 p 0 <= 7 /\ (forall d, 1 <= d <= 16 -> nth d p 0 <= n_irr d) /\ f + g - 1 <= scheme_degree p /\ scheme_cost p < f * g)).
Proof.
  intros f g Hfg. pose proof (crt_init_ok f g) as H. pose proof dtot_value as Hd. destruct (crt_init f g) as [p| |]; [|easy|lia].
  exists p. split; [reflexivity|]. destruct H as [H|H]; [now left|right]. destruct H as (H1 & H2 & H3 & H4 & H5). repeat split; auto; lia.
Qed.
(** "Find a list of co-prime polynomials p_i such that deg(prod(p_i)) >= f_len+g_len-1" (blm.h): not when nothing beats the
    school method *)
Theorem C43_crt_init_refuted : ~ (forall f g, 1 <= f <= g -> exists p, crt_init f g = Ok p /\ f + g - 1 <= scheme_degree p).
Proof. intros H. destruct (H 1 5 ltac:(lia)) as (p & E & Hp). vm_compute in E. injection E as <-. vm_compute in Hp. lia. Qed.
(** and the number of points at infinity can exceed the number of coefficients of the shorter factor: no map is built from it *)
Theorem C43_crt_infinity_refuted : ~ (forall f g, 1 <= f <= g -> exists p, crt_init f g = Ok p /\ (exists FG, crt_FG f g p = Ok FG)).
Proof. intros H. destruct (H 3 24 ltac:(lia)) as (p & E & FG & E2). vm_compute in E. injection E as <-. vm_compute in E2. discriminate E2. Qed.
(** every map that blm_init_crt returns multiplies: for every scheme that suffices, every field, with and without programs *)
Theorem C42_init_crt_correct : forall fuel x ff nf ng p djb, m4ri_ok x -> ff_fits ff -> 1 <= nf <= ng -> scheme p -> nth 0 p 0 <= nf -> covers nf ng p ->
  forall r, blm_init_crt fuel x ff nf ng p djb = Some r ->
  exists f, r = Ok f /\ multiplies ff nf ng f /\ (if djb then compiled f else bl_f f = None).
Proof.
  intros fuel x ff nf ng p djb Hx Hff Hn Hs H0 Hc r E. destruct (init_crt_safe fuel x ff nf ng p djb Hx Hff Hn Hc Hs H0 r E) as (f & -> & HM & HD).
  exists f. split; [easy|]. split; [exact HM|]. destruct djb; [exact HD|apply HD].
Qed.
(** and it does return one for a single modulus that is large enough, the scheme used for products over GF(2^d) *)
Theorem C42_init_crt_one_modulus : forall fuel x ff d djb, m4ri_ok x -> ff_fits ff -> 1 <= d <= 16 -> d * d + d <= fuel ->
  exists f, blm_init_crt fuel x ff d d (upd (repeat 0 17) d 1) djb = Some (Ok f) /\ multiplies ff d d f /\ (if djb then compiled f else bl_f f = None).
Proof.
  intros fuel x ff d djb Hx Hff Hd Hfuel. destruct (init_crt_total fuel x ff d d (one_modulus d) djb Hx Hff ltac:(lia) (one_modulus_covers d Hd) (one_modulus_terminates d Hd) Hfuel) as (f & E & HM & HD).
  exists f. split; [exact E|]. split; [exact HM|]. destruct djb; [exact HD|apply HD].
Qed.
Lemma crt_class0 nf ng : 1 <= nf <= ng -> ng <= 16 -> crt_class nf ng = 0 -> exists p, crt_init nf ng = Ok p /\ covers nf ng p /\ terminates nf ng p.
Proof.
  intros Hn Hg H0. destruct (code_of_0 _ _ (eq_trans (crt_class_ok nf ng Hn Hg) H0)) as (p & Ep & Hz & Hs). exists p. split; [exact Ep|].
  pose proof (crt_init_ok nf ng) as HI. rewrite Ep in HI. destruct HI as [HI|HI]; [contradiction|]. split; [left; apply HI|]. apply (status_spanning nf ng (orth nf ng)); [|lia|exact Hs]. destruct HI as (H1 & H2 & H3 & _). split; [exact H1|]. split; [lia|exact H3].
Qed.
Lemma crt_class1 nf ng : 1 <= nf <= ng -> ng <= 16 -> crt_class nf ng = 1 -> exists p, crt_init nf ng = Ok p /\ diverges nf ng p.
Proof.
  intros Hn Hg H0. destruct (code_of_1 _ _ (eq_trans (crt_class_ok nf ng Hn Hg) H0)) as (p & Ep & Hz & Hs). exists p. split; [exact Ep|].
  pose proof (crt_init_ok nf ng) as HI. rewrite Ep in HI. destruct HI as [HI|HI]; [contradiction|]. apply (status_stuck nf ng (orth nf ng)); [|lia|exact Hs]. destruct HI as (H1 & H2 & H3 & _). split; [exact H1|]. split; [lia|exact H3].
Qed.
(** crt_init followed by blm_init_crt, for polynomials with at most 16 coefficients: when it ends, and when it does not *)
Theorem C42_init_crt_ends : forall fuel x ff nf ng djb, m4ri_ok x -> ff_fits ff -> 1 <= nf <= ng -> ng <= 16 -> crt_class nf ng = 0 -> nf * ng + ng <= fuel ->
  exists p f, crt_init nf ng = Ok p /\ blm_init_crt fuel x ff nf ng p djb = Some (Ok f) /\ multiplies ff nf ng f /\ (if djb then compiled f else bl_f f = None).
Proof.
  intros fuel x ff nf ng djb Hx Hff Hn Hg H0 Hfuel. destruct (crt_class0 nf ng Hn Hg H0) as (p & Ep & Hc & Ht).
  destruct (init_crt_total fuel x ff nf ng p djb Hx Hff Hn Hc Ht Hfuel) as (f & E & HM & HD). exists p, f. split; [exact Ep|]. split; [exact E|]. split; [exact HM|]. destruct djb; [exact HD|apply HD].
Qed.
Theorem C42_init_crt_hangs : forall x ff nf ng djb, m4ri_ok x -> 1 <= nf <= ng -> ng <= 16 -> crt_class nf ng = 1 ->
  exists p, crt_init nf ng = Ok p /\ forall fuel, blm_init_crt fuel x ff nf ng p djb = None.
Proof.
  intros x ff nf ng djb Hx Hn Hg H1. destruct (crt_class1 nf ng Hn Hg H1) as (p & Ep & Hd). exists p. split; [exact Ep|]. intros fuel. now apply init_crt_diverges.
Qed.
(** in particular a scheme that suffices need not lead to a map *)
Theorem C42_init_crt_total_refuted :
  ~ (forall x nf ng p djb, m4ri_ok x -> 1 <= nf <= ng -> scheme p -> nth 0 p 0 <= nf -> nf + ng - 1 <= scheme_degree p -> exists fuel f, blm_init_crt fuel x None nf ng p djb = Some (Ok f)).
Proof.
  intros H. destruct (C42_init_crt_hangs x0 None 4 4 true x0_ok ltac:(lia) ltac:(lia) eq_refl) as (p & Ep & Hd). vm_compute in Ep. injection Ep as <-.
  match type of Hd with forall fuel, blm_init_crt fuel _ _ _ _ ?q _ = None => destruct (H x0 4 4 q true x0_ok ltac:(lia)) as (fuel & f & E) end.
  - split; [reflexivity|]. split; [cbn; lia|]. intros d Hd'. do 17 (destruct d as [|d]; [vm_compute; lia|]). lia.
  - cbn. lia.
  - vm_compute. lia.
  - rewrite Hd in E. discriminate E.
Qed.

(** ** C53, C44 *)
(** a given map: what was in the target is kept (matrices) or overwritten (programs) *)
Theorem C53_poly_blm : forall C A B f, wf_mpoly A -> wf_mpoly B -> mp_ncols A = mp_nrows B -> 1 <= mp_depth A -> 1 <= mp_depth B -> ptarget C A B ->
  multiplies None (mp_depth A) (mp_depth B) f -> usable f ->
  exists C', mzd_poly_addmul_blm C A B f = Ok C' /\
   pbecomes (mp_or_init C A B) C' (fun i c => N.lxor (kept f (pold C i c)) (pmmul (mp_ncols A) (pentry A) (pentry B) i c)).
Proof. intros. apply wp_iff. now apply poly_addmul_blm_ok. Qed.
Theorem C53_poly_blm_matrices : forall C A B f, wf_mpoly A -> wf_mpoly B -> mp_ncols A = mp_nrows B -> 1 <= mp_depth A -> 1 <= mp_depth B -> ptarget C A B ->
  multiplies None (mp_depth A) (mp_depth B) f -> bl_f f = None -> exists C', mzd_poly_addmul_blm C A B f = Ok C' /\ padds C A B C'.
Proof.
  intros C A B f HA HB En DA DB HC HM Hf. destruct (C53_poly_blm C A B f HA HB En DA DB HC HM (or_introl Hf)) as (C' & E & H). exists C'. split; [exact E|].
  unfold padds. unfold kept in H. now rewrite Hf in H.
Qed.
Theorem C44_poly_crt : forall fuel x C A B, m4ri_ok x -> wf_mpoly A -> wf_mpoly B -> mp_ncols A = mp_nrows B -> 1 <= mp_depth A <= mp_depth B -> mp_depth B <= 16 ->
  crt_class (mp_depth A) (mp_depth B) = 0 -> ptarget C A B -> mp_depth A * mp_depth B + mp_depth B <= fuel ->
  exists C', mzd_poly_addmul_crt fuel x C A B = Some (Ok (match C with Some _ => Some C' | None => None end)) /\
   pbecomes (mp_or_init C A B) C' (fun i c => N.lxor (high (mp_depth A + mp_depth B - 1) (pold C i c)) (pmmul (mp_ncols A) (pentry A) (pentry B) i c)).
Proof.
  intros fuel x C A B Hx HA HB En Hd Hg H0 HC Hfuel. destruct (C42_init_crt_ends fuel x None (mp_depth A) (mp_depth B) true Hx Logic.I Hd Hg H0 Hfuel) as (p & f & Ep & Ef & HM & HD).
  destruct (C53_poly_blm C A B f HA HB En ltac:(lia) ltac:(lia) HC HM (or_intror HD)) as (C' & E & Hb). exists C'. unfold mzd_poly_addmul_crt. rewrite Ep. cbn [orun]. rewrite Ef. cbn [omap bind]. rewrite E. cbn [bind].
  split; [reflexivity|]. destruct HD as (pf & _ & _ & Hpf & _). unfold kept in Hb. rewrite Hpf in Hb. destruct HM as (_ & _ & _ & _ & _ & _ & _ & RH & _). now rewrite RH in Hb.
Qed.
Theorem C44_poly_crt_hangs : forall fuel x C A B, m4ri_ok x -> 1 <= mp_depth A <= mp_depth B -> mp_depth B <= 16 ->
  crt_class (mp_depth A) (mp_depth B) = 1 -> mzd_poly_addmul_crt fuel x C A B = None.
Proof.
  intros fuel x C A B Hx Hd Hg H1. destruct (C42_init_crt_hangs x None (mp_depth A) (mp_depth B) true Hx Hd Hg H1) as (p & Ep & Hh). unfold mzd_poly_addmul_crt. rewrite Ep. cbn [orun]. now rewrite Hh.
Qed.
(** "C += A*B" (mzd_poly.h): refuted in four ways.  With programs, and so with Chinese remaindering, C is overwritten *)
Definition demo_map (djb : bool) : blm := match blm_init_crt 100 x0 None 2 2 (one_modulus 2) djb with Some (Ok f) => f | _ => Blm (mzd_init 0 0) (mzd_init 0 0) (mzd_init 0 0) None None None end.
Lemma demo_map_ok djb : multiplies None 2 2 (demo_map djb) /\ usable (demo_map djb).
Proof.
  destruct (C42_init_crt_one_modulus 100 x0 None 2 djb x0_ok Logic.I ltac:(lia) ltac:(lia)) as (f & E & HM & HD). unfold demo_map, one_modulus. rewrite E. split; [exact HM|]. destruct djb; [now right|now left].
Qed.
Definition ones_poly (d : nat) : mpoly := Mpoly 1 1 d d (repeat (mzd_build (mzd_init 1 1) (fun _ _ => true)) d).
Lemma ones_wf d : wf_mpoly (ones_poly d).
Proof.
  split; [cbn [ones_poly mp_x mp_depth]; apply repeat_length|]. split; [cbn; lia|]. intros M HM. cbn [ones_poly mp_x] in HM. apply repeat_spec in HM. subst M.
  pose proof (mset_build (mzd_init 1 1) (fun _ _ => true) (wf_init 1 1)) as (W & R1 & R2 & _). split; [exact W|]. split; [exact R1|exact R2].
Qed.
Theorem C53_poly_blm_refuted :
  ~ (forall C A B f, wf_mpoly A -> wf_mpoly B -> mp_ncols A = mp_nrows B -> 1 <= mp_depth A -> 1 <= mp_depth B -> ptarget C A B ->
       multiplies None (mp_depth A) (mp_depth B) f -> usable f -> exists C', mzd_poly_addmul_blm C A B f = Ok C' /\ padds C A B C').
Proof.
  intros H. destruct (demo_map_ok true) as (HM & HU).
  destruct (H (Some (ones_poly 3)) (mzd_poly_init 1 1 1) (mzd_poly_init 1 1 1) (demo_map true)) as (C' & E & Hp); auto; try apply init_wf; try (cbn; lia).
  - split; [apply ones_wf|]. cbn. repeat split; lia.
  - destruct Hp as (_ & _ & _ & _ & _ & Hp & _). specialize (Hp 0 0 ltac:(cbn; lia) ltac:(cbn; lia)). vm_compute in E. injection E as <-. vm_compute in Hp. discriminate Hp.
Qed.
(** without a target the product is lost *)
Theorem C44_poly_crt_null_refuted :
  ~ (forall x A B, m4ri_ok x -> wf_mpoly A -> wf_mpoly B -> mp_ncols A = mp_nrows B -> 1 <= mp_depth A <= mp_depth B ->
       forall fuel r, mzd_poly_addmul_crt fuel x None A B = Some (Ok r) -> exists C', r = Some C').
Proof.
  intros H. destruct (C44_poly_crt 100 x0 None (ones_poly 2) (ones_poly 2) x0_ok (ones_wf 2) (ones_wf 2) eq_refl ltac:(cbn; lia) ltac:(cbn; lia) eq_refl Logic.I ltac:(cbn; lia)) as (C' & E & _).
  destruct (H x0 (ones_poly 2) (ones_poly 2) x0_ok (ones_wf 2) (ones_wf 2) eq_refl ltac:(cbn; lia) 100 None E) as (C & Hc). discriminate Hc.
Qed.
(** for some numbers of coefficients the call does not end, for others (here one coefficient each) the product is not computed,
    for others (the second factor shorter) it reads out of bounds *)
Theorem C44_poly_crt_total_refuted :
  ~ (forall x C A B, m4ri_ok x -> wf_mpoly A -> wf_mpoly B -> mp_ncols A = mp_nrows B -> 1 <= mp_depth A <= mp_depth B -> ptarget C A B ->
       exists fuel r, mzd_poly_addmul_crt fuel x C A B = Some r).
Proof.
  intros H. destruct (H x0 None (ones_poly 4) (ones_poly 4) x0_ok (ones_wf 4) (ones_wf 4) eq_refl ltac:(cbn; lia) Logic.I) as (fuel & r & E).
  rewrite (C44_poly_crt_hangs fuel x0 None (ones_poly 4) (ones_poly 4) x0_ok) in E; [discriminate E|cbn; lia|cbn; lia|reflexivity].
Qed.
Theorem C44_poly_crt_product_refuted :
  ~ (forall x C A B, m4ri_ok x -> wf_mpoly A -> wf_mpoly B -> mp_ncols A = mp_nrows B -> 1 <= mp_depth A <= mp_depth B -> ptarget (Some C) A B ->
       forall fuel C', mzd_poly_addmul_crt fuel x (Some C) A B = Some (Ok (Some C')) ->
       forall i c, i < mp_nrows A -> c < mp_ncols B -> N.testbit (pentry C' i c) 0 = N.testbit (pmmul (mp_ncols A) (pentry A) (pentry B) i c) 0).
Proof.
  intros H. assert (E : mzd_poly_addmul_crt 100 x0 (Some (mzd_poly_init 0 1 1)) (ones_poly 1) (ones_poly 1) = Some (Ok (Some (mzd_poly_init 0 1 1)))) by (vm_compute; reflexivity).
  specialize (fun HC => H x0 (mzd_poly_init 0 1 1) (ones_poly 1) (ones_poly 1) x0_ok (ones_wf 1) (ones_wf 1) eq_refl ltac:(cbn; lia) HC 100 _ E 0 0 ltac:(cbn; lia) ltac:(cbn; lia)).
  assert (HC : ptarget (Some (mzd_poly_init 0 1 1)) (ones_poly 1) (ones_poly 1)) by (split; [apply init_wf|cbn; repeat split; lia]). specialize (H HC). vm_compute in H. discriminate H.
Qed.
Theorem C44_poly_crt_bounds_refuted :
  ~ (forall x C A B, m4ri_ok x -> wf_mpoly A -> wf_mpoly B -> mp_ncols A = mp_nrows B -> 1 <= mp_depth A -> 1 <= mp_depth B -> ptarget C A B ->
       forall fuel, mzd_poly_addmul_crt fuel x C A B <> Some UB).
Proof.
  intros H. apply (H x0 None (ones_poly 3) (ones_poly 2) x0_ok (ones_wf 3) (ones_wf 2) eq_refl ltac:(cbn; lia) ltac:(cbn; lia) Logic.I 100). vm_compute. reflexivity.
Qed.

Print Assumptions C52_slice_mul.
Print Assumptions C52_slice_addmul.
Print Assumptions C52_mzed_mul.
Print Assumptions C52_mzed_addmul.
Print Assumptions C43_crt_init.
Print Assumptions C42_init_crt_correct.
Print Assumptions C42_init_crt_one_modulus.
Print Assumptions C42_init_crt_ends.
Print Assumptions C42_init_crt_hangs.
Print Assumptions C53_poly_blm.
Print Assumptions C44_poly_crt.

(** concrete instances; the hypothesis on M4RI is met by x0 *)
Example C52_hypothesis : m4ri_ok x0. Proof. exact x0_ok. Qed.
Example C44_witness :
  (A <- demo_poly 2 2 2 (fun i c => N.of_nat (3 * i + 2 * c + 1)) ;; B <- demo_poly 2 2 2 (fun i c => N.of_nat (7 - i - 2 * c)) ;;
   C1 <- mzd_poly_addmul_naive None A B ;;
   match mzd_poly_addmul_crt 1000 x0 (Some (mzd_poly_init (mp_depth C1 - 1) 2 2)) A B with Some (Ok (Some C2)) => Ok (rows_of C1, rows_of C2) | _ => UB end) =
  Ok ([[13; 9]; [8; 12]]%N, [[13; 9]; [8; 12]]%N).
Proof. vm_compute. reflexivity. Qed.
Example C52_witness :
  (A <- mk 0x13 2 3 (noise 3 1) ;; B <- mk 0x13 3 2 (noise 5 2) ;;
   match mzed_mul_blm 1000 x0 None A B with
   | Some (Ok C) => match mzed_addmul_blm 1000 x0 (Some C) A B with Some (Ok D) => Ok (to_rows A, to_rows B, to_rows C, to_rows D) | _ => UB end
   | _ => UB
   end) =
  Ok ([[1; 2; 3]; [4; 6; 8]], [[1; 3]; [6; 9]; [11; 15]], [[3; 0]; [4; 14]], [[0; 0]; [0; 0]])%N.
Proof. vm_compute. reflexivity. Qed.
(** the map for two coefficients each: three products, as matrices *)
Example C42_witness :
  match blm_init_crt 6 x0 None 2 2 (upd (repeat 0 17) 2 1) false with
  | Some (Ok f) => (mzd_rows (bl_F f), mzd_rows (bl_G f), mzd_rows (bl_H f)) | _ => ([], [], []) end =
  ([[1]; [3]; [2]], [[1]; [3]; [2]], [[1]; [7]; [4]])%N.
Proof. vm_compute. reflexivity. Qed.
Example C43_witness : crt_init 8 8 = Ok [1; 2; 1; 2; 1; 0; 0; 0; 0; 0; 0; 0; 0; 0; 0; 0; 0] /\ scheme_cost [1; 2; 1; 2; 1; 0; 0; 0; 0; 0; 0; 0; 0; 0; 0; 0; 0] = 27.
Proof. vm_compute. split; reflexivity. Qed.
