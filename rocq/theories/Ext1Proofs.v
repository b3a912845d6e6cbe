(** _mzd_poly_addmul_ext1: evaluation and interpolation over an extension field. *)
From Coq Require Import NArith Lia List Bool Arith.
From Coq Require Import ZifyBool ZifyNat ZifyN.
From Verif Require Import Base Spec LinSpec PolyFacts MatFacts EchFacts Gf2xModel Gf2eModel Gf2eProofs IrrTable IrrProofs MzdModel MzedModel MzedSpec LaneFacts MzedProofs MzedOps MzedOps2 EchNaive NjModel NjInv.
From Verif Require Import SliceModel SliceSpec MzdFacts SliceProofs SliceOps SliceMul KaraModel KaraProofs PropSlice PolyMatModel PolyMatSpec PolyMatProofs BlmModel BlmSpec BlmFacts BlmFG BlmFin Ext1Model Ext1Facts.
Import ListNotations.
Local Open Scope nat_scope.

Lemma addmul_mzd_ok C a A : wf_slice C -> mzd_nrows A = sl_nrows C -> mzd_ncols A = sl_ncols C -> inF (sfld C) a ->
  wp (mzd_slice_addmul_mzd C a A) (fun C' => sbecomes C C' (fun i c => N.lxor (sentry C i c) (if mbit A i c then a else 0%N))).
Proof.
  intros HC H1 H2 Ha. unfold mzd_slice_addmul_mzd, sl_map. pose proof HC as (K1 & K2 & K3 & K4). apply wp_bind.
  eapply wp_mono; [apply (wp_each (sl_depth C) _ (sl_x C) (fun b x => mset (sx C b) x (fun i c => xorb (mbit (sx C b) i c) (N.testbit a (N.of_nat b) && mbit A i c)))); [lia|]|].
  - intros b Hb. destruct (K4 b Hb) as (W & R1 & R2). fold (sx C b). destruct (N.testbit a (N.of_nat b)).
    + eapply wp_mono; [apply add_ok; auto; congruence|]. cbv beta. intros x Hx. exact Hx.
    + cbn [wp]. eapply mset_ext; [now apply mset_refl|]. intros. cbn [andb]. now rewrite Bool.xorb_false_r.
  - cbv beta. intros x (Lx & Hx & _). cbn [wp]. apply sb_intro; auto; [lia| |].
    + intros i c Hi Hc. apply lxor_lt_pow2; [unfold inF; rewrite (wfs_deg C HC); apply word_of_bits_lt|]. destruct (mbit A i c); [exact Ha|]. unfold inF. apply N.neq_0_lt_0. now apply N.pow_nonzero.
    + intros b Hb. eapply mset_ext; [apply Hx; lia|]. cbv beta. intros i c Hi Hc. rewrite N.lxor_spec. unfold sentry. rewrite testbit_word_of_bits. replace (b <? sl_depth C) with true by lia. cbn [andb]. f_equal.
      destruct (mbit A i c); [apply andb_true_r|rewrite andb_false_r; symmetry; apply N.bits_0].
Qed.
(** a slice all zero but for coefficient 0 *)
Lemma set0_ok f m n C x g : sholds C f m n mzero -> (1 <= pdeg f)%N -> mgot (sx C 0) x g -> sholds (sl_set_x C (upd (sl_x C) 0 x)) f m n (fun i c => b2N (g i c)).
Proof.
  intros HC Hf Hx. pose proof HC as (W & Ef & Er & Ec & E0). pose proof W as (K1 & K2 & K3 & K4). pose proof (wfs_depth C W) as Hd.
  assert (D : forall b, b < sl_depth C -> mgot (sx C b) (nth b (upd (sl_x C) 0 x) (Mzd 0 0 [])) (fun i c => N.testbit (b2N (g i c)) (N.of_nat b))).
  { intros b Hb. destruct (Nat.eq_dec b 0) as [->|Hb0].
    + rewrite nth_upd_eq by lia. eapply mgot_ext; [exact Hx|]. intros i c _ _. now destruct (g i c).
    + rewrite nth_upd_ne by lia. destruct (K4 b Hb) as (Wb & R1 & R2). eapply mgot_ext; [now apply mset_got, mset_refl|]. intros i c Hi Hc. fold (sx C b) in *.
      assert (E : N.testbit (sentry C i c) (N.of_nat b) = mbit (sx C b) i c) by (unfold sentry; rewrite testbit_word_of_bits; now replace (b <? sl_depth C) with true by lia).
      rewrite <- E, E0 by lia. unfold mzero. rewrite N.bits_0. destruct (g i c); cbn [b2N]; [|now rewrite N.bits_0]. symmetry. change 1%N with (2 ^ 0)%N. rewrite N.pow2_bits_eqb. lia. }
  assert (W' : wf_slice (sl_set_x C (upd (sl_x C) 0 x))).
  { split; [exact K1|]. split; [exact K2|]. cbn [sl_set_x sl_x sl_depth sl_nrows sl_ncols]. split; [now rewrite upd_length|]. intros b Hb. destruct (K4 b Hb) as (_ & R1 & R2).
    pose proof (D b Hb) as (D1 & D2 & D3 & _). unfold sx. cbn [sl_set_x sl_x]. split; [exact D1|]. split; congruence. }
  split; [exact W'|]. split; [exact Ef|]. split; [exact Er|]. split; [exact Ec|]. intros i c Hi Hc. apply N.bits_inj. intros b. rewrite <- (N2Nat.id b). unfold sentry. rewrite testbit_word_of_bits.
  cbn [sl_set_x sl_depth]. destruct (Nat.ltb_spec (N.to_nat b) (sl_depth C)) as [Hb|Hb]; cbn [andb].
  - destruct (K4 _ Hb) as (_ & R1 & R2). unfold sx. cbn [sl_set_x sl_x]. apply (mgot_bit _ _ _ _ _ (D _ Hb)); lia.
  - symmetry. destruct (g i c); cbn [b2N]; [|apply N.bits_0]. change 1%N with (2 ^ 0)%N. rewrite N.pow2_bits_eqb. lia.
Qed.

Section Ext1.
Variables (f : N) (ff : gf2e) (A B : mpoly).
Hypothesis Hff : ff_minpoly ff = f.
Hypothesis Hwf : gf2e_wf ff.
Hypothesis Hf : (1 <= pdeg f)%N.
Hypothesis HA : wf_mpoly A.
Hypothesis HB : wf_mpoly B.
Hypothesis En : mp_ncols A = mp_nrows B.
Hypothesis DA : 1 <= mp_depth A.
Hypothesis DB : 1 <= mp_depth B.
Let f0 : f <> 0%N. Proof. intros ->. cbn in Hf. lia. Qed.
Let d := mp_depth A + mp_depth B - 1.
Hypothesis Hd : (N.of_nat d <= 2 ^ pdeg f)%N.

(** the matrix X at alpha *)
Definition evalM (X : mpoly) (alpha : N) : mat := fun r t => peval f alpha (mp_depth X) (pentry X r t).
Lemma pentry_bit X r t j : wf_mpoly X -> j < mp_depth X -> N.testbit (pentry X r t) (N.of_nat j) = mbit (nth j (mp_x X) dm) r t.
Proof. intros (L & _) Hj. rewrite pentry_pv. unfold pv. rewrite testbit_word_of_bits, L. now replace (j <? mp_depth X) with true by lia. Qed.
Lemma eval_product alpha r s : mmul f (mp_ncols A) (evalM A alpha) (evalM B alpha) r s = peval f alpha d (pmmul (mp_ncols A) (pentry A) (pentry B) r s).
Proof.
  unfold mmul, pmmul. rewrite peval_xsum. apply xsum_ext. intros t Ht. unfold evalM. symmetry. apply peval_pmul; auto.
  - now apply pentry_lt.
  - now apply pentry_lt.
  - unfold d. lia.
Qed.
Lemma evalM_0 X r t : wf_mpoly X -> 1 <= mp_depth X -> evalM X 0 r t = b2N (mbit (nth 0 (mp_x X) dm) r t).
Proof.
  intros HX DX. unfold evalM, peval. rewrite (xsum_single _ 0) by (try lia; intros i Hi Hn; rewrite fpow_0; replace (i =? 0) with false by lia; now destruct (N.testbit _ _)).
  rewrite (pentry_bit X r t 0) by (auto; lia). now destruct (mbit _ _ _).
Qed.
Lemma evalM_1 X r t : wf_mpoly X -> evalM X 1 r t = b2N (bxsum (mp_depth X) (fun j => mbit (nth j (mp_x X) dm) r t)).
Proof.
  intros HX. unfold evalM, peval. rewrite <- xsum_b2N. apply xsum_ext. intros j Hj. rewrite pentry_bit by auto. rewrite fpow_1 by auto. now destruct (mbit _ _ _).
Qed.
Lemma fmul_b2N a b : fmul f (b2N a) (b2N b) = b2N (a && b).
Proof. destruct a, b; cbn [b2N andb]; rewrite ?fmul_0_r, ?fmul_0_l; try easy. apply fmul_1_l; [easy|]. now apply inF1. Qed.
Lemma mmul_b2N l g h i c : mmul f l (fun i t => b2N (g i t)) (fun t c => b2N (h t c)) i c = b2N (bmul l g h i c).
Proof. unfold mmul, bmul. rewrite <- xsum_b2N. apply xsum_ext. intros t Ht. apply fmul_b2N. Qed.

(** ** one point *)
Definition alpha (i : nat) : N := N.of_nat i.
Lemma alpha_inF i : i < d -> inF f (alpha i).
Proof. intros Hi. unfold inF, alpha. lia. Qed.
Definition partial (X : mpoly) (i j : nat) : mat := fun r t => peval f (alpha i) (Nat.min j (mp_depth X)) (pentry X r t).
Lemma add_coeff X i j a : wf_mpoly X -> j < mp_depth X -> sholds a f (mp_nrows X) (mp_ncols X) (partial X i j) ->
  wp (x <- lget (mp_x X) j ;; mzd_slice_addmul_mzd a (fpow f (alpha i) j) x) (fun a' => sholds a' f (mp_nrows X) (mp_ncols X) (partial X i (S j))).
Proof.
  intros HX Hj Ha. pose proof HX as (L & _). pose proof (wfp_shape X HX) as SX. destruct (SX j ltac:(lia)) as (W & R1 & R2). rewrite (lget_ok (mp_x X) j dm) by lia. cbn [bind].
  pose proof Ha as (Wa & Fa & Ra & Ca & Ea). eapply wp_mono; [apply addmul_mzd_ok; auto; [congruence|congruence|rewrite Fa; now apply fpow_inF]|].
  cbv beta. intros a' Hb. eapply sh_becomes in Hb; [|exact Ha]. destruct Hb as (W' & F' & R' & C' & E'). split; [exact W'|]. split; [exact F'|]. split; [exact R'|]. split; [exact C'|]. intros r t Hr Ht. rewrite E', Ea by easy.
  unfold partial. replace (Nat.min (S j) (mp_depth X)) with (S j) by lia. replace (Nat.min j (mp_depth X)) with j by lia. unfold peval. cbn [xsum]. now rewrite (pentry_bit X r t j).
Qed.
Lemma same_coeff X i j a : mp_depth X <= j -> sholds a f (mp_nrows X) (mp_ncols X) (partial X i j) -> sholds a f (mp_nrows X) (mp_ncols X) (partial X i (S j)).
Proof. intros Hj. unfold partial. now replace (Nat.min (S j) (mp_depth X)) with (Nat.min j (mp_depth X)) by lia. Qed.

Lemma point_ok i Phi a b : i < d -> wf_mzed Phi -> fld Phi = f -> mz_nrows Phi = d -> mz_ncols Phi = d ->
  sholds a f (mp_nrows A) (mp_ncols A) mzero -> sholds b f (mp_nrows B) (mp_ncols B) mzero ->
  wp (ext1_point ff A B d i Phi a b) (fun st => let '(Phi', a', b', _) := st in
    becomes Phi Phi' (fun r c => if r =? i then fpow f (alpha i) c else entry Phi r c) /\
    sholds a' f (mp_nrows A) (mp_ncols A) (evalM A (alpha i)) /\ sholds b' f (mp_nrows B) (mp_ncols B) (evalM B (alpha i))).
Proof.
  intros Hi WP FP RP CP Ha Hb. unfold ext1_point.
  eapply wp_mono; [apply (wp_for (fun j st => let '(Phi', a', b', acc) := st in
    becomes Phi Phi' (fun r c => if (r =? i) && (c <? j) then fpow f (alpha i) c else entry Phi r c) /\
    sholds a' f (mp_nrows A) (mp_ncols A) (partial A i j) /\ sholds b' f (mp_nrows B) (mp_ncols B) (partial B i j) /\ acc = fpow f (alpha i) j)); [lia| |]|].
  - split; [|split; [|split; [|reflexivity]]].
    + eapply becomes_ext; [apply becomes_refl; exact WP|]. intros r c _ _. cbn. now rewrite andb_false_r.
    + exact Ha.
    + exact Hb.
  - intros j [[[Phi' a'] b'] acc] Hj (IP & Ia & Ib & ->). pose proof (becomes_wf _ _ _ IP) as WP'. pose proof (becomes_ff _ _ _ IP) as FP'. pose proof (becomes_nr _ _ _ IP) as RP'. pose proof (becomes_nc _ _ _ IP) as CP'.
    apply wp_bind. eapply wp_mono; [apply mzed_write_elem_ok; [exact WP'|lia|lia|rewrite FP', FP; now apply fpow_inF]|]. cbv beta. intros Phi2 IP2.
    apply wp_bind. eapply wp_mono with (P := fun a2 => sholds a2 f (mp_nrows A) (mp_ncols A) (partial A i (S j))).
    { destruct (Nat.ltb_spec j (mp_depth A)); [now apply add_coeff|cbn [wp]; now apply same_coeff]. }
    intros a2 Ia2. apply wp_bind. eapply wp_mono with (P := fun b2 => sholds b2 f (mp_nrows B) (mp_ncols B) (partial B i (S j))).
    { destruct (Nat.ltb_spec j (mp_depth B)); [now apply add_coeff|cbn [wp]; now apply same_coeff]. }
    intros b2 Ib2. rewrite (gf2e_mul_ok ff (N.of_nat i) (fpow f (alpha i) j) Hwf); [|rewrite Hff; now apply alpha_inF|rewrite Hff; now apply fpow_inF]. cbn [bind wp]. split; [|split; [exact Ia2|split; [exact Ib2|now rewrite Hff]]].
    eapply becomes_step; [exact IP|exact IP2|]. cbv beta. intros r c Hr Hc.
    rewrite (becomes_entry _ _ _ _ _ IP) by easy. destruct (Nat.eqb_spec r i), (Nat.eqb_spec c j), (Nat.ltb_spec c j), (Nat.ltb_spec c (S j)); cbn [andb]; try lia; subst; reflexivity.
  - cbv beta. intros [[[Phi' a'] b'] acc] (IP & Ia & Ib & _). split; [|split].
    + eapply becomes_ext; [exact IP|]. cbv beta. intros r c Hr Hc. replace (c <? d) with true by lia. now rewrite andb_true_r.
    + unfold partial in Ia. unfold evalM. now replace (Nat.min d (mp_depth A)) with (mp_depth A) in Ia by (unfold d; lia).
    + unfold partial in Ib. unfold evalM. now replace (Nat.min d (mp_depth B)) with (mp_depth B) in Ib by (unfold d; lia).
Qed.

(** ** all points *)
Definition P (r s : nat) : N := pmmul (mp_ncols A) (pentry A) (pentry B) r s.
Definition value (i : nat) : mat := fun r s => peval f (alpha i) d (P r s).
Definition ds : slice := Slice ff 0 0 0 [].
Definition points_inv (i : nat) (Phi0 : mzed) (st : mzed * slice * slice * list slice) : Prop :=
  let '(Phi, a, b, c) := st in
  becomes Phi0 Phi (fun r k => if r <? i then fpow f (alpha r) k else entry Phi0 r k) /\
  (exists F, sholds a f (mp_nrows A) (mp_ncols A) F) /\ (exists F, sholds b f (mp_nrows B) (mp_ncols B) F) /\
  length c = i /\ forall k, k < i -> sholds (nth k c ds) f (mp_nrows A) (mp_ncols B) (value k).
Lemma clear_ok m n a F : sholds a f m n F -> wp (mzd_slice_set_ui a 0) (fun a' => sholds a' f m n mzero).
Proof.
  intros Ha. pose proof Ha as (W & Ef & _). eapply wp_mono; [apply slice_set_ui_ok; [exact W|rewrite Ef; now apply inF0]|]. cbv beta. intros a' Hb. eapply sh_becomes in Hb; [|exact Ha].
  destruct Hb as (W' & F' & R' & C' & E'). split; [exact W'|]. repeat (split; [assumption|]). intros i c Hi Hc. rewrite E' by easy. now destruct (i =? c).
Qed.
Lemma points_ok Phi0 Phi a b c : wf_mzed Phi0 -> fld Phi0 = f -> mz_nrows Phi0 = d -> mz_ncols Phi0 = d -> 2 <= d -> points_inv 2 Phi0 (Phi, a, b, c) ->
  wp (ext1_points ff A B d Phi a b c) (points_inv d Phi0).
Proof.
  intros WP FP RP CP H2 HI. unfold ext1_points. apply (wp_for (fun i st => points_inv i Phi0 st)); [lia|exact HI|].
  intros i [[[Phi' a'] b'] c'] Hi (IP & (Fa & Ia) & (Fb & Ib) & Lc & Hc). pose proof (becomes_wf _ _ _ IP) as WP'. pose proof (becomes_ff _ _ _ IP) as FP'. pose proof (becomes_nr _ _ _ IP) as RP'. pose proof (becomes_nc _ _ _ IP) as CP'.
  apply wp_bind. eapply wp_mono; [eapply clear_ok; exact Ia|]. cbv beta. intros a2 Ia2. apply wp_bind. eapply wp_mono; [eapply clear_ok; exact Ib|]. cbv beta. intros b2 Ib2.
  apply wp_bind. eapply wp_mono; [apply (point_ok i Phi' a2 b2); auto; try lia; congruence|]. intros [[[Phi3 a3] b3] acc] (IP3 & Ia3 & Ib3).
  pose proof Ia3 as (Wa & Fa3 & Ra & Ca & Ea). pose proof Ib3 as (Wb & Fb3 & Rb & Cb & Eb).
  apply wp_bind. eapply wp_mono; [apply (slice_mul_karatsuba_ok None a3 b3); auto; try congruence; exact Logic.I|]. cbv beta. intros ci (Hci & _). cbn [wp]. split; [|split; [|split; [|split]]].
  - eapply becomes_step; [exact IP|exact IP3|]. cbv beta. intros r k Hr Hk. rewrite (becomes_entry _ _ _ _ _ IP) by easy.
    destruct (Nat.eqb_spec r i), (Nat.ltb_spec r i), (Nat.ltb_spec r (S i)); try lia; subst; reflexivity.
  - eexists. exact Ia3.
  - eexists. exact Ib3.
  - rewrite app_length. cbn [length]. lia.
  - intros k Hk. destruct (Nat.eq_dec k i) as [->|].
    + rewrite app_nth2, Lc, Nat.sub_diag by lia. cbn [nth]. rewrite Fa3, Ra, Cb, Ca in Hci. destruct Hci as (V1 & V2 & V3 & V4 & V5). split; [exact V1|]. repeat (split; [assumption|]). intros r s Hr Hs. rewrite V5 by easy.
      unfold value, P. rewrite <- eval_product. unfold mmul. apply xsum_ext. intros t Ht. f_equal; [apply Ea; lia|apply Eb; [rewrite <- En; lia|lia]].
    + rewrite app_nth1 by lia. apply Hc. lia.
Qed.

(** ** interpolation *)
Lemma interpolate_ok Rho c tmp X F0 : wf_mzed Rho -> fld Rho = f -> mz_nrows Rho = d -> mz_ncols Rho = d -> inverse f d (fun i k => fpow f (alpha i) k) (entry Rho) ->
  length c = d -> (forall k, k < d -> sholds (nth k c ds) f (mp_nrows A) (mp_ncols B) (value k)) -> sholds tmp f (mp_nrows A) (mp_ncols B) F0 ->
  shape X (mp_nrows A) (mp_ncols B) -> d <= length X ->
  wp (ext1_interpolate d Rho c tmp X) (fun r => lbec X (snd r) (fun r s => N.lxor (pv X r s) (P r s))).
Proof.
  intros WR FR RR CR (_ & _ & _ & HI) Lc Hc Ht SX LX. set (m := mp_nrows A) in *. set (n := mp_ncols B) in *.
  assert (PL : forall r s, (P r s < 2 ^ N.of_nat d)%N) by (intros r s; unfold P; now apply pmmul_lt).
  (** the value recovered for coefficient i *)
  assert (HV : forall i r s, i < d -> xsum d (fun j => fmul f (entry Rho i j) (value j r s)) = b2N (N.testbit (P r s) (N.of_nat i))).
  { intros i r s Hi. unfold value, peval. rewrite (xsum_ext d _ (fun j => xsum d (fun k => fmul f (fmul f (entry Rho i j) (fpow f (alpha j) k)) (b2N (N.testbit (P r s) (N.of_nat k)))))).
    - rewrite xsum_swap. rewrite (xsum_ext d _ (fun k => fmul f (mone i k) (b2N (N.testbit (P r s) (N.of_nat k))))).
      + rewrite (xsum_single d i) by (auto; intros k Hk Hne; unfold mone; replace (i =? k) with false by lia; apply fmul_0_l). unfold mone. rewrite Nat.eqb_refl. apply fmul_1_l; [easy|]. unfold inF. destruct (N.testbit _ _); [now apply inF1|now apply inF0].
      + intros k Hk. rewrite <- xsum_fmul_r by easy. f_equal. exact (HI i k Hi Hk).
    - intros j Hj. rewrite xsum_fmul_l by easy. apply xsum_ext. intros k Hk. destruct (N.testbit _ _); cbn [b2N]; [|now rewrite !fmul_0_r]. symmetry. apply fmul_1_r; [easy|]. now apply fmul_lt. }
  set (part := fun i r s => N.land (P r s) (N.ones (N.of_nat i))).
  unfold ext1_interpolate.
  eapply wp_mono; [apply (wp_for (fun i st => (exists F, sholds (fst st) f m n F) /\ lbec X (snd st) (fun r s => N.lxor (pv X r s) (part i r s)))); [lia| |]|].
  - split; [exists F0; exact Ht|]. eapply (lbec_ext X X _ _ m n SX); [apply (lbec_refl X m n SX)|]. intros r s _ _. unfold part. cbn [N.of_nat N.ones]. rewrite N.land_0_r, N.lxor_0_r. reflexivity.
  - intros i [tmp1 X1] Hi ((F1 & Ht1) & HX1). cbn [fst snd] in Ht1, HX1.
    pose proof (lbec_shape _ _ _ _ _ SX HX1) as SX1. pose proof (proj1 HX1) as LX1.
    eapply wp_mono; [apply (wp_for (fun j st => (exists F, sholds (fst st) f m n F) /\ lbec X1 (snd st) (fun r s => N.lxor (pv X1 r s) (if N.testbit (xsum j (fun j => fmul f (entry Rho i j) (value j r s))) 0 then 2 ^ N.of_nat i else 0)%N))); [lia| |]|].
    + split; [exists F1; exact Ht1|]. eapply (lbec_ext X1 X1 _ _ m n SX1); [apply (lbec_refl X1 m n SX1)|]. intros r s _ _. cbn [xsum]. rewrite N.bits_0, N.lxor_0_r. reflexivity.
    + intros j [tmp2 X2] Hj ((F2 & Ht2) & HX2). cbn [fst snd] in Ht2, HX2. pose proof (lbec_shape _ _ _ _ _ SX1 HX2) as SX2. pose proof (proj1 HX2) as LX2.
      rewrite (mzed_read_elem_ok Rho i j WR) by lia. cbn [bind]. rewrite (lget_ok c j ds) by lia. cbn [bind].
      pose proof (Hc j ltac:(lia)) as Hcj. pose proof Hcj as (Wc & Fc & Rc & Cc & Ec). pose proof Ht2 as (Wt & Ft & Rt & Ct & _).
      apply wp_bind. eapply wp_mono; [apply slice_mul_scalar_ok; [exact Wc|cbn [starget]; rewrite Fc, Rc, Cc; auto|rewrite Fc, <- FR; apply wf_inM; [exact WR|lia|lia]]|].
      cbv beta. intros tmp3 Ht3. rewrite Fc, Rc, Cc in Ht3. pose proof Ht3 as (Wt3 & Ft3 & Rt3 & Ct3 & Et3). pose proof (wfs_depth tmp3 Wt3) as Hd3. pose proof Wt3 as (_ & _ & L3 & S3).
      rewrite (lget_ok X2 i dm) by lia. cbn [bind]. rewrite (lget_ok (sl_x tmp3) 0 dm) by lia. cbn [bind]. destruct (SX2 i ltac:(lia)) as (Wi & Ri & Ci). destruct (S3 0 ltac:(lia)) as (W3 & R3 & C3). change (nth 0 (sl_x tmp3) dm) with (sx tmp3 0).
      apply wp_bind. eapply wp_mono; [apply add_ok; [exact Wi|reflexivity|reflexivity|congruence|congruence]|]. cbv beta. intros xi Hxi. rewrite lset_ok by lia. cbn [bind wp fst snd]. split; [eexists; exact Ht3|].
      assert (HX3 : lbec X2 (upd X2 i xi) (fun r s => N.lxor (pv X2 r s) (if N.testbit (fmul f (entry Rho i j) (value j r s)) 0 then 2 ^ N.of_nat i else 0)%N)).
      { split; [now rewrite upd_length|]. intros b Hb. destruct (Nat.eq_dec b i) as [->|Hne].
        - rewrite nth_upd_eq by lia. eapply mset_ext; [exact Hxi|]. cbv beta. intros r s Hr Hs. rewrite N.lxor_spec, <- pv_bit by easy. f_equal.
          assert (E : N.testbit (sentry tmp3 r s) 0 = mbit (sx tmp3 0) r s) by (unfold sentry; change 0%N with (N.of_nat 0); rewrite testbit_word_of_bits; now replace (0 <? sl_depth tmp3) with true by lia).
          rewrite <- E, Et3 by lia. unfold mscal. rewrite Ec by lia. destruct (N.testbit (fmul f _ _) 0); [now rewrite N.pow2_bits_true|now rewrite N.bits_0].
        - rewrite nth_upd_ne by lia. destruct (SX2 b ltac:(lia)) as (Wb & Rb & Cb). eapply mset_ext; [now apply mset_refl|]. intros r s Hr Hs. rewrite N.lxor_spec, <- pv_bit by easy.
          replace (N.testbit (if N.testbit (fmul f (entry Rho i j) (value j r s)) 0 then 2 ^ N.of_nat i else 0)%N (N.of_nat b)) with false; [now rewrite Bool.xorb_false_r|].
          destruct (N.testbit _ 0); [|now rewrite N.bits_0]. symmetry. apply N.pow2_bits_false. lia. }
      eapply (lbec_step X1 X2 _ _ _ _ m n SX1 HX2 HX3). cbv beta. intros r s Hr Hs.
      rewrite (lbec_pv X1 X2 _ m n r s SX1 HX2 Hr Hs).
      * cbn [xsum]. rewrite N.lxor_spec, N.lxor_assoc. f_equal. destruct (N.testbit (xsum j _) 0), (N.testbit (fmul f _ _) 0); cbn [xorb]; rewrite ?N.lxor_0_l, ?N.lxor_0_r, ?N.lxor_nilpotent; reflexivity.
      * apply lxor_lt_pow2; [apply pv_lt|]. destruct (N.testbit _ 0); [apply N.pow_lt_mono_r; lia|]. apply N.neq_0_lt_0. now apply N.pow_nonzero.
    + cbv beta. intros [tmp2 X2] (Ht2 & HX2). cbn [fst snd] in *. split; [exact Ht2|]. eapply (lbec_step X X1 X2 _ _ _ m n SX HX1 HX2). cbv beta. intros r s Hr Hs.
      rewrite (lbec_pv X X1 _ m n r s SX HX1 Hr Hs).
      * rewrite HV by easy. rewrite N.lxor_assoc. f_equal. unfold part. apply N.bits_inj. intros k. rewrite N.lxor_spec, !N.land_spec.
        replace (N.testbit (b2N (N.testbit (P r s) (N.of_nat i))) 0) with (N.testbit (P r s) (N.of_nat i)) by (now destruct (N.testbit (P r s) (N.of_nat i))).
        destruct (N.lt_trichotomy k (N.of_nat i)) as [Hk|[->|Hk]].
        -- rewrite !N.ones_spec_low by lia. replace (N.testbit (if N.testbit (P r s) (N.of_nat i) then 2 ^ N.of_nat i else 0)%N k) with false; [now rewrite Bool.xorb_false_r|]. destruct (N.testbit (P r s) _); [|now rewrite N.bits_0]. symmetry. apply N.pow2_bits_false. lia.
        -- rewrite N.ones_spec_high, N.ones_spec_low by lia. rewrite andb_false_r, andb_true_r. cbn [xorb]. destruct (N.testbit (P r s) _); [now rewrite N.pow2_bits_true|now rewrite N.bits_0].
        -- rewrite !N.ones_spec_high by lia. rewrite !andb_false_r, Bool.xorb_false_l. destruct (N.testbit (P r s) (N.of_nat i)); [|now rewrite N.bits_0]. apply N.pow2_bits_false. lia.
      * apply lxor_lt_pow2; [apply pv_lt|]. unfold part. apply N.lt_le_trans with (2 ^ N.of_nat d)%N; [|apply N.pow_le_mono_r; lia]. apply lt_pow2_bits. intros k Hk. rewrite N.land_spec. now rewrite (proj1 (lt_pow2_bits _ _) (PL r s)) by easy.
  - cbv beta. intros [tmp' X'] (_ & HX'). cbn [snd] in *. eapply (lbec_ext X X' _ _ m n SX HX'). cbv beta. intros r s Hr Hs. f_equal. unfold part. rewrite N.land_ones. apply N.mod_small. apply PL.
Qed.

(** ** the first two points and the whole *)
Lemma sum_ok X x : wf_mpoly X -> wf_mzd x -> mzd_nrows x = mp_nrows X -> mzd_ncols x = mp_ncols X ->
  wp (ext1_sum X x) (fun x' => mset x x' (fun r t => xorb (mbit x r t) (bxsum (mp_depth X) (fun j => mbit (nth j (mp_x X) dm) r t)))).
Proof.
  intros HX Wx R1 C1. unfold ext1_sum. pose proof HX as (L & _). pose proof (wfp_shape X HX) as SX.
  apply (wp_for (fun j x' => mset x x' (fun r t => xorb (mbit x r t) (bxsum j (fun j => mbit (nth j (mp_x X) dm) r t))))); [lia| |].
  - eapply mset_ext; [now apply mset_refl|]. intros r t _ _. cbn [bxsum]. now rewrite Bool.xorb_false_r.
  - intros j x' Hj Hx. rewrite (lget_ok (mp_x X) j dm) by lia. cbn [bind]. destruct (SX j ltac:(lia)) as (_ & R2 & C2). pose proof Hx as (W' & R' & C' & E' & _).
    eapply wp_mono; [apply add_ok; [exact W'|reflexivity|reflexivity|congruence|congruence]|]. cbv beta. intros x2 H2. eapply mset_step; [exact Hx|exact H2|]. cbv beta. intros r t Hr Ht. rewrite E' by easy. cbn [bxsum]. now rewrite Bool.xorb_assoc.
Qed.
Lemma lget0 C : wf_slice C -> lget (sl_x C) 0 = Ok (sx C 0) /\ forall x, lset (sl_x C) 0 x = Ok (upd (sl_x C) 0 x).
Proof. intros W. pose proof (wfs_depth C W) as Hd1. pose proof W as (_ & _ & L & _). split; [apply (lget_ok (sl_x C) 0 dm)|intros; apply lset_ok]; lia. Qed.
Lemma init0_bit m n r t : r < m -> t < n -> mbit (sx (mzd_slice_init ff m n) 0) r t = false.
Proof.
  intros Hr Ht. pose proof (slice_init_ok ff m n Hwf) as (W & _ & R & C & E). pose proof (wfs_depth _ W) as Hd1.
  assert (E1 : N.testbit (sentry (mzd_slice_init ff m n) r t) 0 = mbit (sx (mzd_slice_init ff m n) 0) r t).
  { unfold sentry. change 0%N with (N.of_nat 0). rewrite testbit_word_of_bits. now replace (0 <? sl_depth (mzd_slice_init ff m n)) with true by lia. }
  rewrite <- E1, E by easy. apply N.bits_0.
Qed.
Theorem body_ok kk C : irreducible f -> 2 <= ff_degree ff -> 2 <= d -> kk <= 7 -> wf_mpoly C -> mp_nrows C = mp_nrows A -> mp_ncols C = mp_ncols B -> d <= mp_depth C ->
  wp (ext1_body kk ff d (Some C) A B) (fun C' => pbecomes C C' (fun r s => N.lxor (pentry C r s) (P r s))).
Proof.
  intros Hirr Hdeg H2 Hk HC RC CC DC. unfold ext1_body. cbv zeta. pose proof HA as (LA & _). pose proof HB as (LB & _). pose proof (wfp_shape A HA) as SA. pose proof (wfp_shape B HB) as SB.
  assert (IS : forall m n, sholds (mzd_slice_init ff m n) f m n mzero) by (intros m n; rewrite <- Hff; now apply slice_init_ok).
  apply wp_bind. eapply wp_mono; [now apply mzed_init_ok|]. cbv beta. intros Phi0 (Ef0 & (WP0 & FP0 & RP0 & CP0 & _) & E0). rewrite Hff in FP0.
  apply wp_bind. eapply wp_mono; [now apply mzed_init_ok|]. cbv beta. intros Rho0 (EfR & (WR0 & FR0 & RR0 & CR0 & _) & _). rewrite Hff in FR0.
  apply wp_bind. eapply wp_mono; [apply mzed_write_elem_ok; [exact WP0|lia|lia|rewrite FP0; now apply inF1]|]. cbv beta. intros Phi1 B1.
  rewrite (lget_ok (mp_x A) 0 dm), (lget_ok (mp_x B) 0 dm) by lia. cbn [bind]. destruct (SA 0 ltac:(lia)) as (WA0 & RA0 & CA0). destruct (SB 0 ltac:(lia)) as (WB0 & RB0 & CB0).
  pose proof (IS (mp_nrows A) (mp_ncols B)) as I0. pose proof I0 as (WI & _). pose proof WI as (_ & _ & _ & KI). destruct (KI 0) as (WI0 & RI0 & CI0); [apply wfs_depth in WI; lia|]. destruct (lget0 _ WI) as [G0 S0]. rewrite G0. cbn [bind].
  cbn [mzd_slice_init sl_nrows sl_ncols] in RI0, CI0.
  apply wp_bind. eapply wp_mono; [apply mul_ok; [exact WI0|congruence|congruence|congruence]|]. cbv beta. intros y0 Hy0. rewrite S0. cbn [bind].
  pose proof (set0_ok f _ _ _ y0 _ I0 Hf Hy0) as Hc0. set (c0 := sl_set_x (mzd_slice_init ff (mp_nrows A) (mp_ncols B)) _) in *.
  pose proof (becomes_wf _ _ _ B1) as WP1. pose proof (becomes_ff _ _ _ B1) as FP1. pose proof (becomes_nr _ _ _ B1) as RP1. pose proof (becomes_nc _ _ _ B1) as CP1.
  apply wp_bind. eapply wp_mono; [apply (wp_for (fun j Ph => becomes Phi1 Ph (fun r c => if (r =? 1) && (c <? j) then 1%N else entry Phi1 r c))); [lia| |]|].
  { eapply becomes_ext; [apply becomes_refl; exact WP1|]. cbv beta. intros r c _ _. cbn. now rewrite andb_false_r. }
  { intros j Ph Hj IH. pose proof (becomes_wf _ _ _ IH) as W'. pose proof (becomes_ff _ _ _ IH) as F'. pose proof (becomes_nr _ _ _ IH) as R'. pose proof (becomes_nc _ _ _ IH) as C'.
    eapply wp_mono; [apply mzed_write_elem_ok; [exact W'|lia|lia|rewrite F', FP1, FP0; now apply inF1]|]. cbv beta. intros Ph2 IH2. eapply becomes_step; [exact IH|exact IH2|]. cbv beta. intros r c Hr Hc. rewrite (becomes_entry _ _ _ _ _ IH) by easy.
    destruct (Nat.eqb_spec r 1), (Nat.eqb_spec c j), (Nat.ltb_spec c j), (Nat.ltb_spec c (S j)); cbn [andb]; try lia; reflexivity. }
  cbv beta. intros Phi2 B2.
  pose proof (IS (mp_nrows A) (mp_ncols A)) as Ia. pose proof Ia as (Wa & _). pose proof Wa as (_ & _ & _ & Ka). destruct (Ka 0) as (Wa0 & Ra0 & Ca0); [apply wfs_depth in Wa; lia|]. destruct (lget0 _ Wa) as [Ga Sa]. rewrite Ga. cbn [bind].
  cbn [mzd_slice_init sl_nrows sl_ncols] in Ra0, Ca0.
  apply wp_bind. eapply wp_mono; [apply sum_ok; [exact HA|exact Wa0|exact Ra0|exact Ca0]|]. cbv beta. intros a0 Ha0. rewrite Sa. cbn [bind].
  pose proof (set0_ok f _ _ _ a0 _ Ia Hf (mset_got _ _ _ Ha0)) as Ha. set (a := sl_set_x (mzd_slice_init ff (mp_nrows A) (mp_ncols A)) _) in *.
  pose proof (IS (mp_nrows B) (mp_ncols B)) as Ib. pose proof Ib as (Wb & _). pose proof Wb as (_ & _ & _ & Kb). destruct (Kb 0) as (Wb0 & Rb0 & Cb0); [apply wfs_depth in Wb; lia|]. destruct (lget0 _ Wb) as [Gb Sb]. rewrite Gb. cbn [bind].
  cbn [mzd_slice_init sl_nrows sl_ncols] in Rb0, Cb0.
  apply wp_bind. eapply wp_mono; [apply sum_ok; [exact HB|exact Wb0|exact Rb0|exact Cb0]|]. cbv beta. intros b0 Hb0. rewrite Sb. cbn [bind].
  pose proof (set0_ok f _ _ _ b0 _ Ib Hf (mset_got _ _ _ Hb0)) as Hb. set (b := sl_set_x (mzd_slice_init ff (mp_nrows B) (mp_ncols B)) _) in *.
  pose proof Ha0 as (Wa1 & Ra1 & Ca1 & Ea1 & _). pose proof Hb0 as (Wb1 & Rb1 & Cb1 & Eb1 & _).
  apply wp_bind. eapply wp_mono; [apply mul_ok; [exact WI0|congruence|congruence|congruence]|]. cbv beta. intros y1 Hy1. rewrite S0. cbn [bind].
  pose proof (set0_ok f _ _ _ y1 _ I0 Hf Hy1) as Hc1. set (c1 := sl_set_x (mzd_slice_init ff (mp_nrows A) (mp_ncols B)) (upd (sl_x (mzd_slice_init ff (mp_nrows A) (mp_ncols B))) 0 y1)) in *.
  apply wp_bind. eapply wp_mono; [apply (points_ok Phi0 Phi2 a b [c0; c1]); auto|].
  { split; [|split; [|split; [|split]]].
    - eapply becomes_step; [exact B1|exact B2|]. cbv beta. intros r c Hr Hc. destruct (Nat.eqb_spec r 1) as [->|Hr1].
      + replace (c <? d) with true by lia. cbn [andb]. replace (1 <? 2) with true by lia. unfold alpha. now rewrite fpow_1.
      + cbn [andb]. rewrite (becomes_entry _ _ _ _ _ B1) by easy. destruct (Nat.ltb_spec r 2).
        * assert (r = 0) as -> by lia. cbn [Nat.eqb andb]. unfold alpha. rewrite fpow_0. destruct (c =? 0); [easy|apply E0].
        * replace (r =? 0) with false by lia. reflexivity.
    - eexists; exact Ha.
    - eexists; exact Hb.
    - reflexivity.
    - intros k Hk2. assert (Hk3 : k = 0 \/ k = 1) by lia. destruct Hk3 as [-> | ->]; cbn [nth].
      + destruct Hc0 as (V1 & V2 & V3 & V4 & V5). split; [exact V1|]. repeat (split; [assumption|]). intros r s Hr Hs. rewrite V5 by easy.
        unfold value, P. rewrite <- eval_product. change (alpha 0) with 0%N. rewrite CA0, <- mmul_b2N. unfold mmul. apply xsum_ext. intros t Ht. now rewrite !evalM_0.
      + destruct Hc1 as (V1 & V2 & V3 & V4 & V5). split; [exact V1|]. repeat (split; [assumption|]). intros r s Hr Hs. rewrite V5 by easy.
        unfold value, P. rewrite <- eval_product. change (alpha 1) with 1%N. rewrite Ca1, Ca0, <- mmul_b2N. unfold mmul. apply xsum_ext. intros t Ht.
        rewrite !evalM_1 by auto. rewrite Ea1, Eb1 by (rewrite ?Ra0, ?Ca0, ?Rb0, ?Cb0; lia). rewrite !init0_bit by lia. now rewrite !Bool.xorb_false_l. }
  cbv beta. intros [[[Phi a'] b'] c] (BP & _ & _ & Lc & Hc).
  pose proof (becomes_wf _ _ _ BP) as WP. pose proof (becomes_ff _ _ _ BP) as FP. pose proof (becomes_nr _ _ _ BP) as RP. pose proof (becomes_nc _ _ _ BP) as CP.
  assert (FPf : fld Phi = f) by congruence.
  assert (Einv : forall X, inverse f d (entry Phi) X <-> inverse f d (fun i k => fpow f (alpha i) k) X).
  { intros X. assert (EP : forall i k, i < d -> k < d -> entry Phi i k = fpow f (alpha i) k) by (intros i k Hi Hk3; rewrite (becomes_entry _ _ _ _ _ BP) by lia; now replace (i <? d) with true by lia).
    unfold inverse, inM, meq, mmul. split; intros (K1 & K2 & K3 & K4); (split; [|split; [exact K2|split]]).
    - intros i k Hi Hk3. cbv beta. now apply fpow_inF.
    - intros i k Hi Hk3. rewrite <- K3 by easy. apply xsum_ext. intros t Ht. now rewrite EP.
    - intros i k Hi Hk3. rewrite <- K4 by easy. apply xsum_ext. intros t Ht. now rewrite EP.
    - intros i k Hi Hk3. rewrite EP by easy. now apply fpow_inF.
    - intros i k Hi Hk3. rewrite <- K3 by easy. apply xsum_ext. intros t Ht. now rewrite EP.
    - intros i k Hi Hk3. rewrite <- K4 by easy. apply xsum_ext. intros t Ht. now rewrite EP. }
  assert (Hinv : invertible f d (entry Phi)).
  { destruct (vander_invertible f Hf Hirr d alpha) as [X HX]; [intros; now apply alpha_inF|intros i i' H3 _; unfold alpha; lia|]. exists X. now apply Einv. }
  apply wp_bind. eapply wp_mono; [apply (mzed_invert_newton_john_ok kk (Some Rho0) Phi)|].
  { exact WP. } { now rewrite FPf. } { exact Hk. } { congruence. } { rewrite FPf, RP, CP, RP0, CP0. cbn [target]. repeat (split; [assumption|]); assumption. } { rewrite FPf, RP, RP0. exact Hinv. }
  cbv beta. intros Rho (WR & FR & RR & CR & HR). rewrite FPf, RP, RP0 in HR. apply Einv in HR. rewrite FPf in FR. rewrite RP, RP0 in RR. rewrite CP, CP0 in CR.
  pose proof (wfp_shape C HC) as SC. rewrite RC, CC in SC. pose proof HC as (LC & _).
  apply wp_bind. eapply wp_mono; [apply (interpolate_ok Rho c _ (mp_x C) mzero); auto; lia|]. cbv beta. intros [tmp x] Hx. cbn [snd] in *. cbn [wp]. apply lbec_pbec; [exact HC| |].
  - eapply (lbec_ext _ _ _ _ (mp_nrows A) (mp_ncols B) SC Hx). intros r s _ _. now rewrite pentry_pv.
  - intros i c' Hi Hc'. apply lxor_lt_pow2; [now apply pentry_lt|]. unfold P. eapply N.lt_le_trans; [now apply pmmul_lt|]. apply N.pow_le_mono_r; unfold d in *; lia.
Qed.
End Ext1.
