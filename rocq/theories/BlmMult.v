(** blm_init_crt: the map multiplies. *)
From Coq Require Import NArith List Bool Arith Lia ZifyN ZifyNat ZifyBool.
From Verif Require Import Base Spec PolyFacts MatFacts SliceMul KaraProofs IrrProofs Gf2eModel MzdModel MzedSpec LinSpec SliceModel SliceSpec MzdFacts MzedProofs PermModel PleSpec PermProofs EchFacts DjbModel DjbSpec BlmTable BlmModel BlmSpec BlmFacts BlmCrt BlmFG BlmFin.
Import ListNotations.
Local Open Scope nat_scope.

Lemma pmul_bits nf ng a b i : (a < 2 ^ N.of_nat nf)%N -> (b < 2 ^ N.of_nat ng)%N ->
  N.testbit (pmul a b) (N.of_nat i) = bxsum nf (fun v => bxsum ng (fun w => N.testbit a (N.of_nat v) && N.testbit b (N.of_nat w) && (v + w =? i))).
Proof.
  intros Ha Hb. rewrite (bits_sum nf a Ha) at 1. rewrite pmul_xsum_l, xsum_testbit. apply bxsum_ext. intros v Hv.
  rewrite (bits_sum ng b Hb) at 1. rewrite pmul_xsum_r, xsum_testbit. apply bxsum_ext. intros w Hw.
  destruct (N.testbit a (N.of_nat v)); [|now rewrite pmul_0_l]. destruct (N.testbit b (N.of_nat w)); [|now rewrite pmul_0_r].
  cbn [andb]. rewrite pmul_pow2_l, N.shiftl_mul_pow2, <- N.pow_add_r, N.pow2_bits_eqb. lia.
Qed.
Lemma solves_mul F G H m nf ng a b i : mzd_ncols F = nf -> mzd_ncols G = ng -> solves F G m nf ng H -> i < nf + ng - 1 -> (a < 2 ^ N.of_nat nf)%N -> (b < 2 ^ N.of_nat ng)%N ->
  bxsum m (fun k => mbit H i k && (functional F k a && functional G k b)) = N.testbit (pmul a b) (N.of_nat i).
Proof.
  intros CF CG HS Hi Ha Hb. rewrite (pmul_bits nf ng) by easy. unfold functional. rewrite CF, CG.
  rewrite (bxsum_ext m _ (fun k => bxsum nf (fun v => bxsum ng (fun w => (N.testbit a (N.of_nat v) && N.testbit b (N.of_nat w)) && (mbit H i k && cval F G (v, w) k))))).
  - rewrite bxsum_swap. apply bxsum_ext. intros v Hv. rewrite bxsum_swap. apply bxsum_ext. intros w Hw. rewrite <- bxsum_and_l. now rewrite HS.
  - intros k Hk. rewrite bxsum_and_r, bxsum_and_l. apply bxsum_ext. intros v Hv. rewrite !bxsum_and_l. apply bxsum_ext. intros w Hw. unfold cval. cbn [fst snd].
    destruct (mbit H i k), (mbit F k v), (mbit G k w), (N.testbit a (N.of_nat v)), (N.testbit b (N.of_nat w)); easy.
Qed.
Lemma testbit_bilinear F G H a b i : N.testbit (bilinear F G H a b) (N.of_nat i) =
  (i <? mzd_nrows H) && bxsum (mzd_nrows F) (fun k => mbit H i k && (functional F k a && functional G k b)).
Proof. unfold bilinear. apply testbit_word_of_bits. Qed.
Lemma pmod_bits n c f i : f <> 0%N -> (c < 2 ^ N.of_nat n)%N -> N.testbit (pmod c f) i = bxsum n (fun j => N.testbit (pmod (2 ^ N.of_nat j) f) i && N.testbit c (N.of_nat j)).
Proof.
  intros Hf Hc. rewrite (bits_sum n c Hc) at 1. clear Hc. induction n as [|n IH]; cbn [xsum bxsum]; [rewrite pmod_0; apply N.bits_0|].
  rewrite pmod_lxor, N.lxor_spec, IH by easy. f_equal. destruct (N.testbit c (N.of_nat n)); [now rewrite andb_true_r|]. rewrite pmod_0, N.bits_0. now rewrite andb_false_r.
Qed.
Theorem finish_multiplies fuel x ff F G H0 nf ng : m4ri_ok x -> ff_fits ff -> wf_mzd F -> wf_mzd G -> mzd_nrows G = mzd_nrows F -> mzd_ncols F = nf -> mzd_ncols G = ng ->
  1 <= nf <= ng -> determined (mzd_nrows F) nf ng (mbit F) (mbit G) ->
  match blm_finish_polymult fuel x ff (Blm F G H0 None None None) with
  | None => True
  | Some r => exists H, r = Ok (Blm F G H None None None) /\ multiplies ff nf ng (Blm F G H None None None)
  end.
Proof.
  intros Hx Hff WF WG RG CF CG Hn Hdet. set (m := mzd_nrows F) in *. unfold blm_finish_polymult. cbn [bl_F bl_G]. fold m. rewrite CF, CG.
  fold (init_state m).
  pose proof (loop_partial x F G m nf ng Hx eq_refl RG CF CG ltac:(lia) ltac:(lia) fuel (init_state m)) as HL.
  specialize (HL (init_ok F G m nf ng eq_refl RG CF CG ltac:(lia) ltac:(lia))).
  destruct (finish_loop fuel x m nf ng (mzd_transpose F) (mzd_transpose G) (init_state m)) as [[s| |]|]; try easy. destruct HL as [Hs Hr].
  destruct (rest_ok x F G m nf ng Hx eq_refl RG CF CG ltac:(lia) ltac:(lia) (Blm F G H0 None None None) s Hdet eq_refl eq_refl Hs Hr) as (H & WH & RH & CH & HS & HE).
  rewrite HE. clear HE. cbn [bl_f bl_g bl_h].
  assert (Hlt : forall a b, (a < 2 ^ N.of_nat nf)%N -> (b < 2 ^ N.of_nat ng)%N -> (pmul a b < 2 ^ N.of_nat (nf + ng - 1))%N).
  { intros a b Ha Hb. replace (N.of_nat (nf + ng - 1)) with (N.of_nat nf + N.of_nat ng - 1)%N by lia. apply pmul_lt_pow2; auto. lia. }
  destruct ff as [k|].
  - destruct Hff as [D1 Hd]. assert (Hp0 : ff_minpoly k <> 0%N) by (intros E; rewrite E in Hd; cbn in Hd; lia).
    destruct (proj1 (wp_iff _ _) (modred_ok_deg (mzd_nrows H) (ff_minpoly k) (ff_degree k) Hp0 Hd D1)) as (NN & EN & BN). rewrite EN. cbn [bind].
    pose proof (mset_nr _ _ _ BN) as RN. pose proof (mset_nc _ _ _ BN) as CN. cbn [mzd_init mzd_nrows mzd_ncols] in RN, CN.
    destruct (proj1 (wp_iff _ _) (mul_ok (mzd_init (mzd_nrows NN) (mzd_ncols H)) NN H (wf_init _ _) ltac:(lia) eq_refl eq_refl)) as (H' & EH & BH). rewrite EH. cbn [bind].
    pose proof (mgot_wf _ _ _ BH) as WH'. pose proof (mgot_nr _ _ _ BH) as RH'. pose proof (mgot_nc _ _ _ BH) as CH'. cbn [mzd_init mzd_nrows mzd_ncols] in RH', CH'.
    exists H'. split; [easy|]. unfold multiplies. cbn [bl_F bl_G bl_H]. split; [easy|]. split; [easy|]. split; [easy|]. split; [easy|]. split; [easy|]. split; [easy|].
    split; [fold m; lia|]. split; [lia|]. intros a b Ha Hb. apply N.bits_inj. intros i. rewrite <- (N2Nat.id i). set (j := N.to_nat i). rewrite testbit_bilinear. fold m.
    rewrite (pmod_bits (nf + ng - 1)) by auto. rewrite RH', RN. destruct (Nat.ltb_spec j (ff_degree k)) as [Hj|Hj]; cbn [andb].
    + rewrite (bxsum_ext m _ (fun q => bxsum (nf + ng - 1) (fun t => mbit NN j t && (mbit H t q && (functional F q a && functional G q b))))).
      * rewrite bxsum_swap. apply bxsum_ext. intros t Ht. rewrite <- bxsum_and_l. rewrite (solves_mul F G H m nf ng) by easy.
        now rewrite (mset_bit _ _ _ _ _ BN) by (cbn [mzd_init mzd_nrows mzd_ncols]; lia).
      * intros q Hq. rewrite (mgot_bit _ _ _ _ _ BH) by (cbn [mzd_init mzd_nrows mzd_ncols]; lia). unfold bmul. rewrite CN, RH, bxsum_and_r. apply bxsum_ext. intros t Ht. symmetry. apply andb_assoc.
    + symmetry. apply bxsum_0. intros t Ht. apply andb_false_intro1. pose proof (pmod_lt (2 ^ N.of_nat t) (ff_minpoly k) Hp0) as Hl. rewrite Hd in Hl.
      apply (proj1 (lt_pow2_bits _ _) Hl). lia.
  - cbn [bind]. exists H. split; [easy|]. unfold multiplies. cbn [bl_F bl_G bl_H]. split; [easy|]. split; [easy|]. split; [easy|]. split; [easy|]. split; [easy|]. split; [easy|].
    split; [fold m; lia|]. split; [lia|]. intros a b Ha Hb. apply N.bits_inj. intros i. rewrite <- (N2Nat.id i). set (j := N.to_nat i). rewrite testbit_bilinear. fold m. rewrite RH.
    destruct (Nat.ltb_spec j (nf + ng - 1)) as [Hj|Hj]; cbn [andb]; [now apply (solves_mul F G H m nf ng)|].
    symmetry. apply (proj1 (lt_pow2_bits _ _) (Hlt a b Ha Hb)). lia.
Qed.
