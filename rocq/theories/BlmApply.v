(** Applying bilinear maps to vectors of matrices. *)
From Coq Require Import NArith List Bool Arith Lia ZifyN ZifyNat ZifyBool.
From Verif Require Import Base Spec PolyFacts MatFacts SliceMul KaraProofs Gf2eModel MzdModel MzedSpec SliceModel SliceSpec MzdFacts MzedProofs MzedOps2 SliceProofs DjbModel DjbSpec DjbProofs BlmModel BlmSpec BlmFacts BlmMult.
Import ListNotations.
Local Open Scope nat_scope.

(** the polynomial H ((F A) x (G B)) at position (i, c), k the inner dimension *)
Definition blm_prod (f : blm) (k : nat) (A B : list mzd) (i c : nat) : N :=
  xsum k (fun t => bilinear (bl_F f) (bl_G f) (bl_H f) (pv A i t) (pv B t c)).
Definition blm_shape (f : blm) : Prop := wf_mzd (bl_F f) /\ wf_mzd (bl_G f) /\ wf_mzd (bl_H f) /\
  mzd_nrows (bl_G f) = mzd_nrows (bl_F f) /\ mzd_ncols (bl_H f) = mzd_nrows (bl_F f).

Lemma functional_pv M k X i c : length X = mzd_ncols M -> functional M k (pv X i c) = bxsum (mzd_ncols M) (fun j => mbit M k j && mbit (nth j X dm) i c).
Proof. intros L. unfold functional. apply bxsum_ext. intros j Hj. rewrite pv_bit by lia. easy. Qed.
Lemma blm_row_ok M k X t m n : k < mzd_nrows M -> shape X m n -> length X = mzd_ncols M -> wf_mzd t -> mzd_nrows t = m -> mzd_ncols t = n ->
  wp (blm_row M k X t) (fun t' => mset t t' (fun i c => functional M k (pv X i c))).
Proof.
  intros Hk SX L Wt E1 E2. unfold blm_row.
  eapply wp_mono; [apply (wp_for (fun q t' => mset t t' (fun i c => bxsum q (fun j => mbit M k j && mbit (nth j X dm) i c))))|].
  - lia.
  - eapply mset_ext; [apply set_ui_ok; easy|]. easy.
  - intros j t' Hj Ht'. rewrite read_bit_ok by lia. cbn [bind]. pose proof (mset_nr _ _ _ Ht') as R. pose proof (mset_nc _ _ _ Ht') as Cc. pose proof (mset_wf _ _ _ Ht') as W'.
    destruct (mbit M k j) eqn:Eb.
    + rewrite (lget_ok X j dm) by lia. cbn [bind]. destruct (SX j ltac:(lia)) as (Wj & Rj & Cj).
      eapply wp_mono; [apply add_ok; [easy|lia|lia|lia|lia]|]. cbv beta. intros t2 Ht2. eapply mset_step; [exact Ht'|exact Ht2|]. cbv beta. intros i c Hi Hc.
      rewrite (mset_bit _ _ _ _ _ Ht') by lia. cbn [bxsum]. now rewrite Eb.
    + cbn [wp]. eapply mset_ext; [exact Ht'|]. cbv beta. intros i c Hi Hc. cbn [bxsum]. rewrite Eb. cbn [andb]. now rewrite xorb_false_r.
  - cbv beta. intros t' Ht'. eapply mset_ext; [exact Ht'|]. cbv beta. intros i c _ _. now rewrite functional_pv.
Qed.
Lemma xsum_if_pow n (b : nat -> bool) : xsum n (fun j => if b j then (2 ^ N.of_nat j)%N else 0%N) = word_of_bits n b.
Proof.
  rewrite (bits_sum n (word_of_bits n b)) by apply word_of_bits_lt. apply xsum_ext. intros i Hi. rewrite testbit_word_of_bits. now replace (i <? n) with true by lia.
Qed.
(** the columns 0 .. q-1 of H *)
Definition part_sum (f : blm) (q k : nat) (A B : list mzd) (i c : nat) : N :=
  word_of_bits (mzd_nrows (bl_H f)) (fun j => bxsum q (fun l => mbit (bl_H f) j l && bxsum k (fun t => functional (bl_F f) l (pv A i t) && functional (bl_G f) l (pv B t c)))).
Lemma part_sum_all f k A B i c : part_sum f (mzd_nrows (bl_F f)) k A B i c = blm_prod f k A B i c.
Proof.
  apply N.bits_inj. intros b. rewrite <- (N2Nat.id b). set (j := N.to_nat b). unfold part_sum, blm_prod. rewrite xsum_testbit, testbit_word_of_bits.
  destruct (Nat.ltb_spec j (mzd_nrows (bl_H f))) as [Hj|Hj]; cbn [andb].
  - rewrite (bxsum_ext k _ (fun t => bxsum (mzd_nrows (bl_F f)) (fun l => mbit (bl_H f) j l && (functional (bl_F f) l (pv A i t) && functional (bl_G f) l (pv B t c))))).
    + rewrite bxsum_swap. apply bxsum_ext. intros l Hl. apply bxsum_and_l.
    + intros t Ht. rewrite testbit_bilinear. now replace (j <? mzd_nrows (bl_H f)) with true by lia.
  - symmetry. apply bxsum_0. intros t Ht. rewrite testbit_bilinear. now replace (j <? mzd_nrows (bl_H f)) with false by lia.
Qed.
Lemma part_sum_lt f q k A B i c n : mzd_nrows (bl_H f) <= n -> (part_sum f q k A B i c < 2 ^ N.of_nat n)%N.
Proof. intros H. eapply N.lt_le_trans; [apply word_of_bits_lt|]. apply N.pow_le_mono_r; lia. Qed.
Theorem apply_mzd_ok X A B f m k n : blm_shape f -> shape X m n -> shape A m k -> shape B k n -> 1 <= mzd_ncols (bl_F f) -> 1 <= mzd_ncols (bl_G f) ->
  length A = mzd_ncols (bl_F f) -> length B = mzd_ncols (bl_G f) -> mzd_nrows (bl_H f) <= length X ->
  wp (ptr_apply_blm_mzd X A B f) (fun X' => lbec X X' (fun i c => N.lxor (pv X i c) (blm_prod f k A B i c))).
Proof.
  intros (WF & WG & WH & RG & CH) SX SA SB HF HG LA LB LX. unfold ptr_apply_blm_mzd. rewrite CH, RG, Nat.eqb_refl. cbn [andb guard bind].
  rewrite (lget_ok A 0 dm) by lia. cbn [bind]. rewrite (lget_ok B 0 dm) by lia. cbn [bind].
  destruct (SA 0 ltac:(lia)) as (_ & RA & CA). destruct (SB 0 ltac:(lia)) as (_ & RB & CB). rewrite RA, CA, RB, CB.
  set (ok := fun (a b : nat) (t : mzd) => wf_mzd t /\ mzd_nrows t = a /\ mzd_ncols t = b).
  apply wp_bind. eapply wp_mono; [apply (wp_for (fun q st => let '(X', t0, t1, t2) := st in
     lbec X X' (fun i c => N.lxor (pv X i c) (part_sum f q k A B i c)) /\ ok m n t0 /\ ok m k t1 /\ ok k n t2))|].
  - lia.
  - split; [|split; [split; [apply wf_init|now split]|split; (split; [apply wf_init|now split])]]. eapply lbec_ext; [exact SX|now apply (lbec_refl X m n)|]. cbv beta. intros i c _ _.
    unfold part_sum. cbn [bxsum]. rewrite <- xsum_if_pow, xsum_0 by easy. now rewrite N.lxor_0_r.
  - intros l [[[X' t0] t1] t2] Hl (HX' & (W0 & R0 & C0) & (W1 & R1 & C1) & (W2 & R2 & C2)).
    apply wp_bind. eapply wp_mono; [apply (blm_row_ok (bl_F f) l A t1 m k); [lia|easy|easy|easy|easy|easy]|]. cbv beta. intros u1 H1.
    apply wp_bind. eapply wp_mono; [apply (blm_row_ok (bl_G f) l B t2 k n); [lia|easy|easy|easy|easy|easy]|]. cbv beta. intros u2 H2.
    pose proof (mset_nr _ _ _ H1) as R1'. pose proof (mset_nc _ _ _ H1) as C1'. pose proof (mset_nr _ _ _ H2) as R2'. pose proof (mset_nc _ _ _ H2) as C2'.
    apply wp_bind. eapply wp_mono; [apply mul_ok; [easy|lia|lia|lia]|]. cbv beta. intros u0 H0.
    pose proof (mgot_nr _ _ _ H0) as R0'. pose proof (mgot_nc _ _ _ H0) as C0'. pose proof (mgot_wf _ _ _ H0) as W0'.
    assert (B0 : forall i c, i < m -> c < n -> mbit u0 i c = bxsum k (fun t => functional (bl_F f) l (pv A i t) && functional (bl_G f) l (pv B t c))).
    { intros i c Hi Hc. rewrite (mgot_bit _ _ _ _ _ H0) by lia. unfold bmul. rewrite C1', C1. apply bxsum_ext. intros t Ht.
      rewrite (mset_bit _ _ _ _ _ H1) by lia. now rewrite (mset_bit _ _ _ _ _ H2) by lia. }
    pose proof (lbec_shape _ _ _ _ _ SX HX') as SX'. assert (LX' : length X' = length X) by apply HX'.
    apply wp_bind. eapply wp_mono; [apply (wp_for (fun q X2 => lbec X X2 (fun i c => N.lxor (N.lxor (pv X i c) (part_sum f l k A B i c))
        (word_of_bits q (fun j => mbit (bl_H f) j l && bxsum k (fun t => functional (bl_F f) l (pv A i t) && functional (bl_G f) l (pv B t c)))))))|].
    + lia.
    + eapply lbec_ext; [exact SX|exact HX'|]. cbv beta. intros i c _ _. cbn [word_of_bits]. now rewrite N.lxor_0_r.
    + intros j X2 Hj HX2. rewrite read_bit_ok by lia. cbn [bind]. pose proof (lbec_shape _ _ _ _ _ SX HX2) as SX2. assert (LX2 : length X2 = length X) by apply HX2.
      destruct (mbit (bl_H f) j l) eqn:Eb.
      * eapply wp_mono; [apply (modred_ok None u0 X2 j m n); [easy|cbn [tok]; lia|easy|easy|lia|lia]|]. cbv beta. intros X3 HX3. cbn [redp] in HX3.
        eapply lbec_step; [exact SX|exact HX2|exact HX3|]. cbv beta. intros i c Hi Hc. rewrite (lbec_pv X X2 _ m n i c SX HX2 Hi Hc).
        -- rewrite N.lxor_assoc. f_equal. rewrite <- !xsum_if_pow. cbn [xsum]. f_equal. rewrite B0 by easy. now rewrite Eb.
        -- apply lxor_lt; [apply lxor_lt; [apply pv_lt|now apply part_sum_lt]|]. eapply N.lt_le_trans; [apply word_of_bits_lt|]. apply N.pow_le_mono_r; lia.
      * cbn [wp]. eapply lbec_ext; [exact SX|exact HX2|]. cbv beta. intros i c Hi Hc. f_equal. rewrite <- !xsum_if_pow. cbn [xsum]. rewrite Eb. cbn [andb]. now rewrite N.lxor_0_r.
    + cbv beta. intros X2 HX2. cbn [wp]. split; [|split; [split; [easy|split; lia]|split; (split; [now apply (mset_wf _ _ _ H1) || now apply (mset_wf _ _ _ H2)|split; lia])]].
      eapply lbec_ext; [exact SX|exact HX2|]. cbv beta. intros i c Hi Hc. rewrite N.lxor_assoc. f_equal. unfold part_sum. apply N.bits_inj. intros b. rewrite <- (N2Nat.id b).
      rewrite N.lxor_spec, !testbit_word_of_bits. destruct (_ <? mzd_nrows (bl_H f)); [|easy]. now cbn [bxsum andb].
  - cbv beta. intros [[[X' t0] t1] t2] (HX' & _). cbn [wp]. eapply lbec_ext; [exact SX|exact HX'|]. cbv beta. intros i c _ _. now rewrite part_sum_all.
Qed.
Lemma high_bit d v i : N.testbit (high d v) (N.of_nat i) = (d <=? i) && N.testbit v (N.of_nat i).
Proof.
  unfold high. destruct (Nat.leb_spec d i) as [Hi|Hi]; cbn [andb].
  - rewrite N.shiftl_spec_high', N.shiftr_spec' by lia. f_equal. lia.
  - rewrite N.shiftl_spec_low by lia. easy.
Qed.
Lemma high_small d v : (v < 2 ^ N.of_nat d)%N -> high d v = 0%N.
Proof. intros H. unfold high. rewrite N.shiftr_div_pow2, N.div_small by easy. apply N.shiftl_0_l. Qed.
Definition rows_nonzero (M : mzd) : Prop := forall i, i < mzd_nrows M -> exists j, j < mzd_ncols M /\ mbit M i j = true.
Lemma written_nonzero M d i : compile_contract M d -> rows_nonzero M -> i < mzd_nrows M -> written (dj_prog d) i = true.
Proof.
  intros (_ & _ & _ & HC) HN Hi. specialize (HC i Hi). destruct (written (dj_prog d) i); [easy|]. destruct (HN i Hi) as (j & Hj & Ej). rewrite HC in Ej by easy. discriminate Ej.
Qed.
Lemma djb_map_ok M d V W m n : compile_contract M d -> shape W m n -> shape V m n -> length V = mzd_ncols M -> mzd_nrows M <= length W ->
  wp (djb_apply_mzd_ptr d W V) (fun W' => length W' = length W /\ shape W' m n /\
    (forall k, k < length W -> mset (nth k W dm) (nth k W' dm) (fun i c => if written (dj_prog d) k then functional M k (pv V i c) else mbit (nth k W dm) i c)) /\
    forall k i c, k < mzd_nrows M -> i < m -> c < n -> (written (dj_prog d) k = true \/ mbit (nth k W dm) i c = false) -> mbit (nth k W' dm) i c = functional M k (pv V i c)).
Proof.
  intros (Cr & Cc & HC) SW SV LV LW. eapply wp_mono; [apply (djb_apply_ok d (mbit M) W V m n SW SV); [lia|lia|now rewrite Cr, Cc]|]. cbv beta. intros W' (L & HW').
  split; [easy|]. split; [|split].
  - intros b Hb. rewrite L in Hb. specialize (HW' b Hb). destruct (SW b Hb) as (_ & S1 & S2). split; [exact (mset_wf _ _ _ HW')|]. split; [rewrite <- S1; exact (mset_nr _ _ _ HW')|rewrite <- S2; exact (mset_nc _ _ _ HW')].
  - intros k Hk. eapply mset_ext; [now apply HW'|]. cbv beta. intros i c _ _. rewrite functional_pv by easy. now rewrite LV.
  - intros k i c Hk Hi Hc Hw. specialize (HW' k ltac:(lia)). destruct (SW k ltac:(lia)) as (_ & S1 & S2). rewrite (mset_bit _ _ _ _ _ HW') by lia. rewrite functional_pv by easy. rewrite LV.
    destruct (written (dj_prog d) k) eqn:Ew; [easy|]. destruct Hw as [Hw|Hw]; [discriminate Hw|]. rewrite Hw. symmetry. apply bxsum_0. intros j Hj.
    destruct HC as (_ & HC). specialize (HC k ltac:(lia)). rewrite Ew in HC. now rewrite HC.
Qed.
Lemma shape_repeat m n k : shape (repeat (mzd_init m n) k) m n.
Proof. intros b Hb. rewrite repeat_length in Hb. assert (In (nth b (repeat (mzd_init m n) k) dm) (repeat (mzd_init m n) k)) as Hi by (apply nth_In; now rewrite repeat_length). apply repeat_spec in Hi. rewrite Hi. split; [apply wf_init|now split]. Qed.
Lemma nth_repeat_bit m n k b i c : mbit (nth b (repeat (mzd_init m n) k) dm) i c = false.
Proof.
  destruct (Nat.lt_ge_cases b k) as [Hb|Hb].
  - assert (In (nth b (repeat (mzd_init m n) k) dm) (repeat (mzd_init m n) k)) as Hi by (apply nth_In; now rewrite repeat_length). apply repeat_spec in Hi. rewrite Hi. apply init_bit.
  - rewrite nth_overflow by (rewrite repeat_length; lia). apply (init_bit 0 0).
Qed.
Theorem apply_djb_ok X A B f m k n : blm_shape f -> compiled f -> rows_nonzero (bl_H f) -> shape X m n -> shape A m k -> shape B k n -> 1 <= mzd_ncols (bl_F f) -> 1 <= mzd_ncols (bl_G f) ->
  length A = mzd_ncols (bl_F f) -> length B = mzd_ncols (bl_G f) -> mzd_nrows (bl_H f) <= length X ->
  wp (ptr_apply_blm_djb X A B f) (fun X' => lbec X X' (fun i c => N.lxor (high (mzd_nrows (bl_H f)) (pv X i c)) (blm_prod f k A B i c))).
Proof.
  intros (WF & WG & WH & RG & CH) (pf & pg & ph & Ef & Eg & Eh & Kf & Kg & Kh) HN SX SA SB HF HG LA LB LX.
  unfold ptr_apply_blm_djb. rewrite CH, RG, Nat.eqb_refl. cbn [andb guard bind]. rewrite Ef, Eg, Eh.
  rewrite (lget_ok A 0 dm) by lia. cbn [bind]. rewrite (lget_ok B 0 dm) by lia. cbn [bind].
  destruct (SA 0 ltac:(lia)) as (_ & RA & CA). destruct (SB 0 ltac:(lia)) as (_ & RB & CB). rewrite RA, CA, RB, CB. set (mm := mzd_nrows (bl_F f)) in *.
  apply wp_bind. eapply wp_mono; [apply (djb_map_ok (bl_F f) pf A _ m k Kf (shape_repeat _ _ _) SA LA); rewrite repeat_length; unfold mm; lia|]. cbv beta.
  intros t1 (L1 & S1 & _ & H1). rewrite repeat_length in L1.
  apply wp_bind. eapply wp_mono; [apply (djb_map_ok (bl_G f) pg B _ k n Kg (shape_repeat _ _ _) SB LB); rewrite repeat_length; unfold mm; lia|]. cbv beta.
  intros t2 (L2 & S2 & _ & H2). rewrite repeat_length in L2.
  apply wp_bind. eapply wp_mono; [apply (wp_for (fun q t0 => length t0 = q /\ shape t0 m n /\ forall l i c, l < q -> i < m -> c < n ->
      mbit (nth l t0 dm) i c = bxsum k (fun t => functional (bl_F f) l (pv A i t) && functional (bl_G f) l (pv B t c))))|].
  - lia.
  - split; [easy|]. split; [intros b Hb; cbn in Hb; lia|]. intros; lia.
  - intros l t0 Hl (L0 & S0 & H0). rewrite (lget_ok t1 l dm), (lget_ok t2 l dm) by lia. cbn [bind]. destruct (S1 l ltac:(lia)) as (W1 & R1 & C1). destruct (S2 l ltac:(lia)) as (W2 & R2 & C2).
    apply wp_bind. eapply wp_mono; [apply mul_ok; [apply wf_init|lia|cbn [mzd_init mzd_nrows]; lia|cbn [mzd_init mzd_ncols]; lia]|]. cbv beta. intros z Hz. cbn [wp].
    pose proof (mgot_nr _ _ _ Hz) as Rz. pose proof (mgot_nc _ _ _ Hz) as Cz. pose proof (mgot_wf _ _ _ Hz) as Wz. cbn [mzd_init mzd_nrows mzd_ncols] in Rz, Cz.
    split; [rewrite app_length; cbn; lia|]. split.
    + intros b Hb. rewrite app_length in Hb. cbn [length] in Hb. destruct (Nat.eq_dec b l) as [->|Hne]; [rewrite app_nth2, L0, Nat.sub_diag by lia; now cbn [nth]|rewrite app_nth1 by lia; apply S0; lia].
    + intros b i c Hb Hi Hc. destruct (Nat.eq_dec b l) as [->|Hne]; [rewrite app_nth2, L0, Nat.sub_diag by lia; cbn [nth]|rewrite app_nth1 by lia; apply H0; lia].
      rewrite (mgot_bit _ _ _ _ _ Hz) by (cbn [mzd_init mzd_nrows mzd_ncols]; lia). unfold bmul. rewrite C1. apply bxsum_ext. intros t Ht.
      rewrite H1 by (try (unfold mm in *; lia); right; apply nth_repeat_bit). rewrite H2 by (try (unfold mm in *; lia); right; apply nth_repeat_bit). easy.
  - cbv beta. intros t0 (L0 & S0 & H0).
    eapply wp_mono; [apply (djb_map_ok (bl_H f) ph t0 X m n Kh SX S0); lia|]. cbv beta. intros X' (LX' & SX' & HX' & HW). split; [easy|]. intros b Hb. destruct (SX b Hb) as (Wb & Rb & Cb).
    eapply mset_ext; [now apply HX'|]. cbv beta. intros i c Hi Hc. rewrite Rb in Hi. rewrite Cb in Hc. rewrite N.lxor_spec, high_bit.
    destruct (Nat.lt_ge_cases b (mzd_nrows (bl_H f))) as [Hbh|Hbh].
    + rewrite (written_nonzero (bl_H f)) by easy. replace (mzd_nrows (bl_H f) <=? b) with false by lia. cbn [andb].
      rewrite <- part_sum_all. unfold part_sum. rewrite testbit_word_of_bits. replace (b <? mzd_nrows (bl_H f)) with true by lia. cbn [andb].
      rewrite functional_pv by lia. rewrite CH. fold mm. rewrite xorb_false_l. apply bxsum_ext. intros l Hl. now rewrite H0.
    + replace (written (dj_prog ph) b) with false.
      * replace (mzd_nrows (bl_H f) <=? b) with true by lia. cbn [andb]. rewrite <- pv_bit by easy. rewrite <- part_sum_all. unfold part_sum. rewrite testbit_word_of_bits.
        replace (b <? mzd_nrows (bl_H f)) with false by lia. cbn [andb]. now rewrite xorb_false_r.
      * symmetry. destruct (written (dj_prog ph) b) eqn:Ew; [|easy]. unfold written in Ew. apply existsb_exists in Ew. destruct Ew as ([[t' s'] ty] & Hin & E). cbn [fst] in E.
        destruct Kh as (_ & _ & Kh & _). destruct (Kh _ _ _ Hin) as [Hr _]. lia.
Qed.
