(** Proofs about matrices over GF(2)[x]. *)
From Coq Require Import NArith ZArith Lia List Bool Arith.
From Coq Require Import ZifyBool ZifyNat ZifyN.
From Verif Require Import Base Spec PolyFacts MatFacts Gf2xModel Gf2eModel MzdModel MzedSpec LaneFacts MzedProofs SliceModel SliceSpec MzdFacts SliceProofs SliceOps SliceMul KaratsubaTable KaraModel KaraProofs PolyMatModel PolyMatSpec.
Import ListNotations.
Local Open Scope nat_scope.

Lemma nth_repeat_lt {T} (a d : T) n k : k < n -> nth k (repeat a n) d = a.
Proof. revert k. induction n as [|n IH]; intros [|k] Hk; cbn; try lia; [reflexivity|]. apply IH. lia. Qed.
Lemma fold_bits_bit l i c : forall b, N.testbit (fold_right (fun M acc => N.b2n (mbit M i c) + 2 * acc)%N 0%N l) (N.of_nat b) = if b <? length l then mbit (nth b l dm) i c else false.
Proof.
  induction l as [|M l IH]; intros b; cbn [fold_right length nth].
  - now rewrite N.bits_0.
  - destruct b as [|b].
    + change (N.of_nat 0) with 0%N. rewrite N.add_b2n_double_bit0. reflexivity.
    + rewrite Nat2N.inj_succ, N.add_comm, N.testbit_succ_r. rewrite IH. reflexivity.
Qed.
Lemma pentry_pv A i c : pentry A i c = pv (mp_x A) i c.
Proof.
  apply N.bits_inj. intros b. rewrite <- (N2Nat.id b). unfold pentry. rewrite fold_bits_bit. unfold pv. now rewrite testbit_word_of_bits.
Qed.
Lemma wfp_shape A : wf_mpoly A -> shape (mp_x A) (mp_nrows A) (mp_ncols A).
Proof. intros (_ & _ & H) b Hb. apply H. now apply nth_In. Qed.
Lemma shape_wf A x : wf_mpoly A -> length x = mp_depth A -> shape x (mp_nrows A) (mp_ncols A) -> wf_mpoly (mp_set_x A x).
Proof.
  intros (H1 & H2 & H3) L S1. split; [exact L|]. split; [exact H2|]. cbn [mp_set_x mp_x mp_nrows mp_ncols]. intros M HM.
  destruct (In_nth _ _ dm HM) as (b & Hb & <-). now apply S1.
Qed.
Lemma lbec_pbec A x F : wf_mpoly A -> lbec (mp_x A) x F -> (forall i c, i < mp_nrows A -> c < mp_ncols A -> (F i c < 2 ^ N.of_nat (mp_depth A))%N) -> pbecomes A (mp_set_x A x) F.
Proof.
  intros HA HL HF. pose proof (wfp_shape A HA) as SA. pose proof HA as (L & _). pose proof (proj1 HL) as Lx.
  split; [apply shape_wf; [exact HA|lia|exact (lbec_shape _ _ _ _ _ SA HL)]|]. repeat (split; [reflexivity|]). split.
  - intros i c Hi Hc. rewrite pentry_pv. cbn [mp_set_x mp_x]. apply (lbec_pv (mp_x A) x F _ _ i c SA HL Hi Hc). rewrite L. now apply HF.
  - intros k i c Hk Hi Hc. cbn [mp_set_x mp_x]. destruct (proj2 HL k ltac:(lia)) as (_ & _ & _ & _ & Hp). destruct (SA k ltac:(lia)) as (_ & E1 & E2).
    rewrite (nth_indep x _ dm), (nth_indep (mp_x A) _ dm) by lia. apply Hp; rewrite ?E1, ?E2; lia.
Qed.
Lemma pb_refl A : wf_mpoly A -> pbecomes A A (pentry A).
Proof. intros H. split; [exact H|]. now repeat split. Qed.
Lemma pb_ext A A' F G : pbecomes A A' F -> (forall i c, i < mp_nrows A -> c < mp_ncols A -> F i c = G i c) -> pbecomes A A' G.
Proof.
  intros (H1 & H2 & H3 & H4 & H5 & H6 & H7) E. split; [exact H1|]. split; [exact H2|]. split; [exact H3|]. split; [exact H4|]. split; [exact H5|]. split; [|exact H7].
  intros i c Hi Hc. rewrite H6 by easy. now apply E.
Qed.
Lemma init_wf d m n : wf_mpoly (mzd_poly_init d m n).
Proof.
  split; [apply repeat_length|]. split; [cbn; lia|]. intros M HM. apply repeat_spec in HM. subst M. split; [apply wf_init|split; reflexivity].
Qed.
Lemma init_pentry d m n i c : pentry (mzd_poly_init d m n) i c = 0%N.
Proof.
  rewrite pentry_pv. apply N.bits_inj. intros b. rewrite N.bits_0. rewrite <- (N2Nat.id b). unfold pv. rewrite testbit_word_of_bits. destruct (_ <? _) eqn:E; [|reflexivity].
  cbn [mzd_poly_init mp_x] in *. rewrite repeat_length in E. rewrite nth_repeat_lt by lia. apply init_bit.
Qed.
Lemma pentry_lt A i c : wf_mpoly A -> (pentry A i c < 2 ^ N.of_nat (mp_depth A))%N.
Proof. intros (L & _). rewrite pentry_pv, <- L. apply pv_lt. Qed.
Lemma pmmul_lt A B l i c : wf_mpoly A -> wf_mpoly B -> (pmmul l (pentry A) (pentry B) i c < 2 ^ N.of_nat (mp_depth A + mp_depth B - 1))%N.
Proof.
  intros HA HB. unfold pmmul. apply xsum_lt. intros t _. pose proof (pentry_lt A i t HA) as La. pose proof (pentry_lt B t c HB) as Lb.
  destruct (Nat.eq_dec (mp_depth A) 0) as [E|Na].
  - rewrite E in La. change (2 ^ N.of_nat 0)%N with 1%N in La. replace (pentry A i t) with 0%N by lia. rewrite pmul_0_l. apply N.neq_0_lt_0, N.pow_nonzero. lia.
  - replace (N.of_nat (mp_depth A + mp_depth B - 1)) with (N.of_nat (mp_depth A) + N.of_nat (mp_depth B) - 1)%N by lia. apply pmul_lt_pow2; auto. lia.
Qed.

(** ** addition *)
Lemma ptr_add_ok c a b m n len : shape c m n -> shape a m n -> shape b m n -> len <= length c -> len <= length a -> len <= length b ->
  wp (ptr_add c a b len) (fun c' => length c' = length c /\ forall k, k < length c -> mset (nth k c dm) (nth k c' dm)
     (fun i j => if k <? len then xorb (mbit (nth k a dm) i j) (mbit (nth k b dm) i j) else mbit (nth k c dm) i j)).
Proof.
  intros Hc Ha Hb Lc La Lb. unfold ptr_add.
  eapply wp_mono; [apply (wp_for_down (fun p c' => length c' = length c /\ forall k, k < length c -> mset (nth k c dm) (nth k c' dm)
     (fun i j => if (p <=? k) && (k <? len) then xorb (mbit (nth k a dm) i j) (mbit (nth k b dm) i j) else mbit (nth k c dm) i j))); [lia| |]|].
  - split; [reflexivity|]. intros k Hk. eapply mset_ext; [apply mset_refl; now apply Hc|]. intros i j _ _. cbv beta. now replace ((len <=? k) && (k <? len)) with false by lia.
  - intros p c' Hp (L & H). destruct (Hc p ltac:(lia)) as (C1 & C2 & C3). destruct (Ha p ltac:(lia)) as (A1 & A2 & A3). destruct (Hb p ltac:(lia)) as (B1 & B2 & B3).
    rewrite (lget_ok c' p dm), (lget_ok a p dm), (lget_ok b p dm) by lia. cbn [bind].
    pose proof (H p ltac:(lia)) as Hm. pose proof (mset_nr _ _ _ Hm) as Nr. pose proof (mset_nc _ _ _ Hm) as Nc.
    apply wp_bind. eapply wp_mono; [apply (add_ok (nth p c' dm) (nth p a dm) (nth p b dm)); [exact (mset_wf _ _ _ Hm)|lia|lia|lia|lia]|].
    cbv beta. intros y Hy. rewrite lset_ok by lia. cbn [wp]. split; [rewrite upd_length; exact L|]. intros k Hk. rewrite nth_upd by lia.
    destruct (Nat.eqb_spec p k) as [<-|Hne].
    + eapply mset_step; [exact Hm|exact Hy|]. cbv beta. intros i j _ _. now replace ((p <=? p) && (p <? len)) with true by lia.
    + eapply mset_ext; [now apply H|]. cbv beta. intros i j _ _. now replace ((p <=? k) && (k <? len)) with ((S p <=? k) && (k <? len)) by lia.
  - cbv beta. intros c' (L & H). split; [exact L|]. intros k Hk. eapply mset_ext; [now apply H|]. cbv beta. intros i j _ _. reflexivity.
Qed.
Theorem poly_add_ok C A B : wf_mpoly A -> wf_mpoly B -> wf_mpoly C -> mp_depth A = mp_depth B -> mp_depth A <= mp_depth C ->
  mp_nrows A = mp_nrows C -> mp_ncols A = mp_ncols C -> mp_nrows B = mp_nrows C -> mp_ncols B = mp_ncols C ->
  wp (mzd_poly_add C A B) (fun C' => pbecomes C C' (fun i c =>
     N.lxor (N.lxor (pentry A i c) (pentry B i c)) (N.shiftl (N.shiftr (pentry C i c) (N.of_nat (mp_depth A))) (N.of_nat (mp_depth A))))).
Proof.
  intros HA HB HC ED Ed E1 E2 E3 E4. unfold mzd_poly_add. replace ((mp_depth A <=? mp_depth C) && (mp_depth A =? mp_depth B)) with true by lia. cbn [guard bind].
  unfold mzd_poly_add_. cbn [skipn firstn app]. pose proof HA as (LA & _). pose proof HB as (LB & _). pose proof HC as (LC & _).
  apply wp_bind. eapply wp_mono; [apply (ptr_add_ok _ _ _ (mp_nrows C) (mp_ncols C))|].
  - now apply wfp_shape.
  - rewrite <- E1, <- E2. now apply wfp_shape.
  - rewrite <- E3, <- E4. now apply wfp_shape.
  - lia.
  - lia.
  - lia.
  - cbv beta. intros x (L & H). cbn [wp]. apply lbec_pbec; [exact HC| |].
    + split; [exact L|]. intros b Hb. eapply mset_ext; [now apply H|]. cbv beta. intros i c Hi Hc. rewrite !N.lxor_spec, !pentry_pv.
      destruct (Nat.ltb_spec b (mp_depth A)).
      * rewrite N.shiftl_spec_low by lia. rewrite xorb_false_r. rewrite !pv_bit by lia. reflexivity.
      * rewrite N.shiftl_spec_high by lia. rewrite N.shiftr_spec by lia. replace (N.of_nat b - N.of_nat (mp_depth A) + N.of_nat (mp_depth A))%N with (N.of_nat b) by lia.
        rewrite <- (pv_bit (mp_x C)) by lia. unfold pv at 1 2. rewrite !testbit_word_of_bits. replace (b <? length (mp_x A)) with false by lia. replace (b <? length (mp_x B)) with false by lia. cbn [andb]. now rewrite xorb_false_l.
    + intros i c Hi Hc. apply lxor_lt.
      * apply lxor_lt; [eapply N.lt_le_trans; [now apply pentry_lt|]; apply N.pow_le_mono_r; lia|eapply N.lt_le_trans; [now apply pentry_lt|]; apply N.pow_le_mono_r; lia].
      * pose proof (pentry_lt C i c HC). rewrite N.shiftl_mul_pow2, N.shiftr_div_pow2. eapply N.le_lt_trans; [|exact H0]. rewrite N.mul_comm. apply N.mul_div_le. apply N.pow_nonzero. lia.
Qed.

(** ** changing the depth *)
Lemma adapt_grow A d : wf_mpoly A -> mp_depth A <= d -> d <= mp_cap A ->
  wp (for_ (mp_depth A) d (fun i x => _ <- guard (i <? mp_cap A) ;; Ok (x ++ [mzd_init (mp_nrows A) (mp_ncols A)])) (mp_x A))
     (fun x => x = mp_x A ++ repeat (mzd_init (mp_nrows A) (mp_ncols A)) (d - mp_depth A)).
Proof.
  intros HA H1 H2. apply (wp_for (fun k x => x = mp_x A ++ repeat (mzd_init (mp_nrows A) (mp_ncols A)) (k - mp_depth A))); [lia| |].
  - rewrite Nat.sub_diag. cbn [repeat]. now rewrite app_nil_r.
  - intros k x Hk ->. replace (k <? mp_cap A) with true by lia. cbn [guard bind wp]. rewrite <- app_assoc. f_equal.
    replace (S k - mp_depth A) with (S (k - mp_depth A)) by lia. cbn [repeat]. now rewrite repeat_cons.
Qed.
Theorem poly_adapt_ok A d : wf_mpoly A -> d <= mp_cap A -> wp (mzd_poly_adapt_depth A d) (fun A' => resized A A' d).
Proof.
  intros HA Hd. pose proof HA as (L & Hcap & HM). unfold mzd_poly_adapt_depth. apply wp_bind. destruct (Nat.ltb_spec d (mp_depth A)) as [Hlt|Hge].
  - cbn [wp]. split; [split; [|split]; cbn [mp_x mp_depth mp_cap mp_nrows mp_ncols]|].
    + rewrite firstn_length. lia.
    + lia.
    + intros M HI. apply HM. rewrite <- (firstn_skipn d (mp_x A)). apply in_or_app. now left.
    + cbn [mp_x mp_depth mp_cap mp_nrows mp_ncols]. repeat (split; [reflexivity|]). intros i c Hi Hc. apply N.bits_inj. intros b. rewrite <- (N2Nat.id b).
      rewrite N.land_spec, !pentry_pv. unfold pv. rewrite !testbit_word_of_bits. cbn [mp_x]. rewrite firstn_length.
      destruct (Nat.ltb_spec (N.to_nat b) d).
      * rewrite N.ones_spec_low by lia. replace (N.to_nat b <? Nat.min d (length (mp_x A))) with true by lia. replace (N.to_nat b <? length (mp_x A)) with true by lia.
        rewrite andb_true_r. f_equal. rewrite <- (firstn_skipn d (mp_x A)) at 2. rewrite app_nth1; [reflexivity|]. rewrite firstn_length. lia.
      * rewrite N.ones_spec_high by lia. rewrite andb_false_r. now replace (N.to_nat b <? Nat.min d (length (mp_x A))) with false by lia.
  - eapply wp_mono; [apply adapt_grow; auto|]. cbv beta. intros x ->. cbn [wp]. split; [split; [|split]; cbn [mp_x mp_depth mp_cap mp_nrows mp_ncols]|].
    + rewrite app_length, repeat_length. lia.
    + lia.
    + intros M HI. apply in_app_or in HI. destruct HI as [HI|HI]; [now apply HM|]. apply repeat_spec in HI. subst M. split; [apply wf_init|split; reflexivity].
    + cbn [mp_x mp_depth mp_cap mp_nrows mp_ncols]. repeat (split; [reflexivity|]). intros i c Hi Hc. apply N.bits_inj. intros b. rewrite <- (N2Nat.id b).
      rewrite N.land_spec, !pentry_pv. unfold pv. rewrite !testbit_word_of_bits. cbn [mp_x]. rewrite app_length, repeat_length.
      destruct (Nat.ltb_spec (N.to_nat b) (length (mp_x A))).
      * rewrite N.ones_spec_low by lia. replace (N.to_nat b <? length (mp_x A) + (d - mp_depth A)) with true by lia. rewrite andb_true_r. f_equal. now rewrite app_nth1.
      * cbn [andb]. destruct (_ <? _) eqn:E; [|reflexivity]. rewrite app_nth2 by lia. rewrite nth_repeat_lt by lia. apply init_bit.
Qed.
Theorem poly_adapt_overflow A d : wf_mpoly A -> mp_cap A < d -> mzd_poly_adapt_depth A d = UB.
Proof.
  intros HA Hd. pose proof HA as (L & Hcap & HM). unfold mzd_poly_adapt_depth. replace (d <? mp_depth A) with false by lia.
  assert (E : for_ (mp_depth A) d (fun i x => _ <- guard (i <? mp_cap A) ;; Ok (x ++ [mzd_init (mp_nrows A) (mp_ncols A)])) (mp_x A) = UB); [|now rewrite E].
  unfold for_. assert (G : forall k i x, mp_cap A < i + k -> i <= mp_cap A ->
     forloop k i (fun i x => _ <- guard (i <? mp_cap A) ;; Ok (x ++ [mzd_init (mp_nrows A) (mp_ncols A)])) x = UB).
  { induction k as [|k IH]; intros i x H1 H2; [lia|]. cbn [forloop]. destruct (Nat.ltb_spec i (mp_cap A)); cbn [guard bind]; [apply IH; lia|reflexivity]. }
  apply G; lia.
Qed.

(** ** products *)
Lemma or_init_poly C A B : wf_mpoly A -> wf_mpoly B -> ptarget C A B -> let D := mp_or_init C A B in
  wf_mpoly D /\ mp_nrows D = mp_nrows A /\ mp_ncols D = mp_ncols B /\ mp_depth A + mp_depth B - 1 <= mp_depth D /\ forall i c, pentry D i c = pold C i c.
Proof.
  intros HA HB HC. destruct C as [C|]; cbn [mp_or_init pold].
  - destruct HC as (H1 & H2 & H3 & H4). split; [exact H1|]. split; [exact H2|]. split; [exact H3|]. split; [exact H4|reflexivity].
  - split; [apply init_wf|]. cbn [mzd_poly_init mp_nrows mp_ncols mp_depth]. repeat (split; [lia|]). intros i c. apply init_pentry.
Qed.
(** X' is X with the polynomials replaced by F, the padding being unchanged if P *)
Definition lif (P : Prop) (X X' : list mzd) (F : mat) : Prop :=
  length X' = length X /\ forall b, b < length X -> mgot (nth b X dm) (nth b X' dm) (fun i c => N.testbit (F i c) (N.of_nat b)) /\
   (P -> mset (nth b X dm) (nth b X' dm) (fun i c => N.testbit (F i c) (N.of_nat b))).
Lemma lif_bec P X X' F : lbec X X' F -> lif P X X' F.
Proof. intros (L & H). split; [exact L|]. intros b Hb. split; [apply mset_got|intros _]; now apply H. Qed.
Lemma lif_if (P : Prop) X X' F : lif P X X' F -> P -> lbec X X' F.
Proof. intros (L & H) HP. split; [exact L|]. intros b Hb. now apply H. Qed.
Lemma lif_mono (P Q : Prop) X X' F : lif P X X' F -> (Q -> P) -> lif Q X X' F.
Proof. intros (L & H) HP. split; [exact L|]. intros b Hb. destruct (H b Hb) as [H1 H2]. split; auto. Qed.
Lemma lif_shape P X X' F m n : shape X m n -> lif P X X' F -> shape X' m n.
Proof.
  intros HX (L & H) b Hb. rewrite L in Hb. destruct (HX b Hb) as (W & E1 & E2). destruct (H b Hb) as ((W' & E1' & E2' & _) & _). split; [exact W'|split; congruence].
Qed.
Lemma lif_pv P X X' F m n i c : shape X m n -> lif P X X' F -> i < m -> c < n -> (F i c < 2 ^ N.of_nat (length X))%N -> pv X' i c = F i c.
Proof.
  intros HX (L & H) Hi Hc HF. unfold pv. rewrite L. rewrite <- (word_of_bits_id (length X) (F i c)) by easy. apply word_of_bits_ext. intros b Hb.
  destruct (HX b Hb) as (W & E1 & E2). apply (mgot_bit _ _ _ _ _ (proj1 (H b Hb))); lia.
Qed.
Lemma lif_ext P X X' F G m n : shape X m n -> lif P X X' F -> (forall i c, i < m -> c < n -> F i c = G i c) -> lif P X X' G.
Proof.
  intros HX (L & H) E. split; [easy|]. intros b Hb. destruct (HX b Hb) as (W & E1 & E2). destruct (H b Hb) as [H1 H2]. split.
  - eapply mgot_ext; [exact H1|]. cbv beta. intros i c Hi Hc. rewrite E; auto; lia.
  - intros HP. eapply mset_ext; [exact (H2 HP)|]. cbv beta. intros i c Hi Hc. rewrite E; auto; lia.
Qed.
Lemma lif_step P X Y Z F G H m n : shape X m n -> lif P X Y F -> lif P Y Z G -> (forall i c, i < m -> c < n -> G i c = H i c) -> lif P X Z H.
Proof.
  intros HX (L1 & H1) (L2 & H2) E. split; [congruence|]. intros b Hb. destruct (HX b Hb) as (W & E1 & E2). destruct (H1 b Hb) as [A1 A2]. destruct (H2 b ltac:(lia)) as [B1 B2]. split.
  - destruct A1 as (_ & R1 & C1 & _). destruct B1 as (W2 & R2 & C2 & G2). split; [exact W2|]. split; [congruence|]. split; [congruence|]. intros i c Hi Hc. rewrite G2 by lia. rewrite E; auto; lia.
  - intros HP. eapply mset_step; [exact (A2 HP)|exact (B2 HP)|]. cbv beta. intros i c Hi Hc. rewrite E; auto; lia.
Qed.
Lemma lif_pgets P A x F : wf_mpoly A -> lif P (mp_x A) x F -> (forall i c, i < mp_nrows A -> c < mp_ncols A -> (F i c < 2 ^ N.of_nat (mp_depth A))%N) ->
  pgets A (mp_set_x A x) F /\ (P -> pbecomes A (mp_set_x A x) F).
Proof.
  intros HA HL HF. pose proof (wfp_shape A HA) as SA. pose proof HA as (L & _). pose proof (proj1 HL) as Lx. split.
  - split; [apply shape_wf; [exact HA|lia|exact (lif_shape _ _ _ _ _ _ SA HL)]|]. repeat (split; [reflexivity|]).
    intros i c Hi Hc. rewrite pentry_pv. cbn [mp_set_x mp_x]. apply (lif_pv P (mp_x A) x F _ _ i c SA HL Hi Hc). rewrite L. now apply HF.
  - intros HP. apply lbec_pbec; [exact HA|exact (lif_if _ _ _ _ HL HP)|exact HF].
Qed.
(** C' is C (or the fresh matrix) plus A*B *)
Lemma addmul_at X k A B m l n : shape X m n -> k < length X -> wf_mzd A -> wf_mzd B -> mzd_nrows A = m -> mzd_ncols A = l -> mzd_nrows B = l -> mzd_ncols B = n ->
  wp (c <- lget X k ;; c <- mzd_addmul c A B ;; lset X k c)
     (fun X' => lif (clean B) X X' (fun i c => N.lxor (pv X i c) (if bmul l (mbit A) (mbit B) i c then 2 ^ N.of_nat k else 0%N))).
Proof.
  intros HX Hk WA WB A1 A2 B1 B2. rewrite (lget_ok X k dm) by easy. cbn [bind]. destruct (HX k Hk) as (W & F1 & F2).
  apply wp_bind. destruct (proj1 (wp_iff _ _) (addmul_ok (nth k X dm) A B W ltac:(congruence) ltac:(congruence) ltac:(congruence))) as (y & Ey & Hy). rewrite Ey. cbn [wp].
  assert (Hy' : clean B -> mset (nth k X dm) y (fun i c => xorb (mbit (nth k X dm) i c) (bmul (mzd_ncols A) (mbit A) (mbit B) i c))).
  { intros HC. pose proof (addmul_clean (nth k X dm) A B W HC ltac:(congruence) ltac:(congruence) ltac:(congruence)) as K. rewrite Ey in K. exact K. }
  rewrite lset_ok by easy. cbn [wp].
  split; [apply upd_length|]. intros b Hb. rewrite nth_upd by easy. destruct (Nat.eqb_spec k b) as [<-|Hne].
  - assert (G : forall i c, xorb (mbit (nth k X dm) i c) (bmul (mzd_ncols A) (mbit A) (mbit B) i c) = N.testbit (N.lxor (pv X i c) (if bmul l (mbit A) (mbit B) i c then 2 ^ N.of_nat k else 0%N)) (N.of_nat k)).
    { intros i c. rewrite N.lxor_spec, pv_bit by easy. rewrite A2. f_equal. destruct (bmul _ _ _ _ _); [now rewrite N.pow2_bits_true|now rewrite N.bits_0]. }
    split; [eapply mgot_ext; [exact Hy|]|intros HC; eapply mset_ext; [exact (Hy' HC)|]]; intros i c _ _; apply G.
  - destruct (HX b Hb) as (Wb & _). assert (K : mset (nth b X dm) (nth b X dm) (fun i c => N.testbit (N.lxor (pv X i c) (if bmul l (mbit A) (mbit B) i c then 2 ^ N.of_nat k else 0%N)) (N.of_nat b))); [|split; [now apply mset_got|auto]].
    eapply mset_ext; [now apply mset_refl|]. cbv beta. intros i c _ _. rewrite N.lxor_spec, pv_bit by easy.
    destruct (bmul _ _ _ _ _); [rewrite N.pow2_bits_false by lia|rewrite N.bits_0]; now rewrite xorb_false_r.
Qed.
Lemma pclean_nth B q : wf_mpoly B -> pclean B -> q < mp_depth B -> clean (nth q (mp_x B) dm).
Proof.
  intros HB HC Hq l k Hl Hk. pose proof HB as (LB & _). destruct (wfp_shape B HB q ltac:(lia)) as (_ & R & C). rewrite R in Hl. rewrite C in Hk.
  rewrite (nth_indep _ dm (mzd_init 0 0)) by lia. now apply HC.
Qed.
Lemma pmul_bits2 p q a b : (a < 2 ^ N.of_nat p)%N -> (b < 2 ^ N.of_nat q)%N ->
  pmul a b = xsum p (fun i => xsum q (fun j => if N.testbit a (N.of_nat i) && N.testbit b (N.of_nat j) then (2 ^ N.of_nat (i + j))%N else 0%N)).
Proof.
  intros Ha Hb. rewrite (bits_sum p a Ha) at 1. rewrite pmul_xsum_l. apply xsum_ext. intros i Hi. rewrite (bits_sum q b Hb) at 1. rewrite pmul_xsum_r. apply xsum_ext. intros j Hj.
  destruct (N.testbit a (N.of_nat i)); [|apply pmul_0_l]. destruct (N.testbit b (N.of_nat j)); [|apply pmul_0_r]. rewrite pmul_pow2_l, N.shiftl_mul_pow2, <- N.pow_add_r. cbn [andb]. f_equal. lia.
Qed.
Lemma naive_sum A B l i c : wf_mpoly A -> wf_mpoly B ->
  xsum (mp_depth A) (fun p => xsum (mp_depth B) (fun q => if bmul l (mbit (nth p (mp_x A) dm)) (mbit (nth q (mp_x B) dm)) i c then 2 ^ N.of_nat (p + q) else 0))%N = pmmul l (pentry A) (pentry B) i c.
Proof.
  intros HA HB. pose proof HA as (LA & _). pose proof HB as (LB & _). unfold pmmul.
  transitivity (xsum (mp_depth A) (fun p => xsum (mp_depth B) (fun q => xsum l (fun t => if N.testbit (pentry A i t) (N.of_nat p) && N.testbit (pentry B t c) (N.of_nat q) then 2 ^ N.of_nat (p + q) else 0))))%N.
  { apply xsum_ext. intros p Hp. apply xsum_ext. intros q Hq. unfold bmul. rewrite if_bxsum. apply xsum_ext. intros t Ht. rewrite !pentry_pv, <- !pv_bit by lia. reflexivity. }
  transitivity (xsum l (fun t => xsum (mp_depth A) (fun p => xsum (mp_depth B) (fun q => if N.testbit (pentry A i t) (N.of_nat p) && N.testbit (pentry B t c) (N.of_nat q) then 2 ^ N.of_nat (p + q) else 0))))%N.
  { rewrite (xsum_swap l (mp_depth A)). apply xsum_ext. intros p Hp. apply xsum_swap. }
  apply xsum_ext. intros t Ht. symmetry. apply pmul_bits2; now apply pentry_lt.
Qed.
Theorem poly_naive_ok C A B : wf_mpoly A -> wf_mpoly B -> mp_ncols A = mp_nrows B -> ptarget C A B ->
  wp (mzd_poly_addmul_naive C A B) (padds_if (pclean B) C A B).
Proof.
  intros HA HB En HC. destruct (or_init_poly C A B HA HB HC) as (D1 & D2 & D3 & D4 & D5). unfold mzd_poly_addmul_naive, padds_if, padds. set (D := mp_or_init C A B) in *.
  pose proof D1 as (LD & _). pose proof HA as (LA & _). pose proof HB as (LB & _). pose proof (wfp_shape D D1) as SX. rewrite D2, D3 in SX.
  set (X := mp_x D) in *. set (m := mp_nrows A) in *. set (n := mp_ncols B) in *. set (l := mp_ncols A) in *.
  set (T := fun p q i c => (if bmul l (mbit (nth p (mp_x A) dm)) (mbit (nth q (mp_x B) dm)) i c then 2 ^ N.of_nat (p + q) else 0)%N).
  assert (HT : forall p q i c, p < mp_depth A -> q < mp_depth B -> (T p q i c < 2 ^ N.of_nat (length X))%N).
  { intros p q i c Hp Hq. unfold T. destruct (bmul _ _ _ _ _); [apply N.pow_lt_mono_r; lia|apply N.neq_0_lt_0, N.pow_nonzero; lia]. }
  apply wp_bind. eapply wp_mono; [apply (wp_for (fun p X' => lif (pclean B) X X' (fun i c => N.lxor (pv X i c) (xsum p (fun p => xsum (mp_depth B) (fun q => T p q i c)))))); [lia| |]|].
  - eapply lif_ext; [exact SX|eapply lif_bec, lbec_refl; exact SX|]. intros i c _ _. cbn [xsum]. now rewrite N.lxor_0_r.
  - intros p Y Hp HY.
    eapply wp_mono; [apply (wp_for (fun q X' => lif (pclean B) X X' (fun i c => N.lxor (pv X i c) (N.lxor (xsum p (fun p => xsum (mp_depth B) (fun q => T p q i c))) (xsum q (fun q => T p q i c)))))); [lia| |]|].
    + eapply lif_ext; [exact SX|exact HY|]. intros i c _ _. cbn [xsum]. now rewrite N.lxor_0_r.
    + intros q Z Hq HZ. pose proof (lif_shape _ _ _ _ _ _ SX HZ) as SZ. assert (LZ : length Z = length X) by apply HZ.
      destruct (wfp_shape A HA p ltac:(lia)) as (U1 & U2 & U3). destruct (wfp_shape B HB q ltac:(lia)) as (W1 & W2 & W3).
      assert (Hk : p + q < length Z) by lia. pose proof (addmul_at Z (p + q) (nth p (mp_x A) dm) (nth q (mp_x B) dm) m l n SZ Hk U1 W1 U2 U3 ltac:(rewrite W2; symmetry; exact En) W3) as K.
      rewrite (lget_ok Z (p + q) dm) in K |- * by lia. rewrite (lget_ok (mp_x A) p dm), (lget_ok (mp_x B) q dm) by lia. cbn [bind] in K |- *.
      eapply wp_mono; [exact K|]. cbv beta. intros Z' HZ'. eapply lif_step; [exact SX|exact HZ|apply (lif_mono _ _ _ _ _ HZ'); intros HC'; apply pclean_nth; auto; lia|]. cbv beta. intros i c Hi Hc.
      rewrite (lif_pv _ X Z _ _ _ i c SX HZ Hi Hc).
      2:{ apply lxor_lt; [apply pv_lt|apply lxor_lt; apply xsum_lt; intros; [apply xsum_lt; intros|]; apply HT; lia]. }
      cbn [xsum]. now rewrite !N.lxor_assoc.
    + cbv beta. intros Z HZ. exact HZ.
  - cbv beta. intros x Hx. cbn [wp]. apply (lif_pgets (pclean B)); [exact D1| |].
    + eapply lif_ext; [exact SX|exact Hx|]. cbv beta. intros i c Hi Hc. rewrite <- (pentry_pv D), D5. f_equal. unfold T. now apply naive_sum.
    + intros i c Hi Hc. apply lxor_lt; [rewrite <- D5; now apply pentry_lt|]. eapply N.lt_le_trans; [now apply pmmul_lt|]. apply N.pow_le_mono_r; lia.
Qed.
Theorem poly_balanced_ok C A B : wf_mpoly A -> wf_mpoly B -> mp_ncols A = mp_nrows B -> mp_depth A = mp_depth B -> 1 <= mp_depth A <= 16 -> ptarget C A B ->
  wp (mzd_poly_addmul_karatsubs_balanced C A B) (padds_if (pclean B \/ 2 <= mp_depth A) C A B).
Proof.
  intros HA HB En Ed Hd HC. destruct (or_init_poly C A B HA HB HC) as (D1 & D2 & D3 & D4 & D5). unfold mzd_poly_addmul_karatsubs_balanced, padds_if, padds.
  rewrite <- Ed, Nat.eqb_refl. cbn [guard bind]. cbv zeta. set (D := mp_or_init C A B) in *.
  pose proof D1 as (LD & _). pose proof HA as (LA & _). pose proof HB as (LB & _). pose proof (wfp_shape D D1) as SX. rewrite D2, D3 in SX.
  pose proof (wfp_shape A HA) as SA. pose proof (wfp_shape B HB) as SB.
  assert (Fin : forall x, lif (pclean B \/ 2 <= mp_depth A) (mp_x D) x (fun i c => N.lxor (pv (mp_x D) i c) (xsum (mp_ncols A) (fun t => pmul (pv (mp_x A) i t) (pv (mp_x B) t c)))) ->
    pgets D (mp_set_x D x) (fun i c => N.lxor (pold C i c) (pmmul (mp_ncols A) (pentry A) (pentry B) i c)) /\
    (pclean B \/ 2 <= mp_depth A -> pbecomes D (mp_set_x D x) (fun i c => N.lxor (pold C i c) (pmmul (mp_ncols A) (pentry A) (pentry B) i c)))).
  { intros x Hx. apply (lif_pgets (pclean B \/ 2 <= mp_depth A)); [exact D1| |].
    + eapply lif_ext; [exact SX|exact Hx|]. cbv beta. intros i c Hi Hc. rewrite <- (pentry_pv D), D5. f_equal. unfold pmmul. apply xsum_ext. intros t _. now rewrite !pentry_pv.
    + intros i c Hi Hc. apply lxor_lt; [rewrite <- D5; now apply pentry_lt|]. eapply N.lt_le_trans; [now apply pmmul_lt|]. apply N.pow_le_mono_r; lia. }
  destruct (Nat.eq_dec (mp_depth A) 1) as [E1|N1].
  - rewrite E1 in Fin |- *. destruct (SA 0 ltac:(lia)) as (U1 & U2 & U3). destruct (SB 0 ltac:(lia)) as (W1 & W2 & W3).
    pose proof (addmul_at (mp_x D) 0 (nth 0 (mp_x A) dm) (nth 0 (mp_x B) dm) (mp_nrows A) (mp_ncols A) (mp_ncols B) SX ltac:(lia) U1 W1 U2 U3 ltac:(congruence) W3) as K.
    rewrite (lget_ok (mp_x D) 0 dm) in K |- * by lia. rewrite (lget_ok (mp_x A) 0 dm), (lget_ok (mp_x B) 0 dm) by lia. cbn [bind] in K |- *.
    destruct (proj1 (wp_iff _ _) K) as (x & E & Hx). destruct (mzd_addmul _ _ _) as [y| |]; try discriminate E. cbn [bind] in E |- *. rewrite E. cbn [bind wp]. apply Fin.
    eapply lif_ext; [exact SX|apply (lif_mono _ _ _ _ _ Hx); intros [HC'|HC']; [apply pclean_nth; auto; lia|lia]|]. cbv beta. intros i c Hi Hc. f_equal. pose proof (naive_sum A B (mp_ncols A) i c HA HB) as NS. rewrite <- Ed, E1, !xsum_1 in NS. cbn [Nat.add] in NS. rewrite NS.
    unfold pmmul. apply xsum_ext. intros t _. now rewrite !pentry_pv.
  - destruct (mp_depth A) as [|[|d0]] eqn:E0; [lia|lia|]. rewrite <- E0 in *. 
    destruct (ptr_addmul_karatsuba None (mp_depth A) (mp_x D) (mp_x A) (mp_x B)) as [r|] eqn:Er.
    + apply wp_bind. eapply wp_mono; [eapply (ptr_karatsuba_ok None (mp_depth A) (mp_nrows A) (mp_ncols A) (mp_ncols B) (mp_x A) (mp_x B) (mp_x D)); [exact SA|rewrite En; exact SB|exact LA|congruence|exact I|exact SX| | |exact Er]|].
      * intros t Ht. cbn [tok]. lia.
      * intros _. lia.
      * cbv beta. intros x Hx. cbn [wp]. apply Fin, lif_bec. exact Hx.
    + exfalso. clear - Er Hd N1. destruct (mp_depth A) as [|d]; [lia|]. do 16 (destruct d as [|d]; [first [discriminate Er|lia]|]). lia.
Qed.
(** depth 0, or more than 16: the call dies *)
Theorem poly_balanced_die C A B : mp_depth A = mp_depth B -> mp_depth A = 0 \/ 16 < mp_depth A -> mzd_poly_addmul_karatsubs_balanced C A B = Die.
Proof.
  intros Ed H. unfold mzd_poly_addmul_karatsubs_balanced. rewrite <- Ed, Nat.eqb_refl. cbn [guard bind]. destruct H as [->|H]; [reflexivity|].
  destruct (mp_depth A) as [|d]; [lia|]. do 16 (destruct d as [|d]; [lia|]). reflexivity.
Qed.
