(** The matrices F and G built by blm_init_crt. *)
From Coq Require Import NArith List Bool Arith Lia ZifyN ZifyNat ZifyBool.
From Verif Require Import Base Spec PolyFacts MatFacts Gf2xModel Gf2xProofs SliceMul KaraProofs IrrTable IrrProofs MzdModel MzedSpec SliceModel SliceSpec MzdFacts MzedProofs BlmTable BlmModel BlmSpec BlmFacts BlmCrt.
Import ListNotations.
Local Open Scope nat_scope.

Definition cost (d : nat) : nat := nth d costs 0.
Definition is_small (d : nat) (Sm : mzd) : Prop :=
  mzd_nrows Sm = cost d /\ mzd_ncols Sm = d /\ forall k j, k < cost d -> j < d -> mbit Sm k j = N.testbit (nth k (nth (d - 1) small_maps []) 0%N) (N.of_nat j).
Lemma small_map_ok d : 1 <= d <= 16 -> wp (small_multiplication_map d) (is_small d).
Proof.
  intros Hd. destruct d as [|k]; [lia|]. unfold small_multiplication_map.
  assert (Hk : k < length small_maps) by (cbn; lia). rewrite (nth_error_nth' small_maps [] Hk). cbn [wp].
  pose proof (small_rows (S k) Hd) as Hr. replace (S k - 1) with k in Hr by lia.
  set (rows := nth k small_maps []) in *. pose proof (mset_build (mzd_init (length rows) (S k)) (fun i j => N.testbit (nth i rows 0%N) (N.of_nat j)) (wf_init _ _)) as HB.
  set (Sm := mzd_build _ _) in *. split; [|split].
  - pose proof (mset_nr _ _ _ HB) as E. cbn [mzd_init mzd_nrows] in E. now rewrite E, Hr.
  - now pose proof (mset_nc _ _ _ HB).
  - intros k' j Hk' Hj. rewrite (mset_bit _ _ _ _ _ HB) by (cbn [mzd_init mzd_nrows mzd_ncols]; rewrite ?Hr; easy). replace (S k - 1) with k by lia. reflexivity.
Qed.
Lemma cost_get d : d <= 16 -> lget costs d = Ok (cost d).
Proof. intros H. apply lget_ok. cbn. lia. Qed.

(** F' is F with a block at row r: row r+k is row k of the small map applied to the column values cv *)
Definition with_block (F F' : mzd) (r d : nat) (cv : nat -> N) : Prop :=
  mset F F' (fun i k => if (r <=? i) && (i <? r + cost d) then small_par d (i - r) (cv k) else mbit F i k).
Lemma put_block_wp Sm F r d len poly cv : 1 <= d <= 16 -> is_small d Sm -> wf_mzd F -> mzd_ncols F = len -> r + cost d <= mzd_nrows F ->
  wp (crt_modred_mat len poly d) (fun M => mset (mzd_init d len) M (fun j i => N.testbit (cv i) (N.of_nat j))) ->
  wp (put_block Sm F r d len poly) (fun F' => with_block F F' r d cv).
Proof.
  intros Hd (S1 & S2 & S3) HF Hl Hr HM. unfold put_block. apply wp_bind. eapply wp_mono; [exact HM|]. intros M BM.
  rewrite cost_get by lia. cbn [bind].
  pose proof (window_ok F r 0 (r + cost d) len HF ltac:(lia) ltac:(lia) eq_refl) as HW.
  destruct (proj1 (wp_iff _ _) HW) as (W & EW & WW & RW & CW & _). rewrite EW. cbn [bind].
  pose proof (mset_nr _ _ _ BM) as RM. pose proof (mset_nc _ _ _ BM) as CM. cbn [mzd_init mzd_nrows mzd_ncols] in RM, CM.
  apply wp_bind. eapply wp_mono; [apply (mul_clean W Sm M WW (clean_mset _ _ _ BM (clean_init _ _))); lia|]. intros W' BW. cbn [wp].
  apply (mset_ext _ _ _ _ (unwindow_ok F r 0 (r + cost d) len W W' _ HF ltac:(lia) ltac:(lia) eq_refl EW BW)).
  intros i k Hi Hk. replace (0 <=? k) with true by lia. replace (k <? len) with true by lia. rewrite !andb_true_r.
  destruct (Nat.leb_spec r i), (Nat.ltb_spec i (r + cost d)); cbn [andb]; try easy. unfold bmul, small_par. rewrite S2. apply bxsum_ext. intros j Hj.
  rewrite S3 by lia. rewrite (mset_bit _ _ _ _ _ BM) by (cbn [mzd_init mzd_nrows mzd_ncols]; lia). now rewrite Nat.sub_0_r.
Qed.
Lemma put_block_wlp (P : Prop) Sm F r d len poly cv : 1 <= d <= 16 -> is_small d Sm -> wf_mzd F -> mzd_ncols F = len ->
  wlp (crt_modred_mat len poly d) (fun M => P /\ mset (mzd_init d len) M (fun j i => N.testbit (cv i) (N.of_nat j))) ->
  wlp (put_block Sm F r d len poly) (fun F' => P /\ r + cost d <= mzd_nrows F /\ with_block F F' r d cv).
Proof.
  intros Hd HS HF Hl HM. destruct (crt_modred_mat len poly d) as [M| |] eqn:EM; [|unfold put_block; now rewrite EM|unfold put_block; now rewrite EM].
  cbn [wlp] in HM. destruct HM as [HP HM]. destruct (Nat.le_gt_cases (r + cost d) (mzd_nrows F)) as [Hr|Hr].
  - eapply wlp_mono; [apply wlp_wp, (put_block_wp Sm F r d len poly cv); auto; now rewrite EM|]. auto.
  - unfold put_block. rewrite EM. cbn [bind]. rewrite cost_get by lia. cbn [bind]. unfold mzd_window.
    replace (r + cost d <=? mzd_nrows F) with false by lia. now rewrite andb_false_r.
Qed.

(** ** relations *)
(** a list of pairs (v, w) of exponents is a relation on the rows below r *)
Definition in_box (nf ng : nat) (l : list (nat * nat)) : Prop := forall vw, In vw l -> fst vw < nf /\ snd vw < ng.
Definition rel (r : nat) (F G : nat -> nat -> bool) (l : list (nat * nat)) : Prop :=
  forall k, k < r -> lbs (fun vw => F k (fst vw) && G k (snd vw)) l = false.
Definition delta (l : list (nat * nat)) : N := lxs (fun vw => (2 ^ N.of_nat (fst vw + snd vw))%N) l.
Definition determined (m nf ng : nat) (F G : nat -> nat -> bool) : Prop := forall l, in_box nf ng l -> rel m F G l -> delta l = 0%N.
Lemma rel_mono r r' F G F' G' nf ng l : in_box nf ng l -> rel r' F' G' l -> r <= r' ->
  (forall k v, k < r -> v < nf -> F' k v = F k v) -> (forall k w, k < r -> w < ng -> G' k w = G k w) -> rel r F G l.
Proof.
  intros Hb H Hr HF HG k Hk. rewrite <- (H k) by lia. apply lbs_ext. intros vw Hv. destruct (Hb vw Hv). now rewrite HF, HG.
Qed.
Section Block.
Variables (nf ng r d : nat) (F G F' G' : mzd) (cf cg : nat -> N) (l : list (nat * nat)).
Hypothesis Hd : 1 <= d <= 16.
Hypothesis HF : with_block F F' r d cf.
Hypothesis HG : with_block G G' r d cg.
Hypothesis Hnf : mzd_ncols F = nf.
Hypothesis Hng : mzd_ncols G = ng.
Hypothesis Hrf : r + cost d <= mzd_nrows F.
Hypothesis Hrg : r + cost d <= mzd_nrows G.
Hypothesis Hb : in_box nf ng l.
Hypothesis Hcf : forall v, v < nf -> (cf v < 2 ^ N.of_nat d)%N.
Hypothesis Hcg : forall w, w < ng -> (cg w < 2 ^ N.of_nat d)%N.
Lemma block_old : rel (r + cost d) (mbit F') (mbit G') l -> rel r (mbit F) (mbit G) l.
Proof.
  intros H. apply (rel_mono _ _ _ _ _ _ nf ng l Hb H); [lia| |].
  - intros k v Hk Hv. rewrite (mset_bit _ _ _ _ _ HF) by lia. now replace (r <=? k) with false by lia.
  - intros k v Hk Hv. rewrite (mset_bit _ _ _ _ _ HG) by lia. now replace (r <=? k) with false by lia.
Qed.
Lemma block_rel : rel (r + cost d) (mbit F') (mbit G') l -> lxs (fun vw => pmul (cf (fst vw)) (cg (snd vw))) l = 0%N.
Proof.
  intros H. apply (small_map_rel d); [easy|intros vw Hv; destruct (Hb vw Hv); auto|]. intros k Hk. fold (cost d) in Hk. rewrite <- (H (r + k)) by lia.
  apply lbs_ext. intros vw Hv. destruct (Hb vw Hv).
  rewrite (mset_bit _ _ _ _ _ HF) by lia. rewrite (mset_bit _ _ _ _ _ HG) by lia.
  replace ((r <=? r + k) && (r + k <? r + cost d)) with true by lia. now replace (r + k - r) with k by lia.
Qed.
End Block.
(** the product is determined by a block of degree at least that of the factors *)
Lemma block_exact poly d nf ng l : nf <= d -> ng <= d -> in_box nf ng l ->
  lxs (fun vw => pmul (colv poly d (fst vw)) (colv poly d (snd vw))) l = 0%N -> delta l = 0%N.
Proof.
  intros Hf Hg Hb E. unfold delta. rewrite <- E. apply lxs_ext. intros vw Hv. destruct (Hb vw Hv). unfold colv.
  replace (fst vw <? d) with true by lia. replace (snd vw <? d) with true by lia. rewrite pmul_pow2_l, N.shiftl_mul_pow2, <- N.pow_add_r. f_equal. lia.
Qed.
(** a block of modulus q of degree d determines it modulo q *)
Lemma block_mod q d l : q <> 0%N -> pdeg q = N.of_nat d ->
  lxs (fun vw => pmul (colv q d (fst vw)) (colv q d (snd vw))) l = 0%N -> pdvd q (delta l).
Proof.
  intros Hq Hd E. assert (Hz : pmod (delta l) q = 0%N).
  { rewrite <- (pmod_0 q), <- E at 1. unfold delta. rewrite !lxs_pmod by easy. apply lxs_ext. intros vw Hv.
    rewrite !colv_pmod by easy. rewrite pmod_mul_l, pmod_mul_r by easy. f_equal. rewrite pmul_pow2_l, N.shiftl_mul_pow2, <- N.pow_add_r. f_equal. lia. }
  apply pmod_divides in Hz; [|easy]. destruct Hz as (y & ->). exists y. apply pmul_comm.
Qed.
Lemma lbs_false {A} (l : list A) : lbs (fun _ => false) l = false.
Proof. induction l as [|x l IH]; [easy|]. change (xorb false (lbs (fun _ : A => false) l) = false). now rewrite IH. Qed.
(** the block at infinity determines the top coefficients *)
Definition infv (len d i : nat) : N := if len - 1 - i <? d then (2 ^ N.of_nat (len - 1 - i))%N else 0%N.
Lemma infv_lt len d i : (infv len d i < 2 ^ N.of_nat d)%N.
Proof. unfold infv. destruct (Nat.ltb_spec (len - 1 - i) d); [apply N.pow_lt_mono_r; lia|]. pose proof (N.pow_nonzero 2 (N.of_nat d)). lia. Qed.
Lemma block_inf d nf ng l : 1 <= nf -> 1 <= ng -> in_box nf ng l ->
  lxs (fun vw => pmul (infv nf d (fst vw)) (infv ng d (snd vw))) l = 0%N -> (delta l < 2 ^ N.of_nat (nf + ng - 1 - d))%N.
Proof.
  intros Hf Hg Hb E. apply lt_pow2_bits. intros b Hge. unfold delta. rewrite lxs_testbit.
  destruct (N.le_gt_cases (N.of_nat (nf + ng - 1)) b) as [Hhi|Hlo].
  { replace (lbs _ l) with (lbs (fun _ : nat * nat => false) l); [apply lbs_false|].
    apply lbs_ext. intros vw Hv. destruct (Hb vw Hv). rewrite N.pow2_bits_eqb. symmetry. lia. }
  set (t := nf + ng - 2 - N.to_nat b). assert (Ht : t < d) by (unfold t; lia).
  assert (Z : N.testbit (lxs (fun vw => pmul (infv nf d (fst vw)) (infv ng d (snd vw))) l) (N.of_nat t) = false) by now rewrite E, N.bits_0.
  rewrite lxs_testbit in Z. rewrite <- Z. apply lbs_ext. intros vw Hv. destruct (Hb vw Hv). rewrite N.pow2_bits_eqb. unfold infv.
  destruct (Nat.ltb_spec (nf - 1 - fst vw) d).
  - destruct (Nat.ltb_spec (ng - 1 - snd vw) d).
    + rewrite pmul_pow2_l, N.shiftl_mul_pow2, <- N.pow_add_r, N.pow2_bits_eqb. unfold t. lia.
    + rewrite pmul_0_r, N.bits_0. unfold t in Ht. lia.
  - rewrite pmul_0_l, N.bits_0. unfold t in Ht. lia.
Qed.

(** ** the moduli *)
Definition irrs (d : nat) : list N := tl (nth d irreducible_polynomials []).
Lemma irrs_spec d : 1 <= d <= 16 -> nth d irreducible_polynomials [] = N.of_nat (length (irrs d)) :: irrs d /\ NoDup (irrs d) /\
  forall f, In f (irrs d) <-> (pdeg f = N.of_nat d /\ irreducible f).
Proof. intros Hd. destruct (irreducible_table_correct d Hd) as (l & E & H). unfold irrs. rewrite E. cbn [tl]. auto. Qed.
Lemma irr_read_ok d i : 1 <= d <= 16 -> irr_read d 0 = Ok (N.of_nat (length (irrs d))) /\ (i < length (irrs d) -> irr_read d (1 + i) = Ok (nth i (irrs d) 0%N)).
Proof.
  intros Hd. destruct (irrs_spec d Hd) as (E & _). unfold irr_read. rewrite (lget_ok irreducible_polynomials d []) by (change (length irreducible_polynomials) with 17; lia).
  rewrite E. cbn [bind]. split; [easy|]. intros Hi. cbn [Nat.add]. rewrite (lget_ok _ _ 0%N) by (cbn [length]; lia). reflexivity.
Qed.
Lemma irrs_nth d i : 1 <= d <= 16 -> i < length (irrs d) -> pdeg (nth i (irrs d) 0%N) = N.of_nat d /\ irreducible (nth i (irrs d) 0%N).
Proof. intros Hd Hi. destruct (irrs_spec d Hd) as (_ & _ & H). apply H. now apply nth_In. Qed.
Lemma irrs_inj k j k' j' : 1 <= k <= 16 -> 1 <= k' <= 16 -> j < length (irrs k) -> j' < length (irrs k') ->
  nth j (irrs k) 0%N = nth j' (irrs k') 0%N -> k = k' /\ j = j'.
Proof.
  intros Hk Hk' Hj Hj' E. destruct (irrs_nth k j Hk Hj) as [D1 _]. destruct (irrs_nth k' j' Hk' Hj') as [D2 _]. rewrite E in D1.
  assert (k = k') by lia. subst k'. split; [easy|]. destruct (irrs_spec k Hk) as (_ & Hn & _). exact (proj1 (NoDup_nth (irrs k) 0%N) Hn j j' Hj Hj' E).
Qed.
Lemma pdeg_ppow p e : p <> 0%N -> pdeg (ppow p e) = (N.of_nat e * pdeg p)%N.
Proof. intros Hp. induction e as [|e IH]; [reflexivity|]. cbn [ppow]. rewrite pdeg_pmul, IH by auto using ppow_nz. lia. Qed.
Lemma pdeg_lt_pow2 p n : (pdeg p <= n)%N -> (p < 2 ^ (n + 1))%N.
Proof. intros H. eapply N.lt_le_trans; [apply lt_pow2_log2|]. apply N.pow_le_mono_r; lia. Qed.
Definition try_ (it : list nat) (k : nat) (use : N -> res N) (else_ : res (N * list nat)) : res (N * list nat) :=
  if k =? 0 then else_ else
    i <- lget it k ;; n <- irr_read k 0 ;;
    if i <? N.to_nat n then (q <- irr_read k (1 + i) ;; it <- lset it k (i + 1) ;; q <- use q ;; Ok (q, it)) else else_.
Lemma try_wlp it k use else_ Q : length it = 17 -> k <= 16 -> wlp else_ Q ->
  (1 <= k -> nth k it 0 < length (irrs k) -> wlp (use (nth (nth k it 0) (irrs k) 0%N)) (fun q => Q (q, upd it k (nth k it 0 + 1)))) ->
  wlp (try_ it k use else_) Q.
Proof.
  intros Hl Hk He Hu. unfold try_. destruct (Nat.eqb_spec k 0); [easy|]. rewrite (lget_ok it k 0) by lia. cbn [bind].
  destruct (irr_read_ok k (nth k it 0) ltac:(lia)) as [E0 E1]. rewrite E0. cbn [bind]. rewrite Nat2N.id. destruct (Nat.ltb_spec (nth k it 0) (length (irrs k))); [|easy].
  rewrite E1 by easy. cbn [bind]. rewrite lset_ok by lia. cbn [bind]. apply wlp_bind. eapply wlp_mono; [apply Hu; [lia|easy]|]. auto.
Qed.
Definition next_ok (d : nat) (it : list nat) (r : N * list nat) : Prop :=
  exists k e, 1 <= k <= 16 /\ 1 <= e /\ e * k <= d /\ nth k it 0 < length (irrs k) /\ fst r = ppow (nth (nth k it 0) (irrs k) 0%N) e /\ snd r = upd it k (nth k it 0 + 1).
Lemma sq_mul q n m : (q < 2 ^ N.of_nat n)%N -> 1 <= n -> n <= m <= 32 -> gf2x_mul q q m = Ok (pmul q q).
Proof.
  intros Hq Hn Hm. apply (gf2x_mul_correct q q m (N.of_nat n)); [lia| |easy|lia]. eapply N.lt_le_trans; [exact Hq|]. apply N.pow_le_mono_r; lia.
Qed.
Lemma ppow1 q : ppow q 1 = q. Proof. cbn. apply pmul_1_r. Qed.
Lemma ppow2 q : pmul q q = ppow q 2. Proof. cbn. now rewrite pmul_1_r. Qed.
Lemma ppow4 q : pmul (ppow q 2) (ppow q 2) = ppow q 4. Proof. cbn. now rewrite !pmul_1_r, !pmul_assoc. Qed.
Lemma ppow8 q : pmul (ppow q 4) (ppow q 4) = ppow q 8. Proof. cbn. now rewrite !pmul_1_r, !pmul_assoc. Qed.
Lemma ppow_lt d q k e : pdeg q = N.of_nat k -> q <> 0%N -> e * k <= d -> (ppow q e < 2 ^ N.of_nat (d + 1))%N.
Proof. intros Hq H0 Hd. replace (N.of_nat (d + 1)) with (N.of_nat d + 1)%N by lia. apply pdeg_lt_pow2. rewrite pdeg_ppow, Hq by easy. lia. Qed.
Lemma next_poly_wlp d it : 1 <= d <= 16 -> length it = 17 -> wlp (next_poly d it) (next_ok d it).
Proof.
  intros Hd Hl.
  assert (D2 : 2 * (d / 2) <= d) by (apply Nat.mul_div_le; lia).
  assert (D4 : 4 * (d / 4) <= d) by (apply Nat.mul_div_le; lia).
  assert (D8 : 8 * (d / 8) <= d) by (apply Nat.mul_div_le; lia).
  assert (D42 : 2 * (d / 4) <= d / 2) by (replace 4 with (2 * 2) by lia; rewrite <- Nat.div_div by lia; apply Nat.mul_div_le; lia).
  assert (D84 : 2 * (d / 8) <= d / 4) by (replace 8 with (4 * 2) by lia; rewrite <- Nat.div_div by lia; apply Nat.mul_div_le; lia).
  change (next_poly d it) with
   (try_ it d (fun q => Ok q)
   (try_ it (d / 2) (fun q => gf2x_mul q q (d / 2 + 1))
     (try_ it (d / 4) (fun q => q <- gf2x_mul q q (d / 4 + 1) ;; gf2x_mul q q (d / 2 + 1))
       (try_ it (d / 8) (fun q => q <- gf2x_mul q q (d / 8 + 1) ;; q <- gf2x_mul q q (d / 4 + 1) ;; gf2x_mul q q (d / 2 + 1)) Die)))).
  apply try_wlp; [easy|lia| |].
  2:{ intros H1 Hn. exists d, 1. cbn [fst snd]. rewrite ppow1. repeat split; auto; lia. }
  apply try_wlp; [easy|lia| |].
  2:{ intros H1 Hn. destruct (irrs_nth (d / 2) _ ltac:(lia) Hn) as [Hdeg Hirr]. pose proof (irreducible_no_factor _ Hirr) as Hnz. set (q := nth _ (irrs _) 0%N) in *.
      rewrite (sq_mul q (d / 2 + 1)); [|rewrite <- (ppow1 q); apply (ppow_lt (d / 2) q (d / 2) 1); auto; lia|lia|lia].
      cbn [wlp]. exists (d / 2), 2. cbn [fst snd]. rewrite ppow2. repeat split; auto; lia. }
  apply try_wlp; [easy|lia| |].
  2:{ intros H1 Hn. destruct (irrs_nth (d / 4) _ ltac:(lia) Hn) as [Hdeg Hirr]. pose proof (irreducible_no_factor _ Hirr) as Hnz. set (q := nth _ (irrs _) 0%N) in *.
      rewrite (sq_mul q (d / 4 + 1)); [|rewrite <- (ppow1 q); apply (ppow_lt (d / 4) q (d / 4) 1); auto; lia|lia|lia]. cbn [bind]. rewrite ppow2.
      rewrite (sq_mul _ (d / 2 + 1)); [|apply (ppow_lt (d / 2) q (d / 4) 2); auto; lia|lia|lia].
      cbn [wlp]. exists (d / 4), 4. cbn [fst snd]. rewrite ppow4. repeat split; auto; lia. }
  apply try_wlp; [easy|lia|easy|].
  intros H1 Hn. destruct (irrs_nth (d / 8) _ ltac:(lia) Hn) as [Hdeg Hirr]. pose proof (irreducible_no_factor _ Hirr) as Hnz. set (q := nth _ (irrs _) 0%N) in *.
  rewrite (sq_mul q (d / 8 + 1)); [|rewrite <- (ppow1 q); apply (ppow_lt (d / 8) q (d / 8) 1); auto; lia|lia|lia]. cbn [bind]. rewrite ppow2.
  rewrite (sq_mul _ (d / 4 + 1)); [|apply (ppow_lt (d / 4) q (d / 8) 2); auto; lia|lia|lia]. cbn [bind]. rewrite ppow4.
  rewrite (sq_mul _ (d / 2 + 1)); [|apply (ppow_lt (d / 2) q (d / 8) 4); auto; lia|lia|lia].
  cbn [wlp]. exists (d / 8), 8. cbn [fst snd]. rewrite ppow8. repeat split; auto; lia.
Qed.

(** ** crt_FG *)
Fixpoint dsum (p : list nat) (n : nat) : nat := match n with O => 0 | S n' => dsum p n' + n' * nth n' p 0 end.
Lemma scheme_degree_dsum p : scheme_degree p = nth 0 p 0 + dsum p 17.
Proof. unfold scheme_degree. cbn [seq fold_right dsum]. lia. Qed.
Section CRT.
Variables (nf ng : nat) (p : list nat).
Hypothesis Hnf : 1 <= nf.
Hypothesis Hng : 1 <= ng.
Notation L := (nf + ng - 1).
Notation p0 := (nth 0 p 0).
Definition shape_ok (m r : nat) (F G : mzd) : Prop :=
  wf_mzd F /\ wf_mzd G /\ mzd_ncols F = nf /\ mzd_ncols G = ng /\ mzd_nrows F = m /\ mzd_nrows G = m /\ r <= m.
Definition kills (r : nat) (F G : mzd) (Q : N -> Prop) : Prop := forall l, in_box nf ng l -> rel r (mbit F) (mbit G) l -> Q (delta l).
Definition moduli (it : list nat) (D r : nat) (F G : mzd) : Prop :=
  exists ms, NoDup (map fst ms) /\ degs ms = N.of_nat D /\
    (forall q e, In (q, e) ms -> exists k j, 1 <= k <= 16 /\ j < nth k it 0 /\ j < length (irrs k) /\ q = nth j (irrs k) 0%N) /\
    kills r F G (fun x => forall q e, In (q, e) ms -> pdvd (ppow q e) x).
Definition inv (m : nat) (big : Prop) (D : nat) (st : mzd * mzd * nat * list nat) : Prop :=
  let '(F, G, r, it) := st in
  shape_ok m r F G /\ length it = 17 /\ kills r F G (fun x => (x < 2 ^ N.of_nat (L - p0))%N) /\
  (kills r F G (fun x => x = 0%N) \/ (~ big /\ moduli it D r F G)).
Lemma inv_mono m (big big' : Prop) D st : (big' -> big) -> inv m big D st -> inv m big' D st.
Proof. destruct st as [[[F G] r] it]. intros Hb (A & B & C & E). split; [easy|]. split; [easy|]. split; [easy|]. destruct E as [E|[E1 E2]]; [now left|right; tauto]. Qed.
(** one more block *)
Lemma block_step m big D d Sm F G r it : 1 <= d <= 16 -> is_small d Sm -> inv m big D (F, G, r, it) ->
  wlp (pi <- next_poly d it ;; F <- put_block Sm F r d nf (fst pi) ;; G <- put_block Sm G r d ng (fst pi) ;; c <- lget costs d ;; Ok (F, G, r + c, snd pi))
      (inv m (big \/ (nf <= d /\ ng <= d)) (D + d)).
Proof.
  intros Hd HS ((WF & WG & CF & CG & RF & RG & Hr) & Hit & Hinf & Hdis). apply wlp_bind. eapply wlp_mono; [now apply next_poly_wlp|].
  intros [q it'] (k & e & Hk & He & Hek & Hj & Eq & Eit). cbn [fst snd] in *. set (j := nth k it 0) in *. set (pi := nth j (irrs k) 0%N) in *.
  destruct (irrs_nth k j Hk Hj) as [Hdeg Hirr]. fold pi in Hdeg, Hirr. pose proof (irreducible_no_factor _ Hirr) as Hnz.
  assert (Hq : q <> 0%N) by (rewrite Eq; now apply ppow_nz).
  assert (Hqd : (pdeg q = N.of_nat (e * k))%N) by (rewrite Eq, pdeg_ppow, Hdeg by easy; lia).
  apply wlp_bind. eapply wlp_mono; [apply (put_block_wlp (pdeg q = N.of_nat d \/ nf <= d) Sm F r d nf q (colv q d)); auto; apply modred_any; auto; lia|].
  intros F' (PF & RF' & BF). apply wlp_bind. eapply wlp_mono; [apply (put_block_wlp (pdeg q = N.of_nat d \/ ng <= d) Sm G r d ng q (colv q d)); auto; apply modred_any; auto; lia|].
  intros G' (PG & RG' & BG). rewrite cost_get by lia. cbn [bind wlp].
  assert (Hcf : forall v, v < nf -> (colv q d v < 2 ^ N.of_nat d)%N) by (intros v Hv; apply colv_lt; [easy|]; destruct PF; [now left|right; lia]).
  assert (Hcg : forall v, v < ng -> (colv q d v < 2 ^ N.of_nat d)%N) by (intros v Hv; apply colv_lt; [easy|]; destruct PG; [now left|right; lia]).
  assert (Hold : forall Q, kills r F G Q -> kills (r + cost d) F' G' Q).
  { intros Q HQ l Hl HR. apply HQ; [easy|]. apply (block_old nf ng r d F G F' G' (colv q d) (colv q d) l); auto. }
  assert (Hnew : forall l, in_box nf ng l -> rel (r + cost d) (mbit F') (mbit G') l -> lxs (fun vw => pmul (colv q d (fst vw)) (colv q d (snd vw))) l = 0%N).
  { intros l Hl HR. apply (block_rel nf ng r d F G F' G' (colv q d) (colv q d) l); auto. }
  split.
  { pose proof (mset_wf _ _ _ BF). pose proof (mset_wf _ _ _ BG). pose proof (mset_nr _ _ _ BF). pose proof (mset_nr _ _ _ BG). pose proof (mset_nc _ _ _ BF). pose proof (mset_nc _ _ _ BG).
    unfold shape_ok. split; [easy|]. split; [easy|]. split; [congruence|]. split; [congruence|]. split; [congruence|]. split; [congruence|lia]. }
  split; [rewrite Eit; now rewrite upd_length|]. split; [now apply Hold|].
  assert (Hexact : nf <= d -> ng <= d -> kills (r + cost d) F' G' (fun x => x = 0%N)).
  { intros H1 H2 l Hl HR. apply (block_exact q d nf ng l H1 H2 Hl). now apply Hnew. }
  destruct Hdis as [Hz|[Hnb Hm]]; [left; now apply Hold|].
  destruct (le_lt_dec nf d) as [H1|H1], (le_lt_dec ng d) as [H2|H2]; [left; now apply Hexact| | |].
  all: right; split; [intros [?|[? ?]]; [easy|lia]|].
  all: assert (Hpd : pdeg q = N.of_nat d) by (destruct PF, PG; (easy || lia)).
  all: destruct Hm as (ms & Hnd & Hdg & Hsrc & Hkill); exists ((pi, e) :: ms).
  all: split; [cbn [map fst]; constructor; [|easy]; intros Hin; apply in_map_iff in Hin; destruct Hin as ([q' e'] & Eq' & Hin); cbn [fst] in Eq'; subst q';
         destruct (Hsrc _ _ Hin) as (k' & j' & Hk' & Hj' & Hl' & E'); unfold pi in E'; destruct (irrs_inj k j k' j' Hk Hk' Hj Hl' E') as [Ek Ej]; rewrite <- Ek, <- Ej in Hj'; exact (Nat.lt_irrefl _ Hj')|].
  all: split; [cbn [degs fold_right fst snd]; change (fold_right _ 0%N ms) with (degs ms); rewrite Hdg, <- Eq; lia|].
  all: split; [intros q' e' [Hin|Hin]; [injection Hin as <- <-; exists k, j; rewrite Eit, nth_upd by (rewrite ?Hit; lia); rewrite Nat.eqb_refl; repeat split; auto; lia|];
         destruct (Hsrc _ _ Hin) as (k' & j' & Hk' & Hj' & Hl' & E'); exists k', j'; rewrite Eit, nth_upd by (rewrite ?Hit; lia);
         split; [easy|]; split; [|now split]; destruct (Nat.eqb_spec k k') as [Ek|Ek]; [rewrite <- Ek in Hj'; change (nth k it 0) with j in Hj'; lia|easy]|].
  all: intros l Hl HR q' e' [Hin|Hin]; [injection Hin as <- <-; rewrite <- Eq; apply block_mod with d; auto|].
  all: apply (Hold _ Hkill l Hl HR q' e' Hin).
Qed.
Lemma delta_lt l : in_box nf ng l -> (delta l < 2 ^ N.of_nat L)%N.
Proof. intros Hl. apply lxs_lt. intros vw Hv. destruct (Hl vw Hv). apply N.pow_lt_mono_r; lia. Qed.
Lemma small_map_wlp d : 1 <= d -> wlp (small_multiplication_map d) (fun Sm => d <= 16 /\ is_small d Sm).
Proof.
  intros Hd. destruct (Nat.le_gt_cases d 16).
  - eapply wlp_mono; [apply wlp_wp, small_map_ok; lia|]. auto.
  - destruct d as [|k]; [lia|]. unfold small_multiplication_map. now rewrite (proj2 (nth_error_None small_maps k)) by (cbn; lia).
Qed.
Lemma inf_wlp d : wlp (crt_modred_mat nf 0 d) (fun M => d <= nf /\ mset (mzd_init d nf) M (fun j i => N.testbit (infv nf d i) (N.of_nat j))) /\
                  wlp (crt_modred_mat ng 0 d) (fun M => d <= ng /\ mset (mzd_init d ng) M (fun j i => N.testbit (infv ng d i) (N.of_nat j))).
Proof.
  assert (Hx : forall n, wlp (crt_modred_mat n 0 d) (fun M => d <= n /\ mset (mzd_init d n) M (fun j i => N.testbit (infv n d i) (N.of_nat j)))); [|split; apply Hx].
  intros n. pose proof (modred_inf_conv n d) as Hc. destruct (crt_modred_mat n 0 d) as [M| |] eqn:EM; try easy. cbn [wlp] in *. split; [easy|].
  pose proof (modred_inf n d Hc) as Hm. rewrite EM in Hm. cbn [wp] in Hm. apply (mset_ext _ _ _ _ Hm). cbn [mzd_init mzd_nrows mzd_ncols]. intros j i Hj Hi.
  unfold infv. destruct (Nat.ltb_spec (n - 1 - i) d); [rewrite N.pow2_bits_eqb|rewrite N.bits_0]; lia.
Qed.
Theorem crt_FG_determined : wlp (crt_FG nf ng p) (fun FG => let '(F, G) := FG in
  shape_ok (mzd_nrows F) 0 F G /\ (covers nf ng p -> determined (mzd_nrows F) nf ng (mbit F) (mbit G))).
Proof.
  unfold crt_FG. apply wlp_bind. destruct (crt_rows p) as [m| |]; try easy. cbn [wlp]. apply wlp_bind. apply (wlp_lget p 0 0). intros Hp. apply wlp_bind.
  apply wlp_mono with (P := fun st => inv m False 0 (st, repeat 0 17)).
  { destruct (Nat.eqb_spec p0 0) as [E|E].
    - cbn [wlp inv]. split; [unfold shape_ok; split; [apply wf_init|]; split; [apply wf_init|]; cbn; repeat split; lia|]. split; [easy|]. split.
      + intros l Hl _. rewrite E, Nat.sub_0_r. now apply delta_lt.
      + right. split; [easy|]. exists []. split; [constructor|]. split; [easy|]. split; [easy|]. intros l Hl _ q e [].
    - apply wlp_bind. eapply wlp_mono; [apply small_map_wlp; lia|]. intros Sm (H16 & HS). destruct (inf_wlp p0) as [I1 I2].
      apply wlp_bind. eapply wlp_mono; [apply (put_block_wlp (p0 <= nf) Sm _ 0 p0 nf 0 (infv nf p0)); auto; [lia|apply wf_init]|]. intros F (B1 & B2 & BF).
      apply wlp_bind. eapply wlp_mono; [apply (put_block_wlp (p0 <= ng) Sm _ 0 p0 ng 0 (infv ng p0)); auto; [lia|apply wf_init]|]. intros G (B3 & B4 & BG).
      rewrite cost_get by lia. cbn [bind wlp inv].
      pose proof (mset_wf _ _ _ BF) as WF. pose proof (mset_wf _ _ _ BG) as WG. pose proof (mset_nr _ _ _ BF) as RF. pose proof (mset_nr _ _ _ BG) as RG. pose proof (mset_nc _ _ _ BF) as CF. pose proof (mset_nc _ _ _ BG) as CG.
      cbn [mzd_init mzd_nrows mzd_ncols] in *.
      split; [unfold shape_ok; split; [easy|]; split; [easy|]; repeat split; lia|]. split; [easy|]. split.
      + intros l Hl HR. apply block_inf; [easy|easy|easy|].
        apply (block_rel nf ng 0 p0 (mzd_init m nf) (mzd_init m ng) F G (infv nf p0) (infv ng p0) l); auto; try lia; intros; apply infv_lt.
      + right. split; [easy|]. exists []. split; [constructor|]. split; [easy|]. split; [easy|]. intros l Hl _ q e []. }
  intros st0 Hst0. apply wlp_bind.
  set (big := fun n => exists d, d < n /\ 1 <= d /\ 1 <= nth d p 0 /\ nf <= d /\ ng <= d).
  eapply wlp_mono; [apply (wlp_for (fun d st => inv m (big d) (dsum p d) st)); [lia| |]|].
  - replace (dsum p 1) with 0 by (cbn; lia). revert Hst0. apply inv_mono. intros (d & H1 & H2 & _). lia.
  - intros d st Hd Hst. apply wlp_bind. apply (wlp_lget p d 0). intros Hpl. destruct (Nat.eqb_spec (nth d p 0) 0) as [E|E].
    + cbn [wlp]. cbn [dsum]. rewrite E, Nat.mul_0_r, Nat.add_0_r. revert Hst. apply inv_mono. intros (d' & H1 & H2 & H3 & H4).
      assert (d' <> d) by (intros ->; lia). exists d'. repeat split; try easy; lia.
    + apply wlp_bind. eapply wlp_mono; [apply small_map_wlp; lia|]. intros Sm (H16 & HS).
      eapply wlp_mono; [apply (wlp_for (fun i st => inv m (big d \/ (1 <= i /\ nf <= d /\ ng <= d)) (dsum p d + d * i) st)); [lia| |]|].
      * rewrite Nat.mul_0_r, Nat.add_0_r. revert Hst. apply inv_mono. intros [?|?]; [easy|lia].
      * intros i [[[F G] r] it] Hi Hst'. eapply wlp_mono; [apply (block_step m _ _ d Sm F G r it ltac:(lia) HS Hst')|]. cbv beta.
        intros st'. replace (dsum p d + d * i + d) with (dsum p d + d * S i) by lia. apply inv_mono. intros [?|(? & ? & ?)]; [left; now left|right; now split].
      * cbv beta. intros st'. cbn [dsum]. apply inv_mono. intros (d' & H1 & H2 & H3 & H4 & H5). destruct (Nat.eq_dec d' d) as [->|Hne].
        -- right. repeat split; try easy; lia.
        -- left. exists d'. repeat split; try easy; lia.
  - cbv beta. intros [[[F G] r] it] ((WF & WG & CF & CG & RF & RG & Hr) & Hit & Hinf & Hdis). cbn [wlp].
    split; [unfold shape_ok; split; [easy|]; split; [easy|]; repeat split; congruence || lia|].
    intros Hgood l Hl HR. rewrite RF in HR. assert (HR' : rel r (mbit F) (mbit G) l) by (intros k Hk; apply HR; lia).
    destruct Hdis as [Hz|[Hnb Hm]]; [now apply Hz|]. destruct Hm as (ms & Hnd & Hdg & Hsrc & Hkill).
    destruct Hgood as [Hdeg|(d & H1 & H2 & H3 & H4)]; [|exfalso; apply Hnb; exists d; repeat split; try easy; lia].
    rewrite scheme_degree_dsum in Hdeg. apply (crt_injective ms (delta l) (N.of_nat (L - p0))); [|easy|now apply Hinf|rewrite Hdg; lia].
    intros q e Hin. split; [|apply (Hkill l Hl HR' q e Hin)]. destruct (Hsrc q e Hin) as (k & j & Hk & _ & Hj & ->). now apply irrs_nth.
Qed.
End CRT.

(** ** it succeeds on schemes that use only irreducible moduli *)
Fixpoint csum (p : list nat) (n : nat) : nat := match n with O => 0 | S n' => csum p n' + cost n' * nth n' p 0 end.
Lemma scheme_cost_csum p : scheme_cost p = cost (nth 0 p 0) + csum p 17.
Proof. unfold scheme_cost, cost. cbn [seq fold_right csum]. change (cost 0) with 0. unfold cost. lia. Qed.
Lemma csum_mono p n k : csum p n <= csum p (n + k).
Proof. induction k as [|k IH]; [now rewrite Nat.add_0_r|]. rewrite Nat.add_succ_r. cbn [csum]. lia. Qed.
Lemma crt_rows_ok p : length p = 17 -> nth 0 p 0 <= 16 -> crt_rows p = Ok (scheme_cost p).
Proof.
  intros Hl H0. unfold crt_rows. rewrite (lget_ok p 0 0) by lia. cbn [bind]. rewrite cost_get by lia. cbn [bind].
  assert (Hw : wp (for_ 1 17 (fun d m => c <- lget costs d ;; k <- lget p d ;; Ok (m + c * k)) (cost (nth 0 p 0))) (fun m => m = cost (nth 0 p 0) + csum p 17)).
  { apply (wp_for (fun d m => m = cost (nth 0 p 0) + csum p d)); [lia|cbn; lia|]. intros d m Hd ->. rewrite cost_get by lia. cbn [bind]. rewrite (lget_ok p d 0) by lia. cbn [bind wp csum]. lia. }
  destruct (proj1 (wp_iff _ _) Hw) as (m & -> & ->). now rewrite scheme_cost_csum.
Qed.
Lemma next_poly_ok d it : 1 <= d <= 16 -> length it = 17 -> nth d it 0 < length (irrs d) ->
  next_poly d it = Ok (nth (nth d it 0) (irrs d) 0%N, upd it d (nth d it 0 + 1)).
Proof.
  intros Hd Hl Hn. unfold next_poly. cbv zeta. replace (d =? 0) with false by lia. rewrite (lget_ok it d 0) by lia. cbn [bind].
  destruct (irr_read_ok d (nth d it 0) Hd) as [E0 E1]. rewrite E0. cbn [bind]. rewrite Nat2N.id. replace (nth d it 0 <? length (irrs d)) with true by lia.
  rewrite E1 by easy. cbn [bind]. rewrite lset_ok by lia. reflexivity.
Qed.
Lemma inf_wp n d : d <= n -> wp (crt_modred_mat n 0 d) (fun M => mset (mzd_init d n) M (fun j i => N.testbit (infv n d i) (N.of_nat j))).
Proof.
  intros H. eapply wp_mono; [now apply modred_inf|]. intros M Hm. apply (mset_ext _ _ _ _ Hm). cbn [mzd_init mzd_nrows mzd_ncols]. intros j i Hj Hi.
  unfold infv. destruct (Nat.ltb_spec (n - 1 - i) d); [rewrite N.pow2_bits_eqb|rewrite N.bits_0]; lia.
Qed.
(** the blocks of rows: (degree, modulus), with modulus 0 for the points at infinity *)
Definition bval (len : nat) (b : nat * N) (v : nat) : N := if (snd b =? 0)%N then infv len (fst b) v else pmod (2 ^ N.of_nat v) (snd b).
Definition bcost (bl : list (nat * N)) : nat := fold_right (fun b s => cost (fst b) + s) 0 bl.
Fixpoint bbit (len : nat) (bl : list (nat * N)) (k v : nat) : bool :=
  match bl with
  | [] => false
  | b :: t => if k <? cost (fst b) then small_par (fst b) k (bval len b v) else bbit len t (k - cost (fst b)) v
  end.
Definition deg_blks (d i : nat) : list (nat * N) := map (fun j => (d, nth j (irrs d) 0%N)) (seq 0 i).
Fixpoint blks (p : list nat) (n : nat) : list (nat * N) :=
  match n with
  | O => if nth 0 p 0 =? 0 then [] else [(nth 0 p 0, 0%N)]
  | S n' => blks p n' ++ (if n' =? 0 then [] else deg_blks n' (nth n' p 0))
  end.
Lemma bcost_app a b : bcost (a ++ b) = bcost a + bcost b.
Proof. induction a as [|x a IH]; [easy|]. cbn [app bcost fold_right]. fold (bcost (a ++ b)) (bcost a). lia. Qed.
Lemma bbit_snoc len bl b k v : k < bcost bl + cost (fst b) ->
  bbit len (bl ++ [b]) k v = if k <? bcost bl then bbit len bl k v else small_par (fst b) (k - bcost bl) (bval len b v).
Proof.
  revert k. induction bl as [|a bl IH]; intros k Hk.
  - cbn [app bbit bcost fold_right] in *. replace (k <? cost (fst b)) with true by lia. now rewrite Nat.sub_0_r.
  - cbn [app bbit bcost fold_right] in *. fold (bcost bl) in *. destruct (Nat.ltb_spec k (cost (fst a))).
    + now replace (k <? cost (fst a) + bcost bl) with true by lia.
    + rewrite IH by lia. destruct (Nat.ltb_spec (k - cost (fst a)) (bcost bl)), (Nat.ltb_spec k (cost (fst a) + bcost bl)); try lia. f_equal. lia.
Qed.
Lemma deg_blks_S d i : deg_blks d (S i) = deg_blks d i ++ [(d, nth i (irrs d) 0%N)].
Proof. unfold deg_blks. now rewrite seq_S, map_app. Qed.
Lemma deg_blks_cost d i : bcost (deg_blks d i) = cost d * i.
Proof. induction i as [|i IH]; [cbn; lia|]. rewrite deg_blks_S, bcost_app, IH. cbn [bcost fold_right fst]. lia. Qed.
Lemma blks_cost p n : bcost (blks p n) = cost (nth 0 p 0) + csum p n.
Proof.
  induction n as [|n IH].
  - cbn [blks csum]. destruct (Nat.eqb_spec (nth 0 p 0) 0) as [->|]; [reflexivity|]. cbn [bcost fold_right fst]. lia.
  - cbn [blks csum]. rewrite bcost_app, IH. destruct (Nat.eqb_spec n 0) as [->|]; [change (cost 0) with 0; cbn; lia|]. rewrite deg_blks_cost. lia.
Qed.
(** F has the blocks bl in its top rows *)
Definition has_blocks (len : nat) (bl : list (nat * N)) (F : mzd) : Prop := forall k v, k < bcost bl -> v < len -> mbit F k v = bbit len bl k v.
Lemma has_blocks_snoc len bl b F F' : has_blocks len bl F -> with_block F F' (bcost bl) (fst b) (bval len b) -> bcost bl + cost (fst b) <= mzd_nrows F -> mzd_ncols F = len ->
  has_blocks len (bl ++ [b]) F'.
Proof.
  intros H B HR HC k v Hk Hv. rewrite bcost_app in Hk. cbn [bcost fold_right] in Hk. fold (bcost bl) in Hk. rewrite bbit_snoc by lia.
  rewrite (mset_bit _ _ _ _ _ B) by lia. destruct (Nat.ltb_spec k (bcost bl)).
  - replace (bcost bl <=? k) with false by lia. cbn [andb]. now apply H.
  - replace (bcost bl <=? k) with true by lia. now replace (k <? bcost bl + cost (fst b)) with true by lia.
Qed.
Theorem crt_FG_total nf ng p : scheme p -> nth 0 p 0 <= nf -> nth 0 p 0 <= ng ->
  wp (crt_FG nf ng p) (fun FG => let '(F, G) := FG in
    wf_mzd F /\ wf_mzd G /\ mzd_nrows F = scheme_cost p /\ mzd_nrows G = scheme_cost p /\ mzd_ncols F = nf /\ mzd_ncols G = ng /\
    has_blocks nf (blks p 17) F /\ has_blocks ng (blks p 17) G).
Proof.
  intros (Hl & H16 & Hp) Hf Hg. unfold crt_FG. rewrite crt_rows_ok by easy. cbn [bind]. rewrite (lget_ok p 0 0) by lia. cbn [bind]. set (m := scheme_cost p). set (p0 := nth 0 p 0) in *.
  pose proof (scheme_cost_csum p) as Em. fold m p0 in Em.
  set (I := fun bl (st : mzd * mzd * nat) => let '(F, G, r') := st in wf_mzd F /\ wf_mzd G /\ mzd_nrows F = m /\ mzd_nrows G = m /\ mzd_ncols F = nf /\ mzd_ncols G = ng /\ r' = bcost bl /\ has_blocks nf bl F /\ has_blocks ng bl G).
  assert (Step : forall F F' G G' bl b, bcost bl + cost (fst b) <= m -> I bl (F, G, bcost bl) -> with_block F F' (bcost bl) (fst b) (bval nf b) -> with_block G G' (bcost bl) (fst b) (bval ng b) -> I (bl ++ [b]) (F', G', bcost bl + cost (fst b))).
  { intros F F' G G' bl b Hm (A & B & C & D & E1 & E2 & _ & K1 & K2) BF BG. pose proof (mset_wf _ _ _ BF). pose proof (mset_wf _ _ _ BG). pose proof (mset_nr _ _ _ BF). pose proof (mset_nr _ _ _ BG). pose proof (mset_nc _ _ _ BF). pose proof (mset_nc _ _ _ BG).
    cbn [I]. split; [easy|]. split; [easy|]. split; [congruence|]. split; [congruence|]. split; [congruence|]. split; [congruence|].
    split; [rewrite bcost_app; cbn [bcost fold_right]; lia|]. split; [apply (has_blocks_snoc nf bl b F F'); auto; lia|apply (has_blocks_snoc ng bl b G G'); auto; lia]. }
  apply wp_bind. apply wp_mono with (P := I (blks p 0)).
  { assert (I0 : I [] (mzd_init m nf, mzd_init m ng, 0)) by (cbn [I]; split; [apply wf_init|]; split; [apply wf_init|]; repeat split; intros k v Hk; cbn in Hk; lia).
    cbn [blks]. fold p0. destruct (Nat.eqb_spec p0 0) as [E|E]; [exact I0|].
    pose proof (inf_wp nf p0 Hf) as V1. pose proof (inf_wp ng p0 Hg) as V2.
    apply wp_bind. eapply wp_mono; [apply small_map_ok; lia|]. intros Sm HS.
    apply wp_bind. eapply wp_mono; [apply (put_block_wp Sm _ 0 p0 nf 0 (infv nf p0)); auto; [lia|apply wf_init|cbn [mzd_init mzd_nrows]; lia]|]. intros F BF.
    apply wp_bind. eapply wp_mono; [apply (put_block_wp Sm _ 0 p0 ng 0 (infv ng p0)); auto; [lia|apply wf_init|cbn [mzd_init mzd_nrows]; lia]|]. intros G BG.
    rewrite cost_get by lia. cbn [bind wp]. exact (Step _ _ _ _ [] (p0, 0%N) ltac:(cbn [bcost fold_right fst]; lia) I0 BF BG). }
  intros st0 Hst0. apply wp_bind.
  set (J := fun d i (st : mzd * mzd * nat * list nat) => let '(st, it) := st in I (blks p d ++ deg_blks d i) st /\ length it = 17 /\ nth d it 0 = i /\ forall k, d < k -> nth k it 0 = 0).
  eapply wp_mono; [apply (wp_for (fun d st => J d 0 st)); [lia| |]|].
  - split; [|split; [easy|split; [easy|intros k _; apply nth_repeat]]].
    change (deg_blks 1 0) with (@nil (nat * N)). change (blks p 1) with (blks p 0 ++ []). now rewrite !app_nil_r.
  - intros d st Hd Hst. rewrite (lget_ok p d 0) by lia. cbn [bind].
    assert (Next : forall st, J d (nth d p 0) st -> J (S d) 0 st).
    { intros [st' it'] (A & B & C & D). split; [|split; [easy|split; [apply D; lia|intros; apply D; lia]]].
      change (deg_blks (S d) 0) with (@nil (nat * N)). rewrite app_nil_r. cbn [blks]. replace (d =? 0) with false by lia. exact A. }
    destruct (Nat.eqb_spec (nth d p 0) 0) as [E|E]; [cbn [wp]; apply Next; now rewrite E|].
    apply wp_bind. eapply wp_mono; [apply small_map_ok; lia|]. intros Sm HS. eapply wp_mono; [apply (wp_for (fun i st => J d i st)); [lia|exact Hst|]|exact Next].
    intros i [[[F G] r] it] Hi (HI & Hit & Hd' & Hz). pose proof HI as (A & B & C & D & E1 & E2 & Er & _).
    assert (Hpd : nth d p 0 <= length (irrs d)) by (apply Hp; lia).
    rewrite next_poly_ok by lia. cbn [bind fst snd]. rewrite Hd'. set (q := nth i (irrs d) 0%N).
    destruct (irrs_nth d i ltac:(lia) ltac:(lia)) as [Hdeg Hirr]. fold q in Hdeg, Hirr. pose proof (irreducible_no_factor _ Hirr) as Hnz.
    assert (Hm : r + cost d <= m).
    { rewrite Er, bcost_app, blks_cost, deg_blks_cost, Em. fold p0. pose proof (csum_mono p (S d) (17 - S d)) as Hc. replace (S d + (17 - S d)) with 17 in Hc by lia. change (csum p (S d)) with (csum p d + cost d * nth d p 0) in Hc.
      assert (cost d * S i <= cost d * nth d p 0) by (apply Nat.mul_le_mono_l; lia). lia. }
    assert (Hbv : forall len v, bval len (d, q) v = pmod (2 ^ N.of_nat v) q) by (intros; unfold bval; cbn [fst snd]; now replace (q =? 0)%N with false by lia).
    apply wp_bind. eapply wp_mono; [apply (put_block_wp Sm F r d nf q (bval nf (d, q))); auto; [lia|lia|eapply wp_mono; [apply modred_ok_deg; auto; lia|]; intros M HM; apply (mset_ext _ _ _ _ HM); intros; now rewrite Hbv]|]. intros F' BF.
    apply wp_bind. eapply wp_mono; [apply (put_block_wp Sm G r d ng q (bval ng (d, q))); auto; [lia|lia|eapply wp_mono; [apply modred_ok_deg; auto; lia|]; intros M HM; apply (mset_ext _ _ _ _ HM); intros; now rewrite Hbv]|]. intros G' BG.
    rewrite cost_get by lia. cbn [bind wp J]. rewrite Er in HI, BF, BG, Hm |- *.
    pose proof (Step F F' G G' _ (d, q) Hm HI BF BG) as HI'. split; [|split; [now rewrite upd_length|split]].
    + rewrite deg_blks_S. fold q. rewrite app_assoc. exact HI'.
    + rewrite nth_upd_eq by lia. lia.
    + intros k Hk. rewrite nth_upd_ne by lia. now apply Hz.
  - cbv beta. intros [[[F G] r] it] (HI & _). cbn [wp]. change (deg_blks 17 0) with (@nil (nat * N)) in HI. rewrite app_nil_r in HI.
    destruct HI as (A & B & C & D & E1 & E2 & _ & K1 & K2). split; [exact A|]. split; [exact B|]. repeat split; assumption.
Qed.
