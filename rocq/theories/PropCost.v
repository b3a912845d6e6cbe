(** C65: the number of products of smaller matrices.  The logged versions of CostModel.v return the list of the products they call, with their
    sizes; every theorem says what this list is and that the operation itself (without the log) returns the same matrix. *)
From Coq Require Import NArith ZArith Lia List Bool Arith.
From Coq Require Import ZifyBool ZifyNat ZifyN.
From Verif Require Import Base Spec LinSpec Gf2eModel Gf2eProofs MzdModel MzedModel MzedSpec MzedProofs MzedOps MzedOps2 LaneFacts SliceModel SliceSpec SliceProofs KaratsubaTable KaraModel ConvModel ConvSlice PolyMatModel PolyMatSpec.
From Verif Require Import BlmTable BlmModel BlmSpec BlmFG BlmOps BlmOpsProofs BlmOracle StrassenModel CostModel CostProofs PropSlice PropPoly PropBlm PropStrassen Demo.
Import ListNotations.
Local Open Scope nat_scope.

(** the documented number of products over GF(2) for matrices of polynomials with d coefficients, 1 <= d <= 16: the comments "using ...
    multiplications" of src/karatsuba.c, Montgomery's formulas in src/blm.c and the table in src/blm.c:484 *)
Definition documented (d : nat) : nat := nth d [0; 1; 3; 6; 9; 13; 17; 22; 27; 31; 36; 40; 45; 49; 55; 60; 64] 0.

Lemma logged {T} (ml : log T) (m : res T) c n t : erase ml = m -> m = Ok c -> logs ml (fun _ lg => calls n t lg) -> ml = Ok (c, repeat t n).
Proof.
  intros E Em H. rewrite Em in E. unfold erase in E. destruct ml as [[c' l]| |]; cbn in E; try discriminate E. injection E as ->.
  f_equal. f_equal. apply calls_repeat. exact (H c l eq_refl).
Qed.
Lemma slice_dims A : wf_slice A -> forall x, In x (sl_x A) -> dims (sl_nrows A) (sl_ncols A) x.
Proof.
  intros (_ & _ & Hl & H) x Hx. destruct (In_nth _ _ (Mzd 0 0 []) Hx) as (b & Hb & <-). rewrite Hl in Hb. apply (H b Hb).
Qed.
Lemma kara_doc d : 2 <= d <= 16 -> kara_len d = documented d.
Proof. intros Hd. do 17 (destruct d as [|d]; [first [lia | reflexivity]|]). lia. Qed.
Lemma cost_kara C A B : wf_slice A -> wf_slice B -> sl_ncols A = sl_nrows B ->
  logs (mzd_slice_addmul_karatsuba_l_ C A B) (fun _ lg => calls (documented (ff_degree (sl_ff A))) (sl_nrows A, sl_ncols A, sl_ncols B) lg).
Proof.
  intros HA HB En. assert (Hd : 1 <= ff_degree (sl_ff A) <= 16) by (destruct HA as ((H & _) & _); exact H).
  pose proof (slice_dims A HA) as DA. pose proof (slice_dims B HB) as DB. rewrite <- En in DB.
  destruct (Nat.eq_dec (ff_degree (sl_ff A)) 1) as [E1|E1].
  - unfold mzd_slice_addmul_karatsuba_l_. rewrite E1. cbn [ptr_addmul_karatsuba_l]. eapply logs_mono; [now apply logs_slice_naive with (l := sl_ncols A)|]. cbv beta. intros _ lg. now rewrite E1.
  - eapply logs_mono; [apply logs_slice_kara with (l := sl_ncols A); [reflexivity|reflexivity|exact DA|exact DB|lia]|]. cbv beta. intros _ lg. now rewrite kara_doc by lia.
Qed.

(** ** Karatsuba: mzd_slice_mul, mzd_slice_addmul, mzed_mul_karatsuba *)
Theorem C65_slice_mul : forall C A B, wf_slice A -> wf_slice B -> ff_minpoly (sl_ff A) = ff_minpoly (sl_ff B) -> sl_ncols A = sl_nrows B ->
  starget C (ff_minpoly (sl_ff A)) (sl_nrows A) (sl_ncols B) ->
  exists C', mzd_slice_mul C A B = Ok C' /\
    mzd_slice_mul_l C A B = Ok (C', repeat (sl_nrows A, sl_ncols A, sl_ncols B) (documented (ff_degree (sl_ff A)))).
Proof.
  intros C A B HA HB Ef En HC. destruct (C37_mul C A B HA HB Ef En HC) as (C' & E & _). exists C'. split; [exact E|].
  eapply logged; [apply erase_slice_mul|exact E|]. unfold mzd_slice_mul_l. apply logs_q, alw_true. intros _. destruct C as [C|].
  - apply logs_q, alw_true. intros _. apply logs_q, alw_true. intros D. now apply cost_kara.
  - now apply cost_kara.
Qed.
Theorem C65_slice_addmul : forall C A B, wf_slice A -> wf_slice B -> wf_slice C -> ff_minpoly (sl_ff A) = ff_minpoly (sl_ff B) -> sl_ncols A = sl_nrows B ->
  ff_minpoly (sl_ff C) = ff_minpoly (sl_ff A) -> sl_nrows C = sl_nrows A -> sl_ncols C = sl_ncols B ->
  exists C', mzd_slice_addmul (Some C) A B = Ok C' /\
    mzd_slice_addmul_l (Some C) A B = Ok (C', repeat (sl_nrows A, sl_ncols A, sl_ncols B) (documented (ff_degree (sl_ff A)))).
Proof.
  intros C A B HA HB HC Ef En Ec Er Es. destruct (C37_addmul C A B HA HB HC Ef En Ec Er Es) as (C' & E & _). exists C'. split; [exact E|].
  eapply logged; [apply erase_slice_addmul|exact E|]. unfold mzd_slice_addmul_l. apply logs_q, alw_true. intros _. apply logs_q, alw_true. intros _. now apply cost_kara.
Qed.
Lemma alw_wp {T} (m : res T) P : wp m P -> alw m P.
Proof. intros H a E. now rewrite E in H. Qed.
Theorem C65_packed_mul : forall C A B, wf_mzed A -> wf_mzed B -> ff_minpoly (mz_ff A) = ff_minpoly (mz_ff B) -> mz_ncols A = mz_nrows B ->
  target C (ff_minpoly (mz_ff A)) (mz_nrows A) (mz_ncols B) ->
  exists C', mzed_mul_karatsuba C A B = Ok C' /\
    mzed_mul_karatsuba_l C A B = Ok (C', repeat (mz_nrows A, mz_ncols A, mz_ncols B) (documented (ff_degree (mz_ff A)))).
Proof.
  intros C A B HA HB Ef En HC. destruct (C37_packed_mul C A B HA HB Ef En HC) as (C' & E & _). exists C'. split; [exact E|].
  eapply logged; [apply erase_mzed_kara|exact E|]. unfold mzed_mul_karatsuba_l. apply logs_q, alw_true. intros _.
  assert (G : forall D, logs (mzed_addmul_karatsuba_l_ D A B) (fun _ lg => calls (documented (ff_degree (mz_ff A))) (mz_nrows A, mz_ncols A, mz_ncols B) lg)).
  { intros D. unfold mzed_addmul_karatsuba_l_. apply logs_q, alw_true. intros Ds.
    apply logs_q. eapply alw_mono; [apply alw_wp, (mzed_slice_ok None A HA Logic.I)|]. cbv beta. intros As (KA & _). destruct KA as (A1 & A2 & A3 & A4 & A5).
    apply logs_q. eapply alw_mono; [apply alw_wp, (mzed_slice_ok None B HB Logic.I)|]. cbv beta. intros Bs (KB & _). destruct KB as (B1 & B2 & B3 & B4 & B5).
    apply logs_bind. eapply logs_mono; [apply cost_kara; [exact A1|exact B1|congruence]|]. cbv beta. intros Cs lg Hlg. apply logs_quiet, alw_true. intros C0. rewrite app_nil_r.
    assert (Ed : ff_degree (sl_ff As) = ff_degree (mz_ff A)).
    { destruct A1 as ((_ & P1 & _) & _). destruct HA as ((_ & P2 & _) & _). rewrite A2, P2 in P1. lia. }
    now rewrite Ed, A3, A4, B4 in Hlg. }
  destruct C as [C|]; [|apply G]. apply logs_q, alw_true. intros _. apply logs_q, alw_true. intros D. apply G.
Qed.
(** ** schoolbook *)
Theorem C65_slice_naive : forall C A B, wf_slice A -> wf_slice B -> ff_minpoly (sl_ff A) = ff_minpoly (sl_ff B) -> sl_ncols A = sl_nrows B ->
  starget C (ff_minpoly (sl_ff A)) (sl_nrows A) (sl_ncols B) ->
  exists C', mzd_slice_addmul_naive_ C A B = Ok C' /\
    mzd_slice_addmul_naive_l C A B = Ok (C', repeat (sl_nrows A, sl_ncols A, sl_ncols B) (ff_degree (sl_ff A) * ff_degree (sl_ff A))).
Proof.
  intros C A B HA HB Ef En HC. destruct (C38_addmul_naive C A B HA HB Ef En HC) as (C' & E & _). exists C'. split; [exact E|].
  eapply logged; [apply erase_slice_naive|exact E|]. pose proof (slice_dims A HA) as DA. pose proof (slice_dims B HB) as DB. rewrite <- En in DB. now apply logs_slice_naive.
Qed.
(** ** matrices of polynomials *)
Lemma mp_dims A : wf_mpoly A -> forall x, In x (mp_x A) -> dims (mp_nrows A) (mp_ncols A) x.
Proof. intros (_ & _ & H) x Hx. apply (H x Hx). Qed.
Theorem C65_poly_naive : forall C A B, wf_mpoly A -> wf_mpoly B -> mp_ncols A = mp_nrows B -> ptarget C A B ->
  exists C', mzd_poly_addmul_naive C A B = Ok C' /\
    mzd_poly_addmul_naive_l C A B = Ok (C', repeat (mp_nrows A, mp_ncols A, mp_ncols B) (mp_depth A * mp_depth B)).
Proof.
  intros C A B HA HB En HC. destruct (C41_addmul_naive C A B HA HB En HC) as (C' & E & _). exists C'. split; [exact E|].
  eapply logged; [apply erase_poly_naive|exact E|]. pose proof (mp_dims A HA) as DA. pose proof (mp_dims B HB) as DB. rewrite <- En in DB. now apply logs_poly_naive.
Qed.
Theorem C65_poly_balanced : forall C A B, wf_mpoly A -> wf_mpoly B -> mp_ncols A = mp_nrows B -> mp_depth A = mp_depth B -> 1 <= mp_depth A <= 16 -> ptarget C A B ->
  exists C', mzd_poly_addmul_karatsubs_balanced C A B = Ok C' /\
    mzd_poly_addmul_karatsubs_balanced_l C A B = Ok (C', repeat (mp_nrows A, mp_ncols A, mp_ncols B) (documented (mp_depth A))).
Proof.
  intros C A B HA HB En Ed Hd HC. destruct (C41_addmul_balanced C A B HA HB En Ed Hd HC) as (C' & E & _). exists C'. split; [exact E|].
  eapply logged; [apply erase_poly_kara|exact E|]. pose proof (mp_dims A HA) as DA. pose proof (mp_dims B HB) as DB. rewrite <- En in DB.
  eapply logs_mono; [apply (logs_poly_kara C A B _ _ _ DA DB Hd)|]. cbv beta. intros _ lg. destruct (Nat.eqb_spec (mp_depth A) 1) as [E1|E1]; [now rewrite E1|]. now rewrite kara_doc by lia.
Qed.
(** ** through a bilinear map *)
Lemma finish_F fuel x ff f r : blm_finish_polymult fuel x ff f = Some r -> alw r (fun f' => bl_F f' = bl_F f).
Proof.
  unfold blm_finish_polymult. destruct (finish_loop _ _ _ _ _ _ _ _) as [[s| |]|]; try easy; intros [= <-]; try easy. unfold finish_rest.
  apply alw_bind, alw_true. intros C. cbv zeta. apply alw_bind, alw_true. intros [[? ?] ?].
  repeat first [apply alw_ok; reflexivity | apply alw_bind, alw_true; intros ? | match goal with |- alw (match ?z with _ => _ end) _ => destruct z end].
Qed.
(** a map made by blm_init_crt has one row for every product its scheme p needs: the sum of the documented numbers for its moduli *)
Theorem C65_blm_rows : forall fuel x ff nf ng p djb f, scheme p -> nth 0 p 0 <= nf -> nth 0 p 0 <= ng -> blm_init_crt fuel x ff nf ng p djb = Some (Ok f) ->
  mzd_nrows (bl_F f) = documented (nth 0 p 0) + fold_right (fun d s => documented d * nth d p 0 + s) 0 (seq 1 16).
Proof.
  intros fuel x ff nf ng p djb f Hp Hf Hg. unfold blm_init_crt. destruct (proj1 (wp_iff _ _) (crt_FG_total nf ng p Hp Hf Hg)) as ([F G] & -> & _ & _ & HF & _).
  destruct (blm_finish_polymult _ _ _ _) as [r|] eqn:E; [|easy]. intros [= Er]. pose proof (finish_F _ _ _ _ _ E) as H. cbn [bl_F] in H.
  destruct r as [f0| |]; cbn [bind] in Er; try discriminate Er. specialize (H f0 eq_refl).
  assert (HfF : bl_F f = F).
  { destruct djb; [|now injection Er as <-]. unfold blm_djb_compile in Er. destruct (bl_f f0), (bl_g f0), (bl_h f0); try discriminate Er. injection Er as <-. exact H. }
  rewrite HfF, HF. reflexivity.
Qed.
Lemma some_inj {T} (a b : T) : Some a = Some b -> a = b.
Proof. now intros [= ->]. Qed.
Lemma alw_sl_map A body : alw (sl_map A body) (fun A' => sl_ff A' = sl_ff A).
Proof. unfold sl_map, sl_map_n. apply alw_bind, alw_true. intros x. now apply alw_ok. Qed.
Theorem C65_slice_mul_blm : forall fuel x C A B f, m4ri_ok x -> wf_slice A -> wf_slice B -> ff_minpoly (sl_ff A) = ff_minpoly (sl_ff B) -> sl_ncols A = sl_nrows B ->
  starget C (ff_minpoly (sl_ff A)) (sl_nrows A) (sl_ncols B) -> fits_map (sl_ff A) f -> sl_depth A * sl_depth A + sl_depth A <= fuel ->
  exists C', mzd_slice_mul_blm fuel x C A B f = Some (Ok C') /\
    mzd_slice_mul_blm_l fuel x C A B f = Some (Ok (C', repeat (sl_nrows A, sl_ncols A, sl_ncols B)
      (match f with Some f => mzd_nrows (bl_F f) | None => documented (ff_degree (sl_ff A)) end))).
Proof.
  intros fuel x C A B f Hx HA HB Ef En HC Hf Hfuel. destruct (C52_slice_mul fuel x C A B f Hx HA HB Ef En HC Hf Hfuel) as (C' & E & _). exists C'. split; [exact E|].
  pose proof (erase_slice_blm fuel x C A B f) as Er. rewrite E in Er. destruct (mzd_slice_mul_blm_l fuel x C A B f) as [r|] eqn:El; [|discriminate Er]. cbn [option_map] in Er. injection Er as Er.
  f_equal. eapply logged; [exact Er|reflexivity|].
  assert (Hd : 1 <= ff_degree (sl_ff A) <= 16) by (destruct HA as ((H & _) & _); exact H).
  pose proof (slice_dims A HA) as DA. pose proof (slice_dims B HB) as DB. rewrite <- En in DB.
  assert (G : forall D, ff_degree (sl_ff (sl_or_init D (sl_ff A) (sl_nrows A) (sl_ncols B))) = ff_degree (sl_ff A) -> mzd_slice_mul_blm_l_ fuel x D A B f = Some r ->
    logs r (fun _ lg => calls (match f with Some f => mzd_nrows (bl_F f) | None => documented (ff_degree (sl_ff A)) end) (sl_nrows A, sl_ncols A, sl_ncols B) lg)).
  { intros D HD. unfold mzd_slice_mul_blm_l_. cbv zeta. rewrite HD. destruct f as [f|].
    - intros Hr. apply some_inj in Hr. rewrite <- Hr. apply logs_q, alw_ok. apply logs_bind. eapply logs_mono; [apply (logs_apply _ _ _ _ _ _ _ DA DB)|]. cbv beta. intros X lg Hlg. apply logs_quiet, alw_ok. now rewrite app_nil_r.
    - destruct (16 <? ff_degree (sl_ff A)) eqn:E16; [lia|]. destruct (blm_init_crt _ _ _ _ _ _ _) as [rf|] eqn:Eb; [|easy]. intros Hr. apply some_inj in Hr. rewrite <- Hr.
      apply logs_q. intros f Ef0. subst rf. apply C65_blm_rows in Eb; [| | |].
      + apply logs_bind. eapply logs_mono; [apply (logs_apply _ _ _ _ _ _ _ DA DB)|]. cbv beta. intros X lg Hlg. apply logs_quiet, alw_ok. rewrite app_nil_r. rewrite Eb in Hlg.
        revert Hlg. generalize (ff_degree (sl_ff A)) Hd. clear. intros d Hd. do 17 (destruct d as [|d]; [first [lia | exact (fun z => z)]|]). lia.
      + split; [now rewrite upd_length, repeat_length|]. revert Hd. generalize (ff_degree (sl_ff A)). clear. intros d Hd. split.
        * do 17 (destruct d as [|d]; [first [lia | cbn; lia]|]). lia.
        * intros e He. destruct (Nat.eq_dec e d) as [->|Hn].
          -- rewrite nth_upd_eq by (rewrite repeat_length; lia). do 17 (destruct d as [|d]; [first [lia | vm_compute; lia]|]). lia.
          -- rewrite nth_upd_ne by auto. rewrite nth_repeat. lia.
      + destruct (ff_degree (sl_ff A)); [lia|]. cbn. lia.
      + destruct (ff_degree (sl_ff A)); [lia|]. cbn. lia. }
  revert El. unfold mzd_slice_mul_blm_l. destruct (_ && _); cbn [check guard bind]; [|intros [= <-]; easy].
  destruct C as [C|]; cbn [bind]; [|now apply G].
  destruct (_ && _); cbn [check guard bind]; [|intros [= <-]; easy].
  destruct (mzd_slice_set_ui C 0) as [D| |] eqn:ES; cbn [bind]; [|intros [= <-]; easy|intros [= <-]; easy]. apply G. cbn [sl_or_init].
  destruct HC as (C1 & C2 & _ & _). pose proof (alw_sl_map _ _ _ ES) as ED. rewrite ED. destruct C1 as ((_ & P1 & _) & _). destruct HA as ((_ & P2 & _) & _). rewrite C2, P2 in P1. lia.
Qed.

(** ** Strassen: sizes 2^j m x 2^j k and 2^j k x 2^j n, where m, k, n are whole numbers of words and the cutoff says that they are not halved
    again but everything larger is: 7^j products by Newton-John tables, all of size m x k times k x n *)
Lemma mul_init_zd C A B clear w m n : zd w m n (Mzed (mz_ff A) w (mz_nrows A) (mz_ncols B) (mz_x A)) -> match C with Some C => zd w m n C | None => True end ->
  alw (mzed_mul_init C A B clear) (zd w m n).
Proof.
  intros (H1 & H2 & H3 & H4) HC. cbn [mz_ff mz_w mz_nrows mz_ncols] in *. unfold mzed_mul_init. apply alw_bind, alw_true. intros _. destruct C as [C|].
  - apply alw_bind, alw_true. intros _. destruct clear; [|now apply alw_ok]. now apply alw_ok.
  - rewrite H3, H4. now apply alw_init.
Qed.
Lemma wf_zd A w : wf_mzed A -> mz_w A = w -> zd w (mz_nrows A) (mz_ncols A) A.
Proof. intros (_ & Hw & _) <-. repeat split. exact Hw. Qed.
Theorem C65_strassen : forall mulbs C A B cutoff j m k n, 16 <= mulbs -> wf_mzed A -> wf_mzed B -> ff_minpoly (mz_ff A) = ff_minpoly (mz_ff B) ->
  target C (ff_minpoly (mz_ff A)) (mz_nrows A) (mz_ncols B) ->
  mz_nrows A = 2 ^ j * m -> mz_ncols A = 2 ^ j * k -> mz_nrows B = 2 ^ j * k -> mz_ncols B = 2 ^ j * n ->
  Nat.divide (64 / mz_w A) m -> Nat.divide (64 / mz_w A) k -> Nat.divide (64 / mz_w A) n ->
  (3 * Z.of_nat (64 / mz_w A) <= 2 * cutoff)%Z ->
  (2 * cutoff <= 3 * Z.of_nat m)%Z -> (2 * cutoff <= 3 * Z.of_nat k)%Z -> (2 * cutoff <= 3 * Z.of_nat n)%Z ->
  (3 * Z.of_nat m < 4 * cutoff \/ 3 * Z.of_nat k < 4 * cutoff \/ 3 * Z.of_nat n < 4 * cutoff)%Z ->
  (exists C', mzed_mul_strassen mulbs C A B cutoff = Ok C' /\ mzed_mul_strassen_l mulbs C A B cutoff = Ok (C', repeat (m, k, n) (7 ^ j))) /\
  (exists C', mzed_addmul_strassen mulbs C A B cutoff = Ok C' /\ mzed_addmul_strassen_l mulbs C A B cutoff = Ok (C', repeat (m, k, n) (7 ^ j))).
Proof.
  intros mulbs C A B c j m k n Hb HA HB Ef HC Am Ak Bk Bn Dm Dk Dn Hw Hm Hk Hn Hs.
  assert (W0 : 64 / mz_w A <> 0) by (destruct HA as (_ & Hd & _); revert Hd; clear; unfold gf2e_degree_to_w; generalize (ff_degree (mz_ff A)); intros d Hd; do 17 (destruct d as [|d]; [first [discriminate Hd | injection Hd as <-; discriminate]|]); discriminate Hd).
  assert (Hc : (0 < c)%Z) by lia.
  assert (Md : forall x, Nat.divide (64 / mz_w A) x -> x mod (64 / mz_w A) = 0) by (intros x [q ->]; now apply Nat.mod_mul).
  assert (Hn0 : 0 < mz_ncols B) by (rewrite Bn; pose proof (Nat.pow_nonzero 2 j); assert (0 < n) by lia; nia).
  assert (ZA := wf_zd A _ HA eq_refl). rewrite Am, Ak in ZA.
  assert (Ew : forall X, wf_mzed X -> ff_minpoly (mz_ff X) = ff_minpoly (mz_ff A) -> mz_w X = mz_w A) by (intros X HX EX; now apply same_w).
  assert (ZB := wf_zd B _ HB (Ew B HB (eq_sym Ef))). rewrite Bk, Bn in ZB.
  assert (ZI : zd (mz_w A) (2 ^ j * m) (2 ^ j * n) (Mzed (mz_ff A) (mz_w A) (mz_nrows A) (mz_ncols B) (mz_x A))) by (destruct ZA as (H & _); repeat split; assumption).
  assert (ZC : match C with Some C => zd (mz_w A) (2 ^ j * m) (2 ^ j * n) C | None => True end).
  { destruct C as [C|]; [|exact Logic.I]. destruct HC as (C1 & C2 & C3 & C4). rewrite <- Am, <- Bn, <- C3, <- C4. apply wf_zd; auto. }
  destruct (C23_mul_strassen mulbs C A B c Hb HA HB Ef ltac:(congruence) Hn0 HC Hw) as [(C1 & E1 & _) (C2 & E2 & _)]. split.
  - exists C1. split; [exact E1|]. eapply logged; [apply erase_mul_strassen|exact E1|]. unfold mzed_mul_strassen_l. apply logs_q. eapply alw_mono; [apply (mul_init_zd C A B true _ _ _ ZI ZC)|].
    intros D HD. eapply logs_mono; [apply (logs_strassen (mz_w A) m k n c); auto; eassumption|]. now intros _ lg [_ H].
  - exists C2. split; [exact E2|]. eapply logged; [apply erase_addmul_strassen|exact E2|]. unfold mzed_addmul_strassen_l. apply logs_q. eapply alw_mono; [apply (mul_init_zd C A B false _ _ _ ZI ZC)|].
    intros D HD. eapply logs_mono; [apply (logs_addstrassen (mz_w A) m k n c); auto; eassumption|]. now intros _ lg [_ H].
Qed.
Print Assumptions C65_slice_mul.
Print Assumptions C65_slice_addmul.
Print Assumptions C65_packed_mul.
Print Assumptions C65_slice_naive.
Print Assumptions C65_poly_naive.
Print Assumptions C65_poly_balanced.
Print Assumptions C65_blm_rows.
Print Assumptions C65_slice_mul_blm.
Print Assumptions C65_strassen.
(** GF(8) with 2 x 3 times 3 x 2: six products over GF(2); GF(16) with 32 x 32: seven products of 16 x 16 matrices with cutoff 16 *)
Example C65_witness :
  (A <- mks 0xb 2 3 (noise 3 1) ;; B <- mks 0xb 3 2 (noise 5 2) ;; r <- mzd_slice_mul_l None A B ;; s <- mzd_slice_addmul_naive_l None A B ;; Ok (snd r, length (snd s))) =
  Ok (repeat (2, 3, 2) 6, 9).
Proof. vm_compute. reflexivity. Qed.
Example C65_witness_strassen :
  (A <- mk 0x13 32 32 (noise 3 1) ;; B <- mk 0x13 32 32 (noise 1 2) ;; r <- mzed_mul_strassen_l 2048 None A B 24 ;; s <- mzed_addmul_strassen_l 2048 (Some A) A B 24 ;; Ok (snd r, snd s)) =
  Ok (repeat (16, 16, 16) 7, repeat (16, 16, 16) 7).
Proof. vm_compute. reflexivity. Qed.
