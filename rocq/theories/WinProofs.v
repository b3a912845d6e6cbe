(** Client programs with windows: proofs. *)
From Coq Require Import NArith ZArith Lia List Bool Arith.
From Coq Require Import ZifyBool ZifyNat ZifyN.
From Verif Require Import Base Spec PolyFacts Gf2xModel Gf2eModel Gf2eProofs MzdModel MzedModel MzedSpec LinSpec TrsmSpec MatFacts.
From Verif Require Import MzedProofs MzedOps MzedOps2 ScalarProofs NjModel StrassenModel SliceModel SliceSpec SliceProofs SliceOps SliceMul KaraModel ConvModel ConvCling EchNaive EchFacts StrassenProofs.
From Verif Require Import MulModel TrsmModel PermModel PleModel BlmSpec BlmModel BlmOps BlmFin BlmOpsProofs FrameProofs HistSpec HistModel HistProofs WinSpec WinModel.
From Verif Require Import PropMzed PropNj PropStrassen PropSlice PropMul PropTrsm PropPle PropEch PropBlm.
Import ListNotations.
Local Open Scope nat_scope.

(** ** what a call does to the words beside its target *)
Section Frames.
Variable f : N.
Variable cf : config.
Hypothesis CF : config_ok f cf.
Variables (ks : list kind) (st : list amat) (S : state).
Hypothesis R : rel f ks st S.
Variable S' : state.
Variable o : out.

Ltac hd H := let a := fresh "W" in let b := fresh "Ef" in let c := fresh "Er" in let d := fresh "Ec" in let e := fresh "Ee" in
  pose proof H as (a & b & c & d & e).

Lemma fits_p t m n xs : fits ks st (Some t) Packed m n xs -> exists T, nth_error S t = Some (Pk T) /\ wf_mzed T /\ fld T = f /\ mz_nrows T = m /\ mz_ncols T = n.
Proof. intros (T & Hh & <- & <- & _). destruct (has_p _ _ _ _ _ _ R Hh) as (M & E & HM). hd HM. exists M. auto. Qed.
Lemma fits_s t m n xs : fits ks st (Some t) Sliced m n xs -> exists T, nth_error S t = Some (Sl T) /\ wf_slice T /\ sfld T = f /\ sl_nrows T = m /\ sl_ncols T = n.
Proof. intros (T & Hh & <- & <- & _). destruct (has_s _ _ _ _ _ _ R Hh) as (M & E & HM). hd HM. exists M. auto. Qed.

Lemma into_keeps t x k A m n xs p s : has ks st x k A -> fits ks st (Some t) k m n xs ->
  (k = Packed -> forall T M, wf_mzed T -> fld T = f -> mz_nrows T = m -> mz_ncols T = n -> holds M f (a_m A) (a_n A) (val A) -> wp (p (Some T) M) (kept_p T)) ->
  (k = Sliced -> forall T M, wf_slice T -> sfld T = f -> sl_nrows T = m -> sl_ncols T = n -> sholds M f (a_m A) (a_n A) (val A) -> wp (s (Some T) M) (kept_s T)) ->
  into S (Some t) x p s = Ok (S', o) -> keeps S t S'.
Proof.
  intros Hh Ht Hp Hs. destruct (rel_has _ _ _ _ _ _ _ R Hh) as (v & E & K & Hv). unfold into. rewrite (get_some _ _ _ E). cbn [bind].
  destruct v as [M|M]; cbn [kind_of] in K; subst k; unfold get_p, get_s.
  - destruct (fits_p _ _ _ _ Ht) as (T & ET & H1 & H2 & H3 & H4). rewrite ET. cbn [bind]. specialize (Hp eq_refl T M H1 H2 H3 H4 Hv).
    destruct (p (Some T) M) as [C| |]; cbn [wp] in Hp; try contradiction. cbn [bind store]. intros [= <- _]. eapply keeps_put; eauto.
  - destruct (fits_s _ _ _ _ Ht) as (T & ET & H1 & H2 & H3 & H4). rewrite ET. cbn [bind]. specialize (Hs eq_refl T M H1 H2 H3 H4 Hv).
    destruct (s (Some T) M) as [C| |]; cbn [wp] in Hs; try contradiction. cbn [bind store]. intros [= <- _]. eapply keeps_put; eauto.
Qed.
Lemma into2_keeps t x y k A B m n xs p s : has ks st x k A -> has ks st y k B -> fits ks st (Some t) k m n xs ->
  (k = Packed -> forall T M M2, wf_mzed T -> fld T = f -> mz_nrows T = m -> mz_ncols T = n -> holds M f (a_m A) (a_n A) (val A) -> holds M2 f (a_m B) (a_n B) (val B) -> wp (p (Some T) M M2) (kept_p T)) ->
  (k = Sliced -> forall T M M2, wf_slice T -> sfld T = f -> sl_nrows T = m -> sl_ncols T = n -> sholds M f (a_m A) (a_n A) (val A) -> sholds M2 f (a_m B) (a_n B) (val B) -> wp (s (Some T) M M2) (kept_s T)) ->
  into2 S (Some t) x y p s = Ok (S', o) -> keeps S t S'.
Proof.
  intros Hx Hy Ht Hp Hs. destruct (rel_has _ _ _ _ _ _ _ R Hy) as (w & E & K & Hv). unfold into2. rewrite (get_some _ _ _ E). cbn [bind].
  destruct w as [M|M]; cbn [kind_of] in K; subst k; eapply into_keeps; eauto; discriminate.
Qed.

Lemma keeps_copy t x k A : has ks st x k A -> fits ks st (Some t) k (a_m A) (a_n A) [x] ->
  run_cmd cf S (Copy (Some t) x) Default = Ok (S', o) -> keeps S t S'.
Proof.
  intros Hx Ht. cbn [run_cmd]. eapply into_keeps; eauto; intros _ T M H1 H2 H3 H4 HM; hd HM.
  - eapply wp_mono; [apply mzed_copy_ok; auto; exact (conj H1 (conj (eq_trans H2 (eq_sym Ef)) (conj (eq_trans H3 (eq_sym Er)) (eq_trans H4 (eq_sym Ec)))))|].
    cbv beta. intros C (_ & B). eapply kept_of, B. reflexivity.
  - eapply wp_mono; [apply slice_copy_ok; auto; exact (conj H1 (conj (eq_trans H2 (eq_sym Ef)) (conj (eq_trans H3 (eq_sym Er)) (eq_trans H4 (eq_sym Ec)))))|].
    cbv beta. intros C (_ & B). eapply skept_of, B.
Qed.
Lemma keeps_convert t x k A : has ks st x k A -> fits ks st (Some t) (flip k) (a_m A) (a_n A) [] ->
  run_cmd cf S (Copy (Some t) x) Convert = Ok (S', o) -> keeps S t S'.
Proof.
  intros Hx Ht. destruct (rel_has _ _ _ _ _ _ _ R Hx) as (v & E & K & Hv). cbn [run_cmd]. rewrite (get_some _ _ _ E). cbn [bind].
  destruct v as [M|M]; cbn [kind_of] in K; subst k; cbn [flip stands] in *; hd Hv; unfold get_p, get_s.
  - destruct (fits_s _ _ _ _ Ht) as (T & ET & H1 & H2 & H3 & H4). rewrite ET. cbn [bind].
    destruct (C35_slice_frame T M W) as (C & -> & B).
    { exact (conj H1 (conj (eq_trans H2 (eq_sym Ef)) (conj (eq_trans H3 (eq_sym Er)) (eq_trans H4 (eq_sym Ec))))). }
    cbn [bind store]. intros [= <- _]. eapply keeps_put; [exact ET|]. cbn [kept]. eapply skept_of; eauto.
  - destruct (fits_p _ _ _ _ Ht) as (T & ET & H1 & H2 & H3 & H4). rewrite ET. cbn [bind].
    assert (D : 2 <= sl_depth M). { destruct CF as (F1 & F2 & F3 & _). pose proof (wfs_deg M W) as Q. rewrite Ef in Q. destruct F1 as (_ & Dg & _). rewrite F2 in Dg. lia. }
    destruct (C35_cling (Some T) M W D) as (C & -> & _ & B).
    { exact (conj H1 (conj (eq_trans H2 (eq_sym Ef)) (conj (eq_trans H3 (eq_sym Er)) (eq_trans H4 (eq_sym Ec))))). }
    cbn [bind store]. intros [= <- _]. eapply keeps_put; [exact ET|]. cbn [kept]. eapply kept_of; eauto.
Qed.
Lemma keeps_add t x y k A B : has ks st x k A -> has ks st y k B -> a_m A = a_m B -> a_n A = a_n B -> fits ks st (Some t) k (a_m A) (a_n A) [x; y] ->
  run_cmd cf S (Add (Some t) x y) Default = Ok (S', o) -> keeps S t S'.
Proof.
  intros Hx Hy E1 E2 Ht. cbn [run_cmd]. eapply into2_keeps; eauto; intros _ T M M2 H1 H2 H3 H4 HM HM2; hd HM; hd HM2.
  - eapply wp_mono; [apply mzed_add_ok; auto; try congruence; exact (conj H1 (conj (eq_trans H2 (eq_sym Ef)) (conj (eq_trans H3 (eq_sym Er)) (eq_trans H4 (eq_sym Ec)))))|].
    cbv beta. intros C (_ & Bc). eapply kept_of, Bc. reflexivity.
  - eapply wp_mono; [apply slice_add_ok; auto; try congruence; exact (conj H1 (conj (eq_trans H2 (eq_sym Ef)) (conj (eq_trans H3 (eq_sym Er)) (eq_trans H4 (eq_sym Ec)))))|].
    cbv beta. intros C (_ & Bc). eapply skept_of, Bc.
Qed.
Lemma keeps_scale t v x k A : has ks st x k A -> inF f v -> fits ks st (Some t) k (a_m A) (a_n A) [x] -> scale_ok f k (a_m A) (a_n A) ->
  run_cmd cf S (Scale (Some t) v x) Default = Ok (S', o) -> keeps S t S'.
Proof.
  intros Hx Hv Ht Hk. cbn [run_cmd]. eapply into_keeps; eauto; intros -> T M H1 H2 H3 H4 HM; hd HM.
  - destruct Hk as (K1 & K2 & K3).
    assert (D : ff_degree (mz_ff M) = deg f). { destruct W as ((_ & Dg & _) & _). rewrite Ef in Dg. unfold deg. lia. }
    eapply wp_mono; [apply mzed_mul_scalar_frame; auto; try congruence|].
    + rewrite D, Er, Ec. exact K2.
    + intros (U1 & U2). rewrite D, Er, Ec in *. now apply K3.
    + cbv beta. intros C B. eapply kept_of; eauto.
  - apply slice_mul_scalar_frame; auto; try congruence.
Qed.
Lemma keeps_mul t x y k A B ch : has ks st x k A -> has ks st y k B -> a_n A = a_m B -> fits ks st (Some t) k (a_m A) (a_n B) [x; y] -> product_ok f k ch (a_n B) ->
  run_cmd cf S (Mul (Some t) x y) ch = Ok (S', o) -> keeps S t S'.
Proof.
  intros Hx Hy En Ht Hp. cbn [run_cmd]. destruct CF as (F1 & F2 & F3 & F4 & F5 & F6 & F7 & F8).
  eapply into2_keeps; eauto; intros -> T M M2 H1 H2 H3 H4 HM HM2; hd HM; hd HM2.
  - assert (TG : target (Some T) (fld M) (mz_nrows M) (mz_ncols M2)) by (exact (conj H1 (conj (eq_trans H2 (eq_sym Ef)) (conj (eq_trans H3 (eq_sym Er)) (eq_trans H4 (eq_sym Ec0)))))).
    destruct ch; cbn [product_ok] in Hp; try contradiction; cbn [p_mul].
    + apply mul_frame; auto; try congruence; lia.
    + apply naive_frame; auto; try congruence; lia.
    + apply nj_frame; auto; try congruence; lia.
    + destruct Hp as (Hp & Hcut). apply strassen_frame; auto; try congruence; try lia. rewrite (slot_w f M W Ef). exact Hcut.
    + eapply wp_mono; [apply mzed_mul_karatsuba_ok; auto; congruence|]. cbv beta. intros C (_ & Bc). eapply kept_of, Bc.
    + pose proof (mzed_mul_blm_ok BLM_FUEL (cf_x cf) (Some T) M M2 F8 W W0 ltac:(congruence) ltac:(lia) TG (fuel_p _ W)) as Q.
      destruct (mzed_mul_blm _ _ _ _ _) as [r|]; cbn [owp] in Q; try contradiction. cbn [ended]. eapply wp_mono; [exact Q|]. cbv beta. intros C (_ & Bc). eapply kept_of, Bc.
  - assert (TG : starget (Some T) (sfld M) (sl_nrows M) (sl_ncols M2)) by (exact (conj H1 (conj (eq_trans H2 (eq_sym Ef)) (conj (eq_trans H3 (eq_sym Er)) (eq_trans H4 (eq_sym Ec0)))))).
    assert (Q : wp (mzd_slice_mul_karatsuba (Some T) M M2) (kept_s T)).
    { eapply wp_mono; [apply slice_mul_karatsuba_ok; auto; congruence|]. cbv beta. intros C (_ & Bc). eapply skept_of, Bc. }
    destruct ch; cbn [product_ok] in Hp; try contradiction; cbn [s_mul]; try exact Q.
    pose proof (slice_mul_blm_ok BLM_FUEL (cf_x cf) (Some T) M M2 None F8 W W0 ltac:(congruence) ltac:(lia) TG Logic.I (fun _ => fuel_s _ W)) as X.
    destruct (mzd_slice_mul_blm _ _ _ _ _ _) as [r|]; cbn [owp] in X; try contradiction. cbn [ended]. eapply wp_mono; [exact X|]. cbv beta. intros C (_ & Bc). eapply skept_of, Bc.
Qed.

Lemma steppedk_keeps ks' x r P : steppedk f ks' S x r P -> r = Ok (S', o) -> keeps S x S'.
Proof. intros (S1 & o1 & st1 & E & _ & _ & K) E'. rewrite E in E'. injection E' as <- _. exact K. Qed.

Theorem frame_ok c ch x : allowed f ks st c ch -> confined c -> written c = Some x -> run_cmd cf S c ch = Ok (S', o) -> keeps S x S'.
Proof.
  intros H Hc Hw Hr. destruct c; cbn [allowed written confined] in *; try discriminate Hw; try contradiction; try (injection Hw as ->);
    try match type of Hw with ?t = Some _ => is_var t; subst t end;
    repeat match goal with H : _ /\ _ |- _ => destruct H | H : exists _, _ |- _ => destruct H | H : ch = _ |- _ => subst ch end.
  - refine (steppedk_keeps _ _ _ _ _ Hr). eapply step_set; eauto.
  - refine (steppedk_keeps _ _ _ _ _ Hr). eapply step_add_elem; eauto.
  - refine (steppedk_keeps _ _ _ _ _ Hr). eapply step_set_diag; eauto.
  - refine (steppedk_keeps _ _ _ _ _ Hr). eapply step_row_swap; eauto.
  - refine (steppedk_keeps _ _ _ _ _ Hr). eapply step_col_swap; eauto.
  - refine (steppedk_keeps _ _ _ _ _ Hr). eapply step_row_add; eauto.
  - refine (steppedk_keeps _ _ _ _ _ Hr). eapply step_row_add_mul; eauto.
  - refine (steppedk_keeps _ _ _ _ _ Hr). eapply step_row_scale; eauto.
  - refine (steppedk_keeps _ _ _ _ _ Hr). eapply step_row_copy; eauto.
  - destruct H0 as [[-> Ht]|[-> Ht]]; [eapply keeps_copy; eauto|eapply keeps_convert; eauto].
  - eapply keeps_add; [| | | | |exact Hr]; eauto.
  - eapply keeps_scale; [| | | |exact Hr]; eauto.
  - eapply keeps_mul; [| | | | |exact Hr]; eauto.
  - refine (steppedk_keeps _ _ _ _ _ Hr). eapply step_addmul; eauto.
  - refine (steppedk_keeps _ _ _ _ _ Hr). eapply step_solve_lower; eauto.
  - refine (steppedk_keeps _ _ _ _ _ Hr). eapply step_solve_upper; eauto.
  - refine (steppedk_keeps _ _ _ _ _ Hr). eapply step_echelon; eauto.
  - refine (steppedk_keeps _ _ _ _ _ Hr). eapply step_ple; eauto.
  - refine (steppedk_keeps _ _ _ _ _ Hr). eapply step_pluq; eauto.
  - refine (steppedk_keeps _ _ _ _ _ Hr). eapply step_perm_rows; eauto.
  - refine (steppedk_keeps _ _ _ _ _ Hr). eapply step_perm_cols; eauto.
  - refine (steppedk_keeps _ _ _ _ _ Hr). eapply step_randomize; eauto.
Qed.
End Frames.

(** ** lists *)
Lemma Forall2_firstn {X Y} (P : X -> Y -> Prop) n l l' : Forall2 P l l' -> Forall2 P (firstn n l) (firstn n l').
Proof. intros H. revert n. induction H; intros [|n]; cbn; constructor; auto. Qed.
Lemma Forall2_skipn {X Y} (P : X -> Y -> Prop) n l l' : Forall2 P l l' -> Forall2 P (skipn n l) (skipn n l').
Proof. intros H. revert n. induction H; intros [|n]; cbn; try constructor; auto. Qed.
Lemma Forall2_len {X Y} (P : X -> Y -> Prop) l l' : Forall2 P l l' -> length l = length l'.
Proof. induction 1; cbn; congruence. Qed.
Lemma rel_len f ks st S : rel f ks st S -> length st = length S /\ length ks = length S.
Proof. intros [-> H]. rewrite map_length. split; [|reflexivity]. symmetry. exact (Forall2_len _ _ _ H). Qed.
Lemma nth_put_ne {X} (l : list X) x y v : x < length l -> x <> y -> nth_error (put l x v) y = nth_error l y.
Proof.
  revert x y. induction l as [|a l IH]; intros [|x] [|y] Hx Hy; cbn in Hx; try lia; try reflexivity.
  unfold put in *. cbn [firstn skipn app nth_error]. apply IH; lia.
Qed.

(** ** windows *)
Section Wins.
Variable f : N.
Variables (ks : list kind) (st : list amat) (S : state).
Hypothesis R : rel f ks st S.

Lemma window_ok1 w : placed f ks st w -> exists v W, nth_error S (w_x w) = Some v /\ window_of v w = Ok W /\ kind_of W = kind_of v /\
  kind_of v = nth (w_x w) ks Packed /\ stands f W (cut (nth (w_x w) st nothing) w).
Proof.
  intros (k & A & Hh & Hr & Hc & Ha). destruct (rel_has _ _ _ _ _ _ _ R Hh) as (v & E & K & Hv). destruct Hh as (Hk & HA).
  rewrite (nth_error_nth _ _ Packed Hk), (nth_error_nth _ _ nothing HA). exists v.
  destruct v as [M|M]; cbn [kind_of stands window_of] in *; subst k; cbn [word_elems] in Ha; pose proof Hv as (W & Ef & Er & Ec & Ee).
  - assert (Hal : w_lc w mod per (mz_w M) = 0). { rewrite (slot_w f M W Ef). exact Ha. }
    destruct (proj1 (wp_iff _ _) (mzed_window_ok M (w_lr w) (w_lc w) (w_hr w) (w_hc w) W ltac:(lia) ltac:(lia) Hal)) as (V & EV & V1 & V2 & V3 & V4 & V5 & V6 & V7).
    rewrite EV. cbn [bind]. exists (Pk V). repeat (split; [easy|]). unfold cut.
    eapply stands_tab_p; [|apply meq_refl]. split; [exact V5|]. split; [congruence|]. split; [exact V3|]. split; [exact V4|].
    intros i j Hi Hj. pose proof (wf_cap V V5) as Q. clear Ha Hal V6. rewrite V7; [|exact Hi|rewrite V4 in Q; clear - Hj Q; lia]. apply Ee; clear - Hi Hj Hr Hc; lia.
  - destruct (proj1 (wp_iff _ _) (swin_ok M f _ _ _ (w_lr w) (w_lc w) (w_hr w) (w_hc w) Hv Hr Hc Ha)) as (V & EV & HV & _).
    rewrite EV. cbn [bind]. exists (Sl V). repeat (split; [easy|]). unfold cut. eapply stands_tab_s; [exact HV|]. intros i j Hi Hj. reflexivity.
Qed.
Lemma windows_ok ws : (forall w, In w ws -> placed f ks st w) ->
  exists ext, windows S ws = Ok ext /\ window_kinds ks ws = map kind_of ext /\ Forall2 (stands f) ext (shown st ws) /\
    forall k w, nth_error ws k = Some w -> exists v W, nth_error S (w_x w) = Some v /\ window_of v w = Ok W /\ nth_error ext k = Some W.
Proof.
  induction ws as [|w ws IH]; intros H.
  - exists []. repeat split; [constructor|]. intros [|k] w [=].
  - destruct (window_ok1 w (H w (or_introl eq_refl))) as (v & W & E1 & E2 & E3 & E4 & E5).
    destruct (IH (fun u Hu => H u (or_intror Hu))) as (ext & X1 & X2 & X3 & X4). exists (W :: ext).
    cbn [windows]. rewrite (get_some _ _ _ E1). cbn [bind]. rewrite E2. cbn [bind]. rewrite X1. cbn [bind]. split; [reflexivity|].
    split. { unfold window_kinds in *. cbn [map]. congruence. }
    split. { unfold shown in *. cbn [map]. constructor; auto. }
    intros [|k] u Hu; cbn [nth_error] in *; [|now apply X4]. injection Hu as <-. exists v, W. auto.
Qed.

(** writing through a window *)
Lemma write_ok w v W W' B : placed f ks st w -> nth_error S (w_x w) = Some v -> window_of v w = Ok W -> kept W W' -> stands f W' B ->
  exists v', write_window v w W' = Ok v' /\ kind_of v' = kind_of v /\ stands f v' (paste (nth (w_x w) st nothing) w B) /\ kept v v'.
Proof.
  intros (k & A & Hh & Hr & Hc & Ha) E EW KW HB. destruct (rel_has _ _ _ _ _ _ _ R Hh) as (v0 & E0 & K & Hv).
  assert (v0 = v) by congruence. subst v0. destruct Hh as (Hk & HA). rewrite (nth_error_nth _ _ nothing HA).
  destruct v as [M|M]; cbn [kind_of stands window_of] in *; subst k; cbn [word_elems] in Ha; pose proof Hv as (Wf & Ef & Er & Ec & Ee).
  - assert (Hal : w_lc w mod per (mz_w M) = 0). { rewrite (slot_w f M Wf Ef). exact Ha. }
    assert (Hr' : w_lr w <= w_hr w <= mz_nrows M) by (rewrite Er; exact Hr). assert (Hc' : w_lc w <= w_hc w <= mz_ncols M) by (rewrite Ec; exact Hc).
    pose proof (mzed_window_ok M (w_lr w) (w_lc w) (w_hr w) (w_hc w) Wf Hr' Hc' Hal) as V.
    destruct (mzed_window M (w_lr w) (w_lc w) (w_hr w) (w_hc w)) as [V0| |] eqn:EV; cbn [wp] in V; try contradiction. cbn [bind] in EW. injection EW as <-.
    destruct V as (V1 & V2 & V3 & V4 & V5 & V6 & V7). destruct W' as [V'|]; cbn [kept] in KW; [|contradiction].
    pose proof (mzed_unwindow_ok M _ _ _ _ V0 V' _ Wf Hr' Hc' Hal EV KW) as BM.
    cbn [write_window]. eexists. split; [reflexivity|]. split; [reflexivity|]. split; [|cbn [kept]; eapply kept_of; exact BM].
    unfold paste. eapply stands_tab_p; [eapply holds_becomes; [exact Hv|exact BM]|]. intros i j Hi Hj. cbv beta. unfold within.
    destruct (_ && _ && _ && _) eqn:Z; [|now apply Ee].
    cbn [stands] in HB. destruct HB as (_ & _ & B3 & B4 & B5). pose proof (becomes_nr _ _ _ KW) as Q1. pose proof (becomes_nc _ _ _ KW) as Q2. clear Ha Hal V6 V7 Ee. apply B5; lia.
  - pose proof (swin_ok M f _ _ _ (w_lr w) (w_lc w) (w_hr w) (w_hc w) Hv Hr Hc Ha) as V.
    destruct (mzd_slice_window M (w_lr w) (w_lc w) (w_hr w) (w_hc w)) as [V0| |] eqn:EV; cbn [wp] in V; try contradiction. cbn [bind] in EW. injection EW as <-.
    destruct V as ((V1 & V2 & V3 & V4 & V5) & _). destruct W' as [|V']; cbn [kept] in KW; [contradiction|].
    destruct (proj1 (wp_iff _ _) (slice_unwindow_ok M f _ _ _ _ _ _ _ V0 V' _ Hv Hr Hc Ha EV KW)) as (M' & EM & BM).
    cbn [write_window]. rewrite EM. cbn [bind]. eexists. split; [reflexivity|]. split; [reflexivity|]. split; [|cbn [kept]; eapply skept_of; exact BM].
    unfold paste. eapply stands_tab_s; [eapply sh_becomes; [exact Hv|exact BM]|]. intros i j Hi Hj. cbv beta. unfold within.
    destruct (_ && _ && _ && _) eqn:Z; [|reflexivity].
    cbn [stands] in HB. destruct HB as (_ & _ & B3 & B4 & B5). destruct KW as (_ & _ & Q1 & Q2 & _). clear Ha Ee. apply B5; lia.
Qed.

Lemma dims_of x v : nth_error S x = Some v -> rows_of v = a_m (nth x st nothing) /\ cols_of v = a_n (nth x st nothing).
Proof.
  intros E. destruct R as [_ H]. assert (L : x < length st). { rewrite <- (Forall2_len _ _ _ H). apply nth_error_Some. congruence. }
  destruct (nth_error st x) as [A|] eqn:EA; [|apply nth_error_None in EA; lia].
  destruct (Forall2_nth _ _ _ _ _ H EA) as (v' & E' & Hv). assert (v' = v) by congruence. subst v'. rewrite (nth_error_nth _ _ nothing EA).
  destruct v as [M|M]; cbn [stands rows_of cols_of] in *; destruct Hv as (_ & _ & H1 & H2 & _); now split.
Qed.
Lemma memory_region ws x : memory S ws x = region st ws x.
Proof.
  unfold memory, region. destruct (rel_len _ _ _ _ R) as (L & _). destruct (nth_error S x) as [v|] eqn:E.
  - destruct (dims_of x v E) as (-> & ->). assert (x < length S) by (apply nth_error_Some; congruence). now replace (x <? length st) with true by lia.
  - apply nth_error_None in E. replace (x <? length st) with false by lia. now rewrite L.
Qed.
Lemma separate_apart v w : separate v w = true <-> apart v w.
Proof. unfold separate, apart. rewrite !orb_true_iff, negb_true_iff, Nat.eqb_neq, !Nat.leb_le. tauto. Qed.
End Wins.

Lemma kinds_written ks c ch x : written c = Some x -> kinds ks c ch = ks.
Proof. destruct c; cbn [written kinds]; intros H; try discriminate H; try reflexivity; subst; reflexivity. Qed.
Lemma nth_error_firstn {X} (l : list X) n i : i < n -> nth_error (firstn n l) i = nth_error l i.
Proof. revert n i. induction l as [|a l IH]; intros [|n] [|i] H; cbn; try lia; try reflexivity. apply IH. lia. Qed.

Theorem wstep_ok f cf ks st S ws c ch : config_ok f cf -> rel f ks st S -> wallowed f ks st ws c ch ->
  exists S' o st', run_wcmd cf S ws c ch = Ok (S', o) /\ weffect f st ws c st' o /\ rel f (wkinds ks ws c ch) st' S'.
Proof.
  intros CF R (Hw & Ha & Ht). destruct (windows_ok f ks st S R ws Hw) as (ext & E1 & E2 & E3 & E4).
  destruct (rel_len _ _ _ _ R) as (L1 & L2). assert (L3 : length ext = length ws). { rewrite (Forall2_len _ _ _ E3). unfold shown. now rewrite map_length. }
  assert (RX : rel f (ks ++ window_kinds ks ws) (st ++ shown st ws) (S ++ ext)).
  { destruct R as [-> R']. split; [rewrite map_app; now rewrite E2|]. now apply Forall2_app. }
  destruct (step_ok f cf CF _ _ _ RX c ch Ha) as (S1 & o & st1 & Er & Ee & R1).
  unfold run_wcmd. rewrite E1. cbn [bind].
  assert (G : no_sharing S ws c = true).
  { unfold no_sharing. destruct (written c) as [x|] eqn:Ew; [|reflexivity]. apply forallb_forall. intros y Hy. rewrite orb_true_iff.
    destruct (Nat.eqb_spec y x) as [->|Hne]; [now left|right]. rewrite !(memory_region f ks st S R). apply separate_apart. now apply (Ht x). }
  rewrite G. cbn [guard bind]. rewrite Er. cbn [bind].
  set (restS := firstn (length S) S1 ++ skipn (length S + length ws) S1).
  set (rest := firstn (length st) st1 ++ skipn (length st + length ws) st1).
  assert (RR : rel f (wkinds ks ws c ch) rest restS).
  { destruct R1 as [K1 F1]. unfold wkinds, rest, restS. rewrite K1, L1, L2. split.
    - now rewrite map_app, firstn_map, skipn_map.
    - apply Forall2_app; [now apply Forall2_firstn|now apply Forall2_skipn]. }
  destruct (written c) as [x|] eqn:Ew.
  2:{ exists restS, o, rest. split; [reflexivity|]. split; [|exact RR]. exists st1. split; [exact Ee|]. unfold settle. now rewrite Ew. }
  rewrite <- L1. destruct (Nat.ltb_spec x (length st)) as [Hx|Hx].
  { exists restS, o, rest. split; [reflexivity|]. split; [|exact RR]. exists st1. split; [exact Ee|]. unfold settle. rewrite Ew. now replace (x <? length st) with true by lia. }
  destruct (Ht x eq_refl) as (Hc & _). specialize (Hc Hx).
  pose proof (frame_ok f cf CF _ _ _ RX S1 o c ch x Ha Hc Ew Er) as (W & W' & KW1 & KW2 & KW).
  rewrite nth_error_app2, <- L1 in KW1 by lia.
  assert (Lx : x - length st < length ws). { rewrite <- L3. apply nth_error_Some. congruence. }
  destruct (nth_error ws (x - length st)) as [w|] eqn:Ews; [|apply nth_error_None in Ews; lia].
  destruct (E4 _ _ Ews) as (v & W0 & V1 & V2 & V3). assert (W0 = W) by congruence. subst W0.
  rewrite (get_some _ _ _ V1). cbn [bind]. rewrite (get_some _ _ _ KW2). cbn [bind].
  assert (PB : exists B, nth_error st1 x = Some B /\ stands f W' B).
  { destruct R1 as [_ F1]. assert (x < length st1). { rewrite <- (Forall2_len _ _ _ F1). apply nth_error_Some. congruence. }
    destruct (nth_error st1 x) as [B|] eqn:EB; [|apply nth_error_None in EB; lia]. exists B. split; [reflexivity|].
    destruct (Forall2_nth _ _ _ _ _ F1 EB) as (u & U1 & U2). congruence. }
  destruct PB as (B & B1 & B2).
  destruct (write_ok f ks st S R w v W W' B (Hw w (nth_error_In _ _ Ews)) V1 V2 KW B2) as (v' & X1 & X2 & X3 & X4).
  rewrite X1. cbn [bind]. exists (put restS (w_x w) v'), o, (put rest (w_x w) (paste (nth (w_x w) st nothing) w B)).
  split; [reflexivity|]. split.
  { exists st1. split; [exact Ee|]. unfold settle. rewrite Ew. replace (x <? length st) with false by lia. now rewrite Ews, B1. }
  assert (Hp : w_x w < length S) by (apply nth_error_Some; congruence).
  assert (L4 : w_x w < length S1). { assert (x < length S1) by (apply nth_error_Some; congruence). lia. }
  destruct (nth_error S1 (w_x w)) as [v1|] eqn:EV1; [|apply nth_error_None in EV1; lia].
  assert (EV2 : nth_error restS (w_x w) = Some v1).
  { unfold restS. rewrite nth_error_app1 by (rewrite firstn_length; lia). rewrite <- EV1. apply nth_error_firstn. exact Hp. }
  eapply rel_put; [exact RR|exact EV2| |exact X3]. rewrite X2.
  destruct R1 as [K1 _]. rewrite (kinds_written _ c ch x Ew), (proj1 RX) in K1.
  assert (EK : nth_error (map kind_of (S ++ ext)) (w_x w) = nth_error (map kind_of S1) (w_x w)) by now rewrite K1.
  rewrite (map_nth_error kind_of _ _ EV1) in EK. rewrite (map_nth_error kind_of (w_x w) (S ++ ext) (d := v)) in EK; [congruence|].
  rewrite nth_error_app1; [exact V1|exact Hp].
Qed.

Theorem run_w_ok f cf : config_ok f cf -> forall p ks st S, rel f ks st S -> wlegal f ks st p ->
  exists S' os st', run_w cf S p = Ok (S', os) /\ weffects f st (map fst p) st' os /\ Forall2 (stands f) S' st'.
Proof.
  intros CF. induction p as [|[[ws c] ch] p IH]; intros ks st S R L.
  - exists S, [], st. cbn. split; [reflexivity|]. split; [now split|]. apply R.
  - destruct L as [La Ll]. destruct (wstep_ok f cf ks st S ws c ch CF R La) as (S1 & o & st1 & E & Ef & R1).
    destruct (IH _ st1 S1 R1 (Ll _ _ Ef)) as (S' & os & st' & E' & Es & F). exists S', (o :: os), st'. cbn [run_w map fst]. rewrite E. cbn [bind]. rewrite E'. cbn [bind].
    split; [reflexivity|]. split; [|exact F]. exists st1, o, os. auto.
Qed.

(** ** the answers do not depend on representations and algorithms *)
Lemma weffect_det f ks st S ws c st1 o1 st2 o2 : (1 <= pdeg f)%N -> irreducible f -> rel f ks st S -> (forall w, In w ws -> placed f ks st w) ->
  determined c -> weffect f st ws c st1 o1 -> weffect f st ws c st2 o2 -> st1 = st2 /\ o1 = o2.
Proof.
  intros Hd Hirr R Hw D (t1 & E1 & ->) (t2 & E2 & ->). destruct (windows_ok f ks st S R ws Hw) as (ext & _ & E3 & E4 & _).
  assert (RX : rel f (ks ++ window_kinds ks ws) (st ++ shown st ws) (S ++ ext)).
  { destruct R as [-> R']. split; [rewrite map_app; now rewrite E3|]. now apply Forall2_app. }
  destruct (effect_det f _ c t1 o1 t2 o2 Hd Hirr (fun x A => rel_inM f _ _ _ x A RX) D E1 E2) as (-> & ->). now split.
Qed.
Lemma run_w_same f cf cf' : config_ok f cf -> config_ok f cf' -> forall p p' ks ks' st S S2, map fst p = map fst p' -> Forall determined (map snd (map fst p)) ->
  rel f ks st S -> rel f ks' st S2 -> wlegal f ks st p -> wlegal f ks' st p' ->
  exists S' S2' os st', run_w cf S p = Ok (S', os) /\ run_w cf' S2 p' = Ok (S2', os) /\ Forall2 (stands f) S' st' /\ Forall2 (stands f) S2' st'.
Proof.
  intros CF CF'. assert (Hd : (1 <= pdeg f)%N). { destruct CF as ((H1 & H2 & _) & <- & _). lia. }
  assert (Hirr : irreducible f) by apply CF.
  induction p as [|[[ws c] ch] p IH]; intros [|[[ws' c'] ch'] p'] ks ks' st S S2 E D R R2 L L2; cbn [map fst snd] in E, D; try discriminate.
  - exists S, S2, [], st. cbn. split; [reflexivity|]. split; [reflexivity|]. split; [apply R|apply R2].
  - injection E as -> -> E. inversion D as [|? ? D1 D2]; subst. destruct L as [La Ll]. destruct L2 as [La2 Ll2].
    destruct (wstep_ok f cf ks st S ws' c' ch CF R La) as (S1 & o & st1 & E1 & Ef1 & R1).
    destruct (wstep_ok f cf' ks' st S2 ws' c' ch' CF' R2 La2) as (S3 & o' & st3 & E3 & Ef3 & R3).
    destruct (weffect_det f ks st S ws' c' st1 o st3 o' Hd Hirr R (proj1 La) D1 Ef1 Ef3) as (<- & <-).
    destruct (IH p' _ _ st1 S1 S3 E D2 R1 R3 (Ll _ _ Ef1) (Ll2 _ _ Ef3)) as (S' & S2' & os & st' & Q1 & Q2 & Q3 & Q4).
    exists S', S2', (o :: os), st'. cbn [run_w]. rewrite E1, E3. cbn [bind]. rewrite Q1, Q2. cbn [bind]. auto.
Qed.

(** ** what a call can change *)
Lemma put_put {X} (l : list X) x v : put l x v = firstn x l ++ v :: skipn (S x) l.
Proof. reflexivity. Qed.
Lemma effect_written f st c st1 o x : effect f st c st1 o -> written c = Some x -> exists B, st1 = put st x B.
Proof.
  destruct c; cbn [effect written]; intros H Hw; try discriminate Hw; try (injection Hw as ->); unfold changes in H;
    repeat match goal with H : exists _, _ |- _ => destruct H | H : _ /\ _ |- _ => destruct H end; subst; try (eexists; reflexivity).
Qed.
Lemma effect_not_written f st c st1 o : effect f st c st1 o -> written c = None -> exists l, st1 = st ++ l /\ length l <= 1.
Proof.
  destruct c; cbn [effect written]; intros H Hw; try discriminate Hw; unfold changes in H;
    repeat match goal with H : exists _, _ |- _ => destruct H | H : _ /\ _ |- _ => destruct H end; subst; cbn [store];
    first [now exists []; rewrite app_nil_r; split; [|cbn; lia] | eexists; split; [reflexivity|cbn; lia]].
Qed.
