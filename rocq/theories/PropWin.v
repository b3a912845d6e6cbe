(** Property theorem C60: windows.  The meaning and the contract of calls on windows are in WinSpec.v; the execution
    by the modelled functions in WinModel.v. *)
From Coq Require Import NArith ZArith Lia List Bool Arith.
From Coq Require Import ZifyBool ZifyNat ZifyN.
From Verif Require Import Base Spec PolyFacts Gf2xModel Gf2eModel Gf2eProofs IrrProofs MzdModel MzdFacts MzedModel MzedSpec LinSpec TrsmSpec SliceModel SliceSpec MzedProofs SliceProofs.
From Verif Require Import BlmSpec BlmModel BlmOracle HistSpec HistModel HistProofs WinSpec WinModel WinProofs Demo PropMzed PropSlice PropHist.
Import ListNotations.
Local Open Scope nat_scope.

(** Every program whose calls use matrices and windows as operands and targets, and that keeps to the contracts, runs
    without error; its answers and the matrices it leaves behind are those of the mathematical meaning. *)
Theorem C60_history : forall f cf p, config_ok f cf -> wlegal f [] [] p ->
  exists S os st, run_w cf [] p = Ok (S, os) /\ weffects f [] (map fst p) st os /\ Forall2 (stands f) S st.
Proof. intros f cf p CF L. apply (run_w_ok f cf CF p [] [] []); [split; [reflexivity|constructor]|exact L]. Qed.
Print Assumptions C60_history.

Theorem C60_step : forall f cf ks st S ws c ch, config_ok f cf -> rel f ks st S -> wallowed f ks st ws c ch ->
  exists S' o st', run_wcmd cf S ws c ch = Ok (S', o) /\ weffect f st ws c st' o /\ rel f (wkinds ks ws c ch) st' S'.
Proof. intros f cf ks st S ws c ch CF R H. exact (wstep_ok f cf ks st S ws c ch CF R H). Qed.
Print Assumptions C60_step.

(** A call that writes to a window changes the matrix of that window only, and of it only the rectangle of the window:
    every other element of every matrix is what it was, and nothing is added. *)
Theorem C60_nothing_else_changes : forall f cf ks st S ws c ch x w A, config_ok f cf -> rel f ks st S -> wallowed f ks st ws c ch ->
  written c = Some x -> length st <= x -> nth_error ws (x - length st) = Some w -> nth_error st (w_x w) = Some A ->
  exists S' o A', run_wcmd cf S ws c ch = Ok (S', o) /\ Forall2 (stands f) S' (put st (w_x w) A') /\
    a_m A' = a_m A /\ a_n A' = a_n A /\
    forall i j, i < a_m A -> j < a_n A -> within w i j = false -> val A' i j = val A i j.
Proof.
  intros f cf ks st S ws c ch x w A CF R H Ew Hx Hw HA.
  destruct (wstep_ok f cf ks st S ws c ch CF R H) as (S' & o & st' & E & (st1 & Ee & ->) & R'). destruct (effect_written _ _ _ _ _ _ Ee Ew) as (B & ->).
  assert (Lx : x - length st < length ws) by (apply nth_error_Some; congruence).
  assert (Ls : length (shown st ws) = length ws) by (unfold shown; now rewrite map_length).
  assert (L1 : x < length (st ++ shown st ws)) by (rewrite app_length; lia).
  destruct (nth_error (st ++ shown st ws) x) as [b|] eqn:Eb; [|apply nth_error_None in Eb; lia].
  assert (R1 : settle st ws c (put (st ++ shown st ws) x B) = put st (w_x w) (paste A w B)).
  { unfold settle. rewrite Ew. replace (x <? length st) with false by lia. rewrite Hw, (nth_put _ _ _ _ Eb), (nth_error_nth _ _ nothing HA). f_equal.
    unfold put. rewrite firstn_app, firstn_length. replace (length st - Nat.min x (length (st ++ shown st ws))) with 0 by lia. cbn [firstn]. rewrite app_nil_r, firstn_firstn.
    replace (Nat.min (length st) x) with (length st) by lia. rewrite firstn_app, Nat.sub_diag, firstn_all. cbn [firstn]. rewrite app_nil_r.
    rewrite skipn_all2; [now rewrite app_nil_r|]. rewrite app_length, firstn_length. cbn [length]. rewrite skipn_length, app_length. lia. }
  rewrite R1 in R'. exists S', o, (paste A w B). split; [exact E|]. split; [apply R'|]. split; [reflexivity|]. split; [reflexivity|].
  intros i j Hi Hj Hin. unfold paste. rewrite val_tab by easy. now rewrite Hin.
Qed.
Print Assumptions C60_nothing_else_changes.

(** Two programs that make the same calls on the same windows, with different representations and algorithms, give the
    same answers and leave the same matrices behind. *)
Theorem C60_choices_invisible : forall f cf cf' p p', config_ok f cf -> config_ok f cf' -> map fst p = map fst p' ->
  Forall determined (map snd (map fst p)) -> wlegal f [] [] p -> wlegal f [] [] p' ->
  exists S S' os st, run_w cf [] p = Ok (S, os) /\ run_w cf' [] p' = Ok (S', os) /\ Forall2 (stands f) S st /\ Forall2 (stands f) S' st.
Proof.
  intros f cf cf' p p' CF CF' E D L L'.
  apply (run_w_same f cf cf' CF CF' p p' [] [] [] [] [] E D); auto; (split; [reflexivity|constructor]).
Qed.
Print Assumptions C60_choices_invisible.

(** A window of a window is a window of the matrix: the same object. *)
Lemma skip_skip {X} a b (l : list X) : skipn b (skipn a l) = skipn (a + b) l.
Proof. revert l. induction a as [|a IH]; intros l; [reflexivity|]. destruct l as [|x l]; [now rewrite !skipn_nil|]. cbn [skipn Nat.add]. apply IH. Qed.
Lemma mzd_window_window M lr lc hr hc lr' lc' hr' hc' W : mzd_window M lr lc hr hc = Ok W ->
  lr' <= hr' <= hr - lr -> lc' <= hc' <= hc - lc -> lc' mod 64 = 0 ->
  mzd_window W lr' lc' hr' hc' = mzd_window M (lr + lr') (lc + lc') (lr + hr') (lc + hc').
Proof.
  unfold mzd_window. intros E Hr Hc Ha. destruct (_ && _) eqn:G in E; cbn [guard bind] in E; [|discriminate]. injection E as <-. cbn [mzd_nrows mzd_ncols mzd_rows].
  rewrite !andb_true_iff in G. destruct G as ((((G1 & G2) & G3) & G4) & G5).
  assert (Z : (lc + lc') mod 64 = 0). { rewrite Nat.add_mod, Ha by lia. apply Nat.eqb_eq in G5. now rewrite G5. }
  rewrite Ha, Z. replace (_ && _ && _ && _ && (0 =? 0)) with true by (symmetry; clear - Hr Hc; lia).
  replace (_ && _ && _ && _ && (0 =? 0)) with true by (symmetry; clear - Hr Hc G1 G2 G3 G4; lia). cbn [guard bind].
  replace (lr + hr' - (lr + lr')) with (hr' - lr') by lia. replace (lc + hc' - (lc + lc')) with (hc' - lc') by lia. f_equal. f_equal.
  rewrite skipn_map, firstn_map, map_map.
  assert (RW : firstn (hr' - lr') (skipn lr' (firstn (hr - lr) (skipn lr (mzd_rows M)))) = firstn (hr' - lr') (skipn (lr + lr') (mzd_rows M))).
  { rewrite skipn_firstn_comm, firstn_firstn. rewrite Nat.min_l by lia. f_equal. apply skip_skip. }
  rewrite RW. apply map_ext. intros r.
  assert (A64 : lc' = 64 * (lc' / 64)) by (pose proof (Nat.div_mod lc' 64 ltac:(lia)); lia).
  assert (D64 : (lc + lc') / 64 = lc / 64 + lc' / 64). { rewrite A64 at 1. rewrite (Nat.mul_comm 64), Nat.div_add by lia. reflexivity. }
  rewrite D64, skipn_firstn_comm, firstn_firstn. rewrite Nat.min_l.
  - f_equal. apply skip_skip.
  - unfold width. assert ((hc' - lc' + 63) / 64 + lc' / 64 <= (hc - lc + 63) / 64); [|lia].
    replace ((hc' - lc' + 63) / 64 + lc' / 64) with ((hc' - lc' + 63 + lc' / 64 * 64) / 64) by (rewrite Nat.div_add by lia; reflexivity).
    apply Nat.div_le_mono; lia.
Qed.
Theorem C60_window_of_window : forall A lr lc hr hc lr' lc' hr' hc', wf_mzed A ->
  lr <= hr <= mz_nrows A -> lc <= hc <= mz_ncols A -> lc mod (64 / mz_w A) = 0 ->
  lr' <= hr' <= hr - lr -> lc' <= hc' <= hc - lc -> lc' mod (64 / mz_w A) = 0 ->
  exists W V, mzed_window A lr lc hr hc = Ok W /\ mzed_window W lr' lc' hr' hc' = Ok V /\
    mzed_window A (lr + lr') (lc + lc') (lr + hr') (lc + hc') = Ok V.
Proof.
  intros A lr lc hr hc lr' lc' hr' hc' HA Hr Hc Ha Hr' Hc' Ha'. change (64 / mz_w A) with (per (mz_w A)) in Ha, Ha'. pose proof (wf_good A HA) as Hw.
  pose proof (MzedOps2.mzed_window_ok A lr lc hr hc HA Hr Hc Ha) as HW. destruct (mzed_window A lr lc hr hc) as [W| |] eqn:EW; cbn [wp] in HW; try contradiction.
  destruct HW as (W1 & W2 & W3 & W4 & W5 & _ & _).
  pose proof (MzedOps2.mzed_window_ok W lr' lc' hr' hc' W5) as HV. rewrite W2, W3, W4 in HV. specialize (HV Hr' Hc' Ha').
  destruct (mzed_window W lr' lc' hr' hc') as [V| |] eqn:EV; cbn [wp] in HV; try contradiction. exists W, V. split; [reflexivity|]. split; [exact EV|].
  unfold mzed_window in *. rewrite W1 in EV. destruct (gf2e_degree_to_w (mz_ff A)) as [w| |] eqn:Ew; try discriminate. cbn [bind] in *.
  destruct (mzd_window (mz_x A) lr (w * lc) hr (w * hc)) as [x| |] eqn:EX; try discriminate. cbn [bind] in EW. injection EW as <-. cbn [mz_x mz_ff] in *.
  assert (mz_w A = w). { destruct HA as (_ & Q & _). congruence. } subst w.
  destruct (MzedOps2.aligned _ _ Hw Ha') as (A1 & A2 & A3).
  assert (EC : mz_w A * lc' <= mz_w A * hc' <= mz_w A * hc - mz_w A * lc).
  { rewrite <- Nat.mul_sub_distr_l. split; apply Nat.mul_le_mono_l; [exact (proj1 Hc')|exact (proj2 Hc')]. }
  pose proof (mzd_window_window _ _ _ _ _ lr' (mz_w A * lc') hr' (mz_w A * hc') _ EX Hr' EC A1) as Q. rewrite Q in EV.
  rewrite !Nat.mul_add_distr_l.
  replace (lr + hr' - (lr + lr')) with (hr' - lr') by (clear; lia). replace (lc + hc' - (lc + lc')) with (hc' - lc') by (clear; lia). exact EV.
Qed.
Print Assumptions C60_window_of_window.

(** ** a program that meets the contracts *)
Definition left_ : view := View 0 0 0 2 2.
Definition right_ : view := View 0 0 64 2 66.
Definition wcalls : list (list view * cmd) :=
  [([], New 2 68); ([], SetElem 0 0 0 2%N); ([], SetElem 0 1 0 3%N); ([], SetElem 0 0 66 1%N); ([], SetElem 0 0 64 1%N);
   ([], New 2 2); ([], SetDiag 1 2%N);
   ([left_; right_], Mul (Some 3) 1 2); ([right_], Echelon true 2);
   ([], Read 0 0 0); ([], Read 0 0 64); ([], Read 0 1 64); ([], Read 0 0 66)].
Definition wprog (k : kind) (a e : choice) : wprogram :=
  combine wcalls [As k; Default; Default; Default; Default; As k; Default; a; e; Default; Default; Default; Default].

Lemma wlegal_step f ks st ws c ch p : wallowed f ks st ws c ch -> (forall st' o, weffect f st ws c st' o -> wlegal f (wkinds ks ws c ch) st' p) -> wlegal f ks st ((ws, c, ch) :: p).
Proof. intros H1 H2. exact (conj H1 H2). Qed.
Ltac wnext := let st' := fresh "st" in let o := fresh "o" in let H := fresh "H" in
   intros st' o H; unfold weffect, effect, changes in H;
   repeat match goal with H : exists _, _ |- _ => destruct H | H : _ /\ _ |- _ => destruct H end;
   repeat match goal with H : nth_error _ _ = Some _ |- _ => cbn [app shown map nth_error] in H; injection H as <- end; subst;
   cbn [left_ right_ settle written wkinds window_kinds kinds new_kind nth_error app put firstn skipn store length map shown nth w_x Nat.ltb Nat.leb Nat.sub Nat.add].
Ltac no_windows := intros w [].
Ltac plain := split; [no_windows|]; split; [|intros x Hx; injection Hx as <-; split; [cbn; lia|cbn; tauto]].
Lemma C60_legal k a e : (k = Packed /\ a = NewtonJohn /\ e = Naive) \/ (k = Sliced /\ a = Karatsuba /\ e = ByPle) -> wlegal 7 [] [] (wprog k a e).
Proof.
  intros H. unfold wprog, wcalls. cbn [combine].
  apply wlegal_step; [split; [no_windows|]; split; [now exists k|discriminate]|wnext].
  apply wlegal_step; [plain; one|wnext].
  apply wlegal_step; [plain; one|wnext].
  apply wlegal_step; [plain; one|wnext].
  apply wlegal_step; [plain; one|wnext].
  apply wlegal_step; [split; [no_windows|]; split; [now exists k|discriminate]|wnext].
  apply wlegal_step; [plain; split; [reflexivity|]; split; [reflexivity|]; eexists _, _; has|wnext].
  apply wlegal_step.
  { split; [|split].
    - intros w [<-|[<-|[]]]; (eexists _, _; split; [has|]; cbn [w_lr w_hr w_lc w_hc left_ right_ tab paste cut a_m a_n]; destruct H as [(-> & _)|(-> & _)]; repeat split; first [lia|reflexivity]).
    - eexists k, _, _. split; [has|]. split; [has|]. split; [reflexivity|]. split.
      + eexists. split; [has|]. split; [reflexivity|]. split; [reflexivity|]. cbn. intuition discriminate.
      + destruct H as [(-> & -> & _)|(-> & -> & _)]; cbn; [lia|exact Logic.I].
    - intros x Hx. injection Hx as <-. split; [intros _; exact Logic.I|]. intros y [<-|[<-|[]]] _; cbn; [left; discriminate|right; right; right; right; cbn [w_hc w_lc left_ right_]; lia]. }
  wnext.
  apply wlegal_step.
  { split; [|split].
    - intros w [<-|[]]. eexists _, _; split; [has|]; cbn [w_lr w_hr w_lc w_hc left_ right_ tab paste cut a_m a_n]; destruct H as [(-> & _)|(-> & _)]; repeat split; first [lia|reflexivity].
    - eexists k, _. split; [has|]. destruct H as [(-> & _ & ->)|(-> & _ & ->)]; exact Logic.I.
    - intros x Hx. injection Hx as <-. split; [intros _; exact Logic.I|]. intros y []. }
  wnext.
  apply wlegal_step; [split; [no_windows|]; split; [one|discriminate]|wnext].
  apply wlegal_step; [split; [no_windows|]; split; [one|discriminate]|wnext].
  apply wlegal_step; [split; [no_windows|]; split; [one|discriminate]|wnext].
  apply wlegal_step; [split; [no_windows|]; split; [one|discriminate]|exact (fun _ _ _ => Logic.I)].
Qed.
Example C60_witness : forall n : nat, (n = 1 \/ n = 2) ->
  (ff <- gf2e_init 7 ;; '(_, os) <- run_w (if n =? 1 then cf1 ff else cf2 ff) [] (if n =? 1 then wprog Packed NewtonJohn Naive else wprog Sliced Karatsuba ByPle) ;; Ok (skipn 8 os)) =
  Ok [Rank 1; Elem 2%N; Elem 1%N; Elem 0%N; Elem 1%N].
Proof. intros n [-> | ->]; vm_compute; reflexivity. Qed.
