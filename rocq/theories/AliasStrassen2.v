(** Products through a store when the target is not a factor: they are the products of StrassenModel.v and
    NjModel.v, written into the target (C62). *)
From Coq Require Import NArith ZArith Lia List Bool Arith.
From Coq Require Import ZifyBool ZifyNat ZifyN.
From Verif Require Import Base Spec LinSpec PolyFacts MatFacts Gf2xModel Gf2eModel Gf2eProofs.
From Verif Require Import MzdModel MzedModel MzedSpec LaneFacts MzedProofs MzedOps MzedOps2 NjModel NjTable NjMul StrassenModel StrassenProofs StrassenMain.
From Verif Require Import SliceModel KaraModel ConvModel MulModel MulProofs AliasModel AliasRows AliasProofs AliasStrassenModel AliasStrassen.
Import ListNotations.
Local Open Scope nat_scope.

(** ** words in and out of a window *)
Lemma splice_length {X} (l new : list X) b : b + length new <= length l -> length (splice l b new) = length l.
Proof. intros H. unfold splice. rewrite !app_length, firstn_length, skipn_length. lia. Qed.
Lemma splice_out {X} (l new : list X) b : b + length new <= length l -> firstn (length new) (skipn b (splice l b new)) = new.
Proof.
  intros H. unfold splice. rewrite skipn_app, firstn_length, Nat.min_l by lia. rewrite Nat.sub_diag. cbn [skipn].
  rewrite skipn_all2 by (rewrite firstn_length; lia). cbn [app]. rewrite firstn_app, Nat.sub_diag. cbn [firstn]. now rewrite firstn_all, app_nil_r.
Qed.
Lemma firstn_all_ {X} (l : list X) b : length l <= b -> firstn b l = l.
Proof. apply firstn_all2. Qed.
Lemma splice_twice {X} (l a new : list X) b : b + length new <= length l -> length a = length new -> splice (splice l b a) b new = splice l b new.
Proof.
  intros H E. unfold splice. rewrite E. f_equal.
  - rewrite firstn_app, firstn_length, Nat.min_l by lia. rewrite Nat.sub_diag. cbn [firstn]. rewrite app_nil_r. apply firstn_all_. rewrite firstn_length. lia.
  - f_equal. rewrite app_assoc, skipn_app. rewrite skipn_all2 by (rewrite app_length, firstn_length; lia). cbn [app].
    rewrite app_length, firstn_length. replace (b + length new - (Nat.min b (length l) + length a)) with 0 by lia. reflexivity.
Qed.
Lemma nth_skipn_ {X} (l : list X) o j d : nth j (skipn o l) d = nth (o + j) l d.
Proof. revert l. induction o as [|o IH]; intros [|x l]; cbn; auto. now destruct j. Qed.
Lemma nth_firstn_lt {X} (l : list X) m j d : j < m -> nth j (firstn m l) d = nth j l d.
Proof. revert l j. induction m as [|m IH]; intros [|x l] [|j] H; cbn; auto; try lia. apply IH. lia. Qed.

Section Put.
Variables (h : store) (v : view) (X : mzed).
Hypotheses (EX : nth_error h (v_at v) = Some X) (HX : wf_mzed X).
Hypotheses (Hr : v_lr v <= v_hr v <= mz_nrows X) (Hc : v_lc v <= v_hc v <= mz_ncols X) (Ha : v_lc v mod per (mz_w X) = 0).
Let nb := mz_w X * v_hc v - mz_w X * v_lc v.
Definition wsh (W : mzed) : Prop := mz_ff W = mz_ff X /\ mz_w W = mz_w X /\ mz_nrows W = v_hr v - v_lr v /\ mz_ncols W = v_hc v - v_lc v /\
  mzd_nrows (mz_x W) = v_hr v - v_lr v /\ mzd_ncols (mz_x W) = nb /\ length (mzd_rows (mz_x W)) = v_hr v - v_lr v /\
  forall i, i < v_hr v - v_lr v -> length (nth i (mzd_rows (mz_x W)) []) = width nb.
Definition put (W : mzed) : store := upd h (v_at v) (mzed_unwindow X (v_lr v) (v_lc v) W).
Lemma width_cut a b q : 64 * q <= a -> a <= b -> q + width (a - 64 * q) <= width b.
Proof.
  intros H1 H2. unfold width. replace (b + 63) with ((b + 63 - 64 * q) + q * 64) by lia. rewrite Nat.div_add by lia.
  assert ((a - 64 * q + 63) / 64 <= (b + 63 - 64 * q) / 64) by (apply Nat.div_le_mono; lia). lia.
Qed.
Lemma put_al : (mz_w X * v_lc v) mod 64 = 0 /\ mz_w X * v_lc v / 64 + width nb <= width (mz_w X * mz_ncols X).
Proof.
  assert (G := wf_good X HX). assert (Pm := per_mul _ G). assert (Pp := per_pos _ G).
  assert (E : exists q, mz_w X * v_lc v = 64 * q).
  { exists (v_lc v / per (mz_w X)). pose proof (Nat.div_mod (v_lc v) (per (mz_w X)) ltac:(lia)) as D. rewrite Ha, Nat.add_0_r in D. rewrite D at 1.
    rewrite Nat.mul_assoc. f_equal. lia. }
  destruct E as (q & E).
  assert (L1 : mz_w X * v_lc v <= mz_w X * v_hc v) by (apply Nat.mul_le_mono_l; lia). assert (L2 : mz_w X * v_hc v <= mz_w X * mz_ncols X) by (apply Nat.mul_le_mono_l; lia).
  unfold nb. rewrite E in L1 |- *. split; [rewrite Nat.mul_comm; apply Nat.mod_mul; lia|].
  replace (64 * q / 64) with q by (rewrite Nat.mul_comm, Nat.div_mul by lia; reflexivity). now apply width_cut.
Qed.
Lemma row_len i : i < mz_nrows X -> length (mrow (mz_x X) i) = width (mz_w X * mz_ncols X).
Proof. intros Hi. now destruct (wf_mrow X i HX Hi). Qed.
Lemma vget_put W : wsh W -> vget (put W) v = Ok W.
Proof.
  intros (S1 & S2 & S3 & S4 & S5 & S6 & S7 & S8). destruct put_al as (A1 & A2).
  unfold vget, put. rewrite (lget_stored _ _ _ (stored_upd_eq h _ X _ EX)). cbn [bind].
  unfold mzed_window, mzed_unwindow, mz_set_x. cbn [mz_ff mz_w mz_nrows mz_ncols mz_x]. pose proof HX as (_ & Dw & X1 & X2 & X3 & _). rewrite Dw. cbn [bind].
  unfold mzd_window, mzd_unwindow. cbn [mzd_nrows mzd_ncols mzd_rows]. rewrite X1, X2.
  assert (G : (v_lr v <=? v_hr v) && (mz_w X * v_lc v <=? mz_w X * v_hc v) && (v_hr v <=? mz_nrows X) && (mz_w X * v_hc v <=? mz_w X * mz_ncols X) && ((mz_w X * v_lc v) mod 64 =? 0) = true).
  { rewrite A1. assert (mz_w X * v_lc v <= mz_w X * v_hc v) by nia. assert (mz_w X * v_hc v <= mz_w X * mz_ncols X) by nia. lia. }
  rewrite G. cbn [guard bind]. fold nb. f_equal. destruct W as [ff w nr nc [xr xc rows]]. cbn [mz_ff mz_w mz_nrows mz_ncols mz_x mzd_nrows mzd_ncols mzd_rows] in *. subst ff w nr nc xr xc.
  f_equal. f_equal.
  match goal with |- context [map ?G (seq 0 (mz_nrows X))] => set (g := G) end.
  assert (L : length (firstn (v_hr v - v_lr v) (skipn (v_lr v) (map g (seq 0 (mz_nrows X))))) = v_hr v - v_lr v).
  { rewrite firstn_length, skipn_length, map_length, seq_length. lia. }
  apply nth_ext with (d := []) (d' := []); [rewrite map_length; lia|]. rewrite map_length, L. intros i Hi.
  match goal with |- nth i (map ?k ?l) [] = _ => transitivity (k (nth i l [])); [rewrite nth_indep with (d' := k []) by (rewrite map_length; lia); apply (map_nth k)|cbv beta] end.
  rewrite nth_firstn_lt by exact Hi. rewrite nth_skipn_.
  rewrite nth_indep with (d' := g 0) by (rewrite map_length, seq_length; lia). rewrite map_nth, seq_nth by lia. unfold g. cbn [Nat.add].
  replace ((v_lr v <=? v_lr v + i) && (v_lr v + i <? v_lr v + (v_hr v - v_lr v))) with true by lia.
  replace (v_lr v + i - v_lr v) with i by lia. unfold mrow at 2. cbn [mzd_rows]. rewrite <- (S8 i Hi) at 1. apply splice_out. rewrite S8 by exact Hi. rewrite row_len by lia. exact A2.
Qed.
Lemma put_put W W' : wsh W -> wsh W' -> mzed_unwindow (mzed_unwindow X (v_lr v) (v_lc v) W) (v_lr v) (v_lc v) W' = mzed_unwindow X (v_lr v) (v_lc v) W'.
Proof.
  intros (S1 & S2 & S3 & S4 & S5 & S6 & S7 & S8) (T1 & T2 & T3 & T4 & T5 & T6 & T7 & T8). destruct put_al as (A1 & A2).
  unfold mzed_unwindow, mz_set_x, mzd_unwindow. cbn [mz_ff mz_w mz_nrows mz_ncols mz_x mzd_nrows mzd_ncols mzd_rows]. f_equal. f_equal.
  apply map_ext_in. intros i Hi. apply in_seq in Hi. pose proof HX as (_ & _ & X1 & X2 & X3 & _). rewrite X1 in *.
  match goal with |- context [Mzd (mz_nrows X) ?c (map ?G (seq 0 (mz_nrows X)))] => set (g := G) end.
  assert (Eg : mrow (Mzd (mz_nrows X) (mzd_ncols (mz_x X)) (map g (seq 0 (mz_nrows X)))) i = g i).
  { unfold mrow. cbn [mzd_rows]. rewrite nth_indep with (d' := g 0) by (rewrite map_length, seq_length; lia). now rewrite map_nth, seq_nth by lia. }
  rewrite Eg. unfold g. cbv zeta.
  rewrite S5, T5. destruct ((v_lr v <=? i) && (i <? v_lr v + (v_hr v - v_lr v))) eqn:E; [|reflexivity].
  assert (J1 : length (mrow (mz_x W) (i - v_lr v)) = width nb) by (apply S8; lia).
  assert (J2 : length (mrow (mz_x W') (i - v_lr v)) = width nb) by (apply T8; lia).
  apply splice_twice; [rewrite J2, row_len by lia; exact A2|congruence].
Qed.
Lemma vset_put W op : wsh W -> (forall W', op W = Ok W' -> wsh W') -> vset (put W) v op = (W' <- op W ;; Ok (put W')).
Proof.
  intros SW Hop. pose proof (vget_put W SW) as G. unfold vget, put in G. rewrite (lget_stored _ _ _ (stored_upd_eq h _ X _ EX)) in G. cbn [bind] in G.
  unfold vset, put at 1. rewrite (lget_stored _ _ _ (stored_upd_eq h _ X _ EX)). cbn [bind]. unfold on_win. rewrite G. cbn [bind].
  destruct (op W) as [W'| |] eqn:E; cbn [bind]; try reflexivity. unfold put. rewrite (lset_stored _ _ _ _ (stored_upd_eq h _ X _ EX)), upd_upd. now rewrite put_put by auto.
Qed.

(** ** the two runs side by side *)
Definition simr {S T} (R : S -> T -> Prop) (x : res S) (y : res T) : Prop :=
  match y with Ok b => exists a, x = Ok a /\ R a b | Die => x = Die | UB => x = UB end.
Lemma simr_bind {S T S' T'} (R : S -> T -> Prop) (Q : S' -> T' -> Prop) x y k l :
  simr R x y -> (forall a b, R a b -> simr Q (k a) (l b)) -> simr Q (bind x k) (bind y l).
Proof. unfold simr at 1. destruct y as [b| |]; [intros (a & -> & Ra) Hk; now apply Hk| |]; intros -> _; reflexivity. Qed.
Lemma simr_same {A S T} (Q : S -> T -> Prop) (m : res A) k l : (forall a, m = Ok a -> simr Q (k a) (l a)) -> simr Q (bind m k) (bind m l).
Proof. destruct m; cbn [bind]; [|reflexivity|reflexivity]. intros H. now apply H. Qed.
Lemma simr_for {S T} (R : S -> T -> Prop) lo hi f g s t : R s t -> (forall i s t, R s t -> simr R (f i s) (g i t)) -> simr R (for_ lo hi f s) (for_ lo hi g t).
Proof.
  unfold for_. remember (hi - lo) as q eqn:Eq. clear Eq. revert lo s t. induction q as [|q IH]; intros lo s t HR Hb; cbn [forloop]; [exists s; now split|].
  apply simr_bind with (R := R); [now apply Hb|]. intros a b Rab. now apply IH.
Qed.
Lemma simr_ok {S T} (R : S -> T -> Prop) a b : R a b -> simr R (Ok a) (Ok b).
Proof. intros H. exists a. now split. Qed.
Definition R1 (h' : store) (W : mzed) : Prop := h' = put W /\ wsh W.
Definition keep (op : mzed -> res mzed) : Prop := forall W W', wsh W -> op W = Ok W' -> wsh W'.
Lemma vset_sim h' W op : R1 h' W -> keep op -> simr R1 (vset h' v op) (op W).
Proof.
  intros (-> & HW) K. unfold simr. rewrite (vset_put W op HW (fun W' => K W W' HW)). destruct (op W) as [W'| |] eqn:E; cbn [bind]; [|reflexivity|reflexivity].
  exists (put W'). split; [reflexivity|]. split; [reflexivity|]. exact (K W W' HW E).
Qed.
Lemma wsh_row W i r : wsh W -> length r = length (nth i (mzd_rows (mz_x W)) []) ->
  wsh (mz_set_x W (Mzd (mzd_nrows (mz_x W)) (mzd_ncols (mz_x W)) (upd (mzd_rows (mz_x W)) i r))).
Proof.
  intros (S1 & S2 & S3 & S4 & S5 & S6 & S7 & S8) L. unfold wsh, mz_set_x. cbn [mz_ff mz_w mz_nrows mz_ncols mz_x mzd_nrows mzd_ncols mzd_rows].
  split; [exact S1|]. split; [exact S2|]. split; [exact S3|]. split; [exact S4|]. split; [exact S5|]. split; [exact S6|]. rewrite upd_length. split; [exact S7|].
  intros j Hj. destruct (Nat.eq_dec i j) as [->|Hne]; [rewrite nth_upd_eq by lia; rewrite L; now apply S8|rewrite nth_upd_ne by auto; now apply S8].
Qed.
Lemma lget_nth {Y} (l : list Y) i x d : lget l i = Ok x -> nth i l d = x.
Proof. unfold lget. destruct (nth_error l i) eqn:E; [|easy]. intros [= ->]. now apply nth_error_nth. Qed.
Lemma keep_combine rc blk T rt : keep (fun W => combine_row W rc blk T rt).
Proof.
  intros W W' HW. unfold combine_row. destruct (lget (mzd_rows (mz_x W)) rc) as [a| |] eqn:Ea; cbn [bind]; try easy.
  destruct (lget (mzd_rows (mz_x T)) rt) as [t| |]; cbn [bind]; try easy. destruct (length a =? length t); cbn [guard bind]; try easy. intros [= <-].
  apply wsh_row; [exact HW|]. rewrite (lget_nth _ _ _ [] Ea). unfold xor_words. now rewrite map_length, seq_length.
Qed.
Lemma keep_add_elem i j x : keep (fun W => mzed_add_elem W i j x).
Proof.
  intros W W' HW. unfold mzed_add_elem, mzd_xor_bits_. destruct (lget (mzd_rows (mz_x W)) i) as [r| |] eqn:Er; cbn [bind]; try easy.
  destruct (lget r _) as [d| |]; cbn [bind]; try easy. unfold lset. destruct (_ <? _); cbn [bind]; try easy. intros [= <-].
  apply wsh_row; [exact HW|]. now rewrite (lget_nth _ _ _ [] Er), upd_length.
Qed.
Lemma keep_bind {A} (m : res A) op : (forall a, keep (op a)) -> keep (fun W => bind m (fun a => op a W)).
Proof. intros H W W' HW. destruct m; cbn [bind]; try easy. now apply H. Qed.
Lemma keep_for lo hi (body : nat -> mzed -> res mzed) : (forall i, keep (body i)) -> keep (fun W => for_ lo hi body W).
Proof.
  intros H W W'. unfold for_. generalize (hi - lo). intros q. revert lo W. induction q as [|q IH]; intros lo W HW; cbn [forloop]; [now intros [= <-]|].
  destruct (body lo W) as [W1| |] eqn:E; cbn [bind]; try easy. apply IH. exact (H lo W W1 HW E).
Qed.
Lemma keep_combine8 j Ts A i : keep (fun W => combine8 W j Ts A i).
Proof.
  unfold combine8. apply keep_for. intros k. apply (keep_bind (lget Ts k) (fun T W => x <- mzed_read_elem A j (8 * i + k);; l <- nj_lookup T x;; combine_row W j 0 (nj_T T) l)). intros T.
  apply (keep_bind _ (fun x W => l <- nj_lookup T x;; combine_row W j 0 (nj_T T) l)). intros x. apply (keep_bind _ (fun l W => combine_row W j 0 (nj_T T) l)). intros l. apply keep_combine.
Qed.

(** ** Newton-John *)
Section NjSim.
Variables (vA vB : view) (A B : mzed).
Hypotheses (NA : v_at vA <> v_at v) (NB : v_at vB <> v_at v) (GA : vget h vA = Ok A) (GB : vget h vB = Ok B).
Lemma get_other W q : q <> v_at v -> nth_error (put W) q = nth_error h q.
Proof. intros Hq. unfold put. apply (stored_upd_ne h (v_at v) q X); auto. Qed.
Lemma vget_other W u : v_at u <> v_at v -> vget (put W) u = vget h u.
Proof. intros Hq. unfold vget, lget. now rewrite get_other. Qed.
Lemma RA W : vget (put W) vA = Ok A. Proof. now rewrite vget_other. Qed.
Lemma RB W : vget (put W) vB = Ok B. Proof. now rewrite vget_other. Qed.
Definition R2 {T} (a : store * T) (b : mzed * T) : Prop := R1 (fst a) (fst b) /\ snd a = snd b.

Lemma naive_sim W : wsh W -> simr R1 (vmul_naive (put W) v vA vB) (mzed_mul_naive_ W A B).
Proof.
  intros HW. unfold vmul_naive, mzed_mul_naive_. rewrite (vget_put W HW), RA. cbn [bind].
  destruct HW as (S1 & S2 & S3 & S4 & S5). assert (HW : wsh W) by now split.
  apply simr_for; [now split|]. intros i h1 W1 HR1. replace (mz_ncols W1) with (mz_ncols W) by (destruct HR1 as (_ & _ & _ & _ & Q & _); congruence).
  apply simr_for; [exact HR1|]. intros j h2 W2 HR2. apply simr_for; [exact HR2|]. intros k h3 W3 (-> & HW3).
  rewrite RA. cbn [bind]. apply simr_same. intros a _. rewrite RB. cbn [bind]. apply simr_same. intros b _.
  apply (vset_sim _ W3 (fun C => x <- gf2e_mul (mz_ff C) a b;; mzed_add_elem C i j x)); [now split|].
  intros V V' HV. destruct (gf2e_mul (mz_ff V) a b) as [x| |]; cbn [bind]; try easy. now apply keep_add_elem.
Qed.
Lemma block_sim Ts W lo hi : wsh W -> simr R2 (vnj_block Ts (put W) v vA vB (mz_ncols A) lo hi) (mul_nj_block Ts W A B lo hi).
Proof.
  intros HW. unfold vnj_block, mul_nj_block. apply simr_for; [now split|]. intros i [h1 T1] [W1 T2] ((E1 & HW1) & E2). cbn [fst snd] in *. subst h1 T2.
  rewrite RB. cbn [bind]. apply simr_same. intros T3 _. apply simr_bind with (R := R1).
  - apply simr_for; [now split|]. intros j h2 W2 (-> & HW2). rewrite RA. cbn [bind]. apply (vset_sim _ W2 (fun C => combine8 C j T3 A i)); [now split|apply keep_combine8].
  - intros h2 W2 HR. apply simr_ok. now split.
Qed.
Lemma giant_sim fuel : forall Ts W g bs, wsh W ->
  simr (fun a b => R2 (fst a) (fst b) /\ snd a = snd b) (vgiant_steps fuel Ts (put W) v vA vB (mz_nrows A) (mz_ncols A) g bs) (giant_steps fuel Ts W A B g bs).
Proof.
  induction fuel as [|fuel IH]; intros Ts W g bs HW; cbn [vgiant_steps giant_steps].
  - destruct (_ <=? _); [reflexivity|]. apply simr_ok. split; [split; [split; [reflexivity|exact HW]|reflexivity]|reflexivity].
  - destruct (_ <=? _); [|apply simr_ok; split; [split; [split; [reflexivity|exact HW]|reflexivity]|reflexivity]]. apply simr_bind with (R := R2); [now apply block_sim|].
    intros [h1 T1] [W1 T2] ((E1 & HW1) & E2). cbn [fst snd] in *. subst h1 T2. now apply IH.
Qed.
Lemma col_sim W T i : wsh W -> simr R2 (vnj_col (put W) T v vA vB (mz_nrows A) i) (mul_nj_col W T A B i).
Proof.
  intros HW. unfold vnj_col, mul_nj_col. rewrite RB. cbn [bind]. apply simr_same. intros T' _. apply simr_bind with (R := R1).
  - apply simr_for; [now split|]. intros j h2 W2 (-> & HW2). rewrite RA. cbn [bind]. apply simr_same. intros x _.
    apply (vset_sim _ W2 (fun C => l <- nj_lookup T' x;; combine_row C j 0 (nj_T T') l)); [now split|].
    apply (keep_bind _ (fun l W => combine_row W j 0 (nj_T T') l)). intros l. apply keep_combine.
  - intros h2 W2 HR. apply simr_ok. now split.
Qed.
Lemma nj_sim mulbs W : wsh W -> simr R1 (vmul_nj mulbs (put W) v vA vB) (mzed_mul_newton_john_ mulbs W A B).
Proof.
  intros HW. unfold vmul_nj, mzed_mul_newton_john_. rewrite RA. cbn [bind]. destruct (_ <? _); [now apply naive_sim|]. rewrite RB. cbn [bind].
  apply simr_same. intros Ts _. apply simr_bind with (R := fun a b => R2 (fst a) (fst b) /\ snd a = snd b).
  { destruct (_ <=? _); [now apply giant_sim|]. apply simr_ok. split; [split; [split; [reflexivity|exact HW]|reflexivity]|reflexivity]. }
  intros [[h1 T1] g1] [[W1 T2] g2] (((E1 & HW1) & E2) & E3). cbn [fst snd] in *. subst h1 T2 g2. apply simr_bind with (R := R2); [now apply block_sim|].
  intros [h2 T2] [W2 T3] ((E1 & HW2) & E2). cbn [fst snd] in *. subst h2 T3. apply simr_same. intros T _. apply simr_bind with (R := R2).
  - apply simr_for; [now split|]. intros i [h3 T3] [W3 T4] ((E1 & HW3) & E2). cbn [fst snd] in *. subst h3 T4. now apply col_sim.
  - intros [h3 T3] [W3 T4] (HR & _). apply simr_ok. exact HR.
Qed.
End NjSim.
End Put.
