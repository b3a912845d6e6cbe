(** The recursive triangular solvers again, with a log of what they reduce the problem to: the models of TrsmModel.v (trsm.inl:11-94 for
    packed and for bit-sliced matrices), in which every call of a Newton-John solver (the base case) and every product is recorded.  The
    lemmas [erase_...] prove that forgetting the log gives back the functions of TrsmModel.v. *)
From Coq Require Import NArith ZArith List Bool Arith Lia.
From Coq Require Import ZifyBool ZifyNat.
From Verif Require Import Base Gf2xModel Gf2eModel MzdModel MzedModel NjModel StrassenModel SliceModel KaraModel ConvModel MulModel TrsmModel.
Import ListNotations.
Local Open Scope nat_scope.

(** [Solve s n]: an s x s triangular system with n right hand sides is solved without recursion;
    [Product a b n]: an a x b matrix times a b x n matrix is added to a matrix *)
Inductive event := Solve (s n : nat) | Product (a b n : nat).
Definition tlog T := res (T * list event).
Definition tell {T} (e : event) (m : res T) : tlog T := x <- m ;; Ok (x, [e]).
Definition forget {T} (m : tlog T) : res T := x <- m ;; Ok (fst x).
(** an operation on a window (StrassenModel.on_win, SliceModel.on_swin), which writes to the log *)
Definition on_win_t (C : mzed) (lr lc hr hc : nat) (op : mzed -> tlog mzed) : tlog mzed :=
  W <- mzed_window C lr lc hr hc ;; x <- op W ;; Ok (mzed_unwindow C lr lc (fst x), snd x).
Definition on_swin_t (A : slice) (lr lc hr hc : nat) (op : slice -> tlog slice) : tlog slice :=
  W <- mzd_slice_window A lr lc hr hc ;; x <- op W ;; A' <- mzd_slice_unwindow A lr lc (fst x) ;; Ok (A', snd x).

(** trsm.inl:11-51 [_mzed_trsm_lower_left] *)
Fixpoint trsm_lower_t (mulbs : nat) (l2 : Z) (fuel : nat) (L B : mzed) (cutoff : nat) : tlog mzed :=
  match fuel with
  | O => UB
  | S fuel' =>
    _ <- guard (trsm_assert L B) ;;
    if (mz_nrows L <=? cutoff) || (mz_ncols B <=? cutoff) then tell (Solve (mz_nrows L) (mz_ncols B)) (mzed_trsm_lower_left_newton_john L B)
    else
      let c := trsm_split (mz_nrows L) in let n := mz_nrows B in let k := mz_ncols B in
      L00 <- mzed_window L 0 0 c c ;; L10 <- mzed_window L c 0 n c ;; L11 <- mzed_window L c c n n ;;
      '(B, l1) <- on_win_t B 0 0 c k (fun B0 => trsm_lower_t mulbs l2 fuel' L00 B0 cutoff) ;;
      B0 <- mzed_window B 0 0 c k ;;
      '(B, l2_) <- on_win_t B c 0 n k (fun B1 => tell (Product (mz_nrows L10) (mz_ncols L10) (mz_ncols B0)) (mzed_addmul mulbs l2 (Some B1) L10 B0)) ;;
      '(B, l3) <- on_win_t B c 0 n k (fun B1 => trsm_lower_t mulbs l2 fuel' L11 B1 cutoff) ;;
      Ok (B, l1 ++ l2_ ++ l3)
  end.
(** trsm.inl:53-94 [_mzed_trsm_upper_left] *)
Fixpoint trsm_upper_t (mulbs : nat) (l2 : Z) (fuel : nat) (U B : mzed) (cutoff : nat) : tlog mzed :=
  match fuel with
  | O => UB
  | S fuel' =>
    _ <- guard (trsm_assert U B) ;;
    if (mz_nrows U <=? cutoff) || (mz_ncols B <=? cutoff) then tell (Solve (mz_nrows U) (mz_ncols B)) (mzed_trsm_upper_left_newton_john U B)
    else
      let c := trsm_split (mz_nrows U) in let n := mz_nrows B in let k := mz_ncols B in
      U00 <- mzed_window U 0 0 c c ;; U01 <- mzed_window U 0 c c n ;; U11 <- mzed_window U c c n n ;;
      '(B, l1) <- on_win_t B c 0 n k (fun B1 => trsm_upper_t mulbs l2 fuel' U11 B1 cutoff) ;;
      B1 <- mzed_window B c 0 n k ;;
      '(B, l2_) <- on_win_t B 0 0 c k (fun B0 => tell (Product (mz_nrows U01) (mz_ncols U01) (mz_ncols B1)) (mzed_addmul mulbs l2 (Some B0) U01 B1)) ;;
      '(B, l3) <- on_win_t B 0 0 c k (fun B0 => trsm_upper_t mulbs l2 fuel' U00 B0 cutoff) ;;
      Ok (B, l1 ++ l2_ ++ l3)
  end.
(** the same template for slices *)
Fixpoint strsm_lower_t (fuel : nat) (L B : slice) (cutoff : nat) : tlog slice :=
  match fuel with
  | O => UB
  | S fuel' =>
    _ <- guard (strsm_assert L B) ;;
    if (sl_nrows L <=? cutoff) || (sl_ncols B <=? cutoff) then tell (Solve (sl_nrows L) (sl_ncols B)) (mzd_slice_trsm_lower_left_newton_john L B)
    else
      let c := trsm_split (sl_nrows L) in let n := sl_nrows B in let k := sl_ncols B in
      L00 <- mzd_slice_window L 0 0 c c ;; L10 <- mzd_slice_window L c 0 n c ;; L11 <- mzd_slice_window L c c n n ;;
      '(B, l1) <- on_swin_t B 0 0 c k (fun B0 => strsm_lower_t fuel' L00 B0 cutoff) ;;
      B0 <- mzd_slice_window B 0 0 c k ;;
      '(B, l2_) <- on_swin_t B c 0 n k (fun B1 => tell (Product (sl_nrows L10) (sl_ncols L10) (sl_ncols B0)) (mzd_slice_addmul (Some B1) L10 B0)) ;;
      '(B, l3) <- on_swin_t B c 0 n k (fun B1 => strsm_lower_t fuel' L11 B1 cutoff) ;;
      Ok (B, l1 ++ l2_ ++ l3)
  end.
Fixpoint strsm_upper_t (fuel : nat) (U B : slice) (cutoff : nat) : tlog slice :=
  match fuel with
  | O => UB
  | S fuel' =>
    _ <- guard (strsm_assert U B) ;;
    if (sl_nrows U <=? cutoff) || (sl_ncols B <=? cutoff) then tell (Solve (sl_nrows U) (sl_ncols B)) (mzd_slice_trsm_upper_left_newton_john U B)
    else
      let c := trsm_split (sl_nrows U) in let n := sl_nrows B in let k := sl_ncols B in
      U00 <- mzd_slice_window U 0 0 c c ;; U01 <- mzd_slice_window U 0 c c n ;; U11 <- mzd_slice_window U c c n n ;;
      '(B, l1) <- on_swin_t B c 0 n k (fun B1 => strsm_upper_t fuel' U11 B1 cutoff) ;;
      B1 <- mzd_slice_window B c 0 n k ;;
      '(B, l2_) <- on_swin_t B 0 0 c k (fun B0 => tell (Product (sl_nrows U01) (sl_ncols U01) (sl_ncols B1)) (mzd_slice_addmul (Some B0) U01 B1)) ;;
      '(B, l3) <- on_swin_t B 0 0 c k (fun B0 => strsm_upper_t fuel' U00 B0 cutoff) ;;
      Ok (B, l1 ++ l2_ ++ l3)
  end.
(** trsm.inl: the functions with leading underscore; trsm.h: cutoff MZED_TRSM_CUTOFF *)
Definition mzed_trsm_lower_left_t (mulbs : nat) (l2 : Z) (L B : mzed) (cutoff : nat) : tlog mzed := trsm_lower_t mulbs l2 (S (mz_nrows L)) L B cutoff.
Definition mzed_trsm_upper_left_t (mulbs : nat) (l2 : Z) (U B : mzed) (cutoff : nat) : tlog mzed := trsm_upper_t mulbs l2 (S (mz_nrows U)) U B cutoff.
Definition mzd_slice_trsm_lower_left_t (L B : slice) (cutoff : nat) : tlog slice := strsm_lower_t (S (sl_nrows L)) L B cutoff.
Definition mzd_slice_trsm_upper_left_t (U B : slice) (cutoff : nat) : tlog slice := strsm_upper_t (S (sl_nrows U)) U B cutoff.

(** ** forgetting the log *)
Lemma forget_tell {T} e (m : res T) : forget (tell e m) = m.
Proof. now destruct m. Qed.
Lemma bind_ext_t {T U} (m : res T) (k k' : T -> res U) : (forall x, k x = k' x) -> bind m k = bind m k'.
Proof. intros H. destruct m; cbn; auto. Qed.
Lemma forget_bind {T U} (m : res T) (k : T -> tlog U) : forget (bind m k) = bind m (fun x => forget (k x)).
Proof. now destruct m. Qed.
Lemma forget_win {U} C lr lc hr hc op op' (k : mzed * list event -> tlog U) k' : (forall W, forget (op W) = op' W) ->
  (forall B l, forget (k (B, l)) = k' B) -> forget (bind (on_win_t C lr lc hr hc op) k) = bind (on_win C lr lc hr hc op') k'.
Proof.
  intros H K. unfold on_win_t, on_win. destruct (mzed_window C lr lc hr hc) as [W| |]; cbn [bind]; try reflexivity.
  rewrite <- H. unfold forget. destruct (op W) as [[W' l]| |]; cbn [bind fst snd]; try reflexivity. rewrite <- (K _ l). reflexivity.
Qed.
Lemma forget_swin {U} C lr lc hr hc op op' (k : slice * list event -> tlog U) k' : (forall W, forget (op W) = op' W) ->
  (forall B l, forget (k (B, l)) = k' B) -> forget (bind (on_swin_t C lr lc hr hc op) k) = bind (on_swin C lr lc hr hc op') k'.
Proof.
  intros H K. unfold on_swin_t, on_swin. destruct (mzd_slice_window C lr lc hr hc) as [W| |]; cbn [bind]; try reflexivity.
  rewrite <- H. unfold forget. destruct (op W) as [[W' l]| |]; cbn [bind fst snd]; try reflexivity.
  destruct (mzd_slice_unwindow C lr lc W'); cbn [bind]; try reflexivity. rewrite <- (K _ l). reflexivity.
Qed.
Lemma bind_ok {T} (m : res T) : bind m (fun x => Ok x) = m.
Proof. now destruct m. Qed.
Lemma erase_trsm_lower mulbs l2 cutoff : forall fuel L B, forget (trsm_lower_t mulbs l2 fuel L B cutoff) = trsm_lower mulbs l2 fuel L B cutoff.
Proof.
  induction fuel as [|fuel IH]; intros L B; cbn [trsm_lower_t trsm_lower]; [reflexivity|].
  rewrite forget_bind. apply bind_ext_t. intros _. destruct ((mz_nrows L <=? cutoff) || (mz_ncols B <=? cutoff)); [apply forget_tell|].
  cbv zeta. do 3 (rewrite forget_bind; apply bind_ext_t; intros ?).
  apply forget_win; [intros; apply IH|]. intros B1 l1. rewrite forget_bind. apply bind_ext_t. intros B0.
  apply forget_win; [intros; apply forget_tell|]. intros B2 l2'. rewrite <- (bind_ok (on_win B2 _ _ _ _ _)).
  apply forget_win; [intros; apply IH|]. reflexivity.
Qed.
Lemma erase_trsm_upper mulbs l2 cutoff : forall fuel U B, forget (trsm_upper_t mulbs l2 fuel U B cutoff) = trsm_upper mulbs l2 fuel U B cutoff.
Proof.
  induction fuel as [|fuel IH]; intros L B; cbn [trsm_upper_t trsm_upper]; [reflexivity|].
  rewrite forget_bind. apply bind_ext_t. intros _. destruct ((mz_nrows L <=? cutoff) || (mz_ncols B <=? cutoff)); [apply forget_tell|].
  cbv zeta. do 3 (rewrite forget_bind; apply bind_ext_t; intros ?).
  apply forget_win; [intros; apply IH|]. intros B1 l1. rewrite forget_bind. apply bind_ext_t. intros B0.
  apply forget_win; [intros; apply forget_tell|]. intros B2 l2'. rewrite <- (bind_ok (on_win B2 _ _ _ _ _)).
  apply forget_win; [intros; apply IH|]. reflexivity.
Qed.
Lemma erase_strsm_lower cutoff : forall fuel L B, forget (strsm_lower_t fuel L B cutoff) = strsm_lower fuel L B cutoff.
Proof.
  induction fuel as [|fuel IH]; intros L B; cbn [strsm_lower_t strsm_lower]; [reflexivity|].
  rewrite forget_bind. apply bind_ext_t. intros _. destruct ((sl_nrows L <=? cutoff) || (sl_ncols B <=? cutoff)); [apply forget_tell|].
  cbv zeta. do 3 (rewrite forget_bind; apply bind_ext_t; intros ?).
  apply forget_swin; [intros; apply IH|]. intros B1 l1. rewrite forget_bind. apply bind_ext_t. intros B0.
  apply forget_swin; [intros; apply forget_tell|]. intros B2 l2'. rewrite <- (bind_ok (on_swin B2 _ _ _ _ _)).
  apply forget_swin; [intros; apply IH|]. reflexivity.
Qed.
Lemma erase_strsm_upper cutoff : forall fuel U B, forget (strsm_upper_t fuel U B cutoff) = strsm_upper fuel U B cutoff.
Proof.
  induction fuel as [|fuel IH]; intros L B; cbn [strsm_upper_t strsm_upper]; [reflexivity|].
  rewrite forget_bind. apply bind_ext_t. intros _. destruct ((sl_nrows L <=? cutoff) || (sl_ncols B <=? cutoff)); [apply forget_tell|].
  cbv zeta. do 3 (rewrite forget_bind; apply bind_ext_t; intros ?).
  apply forget_swin; [intros; apply IH|]. intros B1 l1. rewrite forget_bind. apply bind_ext_t. intros B0.
  apply forget_swin; [intros; apply forget_tell|]. intros B2 l2'. rewrite <- (bind_ok (on_swin B2 _ _ _ _ _)).
  apply forget_swin; [intros; apply IH|]. reflexivity.
Qed.

(** ** what the logs contain: m is cut into c and m - c, c the half of m rounded to words *)
Inductive plan (cutoff n : nat) : nat -> list event -> Prop :=
| plan_base m : m <= cutoff \/ n <= cutoff -> plan cutoff n m [Solve m n]
| plan_cut m c a b l1 l3 : cutoff < m -> cutoff < n -> c = trsm_split m -> c <= m -> (a = c /\ b = m - c) \/ (a = m - c /\ b = c) ->
    plan cutoff n b l1 -> plan cutoff n a l3 -> plan cutoff n m (l1 ++ [Product a b n] ++ l3).

Lemma inv_bind {T U} (m : res T) (k : T -> res U) y : bind m k = Ok y -> exists x, m = Ok x /\ k x = Ok y.
Proof. destruct m; cbn; intros E; try discriminate. eauto. Qed.
Lemma inv_guard b (u : unit) : guard b = Ok u -> b = true.
Proof. now destruct b. Qed.
Lemma win_dims A lr lc hr hc W : mzed_window A lr lc hr hc = Ok W -> mz_nrows W = hr - lr /\ mz_ncols W = hc - lc /\ hr <= mzd_nrows (mz_x A).
Proof.
  unfold mzed_window. intros E. apply inv_bind in E. destruct E as (w & _ & E). apply inv_bind in E. destruct E as (x & Ex & E). injection E as <-. cbn.
  unfold mzd_window in Ex. apply inv_bind in Ex. destruct Ex as (u & Eg & _). apply inv_guard in Eg. repeat split; lia.
Qed.
Lemma swin_dims A lr lc hr hc W : mzd_slice_window A lr lc hr hc = Ok W -> sl_nrows W = hr - lr /\ sl_ncols W = hc - lc.
Proof. unfold mzd_slice_window. intros E. apply inv_bind in E. destruct E as (x & _ & E). injection E as <-. now split. Qed.
Lemma on_win_inv C lr lc hr hc op B l : on_win_t C lr lc hr hc op = Ok (B, l) -> mz_nrows B = mz_nrows C /\ mz_ncols B = mz_ncols C /\
  exists W W', mz_nrows W = hr - lr /\ mz_ncols W = hc - lc /\ op W = Ok (W', l).
Proof.
  unfold on_win_t. intros E. apply inv_bind in E. destruct E as (W & EW & E). apply inv_bind in E. destruct E as ([W' l'] & Eo & E). injection E as <- <-.
  cbn. split; [reflexivity|]. split; [reflexivity|]. exists W, W'. destruct (win_dims _ _ _ _ _ _ EW) as (? & ? & ?). auto.
Qed.
Lemma on_swin_inv C lr lc hr hc op B l : on_swin_t C lr lc hr hc op = Ok (B, l) -> sl_nrows B = sl_nrows C /\ sl_ncols B = sl_ncols C /\
  exists W W', sl_nrows W = hr - lr /\ sl_ncols W = hc - lc /\ op W = Ok (W', l).
Proof.
  unfold on_swin_t. intros E. apply inv_bind in E. destruct E as (W & EW & E). apply inv_bind in E. destruct E as ([W' l'] & Eo & E).
  apply inv_bind in E. destruct E as (A' & EA & E). injection E as <- <-. cbn [fst] in EA. cbn [snd].
  unfold mzd_slice_unwindow, sl_map in EA. apply inv_bind in EA. destruct EA as (x & _ & EA). injection EA as <-.
  split; [reflexivity|]. split; [reflexivity|]. exists W, W'. destruct (swin_dims _ _ _ _ _ _ EW). auto.
Qed.
Lemma split_le m : 64 < m -> trsm_split m <= m.
Proof. unfold trsm_split. intros H. pose proof (Nat.div_mod m 2 ltac:(lia)). pose proof (Nat.mod_upper_bound m 2 ltac:(lia)). lia. Qed.
Lemma inv_tell {T} e (m : res T) x l : tell e m = Ok (x, l) -> l = [e].
Proof. unfold tell. intros E. apply inv_bind in E. destruct E as (y & _ & E). now injection E as _ <-. Qed.
Ltac step E x := apply inv_bind in E; let H := fresh "H" in destruct E as (x & H & E).
Lemma plan_lower mulbs l2 cutoff : 64 <= cutoff -> forall fuel L B B' l, trsm_lower_t mulbs l2 fuel L B cutoff = Ok (B', l) -> plan cutoff (mz_ncols B) (mz_nrows L) l.
Proof.
  intros Hc. induction fuel as [|fuel IH]; intros L B B' l E; cbn [trsm_lower_t] in E; [discriminate|].
  step E u. apply inv_guard in H. unfold trsm_assert in H.
  destruct ((mz_nrows L <=? cutoff) || (mz_ncols B <=? cutoff)) eqn:Q. { apply inv_tell in E as ->. constructor. lia. }
  cbv zeta in E. set (c := trsm_split (mz_nrows L)) in *. step E L00. step E L10. step E L11.
  apply inv_bind in E. destruct E as ([B1 l1] & E1 & E). step E B0. apply inv_bind in E. destruct E as ([B2 l2'] & E2 & E). apply inv_bind in E. destruct E as ([B3 l3] & E3 & E).
  injection E as <- <-.
  destruct (on_win_inv _ _ _ _ _ _ _ _ E1) as (D1 & D2 & W1 & W1' & D3 & D4 & E1'). destruct (on_win_inv _ _ _ _ _ _ _ _ E2) as (D5 & D6 & W2 & W2' & D7 & D8 & E2').
  destruct (on_win_inv _ _ _ _ _ _ _ _ E3) as (D9 & D10 & W3 & W3' & D11 & D12 & E3').
  destruct (win_dims _ _ _ _ _ _ H0) as (F1 & F2 & _). destruct (win_dims _ _ _ _ _ _ H1) as (F3 & F4 & _). destruct (win_dims _ _ _ _ _ _ H2) as (F5 & F6 & _). destruct (win_dims _ _ _ _ _ _ H3) as (F7 & F8 & _).
  apply inv_tell in E2'. subst l2'.
  apply IH in E1'. apply IH in E3'. rewrite D4, F1, !Nat.sub_0_r in E1'. rewrite D12, F5, Nat.sub_0_r in E3'.
  rewrite F3, F4, F8, !Nat.sub_0_r. replace (mz_nrows B) with (mz_nrows L) in * by lia.
  assert (Cl : c <= mz_nrows L) by (apply split_le; lia).
  eapply (plan_cut cutoff _ _ c); [lia|lia|reflexivity|exact Cl|right; split; reflexivity|exact E1'|exact E3'].
Qed.
Lemma plan_upper mulbs l2 cutoff : 64 <= cutoff -> forall fuel L B B' l, trsm_upper_t mulbs l2 fuel L B cutoff = Ok (B', l) -> plan cutoff (mz_ncols B) (mz_nrows L) l.
Proof.
  intros Hc. induction fuel as [|fuel IH]; intros L B B' l E; cbn [trsm_upper_t] in E; [discriminate|].
  step E u. apply inv_guard in H. unfold trsm_assert in H.
  destruct ((mz_nrows L <=? cutoff) || (mz_ncols B <=? cutoff)) eqn:Q. { apply inv_tell in E as ->. constructor. lia. }
  cbv zeta in E. set (c := trsm_split (mz_nrows L)) in *. step E L00. step E L10. step E L11.
  apply inv_bind in E. destruct E as ([B1 l1] & E1 & E). step E B0. apply inv_bind in E. destruct E as ([B2 l2'] & E2 & E). apply inv_bind in E. destruct E as ([B3 l3] & E3 & E).
  injection E as <- <-.
  destruct (on_win_inv _ _ _ _ _ _ _ _ E1) as (D1 & D2 & W1 & W1' & D3 & D4 & E1'). destruct (on_win_inv _ _ _ _ _ _ _ _ E2) as (D5 & D6 & W2 & W2' & D7 & D8 & E2').
  destruct (on_win_inv _ _ _ _ _ _ _ _ E3) as (D9 & D10 & W3 & W3' & D11 & D12 & E3').
  destruct (win_dims _ _ _ _ _ _ H0) as (F1 & F2 & _). destruct (win_dims _ _ _ _ _ _ H1) as (F3 & F4 & _). destruct (win_dims _ _ _ _ _ _ H2) as (F5 & F6 & _). destruct (win_dims _ _ _ _ _ _ H3) as (F7 & F8 & _).
  apply inv_tell in E2'. subst l2'.
  apply IH in E1'. apply IH in E3'. rewrite D4, F5, !Nat.sub_0_r in E1'. rewrite D12, F1, !Nat.sub_0_r in E3'.
  rewrite F3, F4, F8, !Nat.sub_0_r. replace (mz_nrows B) with (mz_nrows L) in * by lia.
  assert (Cl : c <= mz_nrows L) by (apply split_le; lia).
  eapply (plan_cut cutoff _ _ c); [lia|lia|reflexivity|exact Cl|left; split; reflexivity|exact E1'|exact E3'].
Qed.
Lemma splan_lower cutoff : 64 <= cutoff -> forall fuel L B B' l, strsm_lower_t fuel L B cutoff = Ok (B', l) -> plan cutoff (sl_ncols B) (sl_nrows L) l.
Proof.
  intros Hc. induction fuel as [|fuel IH]; intros L B B' l E; cbn [strsm_lower_t] in E; [discriminate|].
  step E u. apply inv_guard in H. unfold strsm_assert in H.
  destruct ((sl_nrows L <=? cutoff) || (sl_ncols B <=? cutoff)) eqn:Q. { apply inv_tell in E as ->. constructor. lia. }
  cbv zeta in E. set (c := trsm_split (sl_nrows L)) in *. step E L00. step E L10. step E L11.
  apply inv_bind in E. destruct E as ([B1 l1] & E1 & E). step E B0. apply inv_bind in E. destruct E as ([B2 l2'] & E2 & E). apply inv_bind in E. destruct E as ([B3 l3] & E3 & E).
  injection E as <- <-.
  destruct (on_swin_inv _ _ _ _ _ _ _ _ E1) as (D1 & D2 & W1 & W1' & D3 & D4 & E1'). destruct (on_swin_inv _ _ _ _ _ _ _ _ E2) as (D5 & D6 & W2 & W2' & D7 & D8 & E2').
  destruct (on_swin_inv _ _ _ _ _ _ _ _ E3) as (D9 & D10 & W3 & W3' & D11 & D12 & E3').
  destruct (swin_dims _ _ _ _ _ _ H0) as (F1 & F2). destruct (swin_dims _ _ _ _ _ _ H1) as (F3 & F4). destruct (swin_dims _ _ _ _ _ _ H2) as (F5 & F6). destruct (swin_dims _ _ _ _ _ _ H3) as (F7 & F8).
  apply inv_tell in E2'. subst l2'.
  apply IH in E1'. apply IH in E3'. rewrite D4, F1, !Nat.sub_0_r in E1'. rewrite D12, F5, Nat.sub_0_r in E3'.
  rewrite F3, F4, F8, !Nat.sub_0_r. replace (sl_nrows B) with (sl_nrows L) in * by lia.
  assert (Cl : c <= sl_nrows L) by (apply split_le; lia).
  eapply (plan_cut cutoff _ _ c); [lia|lia|reflexivity|exact Cl|right; split; reflexivity|exact E1'|exact E3'].
Qed.
Lemma splan_upper cutoff : 64 <= cutoff -> forall fuel L B B' l, strsm_upper_t fuel L B cutoff = Ok (B', l) -> plan cutoff (sl_ncols B) (sl_nrows L) l.
Proof.
  intros Hc. induction fuel as [|fuel IH]; intros L B B' l E; cbn [strsm_upper_t] in E; [discriminate|].
  step E u. apply inv_guard in H. unfold strsm_assert in H.
  destruct ((sl_nrows L <=? cutoff) || (sl_ncols B <=? cutoff)) eqn:Q. { apply inv_tell in E as ->. constructor. lia. }
  cbv zeta in E. set (c := trsm_split (sl_nrows L)) in *. step E L00. step E L10. step E L11.
  apply inv_bind in E. destruct E as ([B1 l1] & E1 & E). step E B0. apply inv_bind in E. destruct E as ([B2 l2'] & E2 & E). apply inv_bind in E. destruct E as ([B3 l3] & E3 & E).
  injection E as <- <-.
  destruct (on_swin_inv _ _ _ _ _ _ _ _ E1) as (D1 & D2 & W1 & W1' & D3 & D4 & E1'). destruct (on_swin_inv _ _ _ _ _ _ _ _ E2) as (D5 & D6 & W2 & W2' & D7 & D8 & E2').
  destruct (on_swin_inv _ _ _ _ _ _ _ _ E3) as (D9 & D10 & W3 & W3' & D11 & D12 & E3').
  destruct (swin_dims _ _ _ _ _ _ H0) as (F1 & F2). destruct (swin_dims _ _ _ _ _ _ H1) as (F3 & F4). destruct (swin_dims _ _ _ _ _ _ H2) as (F5 & F6). destruct (swin_dims _ _ _ _ _ _ H3) as (F7 & F8).
  apply inv_tell in E2'. subst l2'.
  apply IH in E1'. apply IH in E3'. rewrite D4, F5, !Nat.sub_0_r in E1'. rewrite D12, F1, !Nat.sub_0_r in E3'.
  rewrite F3, F4, F8, !Nat.sub_0_r. replace (sl_nrows B) with (sl_nrows L) in * by lia.
  assert (Cl : c <= sl_nrows L) by (apply split_le; lia).
  eapply (plan_cut cutoff _ _ c); [lia|lia|reflexivity|exact Cl|left; split; reflexivity|exact E1'|exact E3'].
Qed.

(** ** counting *)
Definition solved (l : list event) : nat := fold_right (fun e s => match e with Solve m _ => m + s | Product _ _ _ => s end) 0 l.
(** entries of the triangular matrix that are used: the triangle of a system, the block of a product *)
Definition area (l : list event) : nat := fold_right (fun e s => match e with Solve m _ => m * (m + 1) + s | Product a b _ => 2 * (a * b) + s end) 0 l.
Definition spent (cost : nat -> nat -> nat -> nat) (l : list event) : nat := fold_right (fun e s => match e with Solve _ _ => s | Product a b n => cost a b n + s end) 0 l.
Lemma solved_app l l' : solved (l ++ l') = solved l + solved l'.
Proof. induction l as [|[?|?] l IH]; cbn [app solved fold_right]; unfold solved in *; rewrite ?IH; lia. Qed.
Lemma area_app l l' : area (l ++ l') = area l + area l'.
Proof. induction l as [|[?|?] l IH]; cbn [app area fold_right]; unfold area in *; rewrite ?IH; lia. Qed.
Lemma spent_app cost l l' : spent cost (l ++ l') = spent cost l + spent cost l'.
Proof. induction l as [|[?|?] l IH]; cbn [app spent fold_right]; unfold spent in *; rewrite ?IH; lia. Qed.

Lemma plan_solved cutoff n m l : plan cutoff n m l -> solved l = m.
Proof.
  induction 1 as [m H|m c a b l1 l3 Hm Hn -> Cl Hab P1 IH1 P3 IH3]; [cbn; lia|]. rewrite !solved_app, IH1, IH3. cbn [solved fold_right]. lia.
Qed.
Lemma plan_area cutoff n m l : plan cutoff n m l -> area l = m * (m + 1).
Proof.
  induction 1 as [m H|m c a b l1 l3 Hm Hn Ec Cl Hab P1 IH1 P3 IH3]; [cbn; lia|]. rewrite !area_app, IH1, IH3. cbn [area fold_right].
  assert (E : m = a + b) by lia. rewrite E. ring.
Qed.
Lemma split_near m : 64 < m -> 2 * trsm_split m <= m + 128 /\ 2 * (m - trsm_split m) <= m + 127.
Proof.
  unfold trsm_split. intros H. pose proof (Nat.div_mod m 2 ltac:(lia)). pose proof (Nat.mod_upper_bound m 2 ltac:(lia)).
  pose proof (Nat.mod_upper_bound (m / 2) 64 ltac:(lia)). lia.
Qed.
Lemma plan_events cutoff n m l : 64 <= cutoff -> plan cutoff n m l -> cutoff < n ->
  forall e, In e l -> match e with Solve s k => s <= cutoff /\ k = n | Product a b k => k = n /\ a <= b + 128 /\ b <= a + 128 /\ a + b <= m end.
Proof.
  intros Hc P Hn. induction P as [m H|m c a b l1 l3 Hm _ Ec Cl Hab P1 IH1 P3 IH3]; intros e He.
  - destruct He as [<-|[]]. lia.
  - rewrite !in_app_iff in He. assert (E : a + b = m) by lia. destruct He as [He|[[<-|[]]|He]].
    + specialize (IH1 e He). destruct e; lia.
    + pose proof (split_near m ltac:(lia)). lia.
    + specialize (IH3 e He). destruct e; lia.
Qed.
(** products of a a x b by a b x n matrix, where [n] is at most q times as large as a and b *)
Lemma plan_spent cutoff n m l cost K c : 64 <= cutoff -> c + 128 <= cutoff ->
  (forall i q a b, a <= 2 ^ i * c + 128 -> b <= 2 ^ i * c + 128 -> n <= q * (2 ^ i * c + 128) -> cost a b n <= q * (K * 7 ^ i)) ->
  plan cutoff n m l -> forall j q, m <= 2 ^ j * c + 128 -> n <= q * (2 ^ j * c + 128) -> 3 * spent cost l <= 2 * (q * (K * 7 ^ j)).
Proof.
  intros Hc Hcc HK P. induction P as [m H|m c' a b l1 l3 Hm _ Ec Cl Hab P1 IH1 P3 IH3]; intros j q Hj Hq; [cbn; lia|].
  destruct j as [|j]; [cbn in Hj; lia|].
  rewrite !spent_app. cbn [spent fold_right]. rewrite Nat.pow_succ_r' in Hj, Hq. rewrite Nat.pow_succ_r'.
  pose proof (split_near m ltac:(lia)) as (N1 & N2). rewrite <- Ec in N1, N2.
  assert (S1 : a <= 2 ^ j * c + 128) by lia. assert (S2 : b <= 2 ^ j * c + 128) by lia.
  assert (S3 : n <= 2 * q * (2 ^ j * c + 128)). { eapply Nat.le_trans; [exact Hq|]. replace (2 * q * (2 ^ j * c + 128)) with (q * (2 * (2 ^ j * c + 128))) by ring. apply Nat.mul_le_mono_l. lia. }
  specialize (IH1 j (2 * q) S2 S3). specialize (IH3 j (2 * q) S1 S3). specialize (HK j (2 * q) a b S1 S2 S3).
  replace (q * (K * (7 * 7 ^ j))) with (7 * (q * (K * 7 ^ j))) by ring. rewrite <- Nat.mul_assoc in IH1, IH3, HK.
  set (x := q * (K * 7 ^ j)) in *. clearbody x. lia.
Qed.
