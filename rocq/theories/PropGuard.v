(** Property C47: calls with incompatible matrices are rejected.
    [Die] is m4ri_die(): the process ends with a message.  [UB] is a failing assertion or an access out of bounds. *)
From Coq Require Import NArith ZArith Lia List Bool Arith.
From Coq Require Import ZifyBool ZifyNat ZifyN.
From Verif Require Import Base Spec Gf2xModel Gf2eModel Gf2eProofs MzdModel MzedModel MzedSpec MzedProofs MzedOps MzedOps2 NjModel StrassenModel MulModel SliceModel SliceSpec MzdFacts SliceProofs SliceOps KaraModel ConvModel TrsmModel DjbModel BlmModel BlmOps Demo.
Import ListNotations.
Local Open Scope nat_scope.

(** ** incompatible arguments, in words: the inner dimensions differ, or the fields, or a given target has the wrong
    size or field *)
Definition mul_mismatch (C : option mzed) (A B : mzed) : Prop :=
  mz_ncols A <> mz_nrows B \/ ff_minpoly (mz_ff A) <> ff_minpoly (mz_ff B) \/
  exists C0, C = Some C0 /\ (mz_nrows C0 <> mz_nrows A \/ mz_ncols C0 <> mz_ncols B \/ ff_minpoly (mz_ff C0) <> ff_minpoly (mz_ff A)).
Definition add_mismatch (C : option mzed) (A B : mzed) : Prop :=
  mz_nrows A <> mz_nrows B \/ mz_ncols A <> mz_ncols B \/ ff_minpoly (mz_ff A) <> ff_minpoly (mz_ff B) \/
  exists C0, C = Some C0 /\ (mz_nrows C0 <> mz_nrows A \/ mz_ncols C0 <> mz_ncols A \/ ff_minpoly (mz_ff C0) <> ff_minpoly (mz_ff A)).
Definition smul_mismatch (C : option slice) (A B : slice) : Prop :=
  sl_ncols A <> sl_nrows B \/ ff_minpoly (sl_ff A) <> ff_minpoly (sl_ff B) \/
  exists C0, C = Some C0 /\ (sl_nrows C0 <> sl_nrows A \/ sl_ncols C0 <> sl_ncols B \/ ff_minpoly (sl_ff C0) <> ff_minpoly (sl_ff A)).
Definition sadd_mismatch (C : option slice) (A B : slice) : Prop :=
  sl_nrows A <> sl_nrows B \/ sl_ncols A <> sl_ncols B \/ ff_minpoly (sl_ff A) <> ff_minpoly (sl_ff B) \/
  exists C0, C = Some C0 /\ (sl_nrows C0 <> sl_nrows A \/ sl_ncols C0 <> sl_ncols A \/ ff_minpoly (sl_ff C0) <> ff_minpoly (sl_ff A)).

Lemma bind_die {X Y} (e : res X) (k : X -> res Y) : e = Die -> bind e k = Die.
Proof. now intros ->. Qed.
Lemma orun_die {X Y} (e : res X) (k : X -> option (res Y)) : e = Die -> orun e k = Some Die.
Proof. now intros ->. Qed.
Lemma check_die {X} b (k : unit -> res X) : b = false -> bind (check b) k = Die.
Proof. now intros ->. Qed.
Lemma checks_die {X} b c (k : unit -> unit -> res X) : b && c = false -> (u <- check b ;; v <- check c ;; k u v) = Die.
Proof. destruct b, c; cbn; easy. Qed.
Lemma mul_init_die C A B clr : mul_mismatch C A B -> mzed_mul_init C A B clr = Die.
Proof.
  intros M. unfold mzed_mul_init, same_ff. destruct C as [C|].
  - apply checks_die. destruct M as [M|[M|(C0 & E & M)]]; [lia|lia|]. injection E as <-. lia.
  - apply check_die. destruct M as [M|[M|(C0 & E & M)]]; [lia|lia|discriminate E].
Qed.

(** ** C47, packed matrices *)
Theorem C47_mzed_add : forall C A B, add_mismatch C A B -> mzed_add C A B = Die.
Proof.
  intros C A B M. unfold mzed_add, same_ff. destruct C as [C|].
  - destruct M as [M|[M|[M|(C0 & E & M)]]]; try (apply check_die; lia). injection E as <-.
    destruct (check _) as [u| |] eqn:Ec; cbn [bind]; [|reflexivity|now destruct (_ && _) in Ec]. rewrite check_die by lia. reflexivity.
  - destruct M as [M|[M|[M|(C0 & E & M)]]]; [| | |discriminate E]; apply check_die; lia.
Qed.
Theorem C47_mzed_mul_naive : forall C A B, mul_mismatch C A B -> mzed_mul_naive C A B = Die /\ mzed_addmul_naive C A B = Die.
Proof. intros C A B M. split; apply bind_die; now apply mul_init_die. Qed.
Theorem C47_mzed_mul_newton_john : forall mulbs C A B, mul_mismatch C A B -> mzed_mul_newton_john mulbs C A B = Die /\ mzed_addmul_newton_john mulbs C A B = Die.
Proof. intros mulbs C A B M. split; apply bind_die; now apply mul_init_die. Qed.
Theorem C47_mzed_mul_strassen : forall mulbs C A B cutoff, mul_mismatch C A B -> mzed_mul_strassen mulbs C A B cutoff = Die /\ mzed_addmul_strassen mulbs C A B cutoff = Die.
Proof. intros mulbs C A B cutoff M. split; apply bind_die; now apply mul_init_die. Qed.
Theorem C47_mzed_mul : forall mulbs l2 C A B, mul_mismatch C A B -> mzed_mul mulbs l2 C A B = Die /\ mzed_addmul mulbs l2 C A B = Die.
Proof. intros mulbs l2 C A B M. split; apply bind_die; now apply mul_init_die. Qed.
Theorem C47_mzed_mul_karatsuba : forall C A B, mul_mismatch C A B -> mzed_mul_karatsuba C A B = Die /\ (C <> None -> mzed_addmul_karatsuba C A B = Die).
Proof.
  intros C A B M. unfold mzed_mul_karatsuba, mzed_addmul_karatsuba, same_ff. destruct C as [C|].
  - split; [|intros _]; apply checks_die; (destruct M as [M|[M|(C0 & E & M)]]; [lia|lia|]; injection E as <-; lia).
  - split; [|easy]. apply check_die. destruct M as [M|[M|(C0 & E & M)]]; [lia|lia|discriminate E].
Qed.
Theorem C47_mzed_mul_blm : forall fuel x C A B, mul_mismatch C A B -> mzed_mul_blm fuel x C A B = Some Die /\ (C <> None -> mzed_addmul_blm fuel x C A B = Some Die).
Proof.
  intros fuel x C A B M. unfold mzed_mul_blm, mzed_addmul_blm, same_ff. destruct C as [C|].
  - split; [|intros _]; apply orun_die.
    + apply checks_die. destruct M as [M|[M|(C0 & E & M)]]; [lia|lia|]; injection E as <-; lia.
    + destruct M as [M|[M|(C0 & E & M)]]; try (apply check_die; lia). injection E as <-. destruct (check ((mz_ncols A =? _) && _)) eqn:E; cbn [bind]; [|easy|now destruct (_ && _) in E].
      match goal with |- check ?b = Die => replace b with false by lia end. reflexivity.
  - split; [|easy]. apply orun_die. apply check_die. destruct M as [M|[M|(C0 & E & M)]]; [lia|lia|discriminate E].
Qed.
Theorem C47_mzed_copy : forall A B, mz_nrows A <> mz_nrows B \/ mz_ncols A <> mz_ncols B \/ ff_minpoly (mz_ff A) <> ff_minpoly (mz_ff B) -> mzed_copy (Some A) B = Die.
Proof. intros A B M. unfold mzed_copy, same_ff. cbn [bind]. apply check_die. lia. Qed.


(** concatenation, stacking, submatrices: the sizes are checked *)
Lemma wf_dims A : wf_mzed A -> mzd_nrows (mz_x A) = mz_nrows A /\ mzd_ncols (mz_x A) = mz_w A * mz_ncols A /\ 2 <= mz_w A.
Proof. intros H. pose proof H as (G & W & R & C & _). split; [exact R|]. split; [exact C|]. destruct (wf_deg2 A H) as [_ D]. pose proof G as (D2 & _). destruct (gf2e_degree_to_w_ok (mz_ff A) ltac:(lia)) as (w & Ew & Hw & _). assert (w = mz_w A) by congruence. lia. Qed.
Theorem C47_mzed_concat : forall C A B, wf_mzed A -> wf_mzed B -> fld A = fld B -> (forall C0, C = Some C0 -> wf_mzed C0 /\ fld C0 = fld A) ->
  mz_nrows A <> mz_nrows B \/ (exists C0, C = Some C0 /\ (mz_nrows C0 <> mz_nrows A \/ mz_ncols C0 <> mz_ncols A + mz_ncols B)) ->
  mzed_concat C A B = Die.
Proof.
  intros C A B HA HB Ef HC M. destruct (wf_dims A HA) as (RA & CA & WA). destruct (wf_dims B HB) as (RB & CB & WB). pose proof (same_w A B HA HB Ef) as Ew. unfold mzed_concat.
  destruct C as [C|].
  - destruct (HC C eq_refl) as [WC FC]. destruct (wf_dims C WC) as (RC & CC & _). pose proof (same_w C A WC HA FC) as Ew2. cbn [bind]. apply bind_die. unfold mzd_concat. apply checks_die.
    rewrite RA, RB, RC, CA, CB, CC, <- Ew, Ew2. destruct M as [M|(C0 & E & M)]; [lia|]. injection E as <-. destruct M as [M|M]; [lia|].
    rewrite <- Nat.mul_add_distr_l. assert (mz_w A * mz_ncols C <> mz_w A * (mz_ncols A + mz_ncols B)) by (intros X; apply Nat.mul_cancel_l in X; lia). lia.
  - destruct (wf_deg2 A HA) as [GA DA]. destruct (proj1 (wp_iff _ _) (mzed_init_ok (mz_ff A) (mz_nrows A) (mz_ncols A + mz_ncols B) GA DA)) as (D & E & _). rewrite E. cbn [bind]. apply bind_die. unfold mzd_concat. apply check_die.
    destruct M as [M|(C0 & X & _)]; [lia|discriminate X].
Qed.
Theorem C47_mzed_stack : forall C A B, wf_mzed A -> wf_mzed B -> fld A = fld B -> (forall C0, C = Some C0 -> wf_mzed C0 /\ fld C0 = fld A) ->
  mz_ncols A <> mz_ncols B \/ (exists C0, C = Some C0 /\ (mz_ncols C0 <> mz_ncols A \/ mz_nrows C0 <> mz_nrows A + mz_nrows B)) ->
  mzed_stack C A B = Die.
Proof.
  intros C A B HA HB Ef HC M. destruct (wf_dims A HA) as (RA & CA & WA). destruct (wf_dims B HB) as (RB & CB & WB). pose proof (same_w A B HA HB Ef) as Ew. unfold mzed_stack.
  assert (K : forall a b, a <> b -> mz_w A * a <> mz_w A * b) by (intros a b Hab X; apply Nat.mul_cancel_l in X; lia).
  destruct C as [C|].
  - destruct (HC C eq_refl) as [WC FC]. destruct (wf_dims C WC) as (RC & CC & _). pose proof (same_w C A WC HA FC) as Ew2. cbn [bind]. apply bind_die. unfold mzd_stack. apply checks_die.
    rewrite RA, RB, RC, CA, CB, CC, <- Ew, Ew2. destruct M as [M|(C0 & E & M)]; [specialize (K _ _ M); lia|]. injection E as <-. destruct M as [M|M]; [specialize (K _ _ M); lia|lia].
  - destruct (wf_deg2 A HA) as [GA DA]. destruct (proj1 (wp_iff _ _) (mzed_init_ok (mz_ff A) (mz_nrows A + mz_nrows B) (mz_ncols A) GA DA)) as (D & E & _). rewrite E. cbn [bind]. apply bind_die. unfold mzd_stack. apply check_die.
    destruct M as [M|(C0 & X & _)]; [|discriminate X]. rewrite CA, CB, <- Ew. specialize (K _ _ M). lia.
Qed.
(** a target too small for the submatrix *)
Theorem C47_mzed_submatrix : forall D M lr lc hr hc, wf_mzed M -> wf_mzed D -> fld D = fld M -> lr <= hr <= mz_nrows M -> lc <= hc <= mz_ncols M ->
  mz_nrows D < hr - lr \/ mz_ncols D < hc - lc -> mzed_submatrix (Some D) M lr lc hr hc = Die.
Proof.
  intros D M lr lc hr hc HM HD Ef Hr Hc Mm. destruct (wf_dims M HM) as (RM & CM & WM). destruct (wf_dims D HD) as (RD & CD & WD). pose proof (same_w D M HD HM Ef) as Ew. unfold mzed_submatrix. cbn [bind]. apply bind_die. unfold mzd_submatrix.
  assert (B1 : hc * mz_w M <= mz_w M * mz_ncols M) by (rewrite Nat.mul_comm; now apply Nat.mul_le_mono_l). assert (B2 : lc * mz_w M <= hc * mz_w M) by now apply Nat.mul_le_mono_r.
  rewrite RM, CM, RD, CD, Ew. match goal with |- (_ <- guard ?b ;; _) = _ => replace b with true by lia end. cbn [guard bind]. apply check_die. rewrite <- Nat.mul_sub_distr_r.
  destruct Mm as [Mm|Mm]; [lia|]. assert (mz_w M * mz_ncols D < (hc - lc) * mz_w M) by (rewrite Nat.mul_comm; apply Nat.mul_lt_mono_pos_r; lia). lia.
Qed.
(** the fields are not: matrices over different fields with elements of the same width are glued together, the
    entries of B become other elements *)
Theorem C47_concat_fields_refuted : ~ (forall A B, wf_mzed A -> wf_mzed B -> fld A <> fld B -> mzed_concat None A B = Die).
Proof.
  intros H. destruct (mk_realises 11 1 1 (fun _ _ => 1%N)) as (A & EA & HA); [vm_compute; split; discriminate|intros; now vm_compute|]. destruct (mk_realises 19 1 1 (fun _ _ => 9%N)) as (B & EB & HB); [vm_compute; split; discriminate|intros; now vm_compute|].
  specialize (H A B (proj1 HA) (proj1 HB)). assert (E : fld A <> fld B) by (destruct HA as (_ & -> & _); destruct HB as (_ & -> & _); discriminate). specialize (H E). clear HA HB E.
  vm_compute in EA. injection EA as <-. vm_compute in EB. injection EB as <-. vm_compute in H. discriminate H.
Qed.
Theorem C47_stack_fields_refuted : ~ (forall A B, wf_mzed A -> wf_mzed B -> fld A <> fld B -> mzed_stack None A B = Die).
Proof.
  intros H. destruct (mk_realises 11 1 1 (fun _ _ => 1%N)) as (A & EA & HA); [vm_compute; split; discriminate|intros; now vm_compute|]. destruct (mk_realises 19 1 1 (fun _ _ => 9%N)) as (B & EB & HB); [vm_compute; split; discriminate|intros; now vm_compute|].
  specialize (H A B (proj1 HA) (proj1 HB)). assert (E : fld A <> fld B) by (destruct HA as (_ & -> & _); destruct HB as (_ & -> & _); discriminate). specialize (H E). clear HA HB E.
  vm_compute in EA. injection EA as <-. vm_compute in EB. injection EB as <-. vm_compute in H. discriminate H.
Qed.

(** ** C47, sliced matrices *)
Theorem C47_slice_add : forall C A B, sadd_mismatch C A B -> mzd_slice_add C A B = Die.
Proof.
  intros C A B M. unfold mzd_slice_add, sl_same_ff. destruct C as [C|].
  - destruct M as [M|[M|[M|(C0 & E & M)]]]; try (apply check_die; lia). injection E as <-.
    destruct (check _) as [u| |] eqn:Ec; cbn [bind]; [|reflexivity|now destruct (_ && _) in Ec]. rewrite check_die by lia. reflexivity.
  - destruct M as [M|[M|[M|(C0 & E & M)]]]; [| | |discriminate E]; apply check_die; lia.
Qed.
Theorem C47_slice_mul : forall C A B, smul_mismatch C A B -> mzd_slice_mul_karatsuba C A B = Die /\ (C <> None -> mzd_slice_addmul_karatsuba C A B = Die).
Proof.
  intros C A B M. unfold mzd_slice_mul_karatsuba, mzd_slice_addmul_karatsuba, sl_same_ff. destruct C as [C|].
  - split; [|intros _]; apply checks_die; (destruct M as [M|[M|(C0 & E & M)]]; [lia|lia|]; injection E as <-; lia).
  - split; [|easy]. apply check_die. destruct M as [M|[M|(C0 & E & M)]]; [lia|lia|discriminate E].
Qed.
Theorem C47_slice_mul_blm : forall fuel x C A B f, smul_mismatch C A B -> mzd_slice_mul_blm fuel x C A B f = Some Die /\ (C <> None -> mzd_slice_addmul_blm fuel x C A B f = Some Die).
Proof.
  intros fuel x C A B f M. unfold mzd_slice_mul_blm, mzd_slice_addmul_blm, sl_same_ff. destruct C as [C|].
  - split; [|intros _]; apply orun_die.
    + apply checks_die. destruct M as [M|[M|(C0 & E & M)]]; [lia|lia|]; injection E as <-; lia.
    + destruct M as [M|[M|(C0 & E & M)]]; try (apply check_die; lia). injection E as <-. destruct (check ((sl_ncols A =? _) && _)) eqn:E; cbn [bind]; [|easy|now destruct (_ && _) in E].
      match goal with |- check ?b = Die => replace b with false by lia end. reflexivity.
  - split; [|easy]. apply orun_die. apply check_die. destruct M as [M|[M|(C0 & E & M)]]; [lia|lia|discriminate E].
Qed.

(** the slices are handled one by one, the first already stops the program *)
Lemma each_die n op x : 0 < n -> 0 < length x -> op 0 (nth 0 x (Mzd 0 0 [])) = Die -> sl_each n op x = Die.
Proof. intros Hn Hl E. unfold sl_each, for_. destruct n as [|n]; [lia|]. rewrite Nat.sub_0_r. cbn [forloop]. rewrite (lget_ok x 0 (Mzd 0 0 [])) by exact Hl. cbn [bind]. rewrite E. reflexivity. Qed.
Definition sdims_ok (C : option slice) (A : slice) : Prop := forall C0, C = Some C0 -> wf_slice C0 /\ sfld C0 = sfld A.
Lemma or_init_first C A m n : wf_slice A -> sdims_ok C A -> let D := sl_or_init C (sl_ff A) m n in
  wf_slice D /\ 0 < sl_depth D /\ length (sl_x D) = sl_depth D /\ mzd_nrows (sx D 0) = sl_nrows D /\ mzd_ncols (sx D 0) = sl_ncols D.
Proof.
  intros HA HC D. assert (W : wf_slice D).
  { unfold D, sl_or_init. destruct C as [C|]; [now apply HC|]. pose proof HA as (G & _). exact (proj1 (slice_init_ok (sl_ff A) m n G)). }
  pose proof (wfs_depth D W) as Hd. pose proof W as (_ & _ & L & K). destruct (K 0 ltac:(lia)) as (_ & R1 & C1). repeat (split; [assumption || lia|]). exact C1.
Qed.
Theorem C47_slice_concat : forall C A B, wf_slice A -> wf_slice B -> sdims_ok C A ->
  sl_nrows A <> sl_nrows B \/ (exists C0, C = Some C0 /\ (sl_nrows C0 <> sl_nrows A \/ sl_ncols C0 <> sl_ncols A + sl_ncols B)) ->
  mzd_slice_concat C A B = Die.
Proof.
  intros C A B HA HB HC M. unfold mzd_slice_concat, sl_map_n. destruct (or_init_first C A (sl_nrows A) (sl_ncols A + sl_ncols B) HA HC) as (WD & HD & LD & RD & CD). set (D := sl_or_init _ _ _ _) in *.
  pose proof (wfs_depth A HA) as DA. pose proof HA as (_ & _ & LA & KA). pose proof (wfs_depth B HB) as DB. pose proof HB as (_ & _ & LB & KB). destruct (KA 0 ltac:(lia)) as (_ & RA & CA). destruct (KB 0 ltac:(lia)) as (_ & RB & CB).
  apply bind_die. apply each_die; [lia|lia|]. rewrite (lget_ok (sl_x A) 0 (Mzd 0 0 [])), (lget_ok (sl_x B) 0 (Mzd 0 0 [])) by lia. cbn [bind]. unfold mzd_concat. apply checks_die.
  unfold sx in RA, RB, CA, CB, RD, CD. rewrite RA, RB, CA, CB, RD, CD.
  destruct M as [M|(C0 & E & M)]; [lia|]. assert (ED : D = C0) by (unfold D; now rewrite E). rewrite ED. lia.
Qed.
Theorem C47_slice_stack : forall C A B, wf_slice A -> wf_slice B -> sdims_ok C A ->
  sl_ncols A <> sl_ncols B \/ (exists C0, C = Some C0 /\ (sl_ncols C0 <> sl_ncols A \/ sl_nrows C0 <> sl_nrows A + sl_nrows B)) ->
  mzd_slice_stack C A B = Die.
Proof.
  intros C A B HA HB HC M. unfold mzd_slice_stack, sl_map_n. destruct (or_init_first C A (sl_nrows A + sl_nrows B) (sl_ncols A) HA HC) as (WD & HD & LD & RD & CD). set (D := sl_or_init _ _ _ _) in *.
  pose proof (wfs_depth A HA) as DA. pose proof HA as (_ & _ & LA & KA). pose proof (wfs_depth B HB) as DB. pose proof HB as (_ & _ & LB & KB). destruct (KA 0 ltac:(lia)) as (_ & RA & CA). destruct (KB 0 ltac:(lia)) as (_ & RB & CB).
  apply bind_die. apply each_die; [lia|lia|]. rewrite (lget_ok (sl_x A) 0 (Mzd 0 0 [])), (lget_ok (sl_x B) 0 (Mzd 0 0 [])) by lia. cbn [bind]. unfold mzd_stack. apply checks_die.
  unfold sx in RA, RB, CA, CB, RD, CD. rewrite RA, RB, CA, CB, RD, CD.
  destruct M as [M|(C0 & E & M)]; [lia|]. assert (ED : D = C0) by (unfold D; now rewrite E). rewrite ED. lia.
Qed.
Theorem C47_slice_submatrix : forall S0 A lr lc hr hc, wf_slice A -> wf_slice S0 -> sfld S0 = sfld A -> lr <= hr <= sl_nrows A -> lc <= hc <= sl_ncols A ->
  sl_nrows S0 < hr - lr \/ sl_ncols S0 < hc - lc -> mzd_slice_submatrix (Some S0) A lr lc hr hc = Die.
Proof.
  intros D A lr lc hr hc HA WD Ef Hr Hc M. unfold mzd_slice_submatrix, sl_map_n. cbn [sl_or_init]. pose proof (wfs_depth D WD) as HD. pose proof WD as (_ & _ & LD & KD). destruct (KD 0 ltac:(lia)) as (_ & RD & CD).
  pose proof (wfs_depth A HA) as DA. pose proof HA as (_ & _ & LA & KA). destruct (KA 0 ltac:(lia)) as (_ & RA & CA). apply bind_die. apply each_die; [lia|lia|]. rewrite (lget_ok (sl_x A) 0 (Mzd 0 0 [])) by lia. cbn [bind]. unfold mzd_submatrix.
  unfold sx in RA, CA, RD, CD. rewrite RA, CA, RD, CD. match goal with |- (_ <- guard ?b ;; _) = _ => replace b with true by lia end. cbn [guard bind]. apply check_die. lia.
Qed.

(** ** the triangular solvers and the inversion only assert: no result, but no message either when assertions are off *)
Definition solve_mismatch (T B : mzed) : Prop := mz_nrows T <> mz_ncols T \/ mz_nrows B <> mz_ncols T \/ ff_minpoly (mz_ff T) <> ff_minpoly (mz_ff B).
Definition ssolve_mismatch (T B : slice) : Prop := sl_nrows T <> sl_ncols T \/ sl_nrows B <> sl_ncols T \/ ff_minpoly (sl_ff T) <> ff_minpoly (sl_ff B).
Lemma guard_ub {X} b (k : unit -> res X) : b = false -> bind (guard b) k = UB.
Proof. now intros ->. Qed.
Theorem C47_mzed_trsm : forall T B mulbs l2 cutoff, solve_mismatch T B ->
  mzed_trsm_lower_left_naive T B = UB /\ mzed_trsm_upper_left_naive T B = UB /\ mzed_trsm_lower_left_newton_john T B = UB /\ mzed_trsm_upper_left_newton_john T B = UB /\
  mzed_trsm_lower_left_ mulbs l2 T B cutoff = UB /\ mzed_trsm_upper_left_ mulbs l2 T B cutoff = UB.
Proof.
  intros T B mulbs l2 cutoff M. assert (E : trsm_assert T B = false) by (unfold trsm_assert, same_ff; unfold solve_mismatch in M; lia).
  unfold mzed_trsm_lower_left_, mzed_trsm_upper_left_. cbn [trsm_lower trsm_upper]. repeat split; now apply guard_ub.
Qed.
Theorem C47_slice_trsm : forall T B cutoff, ssolve_mismatch T B ->
  mzd_slice_trsm_lower_left_naive T B = UB /\ mzd_slice_trsm_upper_left_naive T B = UB /\ mzd_slice_trsm_lower_left_newton_john T B = UB /\ mzd_slice_trsm_upper_left_newton_john T B = UB /\
  mzd_slice_trsm_lower_left_ T B cutoff = UB /\ mzd_slice_trsm_upper_left_ T B cutoff = UB.
Proof.
  intros T B cutoff M. assert (E : strsm_assert T B = false) by (unfold strsm_assert, sl_same_ff; unfold ssolve_mismatch in M; lia).
  unfold mzd_slice_trsm_lower_left_, mzd_slice_trsm_upper_left_. cbn [strsm_lower strsm_upper]. repeat split; now apply guard_ub.
Qed.
Theorem C47_mzed_invert : forall k0 B A, mz_nrows A <> mz_ncols A -> mzed_invert_newton_john k0 B A = UB.
Proof. intros k0 B A M. apply guard_ub. lia. Qed.

(** ** concrete mismatches *)
Definition guard_demo (f : mzed -> mzed -> mzed -> mzed -> bool) : bool :=
  match mk 19 2 3 (noise 3 5), mk 19 3 2 (noise 1 7), mk 37 3 2 (noise 1 1), mk 19 2 3 (noise 0 0) with
  | Ok A, Ok B, Ok B', Ok C => f A B B' C
  | _, _, _, _ => false
  end.
Definition dies {X} (r : res X) : bool := match r with Die => true | _ => false end.
Example C47_witness : guard_demo (fun A B B' C =>
  dies (mzed_mul_naive None A A) && dies (mzed_mul_naive None A B') && dies (mzed_mul_naive (Some C) A B) && dies (mzed_add None A B) && dies (mzed_concat None A B) && dies (mzed_stack None A B) &&
  negb (dies (mzed_mul_naive None A B))) = true.
Proof. vm_compute. reflexivity. Qed.

Print Assumptions C47_mzed_add.
Print Assumptions C47_mzed_mul_naive.
Print Assumptions C47_mzed_mul_newton_john.
Print Assumptions C47_mzed_mul_strassen.
Print Assumptions C47_mzed_mul.
Print Assumptions C47_mzed_mul_karatsuba.
Print Assumptions C47_mzed_mul_blm.
Print Assumptions C47_mzed_copy.
Print Assumptions C47_mzed_concat.
Print Assumptions C47_mzed_stack.
Print Assumptions C47_mzed_submatrix.
Print Assumptions C47_concat_fields_refuted.
Print Assumptions C47_stack_fields_refuted.
Print Assumptions C47_slice_add.
Print Assumptions C47_slice_concat.
Print Assumptions C47_slice_stack.
Print Assumptions C47_slice_submatrix.
Print Assumptions C47_slice_mul.
Print Assumptions C47_slice_mul_blm.
Print Assumptions C47_mzed_trsm.
Print Assumptions C47_slice_trsm.
Print Assumptions C47_mzed_invert.
