(** C62: the products of every size with one matrix, or overlapping windows of one matrix, as both factors. *)
From Coq Require Import NArith ZArith Lia List Bool Arith.
From Coq Require Import ZifyBool ZifyNat ZifyN.
From Verif Require Import Base Spec LinSpec PolyFacts MatFacts Gf2xModel Gf2eModel Gf2eProofs.
From Verif Require Import MzdModel MzedModel MzedSpec LaneFacts MzedProofs MzedOps MzedOps2 NjModel NjMul StrassenModel StrassenProofs StrassenMain Demo.
From Verif Require Import AliasRows SliceModel SliceSpec KaraModel ConvModel ConvCling MulModel MulProofs PropMul AliasModel AliasProofs AliasStrassenModel AliasStrassen AliasStrassen2 AliasStrassen3 PropAlias PropAlias2.
Import ListNotations.
Local Open Scope nat_scope.

Lemma whole_wrote h p C F h' : at_ h p C -> wf_mzed C -> wrote h (whole p C) F h' -> exists C', only h p C' h' /\ becomes C C' F.
Proof.
  intros Ec HC (L & Q & X & Y & E1 & E2 & B). unfold at_ in Ec. cbn [whole v_at] in *. assert (X = C) as -> by congruence. exists Y. split; [split; [exact L|split; [exact E2|exact Q]]|].
  eapply becomes_ext; [exact B|]. cbv beta. intros i j Hi Hj. unfold patch. cbn [whole v_lr v_hr v_lc v_hc]. replace (_ && _ && _ && _) with true by lia. now rewrite !Nat.sub_0_r.
Qed.
(** clearing the target *)
Lemma cleared_distinct h pc pa pb C A B : product_args h pc pa pb C A B -> pc <> pa -> pc <> pb ->
  exists C1, mzed_mul_init_at h pc pa pb true = Ok (upd h pc C1) /\ becomes C C1 mzero /\
    lget (upd h pc C1) pc = Ok C1 /\ lget (upd h pc C1) pa = Ok A /\ lget (upd h pc C1) pb = Ok B /\
    vh (upd h pc C1) (whole pc C1) (fld A) (mz_nrows A) (mz_ncols B) mzero /\
    vh (upd h pc C1) (whole pa A) (fld A) (mz_nrows A) (mz_ncols A) (entry A) /\
    vh (upd h pc C1) (whole pb B) (fld A) (mz_ncols A) (mz_ncols B) (entry B).
Proof.
  intros (Ec & Ea & Eb & HC & HA & HB & F1 & F2 & E1 & E2 & E3 & Hn) Na Nb. unfold at_ in *.
  destruct (proj1 (wp_iff _ _) (mzed_mul_init_ok (Some C) A B true HA HB F1 E1 (conj HC (conj F2 (conj E2 E3))) (@Ok mzed)
              (fun D => becomes C D mzero) ltac:(intros D _ _ _ _ _ _ H; exact (H C eq_refl)))) as (C1 & E & BC).
  assert (E' : mzed_mul_init (Some C) A B true = Ok C1) by (revert E; destruct (mzed_mul_init (Some C) A B true); cbn [bind]; congruence).
  pose proof (becomes_holds _ _ _ BC) as KC. rewrite F2, E2, E3 in KC.
  assert (NC : nth_error (upd h pc C1) pc = Some C1) by now apply (stored_upd_eq h pc C).
  assert (NA' : nth_error (upd h pc C1) pa = Some A) by (rewrite (stored_upd_ne h pc pa C C1); auto).
  assert (NB' : nth_error (upd h pc C1) pb = Some B) by (rewrite (stored_upd_ne h pc pb C C1); auto).
  exists C1. split.
  { unfold mzed_mul_init_at. rewrite (lget_stored _ _ _ Ec), (lget_stored _ _ _ Ea), (lget_stored _ _ _ Eb). cbn [bind]. rewrite E'. cbn [bind]. now rewrite (lset_stored _ _ _ _ Ec). }
  split; [exact BC|]. split; [now apply lget_stored|]. split; [now apply lget_stored|]. split; [now apply lget_stored|].
  unfold whole. rewrite (becomes_nr _ _ _ BC), (becomes_nc _ _ _ BC), E2, E3. rewrite <- E1 at 1.
  split; [now apply (vh_whole _ _ C1)|]. split; [apply (vh_whole _ _ A _ _ _ _ NA'); now apply holds_self|].
  apply (vh_whole _ _ B _ _ _ _ NB'). rewrite F1, E1. now apply holds_self.
Qed.

(** C = A*B through pointers, the target another object than the factors; the factors may be one object.  For
    every size, Karatsuba and the recursion of Strassen included; no other object is written. *)
Theorem C62_mul_at : forall mulbs l2 h pc pa pb C A B, 16 <= mulbs -> (4096 <= l2)%Z ->
  product_args h pc pa pb C A B -> pc <> pa -> pc <> pb ->
  exists h' C', mzed_mul_at mulbs l2 h pc pa pb = Ok h' /\ only h pc C' h' /\
    becomes C C' (mmul (ff_minpoly (mz_ff A)) (mz_ncols A) (entry A) (entry B)).
Proof.
  intros mulbs l2 h pc pa pb C A B Hb Hl HP Na Nb. pose proof HP as (Ec & _ & _ & HC & HA & HB & F1 & F2 & E1 & E2 & E3 & Hn).
  destruct (cleared_distinct _ _ _ _ _ _ _ HP Na Nb) as (C1 & EI & BC & GC & GA & GB & VC & VA & VB).
  unfold mzed_mul_at. rewrite EI. cbn [bind]. unfold vmul_. rewrite GC, GA, GB. cbn [bind].
  pose proof (becomes_wf _ _ _ BC) as W1. pose proof (becomes_nr _ _ _ BC) as R1. pose proof (becomes_nc _ _ _ BC) as Q1. pose proof (becomes_ff _ _ _ BC) as T1.
  assert (S1 : at_ (upd h pc C1) pc C1) by (apply (stored_upd_eq h pc C); exact Ec).
  destruct (mul_big A B).
  - assert (K : wp (mzed_addmul_karatsuba_ (Some C1) A B) (fun C' => becomes C C' (mmul (fld A) (mz_ncols A) (entry A) (entry B)))).
    { eapply wp_mono; [apply (mzed_addmul_karatsuba_in_ok (Some C1)); try congruence; auto; split; [exact W1|split; [congruence|split; congruence]]|].
      cbv beta iota. intros C' (_ & B'). eapply becomes_step; [exact BC|exact B'|]. intros i j Hi Hj. unfold madd.
      rewrite (becomes_entry _ _ _ _ _ BC) by auto. apply N.lxor_0_l. }
    apply wp_iff in K as (C' & -> & BC'). cbn [bind]. rewrite (lset_stored _ _ C1); [|exact S1]. rewrite upd_upd.
    exists (upd h pc C'), C'. split; [reflexivity|]. split; [now apply (only_upd h pc C)|exact BC'].
  - destruct (vmul_strassen_wr mulbs (mzed_strassen_cutoff l2 A) Hb (strassen_fuel A B) (upd h pc C1) (whole pc C1) (whole pa A) (whole pb B) (fld A) (mz_nrows A) (mz_ncols A) (mz_ncols B) mzero (entry A) (entry B) A)
      as (h' & -> & W); auto.
    + unfold ok_cut. now apply strassen_cutoff_ok.
    + destruct (whole_wrote _ _ _ _ _ S1 W1 W) as (C' & (O1 & O2 & O3) & BC'). exists h', C'. split; [reflexivity|]. split.
      * split; [rewrite O1; apply upd_length|]. split; [exact O2|]. intros q Hq. rewrite O3 by exact Hq. rewrite (stored_upd_ne h pc q C C1); auto.
      * eapply becomes_step; [exact BC|exact BC'|]. intros; reflexivity.
Qed.
Print Assumptions C62_mul_at.

(** The algorithms called directly. *)
Theorem C62_mul_strassen_at : forall mulbs cutoff h pc pa pb C A B, 16 <= mulbs -> (3 * Z.of_nat (64 / mz_w A) <= 2 * cutoff)%Z ->
  product_args h pc pa pb C A B -> pc <> pa -> pc <> pb ->
  exists h' C', mzed_mul_strassen_at mulbs h pc pa pb cutoff = Ok h' /\ only h pc C' h' /\
    becomes C C' (mmul (ff_minpoly (mz_ff A)) (mz_ncols A) (entry A) (entry B)).
Proof.
  intros mulbs cutoff h pc pa pb C A B Hb Hl HP Na Nb. pose proof HP as (Ec & _ & _ & HC & HA & HB & F1 & F2 & E1 & E2 & E3 & Hn).
  destruct (cleared_distinct _ _ _ _ _ _ _ HP Na Nb) as (C1 & EI & BC & GC & GA & GB & VC & VA & VB).
  unfold mzed_mul_strassen_at. rewrite EI. cbn [bind]. rewrite GC, GA, GB. cbn [bind].
  assert (S1 : at_ (upd h pc C1) pc C1) by (apply (stored_upd_eq h pc C); exact Ec).
  destruct (vmul_strassen_wr mulbs cutoff Hb (strassen_fuel A B) (upd h pc C1) (whole pc C1) (whole pa A) (whole pb B) (fld A) (mz_nrows A) (mz_ncols A) (mz_ncols B) mzero (entry A) (entry B) A)
    as (h' & -> & W); auto.
  - destruct (whole_wrote _ _ _ _ _ S1 (becomes_wf _ _ _ BC) W) as (C' & (O1 & O2 & O3) & BC'). exists h', C'. split; [reflexivity|]. split.
    + split; [rewrite O1; apply upd_length|]. split; [exact O2|]. intros q Hq. rewrite O3 by exact Hq. rewrite (stored_upd_ne h pc q C C1); auto.
    + eapply becomes_step; [exact BC|exact BC'|]. intros; reflexivity.
Qed.
Print Assumptions C62_mul_strassen_at.
Theorem C62_mul_newton_john_at : forall mulbs h pc pa pb C A B, 16 <= mulbs ->
  product_args h pc pa pb C A B -> pc <> pa -> pc <> pb ->
  exists h' C', mzed_mul_newton_john_at mulbs h pc pa pb = Ok h' /\ only h pc C' h' /\
    becomes C C' (mmul (ff_minpoly (mz_ff A)) (mz_ncols A) (entry A) (entry B)).
Proof.
  intros mulbs h pc pa pb C A B Hb HP Na Nb. pose proof HP as (Ec & _ & _ & HC & HA & HB & F1 & F2 & E1 & E2 & E3 & Hn).
  destruct (cleared_distinct _ _ _ _ _ _ _ HP Na Nb) as (C1 & EI & BC & GC & GA & GB & VC & VA & VB).
  unfold mzed_mul_newton_john_at. rewrite EI. cbn [bind]. rewrite GC, GA, GB. cbn [bind].
  assert (S1 : at_ (upd h pc C1) pc C1) by (apply (stored_upd_eq h pc C); exact Ec).
  destruct (vnj_wr mulbs (upd h pc C1) (whole pc C1) (whole pa A) (whole pb B) (fld A) (mz_nrows A) (mz_ncols A) (mz_ncols B) mzero (entry A) (entry B))
    as (h' & -> & W); auto.
  destruct (whole_wrote _ _ _ _ _ S1 (becomes_wf _ _ _ BC) W) as (C' & (O1 & O2 & O3) & BC'). exists h', C'. split; [reflexivity|]. split.
  - split; [rewrite O1; apply upd_length|]. split; [exact O2|]. intros q Hq. rewrite O3 by exact Hq. rewrite (stored_upd_ne h pc q C C1); auto.
  - eapply becomes_step; [exact BC|exact BC'|]. intros i j Hi Hj. unfold madd, mzero. apply N.lxor_0_l.
Qed.
Print Assumptions C62_mul_newton_john_at.

(** Windows: the view v is a window of the object at [v_at v], columns from a word boundary on, over the field f,
    m x n, with entries F. *)
Definition window_holds (h : store) (v : view) (f : N) (m n : nat) (F : mat) : Prop :=
  exists X, at_ h (v_at v) X /\ wf_mzed X /\ ff_minpoly (mz_ff X) = f /\
    v_lr v <= v_hr v <= mz_nrows X /\ v_lc v <= v_hc v <= mz_ncols X /\ (mz_w X * v_lc v) mod 64 = 0 /\
    m = v_hr v - v_lr v /\ n = v_hc v - v_lc v /\ forall i j, i < m -> j < n -> F i j = entry X (v_lr v + i) (v_lc v + j).
(** Only the object of the window is written, and of it only the window: *)
Definition window_written (h : store) (v : view) (F : mat) (h' : store) : Prop :=
  exists X Y, at_ h (v_at v) X /\ only h (v_at v) Y h' /\
    becomes X Y (fun i j => if (v_lr v <=? i) && (i <? v_hr v) && (v_lc v <=? j) && (j <? v_hc v) then F (i - v_lr v) (j - v_lc v) else entry X i j).
Lemma window_vh h v f m n F : window_holds h v f m n F -> vh h v f m n F.
Proof.
  intros (X & E & W & F0 & R & C & M & -> & -> & Z). exists X. split; [exact E|]. split; [exact W|]. split; [exact F0|]. split; [exact R|]. split; [exact C|]. split.
  - clear - M W. pose proof (wf_good X W) as G. unfold good_w, per in *. destruct G as [G|[G|[G|G]]]; rewrite G in *.
    + change (64 / 2) with 32. pose proof (Nat.div_mod (2 * v_lc v) 64 ltac:(lia)). apply Nat.mod_divide; [lia|]. exists (2 * v_lc v / 64). lia.
    + change (64 / 4) with 16. pose proof (Nat.div_mod (4 * v_lc v) 64 ltac:(lia)). apply Nat.mod_divide; [lia|]. exists (4 * v_lc v / 64). lia.
    + change (64 / 8) with 8. pose proof (Nat.div_mod (8 * v_lc v) 64 ltac:(lia)). apply Nat.mod_divide; [lia|]. exists (8 * v_lc v / 64). lia.
    + change (64 / 16) with 4. pose proof (Nat.div_mod (16 * v_lc v) 64 ltac:(lia)). apply Nat.mod_divide; [lia|]. exists (16 * v_lc v / 64). lia.
  - split; [reflexivity|]. split; [reflexivity|]. intros i j Hi Hj. symmetry. now apply Z.
Qed.
Lemma wrote_window h v F h' : wrote h v F h' -> window_written h v F h'.
Proof. intros (L & Q & X & Y & E1 & E2 & B). exists X, Y. split; [exact E1|]. split; [split; [exact L|split; [exact E2|exact Q]]|exact B]. Qed.

(** The kernels on windows: the factors may be windows of one matrix and may overlap in any way, as long as the target
    is a window of another matrix.  Strassen overwrites the target, Newton-John adds to it. *)
Theorem C62_strassen_windows : forall mulbs cutoff h vC vA vB f m k n E FA FB, 16 <= mulbs -> 0 < n ->
  (forall X, at_ h (v_at vA) X -> (3 * Z.of_nat (64 / mz_w X) <= 2 * cutoff)%Z) ->
  window_holds h vC f m n E -> window_holds h vA f m k FA -> window_holds h vB f k n FB -> v_at vA <> v_at vC -> v_at vB <> v_at vC ->
  exists h', vmul_strassen mulbs (S (m + n)) h vC vA vB cutoff = Ok h' /\ window_written h vC (mmul f k FA FB) h'.
Proof.
  intros mulbs cutoff h vC vA vB f m k n E FA FB Hb Hn Hl HC HA HB Na Nb. pose proof HA as (X & AX & WX & FX & _).
  assert (OC : ok_cut cutoff X) by exact (Hl X AX).
  destruct (vmul_strassen_wr mulbs cutoff Hb (S (m + n)) h vC vA vB f m k n E FA FB X (Nat.lt_succ_diag_r _) Hn WX FX OC (window_vh _ _ _ _ _ _ HC) (window_vh _ _ _ _ _ _ HA) (window_vh _ _ _ _ _ _ HB) Na Nb) as (h' & E' & W).
  exists h'. split; [exact E'|now apply wrote_window].
Qed.
Print Assumptions C62_strassen_windows.
Theorem C62_newton_john_windows : forall mulbs h vC vA vB f m k n E FA FB, 16 <= mulbs -> 0 < n ->
  window_holds h vC f m n E -> window_holds h vA f m k FA -> window_holds h vB f k n FB -> v_at vA <> v_at vC -> v_at vB <> v_at vC ->
  exists h', vmul_nj mulbs h vC vA vB = Ok h' /\ window_written h vC (madd E (mmul f k FA FB)) h'.
Proof.
  intros mulbs h vC vA vB f m k n E FA FB Hb Hn HC HA HB Na Nb.
  destruct (vnj_wr mulbs h vC vA vB f m k n E FA FB Hb Hn (window_vh _ _ _ _ _ _ HC) (window_vh _ _ _ _ _ _ HA) (window_vh _ _ _ _ _ _ HB) Na Nb) as (h' & E' & W).
  exists h'. split; [exact E'|now apply wrote_window].
Qed.
Print Assumptions C62_newton_john_windows.

(** Reachable: the factors are two overlapping 40 x 40 windows of one 41 x 56 matrix over GF(8) (rows 0-39 from column 0,
    rows 1-40 from column 16), the target a window of another; the step of Strassen recurses.  The hypotheses hold, and the
    product read from the target is the one of the copied windows. *)
Definition eqrows (a b : list (list N)) : bool := if list_eq_dec (list_eq_dec N.eq_dec) a b then true else false.
Example C62_windows_witness :
  (X <- mk 0xb 41 56 (noise 3 1) ;; C <- mk 0xb 42 60 (noise 1 1) ;;
   let vA := View 1 0 0 40 40 in let vB := View 1 1 16 41 56 in let vC := View 0 2 16 42 56 in
   A <- mzed_window X 0 0 40 40 ;; B <- mzed_window X 1 16 41 56 ;; P <- mzed_mul 16 256 None A B ;;
   h <- vmul_strassen 16 81 [C; X] vC vA vB 24 ;; V <- vget h vC ;; X' <- lget h 1 ;; C' <- lget h 0 ;;
   Ok (strassen_small A B 24, (3 * Z.of_nat (64 / mz_w X) <=? 2 * 24)%Z, (mz_w X * 16) mod 64, nonzero (Ok (to_rows P)), eqrows (to_rows V) (to_rows P),
       eqrows (to_rows X') (to_rows X), eqrows (firstn 2 (to_rows C')) (firstn 2 (to_rows C)), eqrows (to_rows C') (to_rows C), length h))
  = Ok (false, true, 0, true, true, true, true, false, 2).
Proof. vm_compute. reflexivity. Qed.
