(** C62: adding a product to a third matrix, every size, with one matrix or overlapping windows of one matrix as both factors. *)
From Coq Require Import NArith ZArith Lia List Bool Arith.
From Coq Require Import ZifyBool ZifyNat ZifyN.
From Verif Require Import Base Spec LinSpec PolyFacts MatFacts Gf2xModel Gf2eModel Gf2eProofs.
From Verif Require Import MzdModel MzedModel MzedSpec LaneFacts MzedProofs MzedOps MzedOps2 NjModel NjMul StrassenModel StrassenProofs StrassenMain Demo.
From Verif Require Import AliasRows SliceModel SliceSpec KaraModel ConvModel ConvCling MulModel MulProofs PropMul AliasModel AliasProofs AliasStrassenModel AliasStrassen AliasStrassen2 AliasStrassen3 AliasAddmulModel AliasAddmul PropAlias PropAlias2 PropAlias3.
Import ListNotations.
Local Open Scope nat_scope.

(** the size and field checks leave the store as it is *)
Lemma checked_distinct h pc pa pb C A B : product_args h pc pa pb C A B ->
  mzed_mul_init_at h pc pa pb false = Ok h /\ lget h pc = Ok C /\ lget h pa = Ok A /\ lget h pb = Ok B /\
    vh h (whole pc C) (fld A) (mz_nrows A) (mz_ncols B) (entry C) /\
    vh h (whole pa A) (fld A) (mz_nrows A) (mz_ncols A) (entry A) /\
    vh h (whole pb B) (fld A) (mz_ncols A) (mz_ncols B) (entry B).
Proof.
  intros (Ec & Ea & Eb & HC & HA & HB & F1 & F2 & E1 & E2 & E3 & Hn). unfold at_ in *.
  destruct (proj1 (wp_iff _ _) (mzed_mul_init_ok (Some C) A B false HA HB F1 E1 (conj HC (conj F2 (conj E2 E3))) (@Ok mzed)
              (fun D => becomes C D (entry C)) ltac:(intros D _ _ _ _ _ _ H; exact (H C eq_refl)))) as (C1 & E & BC).
  assert (C1 = C) as -> by (apply becomes_id; auto).
  assert (E' : mzed_mul_init (Some C) A B false = Ok C) by (revert E; destruct (mzed_mul_init (Some C) A B false); cbn [bind]; congruence).
  split.
  { unfold mzed_mul_init_at. rewrite (lget_stored _ _ _ Ec), (lget_stored _ _ _ Ea), (lget_stored _ _ _ Eb). cbn [bind]. rewrite E'. cbn [bind]. rewrite (lset_stored _ _ _ _ Ec), (upd_stored _ _ _ Ec). reflexivity. }
  split; [now apply lget_stored|]. split; [now apply lget_stored|]. split; [now apply lget_stored|].
  unfold whole. rewrite E2, E3. rewrite <- E1 at 1.
  split; [apply (vh_whole _ _ C _ _ _ _ Ec); rewrite <- E2, <- E3, <- F2; now apply holds_self|].
  split; [apply (vh_whole _ _ A _ _ _ _ Ea); now apply holds_self|].
  apply (vh_whole _ _ B _ _ _ _ Eb). rewrite F1, E1. now apply holds_self.
Qed.

(** C += A*B through pointers, the target another object than the factors; the factors may be one object.  For every
    size, Karatsuba and the recursion of Strassen included; no other object is written. *)
Theorem C62_addmul_at : forall mulbs l2 h pc pa pb C A B, 16 <= mulbs -> (4096 <= l2)%Z ->
  product_args h pc pa pb C A B -> pc <> pa -> pc <> pb ->
  exists h' C', mzed_addmul_at mulbs l2 h pc pa pb = Ok h' /\ only h pc C' h' /\
    becomes C C' (madd (entry C) (mmul (ff_minpoly (mz_ff A)) (mz_ncols A) (entry A) (entry B))).
Proof.
  intros mulbs l2 h pc pa pb C A B Hb Hl HP Na Nb. pose proof HP as (Ec & _ & _ & HC & HA & HB & F1 & F2 & E1 & E2 & E3 & Hn).
  destruct (checked_distinct _ _ _ _ _ _ _ HP) as (EI & GC & GA & GB & VC & VA & VB).
  unfold mzed_addmul_at. rewrite EI. cbn [bind]. unfold vaddmul_. rewrite GC, GA, GB. cbn [bind].
  destruct (mul_big A B).
  - assert (K : wp (mzed_addmul_karatsuba_ (Some C) A B) (fun C' => becomes C C' (madd (entry C) (mmul (fld A) (mz_ncols A) (entry A) (entry B))))).
    { eapply wp_mono; [apply (mzed_addmul_karatsuba_in_ok (Some C)); try congruence; auto; split; [exact HC|split; [congruence|split; congruence]]|].
      cbv beta iota. intros C' (_ & B'). exact B'. }
    apply wp_iff in K as (C' & -> & BC'). cbn [bind]. rewrite (lset_stored _ _ C); [|exact Ec].
    exists (upd h pc C'), C'. split; [reflexivity|]. split; [now apply (only_upd h pc C)|exact BC'].
  - destruct (vaddmul_strassen_wr mulbs (mzed_strassen_cutoff l2 A) Hb (strassen_fuel A B) h (whole pc C) (whole pa A) (whole pb B) (fld A) (mz_nrows A) (mz_ncols A) (mz_ncols B) (entry C) (entry A) (entry B) A)
      as (h' & -> & W); auto.
    + unfold ok_cut. now apply strassen_cutoff_ok.
    + destruct (whole_wrote _ _ _ _ _ Ec HC W) as (C' & O & BC'). exists h', C'. split; [reflexivity|]. now split.
Qed.
Print Assumptions C62_addmul_at.

(** The algorithms called directly. *)
Theorem C62_addmul_strassen_at : forall mulbs cutoff h pc pa pb C A B, 16 <= mulbs -> (3 * Z.of_nat (64 / mz_w A) <= 2 * cutoff)%Z ->
  product_args h pc pa pb C A B -> pc <> pa -> pc <> pb ->
  exists h' C', mzed_addmul_strassen_at mulbs h pc pa pb cutoff = Ok h' /\ only h pc C' h' /\
    becomes C C' (madd (entry C) (mmul (ff_minpoly (mz_ff A)) (mz_ncols A) (entry A) (entry B))).
Proof.
  intros mulbs cutoff h pc pa pb C A B Hb Hl HP Na Nb. pose proof HP as (Ec & _ & _ & HC & HA & HB & F1 & F2 & E1 & E2 & E3 & Hn).
  destruct (checked_distinct _ _ _ _ _ _ _ HP) as (EI & GC & GA & GB & VC & VA & VB).
  unfold mzed_addmul_strassen_at. rewrite EI. cbn [bind]. rewrite GC, GA, GB. cbn [bind].
  destruct (vaddmul_strassen_wr mulbs cutoff Hb (strassen_fuel A B) h (whole pc C) (whole pa A) (whole pb B) (fld A) (mz_nrows A) (mz_ncols A) (mz_ncols B) (entry C) (entry A) (entry B) A)
    as (h' & -> & W); auto.
  destruct (whole_wrote _ _ _ _ _ Ec HC W) as (C' & O & BC'). exists h', C'. split; [reflexivity|]. now split.
Qed.
Print Assumptions C62_addmul_strassen_at.
Theorem C62_addmul_newton_john_at : forall mulbs h pc pa pb C A B, 16 <= mulbs ->
  product_args h pc pa pb C A B -> pc <> pa -> pc <> pb ->
  exists h' C', mzed_addmul_newton_john_at mulbs h pc pa pb = Ok h' /\ only h pc C' h' /\
    becomes C C' (madd (entry C) (mmul (ff_minpoly (mz_ff A)) (mz_ncols A) (entry A) (entry B))).
Proof.
  intros mulbs h pc pa pb C A B Hb HP Na Nb. pose proof HP as (Ec & _ & _ & HC & HA & HB & F1 & F2 & E1 & E2 & E3 & Hn).
  destruct (checked_distinct _ _ _ _ _ _ _ HP) as (EI & GC & GA & GB & VC & VA & VB).
  unfold mzed_addmul_newton_john_at. rewrite EI. cbn [bind]. rewrite GC, GA, GB. cbn [bind].
  destruct (vnj_wr mulbs h (whole pc C) (whole pa A) (whole pb B) (fld A) (mz_nrows A) (mz_ncols A) (mz_ncols B) (entry C) (entry A) (entry B))
    as (h' & -> & W); auto.
  destruct (whole_wrote _ _ _ _ _ Ec HC W) as (C' & O & BC'). exists h', C'. split; [reflexivity|]. now split.
Qed.
Print Assumptions C62_addmul_newton_john_at.

(** The kernel on windows: the factors may be windows of one matrix and may overlap in any way, as long as the target is a
    window of another matrix. *)
Theorem C62_addmul_strassen_windows : forall mulbs cutoff h vC vA vB f m k n E FA FB, 16 <= mulbs -> 0 < n ->
  (forall X, at_ h (v_at vA) X -> (3 * Z.of_nat (64 / mz_w X) <= 2 * cutoff)%Z) ->
  window_holds h vC f m n E -> window_holds h vA f m k FA -> window_holds h vB f k n FB -> v_at vA <> v_at vC -> v_at vB <> v_at vC ->
  exists h', vaddmul_strassen mulbs (S (m + n)) h vC vA vB cutoff = Ok h' /\ window_written h vC (madd E (mmul f k FA FB)) h'.
Proof.
  intros mulbs cutoff h vC vA vB f m k n E FA FB Hb Hn Hl HC HA HB Na Nb. pose proof HA as (X & AX & WX & FX & _).
  assert (OC : ok_cut cutoff X) by exact (Hl X AX).
  destruct (vaddmul_strassen_wr mulbs cutoff Hb (S (m + n)) h vC vA vB f m k n E FA FB X (Nat.lt_succ_diag_r _) Hn WX FX OC (window_vh _ _ _ _ _ _ HC) (window_vh _ _ _ _ _ _ HA) (window_vh _ _ _ _ _ _ HB) Na Nb) as (h' & E' & W).
  exists h'. split; [exact E'|now apply wrote_window].
Qed.
Print Assumptions C62_addmul_strassen_windows.

(** Reachable: C += X*X with one 41 x 41 matrix X over GF(8) as both factors; the step of Strassen recurses and leaves a row and
    a column over.  The sum read from the target is C + X*X computed from two copies; X is unchanged. *)
Example C62_addmul_witness :
  (X <- mk 0xb 41 41 (noise 3 1) ;; C <- mk 0xb 41 41 (noise 1 1) ;;
   P <- mzed_mul 16 256 None X X ;; R <- mzed_add None C P ;;
   h <- mzed_addmul_strassen_at 16 [C; X] 0 1 1 24 ;; X' <- lget h 1 ;; C' <- lget h 0 ;;
   Ok (strassen_small X X 24, half (mz_w X) 41, (3 * Z.of_nat (64 / mz_w X) <=? 2 * 24)%Z, nonzero (Ok (to_rows P)), eqrows (to_rows C') (to_rows R),
       eqrows (to_rows X') (to_rows X), eqrows (to_rows C') (to_rows C), length h))
  = Ok (false, 16, true, true, true, true, false, 2).
Proof. vm_compute. reflexivity. Qed.

(** The target a factor (C += C*B, C += A*C): right as long as the product is not cut up, that is when one dimension is
    small or all are at least 512 (the small case works in a copy of C, Karatsuba in sliced copies).  Any coincidence of
    the three pointers is allowed here. *)
Lemma small_dim a cutoff : (0 < 3 * Z.of_nat a < 4 * cutoff)%Z -> closer a (a / 2) cutoff = true.
Proof. intros H. unfold closer. pose proof (Nat.div_mod a 2 ltac:(lia)). pose proof (Nat.mod_upper_bound a 2 ltac:(lia)). lia. Qed.
Lemma vaddmul_small mulbs fuel h vC vA vB f m k n E FA FB cutoff A B : 16 <= mulbs -> 0 < n -> vh h vC f m n E -> vget h vA = Ok A -> vget h vB = Ok B ->
  holds A f m k FA -> holds B f k n FB -> strassen_small A B cutoff = true ->
  exists h', vaddmul_strassen mulbs (S fuel) h vC vA vB cutoff = Ok h' /\ wrote h vC (madd E (mmul f k FA FB)) h'.
Proof.
  intros Hb Hn HC EA EB KA KB Sm. destruct (vget_h _ _ _ _ _ _ HC) as (C & EC & KC).
  pose proof KC as (C1 & C2 & C3 & C4 & C5). cbn [vaddmul_strassen]. rewrite EC, EA, EB. cbn [bind]. rewrite C4. replace ((mz_nrows C =? 0) && (n =? 0)) with false by lia.
  rewrite Sm. destruct (proj1 (wp_iff _ _) (mzed_copy_ok None C C1 I)) as (D & ED & HD0 & _). rewrite ED. cbn [bind].
  assert (HD : holds D f m n E) by (rewrite C2, C3, C4 in HD0; eapply holds_ext; [exact HD0|]; intros i j Hi Hj; now apply C5).
  destruct (proj1 (wp_iff _ _) (nj_h mulbs D A B f m k n _ _ _ Hb Hn HD KA KB)) as (D' & ED' & BD). rewrite ED'. cbn [bind].
  pose proof (holds_becomes _ _ _ _ _ _ _ HD BD) as HD'. pose proof HD' as (D1 & D2 & D3 & D4 & D5).
  apply (vset_wr h vC f m n E); [exact HC|]. intros W (W1 & W2 & W3 & W4 & W5).
  eapply wp_mono; [apply (mzed_copy_ok (Some W) D' D1); split; [exact W1|split; [congruence|split; congruence]]|].
  cbv beta. intros W' (_ & BW). eapply becomes_ext; [exact (BW W eq_refl)|]. intros i j Hi Hj. now rewrite D5 by lia.
Qed.
Lemma small_whole mulbs fuel h pc pa pb C A B cutoff : 16 <= mulbs -> product_args h pc pa pb C A B ->
  (exists d, In d [mz_nrows A; mz_ncols A; mz_ncols B] /\ (0 < 3 * Z.of_nat d < 4 * cutoff)%Z) ->
  exists h' C', vaddmul_strassen mulbs (S fuel) h (whole pc C) (whole pa A) (whole pb B) cutoff = Ok h' /\ only h pc C' h' /\
    becomes C C' (madd (entry C) (mmul (fld A) (mz_ncols A) (entry A) (entry B))).
Proof.
  intros Hb HP (d & Id & Hd). pose proof HP as (Ec & _ & _ & HC & HA & HB & F1 & F2 & E1 & E2 & E3 & Hn).
  destruct (checked_distinct _ _ _ _ _ _ _ HP) as (_ & _ & _ & _ & VC & VA & VB).
  destruct (vget_h _ _ _ _ _ _ VA) as (A' & EA & KA). destruct (vget_h _ _ _ _ _ _ VB) as (B' & EB & KB).
  destruct (vaddmul_small mulbs fuel h (whole pc C) (whole pa A) (whole pb B) _ _ _ _ _ _ _ cutoff A' B' Hb Hn VC EA EB KA KB) as (h' & E & W).
  - pose proof KA as (_ & _ & a3 & a4 & _). pose proof KB as (_ & _ & _ & b4 & _). unfold strassen_small. rewrite a3, a4, b4. pose proof (small_dim d cutoff Hd) as Sm.
    destruct Id as [<- | [<- | [<- | []]]]; rewrite Sm; now rewrite ?orb_true_r.
  - destruct (whole_wrote _ _ _ _ _ Ec HC W) as (C' & O & BC'). exists h', C'. split; [exact E|]. now split.
Qed.
Theorem C62_addmul_strassen_small_into_factor : forall mulbs cutoff h pc pa pb C A B, 16 <= mulbs -> product_args h pc pa pb C A B ->
  (exists d, In d [mz_nrows A; mz_ncols A; mz_ncols B] /\ (0 < 3 * Z.of_nat d < 4 * cutoff)%Z) ->
  exists h' C', mzed_addmul_strassen_at mulbs h pc pa pb cutoff = Ok h' /\ only h pc C' h' /\
    becomes C C' (madd (entry C) (mmul (ff_minpoly (mz_ff A)) (mz_ncols A) (entry A) (entry B))).
Proof.
  intros mulbs cutoff h pc pa pb C A B Hb HP Hd. destruct (checked_distinct _ _ _ _ _ _ _ HP) as (EI & GC & GA & GB & _).
  unfold mzed_addmul_strassen_at. rewrite EI. cbn [bind]. rewrite GC, GA, GB. cbn [bind]. unfold strassen_fuel. now apply small_whole.
Qed.
Print Assumptions C62_addmul_strassen_small_into_factor.
Theorem C62_addmul_into_factor : forall mulbs l2 h pc pa pb C A B, 16 <= mulbs -> product_args h pc pa pb C A B ->
  (exists d, In d [mz_nrows A; mz_ncols A; mz_ncols B] /\ (0 < 3 * Z.of_nat d < 4 * mzed_strassen_cutoff l2 A)%Z) \/
  (512 <= mz_nrows A /\ 512 <= mz_ncols A /\ 512 <= mz_ncols B) ->
  exists h' C', mzed_addmul_at mulbs l2 h pc pa pb = Ok h' /\ only h pc C' h' /\
    becomes C C' (madd (entry C) (mmul (ff_minpoly (mz_ff A)) (mz_ncols A) (entry A) (entry B))).
Proof.
  intros mulbs l2 h pc pa pb C A B Hb HP Hd. pose proof HP as (Ec & _ & _ & HC & HA & HB & F1 & F2 & E1 & E2 & E3 & Hn).
  destruct (checked_distinct _ _ _ _ _ _ _ HP) as (EI & GC & GA & GB & _).
  unfold mzed_addmul_at. rewrite EI. cbn [bind]. unfold vaddmul_. rewrite GC, GA, GB. cbn [bind].
  destruct (mul_big A B) eqn:Eb.
  - assert (K : wp (mzed_addmul_karatsuba_ (Some C) A B) (fun C' => becomes C C' (madd (entry C) (mmul (fld A) (mz_ncols A) (entry A) (entry B))))).
    { eapply wp_mono; [apply (mzed_addmul_karatsuba_in_ok (Some C)); try congruence; auto; split; [exact HC|split; [congruence|split; congruence]]|].
      cbv beta iota. intros C' (_ & B'). exact B'. }
    apply wp_iff in K as (C' & -> & BC'). cbn [bind]. rewrite (lset_stored _ _ C); [|exact Ec].
    exists (upd h pc C'), C'. split; [reflexivity|]. split; [now apply (only_upd h pc C)|exact BC'].
  - destruct Hd as [Hd|Hd]; [|exfalso; unfold mul_big in Eb; lia]. unfold strassen_fuel. now apply small_whole.
Qed.
Print Assumptions C62_addmul_into_factor.
(** In between it is wrong: C += C*I over GF(8), 32 x 32, C all ones, cutoff 24, does not give zero. *)
Theorem C62_addmul_strassen_into_factor_refuted : exists h A B h' A', at_ h 0 A /\ at_ h 1 B /\ wf_mzed A /\ wf_mzed B /\ fld A = fld B /\
  mz_nrows A = 32 /\ mz_ncols A = 32 /\ mz_nrows B = 32 /\ mz_ncols B = 32 /\ (3 * Z.of_nat (64 / mz_w A) <= 2 * 24)%Z /\
  mzed_addmul_strassen_at 16 h 0 0 1 24 = Ok h' /\ at_ h' 0 A' /\ entry A' 16 0 <> madd (entry A) (mmul (fld A) 32 (entry A) (entry B)) 16 0.
Proof.
  destruct (mk_realises 0xb 32 32 (fun _ _ => 1%N)) as (A & EA & (WA & FA & RA & CA & _)); [vm_compute; split; congruence|intros; vm_compute; reflexivity|].
  destruct (mk_realises 0xb 32 32 (fun i j => if i =? j then 1%N else 0%N)) as (B & EB & (WB & FB & RB & CB & _)); [vm_compute; split; congruence|intros i j _ _; destruct (i =? j); vm_compute; reflexivity|].
  vm_compute in EA. vm_compute in EB. injection EA as EA. injection EB as EB.
  exists [A; B], A, B. destruct (mzed_addmul_strassen_at 16 [A; B] 0 0 1 24) as [h'| |] eqn:E; subst A B; vm_compute in E; try discriminate. injection E as E.
  destruct h' as [|A' h']; [discriminate|]. exists (A' :: h'), A'. repeat (split; [first [reflexivity|assumption|vm_compute; congruence]|]). injection E as E _. subst A'. vm_compute. congruence.
Qed.
Print Assumptions C62_addmul_strassen_into_factor_refuted.
(** Reachable: the same operands with cutoff 25 are not cut up, and the result is zero. *)
Example C62_addmul_into_factor_witness :
  (A <- mk 0xb 32 32 (fun _ _ => 1%N) ;; B <- mk 0xb 32 32 (fun i j => if i =? j then 1%N else 0%N) ;;
   h <- mzed_addmul_strassen_at 16 [A; B] 0 0 1 25 ;; A' <- lget h 0 ;; g <- mzed_addmul_at 16 4096 [A; B] 0 0 1 ;; A'' <- lget g 0 ;;
   Ok ((0 <? 3 * 32)%Z, (3 * 32 <? 4 * 25)%Z, (3 * 32 <? 4 * mzed_strassen_cutoff 4096 A)%Z, nonzero (Ok (to_rows A)), nonzero (Ok (to_rows A')), nonzero (Ok (to_rows A''))))
  = Ok (true, true, true, true, false, false).
Proof. vm_compute. reflexivity. Qed.
