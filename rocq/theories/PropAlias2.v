(** C48: the products with the target passed again as a factor, for every size. *)
From Coq Require Import NArith ZArith Lia List Bool Arith.
From Coq Require Import ZifyBool ZifyNat ZifyN.
From Verif Require Import Base Spec LinSpec PolyFacts MatFacts Gf2xModel Gf2eModel Gf2eProofs.
From Verif Require Import MzdModel MzedModel MzedSpec LaneFacts MzedProofs MzedOps MzedOps2 NjModel NjMul StrassenModel StrassenProofs StrassenMain Demo.
From Verif Require Import AliasRows SliceModel SliceSpec KaraModel ConvModel ConvCling MulModel MulProofs PropMul AliasModel AliasProofs AliasStrassenModel AliasStrassen PropAlias.
Import ListNotations.
Local Open Scope nat_scope.

(** the objects at pc, pa, pb are matrices over one field whose shapes fit a product C = A*B *)
Definition product_args (h : store) (pc pa pb : nat) (C A B : mzed) : Prop :=
  at_ h pc C /\ at_ h pa A /\ at_ h pb B /\ wf_mzed C /\ wf_mzed A /\ wf_mzed B /\
  ff_minpoly (mz_ff A) = ff_minpoly (mz_ff B) /\ ff_minpoly (mz_ff C) = ff_minpoly (mz_ff A) /\
  mz_ncols A = mz_nrows B /\ mz_nrows C = mz_nrows A /\ mz_ncols C = mz_ncols B /\ 0 < mz_ncols B.

(** after the target has been cleared *)
Lemma cleared h pc pa pb C A B : product_args h pc pa pb C A B -> pc = pa \/ pc = pb ->
  exists C1 A1 B1 za zb, mzed_mul_init_at h pc pa pb true = Ok (upd h pc C1) /\ becomes C C1 mzero /\
    lget (upd h pc C1) pc = Ok C1 /\ lget (upd h pc C1) pa = Ok A1 /\ lget (upd h pc C1) pb = Ok B1 /\
    holds A1 (fld A) (mz_nrows A) (mz_ncols A) (entry A1) /\ holds B1 (fld A) (mz_ncols A) (mz_ncols B) (entry B1) /\
    vok (upd h pc C1) (whole pc C1) (fld A) (mz_nrows A) (mz_ncols B) true /\
    vok (upd h pc C1) (whole pa A1) (fld A) (mz_nrows A) (mz_ncols A) za /\
    vok (upd h pc C1) (whole pb B1) (fld A) (mz_ncols A) (mz_ncols B) zb /\ za || zb = true /\
    meq (mz_nrows A) (mz_ncols B) (mmul (fld A) (mz_ncols A) (entry A1) (entry B1)) mzero.
Proof.
  intros (Ec & Ea & Eb & HC & HA & HB & F1 & F2 & E1 & E2 & E3 & Hn) Hp. unfold at_ in *.
  destruct (proj1 (wp_iff _ _) (mzed_mul_init_ok (Some C) A B true HA HB F1 E1 (conj HC (conj F2 (conj E2 E3))) (@Ok mzed)
              (fun D => becomes C D mzero) ltac:(intros D _ _ _ _ _ _ H; exact (H C eq_refl)))) as (C1 & E & BC).
  assert (E' : mzed_mul_init (Some C) A B true = Ok C1) by (revert E; destruct (mzed_mul_init (Some C) A B true); cbn [bind]; congruence).
  pose proof (becomes_holds _ _ _ BC) as KC. rewrite F2, E2, E3 in KC.
  assert (NC : nth_error (upd h pc C1) pc = Some C1) by now apply (stored_upd_eq h pc C).
  assert (ZC : forall i j, i < mz_nrows A -> j < mz_ncols B -> entry C1 i j = 0%N) by (intros i j Hi Hj; destruct KC as (_ & _ & _ & _ & H5); now rewrite H5).
  assert (GA : exists A1 za, nth_error (upd h pc C1) pa = Some A1 /\ holds A1 (fld A) (mz_nrows A) (mz_ncols A) (entry A1) /\ (za = true -> forall i j, i < mz_nrows A -> j < mz_ncols A -> entry A1 i j = 0%N) /\ (pc = pa -> za = true)).
  { destruct (Nat.eq_dec pc pa) as [<-|Hne].
    - assert (A = C) as -> by congruence. exists C1, true. rewrite <- E3 in *. split; [exact NC|]. split; [exact (holds_entry _ _ _ _ _ KC)|]. split; [intros _; exact ZC|reflexivity].
    - exists A, false. split; [rewrite (stored_upd_ne h pc pa C C1); auto|]. split; [now apply holds_self|]. split; [easy|easy]. }
  assert (GB : exists B1 zb, nth_error (upd h pc C1) pb = Some B1 /\ holds B1 (fld A) (mz_ncols A) (mz_ncols B) (entry B1) /\ (zb = true -> forall i j, i < mz_ncols A -> j < mz_ncols B -> entry B1 i j = 0%N) /\ (pc = pb -> zb = true)).
  { destruct (Nat.eq_dec pc pb) as [<-|Hne].
    - assert (B = C) as -> by congruence. exists C1, true. assert (Q : mz_nrows A = mz_ncols A) by congruence. rewrite Q in *. split; [exact NC|]. split; [exact (holds_entry _ _ _ _ _ KC)|]. split; [intros _; exact ZC|reflexivity].
    - exists B, false. split; [rewrite (stored_upd_ne h pc pb C C1); auto|]. split; [rewrite F1, E1; now apply holds_self|]. split; [easy|easy]. }
  destruct GA as (A1 & za & NA & KA & ZA & PA). destruct GB as (B1 & zb & NB & KB & ZB & PB).
  assert (Hz : za || zb = true) by (destruct Hp as [Hp|Hp]; [rewrite (PA Hp); reflexivity|rewrite (PB Hp); apply orb_true_r]).
  exists C1, A1, B1, za, zb. split.
  { unfold mzed_mul_init_at. rewrite (lget_stored _ _ _ Ec), (lget_stored _ _ _ Ea), (lget_stored _ _ _ Eb). cbn [bind]. rewrite E'. cbn [bind]. now rewrite (lset_stored _ _ _ _ Ec). }
  split; [exact BC|]. split; [now apply lget_stored|]. split; [now apply lget_stored|]. split; [now apply lget_stored|].
  split; [exact KA|]. split; [exact KB|].
  assert (DC : mz_nrows C1 = mz_nrows A /\ mz_ncols C1 = mz_ncols B) by (destruct KC as (_ & _ & ? & ? & _); auto).
  assert (DA : mz_nrows A1 = mz_nrows A /\ mz_ncols A1 = mz_ncols A) by (destruct KA as (_ & _ & ? & ? & _); auto).
  assert (DB : mz_nrows B1 = mz_ncols A /\ mz_ncols B1 = mz_ncols B) by (destruct KB as (_ & _ & ? & ? & _); auto).
  unfold whole. destruct DC as (-> & ->), DA as (-> & ->), DB as (-> & ->).
  split; [apply (vok_whole _ _ C1); auto; exact (holds_entry _ _ _ _ _ KC)|]. split; [now apply (vok_whole _ _ A1)|]. split; [now apply (vok_whole _ _ B1)|]. split; [exact Hz|].
  intros i j Hi Hj. unfold mmul. apply xsum_0. intros l Hl. destruct za; [rewrite (ZA eq_refl) by auto; apply fmul_0_l|rewrite (ZB Hz) by auto; apply fmul_0_r].
Qed.
Lemma done h pc C C' : at_ h pc C -> becomes C C' mzero -> exists h' C2, Ok (upd h pc C') = Ok h' /\ only h pc C2 h' /\ becomes C C2 mzero.
Proof. intros Ec B. exists (upd h pc C'), C'. split; [reflexivity|]. split; [now apply (only_upd h pc C)|exact B]. Qed.

(** mzed_mul(C, A, B) with C == A or C == B: the result is the zero matrix, whatever A*B is, for every size
    and every field; nothing else is written *)
Theorem C48_mul_at_refuted : forall mulbs l2 h pc pa pb C A B, 16 <= mulbs -> (4096 <= l2)%Z ->
  product_args h pc pa pb C A B -> pc = pa \/ pc = pb ->
  exists h' C', mzed_mul_at mulbs l2 h pc pa pb = Ok h' /\ only h pc C' h' /\ becomes C C' mzero.
Proof.
  intros mulbs l2 h pc pa pb C A B Hb Hl HP Hp. pose proof HP as (Ec & _ & _ & HC & HA & HB & F1 & F2 & E1 & E2 & E3 & Hn).
  destruct (cleared _ _ _ _ _ _ _ HP Hp) as (C1 & A1 & B1 & za & zb & EI & BC & GC & GA & GB & KA & KB & VC & VA & VB & Hz & M0).
  unfold mzed_mul_at. rewrite EI. cbn [bind]. unfold vmul_. rewrite GC, GA, GB. cbn [bind].
  pose proof KA as (WA & FA & RA & CA & _). pose proof KB as (WB & FB & RB & CB & _).
  pose proof (becomes_wf _ _ _ BC) as W1. pose proof (becomes_nr _ _ _ BC) as R1. pose proof (becomes_nc _ _ _ BC) as Q1. pose proof (becomes_ff _ _ _ BC) as T1.
  destruct (mul_big A1 B1).
  - assert (K : wp (mzed_addmul_karatsuba_ (Some C1) A1 B1) (fun C' => becomes C C' mzero)).
    { eapply wp_mono; [apply (mzed_addmul_karatsuba_in_ok (Some C1)); try congruence; auto; split; [exact W1|split; [congruence|split; congruence]]|].
      cbv beta iota. intros C' (_ & B'). eapply becomes_step; [exact BC|exact B'|]. intros i j Hi Hj. unfold madd.
      rewrite (becomes_entry _ _ _ _ _ BC) by auto. rewrite FA, CA. rewrite M0 by (rewrite <- ?E2, <- ?E3; auto). reflexivity. }
    apply wp_iff in K as (C' & -> & BC'). cbn [bind]. rewrite (lset_stored _ _ C1); [|now apply (stored_upd_eq h pc C)]. rewrite upd_upd. exact (done h pc C C' Ec BC').
  - rewrite (vmul_strassen_same mulbs _ Hb (strassen_fuel A1 B1) (upd h pc C1) _ _ _ (fld A) (mz_nrows A) (mz_ncols A) (mz_ncols B) za zb A1); auto.
    + exact (done h pc C C1 Ec BC).
    + unfold strassen_fuel. rewrite RA, CB. lia.
    + unfold ok_cut. now apply strassen_cutoff_ok.
Qed.
Print Assumptions C48_mul_at_refuted.

(** the same for the two algorithms called directly *)
Theorem C48_mul_strassen_at_refuted : forall mulbs cutoff h pc pa pb C A B, 16 <= mulbs ->
  (96 <= 2 * cutoff)%Z -> product_args h pc pa pb C A B -> pc = pa \/ pc = pb ->
  exists h' C', mzed_mul_strassen_at mulbs h pc pa pb cutoff = Ok h' /\ only h pc C' h' /\ becomes C C' mzero.
Proof.
  intros mulbs cutoff h pc pa pb C A B Hb Hl HP Hp. pose proof HP as (Ec & _ & _ & HC & HA & HB & F1 & F2 & E1 & E2 & E3 & Hn).
  destruct (cleared _ _ _ _ _ _ _ HP Hp) as (C1 & A1 & B1 & za & zb & EI & BC & GC & GA & GB & KA & KB & VC & VA & VB & Hz & M0).
  unfold mzed_mul_strassen_at. rewrite EI. cbn [bind]. rewrite GC, GA, GB. cbn [bind].
  pose proof KA as (WA & FA & RA & CA & _). pose proof KB as (WB & FB & RB & CB & _).
  rewrite (vmul_strassen_same mulbs _ Hb (strassen_fuel A1 B1) (upd h pc C1) _ _ _ (fld A) (mz_nrows A) (mz_ncols A) (mz_ncols B) za zb A1); auto.
  - exact (done h pc C C1 Ec BC).
  - unfold strassen_fuel. rewrite RA, CB. lia.
  - unfold ok_cut. assert (P32 : per (mz_w A1) <= 32) by (destruct (wf_good A1 WA) as [-> | [-> | [-> | ->]]]; cbv; lia). lia.
Qed.
Print Assumptions C48_mul_strassen_at_refuted.
Theorem C48_mul_newton_john_at_refuted : forall mulbs h pc pa pb C A B, 16 <= mulbs ->
  product_args h pc pa pb C A B -> pc = pa \/ pc = pb ->
  exists h' C', mzed_mul_newton_john_at mulbs h pc pa pb = Ok h' /\ only h pc C' h' /\ becomes C C' mzero.
Proof.
  intros mulbs h pc pa pb C A B Hb HP Hp. pose proof HP as (Ec & _ & _ & HC & HA & HB & F1 & F2 & E1 & E2 & E3 & Hn).
  destruct (cleared _ _ _ _ _ _ _ HP Hp) as (C1 & A1 & B1 & za & zb & EI & BC & GC & GA & GB & KA & KB & VC & VA & VB & Hz & M0).
  unfold mzed_mul_newton_john_at. rewrite EI. cbn [bind]. rewrite GC, GA, GB. cbn [bind].
  rewrite (vmul_nj_zero mulbs (upd h pc C1) _ _ _ (fld A) (mz_nrows A) (mz_ncols A) (mz_ncols B) za zb); auto.
  exact (done h pc C C1 Ec BC).
Qed.
Print Assumptions C48_mul_newton_john_at_refuted.

(** A reachable instance that runs the recursive Strassen step (40 x 40 over GF(8), cutoff 16): with C distinct
    from A the same model computes the product, which is not zero. *)
Definition rows_at (h : res store) (p : nat) : res (list (list N)) := h <- h ;; A <- lget h p ;; Ok (to_rows A).
Definition nonzero (r : res (list (list N))) : bool := match r with Ok l => existsb (existsb (fun x => negb (x =? 0)%N)) l | _ => false end.
Example C48_at_witness :
  (A <- mk 0xb 40 40 (noise 3 1) ;; C <- mk 0xb 40 40 (noise 1 1) ;;
   let h := [C; A] in
   P <- mzed_mul 16 256 None A A ;;
   Ok (strassen_small A A (mzed_strassen_cutoff 256 A),
       nonzero (rows_at (mzed_mul_at 16 256 h 1 1 1) 1), nonzero (rows_at (mzed_mul_at 16 256 h 0 1 0) 0), nonzero (rows_at (mzed_mul_at 16 256 h 0 0 1) 0),
       match rows_at (mzed_mul_at 16 256 h 0 1 1) 0 with Ok l => if list_eq_dec (list_eq_dec N.eq_dec) l (to_rows P) then true else false | _ => false end, nonzero (Ok (to_rows P)))) =
  Ok (false, false, false, false, true, true).
Proof. vm_compute. reflexivity. Qed.
