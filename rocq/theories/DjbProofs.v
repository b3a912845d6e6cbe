(** Straight-line programs applied to vectors of matrices compute the linear map of their bits. *)
From Coq Require Import NArith Lia List Bool Arith.
From Coq Require Import ZifyBool ZifyNat ZifyN.
From Verif Require Import Base Spec PolyFacts MatFacts LaneFacts MzdModel MzedSpec MzedProofs SliceModel SliceSpec MzdFacts SliceProofs SliceOps SliceMul.
From Verif Require Import DjbModel DjbSpec.
Import ListNotations.
Local Open Scope nat_scope.

Lemma exec_written prog v w k : fst (bit_exec prog v w) k = written prog k.
Proof.
  induction prog as [|[[t s] typ] prog IH]; [reflexivity|]. cbn [bit_exec fold_right written existsb]. fold (bit_exec prog v w). fold (written prog k).
  unfold bit_step. destruct (bit_exec prog v w) as [tch ww] eqn:E. cbn [fst snd] in *. rewrite IH. rewrite (Nat.eqb_sym t k). destruct (k =? t); reflexivity.
Qed.
Lemma exec_cons t s typ prog v w k : snd (bit_exec ((t, s, typ) :: prog) v w) k =
  if k =? t then (if written prog t then xorb (snd (bit_exec prog v w) t) (if typ : bool then v s else snd (bit_exec prog v w) s) else (if typ then v s else snd (bit_exec prog v w) s))
  else snd (bit_exec prog v w) k.
Proof.
  cbn [bit_exec fold_right]. fold (bit_exec prog v w). unfold bit_step. pose proof (exec_written prog v w t) as T. destruct (bit_exec prog v w) as [tch ww]. cbn [fst snd] in *. now rewrite T.
Qed.
Lemma exec_unwritten prog v w k : written prog k = false -> snd (bit_exec prog v w) k = w k.
Proof.
  induction prog as [|[[t s] typ] prog IH]; [reflexivity|]. cbn [written existsb]. fold (written prog k). cbn [fst]. intros H. rewrite exec_cons. replace (k =? t) with false by (destruct (Nat.eqb_spec k t); lia). apply IH. lia.
Qed.

(** the program on matrices is the program on the bits *)
Definition bits_at (X : list mzd) (i c : nat) : nat -> bool := fun j => mbit (nth j X dm) i c.
Definition drun (prog : list instr) (V W : list mzd) (k i c : nat) : bool := snd (bit_exec prog (bits_at V i c) (bits_at W i c)) k.
Definition dinv (V W : list mzd) (prog : list instr) (st : list mzd * list bool) : Prop :=
  length (fst st) = length W /\ (forall k, k < length W -> mset (nth k W dm) (nth k (fst st) dm) (drun prog V W k)) /\
  (forall k, k < length (snd st) -> nth k (snd st) false = negb (written prog k)).
Lemma skipn_cons {T} (l : list T) i d : i < length l -> skipn i l = nth i l d :: skipn (S i) l.
Proof. revert i. induction l as [|x l IH]; intros [|i] Hi; cbn in *; try lia; [reflexivity|]. apply IH. lia. Qed.
Lemma step_ok V W m n prog t s typ st : shape W m n -> shape V m n -> length (snd st) <= length W -> t < length (snd st) -> (if typ : bool then s < length V else s < length W) ->
  dinv V W prog st -> wp (djb_step V (t, s, typ) st) (fun st' => dinv V W ((t, s, typ) :: prog) st' /\ length (snd st') = length (snd st)).
Proof.
  intros SW SV Lz Ht Hs (L & HW & Hz). destruct st as [W1 z]. cbn [fst snd] in *. unfold djb_step. rewrite (lget_ok z t false) by easy. cbn [bind]. rewrite (Hz t Ht).
  assert (Hsh : forall k, k < length W -> wf_mzd (nth k W1 dm) /\ mzd_nrows (nth k W1 dm) = m /\ mzd_ncols (nth k W1 dm) = n).
  { intros k Hk. pose proof (HW k Hk) as Hm. destruct (SW k Hk) as (_ & R & C). split; [exact (mset_wf _ _ _ Hm)|]. split; [rewrite (mset_nr _ _ _ Hm); exact R|rewrite (mset_nc _ _ _ Hm); exact C]. }
  assert (Hbit : forall k i c, k < length W -> i < m -> c < n -> mbit (nth k W1 dm) i c = drun prog V W k i c).
  { intros k i c Hk Hi Hc. destruct (SW k Hk) as (_ & R & C). apply (mset_bit _ _ _ _ _ (HW k Hk)); lia. }
  destruct (Hsh t ltac:(lia)) as (Wt & Rt & Ct). destruct (SW t ltac:(lia)) as (WWt & RWt & CWt).
  assert (Src : exists X, (if typ then (v <- lget V s ;; Ok v) else lget W1 s) = Ok X /\ wf_mzd X /\ mzd_nrows X = m /\ mzd_ncols X = n /\
            forall i c, i < m -> c < n -> mbit X i c = if typ then bits_at V i c s else drun prog V W s i c).
  { destruct typ.
    - exists (nth s V dm). rewrite (lget_ok V s dm) by easy. cbn [bind]. destruct (SV s Hs) as (H1 & H2 & H3). split; [reflexivity|]. split; [exact H1|]. split; [exact H2|]. split; [exact H3|reflexivity].
    - exists (nth s W1 dm). rewrite (lget_ok W1 s dm) by lia. destruct (Hsh s Hs) as (H1 & H2 & H3). split; [reflexivity|]. split; [exact H1|]. split; [exact H2|]. split; [exact H3|]. intros. now apply Hbit. }
  destruct Src as (X & EX & WX & RX & CX & BX).
  assert (Fin : forall w', mset (nth t W1 dm) w' (fun i c => if written prog t then xorb (drun prog V W t i c) (mbit X i c) else mbit X i c) ->
             forall z', length z' = length z -> (forall k, k < length z -> nth k z' false = if k =? t then false else nth k z false) ->
             dinv V W ((t, s, typ) :: prog) (upd W1 t w', z')).
  { intros w' Hw' z' Lz' Hz'. unfold dinv. cbn [fst snd]. rewrite upd_length. split; [exact L|]. split.
    - intros k Hk. rewrite (nth_upd W1 t k w' dm) by lia. destruct (Nat.eqb_spec t k) as [<-|Hne].
      + eapply mset_step; [exact (HW t Hk)|exact Hw'|]. cbv beta. intros i c Hi Hc. unfold drun at 2. rewrite exec_cons, Nat.eqb_refl. rewrite BX by lia. unfold drun. reflexivity.
      + eapply mset_ext; [exact (HW k Hk)|]. intros i c Hi Hc. unfold drun. rewrite exec_cons. now replace (k =? t) with false by lia.
    - rewrite Lz'. intros k Hk. rewrite Hz' by easy. cbn [written existsb fst]. fold (written prog k). rewrite (Nat.eqb_sym t k). destruct (k =? t); [reflexivity|]. now apply Hz. }
  destruct (written prog t) eqn:Ew; cbn [negb].
  - rewrite (lget_ok W1 t dm) by lia. cbn [bind].
    replace (if typ then v <- lget V s;; mzd_add (nth t W1 dm) (nth t W1 dm) v else v <- lget W1 s;; mzd_add (nth t W1 dm) (nth t W1 dm) v) with (mzd_add (nth t W1 dm) (nth t W1 dm) X).
    2:{ destruct typ; [rewrite (lget_ok V s dm) in * by easy|]; cbn [bind] in EX; [injection EX as <-; reflexivity|rewrite EX; reflexivity]. }
    apply wp_bind. eapply wp_mono; [apply add_ok; [exact Wt|reflexivity|reflexivity|congruence|congruence]|]. cbv beta. intros w' Hw'.
    rewrite lset_ok by lia. cbn [bind wp]. split; [|reflexivity]. apply Fin; [|reflexivity|].
    + eapply mset_ext; [exact Hw'|]. cbv beta. intros i c Hi Hc. rewrite Hbit by lia. reflexivity.
    + intros k Hk. destruct (Nat.eqb_spec k t) as [->|]; [|reflexivity]. rewrite Hz by easy. now rewrite Ew.
  - rewrite (lget_ok W1 t dm) by lia. cbn [bind].
    replace (if typ then v <- lget V s;; mzd_copy (nth t W1 dm) v else v <- lget W1 s;; mzd_copy (nth t W1 dm) v) with (mzd_copy (nth t W1 dm) X).
    2:{ destruct typ; [rewrite (lget_ok V s dm) in * by easy|]; cbn [bind] in EX; [injection EX as <-; reflexivity|rewrite EX; reflexivity]. }
    apply wp_bind. eapply wp_mono; [apply copy_ok; [exact Wt|congruence|congruence]|]. cbv beta. intros w' Hw'.
    rewrite !lset_ok by lia. cbn [bind wp]. split; [|cbn [snd]; now rewrite upd_length]. apply Fin; [exact Hw'|now rewrite upd_length|].
    intros k Hk. rewrite nth_upd by lia. rewrite (Nat.eqb_sym t k). reflexivity.
Qed.
Theorem djb_apply_bits d W V m n : shape W m n -> shape V m n -> dj_nrows d <= length W -> in_range (dj_nrows d) (length V) (dj_prog d) ->
  wp (djb_apply_mzd_ptr d W V) (fun W' => length W' = length W /\ forall k, k < length W -> mset (nth k W dm) (nth k W' dm) (drun (dj_prog d) V W k)).
Proof.
  intros SW SV Lr Hr. unfold djb_apply_mzd_ptr. apply wp_bind.
  eapply wp_mono; [apply (wp_for_down (fun i st => dinv V W (skipn i (dj_prog d)) st /\ length (snd st) = dj_nrows d)); [lia| |]|].
  - cbn [snd]. rewrite repeat_length. split; [|reflexivity]. rewrite skipn_all. split; [reflexivity|]. cbn [fst snd]. split.
    + intros k Hk. destruct (SW k Hk) as (H1 & _). eapply mset_ext; [now apply mset_refl|]. intros i c _ _. reflexivity.
    + rewrite repeat_length. intros k Hk. cbn [written existsb negb]. rewrite (nth_indep _ false true) by (now rewrite repeat_length). apply nth_repeat.
  - intros i st Hi (HI & Ls). rewrite (lget_ok (dj_prog d) i (0, 0, true)) by lia. cbn [bind]. destruct (nth i (dj_prog d) (0, 0, true)) as [[t s] typ] eqn:E.
    destruct (Hr t s typ) as (Ht & Hs). { rewrite <- E. apply nth_In. lia. }
    eapply wp_mono; [apply (step_ok V W m n (skipn (S i) (dj_prog d)) t s typ st SW SV); [rewrite Ls; exact Lr|rewrite Ls; exact Ht|destruct typ; [exact Hs|lia]|exact HI]|].
    cbv beta. intros st' (H1 & H2). rewrite (skipn_cons (dj_prog d) i (0, 0, true)) by (exact (proj2 Hi)). rewrite E. split; [exact H1|lia].
  - cbv beta. intros st ((L & HW & _) & _). cbn [wp]. split; [exact L|exact HW].
Qed.
(** a program that computes M *)
Theorem djb_apply_ok d M W V m n : shape W m n -> shape V m n -> dj_nrows d <= length W -> dj_ncols d = length V -> computes (dj_nrows d) (dj_ncols d) M (dj_prog d) ->
  wp (djb_apply_mzd_ptr d W V) (fun W' => length W' = length W /\ forall k, k < length W -> mset (nth k W dm) (nth k W' dm)
     (fun i c => if written (dj_prog d) k then bxsum (length V) (fun j => M k j && mbit (nth j V dm) i c) else mbit (nth k W dm) i c)).
Proof.
  intros SW SV Lr Lc (Hr & Hc). rewrite Lc in *. eapply wp_mono; [apply (djb_apply_bits d W V m n SW SV Lr Hr)|]. cbv beta. intros W' (L & H). split; [exact L|].
  intros k Hk. eapply mset_ext; [exact (H k Hk)|]. cbv beta. intros i c _ _. unfold drun. destruct (written (dj_prog d) k) eqn:E.
  - destruct (Nat.lt_ge_cases k (dj_nrows d)) as [Hlt|Hge].
    + specialize (Hc k Hlt). rewrite E in Hc. rewrite Hc. reflexivity.
    + unfold written in E. apply existsb_exists in E. destruct E as ([[t s] typ] & Hin & Et). cbn [fst] in Et. destruct (Hr t s typ Hin) as (Ht & _). lia.
  - now rewrite exec_unwritten.
Qed.
