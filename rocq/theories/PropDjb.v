(** Property C46: straight-line programs applied to vectors of matrices (src/mzd_ptr.c). *)
From Coq Require Import NArith Lia List Bool Arith.
From Coq Require Import ZifyBool ZifyNat ZifyN.
From Verif Require Import Base Spec PolyFacts MatFacts LaneFacts MzdModel MzedSpec MzedProofs SliceModel SliceSpec MzdFacts SliceProofs SliceOps SliceMul.
From Verif Require Import DjbModel DjbSpec DjbProofs.
Import ListNotations.
Local Open Scope nat_scope.

(** all matrices of the list are well-formed m x n matrices *)
Definition all_mn (m n : nat) (X : list mzd) : Prop := forall M, In M X -> wf_mzd M /\ mzd_nrows M = m /\ mzd_ncols M = n.
Definition nul : mzd := Mzd 0 0 [].
Lemma all_shape m n X : all_mn m n X -> shape X m n.
Proof. intros H b Hb. apply H. now apply nth_In. Qed.

(** The straight-line program of a matrix M (what M4RI's djb_compile returns), applied to W and V: the matrix W[k]
    becomes the sum of the V[j] with M[k][j] = 1 if the program writes to k at all; if it does not, row k of M is zero
    and W[k] is left as it was.  Nothing outside of the matrices changes ([mset]). *)
Theorem C46_apply : forall d M W V m n, all_mn m n W -> all_mn m n V -> dj_nrows d <= length W -> dj_ncols d = length V ->
  computes (dj_nrows d) (dj_ncols d) M (dj_prog d) ->
  exists W', djb_apply_mzd_ptr d W V = Ok W' /\ length W' = length W /\
    forall k, k < length W -> mset (nth k W nul) (nth k W' nul)
      (fun i c => if written (dj_prog d) k then bxsum (length V) (fun j => M k j && mbit (nth j V nul) i c) else mbit (nth k W nul) i c).
Proof. intros d M W V m n HW HV H1 H2 H3. apply wp_iff. apply (djb_apply_ok d M W V m n); [now apply all_shape|now apply all_shape|exact H1|exact H2|exact H3]. Qed.
(** into zero matrices: W = M * V *)
Theorem C46_apply_fresh : forall d M V m n, all_mn m n V -> dj_ncols d = length V -> computes (dj_nrows d) (dj_ncols d) M (dj_prog d) ->
  exists W', djb_apply_mzd_ptr d (repeat (mzd_init m n) (dj_nrows d)) V = Ok W' /\ length W' = dj_nrows d /\ all_mn m n W' /\
    forall k i c, k < dj_nrows d -> i < m -> c < n -> mbit (nth k W' nul) i c = bxsum (length V) (fun j => M k j && mbit (nth j V nul) i c).
Proof.
  intros d M V m n HV Hc HM. set (W := repeat (mzd_init m n) (dj_nrows d)).
  assert (LW : length W = dj_nrows d) by apply repeat_length.
  assert (HW : all_mn m n W). { intros X HX. apply repeat_spec in HX. subst X. split; [apply wf_init|split; reflexivity]. }
  destruct (C46_apply d M W V m n HW HV ltac:(lia) Hc HM) as (W' & E & L & H). exists W'. split; [exact E|]. split; [lia|].
  assert (Hnth : forall k, k < dj_nrows d -> nth k W nul = mzd_init m n). { intros k Hk. apply (repeat_spec (dj_nrows d)). apply nth_In. rewrite repeat_length. exact Hk. }
  split.
  - intros X HX. destruct (In_nth _ _ nul HX) as (k & Hk & <-). pose proof (H k ltac:(lia)) as Hs. rewrite Hnth in Hs by lia. split; [exact (mset_wf _ _ _ Hs)|]. split; [exact (mset_nr _ _ _ Hs)|exact (mset_nc _ _ _ Hs)].
  - intros k i c Hk Hi Hj. pose proof (H k ltac:(lia)) as Hs. rewrite Hnth in Hs by lia. rewrite (mset_bit _ _ _ i c Hs) by (cbn; lia).
    destruct (written (dj_prog d) k) eqn:Ew; [reflexivity|]. rewrite init_bit. destruct HM as (_ & HM). specialize (HM k Hk). rewrite Ew in HM.
    rewrite (bxsum_ext _ _ (fun _ => false)); [now rewrite bxsum_false|]. intros j Hj'. rewrite HM by lia. reflexivity.
Qed.
(** any program at all, whatever it computes: on every position it does what it does on bits *)
Theorem C46_any_program : forall d W V m n, all_mn m n W -> all_mn m n V -> dj_nrows d <= length W -> in_range (dj_nrows d) (length V) (dj_prog d) ->
  exists W', djb_apply_mzd_ptr d W V = Ok W' /\ length W' = length W /\
    forall k, k < length W -> mset (nth k W nul) (nth k W' nul) (fun i c => snd (bit_exec (dj_prog d) (fun j => mbit (nth j V nul) i c) (fun j => mbit (nth j W nul) i c)) k).
Proof. intros d W V m n HW HV H1 H2. apply wp_iff. apply (djb_apply_bits d W V m n); [now apply all_shape|now apply all_shape|exact H1|exact H2]. Qed.

(** ** Every matrix has a program: the one that adds the inputs one by one.  (M4RI's djb_compile finds shorter ones.) *)
Definition naive_prog (m n : nat) (M : nat -> nat -> bool) : list instr :=
  flat_map (fun t => flat_map (fun j => if M t j then [(t, j, true)] else []) (seq 0 n)) (seq 0 m).
Definition naive_compile (M : mzd) : djb := Djb (mzd_nrows M) (mzd_ncols M) (naive_prog (mzd_nrows M) (mzd_ncols M) (mbit M)).
Definition src_only (prog : list instr) : Prop := forall ins, In ins prog -> snd ins = true.
Definition tsum (v : nat -> bool) (t : nat) (prog : list instr) : bool :=
  fold_right (fun (ins : instr) acc => if fst (fst ins) =? t then xorb (v (snd (fst ins))) acc else acc) false prog.
Lemma exec_src prog v w t : src_only prog -> snd (bit_exec prog v w) t = if written prog t then tsum v t prog else w t.
Proof.
  induction prog as [|[[t' s] typ] prog IH]; intros H; [reflexivity|]. assert (Ht : typ = true) by (apply (H (t', s, typ)); now left). subst typ.
  specialize (IH (fun ins Hi => H ins (or_intror Hi))). rewrite exec_cons. cbn [written existsb tsum fold_right fst snd]. fold (written prog t) (tsum v t prog). rewrite (Nat.eqb_sym t' t).
  destruct (Nat.eqb_spec t t') as [<-|Hne]; cbn [orb]; [|exact IH]. rewrite IH. destruct (written prog t) eqn:E.
  - now rewrite xorb_comm.
  - assert (G : tsum v t prog = false); [|now rewrite G, xorb_false_r]. clear IH H. induction prog as [|[[t2 s2] ty2] prog IH]; [reflexivity|]. cbn [written existsb tsum fold_right fst snd] in *.
    fold (written prog t) in E. fold (tsum v t prog). destruct (t2 =? t); cbn [orb] in *; [discriminate E|]. now apply IH.
Qed.
Lemma tsum_app v t a b : tsum v t (a ++ b) = xorb (tsum v t a) (tsum v t b).
Proof. unfold tsum. induction a as [|x a IH]; cbn [app fold_right]; [now rewrite xorb_false_l|]. destruct (_ =? t); [|exact IH]. rewrite IH. now rewrite xorb_assoc. Qed.
Lemma written_app a b t : written (a ++ b) t = written a t || written b t.
Proof. apply existsb_app. Qed.
Definition row_prog (n : nat) (M : nat -> nat -> bool) (t : nat) : list instr := flat_map (fun j => if M t j then [(t, j, true)] else []) (seq 0 n).
Lemma row_tsum v t n M t' : tsum v t (row_prog n M t') = if t' =? t then bxsum n (fun j => M t j && v j) else false.
Proof.
  unfold row_prog. induction n as [|n IH]; [cbn; now destruct (t' =? t)|]. rewrite seq_S, flat_map_app, tsum_app, IH. cbn [flat_map Nat.add bxsum]. rewrite app_nil_r.
  destruct (Nat.eqb_spec t' t) as [E|Hne].
  - subst t'. destruct (M t n); cbn [tsum fold_right fst snd andb]; rewrite ?Nat.eqb_refl, ?xorb_false_r; reflexivity.
  - destruct (M t' n); cbn [tsum fold_right fst snd]; [|reflexivity]. now replace (t' =? t) with false by lia.
Qed.
Lemma row_written t n M t' : written (row_prog n M t') t = true -> t' = t.
Proof.
  unfold written. intros H. apply existsb_exists in H. destruct H as ([[a b] c] & Hin & E). cbn [fst] in E. unfold row_prog in Hin. apply in_flat_map in Hin. destruct Hin as (j & _ & Hj).
  destruct (M t' j); [|easy]. destruct Hj as [Hj|[]]. injection Hj as <- <- <-. lia.
Qed.
Lemma row_zero n M t : written (row_prog n M t) t = false -> forall j, j < n -> M t j = false.
Proof.
  intros H j Hj. destruct (M t j) eqn:E; [|reflexivity]. assert (written (row_prog n M t) t = true); [|congruence]. apply existsb_exists. exists (t, j, true). split; [|apply Nat.eqb_refl].
  unfold row_prog. apply in_flat_map. exists j. split; [apply in_seq; lia|]. rewrite E. now left.
Qed.
Lemma naive_tsum v t m n M : tsum v t (naive_prog m n M) = if t <? m then bxsum n (fun j => M t j && v j) else false.
Proof.
  unfold naive_prog. induction m as [|m IH]; [reflexivity|]. rewrite seq_S, flat_map_app, tsum_app, IH. cbn [flat_map Nat.add]. rewrite app_nil_r. fold (row_prog n M m). rewrite row_tsum.
  destruct (Nat.eqb_spec m t) as [->|Hne].
  - replace (t <? t) with false by lia. replace (t <? S t) with true by lia. apply xorb_false_l.
  - rewrite xorb_false_r. now replace (t <? S m) with (t <? m) by lia.
Qed.
Lemma naive_written t m n M : written (naive_prog m n M) t = (t <? m) && written (row_prog n M t) t.
Proof.
  unfold naive_prog. induction m as [|m IH]; [reflexivity|]. rewrite seq_S, flat_map_app, written_app, IH. cbn [flat_map Nat.add]. rewrite app_nil_r. fold (row_prog n M m).
  destruct (Nat.eqb_spec m t) as [->|Hne].
  - replace (t <? t) with false by lia. now replace (t <? S t) with true by lia.
  - assert (written (row_prog n M m) t = false) as ->. { destruct (written (row_prog n M m) t) eqn:E; [|reflexivity]. apply row_written in E. lia. }
    rewrite orb_false_r. now replace (t <? S m) with (t <? m) by lia.
Qed.
Theorem naive_compile_computes : forall m n M, computes m n M (naive_prog m n M).
Proof.
  intros m n M. assert (Hi : forall ins, In ins (naive_prog m n M) -> fst (fst ins) < m /\ snd (fst ins) < n /\ snd ins = true).
  { intros ins H. unfold naive_prog in H. apply in_flat_map in H. destruct H as (t & Ht & H). apply in_flat_map in H. destruct H as (j & Hj & H). apply in_seq in Ht, Hj.
    destruct (M t j); [|easy]. destruct H as [<-|[]]. cbn. lia. }
  split.
  - intros t s typ H. destruct (Hi _ H) as (H1 & H2 & H3). cbn [fst snd] in *. subst typ. now split.
  - intros t Ht. destruct (written (naive_prog m n M) t) eqn:E.
    + intros v w. rewrite exec_src, E, naive_tsum; [now replace (t <? m) with true by lia|]. intros ins H. now apply Hi.
    + rewrite naive_written in E. replace (t <? m) with true in E by lia. cbn [andb] in E. now apply row_zero.
Qed.
Print Assumptions C46_apply.
Print Assumptions C46_apply_fresh.
Print Assumptions C46_any_program.

(** a program with sharing: inputs a, b, c; W0 = a+b, W1 = a+b+c (computed from W0), W2 not written *)
Definition demo_djb : djb := Djb 3 3 [(1, 2, true); (1, 0, false); (0, 1, true); (0, 0, true)].
Definition demo_M (t j : nat) : bool := match t, j with 0, 0 | 0, 1 | 1, 0 | 1, 1 | 1, 2 => true | _, _ => false end.
Example demo_computes : computes 3 3 demo_M (dj_prog demo_djb).
Proof.
  split.
  - intros t s typ H. cbn in H. intuition; match goal with E : _ = (t, s, typ) |- _ => injection E as <- <- <- end; lia.
  - intros [|[|[|t]]] Ht; try lia; cbn [written existsb demo_djb dj_prog fst Nat.eqb orb].
    + intros v w. cbn. now destruct (v 0), (v 1), (v 2).
    + intros v w. cbn. now destruct (v 0), (v 1), (v 2).
    + intros [|[|[|j]]] Hj; (reflexivity || lia).
Qed.
Example C46_witness :
  let x v := mzd_build (mzd_init 1 3) (fun _ c => N.testbit v (N.of_nat c)) in
  let row W := map (fun M => word_of_bits 3 (mbit M 0)) W in
  (W <- djb_apply_mzd_ptr demo_djb [x 7%N; x 7%N; x 7%N] [x 1%N; x 2%N; x 4%N] ;; Ok (row W)) = Ok [3; 7; 7]%N.
Proof. vm_compute. reflexivity. Qed.
