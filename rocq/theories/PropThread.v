(** C63: programs with several threads.  (Steps of the threads, race freedom: ThreadModel.v; calls and their meaning:
    HistSpec.v, HistModel.v.) *)
From Coq Require Import NArith ZArith Lia List Bool Arith.
From Coq Require Import ZifyBool ZifyNat ZifyN.
From Verif Require Import Base Spec Gf2eModel Gf2eProofs MzdModel MzedModel MzedSpec SliceModel SliceSpec BlmSpec BlmOracle HistSpec HistModel HistProofs ThreadModel ThreadProofs Demo PropHist.
Import ListNotations.
Local Open Scope nat_scope.

(** run by itself, every thread of w ends without error *)
Definition fine_alone (cf : config) (w : world) : Prop :=
  forall i t, nth_error (w_threads w) i = Some t -> exists S S' os, sees w t S /\ run cf S (t_prog t) = Ok (S', os).

Lemma sees_unique w t S S2 : sees w t S -> sees w t S2 -> S = S2.
Proof.
  intros [L1 H1] [L2 H2]. assert (K : forall (l l2 : state), length l = length l2 -> (forall x, x < length l -> nth_error l x = nth_error l2 x) -> l = l2).
  { induction l as [|a l IH]; intros [|b l2] L H; try discriminate; auto. pose proof (H 0 ltac:(cbn; lia)) as K. injection K as ->. f_equal. apply IH; [cbn in L; lia|].
    intros x Hx. apply (H (Datatypes.S x)). cbn. lia. }
  apply K; [congruence|]. intros x Hx. rewrite <- H1, <- H2; auto. lia.
Qed.
Lemma choose_ends cf w : fine_alone cf w -> exists Ss oss, length Ss = length (w_threads w) /\ length oss = length (w_threads w) /\
  forall i t S' os, nth_error (w_threads w) i = Some t -> nth_error Ss i = Some S' -> nth_error oss i = Some os -> exists S, sees w t S /\ run cf S (t_prog t) = Ok (S', os).
Proof.
  unfold fine_alone. generalize (w_threads w) as l. intros l. induction l as [|t l IH]; intros H.
  - exists [], []. split; [reflexivity|]. split; [reflexivity|]. intros [|i] ? ? ? E; discriminate.
  - destruct IH as (Ss & oss & L1 & L2 & K); [intros i u Hu; exact (H (Datatypes.S i) u Hu)|]. destruct (H 0 t eq_refl) as (S & S' & os & E1 & E2).
    exists (S' :: Ss), (os :: oss). split; [cbn; lia|]. split; [cbn; lia|]. intros [|i] u X Y A B C; cbn in A, B, C; [|eauto]. injection A as <-. injection B as <-. injection C as <-. eauto.
Qed.
Lemma start cf w : race_free w -> fine_alone cf w -> exists Ss oss, inv cf Ss oss w /\
  forall i t S S' os, nth_error (w_threads w) i = Some t -> sees w t S -> nth_error Ss i = Some S' -> nth_error oss i = Some os -> run cf S (t_prog t) = Ok (S', os).
Proof.
  intros R A. destruct (choose_ends cf w A) as (Ss & oss & L1 & L2 & K). exists Ss, oss.
  assert (K' : forall i t S S' os, nth_error (w_threads w) i = Some t -> sees w t S -> nth_error Ss i = Some S' -> nth_error oss i = Some os -> run cf S (t_prog t) = Ok (S', os)).
  { intros i t S S' os Ht HS E1 E2. destruct (K i t S' os Ht E1 E2) as (S2 & J1 & J2). now rewrite (sees_unique _ _ _ _ HS J1). }
  split; [apply start_inv; auto|exact K'].
Qed.

(** Whatever the schedule: no call of any thread fails. *)
Theorem C63_no_failure : forall cf w w', race_free w -> fine_alone cf w -> steps cf w w' -> forall i, ~ fails cf i w'.
Proof. intros cf w w' R A ST i. destruct (start cf w R A) as (Ss & oss & I & _). eapply inv_safe. eapply steps_inv; eauto. Qed.
Print Assumptions C63_no_failure.

(** no thread waits for another: whatever has happened, all threads can run to their end *)
Theorem C63_no_deadlock : forall cf w w', race_free w -> fine_alone cf w -> steps cf w w' ->
  exists w'', steps cf w' w'' /\ forall i t, nth_error (w_threads w'') i = Some t -> finished t.
Proof.
  intros cf w w' R A ST. destruct (start cf w R A) as (Ss & oss & I & _). pose proof (steps_inv _ _ _ _ _ I ST) as I'.
  destruct (finish_below cf Ss oss w' I' _ (le_n _)) as (w2 & S2 & _ & L & F). exists w2. split; [exact S2|]. intros i t Ht. eapply F; eauto. rewrite <- L. eapply nth_error_lt; eauto.
Qed.
Print Assumptions C63_no_deadlock.

Lemma step_names cf i w w' j t' : step cf i w w' -> nth_error (w_threads w') j = Some t' ->
  exists t fresh, nth_error (w_threads w) j = Some t /\ t_names t' = t_names t ++ fresh /\ (forall a, In a fresh -> length (w_mem w) <= a) /\ length (w_mem w) <= length (w_mem w').
Proof.
  intros ST Ht'.
  assert (G : forall t u mem fresh, nth_error (w_threads w) i = Some t -> nth_error (put (w_threads w) i u) j = Some t' -> t_names u = t_names t ++ fresh -> (forall a, In a fresh -> length (w_mem w) <= a) -> length (w_mem w) <= length mem ->
    exists t fresh, nth_error (w_threads w) j = Some t /\ t_names t' = t_names t ++ fresh /\ (forall a, In a fresh -> length (w_mem w) <= a) /\ length (w_mem w) <= length (mem : list mval)).
  { intros t u mem fresh Ht E N F L. apply nth_put_inv in E; [|eapply nth_error_lt; eauto]. destruct E as [[-> ->]|[_ E]]; [exists t, fresh; auto|].
    exists t', []. rewrite app_nil_r. split; [exact E|]. split; [reflexivity|]. split; [intros ? []|exact L]. }
  destruct ST as [t c ch p Ht|t k x v Ht|t k x a v Ht Hk Hd Ha La|t k S o Ht|t k S S' o x a v Ht Hk HI Hd E Hv Ha La|t k S S' o v Ht]; cbn [w_threads w_mem] in *.
  - apply (G t _ _ [] Ht Ht'); [cbn; now rewrite app_nil_r|intros ? []|lia].
  - apply (G t _ _ [] Ht Ht'); [cbn; now rewrite app_nil_r|intros ? []|lia].
  - exists t', []. rewrite app_nil_r, put_length by easy. split; [exact Ht'|]. split; [reflexivity|]. split; [intros ? []|lia].
  - apply (G t _ _ [] Ht Ht'); [cbn; now rewrite app_nil_r|intros ? []|lia].
  - apply (G t _ _ [] Ht Ht'); [cbn; now rewrite app_nil_r|intros ? []|rewrite put_length; auto].
  - apply (G t _ _ [length (w_mem w)] Ht Ht'); [reflexivity|intros ? [<-|[]]; lia|rewrite app_length; lia].
Qed.
(** When a thread has finished (the others may still be at work), its answers and its matrices are those it gets when it runs
    alone.  The matrices it had at the beginning are where they were; new ones are at new places. *)
Theorem C63_schedule_invisible : forall cf w w' i t' , race_free w -> fine_alone cf w -> steps cf w w' ->
  nth_error (w_threads w') i = Some t' -> finished t' ->
  exists t fresh S S', nth_error (w_threads w) i = Some t /\ t_names t' = t_names t ++ fresh /\ (forall a, In a fresh -> length (w_mem w) <= a) /\
    sees w t S /\ run cf S (t_prog t) = Ok (S', t_out t') /\ sees w' t' S'.
Proof.
  intros cf w w' i t' R A ST Ht' F. destruct (start cf w R A) as (Ss & oss & I & K). pose proof (steps_inv _ _ _ _ _ I ST) as I'.
  assert (N : exists t fresh, nth_error (w_threads w) i = Some t /\ t_names t' = t_names t ++ fresh /\ (forall a, In a fresh -> length (w_mem w) <= a)).
  { enough (N : exists t fresh, nth_error (w_threads w) i = Some t /\ t_names t' = t_names t ++ fresh /\ (forall a, In a fresh -> length (w_mem w) <= a) /\ length (w_mem w) <= length (w_mem w'))
      by (destruct N as (t & fr & N1 & N2 & N3 & _); eauto).
    clear -ST Ht'. revert t' Ht'. induction ST as [w|j w w1 w2 ST IH S1]; intros t' Ht'.
    - exists t', []. rewrite app_nil_r. split; [exact Ht'|]. split; [reflexivity|]. split; [intros ? []|lia].
    - destruct (step_names cf j w1 w2 i t' S1 Ht') as (t1 & f1 & E1 & E2 & E3 & E4). destruct (IH t1 E1) as (t0 & f0 & E5 & E6 & E7 & E8). exists t0, (f0 ++ f1).
      split; [exact E5|]. split; [rewrite app_assoc; congruence|]. split; [|lia]. intros a Ha. apply in_app_or in Ha. destruct Ha as [Ha|Ha]; [auto|]. specialize (E3 a Ha). lia. }
  destruct N as (t & fr & N1 & N2 & N3). destruct (A i t N1) as (S & _ & _ & HS & _).
  destruct I as (J0 & L1 & L2 & J). pose proof (nth_error_lt _ _ _ N1) as Hi.
  destruct (nth_error Ss i) as [S'|] eqn:E1; [|apply nth_error_None in E1; lia]. destruct (nth_error oss i) as [os|] eqn:E2; [|apply nth_error_None in E2; lia].
  destruct (inv_finished cf Ss oss i w' t' S' os I' Ht' F E1 E2) as [K1 K2].
  exists t, fr, S, S'. split; [exact N1|]. split; [exact N2|]. split; [exact N3|]. split; [exact HS|]. split; [rewrite K1; eapply K; eauto|exact K2].
Qed.
Print Assumptions C63_schedule_invisible.

(** matrices that no program changes stay as they are, at all times *)
Theorem C63_untouched : forall cf w w' a, race_free w -> steps cf w w' -> a < length (w_mem w) ->
  (forall i t x, nth_error (w_threads w) i = Some t -> changed (t_prog t) x -> nth_error (t_names t) x <> Some a) ->
  nth_error (w_mem w') a = nth_error (w_mem w) a.
Proof.
  intros cf w w' a [R1 _] ST La U.
  assert (K : untouched w a).
  { split; [exact La|]. intros i t x Ht C. apply (U i t x Ht). unfold pending in C. destruct (R1 i t Ht) as (E & _). now rewrite E in C. }
  clear R1 U La. enough (untouched w' a /\ nth_error (w_mem w') a = nth_error (w_mem w) a) by easy.
  induction ST as [w|j w w1 w2 ST IH S1]; [auto|]. destruct (IH K) as [K1 K2]. destruct (step_untouched cf j w1 w2 a K1 S1) as [K3 K4]. split; [exact K3|congruence].
Qed.
Print Assumptions C63_untouched.

(** With C58: if the programs keep to the contracts of the calls, then what each thread computes is what its calls mean. *)
Theorem C63_threads : forall f cf w w', config_ok f cf -> race_free w ->
  (forall i t, nth_error (w_threads w) i = Some t -> exists ks st S, sees w t S /\ rel f ks st S /\ legal f ks st (t_prog t)) ->
  steps cf w w' ->
  (forall i, ~ fails cf i w') /\
  (exists w'', steps cf w' w'' /\ forall i t, nth_error (w_threads w'') i = Some t -> finished t) /\
  forall i t', nth_error (w_threads w') i = Some t' -> finished t' -> exists t S st S' st',
    nth_error (w_threads w) i = Some t /\ sees w t S /\ Forall2 (stands f) S st /\
    effects f st (map fst (t_prog t)) st' (t_out t') /\ sees w' t' S' /\ Forall2 (stands f) S' st'.
Proof.
  intros f cf w w' CF R H ST. assert (A : fine_alone cf w).
  { intros i t Ht. destruct (H i t Ht) as (ks & st & S & HS & RE & LE). destruct (run_ok f cf CF _ ks st S RE LE) as (S' & os & st' & E & _). eauto. }
  split; [eapply C63_no_failure; eauto|]. split; [eapply C63_no_deadlock; eauto|]. intros i t' Ht' F.
  destruct (C63_schedule_invisible cf w w' i t' R A ST Ht' F) as (t & fr & S & S' & Ht & _ & _ & HS & E & HS'). destruct (H i t Ht) as (ks & st & S2 & HS2 & RE & LE).
  pose proof (sees_unique _ _ _ _ HS HS2). subst S2. destruct (run_ok f cf CF _ ks st S RE LE) as (S3 & os & st' & E3 & EF & FA). rewrite E in E3. injection E3 as <- <-.
  exists t, S, st, S', st'. split; [exact Ht|]. split; [exact HS|]. split; [apply RE|]. auto.
Qed.
Print Assumptions C63_threads.

(** ** Concrete threads *)
Definition ff7 : gf2e := ltac:(let x := eval vm_compute in (gf2e_init 7) in match x with Ok ?k => exact k end).
Definition cf7 : config := cf1 ff7.
Definition X7 : mzed := ltac:(let x := eval vm_compute in (Demo.mk 7 2 2 (Demo.of_rows [[2; 1]; [0; 3]]%N)) in match x with Ok ?k => exact k end).
Definition Z7 : mzed := ltac:(let x := eval vm_compute in (mzed_init ff7 2 2) in match x with Ok ?k => exact k end).
(** both threads read the first matrix; each has one of its own and creates another *)
Definition both_read : world :=
  World [Pk X7; Pk Z7; Pk Z7]
    [Thread [0; 1] [(Mul (Some 1) 0 0, Naive); (Add None 0 1, Default); (Echelon true 2, NewtonJohn); (Read 1 0 1, Default)] [] None;
     Thread [2; 0] [(Copy (Some 0) 1, Default); (SetElem 0 1 0 3%N, Default); (Mul None 1 0, Strassen 128); (Read 2 1 0, Default)] [] None].
Example C63_race_free_witness : race_free both_read /\ fine_alone cf7 both_read.
Proof.
  split; [split|].
  - intros [|[|[|i]]] t E; try discriminate; injection E as <-; cbn; (split; [reflexivity|]; split; [reflexivity|]; split;
      [repeat constructor; cbn; intuition discriminate | intros a [<-|[<-|[]]]; lia]).
  - intros [|[|[|i]]] [|[|[|j]]] t u x a N E1 E2 (c & ch & C1 & C2) Ha; try discriminate; try (now elim N); injection E1 as <-; injection E2 as <-; cbn in *;
      repeat (destruct C1 as [C1|C1]; [injection C1 as <- <-; cbn in C2; try discriminate; injection C2 as <-; cbn in Ha; try discriminate; injection Ha as <-; intuition discriminate|]);
      destruct C1.
  - intros [|[|[|i]]] t E; try discriminate; injection E as <-.
    + exists [Pk X7; Pk Z7]. eexists _, _. split; [split; [reflexivity|]; intros [|[|x]] Hx; cbn in *; [reflexivity|reflexivity|lia]|]. vm_compute. reflexivity.
    + exists [Pk Z7; Pk X7]. eexists _, _. split; [split; [reflexivity|]; intros [|[|x]] Hx; cbn in *; [reflexivity|reflexivity|lia]|]. vm_compute. reflexivity.
Qed.
(** race freedom is needed: one thread writes an element, the other reads it *)
Definition racing : world :=
  World [Pk Z7] [Thread [0] [(SetElem 0 0 0 1%N, Default)] [] None; Thread [0] [(Read 0 0 0, Default)] [] None].
Definition writer_runs (w : world) : world :=
  World [Pk (match mzed_write_elem Z7 0 0 1 with Ok A => A | _ => Z7 end)] (put (w_threads w) 0 (Thread [0] [] [Nothing] None)).
Lemma writer_steps ths : nth_error ths 0 = Some (Thread [0] [(SetElem 0 0 0 1%N, Default)] [] None) ->
  steps cf7 (World [Pk Z7] ths) (writer_runs (World [Pk Z7] ths)).
Proof.
  intros E. assert (L : 0 < length ths) by (apply nth_error_Some; congruence).
  eapply (steps_more cf7 0); [eapply (steps_more cf7 0); [apply steps_none|]|].
  - eapply s_begin; [exact E|reflexivity|reflexivity].
  - cbn [t_names t_out w_mem w_threads]. unfold writer_runs. cbn [w_threads].
    match goal with |- step _ _ (World ?m (put ths 0 ?t)) _ => replace (put ths 0 (Thread [0] [] [Nothing] None)) with (put (put ths 0 t) 0 (Thread [0] [] [Nothing] None)) by (destruct ths; [inversion L|reflexivity]); remember t as T eqn:ET end.
    assert (Hn : nth_error (put ths 0 T) 0 = Some T) by (now apply nth_put_eq). subst T.
    match goal with |- step _ _ ?w _ => assert (G := s_write cf7 0 w _ _ [Pk Z7] [Pk (match mzed_write_elem Z7 0 0 1 with Ok A => A | _ => Z7 end)] Nothing 0 0 (Pk (match mzed_write_elem Z7 0 0 1 with Ok A => A | _ => Z7 end)) Hn eq_refl) end.
    apply G; clear G; try reflexivity; [|cbn; lia]. split; [reflexivity|]. intros x [<-|[]]. cbn. split; [reflexivity|discriminate].
Qed.
Lemma reader_steps A v ths : mzed_read_elem A 0 0 = Ok v -> nth_error ths 1 = Some (Thread [0] [(Read 0 0 0, Default)] [] None) ->
  steps cf7 (World [Pk A] ths) (World [Pk A] (put ths 1 (Thread [0] [] [Elem v] None))).
Proof.
  intros Ev E. assert (L : 1 < length ths) by (apply nth_error_Some; congruence).
  eapply (steps_more cf7 1); [eapply (steps_more cf7 1); [eapply (steps_more cf7 1); [apply steps_none|]|]|].
  - eapply s_begin; [exact E|reflexivity|reflexivity].
  - eapply (s_look cf7 1 _ _ _ 0 (Pk A)); [apply nth_put_eq; exact L|reflexivity|cbn; now left|discriminate|reflexivity].
  - cbn [t_names t_out t_prog w_mem w_threads c_cmd c_choice].
    assert (PP : forall (l : list thread) a b, 1 < length l -> put (put l 1 a) 1 b = put l 1 b) by (intros [|x [|y l]] a b K; cbn in K; try lia; reflexivity).
    match goal with |- step _ _ (World ?m (put (put ths 1 ?t0) 1 ?t)) _ =>
      replace (put ths 1 (Thread [0] [] [Elem v] None)) with (put (put (put ths 1 t0) 1 t) 1 (Thread [0] [] ([] ++ [Elem v]) None)) by (rewrite !PP; auto; rewrite put_length; auto) end.
    match goal with |- step _ _ (World ?m (put ?l 1 ?t)) _ => assert (L2 : 1 < length l) by (rewrite put_length; auto);
      pose proof (s_answer cf7 1 (World m (put l 1 t)) t _ [Pk A] (Elem v) (nth_put_eq _ _ _ L2) eq_refl) as G end.
    apply G; clear G; [|reflexivity|].
    + split; [reflexivity|]. intros x [<-|[]]. cbn. split; [reflexivity|discriminate].
    + exists [Pk A]. cbn [run_cmd c_cmd get nth_error bind]. now rewrite Ev.
Qed.
Theorem C63_race_refuted : exists w1 w2 t1 t2, steps cf7 racing w1 /\ steps cf7 racing w2 /\
  nth_error (w_threads w1) 1 = Some t1 /\ nth_error (w_threads w2) 1 = Some t2 /\ finished t1 /\ finished t2 /\ t_out t1 = [Elem 0%N] /\ t_out t2 = [Elem 1%N].
Proof.
  eexists _, _, (Thread [0] [] [Elem 0%N] None), (Thread [0] [] [Elem 1%N] None).
  split; [apply (reader_steps Z7 0%N); [vm_compute; reflexivity|reflexivity]|]. split.
  - eapply steps_trans; [apply (writer_steps (w_threads racing)); reflexivity|]. unfold writer_runs. apply (reader_steps _ 1%N); [vm_compute; reflexivity|reflexivity].
  - repeat split.
Qed.
Print Assumptions C63_race_refuted.
