(** A family of n x n matrices on which mzed_echelonize_newton_john needs more than n^3/64 field multiplications. *)
From Coq Require Import NArith Lia List Bool Arith.
From Coq Require Import ZifyBool ZifyNat ZifyN.
From Verif Require Import Base Spec LinSpec PolyFacts MatFacts EchFacts Gf2xModel Gf2eModel Gf2eProofs.
From Verif Require Import MzdModel MzedModel MzedSpec LaneFacts MzedProofs MzedOps MzedOps2 EchNaive NjModel NjTable NjMul NjEch NjEch2 CostModel CostNjModel CostProofs CostNjProofs.
Import ListNotations.
Local Open Scope nat_scope.

Lemma logs_wp {T} (m : log T) m' P : erase m = m' -> wp m' P -> logs m (fun a _ => P a).
Proof. intros E H a l ->. subst m'. exact H. Qed.
Lemma logs_and {T} (m : log T) P Q : logs m P -> logs m Q -> logs m (fun a l => P a l /\ Q a l).
Proof. intros H1 H2 a l E. auto. Qed.
Lemma alw_wp' {T} (m : res T) P : wp m P -> alw m P.
Proof. intros H a ->. exact H. Qed.
Lemma mults_app l l' : mults (l ++ l') = mults l + mults l'.
Proof. induction l as [|[[m k] n] l IH]; [reflexivity|]. change (m * k * n + mults (l ++ l') = m * k * n + mults l + mults l'). rewrite IH. apply Nat.add_assoc. Qed.
Lemma mults_calls k n lg : calls k (1, 1, n) lg -> mults lg = k * n.
Proof. intros H. apply calls_repeat in H. subst lg. induction k as [|k IH]; [reflexivity|]. etransitivity; [exact (f_equal (Nat.add (1 * 1 * n)) IH)|lia]. Qed.

(** X below, 1 on the line (i, 2i), all odd columns 0 *)
Definition bad (i c : nat) : N := if Nat.even c then (if c <? 2 * i then 2%N else if c =? 2 * i then 1%N else 0%N) else 0%N.
Lemma bad_odd i t : bad i (2 * t + 1) = 0%N.
Proof. unfold bad. replace (Nat.even (2 * t + 1)) with false; [reflexivity|]. rewrite Nat.even_add, Nat.even_mul. reflexivity. Qed.
Lemma bad_even i t : bad i (2 * t) = if t <? i then 2%N else if t =? i then 1%N else 0%N.
Proof.
  unfold bad. rewrite Nat.even_mul. cbn [Nat.even orb]. replace (2 * t <? 2 * i) with (t <? i) by lia. now replace (2 * t =? 2 * i) with (t =? i) by lia.
Qed.
Section Worst.
Variables (f : N) (n : nat) (full : bool).
Hypothesis Hirr : irreducible f.
Hypothesis Hf : (2 <= pdeg f)%N.
Let f0 : f <> 0%N. Proof. intros ->. cbn in Hf. lia. Qed.
Lemma inF_2 : inF f 2. Proof. unfold inF. apply (N.lt_le_trans _ (2 ^ 2)%N); [reflexivity|]. apply N.pow_le_mono_r; lia. Qed.
Lemma inF_1 : inF f 1. Proof. unfold inF. apply (N.lt_le_trans _ (2 ^ 2)%N); [reflexivity|]. apply N.pow_le_mono_r; lia. Qed.
Lemma inF_bad i c : inF f (bad i c).
Proof. unfold bad. repeat match goal with |- context [if ?b then _ else _] => destruct b end; try apply inF_2; try apply inF_1; unfold inF; apply N.neq_0_lt_0, N.pow_nonzero; lia. Qed.
(** t stages are done, and in this stage the rows below i *)
Definition st (t i : nat) (A : mzed) : Prop := wf_mzed A /\ fld A = f /\ mz_nrows A = n /\ mz_ncols A = n /\
  forall i' c, t <= i' < n -> c < n -> entry A i' c = if (c <? 2 * t) || ((c =? 2 * t) && (t <? i') && (i' <? i)) then 0%N else bad i' c.
Lemma st_becomes t i i1 A A' F : st t i A -> becomes A A' F ->
  (forall i' c, t <= i' < n -> c < n -> F i' c = if (c <? 2 * t) || ((c =? 2 * t) && (t <? i') && (i' <? i1)) then 0%N else bad i' c) -> st t i1 A'.
Proof.
  intros (H1 & H2 & H3 & H4 & H5) B HF. split; [now apply (becomes_wf _ _ _ B)|]. split; [now rewrite (becomes_ff _ _ _ B)|]. split; [now rewrite (becomes_nr _ _ _ B)|]. split; [now rewrite (becomes_nc _ _ _ B)|].
  intros i' c Hi Hc. rewrite (becomes_entry _ _ _ _ _ B) by lia. auto.
Qed.
Lemma st_next t A : 2 * t + 2 <= n -> st t n A -> st (t + 1) (t + 2) A.
Proof.
  intros Hn (H1 & H2 & H3 & H4 & H5). repeat (split; [assumption|]). intros i' c Hi Hc. rewrite H5 by lia.
  destruct (Nat.ltb_spec c (2 * t)) as [L|L]; cbn [orb].
  - now replace (c <? 2 * (t + 1)) with true by lia.
  - destruct (Nat.eqb_spec c (2 * t)) as [->|E].
    + replace (t <? i') with true by lia. replace (i' <? n) with true by lia. now replace (2 * t <? 2 * (t + 1)) with true by lia.
    + cbn [andb]. destruct (Nat.eq_dec c (2 * t + 1)) as [->|E2].
      * rewrite bad_odd. now destruct (_ || _).
      * replace (c <? 2 * (t + 1)) with false by lia. cbn [orb]. replace ((t + 1 <? i') && (i' <? t + 2)) with false by lia. now rewrite <- andb_assoc, (ltac:(lia) : (t + 1 <? i') && (i' <? t + 2) = false), andb_false_r.
Qed.
(** the search in a column that starts a block, with the first row suitable *)
Lemma find_first k t A lo : st t lo A -> lo <= t + 1 -> 2 * t < n -> t < n -> gauss_find_l (S k) t A t (2 * t) (2 * t) = Ok ((A, Some (t, 1%N)), []).
Proof.
  intros (H1 & H2 & H3 & H4 & H5) Hlo Hn Ht. cbn [gauss_find_l]. unfold lfor. rewrite Nat.sub_diag. cbn [Nat.sub lloop]. unfold lbind, quiet. cbn [bind fst snd app].
  rewrite mzed_read_elem_ok by (auto; lia). cbn [bind fst snd app]. rewrite H5 by lia. rewrite !Nat.ltb_irrefl, andb_false_r. cbn [orb andb]. rewrite bad_even, Nat.ltb_irrefl, Nat.eqb_refl. reflexivity.
Qed.
(** and in a column of zeros *)
Lemma find_zero c r A : wf_mzed A -> c < mz_ncols A -> (forall i, r <= i < mz_nrows A -> entry A i c = 0%N) -> forall k i, r <= i -> i + k <= mz_nrows A ->
  gauss_find_l k i A r c c = Ok ((A, None), []).
Proof.
  intros H1 Hc Hz. induction k as [|k IH]; intros i Hi Hk; cbn [gauss_find_l]; [reflexivity|]. unfold lfor. rewrite Nat.sub_diag. cbn [Nat.sub lloop]. unfold lbind at 1, quiet at 1. cbn [bind fst snd app].
  unfold lbind, quiet. rewrite mzed_read_elem_ok by (auto; lia). cbn [bind fst snd app]. rewrite Hz by lia. cbn [N.eqb]. rewrite IH by lia. reflexivity.
Qed.
Lemma find_none t : 2 * t + 1 < n -> forall k i A, st t i A -> t < i -> i + k = n ->
  logs (gauss_find_l k i A t (2 * t) (2 * t + 1)) (fun Ap lg => snd Ap = None /\ st t n (fst Ap) /\ calls k (1, 1, n - 2 * t) lg).
Proof.
  intros Hn. induction k as [|k IH]; intros i A Sa Hi Hk; cbn [gauss_find_l].
  - apply logs_quiet, alw_ok. cbn [fst snd]. replace n with i by lia. split; [reflexivity|]. split; [exact Sa|]. apply calls_0.
  - pose proof Sa as (H1 & H2 & H3 & H4 & H5). apply logs_bind. unfold lfor. replace (2 * t + 1 - 2 * t - 0) with 1 by lia. cbn [lloop].
    apply logs_bind. rewrite !Nat.add_0_r. apply logs_q. rewrite mzed_read_elem_ok by (auto; lia). apply alw_ok.
    assert (Ei : entry A i (2 * t) = 2%N).
    { rewrite H5 by lia. rewrite !Nat.ltb_irrefl, andb_false_r. cbn [orb]. rewrite bad_even. now replace (t <? i) with true by lia. }
    rewrite Ei. change (2 =? 0)%N with false. cbv iota.
    assert (W : wp (mzed_add_multiple_of_row A i A t 2 (2 * t)) (st t (S i))).
    { eapply wp_mono; [apply mzed_add_multiple_of_row_ok; auto; try lia; rewrite H2; apply inF_2|]. cbv beta. intros A' B. apply (st_becomes t i (S i) A A' _ Sa B). cbv beta. intros i' c Hi' Hc.
      destruct (Nat.eqb_spec i' i) as [->|Hne]; cbn [andb].
      - destruct (Nat.leb_spec (2 * t) c) as [L|L].
        + replace (c <? 2 * t) with false by lia. cbn [orb]. rewrite !H5 by lia. replace (c <? 2 * t) with false by lia. cbn [orb]. rewrite !Nat.ltb_irrefl, !andb_false_r. cbn [andb]. rewrite H2.
          replace ((c =? 2 * t) && (t <? i) && (i <? S i)) with (c =? 2 * t) by lia.
          destruct (Nat.eqb_spec c (2 * t)) as [->|E].
          * rewrite !bad_even, Nat.ltb_irrefl, Nat.eqb_refl. replace (t <? i) with true by lia. rewrite fmul_1_r by (auto; apply inF_2). reflexivity.
          * replace (bad t c) with 0%N; [now rewrite fmul_0_r, N.lxor_0_r|]. unfold bad. destruct (Nat.even c); [|reflexivity]. now replace (c <? 2 * t) with false by lia; replace (c =? 2 * t) with false by lia.
        + rewrite H5 by lia. now replace (c <? 2 * t) with true by lia.
      - rewrite H5 by lia. replace ((c =? 2 * t) && (t <? i') && (i' <? S i)) with ((c =? 2 * t) && (t <? i') && (i' <? i)) by lia. reflexivity. }
    eapply logs_mono; [apply logs_and; [apply (logs_wp _ _ _ (erase_axpy _ _ _ _ _ _) W)|apply logs_axpy]|]. cbv beta. intros A' lg (S' & _ & Hlg). change (2 <? 2)%N with false in Hlg. cbv iota in Hlg. subst lg. rewrite H4.
    apply logs_quiet, alw_ok. pose proof S' as (G1 & G2 & G3 & G4 & G5). apply logs_q. rewrite mzed_read_elem_ok by (auto; lia). apply alw_ok.
    assert (Ez : entry A' i (2 * t + 1) = 0%N) by (rewrite G5 by lia; rewrite bad_odd; now destruct (_ || _)). rewrite Ez. cbn [N.eqb].
    eapply logs_mono; [apply IH; [exact S'|lia|lia]|]. cbv beta. intros Ap lg (K1 & K2 & K3). split; [exact K1|]. split; [exact K2|]. cbn [app]. exact (calls_app 1 k _ _ _ (calls_1 _) K3).
Qed.
Lemma cols_stage t k A : st t (t + 1) A -> 2 * t + 1 < n ->
  logs (gauss_cols_l (S (S k)) A t (2 * t) n (2 * t) t) (fun Ak lg => snd Ak = 1 /\ st t n (fst Ak) /\ (n - t - 1) * (n - 2 * t) <= mults lg).
Proof.
  intros S Hn. change (gauss_cols_l (Datatypes.S (Datatypes.S k)) A t (2 * t) n (2 * t) t) with
    ('(A0, p) <~ gauss_find_l (n - t) t A t (2 * t) (2 * t) ;; match p with None => quiet (Ok (A0, 2 * t - 2 * t)) | Some (i, x) =>
       xi <~ quiet (gf2e_inv (mz_ff A0) x) ;; A1 <~ mzed_rescale_row_l A0 i (2 * t) xi ;; A2 <~ quiet (mzed_row_swap A1 i t) ;;
       A3 <~ lfor t t (fun l A => tmp <~ quiet (mzed_read_elem A l (2 * t)) ;; if (tmp =? 0)%N then quiet (Ok A) else mzed_add_multiple_of_row_l A l A t tmp (2 * t)) A2 ;;
       gauss_cols_l (Datatypes.S k) A3 t (2 * t) n (Datatypes.S (2 * t)) (Datatypes.S t) end).
  pose proof S as (H1 & H2 & H3 & H4 & H5). replace (n - t) with (Datatypes.S (n - t - 1)) at 1 by lia. rewrite (find_first _ _ _ _ S) by lia.
  unfold lbind at 1. cbn [bind fst snd].
  assert (Hlog : forall (m : log (mzed * nat)) P, logs m P -> logs (y <- m ;; Ok (fst y, [] ++ snd y)) P).
  { intros m P HP a l E. destruct m as [[a' l']| |]; cbn in E; try discriminate E. injection E as <- <-. now apply HP. }
  apply Hlog. clear Hlog.
  destruct (gf2e_inv_ok (mz_ff A) 1) as (b & Eb & Hb & Hb1); [now destruct H1|now rewrite H2|rewrite H2; apply inF_1|lia|]. rewrite H2 in Hb, Hb1. rewrite fmul_1_l in Hb1 by (auto; lia). subst b.
  rewrite Eb. apply logs_q, alw_ok. apply logs_bind.
  assert (W : wp (mzed_rescale_row A t (2 * t) 1) (st t (t + 1))).
  { eapply wp_mono; [apply mzed_rescale_row_ok; auto; try lia; rewrite H2; apply inF_1|]. cbv beta. intros A' B. apply (st_becomes t (t + 1) (t + 1) A A' _ S B). cbv beta. intros i' c Hi' Hc.
    rewrite <- (H5 i' c Hi' Hc). destruct (Nat.eqb_spec i' t) as [->|]; cbn [andb]; [|reflexivity]. destruct (2 * t <=? c); [|reflexivity]. rewrite H2, fmul_1_l; auto. rewrite <- H2. apply wf_entry; auto; lia. }
  eapply logs_mono; [apply (logs_wp _ _ _ (erase_rescale _ _ _ _) W)|]. cbv beta. intros A1 lg1 S1. apply logs_q. pose proof S1 as (G1 & G2 & G3 & G4 & G5).
  eapply alw_mono; [apply alw_wp', mzed_row_swap_ok; auto; lia|]. cbv beta. intros A2 B2.
  assert (S2 : st t (t + 1) A2).
  { apply (st_becomes t (t + 1) (t + 1) A1 A2 _ S1 B2). cbv beta. intros i' c Hi' Hc. rewrite <- (G5 i' c Hi' Hc). now destruct (Nat.eqb_spec i' t) as [->|]. }
  apply logs_bind. unfold lfor. rewrite Nat.sub_diag. cbn [lloop]. apply logs_quiet, alw_ok. cbn [gauss_cols_l]. apply logs_bind.
  replace (Datatypes.S (2 * t)) with (2 * t + 1) by lia. replace (n - Datatypes.S t) with (n - t - 1) by lia.
  eapply logs_mono; [apply find_none; [lia|now rewrite <- Nat.add_1_r|lia|lia]|]. cbv beta. intros [A3 p] lg3 (K1 & K2 & K3). cbn [fst snd] in K1, K2. subst p.
  apply logs_quiet, alw_ok. cbn [fst snd]. split; [lia|]. split; [exact K2|]. rewrite !mults_app. rewrite (mults_calls _ _ _ K3). lia.
Qed.

Lemma njts_ff A A' q Ts : wf_mzed A -> wf_mzed A' -> fld A = fld A' -> mz_ncols A = mz_ncols A' -> njts (mz_ff A) (mz_ncols A) q Ts -> njts (mz_ff A') (mz_ncols A') q Ts.
Proof.
  intros H H' E En (L & HT). split; [exact L|]. intros i T Hi. specialize (HT i T Hi). rewrite E, En in HT.
  replace (ff_degree (mz_ff A')) with (ff_degree (mz_ff A)); [exact HT|]. destruct H as ((_ & H & _) & _), H' as ((_ & H' & _) & _). cbv zeta in H, H'. rewrite E in H. apply Nat2N.inj. congruence.
Qed.
Lemma st_gblock t A : st t n A -> 2 * t < n -> t < n -> gblock (mz_nrows A) (mz_ncols A) t (2 * t) 1 (entry A).
Proof.
  intros (H1 & H2 & H3 & H4 & H5) Hn Ht. rewrite H3, H4. split; [lia|]. split; [lia|]. split.
  - intros l l' Hl Hl'. replace l with 0 by lia. replace l' with 0 by lia. rewrite !Nat.add_0_r, H5 by lia. rewrite !Nat.ltb_irrefl, andb_false_r. cbn [orb andb]. now rewrite bad_even, Nat.ltb_irrefl, Nat.eqb_refl.
  - intros i j Hi Hj. rewrite H5 by lia. now replace (j <? 2 * t) with true by lia.
Qed.
Lemma loop_worst q kk : n = 4 * q -> 3 <= q -> 2 <= kk <= 6 -> forall d t fuel A Ts, d = q - t -> t <= q -> st t (t + 1) A -> njts (mz_ff A) (mz_ncols A) 6 Ts ->
  logs (nj_ech_loop_l fuel full A Ts t (2 * t) kk) (fun _ lg => d * (q * q) <= mults lg).
Proof.
  intros Hn Hq Hkk. induction d as [|d IH]; intros t fuel A Ts Hd Ht Sa HTs; [intros a l _; cbn; lia|].
  pose proof Sa as (H1 & H2 & H3 & H4 & H5). destruct fuel as [|fuel]; cbn [nj_ech_loop_l]; rewrite H4; replace (2 * t <? n) with true by lia; [intros a l E; discriminate E|].
  replace (n <? 2 * t + kk) with false by lia. cbv zeta. destruct kk as [|[|k]]; [lia|lia|]. apply logs_bind. rewrite H3.
  eapply logs_mono; [apply cols_stage; [exact Sa|lia]|]. cbv beta. intros [A1 kbar] lg1 (K1 & S1 & K3). cbn [fst snd] in K1, S1. subst kbar. cbn [Nat.eqb].
  pose proof S1 as (G1 & G2 & G3 & G4 & G5). pose proof (st_gblock t A1 S1 ltac:(lia) ltac:(lia)) as GB.
  assert (HT1 : njts (mz_ff A1) (mz_ncols A1) 6 Ts) by (apply (njts_ff A); auto; congruence).
  assert (Hw : 1 * mz_w A1 <= 64) by (pose proof (wf_good A1 G1) as [E|[E|[E|E]]]; rewrite E; lia).
  apply logs_bind. eapply logs_mono; [refine (logs_wp _ _ _ (erase_tables _ _ _ _ _) (nj_tables_ok Ts A1 t (2 * t) 1 6 _ _ _ _ _)); auto; lia|]. cbv beta. intros Ts' lg2 (HT' & TF).
  apply logs_q, alw_ok.
  assert (W : alw (if full then mzed_process_rows A1 0 t (2 * t) (firstn 1 Ts') else Ok A1) (fun A2 => st t n A2 /\ mz_ff A2 = mz_ff A1 /\ mz_ncols A2 = mz_ncols A1)).
  { destruct full; [|apply alw_ok; auto]. apply alw_wp'. eapply wp_mono; [apply (process_rows_ok A1 A1 0 t t (2 * t) 1); auto; try lia; apply same_shape_refl|]. cbv beta. intros A2 B2. split; [|split; [apply (becomes_ff _ _ _ B2)|apply (becomes_nc _ _ _ B2)]].
    apply (st_becomes t n n A1 A2 _ S1 B2). intros i' c Hi' Hc. rewrite comb_out by lia. now apply G5. }
  apply logs_q. eapply alw_mono; [exact W|]. cbv beta. intros A2 (S2 & Ef2 & Ec2). rewrite <- Ef2, <- Ec2 in HT'.
  pose proof (st_next t A2 ltac:(lia) S2) as S3. pose proof S3 as (J1 & J2 & J3 & J4 & J5).
  destruct fuel as [|fuel]; cbn [nj_ech_loop_l]; rewrite J4; replace (2 * t + 1 <? n) with true by lia; [intros a l E; discriminate E|].
  replace (n <? 2 * t + 1 + S (S k)) with false by lia. rewrite J3.
  assert (Z : gauss_cols_l (S (S k)) A2 (t + 1) (2 * t + 1) n (2 * t + 1) (t + 1) = Ok ((A2, 0), [])).
  { cbn [gauss_cols_l]. rewrite (find_zero (2 * t + 1) (t + 1) A2) by (auto; try lia; intros i Hi; rewrite J5 by lia; now replace (2 * t + 1 <? 2 * (t + 1)) with true by lia). unfold lbind. cbn [bind fst snd quiet app]. now rewrite Nat.sub_diag. }
  rewrite Z. apply logs_bind. intros a l E. injection E as <- <-. cbn [Nat.eqb]. replace (2 * t + 1 + 1) with (2 * (t + 1)) by lia.
  eapply logs_mono; [apply (IH (t + 1)); auto; try lia|].
  - replace (t + 1 + 1) with (t + 2) by lia. exact S3.
  - cbv beta. intros b lg Hb. cbn [app]. rewrite !mults_app. assert (q * q <= (n - t - 1) * (n - 2 * t)) by (apply Nat.mul_le_mono; lia). lia.
Qed.
(** the whole function *)
Lemma ech_worst q k0 A : n = 4 * q -> 3 <= q -> 2 <= nj_kk k0 (ff_degree (mz_ff A)) <= 6 -> wf_mzed A -> fld A = f -> mz_nrows A = n -> mz_ncols A = n ->
  (forall i j, i < n -> j < n -> entry A i j = bad i j) ->
  logs (mzed_echelonize_newton_john_l k0 A full) (fun _ lg => q * q * q <= mults lg).
Proof.
  intros Hn Hq Hk H1 H2 H3 H4 H5. unfold mzed_echelonize_newton_john_l. apply logs_q. destruct (wf_deg2 A H1) as [Hff Hd2].
  eapply alw_mono; [apply alw_wp', njt_inits_ok; auto|]. cbv beta. intros Ts (L & HT).
  eapply logs_mono; [apply (loop_worst q _ Hn Hq Hk q 0); [lia|lia| |now split]|].
  - repeat (split; [assumption|]). intros i' c Hi Hc. rewrite H5 by lia. cbn [Nat.mul]. replace (c <? 0) with false by lia. cbn [orb]. replace (i' <? 0 + 1) with (i' =? 0) by lia.
    destruct (Nat.eqb_spec i' 0) as [->|]; [|now rewrite andb_false_r]. rewrite Nat.ltb_irrefl. now rewrite andb_false_r.
  - cbv beta. intros a l Hl. lia.
Qed.
End Worst.
