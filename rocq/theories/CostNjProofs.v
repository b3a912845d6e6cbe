(** Forgetting the logs of CostNjModel.v; the number of field multiplications in products with Newton-John tables. *)
From Coq Require Import NArith ZArith List Bool Arith Lia.
From Coq Require Import ZifyBool ZifyNat ZifyN.
From Verif Require Import Base Gf2xModel Gf2eModel MzdModel MzedModel NjModel CostModel CostNjModel CostProofs.
Import ListNotations.
Local Open Scope nat_scope.

Lemma erase_axpy A ar B br x c : erase (mzed_add_multiple_of_row_l A ar B br x c) = mzed_add_multiple_of_row A ar B br x c.
Proof. unfold mzed_add_multiple_of_row_l. now destruct (mzed_add_multiple_of_row A ar B br x c). Qed.
Lemma erase_rescale A r c x : erase (mzed_rescale_row_l A r c x) = mzed_rescale_row A r c x.
Proof. unfold mzed_rescale_row_l. now destruct (mzed_rescale_row A r c x). Qed.
Lemma erase_naive C A B : erase (mzed_mul_naive_l_ C A B) = mzed_mul_naive_ C A B.
Proof. unfold mzed_mul_naive_l_. now destruct (mzed_mul_naive_ C A B). Qed.
Lemma erase_table T A r c : erase (mzed_make_table_l T A r c) = mzed_make_table T A r c.
Proof.
  unfold mzed_make_table_l, mzed_make_table. cbv zeta. apply erase_b.
  - apply erase_for. intros i M. apply erase_axpy.
  - intros M. cbv zeta. apply erase_q. intros [rows L]. apply erase_quiet.
Qed.
Lemma erase_col C T A B i : erase (mul_nj_col_l C T A B i) = mul_nj_col C T A B i.
Proof. unfold mul_nj_col_l, mul_nj_col. apply erase_b; [apply erase_table|]. intros T'. er. Qed.
Lemma erase_block Ts C A B lo hi : erase (mul_nj_block_l Ts C A B lo hi) = mul_nj_block Ts C A B lo hi.
Proof.
  unfold mul_nj_block_l, mul_nj_block. apply erase_for. intros i [C' Ts']. apply erase_b.
  - apply erase_for. intros k Us. apply erase_q. intros T. apply erase_b; [apply erase_table|]. intros T'. apply erase_quiet.
  - intros Us. er.
Qed.
Lemma erase_giant fuel : forall Ts C A B g bs, erase (giant_steps_l fuel Ts C A B g bs) = giant_steps fuel Ts C A B g bs.
Proof.
  induction fuel as [|fuel IH]; intros Ts C A B g bs; cbn [giant_steps_l giant_steps]; destruct (_ <=? _); try reflexivity.
  apply erase_b; [apply erase_block|]. intros [C' Ts']. apply IH.
Qed.
Lemma erase_mul_nj_ mb C A B : erase (mzed_mul_newton_john_l_ mb C A B) = mzed_mul_newton_john_ mb C A B.
Proof.
  unfold mzed_mul_newton_john_l_, mzed_mul_newton_john_. destruct (_ <? _); [apply erase_naive|]. apply erase_q. intros Ts. apply erase_b.
  - destruct (_ <=? _); [apply erase_giant|apply erase_quiet].
  - intros [[C' Ts'] g]. apply erase_b; [apply erase_block|]. intros [C2 Ts2]. apply erase_q. intros T. apply erase_b.
    + apply erase_for. intros i [C3 T3]. apply erase_col.
    + intros [C3 T3]. apply erase_quiet.
Qed.
Lemma erase_mul_nj mb C A B : erase (mzed_mul_newton_john_l mb C A B) = mzed_mul_newton_john mb C A B.
Proof. unfold mzed_mul_newton_john_l, mzed_mul_newton_john. apply erase_q. intros D. apply erase_mul_nj_. Qed.
Lemma erase_addmul_nj mb C A B : erase (mzed_addmul_newton_john_l mb C A B) = mzed_addmul_newton_john mb C A B.
Proof. unfold mzed_addmul_newton_john_l, mzed_addmul_newton_john. apply erase_q. intros D. apply erase_mul_nj_. Qed.
Lemma erase_find n : forall i A r c j, erase (gauss_find_l n i A r c j) = gauss_find n i A r c j.
Proof.
  induction n as [|n IH]; intros i A r c j; cbn [gauss_find_l gauss_find]; [apply erase_quiet|]. apply erase_b.
  - apply erase_for. intros l B. apply erase_q. intros x. destruct (_ =? _)%N; [apply erase_quiet|apply erase_axpy].
  - intros B. apply erase_q. intros x. destruct (_ =? _)%N; [apply IH|apply erase_quiet].
Qed.
Lemma erase_cols n : forall A r c e j s, erase (gauss_cols_l n A r c e j s) = gauss_cols n A r c e j s.
Proof.
  induction n as [|n IH]; intros A r c e j s; cbn [gauss_cols_l gauss_cols]; [apply erase_quiet|]. apply erase_b; [apply erase_find|].
  intros [B [[i x]|]]; [|apply erase_quiet]. apply erase_q. intros xi. apply erase_b; [apply erase_rescale|]. intros B1. apply erase_q. intros B2. apply erase_b.
  - apply erase_for. intros l B3. apply erase_q. intros y. destruct (_ =? _)%N; [apply erase_quiet|apply erase_axpy].
  - intros B3. apply IH.
Qed.
Lemma erase_tables Ts A r c k : erase (nj_tables_l Ts A r c k) = nj_tables Ts A r c k.
Proof. unfold nj_tables_l, nj_tables. apply erase_for. intros i Us. apply erase_q. intros T. apply erase_b; [apply erase_table|]. intros T'. apply erase_quiet. Qed.
Lemma erase_ech_loop fuel : forall full A Ts r c kk, erase (nj_ech_loop_l fuel full A Ts r c kk) = nj_ech_loop fuel full A Ts r c kk.
Proof.
  induction fuel as [|fuel IH]; intros full A Ts r c kk; cbn [nj_ech_loop_l nj_ech_loop]; destruct (c <? mz_ncols A); try reflexivity.
  cbv zeta. unfold mzed_gauss_submatrix_full. apply erase_b; [apply erase_cols|]. intros [B kbar]. destruct (kbar =? 0); [apply IH|].
  apply erase_b; [apply erase_tables|]. intros Us. apply erase_q. intros B1. apply erase_q. intros B2. apply IH.
Qed.
Lemma erase_ech_nj k0 A full : erase (mzed_echelonize_newton_john_l k0 A full) = mzed_echelonize_newton_john k0 A full.
Proof. unfold mzed_echelonize_newton_john_l, mzed_echelonize_newton_john. apply erase_q. intros Ts. apply erase_ech_loop. Qed.
Lemma erase_invert_nj k0 B A : erase (mzed_invert_newton_john_l k0 B A) = mzed_invert_newton_john k0 B A.
Proof.
  unfold mzed_invert_newton_john_l, mzed_invert_newton_john. apply erase_q. intros _. apply erase_q. intros I0. apply erase_q. intros I1. apply erase_q. intros T.
  apply erase_b; [apply erase_ech_nj|]. intros [T' r]. apply erase_q. intros J. apply erase_quiet.
Qed.

(** ** the logs of products *)
Lemma alw_axpy A ar B br x c : alw (mzed_add_multiple_of_row A ar B br x c) (fun A' => mz_ncols A' = mz_ncols A).
Proof.
  unfold mzed_add_multiple_of_row. apply alw_bind, alw_true. intros _. apply alw_bind, alw_true. intros _. destruct (x =? 0)%N; [now apply alw_ok|]. destruct (x =? 1)%N.
  - unfold mzed_add_row. repeat (apply alw_bind, alw_true; intros ?). now apply alw_ok.
  - repeat (apply alw_bind, alw_true; intros ?). now apply alw_ok.
Qed.
Lemma logs_axpy A ar B br x c : logs (mzed_add_multiple_of_row_l A ar B br x c) (fun A' lg => mz_ncols A' = mz_ncols A /\ lg = if (x <? 2)%N then [] else [(1, 1, mz_ncols A - c)]).
Proof.
  intros y lg. unfold mzed_add_multiple_of_row_l. destruct (mzed_add_multiple_of_row _ _ _ _ _ _) as [z| |] eqn:E; cbn; try easy. intros [= <- <-]. split; [|reflexivity].
  exact (alw_axpy _ _ _ _ _ _ _ E).
Qed.
Lemma logs_table T A r c n : mz_ncols (nj_M T) = n -> logs (mzed_make_table_l T A r c) (fun T' lg => mz_ncols (nj_M T') = n /\ calls (ff_degree (mz_ff A) - 1) (1, 1, n - c) lg).
Proof.
  intros En. unfold mzed_make_table_l. cbv zeta. apply logs_bind.
  assert (G : forall k i M, mz_ncols M = n -> logs (lloop k i (fun i M => mzed_add_multiple_of_row_l M i A r (N.shiftl 1 (N.of_nat i)) c) M)
                                               (fun M' lg => mz_ncols M' = n /\ calls (if i =? 0 then k - 1 else k) (1, 1, n - c) lg)).
  { induction k as [|k IH]; intros i M HM; cbn [lloop].
    - apply logs_quiet, alw_ok. split; [exact HM|]. destruct (i =? 0); apply calls_0.
    - apply logs_bind. eapply logs_mono; [apply logs_axpy|]. cbv beta. intros M' lg [HM' ->]. eapply logs_mono; [apply IH; congruence|]. cbv beta. intros M2 lg [H2 Hl]. split; [exact H2|].
      cbn [Nat.eqb] in Hl. rewrite HM. destruct i as [|i].
      + cbn [Nat.eqb]. change (N.shiftl 1 (N.of_nat 0)) with 1%N. cbn [N.ltb N.compare app]. rewrite Nat.sub_succ, Nat.sub_0_r. exact Hl.
      + cbn [Nat.eqb]. replace (N.shiftl 1 (N.of_nat (S i)) <? 2)%N with false.
        * exact (calls_app 1 k _ _ _ (calls_1 _) Hl).
        * symmetry. apply N.ltb_ge. rewrite N.shiftl_1_l. apply (N.pow_le_mono_r 2 1); lia. }
  eapply logs_mono; [apply G, En|]. cbv beta. intros M lg [HM Hl]. apply logs_q, alw_true. intros [rows L]. apply logs_quiet, alw_ok. rewrite app_nil_r. cbn [nj_M].
  split; [exact HM|]. now rewrite Nat.sub_0_r in Hl.
Qed.
Lemma alw_lset_in {X} (l : list X) i x : alw (lset l i x) (fun l' => forall y, In y l' -> y = x \/ In y l).
Proof.
  unfold lset. destruct (i <? length l); [|easy]. apply alw_ok. clear. revert i. induction l as [|a l IH]; intros [|i] y; cbn; try easy.
  - intros [->|H]; auto.
  - intros [->|H]; auto. destruct (IH i y H); auto.
Qed.
Definition njm (n : nat) (Ts : list njt) : Prop := forall T, In T Ts -> mz_ncols (nj_M T) = n.
Lemma logs_col C T A B i n : mz_ncols (nj_M T) = n -> logs (mul_nj_col_l C T A B i) (fun CT lg => mz_ncols (nj_M (snd CT)) = n /\ calls (ff_degree (mz_ff B) - 1) (1, 1, n) lg).
Proof.
  intros H. unfold mul_nj_col_l. apply logs_bind. eapply logs_mono; [apply logs_table, H|]. cbv beta. intros T' lg [HT Hl]. apply logs_q, alw_true. intros C'. apply logs_quiet, alw_ok.
  rewrite app_nil_r. rewrite Nat.sub_0_r in Hl. now split.
Qed.
Lemma logs_block Ts C A B lo hi n : njm n Ts ->
  logs (mul_nj_block_l Ts C A B lo hi) (fun CT lg => njm n (snd CT) /\ calls ((ff_degree (mz_ff B) - 1) * 8 * (mz_ncols A / 8)) (1, 1, n) lg).
Proof.
  intros H. unfold mul_nj_block_l. eapply logs_mono.
  - apply (logs_for (fun CT : mzed * list njt => njm n (snd CT)) ((ff_degree (mz_ff B) - 1) * 8) (1, 1, n)); [exact H|]. cbv beta. intros i [C1 Us] _ HU. cbn [snd] in HU.
    apply logs_bind. eapply logs_mono.
    + apply (logs_for (njm n) (ff_degree (mz_ff B) - 1) (1, 1, n)); [exact HU|]. cbv beta. intros k Vs _ HV. apply logs_q. eapply alw_mono; [apply alw_lget|]. cbv beta. intros T HT.
      apply logs_bind. eapply logs_mono; [apply logs_table, HV, HT|]. cbv beta. intros T' lg [HT' Hl]. apply logs_quiet. eapply alw_mono; [apply alw_lset_in|]. cbv beta. intros Ws HW.
      rewrite app_nil_r. rewrite Nat.sub_0_r in Hl. split; [|exact Hl]. intros y Hy. destruct (HW y Hy) as [->|Hy']; auto.
    + cbv beta. intros Us' lg [HU' Hl]. apply logs_q, alw_true. intros C'. apply logs_quiet, alw_ok. rewrite app_nil_r. split; [exact HU'|]. now rewrite Nat.sub_0_r in Hl.
  - cbv beta. intros CT lg [H1 H2]. split; [exact H1|]. now rewrite Nat.sub_0_r in H2.
Qed.
(** the number of giant steps *)
Lemma logs_giant A B bs n : 0 < bs -> forall fuel Ts C g, njm n Ts -> g <= mz_nrows A ->
  logs (giant_steps_l fuel Ts C A B g bs) (fun CT lg => njm n (snd (fst CT)) /\
    calls ((ff_degree (mz_ff B) - 1) * 8 * (mz_ncols A / 8) * ((mz_nrows A - g) / bs)) (1, 1, n) lg).
Proof.
  intros Hb. induction fuel as [|fuel IH]; intros Ts C g HT Hg; cbn [giant_steps_l].
  - destruct (Nat.leb_spec (g + bs) (mz_nrows A)) as [Hl|Hl]; [easy|]. apply logs_quiet, alw_ok. split; [exact HT|]. rewrite (Nat.div_small (mz_nrows A - g)) by lia. rewrite Nat.mul_0_r. apply calls_0.
  - destruct (Nat.leb_spec (g + bs) (mz_nrows A)) as [Hl|Hl].
    + apply logs_bind. eapply logs_mono; [apply logs_block, HT|]. cbv beta. intros [C' Ts'] lg [HT' Hlg]. eapply logs_mono; [apply IH; [exact HT'|exact Hl]|]. cbv beta. intros CT lg' [H1 H2].
      split; [exact H1|]. replace ((mz_nrows A - g) / bs) with (1 + (mz_nrows A - (g + bs)) / bs).
      * rewrite Nat.mul_add_distr_l, Nat.mul_1_r. now apply calls_app.
      * replace (mz_nrows A - g) with (mz_nrows A - (g + bs) + 1 * bs) by lia. rewrite Nat.div_add by lia. apply Nat.add_comm.
    + apply logs_quiet, alw_ok. split; [exact HT|]. rewrite (Nat.div_small (mz_nrows A - g)) by lia. rewrite Nat.mul_0_r. apply calls_0.
Qed.
Lemma alw_inits k ff n : alw (njt_inits k ff n) (njm n).
Proof.
  induction k as [|k IH]; cbn [njt_inits]; [apply alw_ok; now intros T []|].
  apply alw_bind. unfold njt_init. apply alw_bind, alw_true. intros T. apply alw_bind. unfold mzed_init. apply alw_bind, alw_true. intros w. apply alw_ok, alw_ok.
  apply alw_bind. eapply alw_mono; [exact IH|]. intros Ts HT. apply alw_ok. intros T' [<-|HT']; [reflexivity|auto].
Qed.
(** passes over the rows of A *)
Definition passes (mb : nat) (A : mzed) : nat := if mz_w A * mb <=? mz_nrows A then mz_nrows A / (mb / mz_w A) + 1 else 1.
Lemma logs_mul_nj_ mb C A B : 0 < mb / mz_w A -> ff_degree (mz_ff A) <= mz_nrows A ->
  logs (mzed_mul_newton_john_l_ mb C A B) (fun _ lg => calls ((ff_degree (mz_ff B) - 1) * (8 * (mz_ncols A / 8) * passes mb A + mz_ncols A mod 8)) (1, 1, mz_ncols B) lg).
Proof.
  intros Hb He. unfold mzed_mul_newton_john_l_. replace (_ <? _) with false by lia. apply logs_q. eapply alw_mono; [apply alw_inits|]. intros Ts HT.
  set (e := ff_degree (mz_ff B) - 1) in *. set (q := mz_ncols A / 8) in *. set (n := mz_ncols B) in *.
  assert (G : logs (if mz_w A * mb <=? mz_nrows A then giant_steps_l (mz_nrows A) Ts C A B 0 (mb / mz_w A) else quiet (Ok (C, Ts, 0)))
               (fun CT lg => njm n (snd (fst CT)) /\ calls (e * 8 * q * (passes mb A - 1)) (1, 1, n) lg)).
  { unfold passes. destruct (mz_w A * mb <=? mz_nrows A).
    - eapply logs_mono; [apply logs_giant; [exact Hb|exact HT|lia]|]. cbv beta. intros CT lg H. now rewrite Nat.add_sub, Nat.sub_0_r in *.
    - apply logs_quiet, alw_ok. split; [exact HT|]. rewrite Nat.sub_diag, Nat.mul_0_r. apply calls_0. }
  apply logs_bind. eapply logs_mono; [exact G|]. cbv beta. intros [[C1 T1] g] lg1 [H1 L1]. cbn [fst snd] in H1. clear G.
  apply logs_bind. eapply logs_mono; [apply logs_block, H1|]. cbv beta. intros [C2 T2] lg2 [H2 L2]. cbn [snd] in H2.
  apply logs_q. eapply alw_mono; [apply alw_lget|]. cbv beta. intros T HTi. apply logs_bind. eapply logs_mono.
  - apply (logs_for (fun CT : mzed * njt => mz_ncols (nj_M (snd CT)) = n) e (1, 1, n)); [exact (H2 T HTi)|]. cbv beta. intros i [C3 T3] _ H3. now apply logs_col.
  - cbv beta. intros [C3 T3] lg3 [_ L3]. apply logs_quiet, alw_ok. rewrite app_nil_r.
    assert (P : 1 <= passes mb A) by (unfold passes; destruct (_ <=? _); [apply Nat.le_add_l|apply le_n]).
    assert (Em : mz_ncols A - 8 * q = mz_ncols A mod 8) by (unfold q; pose proof (Nat.div_mod (mz_ncols A) 8 ltac:(lia)); lia). fold q in L3. rewrite Em in L3.
    replace (e * (8 * q * passes mb A + mz_ncols A mod 8)) with (e * 8 * q * (passes mb A - 1) + (e * 8 * q + e * (mz_ncols A mod 8))).
    + apply calls_app; [exact L1|]. apply calls_app; [exact L2|exact L3].
    + replace (passes mb A) with (passes mb A - 1 + 1) at 2 by lia. ring.
Qed.
