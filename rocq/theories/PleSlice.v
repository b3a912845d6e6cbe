(** Recursive PLE of bit-sliced matrices. *)
From Coq Require Import NArith ZArith Lia List Bool Arith.
From Coq Require Import ZifyBool ZifyNat ZifyN.
From Verif Require Import Base Spec LinSpec TrsmSpec PolyFacts MatFacts EchFacts Gf2xModel Gf2eModel Gf2eProofs MzdModel MzedModel MzedSpec.
From Verif Require Import LaneFacts MzedProofs MzedOps StrassenModel StrassenProofs SliceModel SliceSpec MzdFacts SliceProofs SliceOps SliceMul KaraModel KaraProofs ConvModel ConvSlice ConvCling.
From Verif Require Import MulModel MulProofs TrsmModel TrsmProofs TrsmRec PermModel PleModel PleSpec PleFacts PleProofs PermProofs PleComb.
Import ListNotations.
Local Open Scope nat_scope.

(** ** _mzd_compress_l *)
Definition cperm {X} (z : X) (r1 n1 r2 : nat) (F : nat -> nat -> X) : nat -> nat -> X := fun i k =>
  if i <? r1 then F i k else
  let e := Nat.min (S (i - r1)) r2 in
  if k <? r1 then F i k else if k <? r1 + e then F i (n1 + (k - r1)) else if k <? n1 + e then z else F i k.
Lemma compress_bits M r1 n1 r2 : wf_mzd M -> r1 <= n1 -> n1 + r2 <= mzd_ncols M -> r1 + r2 <= mzd_nrows M ->
  (forall i k, r1 <= i < mzd_nrows M -> r1 <= k < n1 -> mbit M i k = false) ->
  (forall i k, r1 + r2 <= i < mzd_nrows M -> n1 + r2 <= k < mzd_ncols M -> mbit M i k = false) ->
  wp (mzd_compress_l M r1 n1 r2) (fun M' => mset M M' (cperm false r1 n1 r2 (mbit M))).
Proof.
  intros HM H1 H2 H3 Hz Hz2. unfold mzd_compress_l. destruct (Nat.eqb_spec r1 n1) as [->|Hne].
  { cbn [wp]. eapply mset_ext; [now apply mset_refl|]. intros i k Hi Hk. unfold cperm. cbv zeta. destruct (Nat.ltb_spec i n1); [easy|].
    destruct (Nat.ltb_spec k n1); [easy|]. set (e := Nat.min _ _). destruct (Nat.ltb_spec k (n1 + e)); [f_equal; lia|easy]. }
  assert (Pre : compress_pre M r1 n1 r2 = true).
  { unfold compress_pre. rewrite !andb_true_iff, !Nat.leb_le, forallb_forall. split; [lia|]. intros i Hi. apply in_seq in Hi. rewrite forallb_forall.
    intros k Hk. apply in_seq in Hk. rewrite Hz2 by lia. reflexivity. }
  rewrite Pre. cbn [guard bind].
  apply wp_bind. eapply wp_mono.
  - apply (wp_for (fun t M' => mset M M' (fun i k => if (r1 <=? i) && (i <? r1 + r2) then mbit M i (swaps (cq r1 n1) (r1 + Nat.min t (S (i - r1))) k) else mbit M i k))); [lia| |].
    + eapply mset_ext; [now apply mset_refl|]. cbv beta. intros i k Hi Hk. destruct (_ && _) eqn:Z; [|easy]. cbn [Nat.min].
      rewrite (cq_swaps false) by (auto; intros; apply Hz; lia). destruct (Nat.ltb_spec k r1); [easy|]. replace (k <? r1 + 0) with false by lia.
      destruct (Nat.ltb_spec k (n1 + 0)); [|easy]. apply Hz; lia.
    + intros t M' Ht Sm. pose proof (mset_nr _ _ _ Sm) as E1. pose proof (mset_nc _ _ _ Sm) as E2.
      eapply wp_mono; [apply col_swap_in_rows_ok; [apply Sm|lia|lia|lia]|]. cbv beta. intros M'' Sm'.
      eapply mset_step; [exact Sm|exact Sm'|]. cbv beta. intros i k Hi Hk.
      rewrite !(mset_bit _ _ _ _ _ Sm) by lia. destruct (Nat.leb_spec (r1 + t) i) as [D|D]; cbn [andb].
      * destruct (Nat.ltb_spec i (r1 + r2)) as [D'|D']; cbn [andb].
        -- replace (r1 <=? i) with true by lia. cbn [andb]. replace (Nat.min t (S (i - r1))) with t by lia. replace (Nat.min (S t) (S (i - r1))) with (S t) by lia.
           rewrite Nat.add_succ_r. cbn [swaps]. replace (cq r1 n1 (r1 + t)) with (n1 + t) by (unfold cq; replace (r1 + t <? r1) with false by lia; lia). unfold tr.
           destruct (k =? r1 + t); [easy|]. now destruct (k =? n1 + t).
        -- now rewrite !andb_false_r.
      * destruct (_ && _) eqn:Z; [|easy]. do 3 f_equal. lia.
  - cbv beta. intros M' Sm. cbn [wp]. pose proof (mset_nr _ _ _ Sm) as E1. pose proof (mset_nc _ _ _ Sm) as E2.
    eapply mset_step; [exact Sm|apply mset_build; apply Sm|]. cbv beta. intros i k Hi Hk. unfold cperm. cbv zeta.
    rewrite (mset_bit _ _ _ i k Sm) by lia. destruct (Nat.ltb_spec i r1) as [D|D].
    + replace (r1 + r2 <=? i) with false by lia. cbn [andb]. now replace (r1 <=? i) with false by lia.
    + destruct (Nat.leb_spec (r1 + r2) i) as [D'|D']; cbn [andb].
      * replace (Nat.min (S (i - r1)) r2) with r2 by lia. replace (i <? r1 + r2) with false by lia. rewrite andb_false_r.
        destruct (Nat.ltb_spec k r1) as [Dk|Dk]; [now replace (r1 <=? k) with false by lia|]. replace (r1 <=? k) with true by lia. cbn [andb].
        destruct (Nat.ltb_spec k (n1 + r2)) as [Dk'|Dk'].
        -- destruct (Nat.ltb_spec k (r1 + r2)); [|easy]. rewrite (mset_bit _ _ _ _ _ Sm) by lia. replace (i <? r1 + r2) with false by lia. now rewrite andb_false_r.
        -- now replace (k <? r1 + r2) with false by lia.
      * replace (r1 <=? i) with true by lia. replace (i <? r1 + r2) with true by lia. cbn [andb]. rewrite (Nat.min_comm r2).
        rewrite (cq_swaps false) by (auto; intros; apply Hz; lia). easy.
Qed.
Theorem compress_ok A r1 n1 r2 : wf_slice A -> r1 <= n1 -> n1 + r2 <= sl_ncols A -> r1 + r2 <= sl_nrows A ->
  (forall i k, r1 <= i < sl_nrows A -> r1 <= k < n1 -> sentry A i k = 0%N) ->
  (forall i k, r1 + r2 <= i < sl_nrows A -> n1 + r2 <= k < sl_ncols A -> sentry A i k = 0%N) ->
  wp (mzd_slice_compress_l A r1 n1 r2) (fun A' => sbecomes A A' (cperm 0%N r1 n1 r2 (sentry A))).
Proof.
  intros HA H1 H2 H3 Hz Hz2. unfold mzd_slice_compress_l. apply map_ok; auto.
  - intros i c Hi Hc. unfold cperm. cbv zeta. pose proof (sentry_in A i c HA) as K. destruct (i <? r1); [now apply K|]. destruct (c <? r1); [now apply K|].
    destruct (Nat.ltb_spec c (r1 + Nat.min (S (i - r1)) r2)); [apply sentry_in; auto; lia|]. destruct (_ <? _); [|now apply K].
    apply N.neq_0_lt_0, N.pow_nonzero. lia.
  - intros b Hb W R1 R2. eapply wp_mono; [apply compress_bits; auto; try lia|].
    + intros i k Hi Hk. rewrite sbit by lia. rewrite Hz by lia. apply N.bits_0.
    + intros i k Hi Hk. rewrite sbit by lia. rewrite Hz2 by lia. apply N.bits_0.
    + cbv beta. intros x' Hx. eapply mset_ext; [exact Hx|]. cbv beta. intros i k Hi Hk. unfold cperm. cbv zeta.
      destruct (i <? r1); [now rewrite sbit|]. destruct (k <? r1); [now rewrite sbit|]. destruct (_ <? _); [now rewrite sbit|]. destruct (_ <? _); [easy|now rewrite sbit].
Qed.

(** ** windows of slices and of permutations *)
Lemma swin2 A f m n F lr lc hr hc : sholds A f m n F -> lr <= hr <= m -> lc <= hc <= n -> lc mod 64 = 0 ->
  wp (mzd_slice_window A lr lc hr hc) (fun W => sholds W f (hr - lr) (hc - lc) (sub F lr lc) /\ sl_ff W = sl_ff A /\
    forall W' G, sbecomes W W' G -> wp (mzd_slice_unwindow A lr lc W') (fun A' => sbecomes A A' (fun i c => if (lr <=? i) && (i <? hr) && (lc <=? c) && (c <? hc)
                                         then G (i - lr) (c - lc) else F i c))).
Proof.
  intros KA Hr Hc Ha. pose proof KA as (HA & A2 & A3 & A4 & A5).
  eapply wp_mono; [apply wp_conj; [apply swin_list with (lr := lr) (lc := lc) (hr := hr) (hc := hc); auto; lia|apply (swin_ok A f m n F lr lc hr hc); auto]|].
  cbv beta. intros W ((E1 & E2 & E3 & E4 & E5 & E6) & (KW & _)). split; [exact KW|]. split; [exact E1|].
  intros W' G BW. pose proof (sh_wf _ _ _ _ _ KW) as WW. pose proof (sb_wf _ _ _ BW) as WW'. pose proof (sb_depth _ _ _ WW BW) as Ed.
  unfold mzd_slice_unwindow. apply map_ok; auto.
  - intros i c Hi Hcc. destruct (_ && _ && _ && _) eqn:Z.
    + rewrite <- (sb_entry _ _ _ (i - lr) (c - lc) BW) by lia. replace (sfld A) with (sfld W'); [now apply sentry_in|]. rewrite (sb_ff _ _ _ BW). now rewrite E1.
    + rewrite <- A5 by lia. now apply sentry_in.
  - intros b Hb W1 W2 W3. rewrite lget_sx by (auto; congruence). cbn [bind wp].
    pose proof (sb_elim _ _ _ WW BW b ltac:(congruence)) as Hm.
    eapply mset_ext; [eapply (unwindow_ok (sx A b) lr lc hr hc (sx W b)); eauto; lia|]. cbv beta. intros i k Hi Hk.
    destruct (_ && _ && _ && _); [easy|]. rewrite sbit by easy. now rewrite A5 by lia.
Qed.
Lemma nth_skipn_ {X} (l : list X) o j d : nth j (skipn o l) d = nth (o + j) l d.
Proof. revert l. induction o as [|o IH]; intros [|x l]; cbn; auto. now destruct j. Qed.
Lemma nth_firstn_lt {X} (l : list X) m j d : j < m -> nth j (firstn m l) d = nth j l d.
Proof. revert l j. induction m as [|m IH]; intros [|x l] [|j] H; cbn; auto; try lia. apply IH. lia. Qed.
Lemma pwin_ok P b e : b <= e <= length P -> wp (mzp_window P b e) (fun W => length W = e - b /\ forall i, i < e - b -> at_ W i = at_ P (b + i)).
Proof.
  intros H. unfold mzp_window. replace ((b <=? e) && (e <=? length P)) with true by lia. cbn [guard bind wp].
  assert (L : length (firstn (e - b) (skipn b P)) = e - b) by (rewrite firstn_length, skipn_length; lia).
  split; [exact L|]. intros i Hi. unfold at_. rewrite nth_firstn_lt by lia. now rewrite nth_skipn_.
Qed.
Lemma punwin_len P b W : b + length W <= length P -> length (mzp_unwindow P b W) = length P.
Proof. intros H. unfold mzp_unwindow. rewrite !app_length, firstn_length, skipn_length. lia. Qed.
Lemma punwin_at P b W i : b + length W <= length P -> at_ (mzp_unwindow P b W) i = if (b <=? i) && (i <? b + length W) then at_ W (i - b) else at_ P i.
Proof.
  intros H. unfold mzp_unwindow, at_. assert (L : length (firstn b P) = b) by (rewrite firstn_length; lia).
  destruct (Nat.leb_spec b i) as [D|D]; cbn [andb].
  - rewrite app_nth2 by lia. rewrite L. destruct (Nat.ltb_spec i (b + length W)) as [D'|D'].
    + now rewrite app_nth1 by lia.
    + rewrite app_nth2 by lia. rewrite nth_skipn_. f_equal. lia.
  - rewrite app_nth1 by lia. now apply nth_firstn_lt.
Qed.
Lemma padd_ok P n d : n <= length P ->
  wp (for_ 0 n (fun i P2 => p <- lget P2 i ;; lset P2 i (p + d)) P) (fun P' => length P' = length P /\ forall i, at_ P' i = if i <? n then at_ P i + d else at_ P i).
Proof.
  intros H. apply (wp_for (fun t P' => length P' = length P /\ forall i, at_ P' i = if i <? t then at_ P i + d else at_ P i)); [lia|easy|].
  intros t P' Ht (L & E). rewrite (lget_ok P' t 0) by lia. cbn [bind]. rewrite lset_ok by lia. cbn [wp]. rewrite upd_length. split; [easy|].
  intros i. rewrite at_upd by lia. unfold upf. fold (at_ P' t). rewrite E. destruct (Nat.eqb_spec i t) as [->|Hne].
  - replace (t <? t) with false by lia. now replace (t <? S t) with true by lia.
  - rewrite E. destruct (Nat.ltb_spec i t), (Nat.ltb_spec i (S t)); try lia; reflexivity.
Qed.
Lemma pmove_ok Q r1 n1 r2 : r1 <= n1 -> n1 + r2 <= length Q ->
  wp (for_ 0 r2 (fun i Q => q <- lget Q (n1 + i) ;; lset Q (r1 + i) q) Q)
     (fun Q' => length Q' = length Q /\ forall i, at_ Q' i = if (r1 <=? i) && (i <? r1 + r2) then at_ Q (n1 + (i - r1)) else at_ Q i).
Proof.
  intros H1 H2. apply (wp_for (fun t Q' => length Q' = length Q /\ forall i, at_ Q' i = if (r1 <=? i) && (i <? r1 + t) then at_ Q (n1 + (i - r1)) else at_ Q i)); [lia| |].
  - split; [easy|]. intros i. destruct (_ && _) eqn:Z; [lia|easy].
  - intros t Q' Ht (L & E). rewrite (lget_ok Q' (n1 + t) 0) by lia. cbn [bind]. rewrite lset_ok by lia. cbn [wp]. rewrite upd_length. split; [easy|].
    intros i. rewrite at_upd by lia. unfold upf. fold (at_ Q' (n1 + t)). rewrite E. replace (n1 + t <? r1 + t) with (n1 <? r1) by lia. replace (n1 <? r1) with false by lia. rewrite andb_false_r.
    destruct (Nat.eqb_spec i (r1 + t)) as [->|Hne].
    + replace (r1 <=? r1 + t) with true by lia. replace (r1 + t <? r1 + S t) with true by lia. cbn [andb]. f_equal. lia.
    + rewrite E. destruct (Nat.ltb_spec i (r1 + t)), (Nat.ltb_spec i (r1 + S t)); try lia; reflexivity.
Qed.

Section Ple.
Variable f : N.
Hypothesis Hirr : irreducible f.
Hypothesis Hdeg : (2 <= pdeg f)%N.
Variables (m n n1 r1 : nat) (P1 : mzp) (F1 B1 X : mat).
Hypothesis Hr1 : r1 <= m.
Hypothesis Hr1' : r1 <= n1.
Hypothesis Hn1 : n1 < n.
Hypothesis Ha : n1 mod 64 = 0.
Hypothesis LP : length P1 = m.
Hypothesis HP : valid_perm m (at_ P1).
Hypothesis HP' : forall i, r1 <= i < m -> at_ P1 i = i.
Hypothesis HB : forall i j, i < m -> j < n1 -> F1 i j = B1 i j.
Hypothesis Hd : forall i, i < r1 -> B1 i i <> 0%N.
Hypothesis HX : inM f r1 (n - n1) X.
Hypothesis KX : forall i j, i < r1 -> j < n - n1 -> mmul f r1 (tril B1) X i j = F1 (swaps (at_ P1) r1 i) (n1 + j).

Lemma ple_mid_ok A : sholds A f m n F1 ->
  wp (if r1 =? 0 then Ok A else
              A <- on_swin A 0 n1 m n (fun A1 => mzd_slice_apply_p_left A1 P1) ;;
              A00 <- mzd_slice_window A 0 0 r1 r1 ;;
              A <- on_swin A 0 n1 r1 n (fun A01 => mzd_slice_trsm_lower_left A00 A01) ;;
              A10 <- mzd_slice_window A r1 0 m r1 ;;
              A01 <- mzd_slice_window A 0 n1 r1 n ;;
              on_swin A r1 n1 m n (fun A11 => mzd_slice_addmul (Some A11) A10 A01))
   (fun A' => sbecomes A A' (fun i c => if c <? n1 then B1 i c else if i <? r1 then X i (c - n1) else
      N.lxor (F1 (swaps (at_ P1) r1 i) c) (mmul f r1 (fun i k => B1 (r1 + i) k) X (i - r1) (c - n1)))).
Proof.
  intros KA. pose proof KA as (A1 & A2 & A3 & A4 & A5). destruct (Nat.eqb_spec r1 0) as [E0|Hne].
  { cbn [wp]. eapply sb_meq; [exact KA|now apply sb_refl|]. intros i c Hi Hc. rewrite A5 by easy. subst r1. cbn [swaps].
    destruct (Nat.ltb_spec c n1); [now apply HB|]. replace (i <? 0) with false by lia. cbn [mmul xsum]. unfold mmul. cbn [xsum]. now rewrite N.lxor_0_r. }
  assert (Sw : forall i, i < m -> swaps (at_ P1) r1 i < m).
  { intros i Hi. apply swaps_lt; auto. intros k Hk. pose proof (HP k ltac:(lia)). lia. }
  assert (Sm : forall i, swaps (at_ P1) m i = swaps (at_ P1) r1 i) by (intros; apply swaps_id; [lia|exact HP']).
  (* permute the right half *)
  apply wp_bind. eapply wp_mono; [apply (on_swin_ok A f m n F1 0 n1 m n _ (fun i j => F1 (swaps (at_ P1) r1 i) (n1 + j)) KA); auto; try lia|].
  { intros W HW _. rewrite Nat.sub_0_r in HW. pose proof HW as (W1 & W2 & W3 & W4 & W5).
    eapply wp_mono; [apply slice_apply_left_ok; [exact W1|]|].
    - intros i Hi. rewrite W3 in *. apply HP. lia.
    - cbv beta. rewrite W3, LP, Nat.min_id. intros W' BW. eapply sb_meq; [exact HW|exact BW|]. intros i j Hi Hj. rewrite Sm, W5 by auto. reflexivity. }
  cbv beta. intros Aa Ka. pose proof (sh_becomes _ _ _ _ _ _ _ KA Ka) as Ha'.
  (* solve *)
  apply wp_bind. eapply wp_mono; [apply (swin_ok Aa f m n _ 0 0 r1 r1 Ha'); try lia; reflexivity|]. cbv beta. intros A00 (H00 & _). rewrite Nat.sub_0_r in H00.
  apply wp_bind. eapply wp_mono; [apply (on_swin_ok Aa f m n _ 0 n1 r1 n _ X Ha'); auto; try lia|].
  { intros W HW _. rewrite Nat.sub_0_r in HW. unfold mzd_slice_trsm_lower_left, mzd_slice_trsm_lower_left_. pose proof H00 as (_ & _ & W3 & _ & _).
    eapply (strsm_lower_ok f Hirr Hdeg MZED_TRSM_CUTOFF ltac:(unfold MZED_TRSM_CUTOFF; lia) (S (sl_nrows A00)) r1 (n - n1) A00 W _ _ X ltac:(lia) H00 HW); [lia| |exact HX|].
    - intros i Hi. unfold sub. wsel; [lia|]. rewrite HB by lia. now apply Hd.
    - intros i j Hi Hj. unfold sub at 2. wsel; [|lia].
      transitivity (F1 (swaps (at_ P1) r1 i) (n1 + j)); [|f_equal; [f_equal; lia|lia]]. rewrite <- (KX i j Hi Hj). unfold mmul. apply xsum_ext. intros k Hk. f_equal. unfold tril, sub. destruct (k <=? i); [|reflexivity]. wsel; [lia|]. apply HB; lia. }
  cbv beta. intros Ab Kb. pose proof (sh_becomes _ _ _ _ _ _ _ Ha' Kb) as Hb.
  apply wp_bind. eapply wp_mono; [apply (swin_ok Ab f m n _ r1 0 m r1 Hb); try lia; reflexivity|]. cbv beta. intros A10 (H10 & _). rewrite Nat.sub_0_r in H10.
  apply wp_bind. eapply wp_mono; [apply (swin_ok Ab f m n _ 0 n1 r1 n Hb); auto; lia|]. cbv beta. intros A01 (H01 & _). rewrite Nat.sub_0_r in H01.
  eapply wp_mono; [apply (on_swin_ok Ab f m n _ r1 n1 m n _ (fun i j => N.lxor (F1 (swaps (at_ P1) r1 (r1 + i)) (n1 + j)) (mmul f r1 (fun i k => B1 (r1 + i) k) X i j)) Hb); auto; try lia|].
  { intros W HW _. eapply wp_mono; [apply (saddmul_h f W A10 A01 (m - r1) r1 (n - n1) _ _ _ HW H10 H01)|]. cbv beta. intros W' BW.
    eapply sb_meq; [exact HW|exact BW|]. intros i j Hi Hj. unfold madd. f_equal.
    - unfold sub. wsel; [lia|]. wsel; [|lia]. f_equal; [f_equal; lia|lia].
    - unfold mmul. apply xsum_ext. intros k Hk. f_equal; unfold sub; wsel; try lia; [wsel; [lia|]; apply HB; lia|f_equal; lia]. }
  cbv beta. intros Ac Kc. eapply sb_meq; [exact KA|eapply sb_step; [exact A1|eapply sb_step; [exact A1|exact Ka|exact Kb|]|exact Kc|]|]; [intros; reflexivity|intros; reflexivity|].
  intros i c Hi Hc. cbv beta. destruct (Nat.ltb_spec c n1) as [D|D].
  - replace (n1 <=? c) with false by lia. rewrite !andb_false_r. cbn [andb]. now apply HB.
  - destruct (Nat.ltb_spec i r1) as [Di|Di].
    + wsel; [lia|]. wsel; [|lia]. f_equal. lia.
    + wsel; [|lia]. f_equal. f_equal; [f_equal; lia|lia].
Qed.
End Ple.
