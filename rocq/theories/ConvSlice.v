(** Packed -> sliced: the conversion writes bit t of every element into slice t (C35). *)
From Coq Require Import NArith ZArith Lia List Bool Arith Btauto.
From Coq Require Import ZifyBool ZifyNat ZifyN.
From Verif Require Import Base Spec PolyFacts MatFacts Gf2xModel Gf2xProofs Gf2eModel Gf2eProofs MzdModel MzedModel MzedSpec LaneFacts MzedProofs MzedOps MzedOps2 SliceModel SliceSpec MzdFacts SliceProofs SliceOps KaraModel ConvTable ConvModel ConvBits.
Import ListNotations.
Local Open Scope nat_scope.
Notation dm := (Mzd 0 0 []).

Lemma last_mask N p : 0 < N -> p < 64 -> tb (left_bitmask (N mod 64)) p = (64 * (width N - 1) + p <? N).
Proof.
  intros HN Hp. unfold tb. pose proof (Nat.mod_upper_bound N 64 ltac:(lia)) as Mu. rewrite testbit_left_bitmask by easy.
  pose proof (Nat.div_mod N 64 ltac:(lia)) as Dm. pose proof (width_ge N) as W1. pose proof (width_lt N) as W2.
  destruct (Nat.eqb_spec (N mod 64) 0) as [E|E]; lia.
Qed.
Lemma left_bitmask_lt n : n < 64 -> (left_bitmask n < 2 ^ 64)%N.
Proof. intros H. apply lt64_bits. intros k Hk. rewrite testbit_left_bitmask by easy. destruct (n =? 0); lia. Qed.
Lemma nblocks w n : good_w w -> 0 < n -> (width (w * n) - 1) / w = width n - 1 /\ 0 < width (w * n) /\ 0 < width n.
Proof.
  intros Hw Hn. assert (B : 0 < w) by (apply good_w_pos in Hw; lia).
  pose proof (width_ge (w * n)) as A1. pose proof (width_lt (w * n)) as A2. pose proof (width_ge n) as A3. pose proof (width_lt n) as A4.
  split; [|split; nia]. assert (P1 : 0 < width n) by nia. assert (P2 : 0 < width (w * n)) by nia.
  symmetry. apply (Nat.div_unique _ w (width n - 1) (width (w * n) - 1 - w * (width n - 1))); [|nia]. nia.
Qed.
Lemma mbit_word M i q p : p < 64 -> mbit M i (64 * q + p) = tb (nth q (mrow M i) 0%N) p.
Proof.
  intros Hp. unfold mbit, rbit, tb. rewrite (Nat.mul_comm 64 q), Nat.div_add_l, (Nat.add_comm (q * 64)), Nat.mod_add by lia.
  rewrite Nat.div_small, Nat.mod_small by easy. now rewrite Nat.add_0_r.
Qed.
Lemma rbit_word r q p : p < 64 -> rbit r (64 * q + p) = tb (nth q r 0%N) p.
Proof.
  intros Hp. unfold rbit, tb. rewrite (Nat.mul_comm 64 q), Nat.div_add_l, (Nat.add_comm (q * 64)), Nat.mod_add by lia.
  rewrite Nat.div_small, Nat.mod_small by easy. now rewrite Nat.add_0_r.
Qed.

Section SL.
Variables (w : nat) (F : mzd) (m n D : nat) (X0 : list mzd).
Hypothesis Hw : good_w w.
Hypothesis Hn : 0 < n.
Hypothesis HF : wf_mzd F.
Hypothesis HFr : mzd_nrows F = m.
Hypothesis HFc : mzd_ncols F = w * n.
Hypothesis HD : length X0 = D.
Hypothesis HX0 : forall t, t < D -> wf_mzd (nth t X0 dm) /\ mzd_nrows (nth t X0 dm) = m /\ mzd_ncols (nth t X0 dm) = n.
Hypothesis HZ : forall t i c, t < D -> i < m -> c < n -> mbit (nth t X0 dm) i c = false.

Definition want (t i x : nat) : bool := if x <? n then mbit F i (w * x + t) else mbit (nth t X0 dm) i x.
Definition SInv (done : nat -> nat -> nat -> bool) (X : list mzd) : Prop :=
  length X = D /\
  forall t, t < D -> wf_mzd (nth t X dm) /\ mzd_nrows (nth t X dm) = m /\ mzd_ncols (nth t X dm) = n /\
    forall i q p, i < m -> q < width n -> p < 64 ->
      mbit (nth t X dm) i (64 * q + p) = if done t i q then want t i (64 * q + p) else mbit (nth t X0 dm) i (64 * q + p).
Lemma SInv_ext d d' X : (forall t i q, t < D -> i < m -> q < width n -> d t i q = d' t i q) -> SInv d X -> SInv d' X.
Proof.
  intros E (L & H). split; [exact L|]. intros t Ht. destruct (H t Ht) as (H1 & H2 & H3 & H4). split; [exact H1|]. split; [exact H2|]. split; [exact H3|].
  intros i q p Hi Hq Hp. rewrite <- E by easy. now apply H4.
Qed.
Lemma SInv_init : SInv (fun _ _ _ => false) X0.
Proof. split; [exact HD|]. intros t Ht. destruct (HX0 t Ht) as (H1 & H2 & H3). split; [exact H1|]. split; [exact H2|]. split; [exact H3|]. reflexivity. Qed.

Lemma upd_word_ok done X t i q g : SInv done X -> t < D -> i < m -> q < width n ->
  (forall v, (v < 2 ^ 64)%N ->
     (forall p, p < 64 -> if 64 * q + p <? n then tb v p = true -> want t i (64 * q + p) = true else tb v p = want t i (64 * q + p)) ->
     wp (g v) (fun v' => (v' < 2 ^ 64)%N /\ forall p, p < 64 -> tb v' p = want t i (64 * q + p))) ->
  wp (upd_word X t i q g) (SInv (fun t' i' q' => done t' i' q' || ((t' =? t) && (i' =? i) && (q' =? q)))).
Proof.
  intros (L & HX) Ht Hi Hq Hg. destruct (HX t Ht) as (W & R1 & R2 & HB). unfold upd_word. rewrite (lget_ok _ _ dm) by lia. cbn [bind].
  rewrite wf_lget_row by (auto; lia). cbn [bind]. pose proof W as (W1 & W2). destruct (W2 i ltac:(lia)) as [L1 L2]. rewrite R2 in L1.
  rewrite (lget_ok _ _ 0%N) by lia. cbn [bind]. apply wp_bind. eapply wp_mono.
  - apply Hg; [apply wf_word; auto; lia|]. intros p Hp. rewrite <- mbit_word by easy. rewrite HB by easy. unfold want.
    destruct (Nat.ltb_spec (64 * q + p) n) as [Hlt|Hge].
    + destruct (done t i q); [easy|]. rewrite HZ by easy. easy.
    + destruct (done t i q); reflexivity.
  - cbv beta. intros v' [Hv' Hb]. rewrite lset_ok by lia. cbn [bind]. rewrite lset_ok by lia. cbn [bind]. rewrite lset_ok by lia. cbn [wp].
    set (M' := Mzd _ _ _).
    assert (E : forall i', mrow M' i' = if i =? i' then upd (mrow (nth t X dm) i) q v' else mrow (nth t X dm) i').
    { intros i'. unfold M', mrow at 1. cbn [mzd_rows]. rewrite nth_upd by lia. destruct (i =? i'); reflexivity. }
    split; [now rewrite upd_length|]. intros t' Ht'. rewrite nth_upd by lia. rewrite (Nat.eqb_sym t' t). destruct (Nat.eqb_spec t t') as [<-|Hne].
    + split; [|split; [exact R1|split; [exact R2|]]].
      * split; [unfold M'; cbn [mzd_rows mzd_nrows]; now rewrite upd_length|]. intros i' Hi'. unfold M' in Hi'. cbn [mzd_nrows] in Hi'. change (mzd_ncols M') with (mzd_ncols (nth t X dm)). rewrite E.
        destruct (Nat.eqb_spec i i') as [<-|]; [|now apply W2]. split; [rewrite upd_length; rewrite R2; exact L1|]. now apply Forall_upd.
      * intros i' q' p Hi' Hq' Hp. rewrite mbit_word by easy. rewrite E. cbn [andb]. rewrite (Nat.eqb_sym i' i). destruct (Nat.eqb_spec i i') as [<-|Hne2].
        -- rewrite nth_upd by lia. cbn [andb]. rewrite (Nat.eqb_sym q' q). destruct (Nat.eqb_spec q q') as [<-|Hne3].
           ++ rewrite orb_true_r. now apply Hb.
           ++ rewrite orb_false_r. rewrite <- mbit_word by easy. now apply HB.
        -- cbn [andb]. rewrite orb_false_r. rewrite <- mbit_word by easy. now apply HB.
    + destruct (HX t' Ht') as (K1 & K2 & K3 & K4). split; [exact K1|]. split; [exact K2|]. split; [exact K3|]. intros i' q' p Hi' Hq' Hp. cbn [andb]. rewrite orb_false_r. now apply K4.
Qed.

(** one statement per slice of ts *)
Lemma fold_upd (i q : nat) ts (tm : nat -> list (nat * nat * nat)) (stp : res (list mzd) -> nat * list (nat * nat * nat) -> res (list mzd)) :
  i < m -> q < width n -> (forall t, In t ts -> t < D) ->
  (forall done X t, In t ts -> SInv done X -> wp (stp (Ok X) (t, tm t)) (SInv (fun t' i' q' => done t' i' q' || ((t' =? t) && (i' =? i) && (q' =? q))))) ->
  forall done X, SInv done X ->
  wp (fold_left stp (map (fun t => (t, tm t)) ts) (Ok X))
     (SInv (fun t' i' q' => done t' i' q' || (memb ts t' && (i' =? i) && (q' =? q)))).
Proof.
  intros Hi Hq HT Hop. induction ts as [|t ts IH]; intros done X HX.
  - cbn [map fold_left wp]. eapply SInv_ext; [|exact HX]. intros. cbn. now rewrite orb_false_r.
  - cbn [map fold_left bind].
    pose proof (Hop done X t (or_introl eq_refl) HX) as W. destruct (stp (Ok X) (t, tm t)) as [X1| |]; try contradiction. cbn [wp] in W.
    eapply wp_mono; [apply IH|].
    + intros u Hu. apply HT. now right.
    + intros d Y u Hu. apply Hop. now right.
    + exact W.
    + cbv beta. intros Y. apply SInv_ext. intros t' i' q' _ _ _. unfold memb. cbn [existsb]. btauto.
Qed.

Variable p : spass.
Variable ts : list nat.
Hypothesis Hreg : sreg w p ts.
Hypothesis Hts : forall t, In t ts -> t < D.
Hypothesis HDw : D <= w.

Lemma slice_row_ok done X i : SInv done X -> i < m ->
  wp (slice_row w p F (left_bitmask (n mod 64)) i X) (SInv (fun t' i' q' => done t' i' q' || (memb ts t' && (i' =? i)))).
Proof.
  intros HX Hi. destruct Hreg as (Rb & Rr & _). destruct (nblocks w n Hw Hn) as (Nb & Wp & Wp2). pose proof (good_w_pos w Hw) as Gw.
  unfold slice_row. rewrite wf_lget_row by (auto; lia). cbn [bind]. unfold mzd_width. rewrite HFc, Nb.
  pose proof HF as (F1 & F2). destruct (F2 i ltac:(lia)) as [L1 L2]. rewrite HFc in L1.
  assert (Hfw : forall j, (nth j (mrow F i) 0 < 2 ^ 64)%N) by (intros j; apply wf_word; auto; lia).
  pose proof (width_ge (w * n)) as A1. pose proof (width_lt (w * n)) as A2. pose proof (width_ge n) as A3. pose proof (width_lt n) as A4.
  assert (Hwb : w * (width n - 1) < width (w * n)) by (assert (64 * (w * (width n - 1)) < 64 * width (w * n)) by nia; lia).
  assert (Hwt : width (w * n) <= w * width n) by (assert (64 * width (w * n) < 64 * (w * width n + 1)) by nia; lia).
  apply wp_bind. eapply wp_mono.
  - apply (wp_for (fun q => SInv (fun t' i' q' => done t' i' q' || (memb ts t' && (i' =? i) && (q' <? q))))); [lia| |].
    + eapply SInv_ext; [|exact HX]. intros. cbv beta. replace (q <? 0) with false by lia. now rewrite andb_false_r, orb_false_r.
    + intros q Y Hq HY. rewrite Rb. eapply wp_mono.
      * apply (fold_upd i q ts (fun t => sterms w (seq 0 w) t) (fun acc '(t, terms) =>
           X <- acc ;; upd_word X t i q (fun v => e <- or_terms (sterm w (mrow F i) (w * q)) terms ;; Ok (if sp_set p then e else N.lor v e)))); [lia|lia|exact Hts| |exact HY].
        intros d Z t Ht HZ'. cbn [bind]. apply upd_word_ok; [exact HZ'|now apply Hts|lia|lia|].
        intros v Hv Hpre. destruct (or_sterms w (mrow F i) q t (seq 0 w) Hw) as (e & E1 & E2 & E3); [pose proof (Hts t Ht); lia| |exact Hfw|].
        { apply Forall_forall. intros k Hk. apply in_seq in Hk. split; [lia|]. rewrite L1. assert (w * q + w <= w * (width n - 1)) by (clear - Hq; nia). lia. }
        rewrite E1. cbn [bind wp]. assert (Eb : forall b, b < 64 -> tb e b = want t i (64 * q + b)).
        { intros b Hb. rewrite E3 by easy. unfold want. replace (64 * q + b <? n) with true by nia.
          assert (M : existsb (Nat.eqb (b / per w)) (seq 0 w) = true).
          { apply existsb_exists. exists (b / per w). split; [|apply Nat.eqb_refl]. apply in_seq. split; [apply Nat.le_0_l|]. cbn. apply Nat.div_lt_upper_bound; [pose proof (per_pos w Hw); lia|]. pose proof (per_mul w Hw). lia. }
          rewrite M. reflexivity. }
        destruct (sp_set p); [split; [exact E2|exact Eb]|]. split; [now apply lor_lt_pow2|]. intros b Hb. unfold tb at 1. rewrite N.lor_spec. fold (tb v b) (tb e b).
        rewrite Eb by easy. specialize (Hpre b Hb). replace (64 * q + b <? n) with true in Hpre by nia. destruct (tb v b); [now rewrite Hpre|reflexivity].
      * cbv beta. intros Z. apply SInv_ext. intros t' i' q' _ _ _. replace (q' <? S q) with ((q' <? q) || (q' =? q)) by lia. btauto.
  - cbv beta. intros Y HY. set (nb := width n - 1) in *. assert (Hrest : 1 <= width (w * n) - w * nb <= w) by (unfold nb; nia).
    set (r := width (w * n) - w * nb) in *. replace ((1 <=? r) && (r <=? w)) with true by lia. cbn [check bind]. rewrite Rb. eapply wp_mono.
    + apply (fold_upd i nb ts (fun t => sterms w (seq 0 w) t) (fun acc '(t, _) =>
         X <- acc ;; r0 <- or_terms (sterm w (mrow F i) (w * nb)) (rest_terms p r t) ;;
         upd_word X t i nb (fun v => Ok (N.lor (if sp_clear p then N.land v (wnot (left_bitmask (n mod 64))) else v) (N.land r0 (left_bitmask (n mod 64))))))); [lia|lia|exact Hts| |exact HY].
      intros d Z t Ht HZ'. cbn [bind]. rewrite Rr by (auto; lia).
      destruct (or_sterms w (mrow F i) nb t (rev (seq 0 r)) Hw) as (e & E1 & E2 & E3); [pose proof (Hts t Ht); lia| |exact Hfw|].
      { apply Forall_forall. intros k Hk. apply in_rev in Hk. apply in_seq in Hk. split; [lia|]. rewrite L1. lia. }
      rewrite E1. cbn [bind]. apply upd_word_ok; [exact HZ'|now apply Hts|lia|lia|].
      intros v Hv Hpre. cbn [wp].
      assert (Hm : (left_bitmask (n mod 64) < 2 ^ 64)%N) by (apply left_bitmask_lt, Nat.mod_upper_bound; lia).
      split; [apply lor_lt_pow2; [destruct (sp_clear p); [now apply land_lt_pow2|exact Hv]|now apply land_lt_pow2]|].
      intros b Hb. unfold tb at 1. rewrite N.lor_spec, N.land_spec. fold (tb e b). fold (tb (left_bitmask (n mod 64)) b).
      assert (Ew : N.testbit (wnot (left_bitmask (n mod 64))) (N.of_nat b) = negb (64 * nb + b <? n)).
      { rewrite testbit_wnot. replace (N.of_nat b <? 64)%N with true by lia. replace (64 <=? N.of_nat b)%N with false by lia. cbn [andb]. rewrite orb_false_r. f_equal. now apply last_mask. }
      rewrite last_mask by easy. fold nb. specialize (Hpre b Hb).
      assert (Ec : N.testbit (if sp_clear p then N.land v (wnot (left_bitmask (n mod 64))) else v) (N.of_nat b) =
                   tb v b && (if sp_clear p then negb (64 * nb + b <? n) else true)).
      { destruct (sp_clear p); [rewrite N.land_spec, Ew; reflexivity|now rewrite andb_true_r]. }
      rewrite Ec. rewrite E3 by easy.
      destruct (Nat.ltb_spec (64 * nb + b) n) as [Hlt|Hge].
      * assert (M : existsb (Nat.eqb (b / per w)) (rev (seq 0 r)) = true).
        { apply existsb_exists. exists (b / per w). split; [|apply Nat.eqb_refl]. rewrite <- in_rev. apply in_seq. split; [apply Nat.le_0_l|]. cbn.
          apply Nat.div_lt_upper_bound; [pose proof (per_pos w Hw); lia|]. pose proof (per_mul w Hw) as Pm.
          assert (H1 : w * (64 * nb + b) < 64 * width (w * n)) by nia. assert (Er : width (w * n) = r + w * nb) by (unfold r; lia). rewrite Er in H1.
          assert (H2 : w * b < w * (per w * r)) by (rewrite Nat.mul_assoc, Pm; lia). apply Nat.mul_lt_mono_pos_l in H2; [exact H2|lia]. }
        rewrite M. cbn [andb negb]. rewrite andb_true_r. change (rbit (mrow F i) (w * (64 * nb + b) + t)) with (mbit F i (w * (64 * nb + b) + t)).
        unfold want in *. replace (64 * nb + b <? n) with true in * by lia.
        destruct (mbit F i (w * (64 * nb + b) + t)); [apply orb_true_r|]. destruct (tb v b); [discriminate (Hpre eq_refl)|reflexivity].
      * rewrite andb_false_r, orb_false_r. rewrite <- Hpre. destruct (sp_clear p); cbn [negb]; now rewrite andb_true_r.
    + cbv beta. intros Z. apply SInv_ext. intros t' i' q' _ _ Hq'. unfold nb. assert (E : (q' <? width n - 1) || (q' =? width n - 1) = true) by lia.
      rewrite <- orb_assoc. f_equal. rewrite <- andb_orb_distrib_r. rewrite E. now rewrite andb_true_r.
Qed.
Lemma slice_pass_ok done X : SInv done X -> wp (slice_pass w F (left_bitmask (n mod 64)) m p X) (SInv (fun t' i' q' => done t' i' q' || memb ts t')).
Proof.
  intros HX. unfold slice_pass. eapply wp_mono.
  - apply (wp_for (fun i => SInv (fun t' i' q' => done t' i' q' || (memb ts t' && (i' <? i))))); [lia| |].
    + eapply SInv_ext; [|exact HX]. intros. cbv beta. replace (i <? 0) with false by lia. now rewrite andb_false_r, orb_false_r.
    + intros i Y Hi HY. eapply wp_mono; [apply slice_row_ok; [exact HY|lia]|]. cbv beta. intros Z. apply SInv_ext. intros t' i' q' _ _ _.
      replace (i' <? S i) with ((i' <? i) || (i' =? i)) by lia. btauto.
  - cbv beta. intros Y. apply SInv_ext. intros t' i' q' _ Hi _. replace (i' <? m) with true by lia. now rewrite andb_true_r.
Qed.
End SL.

Definition pok (w D : nat) (p : spass) (ts : list nat) : Prop := sreg w p ts /\ forall t, In t ts -> t < D.
Lemma slice_passes_ok w F m n D X0 ps tss : good_w w -> 0 < n -> wf_mzd F -> mzd_nrows F = m -> mzd_ncols F = w * n -> length X0 = D -> D <= w ->
  (forall t, t < D -> wf_mzd (nth t X0 dm) /\ mzd_nrows (nth t X0 dm) = m /\ mzd_ncols (nth t X0 dm) = n) ->
  (forall t i c, t < D -> i < m -> c < n -> mbit (nth t X0 dm) i c = false) ->
  Forall2 (pok w D) ps tss ->
  forall done X, SInv w F m n D X0 done X -> wp (slice_passes w F (left_bitmask (n mod 64)) m ps X) (SInv w F m n D X0 (fun t i q => done t i q || memb (concat tss) t)).
Proof.
  intros Hw Hn HF HFr HFc HD HDw HX0 HZ Hps. induction Hps as [|p ts ps tss [Hr Hin] _ IH]; intros done X HX.
  - cbn [slice_passes wp]. eapply SInv_ext; [|exact HX]. intros. cbn. now rewrite orb_false_r.
  - cbn [slice_passes]. apply wp_bind. eapply wp_mono; [eapply (slice_pass_ok w F m n D X0 Hw Hn HF HFr HFc HD HX0 HZ p ts); eassumption|].
    cbv beta. intros Y HY. eapply wp_mono; [apply IH; exact HY|]. cbv beta. intros Z. apply SInv_ext. intros t i q _ _ _.
    cbn [concat]. unfold memb. rewrite existsb_app. btauto.
Qed.

(** the programs cover every slice *)
Lemma slice_prog_ok w d ps : good_w w -> slice_prog w d = Some ps -> exists tss, Forall2 (pok w d) ps tss /\ forall t, t < d -> memb (concat tss) t = true.
Proof.
  intros Hw E.
  assert (K : forall tss, forallb (fun t => memb (concat tss) t) (seq 0 d) = true -> forall t, t < d -> memb (concat tss) t = true).
  { intros tss H t Ht. rewrite forallb_forall in H. apply H. apply in_seq. lia. }
  assert (P : forall p s l, sreg w p (seq s l) -> s + l <= d -> pok w d p (seq s l)).
  { intros p s l H1 H2. split; [exact H1|]. intros t Ht. apply in_seq in Ht. lia. }
  destruct Hw as [-> | [-> | [-> | ->]]]; do 17 (try (destruct d as [|d]; [try discriminate E|])); try discriminate E; injection E as <-.
  - exists [seq 0 2]. split; [constructor; [apply P; [exact sreg2_d2|lia]|constructor]|apply K; reflexivity].
  - exists [seq 0 3]. split; [constructor; [apply P; [exact sreg4_d3|lia]|constructor]|apply K; reflexivity].
  - exists [seq 0 4]. split; [constructor; [apply P; [exact sreg4_d4|lia]|constructor]|apply K; reflexivity].
  - exists [seq 0 5]. split; [constructor; [apply P; [exact sreg8_d5|lia]|constructor]|apply K; reflexivity].
  - exists [seq 0 6]. split; [constructor; [apply P; [exact sreg8_d6|lia]|constructor]|apply K; reflexivity].
  - exists [seq 0 7]. split; [constructor; [apply P; [exact sreg8_d7|lia]|constructor]|apply K; reflexivity].
  - exists [seq 0 8]. split; [constructor; [apply P; [exact sreg8_d8|lia]|constructor]|apply K; reflexivity].
  - exists [seq 0 8; seq 8 1]. split; [constructor; [apply P; [exact sreg16_0_7|lia]|]; constructor; [apply P; [exact sreg16_8_8|lia]|constructor]|apply K; reflexivity].
  - exists [seq 0 8; seq 8 2]. split; [constructor; [apply P; [exact sreg16_0_7|lia]|]; constructor; [apply P; [exact sreg16_8_9|lia]|constructor]|apply K; reflexivity].
  - exists [seq 0 8; seq 8 3]. split; [constructor; [apply P; [exact sreg16_0_7|lia]|]; constructor; [apply P; [exact sreg16_8_10|lia]|constructor]|apply K; reflexivity].
  - exists [seq 0 8; seq 8 4]. split; [constructor; [apply P; [exact sreg16_0_7|lia]|]; constructor; [apply P; [exact sreg16_8_11|lia]|constructor]|apply K; reflexivity].
  - exists [seq 0 8; seq 8 4; seq 12 1]. split; [constructor; [apply P; [exact sreg16_0_7|lia]|]; constructor; [apply P; [exact sreg16_8_11|lia]|]; constructor; [apply P; [exact sreg16_12_12|lia]|constructor]|apply K; reflexivity].
  - exists [seq 0 8; seq 8 4; seq 12 2]. split; [constructor; [apply P; [exact sreg16_0_7|lia]|]; constructor; [apply P; [exact sreg16_8_11|lia]|]; constructor; [apply P; [exact sreg16_12_13|lia]|constructor]|apply K; reflexivity].
  - exists [seq 0 8; seq 8 4; seq 12 3]. split; [constructor; [apply P; [exact sreg16_0_7|lia]|]; constructor; [apply P; [exact sreg16_8_11|lia]|]; constructor; [apply P; [exact sreg16_12_14|lia]|constructor]|apply K; reflexivity].
  - exists [seq 0 8; seq 8 4; seq 12 4]. split; [constructor; [apply P; [exact sreg16_0_7|lia]|]; constructor; [apply P; [exact sreg16_8_11|lia]|]; constructor; [apply P; [exact sreg16_12_15|lia]|constructor]|apply K; reflexivity].
Qed.
Lemma conv_width_ok A : wf_mzed A -> conv_width (ff_degree (mz_ff A)) = Ok (mz_w A) /\ exists ps, slice_prog (mz_w A) (ff_degree (mz_ff A)) = Some ps.
Proof.
  intros (G & E & _). pose proof G as (D & _). revert E. unfold gf2e_degree_to_w, conv_width.
  set (d := ff_degree (mz_ff A)) in *. clearbody d. generalize (mz_w A). intros w. clear G.
  do 17 (destruct d as [|d]; [cbn; intros E; try discriminate E; injection E as <-; try lia; (split; [reflexivity|eexists; reflexivity])|]); lia.
Qed.
Lemma wf_mzed_mzd A : wf_mzed A -> wf_mzd (mz_x A).
Proof. intros H. wfd H. split; [congruence|]. rewrite Wnr, Wnc. exact Wrow. Qed.

Lemma slice_w_ok T Z : wf_mzed Z -> wf_slice T -> sfld T = fld Z -> sl_nrows T = mz_nrows Z -> sl_ncols T = mz_ncols Z ->
  (forall i c, i < sl_nrows T -> c < sl_ncols T -> sentry T i c = 0%N) ->
  wp (mzed_slice_w (mz_w Z) T Z) (fun T' => sbecomes T T' (entry Z)).
Proof.
  intros HZ HT Ef Er Ec Hz. pose proof (wf_good Z HZ) as Hw. unfold mzed_slice_w.
  assert (Ed : sl_depth T = ff_degree (mz_ff Z)).
  { pose proof (wfs_deg T HT) as D1. destruct HZ as ((_ & D2 & _) & _). rewrite Ef in D1. lia. }
  destruct (conv_width_ok Z HZ) as (_ & ps & Eps). rewrite Ed, Eps.
  destruct (mzed_is_zero Z) eqn:EZ.
  - rewrite mzed_is_zero_ok in EZ by exact HZ. cbn [wp]. eapply sb_ext; [apply sb_refl; exact HT|]. intros i c Hi Hc. rewrite Hz, EZ by lia. reflexivity.
  - assert (Hdim : 0 < mz_nrows Z /\ 0 < mz_ncols Z).
    { destruct (Nat.eq_dec (mz_nrows Z) 0) as [E0|]; [|destruct (Nat.eq_dec (mz_ncols Z) 0) as [E0|]; [|lia]].
      - rewrite (proj2 (mzed_is_zero_ok Z HZ)) in EZ; [discriminate|]. intros; lia.
      - rewrite (proj2 (mzed_is_zero_ok Z HZ)) in EZ; [discriminate|]. intros; lia. }
    pose proof (wfs_depth T HT) as D16. rewrite lget_sx by (auto; lia). cbn [bind].
    pose proof HT as (_ & _ & LT & HTx). destruct (HTx 0 ltac:(lia)) as (_ & _ & C0). unfold high_bitmask. rewrite C0, Ec.
    assert (HDw : ff_degree (mz_ff Z) <= mz_w Z) by (destruct HZ as (_ & Ww & _); apply (degree_to_w_facts _ _ Ww)).
    destruct (slice_prog_ok _ _ _ Hw Eps) as (tss & P1 & P2). rewrite Er. wfd HZ.
    assert (HX0 : forall t, t < ff_degree (mz_ff Z) -> wf_mzd (nth t (sl_x T) dm) /\ mzd_nrows (nth t (sl_x T) dm) = mz_nrows Z /\ mzd_ncols (nth t (sl_x T) dm) = mz_ncols Z).
    { intros t Ht. rewrite <- Er, <- Ec. apply HTx. lia. }
    assert (HZ0 : forall t i c, t < ff_degree (mz_ff Z) -> i < mz_nrows Z -> c < mz_ncols Z -> mbit (nth t (sl_x T) dm) i c = false).
    { intros t i c Ht Hi Hc. change (nth t (sl_x T) dm) with (sx T t). rewrite sbit by lia. rewrite Hz by lia. apply N.bits_0. }
    apply wp_bind. eapply wp_mono.
    + apply (slice_passes_ok (mz_w Z) (mz_x Z) (mz_nrows Z) (mz_ncols Z) (ff_degree (mz_ff Z)) (sl_x T) ps tss) with (done := fun _ _ _ => false); auto; try lia.
      * now apply wf_mzed_mzd.
      * apply SInv_init; auto; lia.
    + cbv beta. intros X (LX & HX). cbn [wp]. apply sb_intro; auto; [congruence| |].
      * intros i c Hi Hc. rewrite Ef. apply wf_entry; auto; lia.
      * intros b Hb. destruct (HX b ltac:(lia)) as (W & R1 & R2 & HB). destruct (HTx b Hb) as (W0 & S1 & S2).
        pose proof (width_ge (mz_ncols Z)) as A3.
        assert (HBx : forall i k, i < mz_nrows Z -> k < 64 * width (mz_ncols Z) -> mbit (nth b X dm) i k = want (mz_w Z) (mz_x Z) (mz_ncols Z) (sl_x T) b i k).
        { intros i k Hi Hk. pose proof (Nat.div_mod k 64 ltac:(lia)) as Dk. pose proof (Nat.mod_upper_bound k 64 ltac:(lia)) as Mk.
          rewrite Dk. rewrite HB by lia. rewrite P2 by lia. cbn [orb]. reflexivity. }
        split; [exact W|]. split; [lia|]. split; [lia|]. rewrite S1, S2, Er, Ec. split.
        -- intros i k Hi Hk. rewrite HBx by lia. unfold want. replace (k <? mz_ncols Z) with true by lia. apply mbit_entry; [exact HZ|lia].
        -- intros i k Hi Hk. rewrite HBx by lia. unfold want. replace (k <? mz_ncols Z) with false by lia. reflexivity.
Qed.

(** C35, first half *)
Theorem mzed_slice_ok A Z : wf_mzed Z -> starget A (fld Z) (mz_nrows Z) (mz_ncols Z) ->
  wp (mzed_slice A Z) (fun A' => sholds A' (fld Z) (mz_nrows Z) (mz_ncols Z) (entry Z) /\
     match A with Some A => sbecomes A A' (entry Z) | None => True end).
Proof.
  intros HZ HA. unfold mzed_slice. assert (Hff : gf2e_wf (mz_ff Z)) by apply HZ.
  destruct (conv_width_ok Z HZ) as (Ew & _). destruct A as [A|].
  - destruct HA as (WA & E1 & E2 & E3). apply wp_bind. eapply wp_mono; [apply slice_set_ui_ok; [exact WA|]|].
    { unfold inF. apply N.neq_0_lt_0. now apply N.pow_nonzero. }
    cbv beta. intros A1 B1. rewrite Ew. cbn [bind]. pose proof (sb_nr _ _ _ B1). pose proof (sb_nc _ _ _ B1). pose proof (sb_ff _ _ _ B1) as E4.
    eapply wp_mono; [apply slice_w_ok; auto; [apply B1|congruence|congruence|congruence|]|].
    { intros i c Hi Hc. rewrite (sb_entry _ _ _ _ _ B1) by lia. now destruct (i =? c). }
    cbv beta. intros A2 B2. assert (B : sbecomes A A2 (entry Z)) by (eapply sb_step; [exact WA|exact B1|exact B2|reflexivity]).
    split; [|exact B]. split; [apply B|]. rewrite (sb_ff _ _ _ B). repeat split; [exact E1|rewrite (sb_nr _ _ _ B); exact E2|rewrite (sb_nc _ _ _ B); exact E3|].
    intros i c Hi Hc. apply (sb_entry _ _ _ _ _ B); lia.
  - cbn [bind]. rewrite Ew. cbn [bind]. pose proof (slice_init_ok (mz_ff Z) (mz_nrows Z) (mz_ncols Z) Hff) as K.
    set (I := mzd_slice_init _ _ _) in *. pose proof K as (K1 & K2 & K3 & K4 & K5).
    eapply wp_mono; [apply slice_w_ok; [exact HZ|exact K1|congruence|congruence|congruence|]|].
    { intros i c Hi Hc. rewrite K5 by lia. reflexivity. }
    cbv beta. intros A2 B. split; [|exact Logic.I]. eapply sh_becomes; [exact K|exact B].
Qed.
