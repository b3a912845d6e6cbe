(** Newton-John multiplication. *)
From Coq Require Import NArith Lia List Bool Arith.
From Coq Require Import ZifyBool ZifyNat ZifyN.
From Verif Require Import Base Spec LinSpec PolyFacts MatFacts Gf2xModel Gf2eModel Gf2eProofs.
From Verif Require Import MzdModel MzedModel MzedSpec LaneFacts MzedProofs MzedOps MzedOps2 NjModel NjTable.
Import ListNotations.
Local Open Scope nat_scope.

Lemma nth_xor_words blk a t j : j < length a ->
  nth j (xor_words blk a t) 0%N = if blk <=? j then N.lxor (nth j a 0%N) (nth j t 0%N) else nth j a 0%N.
Proof.
  intros H. unfold xor_words. set (g := fun j => _).
  rewrite (nth_indep _ 0%N (g 0)) by now rewrite map_length, seq_length.
  rewrite map_nth, seq_nth by easy. reflexivity.
Qed.
Lemma combine_row_ok C rc blk T rt : wf_mzed C -> wf_mzed T -> fld T = fld C -> mz_ncols T = mz_ncols C ->
  rc < mz_nrows C -> rt < mz_nrows T ->
  (forall j, mz_ncols C <= j < cap C -> entry T rt j = 0%N) ->
  wp (combine_row C rc blk T rt) (fun C' => becomes C C'
    (fun i j => if (i =? rc) && (per (mz_w C) * blk <=? j) then N.lxor (entry C i j) (entry T rt j) else entry C i j)).
Proof.
  intros HC HT Ef En Hc Ht Hp. unfold combine_row. rewrite !lget_row by easy. cbn [bind].
  pose proof (wf_mrow C rc HC Hc) as Ra. pose proof (wf_mrow T rt HT Ht) as Rt.
  pose proof (same_w T C HT HC Ef) as Ew. rewrite Ef, En, Ew in Rt.
  pose proof Ra as (La & _). pose proof Rt as (Lt & _).
  replace (length (mrow (mz_x C) rc) =? length (mrow (mz_x T) rt)) with true by (symmetry; apply Nat.eqb_eq; congruence).
  cbn [guard bind wp]. pose proof (wf_good C HC) as Hw. pose proof (per_pos _ Hw) as Pp.
  set (a := mrow (mz_x C) rc) in *. set (t := mrow (mz_x T) rt) in *.
  assert (R : forall j, j < cap C -> rel (mz_w C) (xor_words blk a t) j =
     if per (mz_w C) * blk <=? j then N.lxor (rel (mz_w C) a j) (rel (mz_w C) t j) else rel (mz_w C) a j).
  { intros j Hj. unfold rel. rewrite nth_xor_words by (rewrite La; apply slot_lt; auto).
    replace (blk <=? j / per (mz_w C)) with (per (mz_w C) * blk <=? j).
    - destruct (_ <=? _); [apply lane_lxor|reflexivity].
    - pose proof (Nat.div_mod j (per (mz_w C)) ltac:(lia)). pose proof (Nat.mod_upper_bound j (per (mz_w C)) ltac:(lia)).
      destruct (Nat.leb_spec (per (mz_w C) * blk) j), (Nat.leb_spec blk (j / per (mz_w C))); nia. }
  assert (Et : forall j, entry T rt j = rel (mz_w C) t j) by (intros j; unfold entry; now rewrite Ew).
  apply becomes_rows; auto.
  - wfd HC. now rewrite upd_length.
  - intros i Hi. wfd HC. rewrite nth_upd by lia. rewrite (Nat.eqb_sym i rc). destruct (Nat.eqb_spec rc i) as [->|Hne].
    + split.
      * apply (wf_row_intro (mz_ff C) (mz_w C) Wff (mz_ncols C)).
        -- unfold xor_words. now rewrite map_length, seq_length.
        -- intros j Hj. rewrite nth_xor_words by lia.
           pose proof (wf_row_word _ _ _ _ j Ra). pose proof (wf_row_word _ _ _ _ j Rt).
           destruct (_ <=? _); [now apply lxor_lt_pow2|easy].
        -- intros j Hj. rewrite R by easy. pose proof (wf_row_rel (mz_ff C) (mz_w C) (mz_ncols C) a j Ra Hj).
           pose proof (wf_row_rel (mz_ff C) (mz_w C) (mz_ncols C) t j Rt Hj).
           destruct (_ <=? _); [now apply lxor_lt_pow2|easy].
      * intros j Hj. rewrite R by easy. cbn [andb]. fold a. change (rel (mz_w C) a j) with (entry C i j). rewrite <- Et.
        destruct (Nat.ltb_spec j (mz_ncols C)); [reflexivity|]. rewrite Hp by lia. rewrite N.lxor_0_r. now destruct (_ <=? _).
    + split; [now apply wf_mrow|]. intros j Hj. cbn [andb]. fold (mrow (mz_x C) i). fold (entry C i j). now destruct (j <? mz_ncols C).
Qed.

(** a table of the whole row i of B (column 0) *)
Definition tab0 (B : mzed) (i : nat) (T : njt) : Prop :=
  njt_wf (fld B) (ff_degree (mz_ff B)) (mz_ncols B) T /\
  forall x, inF (fld B) x -> exists l, nj_lookup T x = Ok l /\ l < mz_nrows (nj_T T) /\
    forall j, j < cap B -> entry (nj_T T) l j = if j <? mz_ncols B then fmul (fld B) x (entry B i j) else 0%N.
Lemma make_table0_ok T B i : wf_mzed B -> njt_wf (fld B) (ff_degree (mz_ff B)) (mz_ncols B) T ->
  i < mz_nrows B -> 0 < mz_ncols B -> wp (mzed_make_table T B i 0) (tab0 B i).
Proof.
  intros HB HT Hi Hn. eapply wp_mono; [now apply mzed_make_table_ok|]. cbv beta. intros T' (W & H).
  split; [exact W|]. intros x Hx. destruct (H x Hx) as (l & E1 & E2 & E3). exists l. split; [easy|]. split; [easy|].
  intros j Hj. pose proof (per_pos _ (wf_good B HB)). rewrite (proj1 (E3 j Hj)); [reflexivity|].
  rewrite Nat.div_0_l by lia. lia.
Qed.
Lemma tab0_combine C j B i T x : wf_mzed C -> wf_mzed B -> fld C = fld B -> mz_ncols C = mz_ncols B -> tab0 B i T ->
  inF (fld B) x -> j < mz_nrows C ->
  wp (l <- nj_lookup T x ;; combine_row C j 0 (nj_T T) l) (fun C' => becomes C C'
    (fun i' k => if i' =? j then N.lxor (entry C i' k) (fmul (fld B) x (entry B i k)) else entry C i' k)).
Proof.
  intros HC HB Ef En (((W1 & _) & (W2 & F2 & R2 & C2) & _) & H) Hx Hj.
  destruct (H x Hx) as (l & -> & Hl & El). cbn [bind].
  assert (Ec : cap C = cap B) by (unfold cap; now rewrite (same_w C B), En).
  eapply wp_mono.
  - apply combine_row_ok; auto; try congruence. intros k Hk. rewrite El by lia. now replace (k <? mz_ncols B) with false by lia.
  - cbv beta. intros C' B'. eapply becomes_ext; [exact B'|]. cbv beta. intros i' k Hi' Hk.
    pose proof (wf_cap C HC). rewrite Nat.mul_0_r, andb_true_r, El by lia. now replace (k <? mz_ncols B) with true by lia.
Qed.

Lemma mul_nj_col_ok C T A B i : wf_mzed A -> wf_mzed B -> wf_mzed C -> fld A = fld B -> fld C = fld B ->
  mz_ncols A = mz_nrows B -> mz_nrows C = mz_nrows A -> mz_ncols C = mz_ncols B -> 0 < mz_ncols B -> i < mz_ncols A ->
  njt_wf (fld B) (ff_degree (mz_ff B)) (mz_ncols B) T ->
  wp (mul_nj_col C T A B i) (fun '(C', T') => becomes C C' (fun j k => N.lxor (entry C j k) (fmul (fld B) (entry A j i) (entry B i k)))
    /\ njt_wf (fld B) (ff_degree (mz_ff B)) (mz_ncols B) T').
Proof.
  intros HA HB HC Ef Efc E1 E2 E3 Hn Hi HT. unfold mul_nj_col. apply wp_bind.
  eapply wp_mono; [apply make_table0_ok; auto; lia|]. cbv beta. intros T' HT'. apply wp_bind.
  eapply wp_mono.
  - apply (wp_for (fun r C' => becomes C C' (fun j k => if j <? r then N.lxor (entry C j k) (fmul (fld B) (entry A j i) (entry B i k)) else entry C j k))); [lia| |].
    + eapply becomes_ext; [now apply becomes_refl|]. intros; reflexivity.
    + intros r D Hr HD. pose proof (becomes_nr _ _ _ HD) as Dr. pose proof (becomes_nc _ _ _ HD) as Dc.
      rewrite mzed_read_elem_ok by (auto; lia). cbn [bind].
      eapply wp_mono.
      * apply (tab0_combine D r B i T' (entry A r i)); auto; try lia.
        -- eapply becomes_wf; eauto.
        -- rewrite (becomes_ff _ _ _ HD). congruence.
        -- rewrite <- Ef. apply wf_entry; auto; lia.
      * cbv beta. intros D' HD'. eapply becomes_step; [exact HD|exact HD'|]. cbv beta. intros j k Hj Hk.
        rewrite (becomes_entry _ _ _ _ _ HD) by easy. destruct (Nat.eqb_spec j r) as [->|Hne].
        -- replace (r <? S r) with true by lia. now replace (r <? r) with false by lia.
        -- now replace (j <? S r) with (j <? r) by lia.
  - cbv beta. intros C' HC'. cbn [wp]. split; [|apply HT'].
    eapply becomes_ext; [exact HC'|]. cbv beta. intros j k Hj Hk. now replace (j <? mz_nrows A) with true by lia.
Qed.

(** partial products: the contribution of columns lo .. lo+n-1 of A *)
Definition part (f : N) (lo n : nat) (A B : mat) (j k : nat) : N := xsum n (fun t => fmul f (A j (lo + t)) (B (lo + t) k)).
Lemma part_0 f lo A B j k : part f lo 0 A B j k = 0%N. Proof. reflexivity. Qed.
Lemma part_S f lo n A B j k : part f lo (S n) A B j k = N.lxor (part f lo n A B j k) (fmul f (A j (lo + n)) (B (lo + n) k)).
Proof. reflexivity. Qed.
Lemma part_app f lo n n' A B j k : part f lo (n + n') A B j k = N.lxor (part f lo n A B j k) (part f (lo + n) n' A B j k).
Proof. unfold part. rewrite xsum_split. f_equal. apply xsum_ext. intros. now rewrite Nat.add_assoc. Qed.
Lemma part_mmul f n A B j k : part f 0 n A B j k = mmul f n A B j k.
Proof. reflexivity. Qed.

Lemma lget_tok {X} (l : list X) k : k < length l -> exists x, lget l k = Ok x /\ forall d, nth k l d = x.
Proof.
  intros H. destruct l as [|y l]; [cbn in H; lia|]. exists (nth k (y :: l) y). split; [now apply lget_ok|].
  intros d. now apply nth_indep.
Qed.
Lemma lget_upd {X} (l : list X) i k x y : i < length l -> lget (upd l i x) k = Ok y -> (k = i /\ y = x) \/ (k <> i /\ lget l k = Ok y).
Proof.
  intros Hi H. unfold lget in *. destruct (nth_error (upd l i x) k) as [z|] eqn:E; [|easy]. injection H as ->.
  destruct (Nat.eq_dec k i) as [->|Hne].
  - left. split; [easy|]. pose proof (nth_error_nth' (upd l i x) y (n := i)) as N. rewrite upd_length in N. rewrite N in E by easy.
    injection E as <-. now apply nth_upd_eq.
  - right. split; [easy|]. assert (Hk : k < length l).
    { rewrite <- (upd_length l i x). apply nth_error_Some. now rewrite E. }
    rewrite (nth_error_nth' l y Hk). f_equal. rewrite <- (nth_upd_ne l i k x y) by auto.
    rewrite <- (upd_length l i x) in Hk. rewrite (nth_error_nth' _ y Hk) in E. congruence.
Qed.
Lemma lget_some {X} (l : list X) k : k < length l -> exists x, lget l k = Ok x.
Proof. intros H. destruct (lget_tok l k H) as (x & E & _). eauto. Qed.
Lemma njt_inits_ok k ff n : gf2e_wf ff -> 2 <= ff_degree ff ->
  wp (njt_inits k ff n) (fun Ts => length Ts = k /\ forall i T, lget Ts i = Ok T -> njt_wf (ff_minpoly ff) (ff_degree ff) n T).
Proof.
  intros Hff Hd. induction k as [|k IH]; cbn [njt_inits].
  - cbn [wp]. split; [easy|]. intros [|i] T; cbn; easy.
  - apply wp_bind. eapply wp_mono; [now apply njt_init_ok|]. cbv beta. intros T (HT & _).
    apply wp_bind. eapply wp_mono; [exact IH|]. cbv beta. intros Ts (L & H). cbn [wp]. split; [cbn; lia|].
    intros [|i] T'; unfold lget; cbn [nth_error]; [now intros [= <-]|apply H].
Qed.

Section Mul.
Variables (A B : mzed).
Hypotheses (HA : wf_mzed A) (HB : wf_mzed B) (Ef : fld A = fld B) (E1 : mz_ncols A = mz_nrows B).
Hypothesis (Hn : 0 < mz_ncols B).
Let f := fld B.
Let a := entry A.
Let b := entry B.
Definition cok (C : mzed) : Prop := wf_mzed C /\ fld C = fld B /\ mz_nrows C = mz_nrows A /\ mz_ncols C = mz_ncols B.
Definition tok (T : njt) : Prop := njt_wf (fld B) (ff_degree (mz_ff B)) (mz_ncols B) T.
Lemma cok_becomes C C' F : cok C -> becomes C C' F -> cok C'.
Proof.
  intros (H1 & H2 & H3 & H4) H. unfold cok. rewrite (becomes_ff _ _ _ H), (becomes_nr _ _ _ H), (becomes_nc _ _ _ H).
  pose proof (becomes_wf _ _ _ H). auto.
Qed.

Lemma cols_loop C T lo hi : cok C -> tok T -> lo <= hi <= mz_ncols A ->
  wp (for_ lo hi (fun i '(C, T) => mul_nj_col C T A B i) (C, T)) (fun '(C', T') =>
    becomes C C' (fun j k => N.lxor (entry C j k) (part f lo (hi - lo) a b j k)) /\ tok T').
Proof.
  intros HC HT Hl. eapply wp_mono.
  - apply (wp_for (fun i '(C', T') => becomes C C' (fun j k => N.lxor (entry C j k) (part f lo (i - lo) a b j k)) /\ tok T')); [lia| |].
    + split; [|exact HT]. eapply becomes_ext; [apply becomes_refl, HC|]. cbv beta. intros j k _ _.
      rewrite Nat.sub_diag, part_0. now rewrite N.lxor_0_r.
    + intros i [D T'] Hi (HD & HT'). pose proof (cok_becomes _ _ _ HC HD) as (D1 & D2 & D3 & D4).
      eapply wp_mono; [apply mul_nj_col_ok; auto; lia|]. cbv beta. intros [D' T''] (HD' & HT''). split; [|exact HT''].
      eapply becomes_step; [exact HD|exact HD'|]. cbv beta. intros j k Hj Hk.
      rewrite (becomes_entry _ _ _ _ _ HD) by easy. replace (S i - lo) with (S (i - lo)) by lia.
      rewrite part_S, N.lxor_assoc. replace (lo + (i - lo)) with i by lia. reflexivity.
  - cbv beta. auto.
Qed.

Definition toks' (Ts : list njt) : Prop := length Ts = 8 /\ forall k T, k < 8 -> lget Ts k = Ok T -> tok T.


Lemma tables8 Ts i : toks' Ts -> i < mz_ncols A / 8 ->
  wp (for_ 0 8 (fun k Ts => T <- lget Ts k ;; T <- mzed_make_table T B (8 * i + k) 0 ;; lset Ts k T) Ts)
    (fun Ts' => toks' Ts' /\ forall k T, k < 8 -> lget Ts' k = Ok T -> tab0 B (8 * i + k) T).
Proof.
  intros (L & H) Hi. pose proof (Nat.mul_div_le (mz_ncols A) 8 ltac:(lia)).
  eapply wp_mono.
  - apply (wp_for (fun q Ts' => toks' Ts' /\ forall k T, k < q -> lget Ts' k = Ok T -> tab0 B (8 * i + k) T)); [lia| |].
    + split; [now split|]. intros k T Hk. lia.
    + intros q Ts' Hq ((L' & H') & G). destruct (lget_some Ts' q ltac:(lia)) as (T & E). rewrite E. cbn [bind].
      apply wp_bind. eapply wp_mono; [apply make_table0_ok; auto; [now apply (H' q)|lia]|]. cbv beta. intros T' HT'.
      rewrite lset_ok by lia. cbn [wp]. split; [split|].
      * now rewrite upd_length.
      * intros k U Hk EU. apply lget_upd in EU as [[-> ->]|[_ EU]]; [apply HT'|eauto|lia].
      * intros k U Hk EU. apply lget_upd in EU as [[-> ->]|[Hne EU]]; [exact HT'| |lia]. apply G; [lia|exact EU].
  - cbv beta. auto.
Qed.
Lemma combine8_ok C j Ts i : cok C -> length Ts = 8 -> (forall k T, k < 8 -> lget Ts k = Ok T -> tab0 B (8 * i + k) T) ->
  j < mz_nrows A -> i < mz_ncols A / 8 ->
  wp (combine8 C j Ts A i) (fun C' => becomes C C' (fun j' k => if j' =? j then N.lxor (entry C j' k) (part f (8 * i) 8 a b j' k) else entry C j' k)).
Proof.
  intros HC L HT Hj Hi. pose proof (Nat.mul_div_le (mz_ncols A) 8 ltac:(lia)). unfold combine8.
  eapply wp_mono.
  - apply (wp_for (fun q C' => becomes C C' (fun j' k => if j' =? j then N.lxor (entry C j' k) (part f (8 * i) q a b j' k) else entry C j' k))); [lia| |].
    + eapply becomes_ext; [apply becomes_refl, HC|]. cbv beta. intros j' k _ _. rewrite part_0, N.lxor_0_r. now destruct (_ =? _).
    + intros q D Hq HD. pose proof (cok_becomes _ _ _ HC HD) as (D1 & D2 & D3 & D4).
      destruct (lget_some Ts q ltac:(lia)) as (T & E). rewrite E. cbn [bind].
      rewrite mzed_read_elem_ok by (auto; lia). cbn [bind].
      eapply wp_mono.
      * apply (tab0_combine D j B (8 * i + q) T); auto; try lia; [apply HT; [lia|exact E]|]. rewrite <- Ef. apply wf_entry; auto. lia.
      * cbv beta. intros D' HD'. eapply becomes_step; [exact HD|exact HD'|]. cbv beta. intros j' k Hj' Hk.
        rewrite (becomes_entry _ _ _ _ _ HD) by easy. destruct (Nat.eqb_spec j' j) as [->|Hne]; [|easy].
        rewrite part_S. now rewrite N.lxor_assoc.
  - cbv beta. auto.
Qed.
Lemma mul_nj_block_ok Ts C lo hi : cok C -> toks' Ts -> lo <= hi <= mz_nrows A ->
  wp (mul_nj_block Ts C A B lo hi) (fun '(C', Ts') => toks' Ts' /\
    becomes C C' (fun j k => if (lo <=? j) && (j <? hi) then N.lxor (entry C j k) (part f 0 (8 * (mz_ncols A / 8)) a b j k) else entry C j k)).
Proof.
  intros HC HT Hl. unfold mul_nj_block.
  eapply wp_mono.
  - apply (wp_for (fun i '(C', Ts') => toks' Ts' /\
      becomes C C' (fun j k => if (lo <=? j) && (j <? hi) then N.lxor (entry C j k) (part f 0 (8 * i) a b j k) else entry C j k))); [lia| |].
    + split; [exact HT|]. eapply becomes_ext; [apply becomes_refl, HC|]. cbv beta. intros j k _ _. rewrite Nat.mul_0_r, part_0, N.lxor_0_r. now destruct (_ && _).
    + intros i [D Ts'] Hi (HT' & HD). pose proof (cok_becomes _ _ _ HC HD) as (D1 & D2 & D3 & D4).
      apply wp_bind. eapply wp_mono; [apply tables8; [exact HT'|lia]|]. cbv beta. intros Ts2 (HT2 & G).
      apply wp_bind. eapply wp_mono.
      * apply (wp_for (fun r D' => becomes D D' (fun j k => if (lo <=? j) && (j <? r) then N.lxor (entry D j k) (part f (8 * i) 8 a b j k) else entry D j k))); [lia| |].
        -- eapply becomes_ext; [now apply becomes_refl|]. cbv beta. intros j k _ _. now replace ((lo <=? j) && (j <? lo)) with false by lia.
        -- intros r E Hr HE. assert (CE : cok E) by (eapply cok_becomes; [|exact HE]; now split).
           eapply wp_mono; [apply combine8_ok; auto; [apply HT2|lia|lia]|]. cbv beta. intros E' HE'.
           eapply becomes_step; [exact HE|exact HE'|]. cbv beta. intros j k Hj Hk.
           rewrite (becomes_entry _ _ _ _ _ HE) by easy. destruct (Nat.eqb_spec j r) as [->|Hne].
           ++ replace ((lo <=? r) && (r <? S r)) with true by lia. now replace ((lo <=? r) && (r <? r)) with false by lia.
           ++ now replace (j <? S r) with (j <? r) by lia.
      * cbv beta. intros D' HD'. cbn [wp]. split; [exact HT2|].
        eapply becomes_step; [exact HD|exact HD'|]. cbv beta. intros j k Hj Hk. rewrite (becomes_entry _ _ _ _ _ HD) by easy.
        destruct ((lo <=? j) && (j <? hi)); [|easy]. replace (8 * S i) with (8 * i + 8) by lia.
        rewrite part_app. now rewrite N.lxor_assoc.
  - cbv beta. auto.
Qed.
Lemma giant_steps_ok fuel : forall Ts C g bs, 0 < bs -> cok C -> toks' Ts -> g <= mz_nrows A -> mz_nrows A - g <= fuel ->
  wp (giant_steps fuel Ts C A B g bs) (fun '(C', Ts', g') => toks' Ts' /\ g <= g' <= mz_nrows A /\
    becomes C C' (fun j k => if (g <=? j) && (j <? g') then N.lxor (entry C j k) (part f 0 (8 * (mz_ncols A / 8)) a b j k) else entry C j k)).
Proof.
  assert (Stop : forall Ts C g, cok C -> toks' Ts -> g <= mz_nrows A -> toks' Ts /\ g <= g <= mz_nrows A /\
    becomes C C (fun j k => if (g <=? j) && (j <? g) then N.lxor (entry C j k) (part f 0 (8 * (mz_ncols A / 8)) a b j k) else entry C j k)).
  { intros Ts C g HC HT Hg. split; [easy|]. split; [lia|]. eapply becomes_ext; [apply becomes_refl, HC|]. cbv beta. intros j k _ _.
    now replace ((g <=? j) && (j <? g)) with false by lia. }
  induction fuel as [|fuel IH]; intros Ts C g bs Hb HC HT Hg Hf; cbn [giant_steps].
  - replace (g + bs <=? mz_nrows A) with false by lia. cbn [wp]. now apply Stop.
  - destruct (Nat.leb_spec (g + bs) (mz_nrows A)) as [L|L].
    + apply wp_bind. eapply wp_mono; [apply mul_nj_block_ok; auto; lia|]. cbv beta. intros [C1 T1] (HT1 & HC1).
      assert (K1 : cok C1) by (eapply cok_becomes; eauto).
      eapply wp_mono; [apply IH; auto; lia|]. cbv beta. intros [[C2 T2] g'] (HT2 & Hg' & HC2).
      split; [easy|]. split; [lia|]. eapply becomes_step; [exact HC1|exact HC2|]. cbv beta. intros j k Hj Hk.
      rewrite (becomes_entry _ _ _ _ _ HC1) by easy.
      destruct (Nat.leb_spec (g + bs) j).
      * cbn [andb]. replace ((g <=? j) && (j <? g + bs)) with false by lia. now replace (g <=? j) with true by lia.
      * cbn [andb]. replace (j <? g + bs) with true by lia. now replace (j <? g') with true by lia.
    + cbn [wp]. now apply Stop.
Qed.
Theorem mzed_mul_newton_john__ok mulbs C : 0 < mulbs / mz_w A -> cok C ->
  wp (mzed_mul_newton_john_ mulbs C A B) (fun C' => becomes C C' (fun j k => N.lxor (entry C j k) (mmul f (mz_ncols A) a b j k))).
Proof.
  intros Hbs HC. unfold mzed_mul_newton_john_. destruct (Nat.ltb_spec (mz_nrows A) (ff_degree (mz_ff A))) as [Hs|Hs].
  - destruct HC as (C1 & C2 & C3 & C4). eapply wp_mono; [apply mzed_mul_naive_inplace_ok; auto; congruence|]. cbv beta. intros C' HC'.
    eapply becomes_ext; [exact HC'|]. cbv beta. intros i j _ _. unfold madd, f, a, b. now rewrite C2.
  - destruct (wf_deg2 B HB) as [Hff Hd]. apply wp_bind. eapply wp_mono; [now apply njt_inits_ok|]. cbv beta. intros Ts (L & HT).
    assert (HTs : toks' Ts) by (split; [easy|]; intros k T _; apply HT).
    apply wp_bind. eapply wp_mono with (P := fun '(C', Ts', g) => toks' Ts' /\ g <= mz_nrows A /\
      becomes C C' (fun j k => if j <? g then N.lxor (entry C j k) (part f 0 (8 * (mz_ncols A / 8)) a b j k) else entry C j k)).
    + destruct (_ <=? _).
      * eapply wp_mono; [apply giant_steps_ok; auto; lia|]. cbv beta. intros [[C' Ts'] g] (H1 & H2 & H3). split; [easy|]. split; [lia|].
        eapply becomes_ext; [exact H3|]. intros; reflexivity.
      * cbn [wp]. split; [easy|]. split; [lia|]. eapply becomes_ext; [apply becomes_refl, HC|]. intros; reflexivity.
    + cbv beta. intros [[C1 T1] g] (HT1 & Hg & HC1). assert (K1 : cok C1) by (eapply cok_becomes; eauto).
      apply wp_bind. eapply wp_mono; [apply mul_nj_block_ok; auto; lia|]. cbv beta. intros [C2 T2] (HT2 & HC2).
      assert (K2 : cok C2) by (eapply cok_becomes; eauto).
      destruct (lget_some T2 0) as (T & ET); [destruct HT2; lia|]. rewrite ET. cbn [bind]. apply wp_bind.
      eapply wp_mono; [apply cols_loop; auto|].
      * destruct HT2 as [_ HT2]. apply (HT2 0); [lia|exact ET].
      * pose proof (Nat.mul_div_le (mz_ncols A) 8 ltac:(lia)). lia.
      * cbv beta. intros [C3 T3] (HC3 & _). cbn [wp].
        eapply becomes_step; [exact HC1| |]; [eapply becomes_trans; [exact HC2|exact HC3]|]. cbv beta. intros j k Hj Hk.
        pose proof (becomes_nr _ _ _ HC1) as N1. pose proof (becomes_nc _ _ _ HC1) as N2. pose proof (becomes_nr _ _ _ HC2) as N3. pose proof (becomes_nc _ _ _ HC2) as N4.
        rewrite (becomes_entry _ _ _ _ _ HC2) by lia. rewrite (becomes_entry _ _ _ _ _ HC1) by lia.
        rewrite <- part_mmul. pose proof (Nat.mul_div_le (mz_ncols A) 8 ltac:(lia)) as M8.
        assert (EP : part f 0 (mz_ncols A) a b j k = N.lxor (part f 0 (8 * (mz_ncols A / 8)) a b j k)
          (part f (8 * (mz_ncols A / 8)) (mz_ncols A - 8 * (mz_ncols A / 8)) a b j k)).
        { rewrite <- part_app with (lo := 0). f_equal. lia. }
        rewrite EP. destruct HC as (_ & _ & CR & _).
        destruct (Nat.leb_spec g j).
        -- replace (j <? g) with false by lia. cbn [andb]. replace (j <? mz_nrows A) with true by lia. now rewrite N.lxor_assoc.
        -- replace (j <? g) with true by lia. cbn [andb]. now rewrite N.lxor_assoc.
Qed.
End Mul.
