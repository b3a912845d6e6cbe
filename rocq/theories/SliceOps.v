(** Row/column operations, structural operations, windows and addition of bit-sliced matrices (C36). *)
From Coq Require Import NArith ZArith Lia List Bool Arith.
From Coq Require Import ZifyBool ZifyNat ZifyN.
From Verif Require Import Base Spec PolyFacts MatFacts Gf2xModel Gf2xProofs Gf2eModel Gf2eProofs MzdModel MzedModel MzedSpec LaneFacts MzedProofs MzedOps MzedOps2 SliceModel SliceSpec MzdFacts SliceProofs StrassenProofs.
Import ListNotations.
Local Open Scope nat_scope.

Ltac sbits := intros i k _ _; rewrite ?sbit by (assumption || lia); repeat (match goal with |- context [if ?b then _ else _] => destruct b end); reflexivity.
Ltac sin HA := intros; repeat (match goal with |- context [if ?b then _ else _] => destruct b end); apply sentry_in; exact HA.

Theorem slice_row_swap_ok A a b : wf_slice A -> a < sl_nrows A -> b < sl_nrows A ->
  wp (mzd_slice_row_swap A a b) (fun A' => sbecomes A A' (fun i c => sentry A (swp a b i) c)).
Proof.
  intros HA Ha Hb. apply map_ok; auto; [sin HA|]. intros s Hs W R1 R2.
  eapply wp_mono; [apply row_swap_ok; auto; lia|]. cbv beta. intros x' Hx. eapply mset_ext; [exact Hx|]. cbv beta.
  intros i k _ _. rewrite !sbit by easy. unfold swp. destruct (i =? a), (i =? b); reflexivity.
Qed.
Theorem slice_copy_row_ok B i A j : wf_slice A -> wf_slice B -> sfld A = sfld B -> i < sl_nrows B -> j < sl_nrows A -> sl_ncols A <= sl_ncols B ->
  wp (mzd_slice_copy_row B i A j) (fun B' => sbecomes B B' (fun r c => if (r =? i) && (c <? sl_ncols A) then sentry A j c else sentry B r c)).
Proof.
  intros HA HB Ef Hi Hj Hc. apply map_n_ok; auto; [now apply same_depth| |].
  - intros r c _ _. destruct (_ && _); [rewrite <- Ef; now apply sentry_in|now apply sentry_in].
  - intros s Hs W R1 R2. rewrite <- (same_depth A B HA HB Ef) in Hs. rewrite lget_sx by easy. cbn [bind].
    pose proof HA as (_ & _ & _ & H4). destruct (H4 s Hs) as (L1 & L2 & L3).
    eapply wp_mono; [apply copy_row_ok; auto; lia|]. cbv beta. intros x' Hx. eapply mset_ext; [exact Hx|]. cbv beta. rewrite L3.
    intros r k _ _. rewrite !sbit by (rewrite <- ?(same_depth A B HA HB Ef); easy). now destruct (_ && _).
Qed.
Theorem slice_col_swap_ok A a b : wf_slice A -> a < sl_ncols A -> b < sl_ncols A ->
  wp (mzd_slice_col_swap A a b) (fun A' => sbecomes A A' (fun i c => sentry A i (swp a b c))).
Proof.
  intros HA Ha Hb. apply map_ok; auto; [sin HA|]. intros s Hs W R1 R2.
  eapply wp_mono; [apply col_swap_ok; auto; lia|]. cbv beta. intros x' Hx. eapply mset_ext; [exact Hx|]. cbv beta.
  intros i k _ _. rewrite !sbit by easy. unfold swp. destruct (k =? a), (k =? b); reflexivity.
Qed.
Theorem slice_col_swap_in_rows_ok A a b s t : wf_slice A -> a < sl_ncols A -> b < sl_ncols A -> t <= sl_nrows A ->
  wp (mzd_slice_col_swap_in_rows A a b s t) (fun A' => sbecomes A A' (fun i c => sentry A i (if (s <=? i) && (i <? t) then swp a b c else c))).
Proof.
  intros HA Ha Hb Ht. apply map_n_ok; auto; [symmetry; apply HA|sin HA|]. intros u Hs W R1 R2.
  eapply wp_mono; [apply col_swap_in_rows_ok; auto; lia|]. cbv beta. intros x' Hx. eapply mset_ext; [exact Hx|]. cbv beta.
  intros i k _ _. rewrite !sbit by easy. unfold swp. destruct (_ && _); [|easy]. destruct (k =? a), (k =? b); reflexivity.
Qed.
Theorem slice_row_add_ok A s d : wf_slice A -> s < sl_nrows A -> d < sl_nrows A ->
  wp (mzd_slice_row_add A s d) (fun A' => sbecomes A A' (fun i c => if i =? d then N.lxor (sentry A d c) (sentry A s c) else sentry A i c)).
Proof.
  intros HA Ha Hb. apply map_ok; auto.
  - intros i c _ _. destruct (_ =? _); [apply inF_lxor|]; now apply sentry_in.
  - intros b Hs W R1 R2. eapply wp_mono; [apply row_add_ok; auto; lia|]. cbv beta. intros x' Hx. eapply mset_ext; [exact Hx|]. cbv beta.
    intros i k _ _. rewrite !sbit by easy. destruct (_ =? _); [now rewrite N.lxor_spec|easy].
Qed.
(** structural operations *)
Section Target.
Variables (C : option slice) (A : slice) (m n : nat) (op : nat -> mzd -> res mzd) (F : mat).
Hypotheses (HA : wf_slice A) (HC : starget C (sfld A) m n) (HF : forall i c, i < m -> c < n -> inF (sfld A) (F i c)).
Hypothesis Hop : forall b x, b < sl_depth A -> wf_mzd x -> mzd_nrows x = m -> mzd_ncols x = n ->
  wp (op b x) (fun x' => mset x x' (fun i c => N.testbit (F i c) (N.of_nat b))).
Lemma target_ok : wp (sl_map_n (sl_depth A) (sl_or_init C (sl_ff A) m n) op) (fun C' => sholds C' (sfld A) m n F /\
   match C with Some C => sbecomes C C' F | None => True end).
Proof.
  assert (Wff : gf2e_wf (sl_ff A)) by apply HA. pose proof (or_init_ok C _ _ _ _ Wff eq_refl HC) as K.
  set (D := sl_or_init _ _ _ _) in *. pose proof K as (C1 & C2 & C3 & C4 & _).
  eapply wp_mono; [apply (map_n_ok D op F); auto|].
  - symmetry. now apply same_depth.
  - rewrite C3, C4. intros i c Hi Hc. rewrite C2. now apply HF.
  - rewrite (same_depth _ _ C1 HA C2), C3, C4. intros b Hb W R1 R2. now apply Hop.
  - cbv beta. intros C' B'. split; [exact (sh_becomes _ _ _ _ _ _ _ K B')|]. destruct C; [exact B'|exact I].
Qed.
End Target.
Theorem slice_concat_ok C A B : wf_slice A -> wf_slice B -> sfld A = sfld B -> sl_nrows A = sl_nrows B -> starget C (sfld A) (sl_nrows A) (sl_ncols A + sl_ncols B) ->
  wp (mzd_slice_concat C A B) (fun C' => sholds C' (sfld A) (sl_nrows A) (sl_ncols A + sl_ncols B)
     (fun i c => if c <? sl_ncols A then sentry A i c else sentry B i (c - sl_ncols A))).
Proof.
  intros HA HB Ef En HC. unfold mzd_slice_concat. eapply wp_mono; [apply target_ok with (F := fun i c => if c <? sl_ncols A then sentry A i c else sentry B i (c - sl_ncols A)); auto|].
  - intros i c _ _. destruct (_ <? _); [|rewrite Ef]; now apply sentry_in.
  - pose proof (same_depth A B HA HB Ef) as Ed. intros b x Hb W R1 R2. rewrite !lget_sx by (auto; lia). cbn [bind].
    pose proof HA as (_ & _ & _ & H4). destruct (H4 b Hb) as (L1 & L2 & L3). pose proof HB as (_ & _ & _ & H4'). destruct (H4' b ltac:(lia)) as (M1 & M2 & M3).
    eapply wp_mono; [apply concat_ok; auto; lia|]. cbv beta. intros x' Hx. eapply mset_ext; [exact Hx|]. cbv beta. rewrite L3.
    intros i k _ _. rewrite !sbit by lia. now destruct (_ <? _).
  - cbv beta. now intros C' (H & _).
Qed.
Theorem slice_stack_ok C A B : wf_slice A -> wf_slice B -> sfld A = sfld B -> sl_ncols A = sl_ncols B -> starget C (sfld A) (sl_nrows A + sl_nrows B) (sl_ncols A) ->
  wp (mzd_slice_stack C A B) (fun C' => sholds C' (sfld A) (sl_nrows A + sl_nrows B) (sl_ncols A)
     (fun i c => if i <? sl_nrows A then sentry A i c else sentry B (i - sl_nrows A) c)).
Proof.
  intros HA HB Ef En HC. unfold mzd_slice_stack. eapply wp_mono; [apply target_ok with (F := fun i c => if i <? sl_nrows A then sentry A i c else sentry B (i - sl_nrows A) c); auto|].
  - intros i c _ _. destruct (_ <? _); [|rewrite Ef]; now apply sentry_in.
  - pose proof (same_depth A B HA HB Ef) as Ed. intros b x Hb W R1 R2. rewrite !lget_sx by (auto; lia). cbn [bind].
    pose proof HA as (_ & _ & _ & H4). destruct (H4 b Hb) as (L1 & L2 & L3). pose proof HB as (_ & _ & _ & H4'). destruct (H4' b ltac:(lia)) as (M1 & M2 & M3).
    eapply wp_mono; [apply stack_ok; auto; lia|]. cbv beta. intros x' Hx. eapply mset_ext; [exact Hx|]. cbv beta. rewrite L2.
    intros i k _ _. rewrite !sbit by lia. now destruct (_ <? _).
  - cbv beta. now intros C' (H & _).
Qed.
Theorem slice_submatrix_ok S A lr lc hr hc : wf_slice A -> lr <= hr <= sl_nrows A -> lc <= hc <= sl_ncols A -> starget S (sfld A) (hr - lr) (hc - lc) ->
  wp (mzd_slice_submatrix S A lr lc hr hc) (fun S' => sholds S' (sfld A) (hr - lr) (hc - lc) (sub (sentry A) lr lc)).
Proof.
  intros HA Hr Hc HS. unfold mzd_slice_submatrix. eapply wp_mono; [apply target_ok with (F := sub (sentry A) lr lc); auto|].
  - intros i c _ _. now apply sentry_in.
  - intros b x Hb W R1 R2. rewrite lget_sx by easy. cbn [bind]. pose proof HA as (_ & _ & _ & H4). destruct (H4 b Hb) as (L1 & L2 & L3).
    eapply wp_mono; [apply submatrix_ok; auto; lia|]. cbv beta. intros x' Hx. eapply mset_ext; [exact Hx|]. cbv beta.
    intros i k _ _. unfold sub. now rewrite sbit.
  - cbv beta. now intros C' (H & _).
Qed.
(** windows *)
Lemma swin_list A lr lc hr hc : wf_slice A -> lr <= hr <= sl_nrows A -> lc <= hc <= sl_ncols A -> lc mod 64 = 0 ->
  wp (mzd_slice_window A lr lc hr hc) (fun W => sl_ff W = sl_ff A /\ sl_depth W = sl_depth A /\ sl_nrows W = hr - lr /\ sl_ncols W = hc - lc /\
    length (sl_x W) = sl_depth A /\ forall b, b < sl_depth A -> mzd_window (sx A b) lr lc hr hc = Ok (sx W b)).
Proof.
  intros HA Hr Hc Ha. pose proof HA as (_ & _ & L & H4). unfold mzd_slice_window. apply wp_bind.
  eapply wp_mono; [apply (wp_for (fun k l => length l = k /\ forall b, b < k -> mzd_window (sx A b) lr lc hr hc = Ok (nth b l (Mzd 0 0 [])))); [lia|split; [easy|intros; lia]|]|].
  - intros j l Hj (Ll & Hl). rewrite lget_sx by (auto; lia). cbn [bind]. destruct (H4 j ltac:(lia)) as (L1 & L2 & L3).
    pose proof (window_ok (sx A j) lr lc hr hc L1 ltac:(lia) ltac:(lia) Ha) as HW.
    destruct (mzd_window (sx A j) lr lc hr hc) as [w| |] eqn:EW; cbn [wp] in HW; try contradiction. cbn [bind wp].
    rewrite app_length. cbn [length]. split; [lia|]. intros b Hb. destruct (Nat.eq_dec b j) as [->|Hne].
    + rewrite app_nth2 by lia. replace (j - length l) with 0 by lia. cbn [nth]. exact EW.
    + rewrite app_nth1 by lia. apply Hl. lia.
  - cbv beta. intros x (Lx & Hx). cbn [wp]. repeat (split; [easy|]). exact Hx.
Qed.
Lemma swin_ok A f m n F lr lc hr hc : sholds A f m n F -> lr <= hr <= m -> lc <= hc <= n -> lc mod 64 = 0 ->
  wp (mzd_slice_window A lr lc hr hc) (fun W => sholds W f (hr - lr) (hc - lc) (sub F lr lc) /\ sl_ff W = sl_ff A).
Proof.
  intros (HA & A2 & A3 & A4 & A5) Hr Hc Ha. eapply wp_mono; [apply swin_list; auto; lia|]. cbv beta. intros W (E1 & E2 & E3 & E4 & E5 & E6).
  split; [|exact E1]. pose proof HA as (Wff & Dd & L & H4).
  assert (HW : forall b, b < sl_depth A -> wf_mzd (sx W b) /\ mzd_nrows (sx W b) = hr - lr /\ mzd_ncols (sx W b) = hc - lc /\
      forall i k, i < hr - lr -> k < hc - lc -> mbit (sx W b) i k = mbit (sx A b) (lr + i) (lc + k)).
  { intros b Hb. destruct (H4 b Hb) as (L1 & L2 & L3). pose proof (window_ok (sx A b) lr lc hr hc L1 ltac:(lia) ltac:(lia) Ha) as K.
    rewrite (E6 b Hb) in K. cbn [wp] in K. destruct K as (K1 & K2 & K3 & K4). repeat split; try easy; try apply K1; try lia.
    intros i k Hi Hk. pose proof (width_ge (hc - lc)). apply K4; lia. }
  split; [|rewrite E1; repeat split; auto].
  - split; [now rewrite E1|]. split; [congruence|]. split; [congruence|]. rewrite E2, E3, E4. intros b Hb. destruct (HW b Hb) as (K1 & K2 & K3 & _). now split.
  - intros i c Hi Hcc. unfold sub. rewrite <- A5 by lia. unfold sentry. rewrite E2. apply word_of_bits_ext. intros b Hb. now apply HW.
Qed.
Theorem on_swin_ok A f m n F lr lc hr hc op G : sholds A f m n F -> lr <= hr <= m -> lc <= hc <= n -> lc mod 64 = 0 ->
  (forall W, sholds W f (hr - lr) (hc - lc) (sub F lr lc) -> sl_ff W = sl_ff A -> wp (op W) (fun W' => sbecomes W W' G)) ->
  wp (on_swin A lr lc hr hc op) (fun A' => sbecomes A A' (fun i c => if (lr <=? i) && (i <? hr) && (lc <=? c) && (c <? hc)
                                         then G (i - lr) (c - lc) else F i c)).
Proof.
  intros KA Hr Hc Ha Hop. pose proof KA as (HA & A2 & A3 & A4 & A5). unfold on_swin. apply wp_bind.
  eapply wp_mono; [apply wp_conj; [apply swin_list with (lr := lr) (lc := lc) (hr := hr) (hc := hc); auto; lia|apply (swin_ok A f m n F lr lc hr hc); auto]|].
  cbv beta. intros W ((E1 & E2 & E3 & E4 & E5 & E6) & (KW & _)). apply wp_bind. eapply wp_mono; [apply Hop; auto|]. cbv beta.
  intros W' BW. pose proof (sh_wf _ _ _ _ _ KW) as WW. pose proof (sb_wf _ _ _ BW) as WW'. pose proof (sb_depth _ _ _ WW BW) as Ed.
  unfold mzd_slice_unwindow. apply map_ok; auto.
  - intros i c Hi Hcc. destruct (_ && _ && _ && _) eqn:Z.
    + rewrite <- (sb_entry _ _ _ (i - lr) (c - lc) BW) by lia. replace (sfld A) with (sfld W'); [now apply sentry_in|]. rewrite (sb_ff _ _ _ BW). now rewrite E1.
    + rewrite <- A5 by lia. now apply sentry_in.
  - intros b Hb W1 W2 W3. rewrite lget_sx by (auto; congruence). cbn [bind wp].
    pose proof (sb_elim _ _ _ WW BW b ltac:(congruence)) as Hm.
    eapply mset_ext; [eapply (unwindow_ok (sx A b) lr lc hr hc (sx W b)); eauto; lia|]. cbv beta. intros i k Hi Hk.
    destruct (_ && _ && _ && _); [easy|]. rewrite sbit by easy. now rewrite A5 by lia.
Qed.

(** addition *)
Theorem slice_add_inplace_ok C A B : wf_slice A -> wf_slice B -> wf_slice C -> sfld A = sfld B -> sfld C = sfld A ->
  sl_nrows A = sl_nrows C -> sl_ncols A = sl_ncols C -> sl_nrows B = sl_nrows C -> sl_ncols B = sl_ncols C ->
  wp (mzd_slice_add_ C A B) (fun C' => sbecomes C C' (madd (sentry A) (sentry B))).
Proof.
  intros HA HB HC Ef Ec H1 H2 H3 H4. unfold mzd_slice_add_. pose proof (same_depth A B HA HB Ef) as Ed. pose proof (same_depth C A HC HA Ec) as Ed'.
  pose proof HC as (_ & _ & LC & C4). pose proof HA as (_ & _ & _ & A4). pose proof HB as (_ & _ & _ & B4). apply wp_bind. unfold ptr_add.
  eapply wp_mono; [apply (wp_for_down (fun k x => length x = sl_depth C /\ (forall b, k <= b < sl_depth C -> mset (sx C b) (nth b x (Mzd 0 0 [])) (fun i c => N.testbit (madd (sentry A) (sentry B) i c) (N.of_nat b))) /\
      forall b, b < k -> nth b x (Mzd 0 0 []) = sx C b)); [lia|repeat split; auto; intros; lia|]|].
  - intros j x Hj (Lx & X1 & X2). rewrite (lget_ok x j (Mzd 0 0 [])) by lia. rewrite !lget_sx by (auto; lia). cbn [bind]. rewrite X2 by lia.
    destruct (C4 j ltac:(lia)) as (U1 & U2 & U3). destruct (A4 j ltac:(lia)) as (V1 & V2 & V3). destruct (B4 j ltac:(lia)) as (W1 & W2 & W3).
    apply wp_bind. eapply wp_mono; [apply add_ok; auto; congruence|]. cbv beta. intros y Hy. rewrite lset_ok by lia. cbn [wp]. rewrite upd_length. split; [easy|]. split.
    + intros b Hb. rewrite nth_upd by lia. destruct (Nat.eqb_spec j b) as [<-|Hne].
      * eapply mset_ext; [exact Hy|]. cbv beta. intros i k _ _. unfold madd. rewrite N.lxor_spec, !sbit by lia. reflexivity.
      * apply X1. lia.
    + intros b Hb. rewrite nth_upd_ne by lia. apply X2. lia.
  - cbv beta. intros x (Lx & X1 & _). cbn [wp]. apply sb_intro; auto.
    + intros i c _ _. rewrite Ec. apply inF_lxor; [now apply sentry_in|]. rewrite Ef. now apply sentry_in.
    + intros b Hb. apply X1. lia.
Qed.
Theorem slice_add_ok C A B : wf_slice A -> wf_slice B -> sfld A = sfld B -> sl_nrows A = sl_nrows B -> sl_ncols A = sl_ncols B ->
  starget C (sfld A) (sl_nrows A) (sl_ncols A) ->
  wp (mzd_slice_add C A B) (fun C' => sholds C' (sfld A) (sl_nrows A) (sl_ncols A) (madd (sentry A) (sentry B)) /\
    match C with Some C => sbecomes C C' (madd (sentry A) (sentry B)) | None => True end).
Proof.
  intros HA HB Ef E1 E2 HC. unfold mzd_slice_add. rewrite (proj2 (sl_same_ff_iff A B) Ef), E1, E2, !Nat.eqb_refl. cbn [check andb bind]. rewrite <- E1, <- E2.
  assert (Wff : gf2e_wf (sl_ff A)) by apply HA. pose proof (or_init_ok C _ _ _ _ Wff eq_refl HC) as K.
  assert (EC : (match C with
       | None => Ok (mzd_slice_init (sl_ff A) (sl_nrows A) (sl_ncols A))
       | Some C => _ <- check (sl_same_ff A C && (sl_nrows A =? sl_nrows C) && (sl_ncols A =? sl_ncols C)) ;; Ok C
       end) = Ok (sl_or_init C (sl_ff A) (sl_nrows A) (sl_ncols A))).
  { destruct C as [C|]; [|easy]. destruct HC as (W & F1 & F2 & F3). rewrite (proj2 (sl_same_ff_iff A C)) by easy. rewrite F2, F3, !Nat.eqb_refl. easy. }
  rewrite EC. cbn [bind]. set (D := sl_or_init _ _ _ _) in *. pose proof K as (K1 & K2 & K3 & K4 & _).
  eapply wp_mono; [apply slice_add_inplace_ok; auto; congruence|]. cbv beta. intros C' B'. split; [exact (sh_becomes _ _ _ _ _ _ _ K B')|]. destruct C; [exact B'|exact I].
Qed.
Theorem slice_randomize_ok rnd A : wf_slice A ->
  wp (mzd_slice_randomize rnd A) (fun A' => sbecomes A A' (fun i c => word_of_bits (sl_depth A) (fun b => rnd b i c))).
Proof.
  intros HA. apply map_ok; auto.
  - intros i c _ _. unfold inF. rewrite (wfs_deg A HA). apply word_of_bits_lt.
  - intros b Hb W R1 R2. cbn [wp]. eapply mset_ext; [now apply mset_build|]. cbv beta. intros i k _ _. rewrite testbit_word_of_bits. now replace (b <? sl_depth A) with true by lia.
Qed.
