(** _blm_finish_polymult *)
From Coq Require Import NArith List Bool Arith Lia ZifyN ZifyNat ZifyBool.
From Verif Require Import Base Spec PolyFacts MatFacts SliceMul KaraProofs IrrProofs Gf2eModel MzdModel MzedSpec LinSpec SliceModel SliceSpec MzdFacts MzedProofs PermModel PleSpec PermProofs EchFacts BlmTable BlmModel BlmSpec BlmFacts BlmCrt BlmFG.
Import ListNotations.
Local Open Scope nat_scope.

Lemma transpose_ok A : wf_mzd (mzd_transpose A) /\ mzd_nrows (mzd_transpose A) = mzd_ncols A /\ mzd_ncols (mzd_transpose A) = mzd_nrows A /\
  forall i k, i < mzd_ncols A -> k < mzd_nrows A -> mbit (mzd_transpose A) i k = mbit A k i.
Proof.
  unfold mzd_transpose. pose proof (mset_build (mzd_init (mzd_ncols A) (mzd_nrows A)) (fun i k => mbit A k i) (wf_init _ _)) as HB.
  split; [exact (mset_wf _ _ _ HB)|]. split; [exact (mset_nr _ _ _ HB)|]. split; [exact (mset_nc _ _ _ HB)|]. intros i k Hi Hk. now apply (mset_bit _ _ _ i k HB).
Qed.
Lemma swaps_lt P t n i : (forall k, k < t -> k < n /\ P k < n) -> i < n -> swaps P t i < n.
Proof.
  revert i. induction t as [|t IH]; intros i H Hi; [easy|]. cbn [swaps]. apply IH; [intros; apply H; lia|].
  destruct (H t ltac:(lia)). unfold tr. destruct (Nat.eqb_spec i t); [easy|]. destruct (Nat.eqb_spec i (P t)); easy.
Qed.
Lemma apply_pairs_ok l P : length P = length l -> valid_perm (length l) (at_ P) ->
  wp (apply_p_left_pairs l P) (fun l' => length l' = length l /\ forall i, i < length l -> nth i l' (0, 0) = nth (swaps (at_ P) (length l) i) l (0, 0)).
Proof.
  intros HP Hv. unfold apply_p_left_pairs. replace (Nat.min (length P) (length l)) with (length l) by lia.
  apply (wp_for (fun t l' => length l' = length l /\ forall i, i < length l -> nth i l' (0, 0) = nth (swaps (at_ P) t i) l (0, 0))); [lia|easy|].
  intros t l' Ht (Hl & Hn). rewrite (lget_ok P t 0) by lia. cbn [bind]. specialize (Hv t ltac:(lia)) as Hp. unfold at_ in Hp. set (q := nth t P 0) in *.
  rewrite (lget_ok l' t (0, 0)) by lia. cbn [bind]. rewrite (lget_ok l' q (0, 0)) by lia. cbn [bind]. rewrite lset_ok by lia. cbn [bind]. rewrite lset_ok by (rewrite upd_length; lia).
  cbn [wp]. split; [now rewrite !upd_length|]. intros i Hi. cbn [swaps]. rewrite nth_upd by (rewrite upd_length; lia). rewrite nth_upd by lia.
  change (at_ P t) with q. unfold tr. destruct (Nat.eqb_spec i t) as [->|H1].
  - destruct (Nat.eqb_spec q t) as [Eqt|]; [rewrite Eqt; apply Hn; lia|]. rewrite Nat.eqb_refl. apply Hn. lia.
  - destruct (Nat.eqb_spec i q) as [->|H2]; [rewrite Nat.eqb_refl; apply Hn; lia|]. destruct (Nat.eqb_spec q i); [congruence|]. destruct (Nat.eqb_spec t i); [congruence|]. now apply Hn.
Qed.

(** ** dimension over GF(2) *)
Lemma irr2 : irreducible 2.
Proof. apply irrb_spec; vm_compute; congruence. Qed.
Lemma b2N_inF b : inF 2 (b2N b).
Proof. destruct b; unfold inF; vm_compute; reflexivity. Qed.
Lemma fmul2 a b : fmul 2 (b2N a) (b2N b) = b2N (a && b).
Proof. destruct a, b; reflexivity. Qed.
Lemma xsum_b2N n g : xsum n (fun i => b2N (g i)) = b2N (bxsum n g).
Proof. induction n as [|n IH]; [easy|]. cbn [xsum bxsum]. rewrite IH. destruct (bxsum n g), (g n); reflexivity. Qed.
Lemma inF2 v : inF 2 v -> v = b2N (negb (v =? 0)%N).
Proof. unfold inF. change (2 ^ pdeg 2)%N with 2%N. intros H. destruct (N.eqb_spec v 0); cbn; lia. Qed.
Lemma bkernel k n (Y : nat -> nat -> bool) : k < n -> exists v : nat -> bool, (exists j, j < n /\ v j = true) /\ forall i, i < k -> bxsum n (fun j => Y i j && v j) = false.
Proof.
  intros Hk. destruct (kernel_nontrivial 2 ltac:(easy) irr2 k n (fun i j => b2N (Y i j)) ltac:(intros i j _ _; apply b2N_inF) Hk) as (v & Hv & (j & Hj & Hnz) & Hs).
  exists (fun j => negb (v j =? 0)%N). split; [exists j; split; [easy|lia]|]. intros i Hi. specialize (Hs i Hi).
  rewrite (xsum_ext _ _ (fun j => b2N (Y i j && negb (v j =? 0)%N))) in Hs by (intros j' Hj'; rewrite (inF2 (v j') (Hv j' Hj')) at 1; apply fmul2).
  rewrite xsum_b2N in Hs. now destruct (bxsum _ _).
Qed.
Lemma bspan_full r m M : (forall i, i < m -> bspan r m M (fun k => k =? i)) -> m <= r.
Proof.
  intros H. destruct (Nat.le_gt_cases m r) as [|Hlt]; [easy|exfalso]. destruct (bkernel r m M Hlt) as (v & (i & Hi & Hv) & Hz).
  destruct (H i Hi) as (l & Hl). enough (v i = false) by congruence.
  rewrite <- (bxsum_eqb m i v Hi). transitivity (bxsum m (fun j => bxsum r (fun k => l k && M k j) && v j)); [apply bxsum_ext; intros j Hj; now rewrite <- Hl|].
  transitivity (bxsum r (fun k => l k && bxsum m (fun j => M k j && v j))).
  - rewrite (bxsum_ext m _ (fun j => bxsum r (fun k => l k && (M k j && v j)))) by (intros j Hj; rewrite bxsum_and_r; apply bxsum_ext; intros; now rewrite andb_assoc).
    rewrite bxsum_swap. apply bxsum_ext. intros k Hk. symmetry. apply bxsum_and_l.
  - apply bxsum_0. intros k Hk. rewrite Hz by easy. apply andb_false_r.
Qed.

Lemma lbs_app {A} (g : A -> bool) a b : lbs g (a ++ b) = xorb (lbs g a) (lbs g b).
Proof. induction a as [|y a IH]; [change (lbs g b = xorb false (lbs g b)); now destruct (lbs g b)|]. cbn [app]. change (xorb (g y) (lbs g (a ++ b)) = xorb (xorb (g y) (lbs g a)) (lbs g b)). rewrite IH. symmetry. apply xorb_assoc. Qed.
Lemma lbs_filter {A} (g : A -> bool) (h : nat -> A) lam n : lbs g (map h (filter lam (seq 0 n))) = bxsum n (fun j => lam j && g (h j)).
Proof.
  induction n as [|n IH]; [easy|]. rewrite seq_S, filter_app, map_app, lbs_app, IH. cbn [bxsum Nat.add filter]. f_equal.
  destruct (lam n); cbn; [apply xorb_false_r|easy].
Qed.
Section Fin.
Variables (x : m4ri) (F G : mzd) (m nf ng : nat).
Hypothesis Hx : m4ri_ok x.
Hypothesis WF : wf_mzd F.
Hypothesis WG : wf_mzd G.
Hypothesis RF : mzd_nrows F = m.
Hypothesis RG : mzd_nrows G = m.
Hypothesis CF : mzd_ncols F = nf.
Hypothesis CG : mzd_ncols G = ng.
Hypothesis Hnf : 1 <= nf.
Hypothesis Hfg : nf <= ng.
Definition cval (vw : nat * nat) (k : nat) : bool := mbit F k (fst vw) && mbit G k (snd vw).
Definition in_tri (vw : nat * nat) : Prop := fst vw < nf /\ fst vw <= snd vw < ng.
Definition rows_ok (r : nat) (C : mzd) (piv : list (nat * nat)) : Prop := forall i k, i < r -> k < m -> mbit C i k = cval (nth i piv (0, 0)) k.
Definition finv (s : fin_state) : Prop :=
  wf_mzd (fs_C s) /\ mzd_nrows (fs_C s) = m /\ mzd_ncols (fs_C s) = m /\ length (fs_piv s) = m /\
  in_tri (fs_v s, fs_w s) /\ fs_rank s <= m /\ (fs_rank s < m -> fs_r s < m) /\ rows_ok (fs_r s) (fs_C s) (fs_piv s) /\
  (forall i, i < m -> in_tri (nth i (fs_piv s) (0, 0))) /\
  (fs_rank s = m -> fs_r s = m /\ bindep m m (mbit (fs_C s))).
Notation F_T := (mzd_transpose F).
Notation G_T := (mzd_transpose G).
(** the pairs before (v, w) *)
Definition before (vw ab : nat * nat) : Prop := in_tri ab /\ (fst ab < fst vw \/ (fst ab = fst vw /\ snd ab < snd vw)).
Definition seen (P : nat * nat -> Prop) (s : fin_state) : Prop := forall ab, P ab -> bspan (fs_r s) m (mbit (fs_C s)) (cval ab).
Definition next_vw (v w : nat) : nat * nat :=
  if w + 1 =? ng then (let v := v + 1 in let v := if v =? nf then 0 else v in (v, v)) else (v, w + 1).
Lemma next_tri v w : in_tri (v, w) -> in_tri (next_vw v w).
Proof.
  unfold in_tri, next_vw. cbn [fst snd]. intros H. destruct (Nat.eqb_spec (w + 1) ng); cbv zeta; [|cbn [fst snd]; lia].
  destruct (Nat.eqb_spec (v + 1) nf); cbn [fst snd]; lia.
Qed.
Lemma set_row_ok C r vw : wf_mzd C -> mzd_nrows C = m -> mzd_ncols C = m -> r < m -> in_tri vw ->
  wp (set_and_row C F_T G_T r (fst vw) (snd vw)) (fun C' => mset C C' (fun i k => if i =? r then cval vw k else mbit C i k)).
Proof.
  intros HC R1 C1 Hr (H1 & H2). destruct (transpose_ok F) as (_ & TR & TC & TB). destruct (transpose_ok G) as (_ & TR' & TC' & TB'). unfold set_and_row.
  rewrite TR, TR'. replace ((r <? mzd_nrows C) && (fst vw <? mzd_ncols F) && (snd vw <? mzd_ncols G)) with true by lia. cbn [guard bind wp].
  eapply mset_ext; [now apply mset_build|]. cbv beta. intros i k Hi Hk. destruct (Nat.eqb_spec i r); [|easy]. rewrite TB, TB' by lia. reflexivity.
Qed.
Lemma bspan_row r n M i : i < r -> bspan r n M (M i).
Proof. intros Hi. exists (fun k => k =? i). intros j Hj. symmetry. now apply (bxsum_eqb r i (fun k => M k j)). Qed.
Lemma bspan_trans r n M r' M' y : bspan r n M y -> (forall i, i < r -> bspan r' n M' (M i)) -> bspan r' n M' y.
Proof.
  intros (l & Hl) Hs. revert y Hl. induction r as [|r IH]; intros y Hl.
  - exists (fun _ => false). intros j Hj. rewrite Hl by easy. cbn. now rewrite bxsum_false.
  - destruct (IH ltac:(intros; apply Hs; lia) (fun j => bxsum r (fun k => l k && M k j)) ltac:(easy)) as (l1 & H1). destruct (Hs r ltac:(lia)) as (l2 & H2).
    exists (fun k => xorb (l1 k) (l r && l2 k)). intros j Hj. rewrite Hl by easy. cbn [bxsum]. rewrite H1, H2 by easy. rewrite bxsum_and_l, <- bxsum_xorb.
    apply bxsum_ext. intros k Hk. destruct (l1 k), (l r), (l2 k), (M' k j); easy.
Qed.
Lemma bspan_ext r n M M' y y' : (forall i j, i < r -> j < n -> M i j = M' i j) -> (forall j, j < n -> y j = y' j) -> bspan r n M y -> bspan r n M' y'.
Proof. intros H H' (l & Hl). exists l. intros j Hj. rewrite <- H', Hl by easy. apply bxsum_ext. intros k Hk. now rewrite H. Qed.
Lemma bindep_ext r n M M' : (forall i j, i < r -> j < n -> M i j = M' i j) -> bindep r n M -> bindep r n M'.
Proof. intros H HB l Hl. apply HB. intros j Hj. rewrite <- (Hl j Hj). apply bxsum_ext. intros k Hk. now rewrite H. Qed.

Lemma step_ok s P : finv s -> fs_rank s < m -> seen P s ->
  wp (finish_step x m nf ng F_T G_T s) (fun s' => finv s' /\ (fs_v s', fs_w s') = next_vw (fs_v s) (fs_w s) /\ seen (fun ab => P ab \/ ab = (fs_v s, fs_w s)) s').
Proof.
  destruct s as [C piv v w r rk]. unfold finv, seen. cbn [fs_C fs_piv fs_v fs_w fs_r fs_rank]. intros (WC & RC & CC & Lp & Hvw & Hrk & Hr & Hrows & Hpiv & _) Hlt Hseen. specialize (Hr Hlt).
  unfold finish_step. cbn [fs_C fs_piv fs_v fs_w fs_r fs_rank]. apply wp_bind. eapply wp_mono; [apply (set_row_ok C r (v, w)); auto|]. intros C1 B1.
  pose proof (mset_wf _ _ _ B1) as WC1. pose proof (mset_nr _ _ _ B1) as RC1. pose proof (mset_nc _ _ _ B1) as CC1.
  rewrite lset_ok by lia. cbn [bind]. fold (next_vw v w). set (vw := next_vw v w). set (piv1 := upd piv r (v, w)).
  assert (Hp1 : forall i, i < m -> in_tri (nth i piv1 (0, 0))).
  { intros i Hi. unfold piv1. rewrite nth_upd by lia. destruct (Nat.eqb_spec r i); auto. }
  assert (Hrows1 : rows_ok (r + 1) C1 piv1).
  { intros i k Hi Hk. rewrite (mset_bit _ _ _ _ _ B1) by lia. unfold piv1. rewrite nth_upd by lia. destruct (Nat.eqb_spec i r) as [->|].
    - now rewrite Nat.eqb_refl.
    - destruct (Nat.eqb_spec r i); [lia|]. apply Hrows; lia. }
  assert (Hseen1 : forall ab, P ab \/ ab = (v, w) -> bspan (r + 1) m (mbit C1) (cval ab)).
  { intros ab [Hab| ->].
    - apply (bspan_trans r m (mbit C)); [auto|]. intros i Hi. apply (bspan_ext (r + 1) m (mbit C1) _ (mbit C1 i)); [easy| |apply bspan_row; lia].
      intros j Hj. rewrite (mset_bit _ _ _ _ _ B1) by lia. now replace (i =? r) with false by lia.
    - apply (bspan_ext (r + 1) m (mbit C1) _ (mbit C1 r)); [easy| |apply bspan_row; lia]. intros j Hj. rewrite (mset_bit _ _ _ _ _ B1) by lia. now rewrite Nat.eqb_refl. }
  assert (Evw : (fst vw, snd vw) = next_vw v w) by (unfold vw; now destruct (next_vw v w)).
  assert (Htri : in_tri (fst vw, snd vw)) by (rewrite Evw; now apply next_tri).
  destruct (Nat.eqb_spec (r + 1) m) as [Em|Em].
  - destruct (proj1 Hx C1 WC1) as (LP & VP & Hle & Hind & Hspan). destruct (x_ple x C1) as [Pm rank] eqn:EP. cbn [fst snd] in *.
    rewrite RC1, RC in *. rewrite CC1, CC in *.
    assert (Lp1 : length piv1 = m) by (unfold piv1; rewrite upd_length; lia).
    apply wp_bind. eapply wp_mono; [apply (apply_pairs_ok piv1 Pm); [lia|now rewrite Lp1]|]. intros piv2 (Lp2 & Hp2). rewrite Lp1 in *.
    assert (Hsw : forall i, i < m -> swaps (at_ Pm) m i < m).
    { intros i Hi. apply swaps_lt; [|easy]. intros k Hk. split; [easy|]. now apply VP. }
    apply wp_bind. eapply wp_mono; [apply apply_left_ok; [easy|]|].
    { intros i Hi. specialize (VP i ltac:(lia)). unfold at_ in VP. lia. }
    intros C2 B2. rewrite RC1 in B2. replace (Nat.min (length Pm) m) with m in B2 by lia.
    pose proof (mset_wf _ _ _ B2) as WC2. pose proof (mset_nr _ _ _ B2) as RC2. pose proof (mset_nc _ _ _ B2) as CC2.
    assert (E2 : forall i k, i < m -> k < m -> mbit C1 (swaps (at_ Pm) m i) k = mbit C2 i k) by (intros i k Hi Hk; symmetry; apply (mset_bit _ _ _ _ _ B2); lia).
    assert (Hseen2 : forall ab, P ab \/ ab = (v, w) -> bspan rank m (mbit C2) (cval ab)).
    { intros ab Hab. apply (bspan_trans (r + 1) m (mbit C1)); [auto|]. intros i Hi.
      apply (bspan_ext rank m (fun i k => mbit C1 (swaps (at_ Pm) m i) k) _ (fun k => mbit C1 (swaps (at_ Pm) m (unswaps (at_ Pm) m i)) k)).
      - intros a j Ha Hj. apply E2; lia.
      - intros j Hj. now rewrite swaps_unswaps.
      - apply Hspan. apply unswaps_lt; [|lia]. intros k Hk. split; [easy|]. now apply VP. }
    assert (Hrows2 : forall i k, i < m -> k < m -> mbit C2 i k = cval (nth i piv2 (0, 0)) k).
    { intros i k Hi Hk. rewrite Hp2 by easy. rewrite <- E2 by easy. apply Hrows1; [rewrite Em; auto|easy]. }
    cbn [wp fs_C fs_piv fs_v fs_w fs_r fs_rank]. split; [|split; [exact Evw|]].
    + split; [easy|]. split; [lia|]. split; [lia|]. split; [lia|]. split; [easy|]. split; [easy|].
      split; [intros Hl; now replace (rank <? m) with true by lia|]. split.
      { intros i k Hi Hk. apply Hrows2; [|easy]. destruct (Nat.ltb_spec rank m); lia. }
      split; [intros i Hi; rewrite Hp2 by easy; auto|].
      intros ->. rewrite Nat.ltb_irrefl. split; [easy|]. exact (bindep_ext _ _ _ _ E2 Hind).
    + intros ab Hab. specialize (Hseen2 ab Hab). destruct (Nat.ltb_spec rank m); [easy|]. now replace (r + 1) with rank by lia.
  - cbn [wp fs_C fs_piv fs_v fs_w fs_r fs_rank]. split; [|split; [exact Evw|exact Hseen1]].
    split; [easy|]. split; [lia|]. split; [lia|]. split; [unfold piv1; rewrite upd_length; lia|]. split; [easy|]. split; [lia|]. split; [lia|]. split; [easy|]. split; [easy|]. lia.
Qed.
Definition init_state : fin_state := Fin (mzd_init m m) (repeat (0, 0) m) 0 0 0 0.
Lemma init_ok : finv init_state.
Proof.
  unfold finv, init_state. cbn [fs_C fs_piv fs_v fs_w fs_r fs_rank]. split; [apply wf_init|]. split; [easy|]. split; [easy|]. split; [apply repeat_length|].
  split; [unfold in_tri; cbn; lia|]. split; [lia|]. split; [easy|]. split; [intros i k Hi; lia|]. split.
  - intros i Hi. rewrite nth_repeat. unfold in_tri. cbn. lia.
  - intros E. split; [easy|]. intros l _ k Hk. lia.
Qed.
(** if the loop ends, it ends well *)
Lemma loop_partial fuel : forall s, finv s -> match finish_loop fuel x m nf ng F_T G_T s with
  | None => True | Some (Ok s') => finv s' /\ fs_rank s' = m | Some _ => False end.
Proof.
  induction fuel as [|fuel IH]; intros s Hs; cbn [finish_loop]; destruct (Nat.ltb_spec (fs_rank s) m) as [Hlt|Hge]; try easy.
  - split; [easy|]. destruct Hs as (_ & _ & _ & _ & _ & H & _). lia.
  - pose proof (step_ok s (fun _ => False) Hs Hlt ltac:(intros ? [])) as Hst. destruct (finish_step x m nf ng F_T G_T s) as [s'| |]; try easy. cbn [wp] in Hst. now apply IH.
  - split; [easy|]. destruct Hs as (_ & _ & _ & _ & _ & H & _). lia.
Qed.
(** ** the loop ends when the pairs it visits span everything *)
Definition spans : Prop := forall i, i < m -> exists l, (forall vw, In vw l -> in_tri vw) /\ forall k, k < m -> (k =? i) = lbs (fun vw => cval vw k) l.
Lemma bspan_list r M l : (forall vw, In vw l -> bspan r m M (cval vw)) -> bspan r m M (fun k => lbs (fun vw => cval vw k) l).
Proof.
  induction l as [|a l IH]; intros H.
  - exists (fun _ => false). intros j Hj. cbn. now rewrite bxsum_false.
  - destruct (H a ltac:(now left)) as (l1 & H1). destruct (IH ltac:(intros vw Hv; apply H; now right)) as (l2 & H2).
    exists (fun k => xorb (l1 k) (l2 k)). intros j Hj. change (lbs (fun vw => cval vw j) (a :: l)) with (xorb (cval a j) (lbs (fun vw => cval vw j) l)). rewrite H1, H2 by easy. rewrite <- bxsum_xorb.
    apply bxsum_ext. intros k Hk. destruct (l1 k), (l2 k), (M k j); easy.
Qed.
Lemma seen_all s : spans -> seen in_tri s -> m <= fs_r s.
Proof.
  intros Hsp Hs. apply (bspan_full _ m (mbit (fs_C s))). intros i Hi. destruct (Hsp i Hi) as (l & Hl & El).
  apply (bspan_ext _ _ _ _ (fun k => lbs (fun vw => cval vw k) l) _ (fun i j _ _ => eq_refl)); [intros j Hj; now rewrite El|]. apply bspan_list. intros vw Hv. apply Hs. auto.
Qed.
Definition mu (s : fin_state) : nat := (nf - fs_v s) * ng + ng - fs_w s.
Lemma loop_total : spans -> forall fuel s, finv s -> seen (before (fs_v s, fs_w s)) s -> mu s <= fuel ->
  exists s', finish_loop fuel x m nf ng F_T G_T s = Some (Ok s') /\ finv s' /\ fs_rank s' = m.
Proof.
  intros Hsp. induction fuel as [|fuel IH]; intros s Hs Hseen Hmu.
  - exfalso. destruct Hs as (_ & _ & _ & _ & (H1 & H2 & H3) & _). cbn [fst snd] in *. unfold mu in Hmu. assert (1 * ng <= (nf - fs_v s) * ng) by (apply Nat.mul_le_mono_r; lia). lia.
  - cbn [finish_loop]. destruct (Nat.ltb_spec (fs_rank s) m) as [Hlt|Hge].
    2:{ exists s. split; [easy|]. split; [easy|]. destruct Hs as (_ & _ & _ & _ & _ & H & _). lia. }
    pose proof (step_ok s _ Hs Hlt Hseen) as Hst. destruct (finish_step x m nf ng F_T G_T s) as [s'| |]; try easy. cbn [wp] in Hst. destruct Hst as (Hs' & Evw & Hseen').
    pose proof Hs as (_ & _ & _ & _ & (T1 & T2 & T3) & _). cbn [fst snd] in T1, T2, T3. unfold next_vw in Evw. destruct (Nat.eqb_spec (fs_w s + 1) ng) as [Ew|Ew].
    + cbv zeta in Evw. destruct (Nat.eqb_spec (fs_v s + 1) nf) as [Ev|Ev].
      * (* a full cycle *)
        destruct (Nat.eq_dec (fs_rank s') m) as [Er|Er]; [exists s'; split; [|now split]; destruct fuel; cbn [finish_loop]; now rewrite Er, Nat.ltb_irrefl|exfalso].
        assert (m <= fs_r s'); [|destruct Hs' as (_ & _ & _ & _ & _ & H5 & H6 & _); specialize (H6 ltac:(lia)); lia].
        apply seen_all; [easy|]. intros [a b] Hab. apply Hseen'. destruct Hab as (A1 & A2 & A3). cbn [fst snd] in *.
        destruct (Nat.eq_dec a (fs_v s)) as [->|Ha]; [destruct (Nat.eq_dec b (fs_w s)) as [->|Hb]; [now right|]|]; left; unfold before, in_tri; cbn [fst snd]; lia.
      * injection Evw as Ev' Ew'. apply IH; [easy| |].
        -- intros [a b] ((A1 & A2 & A3) & Hb). cbn [fst snd] in *. apply Hseen'. rewrite Ev', Ew' in Hb.
           destruct (Nat.eq_dec a (fs_v s)) as [->|Ha]; [destruct (Nat.eq_dec b (fs_w s)) as [->|Hb']; [now right|]|]; left; unfold before, in_tri; cbn [fst snd]; lia.
        -- unfold mu in *. rewrite Ev', Ew'. replace (nf - fs_v s) with (S (nf - (fs_v s + 1))) in Hmu by lia. cbn [Nat.mul] in Hmu. lia.
    + injection Evw as Ev' Ew'. apply IH; [easy| |].
      -- intros [a b] ((A1 & A2 & A3) & Hb). cbn [fst snd] in *. apply Hseen'. rewrite Ev', Ew' in Hb.
         destruct (Nat.eq_dec a (fs_v s)) as [->|Ha]; [destruct (Nat.eq_dec b (fs_w s)) as [->|Hb']; [now right|]|]; left; unfold before, in_tri; cbn [fst snd]; lia.
      -- unfold mu in *. rewrite Ev', Ew'. lia.
Qed.
(** and does not end when they do not: there is a functional that vanishes on all of them *)
Lemma loop_stuck (y : nat -> bool) fuel s : (exists k, k < m /\ y k = true) -> (forall vw, in_tri vw -> bxsum m (fun k => cval vw k && y k) = false) ->
  finish_loop fuel x m nf ng F_T G_T s <> None -> finv s -> False.
Proof.
  intros (k & Hk & Hy) Hv Hn Hs. pose proof (loop_partial fuel s Hs) as H. destruct (finish_loop fuel x m nf ng F_T G_T s) as [[s'| |]|]; try easy. destruct H as (Hs' & Hr).
  destruct Hs' as (WC & RC & CC & Lp & _ & _ & _ & Hrows & Hpiv & Hd). destruct (Hd Hr) as (Er & Hind). rewrite Er in Hrows.
  destruct Hx as (_ & Hinv & _). assert (Hind' : bindep (mzd_nrows (fs_C s')) (mzd_ncols (fs_C s')) (mbit (fs_C s'))) by (rewrite RC, CC; exact Hind).
  destruct (Hinv (fs_C s') WC ltac:(lia) Hind') as (_ & _ & _ & _ & HDC). set (D := x_inv x (fs_C s')) in *. rewrite RC in HDC.
  enough (y k = false) by congruence. rewrite <- (bxsum_eqb m k y Hk).
  transitivity (bxsum m (fun j => bmul m (mbit D) (mbit (fs_C s')) k j && y j)); [apply bxsum_ext; intros j Hj; rewrite HDC by easy; now rewrite Nat.eqb_sym|].
  unfold bmul. rewrite (bxsum_ext m _ (fun j => bxsum m (fun i => mbit D k i && (mbit (fs_C s') i j && y j)))) by (intros j Hj; rewrite bxsum_and_r; apply bxsum_ext; intros; now rewrite andb_assoc).
  rewrite bxsum_swap. apply bxsum_0. intros i Hi. rewrite <- bxsum_and_l. rewrite (bxsum_ext m _ (fun j => cval (nth i (fs_piv s') (0, 0)) j && y j)) by (intros j Hj; now rewrite Hrows).
  rewrite Hv by auto. apply andb_false_r.
Qed.

(** ** after the loop *)
Definition solves (H : mzd) : Prop := forall i v w, i < nf + ng - 1 -> v < nf -> w < ng -> bxsum m (fun k => mbit H i k && cval (v, w) k) = (v + w =? i).
Lemma rest_ok (f : blm) s : determined m nf ng (mbit F) (mbit G) -> bl_F f = F -> bl_G f = G -> finv s -> fs_rank s = m ->
  exists H, wf_mzd H /\ mzd_nrows H = nf + ng - 1 /\ mzd_ncols H = m /\ solves H /\
  forall ff, finish_rest x ff f m F_T G_T s =
    (H' <- match ff with None => Ok H | Some k => N <- crt_modred_mat (mzd_nrows H) (ff_minpoly k) (ff_degree k) ;; mzd_mul (mzd_init (mzd_nrows N) (mzd_ncols H)) N H end ;;
     Ok (Blm F G H' (bl_f f) (bl_g f) (bl_h f))).
Proof.
  intros Hdet EF EG (WC & RC & CC & Lp & _ & _ & _ & Hrows & Hpiv & Hd) Hr. destruct (Hd Hr) as (Er & Hind). rewrite Er in Hrows.
  unfold finish_rest. rewrite EF, EG, CF, CG. set (piv := fs_piv s) in *.
  assert (HC : wp (for_ 0 m (fun r C => vw <- lget piv r ;; set_and_row C F_T G_T r (fst vw) (snd vw)) (fs_C s)) (fun C => mset (fs_C s) C (mbit (fs_C s)))).
  { apply (wp_for (fun _ C => mset (fs_C s) C (mbit (fs_C s)))); [lia|now apply mset_refl|]. intros r C Hr' BC. rewrite (lget_ok piv r (0, 0)) by lia. cbn [bind].
    pose proof (mset_wf _ _ _ BC) as WC'. pose proof (mset_nr _ _ _ BC) as RC'. pose proof (mset_nc _ _ _ BC) as CC'.
    eapply wp_mono; [apply set_row_ok; [easy|lia|lia|lia|apply Hpiv; lia]|]. cbv beta. intros C' BC'. eapply mset_step; [exact BC|exact BC'|]. cbv beta. intros i k Hi Hk.
    destruct (Nat.eqb_spec i r) as [->|]; [symmetry; apply Hrows; lia|]. apply (mset_bit _ _ _ _ _ BC); lia. }
  destruct (proj1 (wp_iff _ _) HC) as (C & EC & BC). pose proof (mset_wf _ _ _ BC) as WC'. pose proof (mset_nr _ _ _ BC) as RC'. pose proof (mset_nc _ _ _ BC) as CC'.
  assert (Hrows' : forall i k, i < m -> k < m -> mbit C i k = cval (nth i piv (0, 0)) k) by (intros i k Hi Hk; rewrite (mset_bit _ _ _ _ _ BC) by lia; now apply Hrows).
  assert (Hind' : bindep (mzd_nrows C) (mzd_ncols C) (mbit C)).
  { rewrite RC', CC', RC, CC. apply (bindep_ext _ _ (mbit (fs_C s))); [|easy]. intros i j Hi Hj. symmetry. apply (mset_bit _ _ _ _ _ BC); lia. }
  destruct Hx as (_ & Hinv & _). destruct (Hinv C WC' ltac:(lia) Hind') as (WD & RD & CD & HCD & HDC). set (D := x_inv x C) in *. rewrite RC', RC in *.
  destruct (transpose_ok D) as (WT & RT & CT & BT). set (DT := mzd_transpose D) in *. rewrite RD, CD in *.
  set (H0 := mzd_init (nf + ng - 1) m).
  set (Hgoal := fun i k => bxsum m (fun j => (fst (nth j piv (0, 0)) + snd (nth j piv (0, 0)) =? i) && mbit D k j)).
  set (body := fun (i : nat) (st : mzd * mzd * mzd) =>
      let '(H, a, b) := st in
      a <- for_ 0 m (fun j a => vw <- lget piv j ;; if fst vw + snd vw =? i then mzd_write_bit a 0 j true else Ok a) (mzd_set_ui a 0) ;;
      b <- mzd_mul b a DT ;;
      H <- for_ 0 (mzd_ncols H) (fun j H => bit <- mzd_read_bit b 0 j ;; mzd_write_bit H i j bit) H ;;
      Ok (H, a, b)).
  assert (HH : wp (for_ 0 (mzd_nrows H0) body (H0, mzd_init 1 m, mzd_init 1 (mzd_ncols H0)))
     (fun st => let '(H, a, b) := st in mset H0 H Hgoal)).
  { eapply wp_mono; [apply (wp_for (fun t (st : mzd * mzd * mzd) => let '(H, a, b) := st in mset H0 H (fun i k => (i <? t) && Hgoal i k) /\ wf_mzd a /\ mzd_nrows a = 1 /\ mzd_ncols a = m /\ wf_mzd b /\ mzd_nrows b = 1 /\ mzd_ncols b = m)); [lia| |]|].
    - split; [|split; [apply wf_init|]; split; [easy|]; split; [easy|]; split; [apply wf_init|]; now split].
      apply (mset_ext _ _ (mbit H0)); [apply mset_refl, wf_init|]. intros i k _ _. unfold H0. rewrite init_bit. reflexivity.
    - intros i [[H a] b] Hi (BH & Wa & Ra & Ca & Wb & Rb & Cb). cbn [H0 mzd_init mzd_nrows] in Hi. unfold body.
      pose proof (set_ui_ok a 0 Wa) as Ba0. set (a0 := mzd_set_ui a 0) in *.
      apply wp_bind. eapply wp_mono; [apply (wp_for (fun t a' => mset a a' (fun _ j => (j <? t) && (fst (nth j piv (0, 0)) + snd (nth j piv (0, 0)) =? i)))); [lia| |]|].
      + apply (mset_ext _ _ _ _ Ba0). intros r j _ _. reflexivity.
      + intros j a' Hj Ba. rewrite (lget_ok piv j (0, 0)) by lia. cbn [bind]. pose proof (mset_wf _ _ _ Ba) as Wa'. pose proof (mset_nr _ _ _ Ba) as Ra'. pose proof (mset_nc _ _ _ Ba) as Ca'.
        destruct (Nat.eqb_spec (fst (nth j piv (0, 0)) + snd (nth j piv (0, 0))) i) as [E|E].
        * eapply wp_mono; [apply write_bit_ok; [easy|lia|lia]|]. intros a2 Ba2. eapply mset_step; [exact Ba|exact Ba2|]. cbv beta. intros r j' Hr' Hj'.
          rewrite (mset_bit _ _ _ _ _ Ba) by easy. replace (r =? 0) with true by lia. cbn [andb]. destruct (Nat.eqb_spec j' j) as [->|].
          -- replace (j <? S j) with true by lia. symmetry. now apply Nat.eqb_eq.
          -- destruct (Nat.ltb_spec j' j); [now replace (j' <? S j) with true by lia|now replace (j' <? S j) with false by lia].
        * cbn [wp]. apply (mset_ext _ _ _ _ Ba). intros r j' _ _. destruct (Nat.eq_dec j' j) as [->|].
          -- rewrite Nat.ltb_irrefl. cbn [andb]. symmetry. apply andb_false_intro2. now apply Nat.eqb_neq.
          -- destruct (Nat.ltb_spec j' j); [now replace (j' <? S j) with true by lia|now replace (j' <? S j) with false by lia].
      + cbv beta. intros a1 Ba. pose proof (mset_wf _ _ _ Ba) as Wa1. pose proof (mset_nr _ _ _ Ba) as Ra1. pose proof (mset_nc _ _ _ Ba) as Ca1.
        apply wp_bind. eapply wp_mono; [apply (mul_ok b a1 DT Wb); lia|]. intros b1 Bb. pose proof (mgot_wf _ _ _ Bb) as Wb1. pose proof (mgot_nr _ _ _ Bb) as Rb1. pose proof (mgot_nc _ _ _ Bb) as Cb1.
        pose proof (mset_wf _ _ _ BH) as WH. pose proof (mset_nr _ _ _ BH) as RH. pose proof (mset_nc _ _ _ BH) as CH. cbn [H0 mzd_init mzd_nrows mzd_ncols] in RH, CH.
        assert (Eb : forall k, k < m -> mbit b1 0 k = Hgoal i k).
        { intros k Hk. rewrite (mgot_bit _ _ _ _ _ Bb) by lia. unfold bmul, Hgoal. rewrite Ca1, Ca. apply bxsum_ext. intros j Hj. rewrite (mset_bit _ _ _ _ _ Ba) by lia.
          rewrite BT by lia. now replace (j <? m) with true by lia. }
        apply wp_bind. eapply wp_mono; [apply (wp_for (fun t H' => mset H H' (fun i' k => if (i' =? i) && (k <? t) then Hgoal i k else mbit H i' k))); [lia| |]|].
        * apply (mset_ext _ _ (mbit H)); [now apply mset_refl|]. intros i' k _ _. now rewrite andb_false_r.
        * intros k H' Hk BH'. rewrite read_bit_ok by lia. cbn [bind]. pose proof (mset_wf _ _ _ BH') as WH'. pose proof (mset_nr _ _ _ BH') as RH'. pose proof (mset_nc _ _ _ BH') as CH'.
          eapply wp_mono; [apply write_bit_ok; [easy|lia|lia]|]. intros H2 BH2. eapply mset_step; [exact BH'|exact BH2|]. cbv beta. intros i' k' Hi' Hk'.
          rewrite (mset_bit _ _ _ _ _ BH') by easy. destruct (Nat.eqb_spec i' i) as [->|]; cbn [andb]; [|easy]. destruct (Nat.eqb_spec k' k) as [->|].
          -- replace (k <? S k) with true by lia. apply Eb. lia.
          -- destruct (Nat.ltb_spec k' k); [now replace (k' <? S k) with true by lia|now replace (k' <? S k) with false by lia].
        * cbv beta. intros H1 BH1. cbn [wp]. split; [|split; [easy|]; split; [lia|]; split; [lia|]; split; [easy|]; split; lia].
          eapply mset_step; [exact BH|exact BH1|]. cbv beta. intros i' k' Hi' Hk'. cbn [H0 mzd_init mzd_nrows mzd_ncols] in Hi', Hk'. rewrite (mset_bit _ _ _ _ _ BH) by (cbn [H0 mzd_init mzd_nrows mzd_ncols]; lia).
          rewrite CH. replace (k' <? m) with true by lia. rewrite andb_true_r. destruct (Nat.eqb_spec i' i) as [->|]; [now replace (i <? S i) with true by lia|].
          destruct (Nat.ltb_spec i' i); [now replace (i' <? S i) with true by lia|now replace (i' <? S i) with false by lia].
    - cbv beta. intros [[H a] b] (BH & _). apply (mset_ext _ _ _ _ BH). cbn [H0 mzd_init mzd_nrows mzd_ncols]. intros i k Hi _. now replace (i <? nf + ng - 1) with true by lia. }
  destruct (proj1 (wp_iff _ _) HH) as ([[H a] b] & EH & BH).
  pose proof (mset_wf _ _ _ BH) as WH. pose proof (mset_nr _ _ _ BH) as RH. pose proof (mset_nc _ _ _ BH) as CH. cbn [H0 mzd_init mzd_nrows mzd_ncols] in RH, CH.
  exists H. split; [easy|]. split; [easy|]. split; [easy|]. split.
  2:{ intros ff. rewrite EC. cbn [bind]. fold D. fold DT. fold H0. fold body. rewrite EH. cbn [bind]. reflexivity. }
  (* the pivots *)
  assert (Hpv : forall i j, i < nf + ng - 1 -> j < m -> bxsum m (fun k => mbit H i k && cval (nth j piv (0, 0)) k) = (fst (nth j piv (0, 0)) + snd (nth j piv (0, 0)) =? i)).
  { intros i j Hi Hj.
    rewrite <- (bxsum_eqb m j (fun j => fst (nth j piv (0, 0)) + snd (nth j piv (0, 0)) =? i) Hj).
    rewrite (bxsum_ext m (fun i0 => (i0 =? j) && _) (fun q => bxsum m (fun k => (fst (nth q piv (0, 0)) + snd (nth q piv (0, 0)) =? i) && mbit D k q && mbit C j k))).
    - rewrite bxsum_swap. apply bxsum_ext. intros k Hk. rewrite (mset_bit _ _ _ _ _ BH) by (cbn [H0 mzd_init mzd_nrows mzd_ncols]; lia). unfold Hgoal. rewrite bxsum_and_r. apply bxsum_ext. intros q Hq. now rewrite Hrows'.
    - intros q Hq. rewrite Nat.eqb_sym, <- (HCD j q Hj Hq). unfold bmul. rewrite andb_comm, bxsum_and_l. apply bxsum_ext. intros k Hk. rewrite <- andb_assoc. f_equal. apply andb_comm. }
  intros i v w Hi Hv Hw.
  set (lam := fun j => bxsum m (fun k => cval (v, w) k && mbit D k j)).
  assert (Hlam : forall k, k < m -> cval (v, w) k = bxsum m (fun j => lam j && cval (nth j piv (0, 0)) k)).
  { intros k Hk. transitivity (bxsum m (fun k' => cval (v, w) k' && bmul m (mbit D) (mbit C) k' k)).
    - rewrite (bxsum_ext m _ (fun k' => cval (v, w) k' && (k' =? k))) by (intros k' Hk'; now rewrite HDC). now rewrite bxsum_eqb_r.
    - unfold bmul, lam. rewrite (bxsum_ext m _ (fun k' => bxsum m (fun j => cval (v, w) k' && mbit D k' j && cval (nth j piv (0, 0)) k))).
      + rewrite bxsum_swap. apply bxsum_ext. intros j Hj. symmetry. apply bxsum_and_r.
      + intros k' Hk'. rewrite bxsum_and_l. apply bxsum_ext. intros j Hj. rewrite Hrows' by easy. apply andb_assoc. }
  (* the relation *)
  set (l := (v, w) :: map (fun j => nth j piv (0, 0)) (filter lam (seq 0 m))).
  assert (Hsum : forall g : nat * nat -> bool, lbs g l = xorb (g (v, w)) (bxsum m (fun j => lam j && g (nth j piv (0, 0))))).
  { intros g. unfold l. change (xorb (g (v, w)) (lbs g (map (fun j => nth j piv (0, 0)) (filter lam (seq 0 m)))) = xorb (g (v, w)) (bxsum m (fun j => lam j && g (nth j piv (0, 0))))). f_equal. apply lbs_filter. }
  assert (Hbox : in_box nf ng l).
  { intros vw [<-|Hin]; [cbn; lia|]. apply in_map_iff in Hin. destruct Hin as (j & <- & Hj). apply filter_In in Hj. destruct Hj as [Hj _]. apply in_seq in Hj. destruct (Hpiv j ltac:(lia)) as (P1 & P2). fold piv in P1, P2. lia. }
  assert (Hdel : delta l = 0%N).
  { apply Hdet; [easy|]. intros k Hk. change (fun vw => mbit F k (fst vw) && mbit G k (snd vw)) with (fun vw => cval vw k). rewrite Hsum, <- Hlam by easy. apply xorb_nilpotent. }
  assert (Hbit : xorb (v + w =? i) (bxsum m (fun j => lam j && (fst (nth j piv (0, 0)) + snd (nth j piv (0, 0)) =? i))) = false).
  { rewrite <- (N.bits_0 (N.of_nat i)), <- Hdel. unfold delta. rewrite lxs_testbit, Hsum. f_equal; [|apply bxsum_ext; intros j Hj; f_equal]; rewrite N.pow2_bits_eqb; cbn [fst snd]; lia. }
  apply Bool.xorb_eq in Hbit. rewrite Hbit.
  rewrite (bxsum_ext m _ (fun k => bxsum m (fun j => lam j && (mbit H i k && cval (nth j piv (0, 0)) k)))).
  - rewrite bxsum_swap. apply bxsum_ext. intros j Hj. rewrite <- bxsum_and_l, Hpv by easy. reflexivity.
  - intros k Hk. rewrite Hlam by easy. rewrite bxsum_and_l. apply bxsum_ext. intros j Hj. destruct (mbit H i k), (lam j), (cval (nth j piv (0, 0)) k); easy.
Qed.
End Fin.

