(** mzed_echelonize_newton_john needs O(n^2) field multiplications if all leading blocks of the matrix are invertible. *)
From Coq Require Import NArith Lia List Bool Arith.
From Coq Require Import ZifyBool ZifyNat ZifyN.
From Verif Require Import Base Spec LinSpec PolyFacts MatFacts EchFacts Gf2xModel Gf2eModel Gf2eProofs.
From Verif Require Import MzdModel MzedModel MzedSpec LaneFacts MzedProofs MzedOps MzedOps2 EchNaive NjModel NjTable NjMul NjEch NjEch2 CostModel CostNjModel CostProofs CostNjProofs CostNjWorst.
Import ListNotations.
Local Open Scope nat_scope.

(** the rows of the leading s x s block are independent *)
Definition leading_independent (f : N) (s : nat) (R : mat) : Prop :=
  forall v, (forall i, i < s -> inF f (v i)) -> (forall j, j < s -> xsum s (fun i => fmul f (v i) (R i j)) = 0%N) -> forall i, i < s -> v i = 0%N.

Lemma logs_for_le {X} (I : X -> Prop) b lo hi body (s : X) : I s -> (forall i s, lo <= i < hi -> I s -> logs (body i s) (fun s' l => I s' /\ mults l <= b)) ->
  logs (lfor lo hi body s) (fun s' l => I s' /\ mults l <= (hi - lo) * b).
Proof.
  intros H Hb. unfold lfor. assert (G : forall n i s, lo <= i -> i + n <= hi \/ n = 0 -> I s -> logs (lloop n i body s) (fun s' l => I s' /\ mults l <= n * b)).
  { clear s H. induction n as [|n IH]; intros i s Hi Hn HI; cbn [lloop].
    - apply logs_quiet, alw_ok. split; [exact HI|]. cbn. lia.
    - apply logs_bind. eapply logs_mono; [apply Hb; [lia|exact HI]|]. cbv beta. intros s' l [H1 H2].
      eapply logs_mono; [apply IH; [lia| |exact H1]; lia|]. cbv beta. intros s'' l' [H3 H4]. split; [exact H3|]. rewrite mults_app. cbn [Nat.mul]. lia. }
  apply G; [lia| |exact H]. lia.
Qed.
Lemma logs_axpy_le A ar B br x c w : mz_ncols A = w -> logs (mzed_add_multiple_of_row_l A ar B br x c) (fun A' lg => mz_ncols A' = w /\ mults lg <= w).
Proof.
  intros E. eapply logs_mono; [apply logs_axpy|]. cbv beta. intros A' lg [H ->]. split; [congruence|]. destruct (_ <? _)%N; cbn; lia.
Qed.
Lemma logs_elim_le w lo hi (i p : nat -> nat) (j j' : nat -> nat) A : mz_ncols A = w ->
  logs (lfor lo hi (fun l A => tmp <~ quiet (mzed_read_elem A (i l) (j l)) ;; if (tmp =? 0)%N then quiet (Ok A) else mzed_add_multiple_of_row_l A (i l) A (p l) tmp (j' l)) A)
       (fun _ lg => mults lg <= (hi - lo) * w).
Proof.
  intros E. eapply logs_mono; [apply (logs_for_le (fun A => mz_ncols A = w) w); [exact E|]|now intros ? ? [_ H]]. cbv beta. intros l B _ HB. apply logs_q, alw_true. intros x.
  destruct (x =? 0)%N; [apply logs_quiet, alw_ok; split; [exact HB|cbn; lia]|now apply logs_axpy_le].
Qed.
Lemma erase_elim lo hi (i p j j' : nat -> nat) A :
  erase (lfor lo hi (fun l A => tmp <~ quiet (mzed_read_elem A (i l) (j l)) ;; if (tmp =? 0)%N then quiet (Ok A) else mzed_add_multiple_of_row_l A (i l) A (p l) tmp (j' l)) A) =
  for_ lo hi (fun l A => tmp <- mzed_read_elem A (i l) (j l) ;; if (tmp =? 0)%N then Ok A else mzed_add_multiple_of_row A (i l) A (p l) tmp (j' l)) A.
Proof. apply erase_for. intros l B. apply erase_q. intros x. destruct (_ =? _)%N; [apply erase_quiet|apply erase_axpy]. Qed.

Section Generic.
Variables (f : N) (m n : nat) (R0 : mat).
Hypothesis Hirr : irreducible f.
Hypothesis Hf : (2 <= pdeg f)%N.
Hypothesis HR0 : inM f m n R0.
Hypothesis Hlead : forall s, s <= m -> s <= n -> leading_independent f s R0.
Let f0 : f <> 0%N. Proof. intros ->. cbn in Hf. lia. Qed.

(** combinations of the first s rows *)
Definition sp (s : nat) (v : nat -> N) : Prop := exists t, (forall l, l < s -> inF f (t l)) /\ forall j, j < n -> v j = xsum s (fun l => fmul f (t l) (R0 l j)).
Lemma sp_ext s v v' : sp s v -> (forall j, j < n -> v' j = v j) -> sp s v'.
Proof. intros (t & H1 & H2) E. exists t. split; [exact H1|]. intros j Hj. rewrite E by easy. now apply H2. Qed.
Lemma sp_0 s : sp s (fun _ => 0%N).
Proof. exists (fun _ => 0%N). split; [intros; apply inF_0|]. intros j Hj. symmetry. now apply xsum_0. Qed.
Lemma sp_add s v w : sp s v -> sp s w -> sp s (fun j => N.lxor (v j) (w j)).
Proof.
  intros (t & H1 & H2) (u & H3 & H4). exists (fun l => N.lxor (t l) (u l)). split; [intros l Hl; apply lxor_lt_pow2; [apply H1|apply H3]; auto|].
  intros j Hj. rewrite H2, H4, <- xsum_lxor by easy. apply xsum_ext. intros l Hl. now rewrite fmul_lxor_l.
Qed.
Lemma sp_scale s x v : sp s v -> sp s (fun j => fmul f x (v j)).
Proof.
  intros (t & H1 & H2). exists (fun l => fmul f x (t l)). split; [intros l Hl; now apply fmul_lt|].
  intros j Hj. rewrite H2, xsum_fmul_l by easy. apply xsum_ext. intros l Hl. now apply fmul_assoc.
Qed.
Lemma sp_le s s' v : sp s v -> s <= s' -> sp s' v.
Proof.
  intros (t & H1 & H2) Hs. exists (fun l => if l <? s then t l else 0%N). split; [intros l Hl; destruct (Nat.ltb_spec l s); [auto|apply inF_0]|].
  intros j Hj. rewrite H2 by easy. replace s' with (s + (s' - s)) by lia. rewrite xsum_split. rewrite (xsum_0 (s' - s)).
  - rewrite N.lxor_0_r. apply xsum_ext. intros l Hl. now replace (l <? s) with true by lia.
  - intros l Hl. replace (s + l <? s) with false by lia. reflexivity.
Qed.
Lemma sp_row s i : i < s -> s <= m -> sp s (R0 i).
Proof.
  intros Hi Hs. exists (fun l => if l =? i then 1%N else 0%N). split; [intros l Hl; destruct (l =? i); [apply inF1; lia|apply inF_0]|].
  intros j Hj. rewrite (xsum_single _ i) by (auto; intros l Hl Hne; replace (l =? i) with false by lia; reflexivity). rewrite Nat.eqb_refl. symmetry. apply fmul_1_l; [exact f0|]. apply HR0; lia.
Qed.
Lemma sp_xsum s k (g : nat -> nat -> N) : (forall l, l < k -> sp s (g l)) -> sp s (fun j => xsum k (fun l => g l j)).
Proof.
  induction k as [|k IH]; intros H; cbn [xsum]; [apply sp_0|]. apply sp_add; [apply IH; auto|apply H; lia].
Qed.
(** the rows below s are the given rows changed by multiples of the first s, and those above are in their span *)
Definition tri (s : nat) (R : mat) : Prop := forall i, i < m -> sp s (fun j => N.lxor (R i j) (if i <? s then 0%N else R0 i j)).
Lemma tri_le s s' R : tri s R -> s <= s' -> s' <= m -> tri s' R.
Proof.
  intros H Hs Hm i Hi. pose proof (sp_le _ s' _ (H i Hi) Hs) as H1. destruct (Nat.ltb_spec i s) as [L|L].
  - now replace (i <? s') with true by lia.
  - destruct (Nat.ltb_spec i s') as [L'|L']; [|exact H1]. eapply sp_ext; [apply sp_add; [exact H1|apply (sp_row s' i); lia]|]. cbv beta. intros j Hj. now rewrite N.lxor_0_r, N.lxor_assoc, N.lxor_nilpotent, N.lxor_0_r.
Qed.
Lemma tri_top s R i : tri s R -> i < s -> s <= m -> sp s (R i).
Proof. intros H Hi Hm. eapply sp_ext; [apply (H i); lia|]. cbv beta. intros j Hj. replace (i <? s) with true by lia. now rewrite N.lxor_0_r. Qed.
(** adding a vector of the span to a row *)
Lemma tri_step s R R' : tri s R -> (forall i, i < m -> exists v, sp s v /\ forall j, j < n -> R' i j = N.lxor (R i j) (v j)) -> tri s R'.
Proof.
  intros H HR i Hi. destruct (HR i Hi) as (v & Hv & E). eapply sp_ext; [apply sp_add; [apply (H i Hi)|exact Hv]|]. cbv beta. intros j Hj. rewrite E by easy.
  rewrite !N.lxor_assoc. f_equal. apply N.lxor_comm.
Qed.
Lemma tri_comb s S r c k R : tri s R -> r + k <= s -> s <= m -> tri s (comb f S r c k R).
Proof.
  intros H Hr Hs. apply (tri_step s R); [exact H|]. intros i Hi. unfold comb. destruct (S i).
  - eexists. split; [|intros j Hj; reflexivity]. apply (sp_xsum s k (fun l j => fmul f (R i (c + l)) (R (r + l) j))). intros l Hl. apply sp_scale, (tri_top s R (r + l)); auto; lia.
  - exists (fun _ => 0%N). split; [apply sp_0|]. intros j Hj. now rewrite N.lxor_0_r.
Qed.
(** the next pivot is not 0 *)
Lemma pivot_here s R : tri s R -> s < m -> s < n -> (forall j, j < s -> R s j = 0%N) -> R s s <> 0%N.
Proof.
  intros H Hm Hn Hz E. destruct (H s Hm) as (t & Ht & E'). rewrite Nat.ltb_irrefl in E'.
  specialize (Hlead (S s) ltac:(lia) ltac:(lia) (fun l => if l =? s then 1%N else t l)). cbv beta in Hlead.
  assert (X : (if s =? s then 1%N else t s) = 0%N).
  { apply (Hlead); [| |lia].
    - intros l Hl. destruct (Nat.eqb_spec l s) as [->|]; [apply inF1; lia|apply Ht; lia].
    - intros j Hj. cbn [xsum]. rewrite Nat.eqb_refl, fmul_1_l by (auto; apply HR0; lia).
      rewrite (xsum_ext s _ (fun l => fmul f (t l) (R0 l j))) by (intros l Hl; now replace (l =? s) with false by lia).
      rewrite <- E' by lia. assert (R s j = 0%N) as -> by (destruct (Nat.eq_dec j s) as [->|]; [exact E|apply Hz; lia]). rewrite N.lxor_0_l. apply N.lxor_nilpotent. }
  rewrite Nat.eqb_refl in X. discriminate X.
Qed.
Definition gst (s k : nat) (A : mzed) : Prop := wf_mzed A /\ fld A = f /\ mz_nrows A = m /\ mz_ncols A = n /\ gblock m n s s k (entry A) /\ tri (s + k) (entry A).

Lemma find_generic s k A d : gst s k A -> s + k < m -> s + k < n ->
  logs (gauss_find_l (S d) (s + k) A s s (s + k)) (fun Ap lg => exists x, snd Ap = Some (s + k, x) /\ gst s k (fst Ap) /\ (forall j, j < s + k -> entry (fst Ap) (s + k) j = 0%N) /\
    x = entry (fst Ap) (s + k) (s + k) /\ x <> 0%N /\ mults lg <= k * n).
Proof.
  intros (H1 & H2 & H3 & H4 & H5 & H6) Hm Hn. cbn [gauss_find_l]. replace (s + k - s) with k by lia. apply logs_bind.
  assert (GB : gblock (mz_nrows A) (mz_ncols A) s s k (entry A)) by now rewrite H3, H4.
  eapply logs_mono; [apply logs_and; [eapply logs_wp; [apply (erase_elim 0 k (fun _ => s + k) (fun l => s + l) (fun l => s + l) (fun l => s + l))|apply (elim_row_ok A s s k (s + k) H1 GB ltac:(lia))]|
                                      apply (logs_elim_le n 0 k (fun _ => s + k) (fun l => s + l) (fun l => s + l) (fun l => s + l) A H4)]|].
  cbv beta. intros A1 lg [B1 L1]. rewrite Nat.sub_0_r in L1. rewrite H2 in B1.
  pose proof (becomes_wf _ _ _ B1) as W1. pose proof (becomes_ff _ _ _ B1) as F1. pose proof (becomes_nr _ _ _ B1) as N1. pose proof (becomes_nc _ _ _ B1) as C1.
  assert (HR : inM f m n (entry A)) by (rewrite <- H2, <- H3, <- H4; now apply wf_inM).
  assert (Hf1 : (1 <= pdeg f)%N) by lia.
  assert (T1 : tri (s + k) (entry A1)).
  { apply (tri_step (s + k) (comb f (fun i' => i' =? s + k) s s k (entry A))); [apply tri_comb; auto; lia|]. intros i Hi. exists (fun _ => 0%N). split; [apply sp_0|]. intros j Hj. rewrite N.lxor_0_r.
    apply (becomes_entry _ _ _ _ _ B1); lia. }
  assert (Z1 : forall j, j < s + k -> entry A1 (s + k) j = 0%N).
  { intros j Hj. rewrite (becomes_entry _ _ _ _ _ B1) by lia. destruct (Nat.lt_ge_cases j s) as [L|L].
    - rewrite (comb_left f Hf1 _ m n) by auto. apply H5; lia.
    - replace j with (s + (j - s)) by lia. apply (comb_block f Hf1 _ m n); auto; try lia. }
  assert (G1 : gblock m n s s k (entry A1)).
  { pose proof H5 as (G1 & G2 & G3 & G4). split; [easy|]. split; [easy|]. split.
    - intros l l' Hl Hl'. rewrite (becomes_entry _ _ _ _ _ B1) by lia. rewrite comb_out by lia. now apply G3.
    - intros i j Hi Hj. rewrite (becomes_entry _ _ _ _ _ B1) by lia. rewrite (comb_left f Hf1 _ m n) by auto. now apply G4. }
  apply logs_q. rewrite mzed_read_elem_ok by (auto; lia). apply alw_ok. pose proof (pivot_here (s + k) (entry A1) T1 Hm Hn Z1) as Hx.
  replace (entry A1 (s + k) (s + k) =? 0)%N with false by (symmetry; now apply N.eqb_neq). apply logs_quiet, alw_ok. cbn [fst snd]. exists (entry A1 (s + k) (s + k)). split; [reflexivity|].
  rewrite app_nil_r. split; [|auto]. split; [exact W1|]. split; [now rewrite F1|]. split; [lia|]. split; [lia|]. split; assumption.
Qed.
Lemma cols_generic d : forall s k A, gst s k A -> s + k + d <= n ->
  logs (gauss_cols_l d A s s m (s + k) (s + k)) (fun Ak lg => snd Ak = Nat.min (k + d) (m - s) /\ gst s (snd Ak) (fst Ak) /\ mults lg + k * k * n <= snd Ak * snd Ak * n).
Proof.
  induction d as [|d IH]; intros s k A St Hc; cbn [gauss_cols_l].
  - apply logs_quiet, alw_ok. cbn [fst snd]. replace (s + k - s) with k by lia. pose proof St as (_ & _ & _ & _ & (Hm & _) & _). split; [lia|]. split; [exact St|]. cbn. lia.
  - destruct (Nat.eq_dec (s + k) m) as [Em|Em].
    { replace (m - (s + k)) with 0 by lia. cbn [gauss_find_l]. apply logs_q, alw_ok. apply logs_quiet, alw_ok. cbn [fst snd]. replace (s + k - s) with k by lia. split; [lia|]. split; [exact St|]. cbn. lia. }
    pose proof St as (_ & _ & _ & _ & (Hm & _) & _). replace (m - (s + k)) with (S (m - (s + k) - 1)) by lia. apply logs_bind.
    eapply logs_mono; [apply find_generic; [exact St|lia|lia]|]. cbv beta. intros [A1 p] lg1 (x & Ep & S1 & Zl & Ex & Hx & L1). cbn [fst snd] in *. subst p.
    pose proof S1 as (W1 & F1 & N1 & C1 & GB1 & T1). pose proof GB1 as (G1 & G2 & G3 & G4).
    destruct (gf2e_inv_ok (mz_ff A1) x) as (g & Eg & Hg & Exg); auto.
    { apply W1. } { now rewrite F1. } { rewrite Ex. apply wf_entry; auto; lia. }
    rewrite F1 in Hg, Exg. apply logs_q. rewrite Eg. apply alw_ok.
    assert (HR1 : inM f m n (entry A1)) by (rewrite <- F1, <- N1, <- C1; now apply wf_inM).
    apply logs_bind. eapply logs_mono; [apply logs_and; [eapply logs_wp; [apply erase_rescale|apply (mzed_rescale_row_ok A1 (s + k) (s + k) g); auto; try lia; now rewrite F1]|
      instantiate (1 := fun _ lg => mults lg <= n); intros y lg; unfold mzed_rescale_row_l; destruct (mzed_rescale_row A1 (s + k) (s + k) g); cbn; try easy; intros [= _ <-]; cbn; lia]|].
    cbv beta. intros A2 lg2 [B2 L2]. pose proof (becomes_wf _ _ _ B2) as W2. pose proof (becomes_nr _ _ _ B2) as N2. pose proof (becomes_nc _ _ _ B2) as C2. pose proof (becomes_ff _ _ _ B2) as F2.
    apply logs_q. eapply alw_mono; [apply alw_wp', (mzed_row_swap_ok A2 (s + k) (s + k)); auto; lia|]. cbv beta. intros A3 B3.
    pose proof (becomes_wf _ _ _ B3) as W3. pose proof (becomes_nr _ _ _ B3) as N3. pose proof (becomes_nc _ _ _ B3) as C3. pose proof (becomes_ff _ _ _ B3) as F3.
    assert (E3 : forall i j, i < m -> j < n -> entry A3 i j = if i =? s + k then fmul f g (entry A1 (s + k) j) else entry A1 i j).
    { intros i j Hi Hj. rewrite (becomes_entry _ _ _ _ _ B3) by lia. assert (E : entry A2 i j = if i =? s + k then fmul f g (entry A1 (s + k) j) else entry A1 i j).
      { rewrite (becomes_entry _ _ _ _ _ B2) by lia. destruct (Nat.eqb_spec i (s + k)) as [->|]; [|easy]. cbn [andb]. rewrite F1. destruct (Nat.leb_spec (s + k) j); [easy|]. rewrite Zl by easy. now rewrite fmul_0_r. }
      destruct (Nat.eqb_spec i (s + k)) as [->|]; exact E. }
    assert (P1 : entry A3 (s + k) (s + k) = 1%N) by (rewrite E3 by lia; rewrite Nat.eqb_refl, <- Ex; now rewrite fmul_comm).
    assert (P0 : forall j, j < s + k -> entry A3 (s + k) j = 0%N) by (intros j Hj; rewrite E3 by lia; rewrite Nat.eqb_refl, Zl by easy; apply fmul_0_r).
    assert (HR3 : inM f m n (entry A3)) by (replace f with (fld A3) by (now rewrite F3, F2, F1); replace m with (mz_nrows A3) by lia; replace n with (mz_ncols A3) by lia; now apply wf_inM).
    assert (T3 : tri (s + S k) (entry A3)).
    { intros i Hi. destruct (Nat.eq_dec i (s + k)) as [->|Hne].
      - replace (s + k <? s + S k) with true by lia. eapply sp_ext; [apply (sp_scale _ g)|].
        + apply (tri_top (s + S k) (entry A1) (s + k)); [|lia|lia]. apply (tri_le (s + k)); auto; lia.
        + cbv beta. intros j Hj. rewrite E3 by lia. now rewrite Nat.eqb_refl, N.lxor_0_r.
      - eapply sp_ext; [apply (tri_le (s + k) (s + S k) (entry A1)); auto; [lia|lia|exact Hi]|]. cbv beta. intros j Hj. rewrite E3 by lia. now replace (i =? s + k) with false by lia. }
    apply logs_bind.
    eapply logs_mono; [apply logs_and; [eapply logs_wp; [apply (erase_elim s (s + k) (fun l => l) (fun _ => s + k) (fun _ => s + k) (fun _ => s + k))|apply (elim_range_ok A3 (s + k) (s + k) s (s + k)); auto; lia]|
                                        apply (logs_elim_le n s (s + k) (fun l => l) (fun _ => s + k) (fun _ => s + k) (fun _ => s + k) A3); lia]|].
    cbv beta. intros A4 lg4 [B4 L4]. pose proof (becomes_wf _ _ _ B4) as W4. pose proof (becomes_nr _ _ _ B4) as N4. pose proof (becomes_nc _ _ _ B4) as C4. pose proof (becomes_ff _ _ _ B4) as F4.
    assert (E4 : forall i j, i < m -> j < n -> entry A4 i j = if (s <=? i) && (i <? s + k) then N.lxor (entry A3 i j) (fmul f (entry A3 i (s + k)) (entry A3 (s + k) j)) else entry A3 i j).
    { intros i j Hi Hj. rewrite (becomes_entry _ _ _ _ _ B4) by lia. now rewrite F3, F2, F1. }
    assert (S4 : gst s (S k) A4).
    { split; [exact W4|]. split; [now rewrite F4, F3, F2|]. split; [lia|]. split; [lia|]. split.
      - split; [lia|]. split; [lia|]. split.
        + intros l l' Hl Hl'. rewrite E4 by lia. destruct (Nat.eq_dec l k) as [->|Hlk].
          * replace ((s <=? s + k) && (s + k <? s + k)) with false by lia.
            destruct (Nat.eq_dec l' k) as [->|]; [now rewrite Nat.eqb_refl|]. rewrite P0 by lia. now replace (k =? l') with false by lia.
          * replace ((s <=? s + l) && (s + l <? s + k)) with true by lia.
            destruct (Nat.eq_dec l' k) as [->|].
            -- rewrite P1, fmul_1_r by (auto; apply HR3; lia). rewrite N.lxor_nilpotent. now replace (l =? k) with false by lia.
            -- rewrite (P0 (s + l')) by lia. rewrite fmul_0_r, N.lxor_0_r. rewrite E3 by lia. replace (s + l =? s + k) with false by lia. apply G3; lia.
        + intros i j Hi Hj. rewrite E4 by lia. rewrite (P0 j) by lia. rewrite fmul_0_r, N.lxor_0_r.
          assert (Z3 : entry A3 i j = 0%N) by (rewrite E3 by lia; rewrite !G4 by lia; rewrite fmul_0_r; now destruct (i =? s + k)).
          rewrite Z3. now destruct (_ && _).
      - apply (tri_step (s + S k) (entry A3)); [exact T3|]. intros i Hi. destruct ((s <=? i) && (i <? s + k)) eqn:Eb.
        + exists (fun j => fmul f (entry A3 i (s + k)) (entry A3 (s + k) j)). split; [apply sp_scale, (tri_top _ (entry A3)); auto; lia|]. intros j Hj. rewrite E4 by lia. now rewrite Eb.
        + exists (fun _ => 0%N). split; [apply sp_0|]. intros j Hj. rewrite E4 by lia. now rewrite Eb, N.lxor_0_r. }
    replace (S (s + k)) with (s + S k) by lia. eapply logs_mono; [apply (IH s (S k) A4 S4); lia|]. cbv beta. intros [A5 kbar] lg5 (K1 & K2 & K3). cbn [fst snd] in *.
    split; [lia|]. split; [exact K2|]. rewrite !mults_app. replace (s + k - s) with k in L4 by lia.
    replace (S k * S k * n) with (k * k * n + k * n + k * n + n) in K3 by ring. cbn [app mults fold_right]. lia.
Qed.
Lemma tables_le A r c kbar Ts w : njm w Ts -> ff_degree (mz_ff A) = N.to_nat (pdeg f) ->
  logs (nj_tables_l Ts A r c kbar) (fun Ts' lg => njm w Ts' /\ mults lg <= kbar * ((N.to_nat (pdeg f) - 1) * w)).
Proof.
  intros HT Hd. unfold nj_tables_l. eapply logs_mono; [apply (logs_for_le (njm w) ((N.to_nat (pdeg f) - 1) * w)); [exact HT|]|cbv beta; intros Us lg [H1 H2]; split; [exact H1|lia]].
  cbv beta. intros i Us _ HU. apply logs_q. eapply alw_mono; [apply alw_lget|]. cbv beta. intros T HTi. apply logs_bind. eapply logs_mono; [apply logs_table, HU, HTi|]. cbv beta. intros T' lg [H1 H2].
  apply logs_quiet. eapply alw_mono; [apply alw_lset_in|]. cbv beta. intros Vs HV. split; [intros y Hy; destruct (HV y Hy) as [->|Hy']; auto|].
  rewrite app_nil_r. rewrite (mults_calls _ _ _ H2), Hd. apply Nat.mul_le_mono_l. lia.
Qed.
Lemma loop_done fuel full Ts : forall A c kk, mz_nrows A = m -> mz_ncols A = n -> logs (nj_ech_loop_l fuel full A Ts m c kk) (fun _ lg => mults lg = 0).
Proof.
  induction fuel as [|fuel IH]; intros A c kk H1 H2; cbn [nj_ech_loop_l]; rewrite H2; destruct (c <? n); try easy; try (apply logs_quiet, alw_ok; reflexivity). cbv zeta. rewrite H1.
  assert (Z : forall k, gauss_cols_l k A m c m c m = Ok ((A, 0), [])).
  { intros [|k]; cbn [gauss_cols_l]; rewrite ?Nat.sub_diag; cbn [gauss_find_l]; unfold lbind, quiet; cbn [bind fst snd app]; now rewrite ?Nat.sub_diag. }
  rewrite Z. apply logs_bind. intros a l [= <- <-]. cbn [Nat.eqb app]. eapply logs_mono; [apply IH; assumption|]. cbv beta. intros b lg Hb. exact Hb.
Qed.
Lemma loop_generic full b : forall fuel s A Ts kk, gst s 0 A -> s <= m -> s <= n -> 0 < kk <= 6 -> kk * mz_w A <= 64 -> kk + (N.to_nat (pdeg f) - 1) <= b ->
  njts (mz_ff A) (mz_ncols A) 6 Ts -> njm n Ts ->
  logs (nj_ech_loop_l fuel full A Ts s s kk) (fun _ lg => mults lg <= (Nat.min m n - s) * (b * n)).
Proof.
  induction fuel as [|fuel IH]; intros s A Ts kk St Hs Hsn Hkk Hkw Hb HTs HTm; pose proof St as (H1 & H2 & H3 & H4 & H5 & H6); cbn [nj_ech_loop_l]; rewrite H4;
    (destruct (Nat.ltb_spec s n) as [Hlt|Hge]; [|apply logs_quiet, alw_ok; cbn; lia]); [easy|].
  cbv zeta. set (kk' := if n <? s + kk then n - s else kk). assert (Hkk' : 0 < kk' <= kk /\ s + kk' <= n) by (unfold kk'; destruct (Nat.ltb_spec n (s + kk)); lia).
  apply logs_bind. rewrite H3. pose proof (cols_generic kk' s 0 A St ltac:(lia)) as CG. rewrite !Nat.add_0_r in CG. eapply logs_mono; [exact CG|]. clear CG. cbv beta. intros [A1 kbar] lg1 (K1 & S1 & K3). cbn [fst snd Nat.add] in *.
  pose proof S1 as (W1 & F1 & N1 & C1 & GB & T1). rewrite Nat.mul_0_l, Nat.add_0_r in K3.
  destruct (Nat.eqb_spec kbar 0) as [E0|E0].
  { assert (s = m) as Esm by lia. rewrite Esm. eapply logs_mono; [apply loop_done; assumption|]. cbv beta. intros a lg Hl. rewrite mults_app, Hl. subst kbar. cbn in K3. lia. }
  assert (GB' : gblock (mz_nrows A1) (mz_ncols A1) s s kbar (entry A1)) by now rewrite N1, C1.
  assert (Ew : mz_w A1 = mz_w A) by (apply same_w; auto; now rewrite F1, H2).
  assert (HT1 : njts (mz_ff A1) (mz_ncols A1) 6 Ts) by (apply (njts_ff A); auto; congruence).
  assert (Hw : kbar * mz_w A1 <= 64) by (rewrite Ew; apply (Nat.le_trans _ (kk * mz_w A)); [apply Nat.mul_le_mono_r; lia|exact Hkw]).
  assert (Hdeg : ff_degree (mz_ff A1) = N.to_nat (pdeg f)) by (destruct W1 as ((_ & Wd & _) & _); cbv zeta in Wd; rewrite F1 in Wd; lia).
  apply logs_bind. eapply logs_mono; [apply logs_and; [refine (logs_wp _ _ _ (erase_tables _ _ _ _ _) (nj_tables_ok Ts A1 s s kbar 6 W1 HT1 _ Hw GB')); lia|apply (tables_le A1 s s kbar Ts n HTm Hdeg)]|].
  cbv beta. intros Ts' lg2 [(HT' & TF) [HTm' L2]].
  assert (X1 : alw (if kbar =? kk' then mzed_process_rows A1 (s + kbar) (mz_nrows A1) s (firstn kbar Ts') else Ok A1)
     (fun A2 => exists Sel, (forall i, i < s + kbar -> Sel i = false) /\ (forall i, s + kbar <= i < m -> Sel i = true) /\ becomes A1 A2 (comb f Sel s s kbar (entry A1)))).
  { destruct (Nat.eqb_spec kbar kk') as [Ekk|Ekk].
    - apply alw_wp'. eapply wp_mono; [apply (process_rows_ok A1 A1 (s + kbar) (mz_nrows A1) s s kbar); auto; try lia; try apply same_shape_refl; destruct GB' as (Q & _); lia|].
      cbv beta. intros A2 B2. rewrite F1 in B2. eexists. split; [|split; [|exact B2]]; intros i Hi; cbv beta; lia.
    - apply alw_ok. exists (fun _ => false). split; [easy|]. split; [lia|]. eapply becomes_ext; [now apply becomes_refl|]. intros i j _ _. reflexivity. }
  apply logs_q. eapply alw_mono; [exact X1|]. cbv beta. intros A2 (Sel & HSel & HSelt & B2). clear X1.
  pose proof (becomes_wf _ _ _ B2) as W2. pose proof (becomes_nr _ _ _ B2) as N2. pose proof (becomes_nc _ _ _ B2) as C2. pose proof (becomes_ff _ _ _ B2) as F2. pose proof (becomes_w _ _ _ B2) as Ew2.
  assert (E2 : forall i j, i < s + kbar -> i < m -> j < n -> entry A2 i j = entry A1 i j).
  { intros i j Hi Hm Hj. rewrite (becomes_entry _ _ _ _ _ B2) by lia. apply comb_out. auto. }
  pose proof GB as (Q1 & Q2 & Q3 & Q4).
  assert (T2 : tri (s + kbar) (entry A2)).
  { apply (tri_step _ (comb f Sel s s kbar (entry A1))); [apply tri_comb; auto; lia|]. intros i Hi. exists (fun _ => 0%N). split; [apply sp_0|]. intros j Hj. rewrite N.lxor_0_r. apply (becomes_entry _ _ _ _ _ B2); lia. }
  assert (X2 : alw (if full then mzed_process_rows A2 0 s s (firstn kbar Ts') else Ok A2)
     (fun A3 => exists Sel, (forall i, s <= i -> Sel i = false) /\ becomes A2 A3 (comb f Sel s s kbar (entry A2)))).
  { destruct full.
    - apply alw_wp'. eapply wp_mono; [apply (process_rows_ok A1 A2 0 s s s kbar); auto; try lia|].
      + repeat split; congruence.
      + intros l j Hl Hj. apply E2; lia.
      + cbv beta. intros A3 B3. rewrite F1 in B3. eexists. split; [|exact B3]. intros i Hi. cbv beta. lia.
    - apply alw_ok. exists (fun _ => false). split; [easy|]. eapply becomes_ext; [now apply becomes_refl|]. intros i j _ _. reflexivity. }
  apply logs_q. eapply alw_mono; [exact X2|]. cbv beta. intros A3 (Sel3 & HSel3 & B3). clear X2.
  pose proof (becomes_wf _ _ _ B3) as W3. pose proof (becomes_nr _ _ _ B3) as N3. pose proof (becomes_nc _ _ _ B3) as C3. pose proof (becomes_ff _ _ _ B3) as F3. pose proof (becomes_w _ _ _ B3) as Ew3.
  assert (T3 : tri (s + kbar) (entry A3)).
  { apply (tri_step _ (comb f Sel3 s s kbar (entry A2))); [apply tri_comb; auto; lia|]. intros i Hi. exists (fun _ => 0%N). split; [apply sp_0|]. intros j Hj. rewrite N.lxor_0_r. apply (becomes_entry _ _ _ _ _ B3); lia. }
  assert (HR1 : inM f m n (entry A1)) by (rewrite <- F1, <- N1, <- C1; now apply wf_inM). assert (Hf1 : (1 <= pdeg f)%N) by lia.
  assert (S3 : gst (s + kbar) 0 A3).
  { split; [exact W3|]. split; [now rewrite F3, F2|]. split; [lia|]. split; [lia|]. split; [|now rewrite Nat.add_0_r]. split; [lia|]. split; [lia|]. split; [lia|].
    intros i j Hi Hj. rewrite (becomes_entry _ _ _ _ _ B3) by lia. rewrite comb_out by (apply HSel3; lia). rewrite (becomes_entry _ _ _ _ _ B2) by lia. destruct (Nat.lt_ge_cases j s) as [L|L].
    - rewrite (comb_left f Hf1 _ m n) by auto. apply Q4; lia.
    - replace j with (s + (j - s)) by lia. apply (comb_block f Hf1 _ m n); auto; try lia. }
  rewrite <- F2, <- C2, <- F3, <- C3 in HT'.
  eapply logs_mono; [apply (IH (s + kbar) A3 Ts' kk'); auto; try lia|].
  - replace (mz_w A3) with (mz_w A) by congruence. apply (Nat.le_trans _ (kk * mz_w A)); [apply Nat.mul_le_mono_r; lia|exact Hkw].
  - cbv beta. intros a lg3 L3. rewrite !mults_app. set (e := N.to_nat (pdeg f) - 1) in *.
    assert (L4 : kbar * kbar * n + kbar * (e * n) <= kbar * (b * n)).
    { replace (kbar * kbar * n + kbar * (e * n)) with (kbar * ((kbar + e) * n)) by ring. apply Nat.mul_le_mono_l, Nat.mul_le_mono_r. lia. }
    replace (Nat.min m n - s) with (kbar + (Nat.min m n - (s + kbar))) by lia. rewrite Nat.mul_add_distr_r. lia.
Qed.
Lemma ech_generic full k0 A : wf_mzed A -> fld A = f -> mz_nrows A = m -> mz_ncols A = n -> (forall i j, i < m -> j < n -> entry A i j = R0 i j) -> k0 <= 7 ->
  logs (mzed_echelonize_newton_john_l k0 A full) (fun _ lg => mults lg <= Nat.min m n * ((nj_kk k0 (ff_degree (mz_ff A)) + (ff_degree (mz_ff A) - 1)) * n)).
Proof.
  intros H1 H2 H3 H4 H5 Hk. unfold mzed_echelonize_newton_john_l. destruct (wf_deg2 A H1) as [Hff Hd2]. pose proof (wf_good A H1) as Hw.
  assert (Ht := degree_w_tight (mz_ff A) (mz_w A)). pose proof H1 as (Wff & Ww & _). specialize (Ht Wff Ww). pose proof Wff as (He & Hpd & _). cbv zeta in Hpd. rewrite H2 in Hpd.
  destruct (nj_kk_bound k0 (ff_degree (mz_ff A)) (mz_w A)) as (K1 & K2); auto; try lia.
  apply logs_q. intros Ts ETs. pose proof (alw_inits 6 (mz_ff A) (mz_ncols A) Ts ETs) as Hm. pose proof (alw_wp' _ _ (njt_inits_ok 6 (mz_ff A) (mz_ncols A) Hff Hd2) Ts ETs) as (L & HT).
  rewrite H4 in Hm. eapply logs_mono; [apply (loop_generic full (nj_kk k0 (ff_degree (mz_ff A)) + (ff_degree (mz_ff A) - 1)) _ 0 A Ts); auto; try lia|].
  - split; [exact H1|]. split; [exact H2|]. split; [exact H3|]. split; [exact H4|]. split; [split; [lia|]; split; [lia|]; split; intros; lia|].
    intros i Hi. exists (fun _ => 0%N). split; [lia|]. intros j Hj. cbn [xsum Nat.add Nat.ltb Nat.leb]. rewrite H5 by lia. apply N.lxor_nilpotent.
  - now split.
  - cbv beta. intros a l Hl. rewrite Nat.sub_0_r in Hl. exact Hl.
Qed.
End Generic.
