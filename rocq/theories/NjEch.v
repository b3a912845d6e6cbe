(** mzed_echelonize_newton_john computes a (reduced) row echelon form. *)
From Coq Require Import NArith Lia List Bool Arith.
From Coq Require Import ZifyBool ZifyNat ZifyN.
From Verif Require Import Base Spec LinSpec PolyFacts MatFacts EchFacts Gf2xModel Gf2eModel Gf2eProofs.
From Verif Require Import MzdModel MzedModel MzedSpec LaneFacts MzedProofs MzedOps EchNaive NjModel NjTable NjMul.
Import ListNotations.
Local Open Scope nat_scope.

(** ** adding combinations of a block of rows *)
(** rows i with S i get, for each l < k, R i (c+l) times row r+l *)
Definition comb (f : N) (S : nat -> bool) (r c k : nat) (R : mat) : mat :=
  fun i j => if S i then N.lxor (R i j) (xsum k (fun l => fmul f (R i (c + l)) (R (r + l) j))) else R i j.
(** identity block at (r,c) of size k; zeros to its left and in the rows below, left of column c *)
Definition gblock (m n r c k : nat) (R : mat) : Prop :=
  r + k <= m /\ c + k <= n /\
  (forall l l', l < k -> l' < k -> R (r + l) (c + l') = if l =? l' then 1%N else 0%N) /\
  (forall i j, r <= i < m -> j < c -> R i j = 0%N).

Section F.
Variable f : N.
Hypothesis Hf : (1 <= pdeg f)%N.
Let f0 : f <> 0%N. Proof. intros ->. cbn in Hf. lia. Qed.

Lemma inM_comb S m n r c k R : inM f m n R -> r + k <= m -> c + k <= n -> inM f m n (comb f S r c k R).
Proof.
  intros H Hr Hc i j Hi Hj. unfold comb. destruct (S i); [|now apply H].
  apply lxor_lt_pow2; [now apply H|]. apply xsum_lt. intros l Hl. now apply fmul_lt.
Qed.
Lemma comb_equiv S m n r c k R : inM f m n R -> r + k <= m -> c + k <= n -> (forall i, S i = true -> i < r \/ r + k <= i) ->
  row_equiv f m n R (comb f S r c k R).
Proof.
  intros HR Hr Hc HS.
  assert (G : forall q, q <= k -> row_equiv f m n R (comb f S r c q R)).
  { induction q as [|q IH]; intros Hq.
    - eapply row_equiv_ext; [now apply row_equiv_refl|]. intros i j _ _. unfold comb. cbn [xsum]. rewrite N.lxor_0_r. now destruct (S i).
    - eapply row_equiv_trans; [exact Hf|apply IH; lia|].
      eapply row_equiv_ext.
      + apply (row_equiv_pivot f Hf m n _ (r + q) 1 1 (fun i => if S i then if i <? m then R i (c + q) else 0%N else 0%N)).
        * apply inM_comb; auto; lia.
        * lia.
        * now apply inF1.
        * now apply inF1.
        * apply fmul_1_l; auto. now apply inF1.
        * intros i Hi. replace (i <? m) with true by lia. destruct (S i); [apply HR; lia|now apply inF0].
      + assert (Sn : S (r + q) = false).
        { destruct (S (r + q)) eqn:E; [|easy]. specialize (HS _ E). lia. }
        intros i j Hi Hj. unfold pivot_op, comb. rewrite Sn. destruct (Nat.eqb_spec i (r + q)) as [->|Hne].
        * rewrite Sn. apply fmul_1_l; auto; apply HR; lia.
        * replace (i <? m) with true by lia. destruct (S i) eqn:Si.
          -- cbn [xsum]. now rewrite N.lxor_assoc.
          -- now rewrite fmul_0_l, N.lxor_0_r. }
  apply G. lia.
Qed.
Lemma comb_left S m n r c k R i j : gblock m n r c k R -> j < c -> comb f S r c k R i j = R i j.
Proof.
  intros (H1 & H2 & _ & H4) Hj. unfold comb. destruct (S i); [|easy]. rewrite xsum_0; [apply N.lxor_0_r|].
  intros l Hl. rewrite (H4 (r + l) j) by lia. apply fmul_0_r.
Qed.
Lemma comb_block S m n r c k R i l : inM f m n R -> gblock m n r c k R -> i < m -> l < k -> S i = true -> comb f S r c k R i (c + l) = 0%N.
Proof.
  intros HR (H1 & H2 & H3 & H4) Hi Hl HS. unfold comb. rewrite HS. rewrite (xsum_single _ l); auto.
  - rewrite H3, Nat.eqb_refl, fmul_1_r by (auto; apply HR; lia). apply N.lxor_nilpotent.
  - intros l' Hl' Hne. rewrite H3 by easy. replace (l' =? l) with false by lia. apply fmul_0_r.
Qed.
Lemma comb_out S r c k R i j : S i = false -> comb f S r c k R i j = R i j.
Proof. intros H. unfold comb. now rewrite H. Qed.
End F.
Lemma gblock_ext m n r c k R R' : meq m n R R' -> gblock m n r c k R -> gblock m n r c k R'.
Proof.
  intros E (H1 & H2 & H3 & H4). split; [easy|]. split; [easy|]. split.
  - intros l l' Hl Hl'. rewrite <- E by lia. now apply H3.
  - intros i j Hi Hj. rewrite <- E by lia. now apply H4.
Qed.

(** ** gauss_submatrix *)
(** R is obtained from A by row operations *)
Definition reach (A A' : mzed) : Prop :=
  becomes A A' (entry A') /\ row_equiv (fld A) (mz_nrows A) (mz_ncols A) (entry A) (entry A').
Lemma reach_refl A : wf_mzed A -> reach A A.
Proof. intros H. split; [now apply becomes_refl|]. apply row_equiv_refl; [now apply wf_deg1|now apply wf_inM]. Qed.
Lemma reach_trans A B C : wf_mzed A -> reach A B -> reach B C -> reach A C.
Proof.
  intros HA (B1 & E1) (B2 & E2). split; [eapply becomes_trans; eauto|].
  rewrite (becomes_ff _ _ _ B1), (becomes_nr _ _ _ B1), (becomes_nc _ _ _ B1) in E2.
  eapply row_equiv_trans; eauto. now apply wf_deg1.
Qed.
Lemma reach_becomes A A' F : becomes A A' F -> row_equiv (fld A) (mz_nrows A) (mz_ncols A) (entry A) F -> reach A A'.
Proof.
  intros B E. assert (M : meq (mz_nrows A) (mz_ncols A) F (entry A')).
  { intros i j Hi Hj. symmetry. now apply (becomes_entry _ _ _ _ _ B). }
  split; [eapply becomes_ext; [exact B|exact M]|]. eapply row_equiv_ext; [exact E|exact M].
Qed.
Lemma reach_facts A A' : reach A A' -> wf_mzed A' /\ mz_ff A' = mz_ff A /\ mz_nrows A' = mz_nrows A /\ mz_ncols A' = mz_ncols A.
Proof.
  intros (B & _). split; [now apply (becomes_wf _ _ _ B)|]. split; [now apply (becomes_ff _ _ _ B)|].
  split; [now apply (becomes_nr _ _ _ B)|now apply (becomes_nc _ _ _ B)].
Qed.

Lemma elim_row_ok A r c k i : wf_mzed A -> gblock (mz_nrows A) (mz_ncols A) r c k (entry A) -> r + k <= i < mz_nrows A ->
  wp (for_ 0 k (fun l A => tmp <- mzed_read_elem A i (c + l) ;;
             if (tmp =? 0)%N then Ok A else mzed_add_multiple_of_row A i A (r + l) tmp (c + l)) A)
     (fun A' => becomes A A' (comb (fld A) (fun i' => i' =? i) r c k (entry A))).
Proof.
  intros H G Hi. pose proof G as (G1 & G2 & G3 & G4). pose proof (wf_f0 A H) as f0. pose proof (wf_deg1 A H) as Hd.
  eapply wp_mono.
  - apply (wp_for (fun q A' => becomes A A' (comb (fld A) (fun i' => i' =? i) r c q (entry A)))); [lia| |].
    + eapply becomes_ext; [now apply becomes_refl|]. intros i' j _ _. unfold comb. cbn [xsum]. rewrite N.lxor_0_r. now destruct (_ =? _).
    + intros q A' Hq B. pose proof (becomes_wf _ _ _ B) as W. pose proof (becomes_nr _ _ _ B) as Er.
      pose proof (becomes_nc _ _ _ B) as Ec. pose proof (becomes_ff _ _ _ B) as Ef.
      rewrite mzed_read_elem_ok by (auto; lia). cbn [bind].
      assert (Ex : entry A' i (c + q) = entry A i (c + q)).
      { rewrite (becomes_entry _ _ _ _ _ B) by lia. unfold comb. rewrite Nat.eqb_refl. rewrite xsum_0; [apply N.lxor_0_r|].
        intros l Hl. rewrite G3 by lia. replace (l =? q) with false by lia. apply fmul_0_r. }
      assert (Ep : forall j, j < mz_ncols A -> entry A' (r + q) j = entry A (r + q) j).
      { intros j Hj. rewrite (becomes_entry _ _ _ _ _ B) by lia. apply comb_out. lia. }
      rewrite Ex. destruct (N.eqb_spec (entry A i (c + q)) 0) as [E0|E0].
      * cbn [wp]. eapply becomes_ext; [exact B|]. intros i' j Hi' Hj. unfold comb.
        destruct (Nat.eqb_spec i' i) as [->|]; [|easy]. cbn [xsum]. now rewrite E0, fmul_0_l, N.lxor_0_r.
      * eapply wp_mono; [apply mzed_add_multiple_of_row_ok; auto; try lia|].
        { rewrite Ef. apply wf_entry; auto; lia. }
        cbv beta. intros A2 B2. eapply becomes_step; [exact B|exact B2|]. cbv beta. intros i' j Hi' Hj.
        destruct (Nat.eqb_spec i' i) as [->|Hne].
        -- cbn [andb]. rewrite Ef, Ep by easy. rewrite (becomes_entry _ _ _ _ _ B) by lia.
           unfold comb. rewrite Nat.eqb_refl. cbn [xsum]. destruct (Nat.leb_spec (c + q) j) as [L|L].
           ++ now rewrite N.lxor_assoc.
           ++ replace (entry A (r + q) j) with 0%N; [now rewrite fmul_0_r, N.lxor_0_r|]. symmetry.
              destruct (Nat.lt_ge_cases j c); [apply G4; lia|].
              replace j with (c + (j - c)) by lia. rewrite G3 by lia. now replace (q =? j - c) with false by lia.
        -- cbn [andb]. rewrite (becomes_entry _ _ _ _ _ B) by lia. rewrite !comb_out by lia. reflexivity.
  - cbv beta. auto.
Qed.

Lemma gauss_find_ok n : forall i A r c k, wf_mzed A -> gblock (mz_nrows A) (mz_ncols A) r c k (entry A) ->
  c + k < mz_ncols A -> r + k <= i -> i + n = mz_nrows A ->
  wp (gauss_find n i A r c (c + k)) (fun '(A', p) => reach A A' /\
    (forall i' j, i' < i -> j < mz_ncols A -> entry A' i' j = entry A i' j) /\
    (forall i' j, i' < mz_nrows A -> j < c -> entry A' i' j = entry A i' j) /\
    match p with
    | None => forall i' l, i <= i' < mz_nrows A -> l <= k -> entry A' i' (c + l) = 0%N
    | Some (p, x) => i <= p < mz_nrows A /\ x = entry A' p (c + k) /\ x <> 0%N /\ forall l, l < k -> entry A' p (c + l) = 0%N
    end).
Proof.
  induction n as [|n IH]; intros i A r c k H G Hc Hi Hn; cbn [gauss_find].
  - cbn [wp]. split; [now apply reach_refl|]. split; [easy|]. split; [easy|]. lia.
  - pose proof (wf_f0 A H) as f0. pose proof (wf_deg1 A H) as Hd. pose proof G as (G1 & G2 & G3 & G4).
    replace (c + k - c) with k by lia.
    apply wp_bind. eapply wp_mono; [apply (elim_row_ok A r c k i); auto; lia|]. cbv beta. intros A1 B1.
    pose proof (becomes_wf _ _ _ B1) as W. pose proof (becomes_nr _ _ _ B1) as Er.
    pose proof (becomes_nc _ _ _ B1) as Ec. pose proof (becomes_ff _ _ _ B1) as Ef.
    assert (R1 : reach A A1).
    { eapply reach_becomes; [exact B1|]. apply comb_equiv; auto; try lia. now apply wf_inM. }
    assert (K1 : forall i' j, i' < mz_nrows A -> i' <> i -> j < mz_ncols A -> entry A1 i' j = entry A i' j).
    { intros i' j Hi' Hne Hj. rewrite (becomes_entry _ _ _ _ _ B1) by easy. apply comb_out. lia. }
    assert (K2 : forall i' j, i' < mz_nrows A -> j < c -> entry A1 i' j = entry A i' j).
    { intros i' j Hi' Hj. rewrite (becomes_entry _ _ _ _ _ B1) by lia. now apply (comb_left (fld A) Hd _ (mz_nrows A) (mz_ncols A)). }
    assert (K3 : forall l, l < k -> entry A1 i (c + l) = 0%N).
    { intros l Hl. rewrite (becomes_entry _ _ _ _ _ B1) by lia. apply (comb_block (fld A) Hd _ (mz_nrows A) (mz_ncols A)); auto; try lia. now apply wf_inM. }
    assert (G' : gblock (mz_nrows A1) (mz_ncols A1) r c k (entry A1)).
    { rewrite Er, Ec. split; [easy|]. split; [easy|]. split.
      - intros l l' Hl Hl'. rewrite K1 by lia. now apply G3.
      - intros i' j Hi' Hj. rewrite K2 by lia. now apply G4. }
    rewrite mzed_read_elem_ok by (auto; lia). cbn [bind].
    destruct (N.eqb_spec (entry A1 i (c + k)) 0) as [E0|E0].
    + eapply wp_mono; [apply IH; auto; lia|]. cbv beta. intros [A2 p] (R2 & K4 & K5 & K6). rewrite Er, Ec in *.
      split; [eapply reach_trans; eauto|]. split; [|split].
      * intros i' j Hi' Hj. rewrite K4 by lia. apply K1; lia.
      * intros i' j Hi' Hj. rewrite K5 by lia. apply K2; lia.
      * destruct p as [[p x]|].
        -- destruct K6 as (P1 & P2 & P3 & P4). split; [lia|]. auto.
        -- intros i' l Hi' Hl. destruct (Nat.eq_dec i' i) as [->|]; [|apply K6; lia].
           rewrite K4 by lia. destruct (Nat.eq_dec l k) as [->|]; [exact E0|apply K3; lia].
    + cbn [wp]. split; [exact R1|]. split; [intros; apply K1; lia|]. split; [exact K2|]. split; [lia|]. auto.
Qed.

Lemma elim_range_ok A p j lo hi : wf_mzed A -> p < mz_nrows A -> j < mz_ncols A -> lo <= hi <= mz_nrows A -> (p < lo \/ hi <= p) ->
  (forall j', j' < j -> entry A p j' = 0%N) ->
  wp (for_ lo hi (fun l A => tmp <- mzed_read_elem A l j ;;
                 if (tmp =? 0)%N then Ok A else mzed_add_multiple_of_row A l A p tmp j) A)
     (fun A' => becomes A A' (fun i j' => if (lo <=? i) && (i <? hi) then N.lxor (entry A i j') (fmul (fld A) (entry A i j) (entry A p j')) else entry A i j')).
Proof.
  intros H Hp Hj Hl Hpo Hz. pose proof (wf_f0 A H) as f0.
  eapply wp_mono.
  - apply (wp_for (fun t A' => becomes A A' (fun i j' => if (lo <=? i) && (i <? t) then N.lxor (entry A i j') (fmul (fld A) (entry A i j) (entry A p j')) else entry A i j'))); [lia| |].
    + eapply becomes_ext; [now apply becomes_refl|]. intros i j' _ _. now replace ((lo <=? i) && (i <? lo)) with false by lia.
    + intros t A' Ht B. pose proof (becomes_wf _ _ _ B) as W. pose proof (becomes_nr _ _ _ B) as Er.
      pose proof (becomes_nc _ _ _ B) as Ec. pose proof (becomes_ff _ _ _ B) as Ef.
      rewrite mzed_read_elem_ok by (auto; lia). cbn [bind].
      assert (Et : forall j', j' < mz_ncols A -> entry A' t j' = entry A t j').
      { intros j' Hj'. rewrite (becomes_entry _ _ _ _ _ B) by lia. now replace ((lo <=? t) && (t <? t)) with false by lia. }
      assert (Ep : forall j', j' < mz_ncols A -> entry A' p j' = entry A p j').
      { intros j' Hj'. rewrite (becomes_entry _ _ _ _ _ B) by lia. now replace ((lo <=? p) && (p <? t)) with false by lia. }
      rewrite Et by easy. destruct (N.eqb_spec (entry A t j) 0) as [E0|E0].
      * cbn [wp]. eapply becomes_ext; [exact B|]. cbv beta. intros i j' Hi Hj'.
        destruct (Nat.eq_dec i t) as [->|].
        -- rewrite E0, fmul_0_l, N.lxor_0_r. now destruct (_ && _), (_ && _).
        -- now replace (i <? S t) with (i <? t) by lia.
      * eapply wp_mono; [apply mzed_add_multiple_of_row_ok; auto; try lia|].
        { rewrite Ef. apply wf_entry; auto; lia. }
        cbv beta. intros A2 B2. eapply becomes_step; [exact B|exact B2|]. cbv beta. intros i j' Hi Hj'.
        destruct (Nat.eqb_spec i t) as [->|Hne].
        -- replace ((lo <=? t) && (t <? S t)) with true by lia. cbn [andb]. rewrite Ef, Et, Ep by easy.
           destruct (Nat.leb_spec j j'); [easy|]. rewrite Hz, fmul_0_r, N.lxor_0_r by easy. reflexivity.
        -- cbn [andb]. rewrite (becomes_entry _ _ _ _ _ B) by lia. now replace (i <? S t) with (i <? t) by lia.
  - cbv beta. auto.
Qed.

Lemma gauss_cols_ok n : forall A r c k, irreducible (fld A) -> wf_mzed A -> gblock (mz_nrows A) (mz_ncols A) r c k (entry A) ->
  c + k + n <= mz_ncols A ->
  wp (gauss_cols n A r c (mz_nrows A) (c + k) (r + k)) (fun '(A', kbar) => reach A A' /\
    (forall i j, i < r -> j < mz_ncols A -> entry A' i j = entry A i j) /\
    kbar <= k + n /\ gblock (mz_nrows A) (mz_ncols A) r c kbar (entry A') /\
    (kbar < k + n -> forall i l, r + kbar <= i < mz_nrows A -> l <= kbar -> entry A' i (c + l) = 0%N)).
Proof.
  induction n as [|n IH]; intros A r c k Hirr H G Hc; cbn [gauss_cols].
  - replace (c + k - c) with k by lia. cbn [wp]. split; [now apply reach_refl|]. split; [easy|]. split; [lia|]. split; [easy|]. lia.
  - pose proof (wf_f0 A H) as f0. pose proof (wf_deg1 A H) as Hd. pose proof G as (G1 & G2 & G3 & G4).
    apply wp_bind. eapply wp_mono; [apply (gauss_find_ok _ (r + k) A r c k); auto; lia|]. cbv beta.
    intros [A1 [[p x]|]] (R1 & K1 & K2 & K3).
    + destruct K3 as (Hp & Ex & Hx & Hz). pose proof (reach_facts _ _ R1) as (W1 & F1 & N1 & C1).
      destruct (gf2e_inv_ok (mz_ff A1) x) as (g & Eg & Hg & Exg); auto.
      { apply W1. } { now rewrite F1. } { rewrite Ex. apply wf_entry; auto; lia. }
      rewrite Eg. cbn [bind]. rewrite F1 in Hg, Exg.
      apply wp_bind. eapply wp_mono; [apply mzed_rescale_row_ok; auto; try lia; now rewrite F1|]. cbv beta. intros A2 B2.
      pose proof (becomes_wf _ _ _ B2) as W2. pose proof (becomes_nr _ _ _ B2) as N2. pose proof (becomes_nc _ _ _ B2) as C2.
      pose proof (becomes_ff _ _ _ B2) as F2.
      apply wp_bind. eapply wp_mono; [apply (mzed_row_swap_ok A2 p (r + k)); auto; lia|]. cbv beta. intros A3 B3.
      pose proof (becomes_wf _ _ _ B3) as W3. pose proof (becomes_nr _ _ _ B3) as N3. pose proof (becomes_nc _ _ _ B3) as C3.
      pose proof (becomes_ff _ _ _ B3) as F3.
      assert (HR1 : inM (fld A) (mz_nrows A) (mz_ncols A) (entry A1)).
      { rewrite <- F1, <- N1, <- C1. now apply wf_inM. }
      assert (Zl : forall j, j < c + k -> entry A1 p j = 0%N).
      { intros j Hj. destruct (Nat.lt_ge_cases j c).
        - rewrite K2 by lia. apply G4; lia.
        - replace j with (c + (j - c)) by lia. apply Hz. lia. }
      assert (E2 : forall i j, i < mz_nrows A -> j < mz_ncols A -> entry A2 i j = pivot_op (fld A) p g (fun _ => 0%N) (entry A1) i j).
      { intros i j Hi Hj. rewrite (becomes_entry _ _ _ _ _ B2) by lia. unfold pivot_op. rewrite fmul_0_l, N.lxor_0_r, F1.
        destruct (Nat.eqb_spec i p) as [->|]; [|easy]. cbn [andb]. destruct (Nat.leb_spec (c + k) j); [easy|].
        rewrite Zl by easy. now rewrite fmul_0_r. }
      assert (R2 : reach A1 A2).
      { eapply reach_becomes; [eapply becomes_ext; [exact B2|]|].
        - intros i j Hi Hj. transitivity (entry A2 i j); [symmetry; exact (becomes_entry _ _ _ _ _ B2 Hi Hj)|apply E2; lia].
        - rewrite F1, N1, C1. apply (row_equiv_pivot (fld A) Hd _ _ _ p g x); auto; try lia.
          + rewrite Ex. apply HR1; lia.
          + now rewrite fmul_comm.
          + intros. now apply inF0. }
      assert (R3 : reach A2 A3).
      { eapply reach_becomes; [exact B3|]. eapply row_equiv_ext.
        - apply (row_equiv_swap (fld A2)); [now apply wf_deg1|now apply wf_inM| |]; [instantiate (1 := p); lia|instantiate (1 := r + k); lia].
        - intros i j Hi Hj. unfold swp. destruct (Nat.eqb_spec i p) as [->|]; [easy|]. now destruct (i =? r + k). }
      assert (E3 : forall i j, i < mz_nrows A -> j < mz_ncols A -> entry A3 i j =
         if i =? r + k then fmul (fld A) g (entry A1 p j) else if i =? p then entry A1 (r + k) j else entry A1 i j).
      { intros i j Hi Hj. rewrite (becomes_entry _ _ _ _ _ B3) by lia. rewrite !E2 by lia. unfold pivot_op. rewrite Nat.eqb_refl, !fmul_0_l, !N.lxor_0_r.
        destruct (Nat.eqb_spec i p) as [->|Hip].
        - rewrite (Nat.eqb_sym (r + k) p). destruct (Nat.eqb_spec p (r + k)) as [->|]; reflexivity.
        - reflexivity. }
      assert (P1 : entry A3 (r + k) (c + k) = 1%N).
      { rewrite E3 by lia. rewrite Nat.eqb_refl, <- Ex. now rewrite fmul_comm. }
      assert (P0 : forall j, j < c + k -> entry A3 (r + k) j = 0%N).
      { intros j Hj. rewrite E3 by lia. rewrite Nat.eqb_refl, Zl by easy. apply fmul_0_r. }
      apply wp_bind. eapply wp_mono; [apply (elim_range_ok A3 (r + k) (c + k) r (r + k)); auto; lia|]. cbv beta. intros A4 B4.
      pose proof (becomes_wf _ _ _ B4) as W4. pose proof (becomes_nr _ _ _ B4) as N4. pose proof (becomes_nc _ _ _ B4) as C4.
      pose proof (becomes_ff _ _ _ B4) as F4.
      assert (F3' : mz_ff A3 = mz_ff A) by congruence.
      assert (HR3 : inM (fld A) (mz_nrows A) (mz_ncols A) (entry A3)).
      { replace (mz_nrows A) with (mz_nrows A3) by lia. replace (mz_ncols A) with (mz_ncols A3) by lia. rewrite <- F3'. now apply wf_inM. }
      assert (R4 : reach A3 A4).
      { eapply reach_becomes; [exact B4|]. eapply row_equiv_ext.
        - apply (row_equiv_pivot (fld A3) (wf_deg1 _ W3) _ _ _ (r + k) 1 1 (fun i => if (r <=? i) && (i <? r + k) then entry A3 i (c + k) else 0%N)).
          + now apply wf_inM.
          + lia.
          + apply inF1. now apply wf_deg1.
          + apply inF1. now apply wf_deg1.
          + apply fmul_1_l; [now apply wf_f0|]. apply inF1. now apply wf_deg1.
          + intros i Hi. destruct (_ && _); [apply wf_entry; auto; lia|apply inF_0].
        - intros i j Hi Hj. unfold pivot_op. destruct (Nat.eqb_spec i (r + k)) as [->|].
          + replace ((r <=? r + k) && (r + k <? r + k)) with false by lia. apply fmul_1_l; [now apply wf_f0|]. apply wf_entry; auto.
          + destruct (_ && _); [easy|]. now rewrite fmul_0_l, N.lxor_0_r. }
      assert (E4 : forall i j, i < mz_nrows A -> j < mz_ncols A -> entry A4 i j =
        if (r <=? i) && (i <? r + k) then N.lxor (entry A3 i j) (fmul (fld A) (entry A3 i (c + k)) (entry A3 (r + k) j)) else entry A3 i j).
      { intros i j Hi Hj. rewrite (becomes_entry _ _ _ _ _ B4) by lia. now rewrite F3'. }
      assert (RA : reach A A4).
      { eapply reach_trans; [exact H|exact R1|]. eapply reach_trans; [exact W1|exact R2|]. eapply reach_trans; [exact W2|exact R3|exact R4]. }
      assert (G' : gblock (mz_nrows A) (mz_ncols A) r c (S k) (entry A4)).
      { split; [lia|]. split; [lia|]. split.
        - intros l l' Hl Hl'. rewrite E4 by lia. destruct (Nat.eq_dec l k) as [->|Hlk].
          + replace ((r <=? r + k) && (r + k <? r + k)) with false by lia.
            destruct (Nat.eq_dec l' k) as [->|]; [now rewrite Nat.eqb_refl|]. rewrite P0 by lia. now replace (k =? l') with false by lia.
          + replace ((r <=? r + l) && (r + l <? r + k)) with true by lia.
            destruct (Nat.eq_dec l' k) as [->|].
            * rewrite P1, fmul_1_r by (auto; apply HR3; lia). rewrite N.lxor_nilpotent. now replace (l =? k) with false by lia.
            * rewrite (P0 (c + l')) by lia. rewrite fmul_0_r, N.lxor_0_r. rewrite E3 by lia.
              replace (r + l =? r + k) with false by lia. replace (r + l =? p) with false by lia. rewrite K1 by lia. apply G3; lia.
        - intros i j Hi Hj. rewrite E4 by lia. rewrite (P0 j) by lia. rewrite fmul_0_r, N.lxor_0_r.
          assert (Z3 : entry A3 i j = 0%N).
          { rewrite E3 by lia. rewrite !K2 by lia. rewrite !G4 by lia. rewrite fmul_0_r. now destruct (i =? r + k), (i =? p). }
          rewrite Z3. now destruct (_ && _). }
      replace (mz_nrows A) with (mz_nrows A4) by lia.
      replace (S (c + k)) with (c + S k) by lia. replace (S (r + k)) with (r + S k) by lia.
      eapply wp_mono; [apply IH; auto|].
      * rewrite F4, F3'. exact Hirr.
      * replace (mz_nrows A4) with (mz_nrows A) by lia. replace (mz_ncols A4) with (mz_ncols A) by lia. exact G'.
      * lia.
      * cbv beta. intros [A5 kbar] (R5 & L1 & L2 & L3 & L4).
        replace (mz_nrows A4) with (mz_nrows A) in * by lia. replace (mz_ncols A4) with (mz_ncols A) in * by lia.
        split; [eapply reach_trans; [exact H|exact RA|exact R5]|]. split.
        -- intros i j Hi Hj. rewrite L1 by lia. rewrite E4 by lia. replace ((r <=? i) && (i <? r + k)) with false by lia.
           rewrite E3 by lia. replace (i =? r + k) with false by lia. replace (i =? p) with false by lia. apply K1; lia.
        -- split; [lia|]. split; [exact L3|]. intros Hk. apply L4. lia.
    + pose proof (reach_facts _ _ R1) as (W1 & F1 & N1 & C1). replace (c + k - c) with k by lia. cbn [wp].
      split; [exact R1|]. split; [intros; apply K1; lia|]. split; [lia|]. split.
      * split; [lia|]. split; [lia|]. split.
        -- intros l l' Hl Hl'. rewrite K1 by lia. now apply G3.
        -- intros i j Hi Hj. rewrite K2 by lia. now apply G4.
      * intros _ i l Hi Hl. now apply K3.
Qed.
