(** mzed_echelonize_naive computes a (reduced) row echelon form. *)
From Coq Require Import NArith Lia List Bool Arith.
From Coq Require Import ZifyBool ZifyNat ZifyN.
From Verif Require Import Base Spec LinSpec PolyFacts MatFacts EchFacts Gf2xModel Gf2eModel Gf2eProofs.
From Verif Require Import MzdModel MzedModel MzedSpec LaneFacts MzedProofs MzedOps.
Local Open Scope nat_scope.

Lemma wf_inM A : wf_mzed A -> inM (fld A) (mz_nrows A) (mz_ncols A) (entry A).
Proof. intros H i j Hi Hj. now apply wf_entry. Qed.
Lemma wf_deg1 A : wf_mzed A -> (1 <= pdeg (fld A))%N.
Proof. intros H. destruct (wf_deg2 A H) as [G1 G2]. destruct G1 as (_ & Hd & _). lia. Qed.

Lemma find_pivot_ok n : forall r A c, wf_mzed A -> r + n <= mz_nrows A -> c < mz_ncols A ->
  wp (find_pivot n r A c) (fun p =>
    match p with
    | None => forall i, r <= i < r + n -> entry A i c = 0%N
    | Some (p, x) => r <= p < r + n /\ x = entry A p c /\ x <> 0%N /\ forall i, r <= i < p -> entry A i c = 0%N
    end).
Proof.
  induction n as [|n IH]; intros r A c H Hr Hc; cbn [find_pivot].
  - cbn [wp]. lia.
  - rewrite mzed_read_elem_ok by (auto; lia). cbn [bind]. destruct (N.eqb_spec (entry A r c) 0) as [E|E].
    + eapply wp_mono; [apply IH; auto; lia|]. cbv beta. intros [[p x]|].
      * intros (H1 & H2 & H3 & H4). split; [lia|]. split; [easy|]. split; [easy|].
        intros i Hi. destruct (Nat.eq_dec i r) as [->|]; [easy|apply H4; lia].
      * intros Hz i Hi. destruct (Nat.eq_dec i r) as [->|]; [easy|apply Hz; lia].
    + cbn [wp]. split; [lia|]. split; [easy|]. split; [easy|]. lia.
Qed.

(** the elimination loop of one column *)
Lemma elim_loop A r c lo : wf_mzed A -> r < mz_nrows A -> c < mz_ncols A -> lo <= mz_nrows A ->
  (forall j, j < c -> entry A r j = 0%N) ->
  wp (for_ lo (mz_nrows A) (fun i A =>
               if i =? r then Ok A else
               x <- mzed_read_elem A i c ;;
               if (x =? 0)%N then Ok A
               else mzed_add_multiple_of_row A i A r x c) A)
     (fun A' => becomes A A' (fun i j => if negb (i =? r) && (lo <=? i) then
          N.lxor (entry A i j) (fmul (fld A) (entry A i c) (entry A r j)) else entry A i j)).
Proof.
  intros H Hr Hc Hlo Hz. pose proof (wf_f0 A H) as f0.
  eapply wp_mono.
  - apply (wp_for (fun t A' => becomes A A' (fun i j => if negb (i =? r) && (lo <=? i) && (i <? t) then
          N.lxor (entry A i j) (fmul (fld A) (entry A i c) (entry A r j)) else entry A i j))); [easy| |].
    + eapply becomes_ext; [now apply becomes_refl|]. cbv beta. intros i j Hi Hj.
      destruct (negb (i =? r) && (lo <=? i) && (i <? lo)) eqn:X; [|easy].
      rewrite !andb_true_iff in X. lia.
    + intros t A' Ht B. cbv beta. pose proof (becomes_wf _ _ _ B) as W. pose proof (becomes_nr _ _ _ B) as Er.
      pose proof (becomes_nc _ _ _ B) as Ec. pose proof (becomes_ff _ _ _ B) as Ef.
      assert (St : forall i j, t <> r -> i <> t -> (if negb (i =? r) && (lo <=? i) && (i <? t) then
          N.lxor (entry A i j) (fmul (fld A) (entry A i c) (entry A r j)) else entry A i j) = 
         (if negb (i =? r) && (lo <=? i) && (i <? S t) then
          N.lxor (entry A i j) (fmul (fld A) (entry A i c) (entry A r j)) else entry A i j)).
      { intros i j Htr Hit. replace (i <? S t) with (i <? t) by lia. reflexivity. }
      destruct (Nat.eqb_spec t r) as [->|Htr].
      { cbn [wp]. eapply becomes_ext; [exact B|]. cbv beta. intros i j Hi Hj.
        destruct (Nat.eqb_spec i r) as [->|]; [reflexivity|]. now replace (i <? S r) with (i <? r) by lia. }
      assert (Etc : entry A' t c = entry A t c).
      { rewrite (becomes_entry _ _ _ _ _ B) by lia. cbv beta. rewrite Nat.ltb_irrefl, !andb_false_r. reflexivity. }
      assert (Etj : forall j, j < mz_ncols A -> entry A' t j = entry A t j).
      { intros j Hj. rewrite (becomes_entry _ _ _ _ _ B) by lia. cbv beta. rewrite Nat.ltb_irrefl, !andb_false_r. reflexivity. }
      assert (Erj : forall j, j < mz_ncols A -> entry A' r j = entry A r j).
      { intros j Hj. rewrite (becomes_entry _ _ _ _ _ B) by lia. cbv beta. now rewrite Nat.eqb_refl. }
      rewrite mzed_read_elem_ok by (auto; lia). cbn [bind]. rewrite Etc.
      destruct (N.eqb_spec (entry A t c) 0) as [E0|E0].
      * cbn [wp]. eapply becomes_ext; [exact B|]. cbv beta. intros i j Hi Hj.
        destruct (Nat.eq_dec i t) as [->|]; [|now apply St].
        rewrite Nat.ltb_irrefl, !andb_false_r. rewrite E0, fmul_0_l, N.lxor_0_r. now destruct (_ && _).
      * eapply wp_mono; [apply (mzed_add_multiple_of_row_ok A' t A' r); auto; try lia|].
        { rewrite Ef. apply wf_entry; auto; lia. }
        cbv beta. intros A2 B2. eapply becomes_step; [exact B|exact B2|]. cbv beta. intros i j Hi Hj.
        destruct (Nat.eqb_spec i t) as [->|Hit].
        -- replace (negb (t =? r) && (lo <=? t) && (t <? S t)) with true by lia. cbn [andb].
           rewrite Ef, Etj, Erj by easy. destruct (Nat.leb_spec c j); [reflexivity|].
           rewrite Hz, fmul_0_r, N.lxor_0_r by easy. reflexivity.
        -- cbn [andb]. rewrite (becomes_entry _ _ _ _ _ B) by easy. cbv beta. now apply St.
  - cbv beta. intros A' B. eapply becomes_ext; [exact B|]. cbv beta. intros i j Hi Hj.
    replace (i <? mz_nrows A) with true by lia. now rewrite andb_true_r.
Qed.

(** what the echelonisation routines promise *)
Definition ech_result (full : bool) (A A' : mzed) (r : nat) : Prop :=
  becomes A A' (entry A') /\
  row_equiv (fld A) (mz_nrows A) (mz_ncols A) (entry A) (entry A') /\
  exists piv, echelon (mz_nrows A) (mz_ncols A) r piv (entry A') /\
    (full = true -> reduced (mz_nrows A) r piv (entry A')).

(** one pivot step of the elimination, at word level *)
Lemma pivot_step (full : bool) A c r p x : irreducible (fld A) -> wf_mzed A -> r <= p < mz_nrows A -> c < mz_ncols A ->
  x = entry A p c -> x <> 0%N -> (forall i j, r <= i < mz_nrows A -> j < c -> entry A i j = 0%N) ->
  wp (xi <- gf2e_inv (mz_ff A) x ;;
      A <- mzed_rescale_row A p c xi ;;
      A <- mzed_row_swap A p r ;;
      for_ (if full then 0 else r + 1) (mz_nrows A) (fun i A =>
               if i =? r then Ok A else
               x <- mzed_read_elem A i c ;;
               if (x =? 0)%N then Ok A
               else mzed_add_multiple_of_row A i A r x c) A)
     (fun A' => exists g, inF (fld A) g /\ fmul (fld A) g (entry A p c) = 1%N /\
                becomes A A' (gstep (fld A) full p r c g (entry A))).
Proof.
  intros Hirr H Hp Hc -> Hx0 Hz. pose proof (wf_f0 A H) as f0.
  destruct (gf2e_inv_ok (mz_ff A) (entry A p c)) as (g & Eg & Hg & Exg); auto.
  { apply H. } { apply wf_entry; auto; lia. }
  apply wp_bind. rewrite Eg. cbn [wp].
  apply wp_bind. eapply wp_mono; [apply mzed_rescale_row_ok; auto; lia|]. cbv beta. intros A1 B1.
  pose proof (becomes_wf _ _ _ B1) as W1. pose proof (becomes_nr _ _ _ B1) as R1. pose proof (becomes_nc _ _ _ B1) as C1.
  pose proof (becomes_ff _ _ _ B1) as F1.
  apply wp_bind. eapply wp_mono; [apply (mzed_row_swap_ok A1 p r); auto; lia|]. cbv beta. intros A2 B2.
  pose proof (becomes_trans _ _ _ _ _ B1 B2) as B3.
  pose proof (becomes_wf _ _ _ B3) as W2. pose proof (becomes_nr _ _ _ B3) as R2. pose proof (becomes_nc _ _ _ B3) as C2.
  pose proof (becomes_ff _ _ _ B3) as F2.
  assert (E2 : forall i j, i < mz_nrows A -> j < mz_ncols A -> entry A2 i j =
     if i =? r then fmul (fld A) g (entry A p j) else if i =? p then entry A r j else entry A i j).
  { assert (E1 : forall i j, i < mz_nrows A -> j < mz_ncols A -> entry A1 i j =
       if i =? p then fmul (fld A) g (entry A p j) else entry A i j).
    { intros i j Hi Hj. rewrite (becomes_entry _ _ _ _ _ B1) by easy. cbv beta.
      destruct (Nat.eqb_spec i p) as [->|]; [|easy]. cbn [andb]. destruct (Nat.leb_spec c j); [easy|].
      rewrite Hz by lia. symmetry. apply fmul_0_r. }
    intros i j Hi Hj. rewrite (becomes_entry _ _ _ _ _ B3) by easy. cbv beta. rewrite !E1 by lia. rewrite Nat.eqb_refl.
    destruct (Nat.eqb_spec i p) as [->|Hip].
    - rewrite (Nat.eqb_sym r p). destruct (Nat.eqb_spec p r) as [->|]; reflexivity.
    - destruct (Nat.eqb_spec i r) as [->|]; reflexivity. }
  rewrite R2. rewrite <- R2 at 1.
  eapply wp_mono; [apply (elim_loop A2 r c (if full then 0 else r + 1)); auto; try lia|].
  { destruct full; lia. }
  { intros j Hj. rewrite E2 by lia. rewrite Nat.eqb_refl, Hz by lia. apply fmul_0_r. }
  cbv beta. intros A4 B4. exists g. split; [easy|]. split; [now rewrite fmul_comm|].
  eapply becomes_step; [exact B3|exact B4|]. cbv beta. intros i j Hi Hj. rewrite F2. unfold gstep.
  replace ((if full then 0 else r + 1) <=? i) with (full || (r <? i)) by (destruct full; cbn [orb]; lia).
  rewrite !E2 by lia. reflexivity.
Qed.

Theorem mzed_echelonize_naive_ok A full : wf_mzed A -> irreducible (fld A) ->
  wp (mzed_echelonize_naive A full) (fun '(A', r) => ech_result full A A' r).
Proof.
  intros H Hirr. pose proof (wf_f0 A H) as f0. pose proof (wf_deg1 A H) as Hd. unfold mzed_echelonize_naive.
  eapply wp_mono.
  - apply (wp_for (fun c '(A', r) => becomes A A' (entry A') /\
        row_equiv (fld A) (mz_nrows A) (mz_ncols A) (entry A) (entry A') /\
        exists piv, ech_inv full (mz_nrows A) (mz_ncols A) c r piv (entry A'))); [lia| |].
    + split; [now apply becomes_refl|]. split; [apply row_equiv_refl; auto; now apply wf_inM|].
      exists (fun _ => 0). apply ech_inv_init.
    + intros c [A' r] Hc (B & Q & piv & I). cbv beta iota.
      pose proof (becomes_wf _ _ _ B) as W. pose proof (becomes_nr _ _ _ B) as Er.
      pose proof (becomes_nc _ _ _ B) as Ec. pose proof (becomes_ff _ _ _ B) as Ef.
      assert (Hr : r <= mz_nrows A) by apply I.
      apply wp_bind. eapply wp_mono; [apply find_pivot_ok; auto; lia|]. cbv beta. intros [[p x]|].
      * intros (Hp & Ex & Hx0 & _).
        pose proof (pivot_step full A' c r p x) as S. rewrite Ef, Er, Ec in S.
        specialize (S Hirr W ltac:(lia) ltac:(lia) Ex Hx0).
        assert (Hz : forall i j, r <= i < mz_nrows A -> j < c -> entry A' i j = 0%N) by apply I.
        specialize (S Hz). rewrite Ef.
        apply wp_iff in S. destruct S as (A2 & E2 & g & Hg & Eg & B2).
        destruct (gf2e_inv (mz_ff A) x) as [xi| |]; cbn [bind] in E2 |- *; try discriminate.
        destruct (mzed_rescale_row A' p c xi) as [A3| |] eqn:E3; cbn [bind] in E2 |- *; try discriminate.
        destruct (mzed_row_swap A3 p r) as [A4| |] eqn:E4; cbn [bind] in E2 |- *; try discriminate.
        assert (N4 : mz_nrows A4 = mz_nrows A).
        { unfold mzed_row_swap in E4. destruct (mzd_row_swap _ _ _); cbn [bind] in E4; try discriminate.
          injection E4 as <-. cbn. unfold mzed_rescale_row in E3. destruct (guard _); cbn [bind] in E3; try discriminate.
          destruct (lget _ _); cbn [bind] in E3; try discriminate. destruct (rescale_words _ _ _ _ _ _); cbn [bind] in E3; try discriminate.
          injection E3 as <-. cbn. easy. }
        rewrite N4 in E2. rewrite E2. cbn [bind wp].
        assert (HR : inM (fld A) (mz_nrows A) (mz_ncols A) (entry A')).
        { rewrite <- Er, <- Ec, <- Ef. now apply wf_inM. }
        assert (M2 : meq (mz_nrows A) (mz_ncols A) (gstep (fld A) full p r c g (entry A')) (entry A2)).
        { intros i j Hi Hj. symmetry. apply (becomes_entry _ _ _ _ _ B2); lia. }
        split; [|split].
        -- eapply becomes_ext; [eapply becomes_trans; [exact B|exact B2]|]. cbv beta. exact M2.
        -- eapply row_equiv_trans; [exact Hd|exact Q|]. eapply row_equiv_ext; [|exact M2].
           apply (gstep_equiv (fld A) Hd full _ _ c r p g (entry A' p c)); auto; try lia. apply HR; lia.
        -- exists (fun i => if i =? r then c else piv i).
           pose proof (ech_inv_step (fld A) Hd full _ _ c r piv p g (entry A') HR I ltac:(lia) ltac:(lia) Hg Eg) as J.
           destruct J as (J1 & J2 & J3 & J4 & J5). split; [easy|]. split; [|split; [easy|split]].
           ++ intros i Hi. destruct (J2 i Hi) as (K1 & K2 & K3). split; [easy|].
              split; [rewrite <- M2 by lia; easy|]. intros j Hj. rewrite <- M2 by lia. now apply K3.
           ++ intros i j Hi Hj. rewrite <- M2 by lia. now apply J4.
           ++ intros Hfull i i' Hi Hi' Hne. destruct (J2 i Hi) as (K1 & _). rewrite <- M2 by lia. now apply J5.
      * intros Hz. cbn [wp]. split; [easy|]. split; [easy|]. exists piv. apply ech_inv_none; auto.
        intros i Hi. apply Hz. lia.
  - cbv beta. intros [A' r] (B & Q & piv & I). split; [easy|]. split; [easy|]. exists piv. now apply ech_inv_done.
Qed.
