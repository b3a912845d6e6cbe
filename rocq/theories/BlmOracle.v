(** One implementation of the M4RI routines that blm.c calls and whose results are not determined by their specification: there
    is one, so that the hypothesis [m4ri_ok] of the theorems about bilinear maps can be met; and it can be run. *)
From Coq Require Import NArith List Bool Arith Lia ZifyN ZifyNat ZifyBool.
From Verif Require Import Base Spec PolyFacts MatFacts SliceMul KaraProofs IrrProofs Gf2eModel MzdModel MzedSpec LinSpec SliceModel SliceSpec MzdFacts MzedProofs PermModel PleSpec PermProofs EchFacts DjbModel DjbSpec PropDjb BlmTable BlmModel BlmSpec BlmFacts BlmFin.
Import ListNotations.
Local Open Scope nat_scope.

(** which of the first r words of M have the sum x, if any have *)
Fixpoint find_comb (r : nat) (M : list N) (x : N) : option N :=
  match r with
  | O => if (x =? 0)%N then Some 0%N else None
  | S r' => match find_comb r' M x with
            | Some l => Some l
            | None => match find_comb r' M (N.lxor x (nth r' M 0%N)) with Some l => Some (l + 2 ^ N.of_nat r')%N | None => None end
            end
  end.
Definition lincomb (r : nat) (M : list N) (l : nat -> bool) : N := xsum r (fun k => if l k then nth k M 0%N else 0%N).
Lemma lincomb_ext r M l l' : (forall k, k < r -> l k = l' k) -> lincomb r M l = lincomb r M l'.
Proof. intros H. apply xsum_ext. intros k Hk. now rewrite H. Qed.
Lemma find_comb_some r M : forall x l, find_comb r M x = Some l -> (l < 2 ^ N.of_nat r)%N /\ x = lincomb r M (fun k => N.testbit l (N.of_nat k)).
Proof.
  induction r as [|r IH]; intros x l H; cbn [find_comb] in H.
  - destruct (N.eqb_spec x 0); [|easy]. injection H as <-. now split.
  - assert (HP : (2 ^ N.of_nat (S r) = 2 * 2 ^ N.of_nat r)%N) by (rewrite Nat2N.inj_succ; apply N.pow_succ_r'). destruct (find_comb r M x) as [l'|] eqn:H1.
    + injection H as <-. destruct (IH _ _ H1) as (Hl & Hx). split; [lia|]. unfold lincomb in *. cbn [xsum]. rewrite (proj1 (lt_pow2_bits l' (N.of_nat r)) Hl) by lia. now rewrite N.lxor_0_r.
    + destruct (find_comb r M (N.lxor x (nth r M 0%N))) as [l'|] eqn:H2; [|discriminate H]. injection H as <-. destruct (IH _ _ H2) as (Hl & Hx). split; [lia|]. unfold lincomb in *. cbn [xsum].
      assert (Hb : forall k, N.testbit (l' + 2 ^ N.of_nat r) (N.of_nat k) = if k =? r then true else N.testbit l' (N.of_nat k)).
      { intros k. assert (Hd : N.land l' (2 ^ N.of_nat r) = 0%N).
        { apply N.bits_inj. intros i. rewrite N.land_spec, N.bits_0, N.pow2_bits_eqb. destruct (N.eqb_spec (N.of_nat r) i) as [<-|]; [|apply andb_false_r]. now rewrite (proj1 (lt_pow2_bits l' (N.of_nat r)) Hl) by lia. }
        rewrite N.add_nocarry_lxor by easy. rewrite N.lxor_spec, N.pow2_bits_eqb. destruct (Nat.eqb_spec k r) as [->|].
        - rewrite N.eqb_refl. now rewrite (proj1 (lt_pow2_bits l' (N.of_nat r)) Hl) by lia.
        - replace (N.of_nat r =? N.of_nat k)%N with false by lia. apply Bool.xorb_false_r. }
      rewrite Hb, Nat.eqb_refl. rewrite (xsum_ext r _ (fun k => if N.testbit l' (N.of_nat k) then nth k M 0%N else 0%N)) by (intros k Hk; rewrite Hb; now replace (k =? r) with false by lia).
      rewrite <- Hx. now rewrite N.lxor_assoc, N.lxor_nilpotent, N.lxor_0_r.
Qed.
Lemma find_comb_none r M : forall x, find_comb r M x = None -> forall l, x <> lincomb r M l.
Proof.
  induction r as [|r IH]; intros x H l; cbn [find_comb] in H.
  - destruct (N.eqb_spec x 0); easy.
  - destruct (find_comb r M x) eqn:H1; [easy|]. destruct (find_comb r M (N.lxor x (nth r M 0%N))) eqn:H2; [easy|]. unfold lincomb. cbn [xsum]. fold (lincomb r M l). destruct (l r).
    + intros Hx. apply (IH _ H2 l). rewrite Hx. now rewrite N.lxor_assoc, N.lxor_nilpotent, N.lxor_0_r.
    + rewrite N.lxor_0_r. now apply IH.
Qed.
Definition roww (n : nat) (f : nat -> bool) : N := word_of_bits n f.
Lemma lincomb_rows r n M g l : (forall k, k < r -> nth k M 0%N = roww n (g k)) -> forall j, j < n -> N.testbit (lincomb r M l) (N.of_nat j) = bxsum r (fun k => l k && g k j).
Proof.
  intros H j Hj. unfold lincomb. rewrite xsum_testbit. apply bxsum_ext. intros k Hk. destruct (l k); [|apply N.bits_0]. rewrite H by easy. unfold roww. rewrite testbit_word_of_bits. replace (j <? n) with true by lia. reflexivity.
Qed.
Lemma lincomb_lt r n M g l : (forall k, k < r -> nth k M 0%N = roww n (g k)) -> (lincomb r M l < 2 ^ N.of_nat n)%N.
Proof.
  intros H. unfold lincomb. induction r as [|r IH]; cbn [xsum]; [lia|]. apply lxor_lt_pow2; [apply IH; auto|]. destruct (l r); [|lia]. rewrite H by lia. apply word_of_bits_lt.
Qed.
Lemma find_span r n M g x : (forall k, k < r -> nth k M 0%N = roww n (g k)) ->
  match find_comb r M (roww n x) with
  | Some l => forall j, j < n -> x j = bxsum r (fun k => N.testbit l (N.of_nat k) && g k j)
  | None => ~ bspan r n g x
  end.
Proof.
  intros HM. destruct (find_comb r M (roww n x)) as [l|] eqn:Hf.
  - destruct (find_comb_some _ _ _ _ Hf) as (_ & Hx). intros j Hj. rewrite <- (lincomb_rows r n M g _ HM j Hj), <- Hx. unfold roww. rewrite testbit_word_of_bits. now replace (j <? n) with true by lia.
  - intros (l & Hl). apply (find_comb_none _ _ _ Hf l). apply N.bits_inj. intros i. rewrite <- (N2Nat.id i). destruct (Nat.lt_ge_cases (N.to_nat i) n) as [Hi|Hi].
    + rewrite (lincomb_rows r n M g l HM _ Hi). unfold roww. rewrite testbit_word_of_bits. replace (N.to_nat i <? n) with true by lia. now apply Hl.
    + unfold roww. rewrite testbit_word_of_bits. replace (N.to_nat i <? n) with false by lia. cbn [andb]. symmetry. apply (proj1 (lt_pow2_bits _ (N.of_nat n))); [now apply (lincomb_lt r n M g)|lia].
Qed.

(** ** mzd_ple *)
Definition rws (D : mzd) (P : mzp) (t r : nat) : list N := map (fun k => roww (mzd_ncols D) (mbit D (swaps (at_ P) t k))) (seq 0 r).
Fixpoint ple0 (D : mzd) (t : nat) : mzp * nat :=
  match t with
  | O => ([], 0)
  | S i => let '(P, r) := ple0 D i in
           if r =? i then
             let M := rws D P i i in
             match find (fun j => match find_comb i M (roww (mzd_ncols D) (mbit D (swaps (at_ P) i j))) with None => true | Some _ => false end) (seq i (mzd_nrows D - i)) with
             | Some j => (P ++ [j], S i)
             | None => (P ++ [i], i)
             end
           else (P ++ [i], r)
  end.
Lemma at_app1 P j k : k < length P -> at_ (P ++ [j]) k = at_ P k.
Proof. intros H. unfold at_. now apply app_nth1. Qed.
Lemma at_app2 P j : at_ (P ++ [j]) (length P) = j.
Proof. unfold at_. rewrite app_nth2, Nat.sub_diag by lia. reflexivity. Qed.
Lemma swaps_ext P P' t i : (forall k, k < t -> P k = P' k) -> swaps P t i = swaps P' t i.
Proof. revert i. induction t as [|t IH]; intros i H; [easy|]. cbn [swaps]. rewrite H by lia. apply IH. auto. Qed.
Lemma tr_same a i : tr a a i = i.
Proof. unfold tr. destruct (Nat.eqb_spec i a); congruence. Qed.
Lemma ple0_ok D t : t <= mzd_nrows D ->
  let m := mzd_nrows D in let '(P, r) := ple0 D t in let g := fun i k => mbit D (swaps (at_ P) t i) k in
  length P = t /\ (forall i, i < t -> i <= at_ P i < m) /\ r <= t /\ bindep r (mzd_ncols D) g /\ (r = t \/ forall i, i < m -> bspan r (mzd_ncols D) g (g i)).
Proof.
  cbv zeta. induction t as [|t IH]; intros Ht.
  - cbn [ple0]. repeat split; [easy|lia|lia|intros l _ k Hk; lia|now left].
  - specialize (IH ltac:(lia)). cbn [ple0]. destruct (ple0 D t) as (P & r) eqn:HP. destruct IH as (HL & Hv & Hr & Hi & Hs).
    assert (HS : forall j i, swaps (at_ (P ++ [j])) (S t) i = swaps (at_ P) t (tr t j i)).
    { intros j i. cbn [swaps]. rewrite <- HL at 3. rewrite at_app2. apply swaps_ext. intros k Hk. apply at_app1. lia. }
    assert (HV : forall j, t <= j < mzd_nrows D -> forall i, i < S t -> i <= at_ (P ++ [j]) i < mzd_nrows D).
    { intros j Hj i Hlt. destruct (Nat.eq_dec i t) as [->|]; [rewrite <- HL at 2 3; rewrite at_app2; lia|]. rewrite at_app1 by lia. apply Hv. lia. }
    assert (HL' : forall j, length (P ++ [j]) = S t) by (intros; rewrite app_length; cbn [length]; lia).
    assert (HE : forall i k, mbit D (swaps (at_ (P ++ [t])) (S t) i) k = mbit D (swaps (at_ P) t i) k) by (intros i k; now rewrite HS, tr_same).
    assert (HM : forall k, k < t -> nth k (rws D P t t) 0%N = roww (mzd_ncols D) (mbit D (swaps (at_ P) t k))).
    { intros k Hk. unfold rws. rewrite (nth_indep _ 0%N (roww (mzd_ncols D) (mbit D (swaps (at_ P) t 0)))) by (rewrite map_length, seq_length; lia).
      rewrite (map_nth (fun k => roww (mzd_ncols D) (mbit D (swaps (at_ P) t k)))), seq_nth by lia. reflexivity. }
    destruct (Nat.eqb_spec r t) as [->|Hne].
    + destruct (find _ _) as [j|] eqn:Hf.
      * apply find_some in Hf. destruct Hf as (Hin & Hf). apply in_seq in Hin.
        pose proof (find_span t (mzd_ncols D) (rws D P t t) (fun k => mbit D (swaps (at_ P) t k)) (mbit D (swaps (at_ P) t j)) HM) as Hsp.
        destruct (find_comb _ _ _); [easy|]. split; [apply HL'|]. split; [apply HV; lia|]. split; [lia|]. split; [|now left].
        assert (Hk1 : forall k, k < t -> tr t j k = k) by (intros k Hk; unfold tr; destruct (Nat.eqb_spec k t); [lia|]; destruct (Nat.eqb_spec k j); lia).
        assert (Hk2 : tr t j t = j) by (unfold tr; now rewrite Nat.eqb_refl).
        intros l Hl k Hk. assert (Hlt : l t = false).
        { destruct (l t) eqn:Hlt; [|easy]. exfalso. apply Hsp. exists l. intros c Hc. specialize (Hl c Hc). cbn [bxsum] in Hl. rewrite Hlt, HS, Hk2 in Hl. cbn [andb] in Hl.
          rewrite (bxsum_ext t _ (fun k => l k && mbit D (swaps (at_ P) t k) c)) in Hl by (intros k' Hk'; now rewrite HS, Hk1).
          destruct (bxsum t _), (mbit D (swaps (at_ P) t j) c); easy. }
        destruct (Nat.eq_dec k t) as [->|]; [easy|]. apply (Hi l); [|lia]. intros c Hc. specialize (Hl c Hc). cbn [bxsum] in Hl. rewrite Hlt in Hl. cbn [andb] in Hl.
        rewrite (bxsum_ext t _ (fun k => l k && mbit D (swaps (at_ P) t k) c)) in Hl by (intros k' Hk'; now rewrite HS, Hk1). now destruct (bxsum t _).
      * split; [apply HL'|]. split; [apply HV; lia|]. split; [lia|]. split; [eapply bindep_ext; [|exact Hi]; intros; symmetry; apply HE|]. right. intros i Him.
        apply (bspan_ext t _ (fun i k => mbit D (swaps (at_ P) t i) k) _ (mbit D (swaps (at_ P) t i)) _); [intros; symmetry; apply HE|intros; symmetry; apply HE|].
        destruct (Nat.lt_ge_cases i t) as [Hlt|Hge]; [now apply (bspan_row t _ (fun i k => mbit D (swaps (at_ P) t i) k))|].
        pose proof (find_none _ _ Hf i ltac:(apply in_seq; lia)) as Hn. cbv beta in Hn.
        pose proof (find_span t (mzd_ncols D) (rws D P t t) (fun k => mbit D (swaps (at_ P) t k)) (mbit D (swaps (at_ P) t i)) HM) as Hsp.
        destruct (find_comb _ _ _) as [l|]; [|easy]. exists (fun k => N.testbit l (N.of_nat k)). exact Hsp.
    + split; [apply HL'|]. split; [apply HV; lia|]. split; [lia|]. split; [eapply bindep_ext; [|exact Hi]; intros; symmetry; apply HE|]. right. destruct Hs as [|Hs]; [lia|]. intros i Him.
      apply (bspan_ext r _ (fun i k => mbit D (swaps (at_ P) t i) k) _ (mbit D (swaps (at_ P) t i)) _); [intros; symmetry; apply HE|intros; symmetry; apply HE|]. now apply Hs.
Qed.

(** ** mzd_inv_m4ri *)
Definition inv0 (C : mzd) : mzd :=
  let m := mzd_nrows C in
  let M := map (fun k => roww m (mbit C k)) (seq 0 m) in
  let X := map (fun i => match find_comb m M (roww m (fun j => j =? i)) with Some l => l | None => 0%N end) (seq 0 m) in
  mzd_build (mzd_init m m) (fun i k => N.testbit (nth i X 0%N) (N.of_nat k)).
Lemma nth_map_seq {A} (f : nat -> A) n d k : k < n -> nth k (map f (seq 0 n)) d = f k.
Proof. intros H. rewrite (nth_indep _ d (f 0)) by (now rewrite map_length, seq_length). rewrite (map_nth f), seq_nth by easy. reflexivity. Qed.
Lemma bindep_spans m C i : bindep m m C -> i < m -> bspan m m C (fun j => j =? i).
Proof.
  intros HC Hi. destruct (bkernel m (S m) (fun c k => if k <? m then C k c else c =? i) ltac:(lia)) as (v & (j & Hj & Hv) & Hz).
  assert (Hc : forall c, c < m -> bxsum m (fun k => v k && C k c) = v m && (c =? i)).
  { intros c Hc. specialize (Hz c Hc). cbn [bxsum] in Hz. rewrite Nat.ltb_irrefl in Hz. rewrite (bxsum_ext m _ (fun k => v k && C k c)) in Hz by (intros k Hk; replace (k <? m) with true by lia; apply andb_comm).
    rewrite andb_comm. destruct (bxsum m _), ((c =? i) && v m); easy. }
  destruct (v m) eqn:Hm.
  - exists v. intros c Hc'. now rewrite Hc.
  - exfalso. assert (Hz' : forall k, k < m -> v k = false) by (apply HC; intros c Hc'; now rewrite Hc). destruct (Nat.eq_dec j m) as [->|]; [congruence|]. rewrite Hz' in Hv by lia. easy.
Qed.
Lemma inv0_ok C : wf_mzd C -> mzd_nrows C = mzd_ncols C -> bindep (mzd_nrows C) (mzd_ncols C) (mbit C) -> inv_contract C (inv0 C).
Proof.
  intros HW Hsq HC. unfold inv_contract. rewrite <- Hsq in HC. set (m := mzd_nrows C) in *.
  set (M := map (fun k => roww m (mbit C k)) (seq 0 m)). assert (HM : forall k, k < m -> nth k M 0%N = roww m (mbit C k)) by (intros k Hk; unfold M; now rewrite nth_map_seq).
  unfold inv0. fold m. fold M. set (X := map _ (seq 0 m)). set (Y := mzd_build _ _).
  pose proof (mset_build (mzd_init m m) (fun i k => N.testbit (nth i X 0%N) (N.of_nat k)) (wf_init _ _)) as HB. fold Y in HB.
  assert (HXC : forall i j, i < m -> j < m -> bmul m (mbit Y) (mbit C) i j = (i =? j)).
  { intros i j Hi Hj. unfold bmul. transitivity (bxsum m (fun k => N.testbit (nth i X 0%N) (N.of_nat k) && mbit C k j)); [apply bxsum_ext; intros k Hk; now rewrite (mset_bit _ _ _ i k HB)|].
    unfold X. rewrite nth_map_seq by easy. pose proof (find_span m m M (mbit C) (fun j => j =? i) HM) as Hs. destruct (find_comb _ _ _) as [l|].
    - rewrite <- Hs by easy. apply Nat.eqb_sym.
    - exfalso. apply Hs. now apply bindep_spans. }
  split; [exact (mset_wf _ _ _ HB)|]. split; [exact (mset_nr _ _ _ HB)|]. split; [exact (mset_nc _ _ _ HB)|]. split; [|exact HXC].
  intros i j Hi Hj. assert (Hd : forall k, k < m -> xorb (bmul m (mbit C) (mbit Y) i k) (i =? k) = false).
  { apply (HC (fun k => xorb (bmul m (mbit C) (mbit Y) i k) (i =? k))). intros c Hc.
    rewrite (bxsum_ext m _ (fun k => xorb (bmul m (mbit C) (mbit Y) i k && mbit C k c) ((i =? k) && mbit C k c))) by (intros k Hk; destruct (bmul _ _ _ _ _), (i =? k), (mbit C k c); reflexivity).
    rewrite bxsum_xorb. rewrite (bxsum_ext m (fun k => (i =? k) && mbit C k c) (fun k => (k =? i) && mbit C k c)) by (intros; f_equal; apply Nat.eqb_sym). rewrite bxsum_eqb by easy.
    rewrite (bxsum_ext m _ (fun k => bxsum m (fun q => mbit C i q && (mbit Y q k && mbit C k c)))) by (intros k Hk; unfold bmul; rewrite bxsum_and_r; apply bxsum_ext; intros; symmetry; apply andb_assoc).
    rewrite bxsum_swap. rewrite (bxsum_ext m _ (fun q => mbit C i q && (q =? c))).
    - rewrite bxsum_eqb_r by easy. apply Bool.xorb_nilpotent.
    - intros q Hq. rewrite <- bxsum_and_l. f_equal. now apply HXC. }
  specialize (Hd j Hj). destruct (bmul _ _ _ _ _), (i =? j); easy.
Qed.

Definition x0 : m4ri := M4ri (fun D => ple0 D (mzd_nrows D)) inv0 naive_compile.
Theorem x0_ok : m4ri_ok x0.
Proof.
  split; [|split].
  - intros D HW. cbn [x0 x_ple]. pose proof (ple0_ok D (mzd_nrows D) (le_n _)) as H. destruct (ple0 D (mzd_nrows D)) as (P & r). cbv zeta in H. destruct H as (H1 & H2 & H3 & H4 & H5).
    cbn [fst snd]. unfold ple_contract. cbv zeta. split; [easy|]. split; [exact H2|]. split; [easy|]. split; [exact H4|]. intros i Hi. destruct H5 as [->|H5]; [|now apply H5].
    now apply (bspan_row _ _ (fun i k => mbit D (swaps (at_ P) (mzd_nrows D) i) k)).
  - intros C. apply inv0_ok.
  - intros M HW. cbn [x0 x_compile]. split; [easy|]. split; [easy|]. apply naive_compile_computes.
Qed.
