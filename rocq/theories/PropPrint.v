(** Property theorems C59: printing.  The text is specified in PrintSpec.v. *)
From Coq Require Import NArith Lia List Bool Arith Ascii String.
From Coq Require Import ZifyBool ZifyNat ZifyN.
From Verif Require Import Base Spec PolyFacts Gf2xModel Gf2eModel Gf2eProofs MzdModel MzedModel MzedSpec SliceModel SliceSpec.
From Verif Require Import LaneFacts MzedProofs MzedOps LaneFacts SliceProofs EchNaive PrintSpec PrintModel PrintProofs Demo PropSlice.
Import ListNotations.
Local Open Scope nat_scope.

(** what is printed; the field width depends on the degree of the field only *)
Theorem C59_print : forall A f m n F o, holds A f m n F ->
  mzed_print A o = Ok (o ++ page (field_width (N.to_nat (pdeg f))) m n F).
Proof.
  intros A f m n F o (W & Ef & Er & Ec & Ee). rewrite (mzed_print_ok A o W). rewrite Ef, Er, Ec. do 2 f_equal.
  unfold page. f_equal. apply map_ext_in. intros i Hi. apply in_seq in Hi. unfold line. do 3 f_equal. apply map_ext_in.
  intros j Hj. apply in_seq in Hj. now rewrite Ee by lia.
Qed.
Print Assumptions C59_print.
Theorem C59_slice_print : forall A f m n F o, sholds A f m n F -> (2 <= pdeg f)%N ->
  mzd_slice_print A o = Ok (o ++ page (field_width (N.to_nat (pdeg f))) m n F).
Proof.
  intros A f m n F o (W & Ef & Er & Ec & Ee) Hd. rewrite (mzd_slice_print_ok A o W).
  2:{ destruct W as ((_ & X & _) & -> & _). rewrite Ef in X. lia. }
  rewrite Ef, Er, Ec. do 2 f_equal.
  unfold page. f_equal. apply map_ext_in. intros i Hi. apply in_seq in Hi. unfold line. do 3 f_equal. apply map_ext_in.
  intros j Hj. apply in_seq in Hj. now rewrite Ee by lia.
Qed.
Print Assumptions C59_slice_print.

(** The text tells the matrix: matrices over one field (or fields of one degree) that print the same text are equal,
    whether packed or sliced. *)
Theorem C59_text_tells : forall d m n m' n' F F' (Hd : 2 <= d <= 16),
  (forall i j, i < m -> j < n -> (F i j < 2 ^ N.of_nat d)%N) -> (forall i j, i < m' -> j < n' -> (F' i j < 2 ^ N.of_nat d)%N) ->
  page (field_width d) m n F = page (field_width d) m' n' F' ->
  m = m' /\ (0 < m -> n = n') /\ (forall i j, i < m -> j < n -> F i j = F' i j).
Proof.
  intros d m n m' n' F F' Hd H H' E.
  assert (W : (2 ^ N.of_nat d <= 16 ^ N.of_nat (field_width d))%N).
  { change 16%N with (2 ^ 4)%N. rewrite <- N.pow_mul_r. apply N.pow_le_mono_r; [discriminate|].
    unfold field_width. destruct (Nat.leb_spec d 4), (Nat.leb_spec d 8); lia. }
  refine (page_inj (field_width d) m _ m' n n' F F' _ _ E); [apply field_width_range| |].
  - intros i j Hi Hj. eapply N.lt_le_trans; [now apply H|exact W].
  - intros i j Hi Hj. eapply N.lt_le_trans; [now apply H'|exact W].
Qed.
Print Assumptions C59_text_tells.

(** Two matrices over fields of the same degree print the same text only if they are equal. *)
Theorem C59_print_injective : forall A B o t, wf_mzed A -> wf_mzed B -> pdeg (fld A) = pdeg (fld B) ->
  mzed_print A o = Ok t -> mzed_print B o = Ok t ->
  mz_nrows A = mz_nrows B /\ (0 < mz_nrows A -> mz_ncols A = mz_ncols B) /\
  (forall i j, i < mz_nrows A -> j < mz_ncols A -> entry A i j = entry B i j).
Proof.
  intros A B o t HA HB Hp EA EB. rewrite (mzed_print_ok A o HA) in EA. rewrite (mzed_print_ok B o HB), <- Hp in EB.
  assert (E : page (field_width (N.to_nat (pdeg (fld A)))) (mz_nrows A) (mz_ncols A) (entry A) = page (field_width (N.to_nat (pdeg (fld A)))) (mz_nrows B) (mz_ncols B) (entry B)).
  { apply (app_inv_head o). congruence. }
  pose proof HA as ((D & P & _) & Ww & _).
  assert (2 <= N.to_nat (pdeg (fld A)) <= 16). { destruct (degree_to_w_facts _ _ Ww) as (_ & _ & X). lia. }
  apply C59_text_tells in E; auto; intros i j Hi Hj; rewrite N2Nat.id.
  - now apply wf_inM.
  - rewrite Hp. now apply wf_inM.
Qed.
Print Assumptions C59_print_injective.
(** the packed and the sliced version of a matrix print the same *)
Theorem C59_same_text : forall A S f m n F o, holds A f m n F -> sholds S f m n F -> mzd_slice_print S o = mzed_print A o.
Proof.
  intros A S f m n F o HA HS. rewrite (C59_print _ _ _ _ _ _ HA). apply (C59_slice_print _ _ _ _ _ _ HS).
  destruct HA as (((D & P & _) & Ww & _) & <- & _). destruct (degree_to_w_facts _ _ Ww) as (_ & _ & X). lia.
Qed.
Print Assumptions C59_same_text.

Example C59_witness :
  (A <- mk 0x211 2 3 (fun i j => N.of_nat (100 * i + 21 * j)) ;; t <- mzed_print A [] ;; Ok (string_of_list_ascii t)) =
    Ok ("[   0   15   2a]" ++ newline ++ "[  64   79   8e]" ++ newline)%string /\
  (A <- mks 0xb 2 2 (fun i j => N.of_nat (3 * i + j)) ;; t <- mzd_slice_print A [] ;; Ok (string_of_list_ascii t)) =
    Ok ("[0 1]" ++ newline ++ "[3 4]" ++ newline)%string /\
  (A <- mk 0xb 2 0 (fun i j => 0%N) ;; t <- mzed_print A [] ;; Ok (string_of_list_ascii t)) = Ok ("[]" ++ newline ++ "[]" ++ newline)%string.
Proof. repeat split; vm_compute; reflexivity. Qed.
