(** Property theorems C11-C19: packed matrices.  [entry], [wf_mzed], [becomes], [holds] and
    [target] are defined in MzedSpec.v; [fld A] is the minimal polynomial of A's field. *)
From Coq Require Import NArith Lia List Bool Arith.
From Coq Require Import ZifyBool ZifyNat ZifyN.
From Verif Require Import Base Spec PolyFacts Gf2xModel Gf2eModel Gf2eProofs MzdModel MzedModel MzedSpec.
From Verif Require Import LaneFacts MzedProofs MzedOps MzedOps2 ScalarProofs Demo.
Import ListNotations.
Local Open Scope nat_scope.

(** C11 *)
Theorem C11_element_access : forall A r c v,
  wf_mzed A -> r < mz_nrows A -> c < mz_ncols A -> inF (fld A) v ->
  mzed_read_elem A r c = Ok (entry A r c) /\
  (exists A', mzed_write_elem A r c v = Ok A' /\
     becomes A A' (fun i j => if (i =? r) && (j =? c) then v else entry A i j) /\
     mzed_read_elem A' r c = Ok v /\
     (forall i j, i < mz_nrows A -> j < mz_ncols A -> (i, j) <> (r, c) ->
        mzed_read_elem A' i j = mzed_read_elem A i j)) /\
  (exists A', mzed_add_elem A r c v = Ok A' /\
     becomes A A' (fun i j => if (i =? r) && (j =? c) then N.lxor (entry A r c) v else entry A i j)).
Proof.
  intros A r c v H Hr Hc Hv. split; [now apply mzed_read_elem_ok|]. split.
  - pose proof (mzed_write_elem_ok A r c v H Hr Hc Hv) as W. apply wp_iff in W. destruct W as (A' & E & B).
    exists A'. split; [easy|]. split; [easy|].
    assert (R : forall i j, i < mz_nrows A -> j < mz_ncols A -> mzed_read_elem A' i j = Ok (entry A' i j)).
    { intros i j Hi Hj. apply mzed_read_elem_ok; [exact (becomes_wf _ _ _ B)|now rewrite (becomes_nr _ _ _ B)|now rewrite (becomes_nc _ _ _ B)]. }
    split.
    + rewrite R, (becomes_entry _ _ _ _ _ B) by easy. now rewrite !Nat.eqb_refl.
    + intros i j Hi Hj Hne. rewrite R, mzed_read_elem_ok, (becomes_entry _ _ _ _ _ B) by easy.
      destruct (Nat.eqb_spec i r), (Nat.eqb_spec j c); cbn; auto. congruence.
  - apply wp_iff. now apply mzed_add_elem_ok.
Qed.
Print Assumptions C11_element_access.
Example C11_witness :
  (A <- mk 0xb 2 17 (noise 3 1) ;; A <- mzed_write_elem A 1 16 5 ;; A <- mzed_add_elem A 1 15 1 ;;
   x <- mzed_read_elem A 1 16 ;; y <- mzed_read_elem A 1 15 ;; z <- mzed_read_elem A 0 16 ;; Ok [x; y; z]) = Ok [5; 3; 1]%N.
Proof. vm_compute. reflexivity. Qed.

(** C12 *)
Theorem C12_add_multiple_of_row : forall A ar B br x s,
  wf_mzed A -> wf_mzed B -> fld A = fld B -> mz_ncols A = mz_ncols B -> inF (fld A) x ->
  ar < mz_nrows A -> br < mz_nrows B -> s < mz_ncols A ->
  exists A', mzed_add_multiple_of_row A ar B br x s = Ok A' /\
    becomes A A' (fun i c => if (i =? ar) && (s <=? c)
                             then N.lxor (entry A ar c) (fmul (fld A) x (entry B br c)) else entry A i c).
Proof. intros. apply wp_iff. now apply mzed_add_multiple_of_row_ok. Qed.
Print Assumptions C12_add_multiple_of_row.
Example C12_witness :
  (A <- mk 0x13 2 18 (noise 3 1) ;; A <- mzed_add_multiple_of_row A 1 A 0 7 15 ;; Ok (to_rows A)) =
  Ok [[1; 2; 3; 4; 5; 6; 7; 8; 9; 10; 11; 12; 13; 14; 15; 0; 1; 2];
      [4; 6; 8; 10; 12; 14; 0; 2; 4; 6; 8; 10; 12; 14; 0; 2; 3; 8]]%N.
Proof. vm_compute. reflexivity. Qed.

(** C13 *)
Theorem C13_add_row : forall A ar B br s,
  wf_mzed A -> wf_mzed B -> fld A = fld B -> mz_ncols A = mz_ncols B ->
  ar < mz_nrows A -> br < mz_nrows B -> s < mz_ncols A ->
  exists A', mzed_add_row A ar B br s = Ok A' /\
    becomes A A' (fun i c => if (i =? ar) && (s <=? c)
                             then N.lxor (entry A ar c) (entry B br c) else entry A i c).
Proof. intros. apply wp_iff. now apply mzed_add_row_ok. Qed.
Print Assumptions C13_add_row.
Example C13_witness :
  (A <- mk 0x13 2 18 (noise 3 1) ;; A <- mzed_add_row A 1 A 0 15 ;; Ok (skipn 14 (nth 1 (to_rows A) []))) =
  Ok [0; 2; 5; 4]%N.
Proof. vm_compute. reflexivity. Qed.

(** C14 *)
Theorem C14_rescale_row : forall A r s x,
  wf_mzed A -> inF (fld A) x -> r < mz_nrows A -> s < mz_ncols A ->
  exists A', mzed_rescale_row A r s x = Ok A' /\
    becomes A A' (fun i c => if (i =? r) && (s <=? c) then fmul (fld A) x (entry A r c) else entry A i c).
Proof. intros. apply wp_iff. now apply mzed_rescale_row_ok. Qed.
Print Assumptions C14_rescale_row.
Example C14_witness :
  (A <- mk 0x13 2 18 (noise 3 1) ;; A <- mzed_rescale_row A 1 15 7 ;; Ok (skipn 14 (nth 1 (to_rows A) []))) =
  Ok [0; 14; 15; 1]%N.
Proof. vm_compute. reflexivity. Qed.

(** C15 *)
Theorem C15_init : forall ff m n, gf2e_wf ff -> 2 <= ff_degree ff ->
  exists A, mzed_init ff m n = Ok A /\ mz_ff A = ff /\ holds A (ff_minpoly ff) m n mzero.
Proof.
  intros ff m n H1 H2. pose proof (mzed_init_ok ff m n H1 H2) as H. apply wp_iff in H.
  destruct H as (A & E & Ef & Hh & _). now exists A.
Qed.
Theorem C15_add : forall C A B, wf_mzed A -> wf_mzed B ->
  (fld A = fld B -> mz_nrows A = mz_nrows B -> mz_ncols A = mz_ncols B ->
   target C (fld A) (mz_nrows A) (mz_ncols A) ->
   exists C', mzed_add C A B = Ok C' /\
     holds C' (fld A) (mz_nrows A) (mz_ncols A) (madd (entry A) (entry B))) /\
  (~ (fld A = fld B /\ mz_nrows A = mz_nrows B /\ mz_ncols A = mz_ncols B) -> mzed_add C A B = Die) /\
  (forall C0, C = Some C0 -> ~ (fld C0 = fld A /\ mz_nrows C0 = mz_nrows A /\ mz_ncols C0 = mz_ncols A) ->
     mzed_add C A B = Die).
Proof.
  intros C A B HA HB. split; [|split].
  - intros. apply wp_iff. eapply wp_mono; [now apply mzed_add_ok|]. cbv beta. now intros C' [H3 _].
  - intros Hne. unfold mzed_add. replace (_ && _ && _) with false; [reflexivity|]. symmetry.
    apply not_true_iff_false. intros E. apply Hne. rewrite !andb_true_iff, same_ff_iff in E. lia.
  - intros C0 -> Hne. unfold mzed_add. destruct (_ && _ && _); [|reflexivity]. cbn [check bind].
    replace (_ && _ && _) with false; [reflexivity|]. symmetry.
    apply not_true_iff_false. intros E. apply Hne. rewrite !andb_true_iff, same_ff_iff in E. lia.
Qed.
Theorem C15_copy : forall C B, wf_mzed B ->
  (target C (fld B) (mz_nrows B) (mz_ncols B) ->
   exists C', mzed_copy C B = Ok C' /\ holds C' (fld B) (mz_nrows B) (mz_ncols B) (entry B)) /\
  (forall C0, C = Some C0 -> ~ (fld C0 = fld B /\ mz_nrows C0 = mz_nrows B /\ mz_ncols C0 = mz_ncols B) ->
     mzed_copy C B = Die).
Proof.
  intros C B HB. split.
  - intros. apply wp_iff. eapply wp_mono; [now apply mzed_copy_ok|]. cbv beta. now intros C' [H3 _].
  - intros C0 -> Hne. unfold mzed_copy. cbn [bind].
    replace (_ && _ && _) with false; [reflexivity|]. symmetry.
    apply not_true_iff_false. intros E. apply Hne. rewrite !andb_true_iff, same_ff_iff in E. lia.
Qed.
Theorem C15_set_ui : forall A v, wf_mzed A -> inF (fld A) v ->
  exists A', mzed_set_ui A v = Ok A' /\ becomes A A' (fun i c => if i =? c then v else 0%N).
Proof. intros. apply wp_iff. now apply mzed_set_ui_ok. Qed.
Theorem C15_concat : forall C A B, wf_mzed A -> wf_mzed B -> fld A = fld B ->
  (mz_nrows A = mz_nrows B -> target C (fld A) (mz_nrows A) (mz_ncols A + mz_ncols B) ->
   exists C', mzed_concat C A B = Ok C' /\
     holds C' (fld A) (mz_nrows A) (mz_ncols A + mz_ncols B)
       (fun i c => if c <? mz_ncols A then entry A i c else entry B i (c - mz_ncols A))) /\
  (mz_nrows A <> mz_nrows B -> mzed_concat C A B = Die).
Proof.
  intros C A B HA HB Ef. split.
  - intros. apply wp_iff. now apply mzed_concat_ok.
  - intros Hne. unfold mzed_concat.
    assert (K : forall D, (x <- mzd_concat (mz_x D) (mz_x A) (mz_x B) ;; Ok (mz_set_x D x)) = Die).
    { intros D. unfold mzd_concat. pose proof HA as (_ & _ & A1 & _). pose proof HB as (_ & _ & B1 & _).
      rewrite A1, B1. replace (mz_nrows A =? mz_nrows B) with false by lia. reflexivity. }
    destruct C as [C|]; [apply K|]. unfold mzed_init.
    pose proof HA as (_ & -> & _). cbn [bind]. apply K.
Qed.
Theorem C15_stack : forall C A B, wf_mzed A -> wf_mzed B -> fld A = fld B ->
  (mz_ncols A = mz_ncols B -> target C (fld A) (mz_nrows A + mz_nrows B) (mz_ncols A) ->
   exists C', mzed_stack C A B = Ok C' /\
     holds C' (fld A) (mz_nrows A + mz_nrows B) (mz_ncols A)
       (fun i c => if i <? mz_nrows A then entry A i c else entry B (i - mz_nrows A) c)) /\
  (mz_ncols A <> mz_ncols B -> mzed_stack C A B = Die).
Proof.
  intros C A B HA HB Ef. split.
  - intros. apply wp_iff. now apply mzed_stack_ok.
  - intros Hne. unfold mzed_stack.
    assert (K : forall D, (x <- mzd_stack (mz_x D) (mz_x A) (mz_x B) ;; Ok (mz_set_x D x)) = Die).
    { intros D. unfold mzd_stack. pose proof HA as (_ & _ & _ & A1 & _). pose proof HB as (_ & _ & _ & B1 & _).
      rewrite A1, B1, (same_w A B) by easy. pose proof (wf_good B HB) as G.
      assert (0 < mz_w B) by now apply good_w_pos.
      replace (mz_w B * mz_ncols A =? mz_w B * mz_ncols B) with false by (symmetry; apply Nat.eqb_neq; nia). reflexivity. }
    destruct C as [C|]; [apply K|]. unfold mzed_init.
    pose proof HA as (_ & -> & _). cbn [bind]. apply K.
Qed.
Theorem C15_submatrix : forall C A lr lc hr hc, wf_mzed A -> lr <= hr <= mz_nrows A -> lc <= hc <= mz_ncols A ->
  target C (fld A) (hr - lr) (hc - lc) ->
  exists C', mzed_submatrix C A lr lc hr hc = Ok C' /\
    holds C' (fld A) (hr - lr) (hc - lc) (fun i c => entry A (lr + i) (lc + c)).
Proof. intros. apply wp_iff. now apply mzed_submatrix_ok. Qed.
Theorem C15_row_col_swap : forall A a b, wf_mzed A ->
  (a < mz_nrows A -> b < mz_nrows A -> exists A', mzed_row_swap A a b = Ok A' /\
     becomes A A' (fun i c => if i =? a then entry A b c else if i =? b then entry A a c else entry A i c)) /\
  (a < mz_ncols A -> b < mz_ncols A -> exists A', mzed_col_swap A a b = Ok A' /\
     becomes A A' (fun i c => if c =? a then entry A i b else if c =? b then entry A i a else entry A i c)) /\
  (forall start stop, a < mz_ncols A -> b < mz_ncols A -> stop <= mz_nrows A ->
     exists A', mzed_col_swap_in_rows A a b start stop = Ok A' /\
     becomes A A' (fun i c => if (start <=? i) && (i <? stop) then
        (if c =? a then entry A i b else if c =? b then entry A i a else entry A i c) else entry A i c)).
Proof.
  intros A a b H. split; [|split]; intros; apply wp_iff.
  - now apply mzed_row_swap_ok.
  - now apply mzed_col_swap_ok.
  - now apply mzed_col_swap_in_rows_ok.
Qed.
Theorem C15_row_copy_add : forall A B, wf_mzed A -> wf_mzed B -> fld A = fld B ->
  (forall i j, mz_ncols A <= mz_ncols B -> i < mz_nrows B -> j < mz_nrows A ->
     exists B', mzed_copy_row B i A j = Ok B' /\
     becomes B B' (fun r c => if (r =? i) && (c <? mz_ncols A) then entry A j c else entry B r c)) /\
  (forall s d, s < mz_nrows A -> d < mz_nrows A -> exists A', mzed_row_add A s d = Ok A' /\
     becomes A A' (fun i c => if i =? d then N.lxor (entry A d c) (entry A s c) else entry A i c)).
Proof.
  intros A B HA HB Ef. split; intros; apply wp_iff.
  - now apply mzed_copy_row_ok.
  - now apply mzed_row_add_ok.
Qed.
Print Assumptions C15_init.
Print Assumptions C15_add.
Print Assumptions C15_copy.
Print Assumptions C15_set_ui.
Print Assumptions C15_concat.
Print Assumptions C15_stack.
Print Assumptions C15_submatrix.
Print Assumptions C15_row_col_swap.
Print Assumptions C15_row_copy_add.
Example C15_witness :
  (A <- mk 0xb 2 3 (noise 3 1) ;; B <- mk 0xb 2 3 (noise 1 2) ;; C <- mzed_add None A B ;;
   D <- mzed_concat None A B ;; S <- mzed_stack None A B ;; U <- mzed_submatrix None D 1 2 2 5 ;;
   S <- mzed_col_swap S 0 2 ;; S <- mzed_row_swap S 0 3 ;;
   Ok (to_rows C, to_rows D, to_rows U, to_rows S)) =
  Ok ([[0; 1; 6]; [6; 3; 0]], [[1; 2; 3; 1; 3; 5]; [4; 6; 0; 2; 5; 0]], [[0; 2; 5]],
      [[0; 5; 2]; [0; 6; 4]; [5; 3; 1]; [3; 2; 1]])%N.
Proof. vm_compute. reflexivity. Qed.

(** C16 *)
Theorem C16_cmp_is_zero : forall A B, wf_mzed A -> wf_mzed B -> fld A = fld B ->
  (mzed_cmp A B = Eq <-> mz_nrows A = mz_nrows B /\ mz_ncols A = mz_ncols B /\
     (forall i c, i < mz_nrows A -> c < mz_ncols A -> entry A i c = entry B i c)) /\
  (mzed_is_zero A = true <-> (forall i c, i < mz_nrows A -> c < mz_ncols A -> entry A i c = 0%N)).
Proof. intros. split; [now apply mzed_cmp_ok|now apply mzed_is_zero_ok]. Qed.
Theorem C16_first_zero_row : forall A, wf_mzed A ->
  mzed_first_zero_row A <= mz_nrows A /\
  (forall i c, mzed_first_zero_row A <= i < mz_nrows A -> c < mz_ncols A -> entry A i c = 0%N) /\
  (0 < mzed_first_zero_row A -> exists c, c < mz_ncols A /\ entry A (mzed_first_zero_row A - 1) c <> 0%N).
Proof. intros. now apply mzed_first_zero_row_ok. Qed.
Print Assumptions C16_cmp_is_zero.
Print Assumptions C16_first_zero_row.
Example C16_witness :
  (A <- mk 0xb 2 3 (noise 3 1) ;; B <- mk 0xb 2 3 (noise 1 2) ;; Z <- mzed_add None A A ;;
   Ok (mzed_cmp A A, mzed_cmp A B, mzed_is_zero Z, mzed_is_zero A, mzed_first_zero_row Z)) = Ok (Eq, Lt, true, false, 0).
Proof. vm_compute. reflexivity. Qed.

(** C17; [rnd r c] is the value random() returns for element (r,c) *)
Theorem C17_randomize : forall rnd A, wf_mzed A ->
  exists A', mzed_randomize rnd A = Ok A' /\
    becomes A A' (fun i c => (rnd i c mod 2 ^ pdeg (fld A))%N) /\
    (forall i c, i < mz_nrows A -> c < mz_ncols A -> (entry A' i c < 2 ^ pdeg (fld A))%N).
Proof.
  intros rnd A H. pose proof (mzed_randomize_ok rnd A H) as W. apply wp_iff in W. destruct W as (A' & E & B).
  exists A'. split; [easy|]. split.
  - eapply becomes_ext; [exact B|]. cbv beta. intros i c _ _. rewrite N.land_ones. do 2 f_equal.
    pose proof H as ((_ & Hd & _) & _). lia.
  - intros i c Hi Hc. pose proof (becomes_wf _ _ _ B) as W'.
    pose proof (wf_entry A' i c W') as X. unfold inF in X. rewrite (becomes_ff _ _ _ B) in X. apply X.
    + now rewrite (becomes_nr _ _ _ B).
    + now rewrite (becomes_nc _ _ _ B).
Qed.
Print Assumptions C17_randomize.
Example C17_witness : (A <- mk 0xb 2 3 (fun i j => 1000 + N.of_nat (i * j))%N ;; Ok (to_rows A)) = Ok [[0;0;0];[0;1;2]]%N.
Proof. vm_compute. reflexivity. Qed.

(** C18: scalar multiples on both code paths.  For fields of degree at most 8 the number of elements must stay
    below 2^31, where its computation overflows, and from 2^17 elements on the degree must be 2, 4 or 8; the
    theorems after this one show that the property is false in exactly the cases left out. *)
Theorem C18_mul_scalar : forall C a B, wf_mzed B -> inF (fld B) a ->
  target C (fld B) (mz_nrows B) (mz_ncols B) ->
  (0 < mz_ncols B \/ mz_nrows B = 0) ->
  (ff_degree (mz_ff B) <= 8 -> (N.of_nat (mz_nrows B) * N.of_nat (mz_ncols B) < 2 ^ 31)%N) ->
  (ff_degree (mz_ff B) <= 8 -> (2 ^ 17 <= N.of_nat (mz_nrows B) * N.of_nat (mz_ncols B))%N ->
     ff_degree (mz_ff B) = 2 \/ ff_degree (mz_ff B) = 4 \/ ff_degree (mz_ff B) = 8) ->
  exists C', mzed_mul_scalar C a B = Ok C' /\
    holds C' (fld B) (mz_nrows B) (mz_ncols B) (mscal (fld B) a (entry B)).
Proof. intros C a B H1 H2 H3 H4 H5 H6. apply wp_iff. apply mzed_mul_scalar_ok; auto. intros [U1 U2]. now apply H6. Qed.
(** any matrix of 2^17 elements or more over a field of degree 3, 5, 6 or 7 makes mzed_mul_scalar read out of
    bounds (or overflow) *)
Theorem C18_mul_scalar_refuted : forall a B, wf_mzed B -> inF (fld B) a ->
  (2 ^ 17 <= N.of_nat (mz_nrows B) * N.of_nat (mz_ncols B))%N ->
  (ff_degree (mz_ff B) = 3 \/ ff_degree (mz_ff B) = 5 \/ ff_degree (mz_ff B) = 6 \/ ff_degree (mz_ff B) = 7) ->
  mzed_mul_scalar None a B = UB.
Proof.
  intros a B H Ha Hs Hd. assert (H8 : ff_degree (mz_ff B) <= 8) by lia.
  destruct (N.ltb_spec (N.of_nat (mz_nrows B) * N.of_nat (mz_ncols B)) (2 ^ 31)) as [L|L].
  - apply mzed_mul_scalar_oob; auto. now split.
  - apply mzed_mul_scalar_overflow; auto. exact Logic.I.
Qed.
(** with 2^31 elements or more and degree at most 8 the size test itself overflows, whatever C is *)
Theorem C18_overflow_refuted : forall C a B, wf_mzed B -> target C (fld B) (mz_nrows B) (mz_ncols B) ->
  ff_degree (mz_ff B) <= 8 -> (2 ^ 31 <= N.of_nat (mz_nrows B) * N.of_nat (mz_ncols B))%N ->
  mzed_mul_scalar C a B = UB.
Proof. intros. now apply mzed_mul_scalar_overflow. Qed.
Theorem C18_overflow_reachable : exists B, wf_mzed B /\ ff_degree (mz_ff B) = 2 /\
  mz_nrows B = N.to_nat 65536 /\ mz_ncols B = N.to_nat 65536 /\ mzed_mul_scalar None 1 B = UB.
Proof.
  destruct (mk_realises 7 (N.to_nat 65536) (N.to_nat 65536) (fun _ _ => 1%N)) as (B & _ & H);
    [vm_compute; split; discriminate|now intros|].
  destruct H as (H1 & H2 & H3 & H4 & _). exists B.
  assert (D : ff_degree (mz_ff B) = 2) by (destruct H1 as ((_ & Hd & _) & _); rewrite H2 in Hd; change (pdeg 7) with 2%N in Hd; lia).
  split; [exact H1|]. split; [exact D|]. split; [exact H3|]. split; [exact H4|].
  apply C18_overflow_refuted; [exact H1|exact Logic.I|lia|].
  rewrite H3, H4, !N2Nat.id. vm_compute. discriminate.
Qed.
(** rows without columns: the assertion of mzed_rescale_row fails *)
Theorem C18_no_columns_refuted : forall a B, wf_mzed B -> mz_ncols B = 0 -> 0 < mz_nrows B -> mzed_mul_scalar None a B = UB.
Proof. intros. now apply mzed_mul_scalar_no_columns. Qed.
Theorem C18_refuted_reachable : exists B, wf_mzed B /\ ff_degree (mz_ff B) = 3 /\
  (2 ^ 17 <= N.of_nat (mz_nrows B) * N.of_nat (mz_ncols B))%N.
Proof.
  destruct (mk_realises 0xb 512 256 (fun _ _ => 1%N)) as (B & _ & H); [vm_compute; split; discriminate|now intros|].
  destruct H as (H1 & H2 & H3 & H4 & _). exists B. split; [exact H1|]. split.
  - destruct H1 as ((_ & Hd & _) & _). rewrite H2 in Hd. change (pdeg 11) with 3%N in Hd. lia.
  - rewrite H3, H4. vm_compute. discriminate.
Qed.
Print Assumptions C18_mul_scalar.
Print Assumptions C18_overflow_refuted.
Print Assumptions C18_overflow_reachable.
Print Assumptions C18_no_columns_refuted.
Print Assumptions C18_mul_scalar_refuted.
Print Assumptions C18_refuted_reachable.
Example C18_witness : (B <- mk 0xb 2 3 (noise 3 1) ;; C <- mzed_mul_scalar None 3 B ;; Ok (to_rows C)) =
  Ok [[3; 6; 5]; [7; 1; 0]]%N.
Proof. vm_compute. reflexivity. Qed.

(** C19 *)
Theorem C19_mul_naive : forall C A B, wf_mzed A -> wf_mzed B ->
  (fld A = fld B -> mz_ncols A = mz_nrows B -> target C (fld A) (mz_nrows A) (mz_ncols B) ->
   (exists C', mzed_mul_naive C A B = Ok C' /\
      holds C' (fld A) (mz_nrows A) (mz_ncols B) (mmul (fld A) (mz_ncols A) (entry A) (entry B))) /\
   (exists C', mzed_addmul_naive C A B = Ok C' /\
      holds C' (fld A) (mz_nrows A) (mz_ncols B)
        (match C with
         | Some C => madd (entry C) (mmul (fld A) (mz_ncols A) (entry A) (entry B))
         | None => mmul (fld A) (mz_ncols A) (entry A) (entry B)
         end))) /\
  (~ (fld A = fld B /\ mz_ncols A = mz_nrows B) ->
     mzed_mul_naive C A B = Die /\ mzed_addmul_naive C A B = Die) /\
  (forall C0, C = Some C0 -> ~ (fld C0 = fld A /\ mz_nrows C0 = mz_nrows A /\ mz_ncols C0 = mz_ncols B) ->
     mzed_mul_naive C A B = Die /\ mzed_addmul_naive C A B = Die).
Proof.
  intros C A B HA HB. split; [|split].
  - intros Ef En HC. split; apply wp_iff; [now apply mzed_mul_naive_ok|].
    eapply wp_mono; [now apply mzed_addmul_naive_ok|]. cbv beta. intros C' (H1 & H2 & H3 & H4 & H5).
    split; [easy|]. split; [easy|]. split; [easy|]. split; [easy|]. intros i c Hi Hc. rewrite H5 by easy. now destruct C.
  - intros Hne. unfold mzed_mul_naive, mzed_addmul_naive, mzed_mul_init.
    replace (_ && _) with false; [split; reflexivity|]. symmetry.
    apply not_true_iff_false. intros E. apply Hne. rewrite !andb_true_iff, same_ff_iff in E. lia.
  - intros C0 -> Hne. unfold mzed_mul_naive, mzed_addmul_naive, mzed_mul_init.
    destruct ((mz_ncols A =? mz_nrows B) && same_ff A B); [|split; reflexivity]. cbn [check bind].
    replace (_ && _ && _) with false; [split; reflexivity|]. symmetry.
    apply not_true_iff_false. intros E. apply Hne. rewrite !andb_true_iff, same_ff_iff in E. lia.
Qed.
Print Assumptions C19_mul_naive.
Example C19_witness :
  (A <- mk 0xb 2 3 (noise 3 1) ;; B <- mk 0xb 3 2 (noise 1 2) ;; C <- mzed_mul_naive None A B ;;
   D <- mzed_addmul_naive (Some C) A B ;; Ok (to_rows C, to_rows D)) = Ok ([[0; 0]; [3; 4]], [[0; 0]; [0; 0]])%N.
Proof. vm_compute. reflexivity. Qed.
