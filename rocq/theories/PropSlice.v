(** Bit-sliced matrices: the properties C35-C40, and Karatsuba products of packed matrices. *)
From Coq Require Import NArith ZArith Lia List Bool Arith.
From Coq Require Import ZifyBool ZifyNat ZifyN.
From Verif Require Import Base Spec LinSpec PolyFacts MatFacts Gf2xModel Gf2eModel Gf2eProofs IrrProofs.
From Verif Require Import MzdModel MzedModel MzedSpec LaneFacts MzedProofs MzedOps MzedOps2 SliceModel SliceSpec MzdFacts SliceProofs SliceOps SliceMul KaratsubaTable KaraModel KaraProofs ConvTable ConvModel ConvBits ConvSlice ConvCling Demo.
Import ListNotations.
Local Open Scope nat_scope.

Definition sl_rows (A : slice) : list (list N) := map (fun i => map (fun c => sentry A i c) (seq 0 (sl_ncols A))) (seq 0 (sl_nrows A)).
Definition mks (f : N) (m n : nat) (F : mat) : res slice := A <- mk f m n F ;; mzed_slice None A.
Lemma mks_realises f m n F : (2 <= pdeg f <= 16)%N -> (forall i c, i < m -> c < n -> inF f (F i c)) ->
  exists A, mks f m n F = Ok A /\ sholds A f m n F.
Proof.
  intros Hf HF. destruct (mk_realises f m n F Hf HF) as (Z & E & (Z1 & Z2 & Z3 & Z4 & Z5)). unfold mks. rewrite E. cbn [bind].
  destruct (proj1 (wp_iff _ _) (mzed_slice_ok None Z Z1 Logic.I)) as (A & EA & (H1 & H2 & H3 & H4 & H5) & _). exists A. split; [exact EA|].
  split; [exact H1|]. repeat split; try congruence. intros i c Hi Hc. rewrite H5 by lia. now apply Z5.
Qed.

(** C35 *)
Theorem C35_slice : forall T Z, wf_mzed Z -> starget T (ff_minpoly (mz_ff Z)) (mz_nrows Z) (mz_ncols Z) ->
  exists A, mzed_slice T Z = Ok A /\ sholds A (ff_minpoly (mz_ff Z)) (mz_nrows Z) (mz_ncols Z) (entry Z) /\
    forall b i c, b < sl_depth A -> i < mz_nrows Z -> c < mz_ncols Z -> mbit (sx A b) i c = N.testbit (entry Z i c) (N.of_nat b).
Proof.
  intros T Z HZ HT. destruct (proj1 (wp_iff _ _) (mzed_slice_ok T Z HZ HT)) as (A & E & H & _). exists A. split; [exact E|]. split; [exact H|].
  intros b i c Hb Hi Hc. rewrite sbit by easy. f_equal. destruct H as (_ & _ & _ & _ & H). now apply H.
Qed.
Print Assumptions C35_slice.
(** a given target keeps everything outside its entries (it may be a window) *)
Theorem C35_slice_frame : forall T Z, wf_mzed Z -> starget (Some T) (ff_minpoly (mz_ff Z)) (mz_nrows Z) (mz_ncols Z) ->
  exists A, mzed_slice (Some T) Z = Ok A /\ sbecomes T A (entry Z).
Proof. intros T Z HZ HT. destruct (proj1 (wp_iff _ _) (mzed_slice_ok (Some T) Z HZ HT)) as (A & E & _ & B). eauto. Qed.
Print Assumptions C35_slice_frame.
Theorem C35_cling : forall T Z, wf_slice Z -> 2 <= sl_depth Z -> target T (ff_minpoly (sl_ff Z)) (sl_nrows Z) (sl_ncols Z) ->
  exists A, mzed_cling T Z = Ok A /\ holds A (ff_minpoly (sl_ff Z)) (sl_nrows Z) (sl_ncols Z) (sentry Z) /\
    match T with Some T => becomes T A (sentry Z) | None => True end.
Proof.
  intros T Z HZ H2 HT. destruct (proj1 (wp_iff _ _) (mzed_cling_ok T Z HZ H2 HT)) as (A & E & H & B). exists A. split; [exact E|]. split; [exact H|]. now destruct T.
Qed.
Print Assumptions C35_cling.
Theorem C35_roundtrip_packed : forall Z, wf_mzed Z -> exists A Z', mzed_slice None Z = Ok A /\ mzed_cling None A = Ok Z' /\
  holds Z' (ff_minpoly (mz_ff Z)) (mz_nrows Z) (mz_ncols Z) (entry Z).
Proof.
  intros Z HZ. destruct (C35_slice None Z HZ Logic.I) as (A & EA & (A1 & A2 & A3 & A4 & A5) & _).
  assert (H2 : 2 <= sl_depth A).
  { pose proof (wfs_deg A A1) as Q. rewrite A2 in Q. destruct HZ as ((_ & Dg & _) & Ww & _). destruct (degree_to_w_facts _ _ Ww) as (_ & _ & H2). lia. }
  destruct (C35_cling None A A1 H2 Logic.I) as (Z' & E & (B1 & B2 & B3 & B4 & B5) & _). exists A, Z'. split; [exact EA|]. split; [exact E|].
  split; [exact B1|]. repeat split; try congruence. intros i c Hi Hc. rewrite B5 by lia. apply A5; lia.
Qed.
Print Assumptions C35_roundtrip_packed.
Theorem C35_roundtrip_sliced : forall Z, wf_slice Z -> 2 <= sl_depth Z -> exists A Z', mzed_cling None Z = Ok A /\ mzed_slice None A = Ok Z' /\
  sholds Z' (ff_minpoly (sl_ff Z)) (sl_nrows Z) (sl_ncols Z) (sentry Z).
Proof.
  intros Z HZ H2. destruct (C35_cling None Z HZ H2 Logic.I) as (A & E & (B1 & B2 & B3 & B4 & B5) & _).
  destruct (C35_slice None A B1 Logic.I) as (Z' & EA & (A1 & A2 & A3 & A4 & A5) & _). exists A, Z'. split; [exact E|]. split; [exact EA|].
  split; [exact A1|]. repeat split; try congruence. intros i c Hi Hc. rewrite A5 by lia. apply B5; lia.
Qed.
Print Assumptions C35_roundtrip_sliced.
(** degree 7, 10 columns (two packed words); the slices are one word each *)
Example C35_witness :
  (A <- mk 0x83 2 10 (noise 37 11) ;; S <- mzed_slice None A ;; B <- mzed_cling None S ;;
   Ok (to_rows A, sl_rows S, to_rows B, map (fun x => nth 1 (mzd_rows x) []) (sl_x S))) =
  (let r := [[1; 12; 23; 34; 45; 56; 67; 78; 89; 100]; [38; 50; 62; 74; 86; 98; 110; 122; 6; 18]]%N in
   Ok (r, r, r, [[0]; [1023]; [341]; [204]; [662]; [231]; [248]]%N)).
Proof. vm_compute. reflexivity. Qed.
Example C35_witness16 :
  (A <- mk 0x211 1 5 (fun i j => N.of_nat (j * 97 + 100)) ;; S <- mzed_slice None A ;; B <- mzed_cling None S ;; Ok (sl_rows S, to_rows B)) =
  (let r := [[100; 197; 294; 391; 488]]%N in Ok (r, r)).
Proof. vm_compute. reflexivity. Qed.

(** C36: elements *)
Theorem C36_elements : forall A r c v, wf_slice A -> r < sl_nrows A -> c < sl_ncols A -> inF (ff_minpoly (sl_ff A)) v ->
  mzd_slice_read_elem A r c = Ok (sentry A r c) /\
  (exists A', mzd_slice_write_elem A r c v = Ok A' /\ sbecomes A A' (fun i j => if (i =? r) && (j =? c) then v else sentry A i j)) /\
  (exists A', mzd_slice_add_elem A r c v = Ok A' /\ sbecomes A A' (fun i j => if (i =? r) && (j =? c) then N.lxor (sentry A i j) v else sentry A i j)).
Proof.
  intros A r c v HA Hr Hc Hv. split; [now apply slice_read_elem_ok|]. split.
  - apply wp_iff. now apply slice_write_elem_ok.
  - apply wp_iff. now apply slice_add_elem_ok.
Qed.
Print Assumptions C36_elements.
Theorem C36_set_ui_copy_add : forall A B C v, wf_slice A -> wf_slice B -> ff_minpoly (sl_ff A) = ff_minpoly (sl_ff B) ->
  sl_nrows A = sl_nrows B -> sl_ncols A = sl_ncols B -> starget C (ff_minpoly (sl_ff A)) (sl_nrows A) (sl_ncols A) -> inF (ff_minpoly (sl_ff A)) v ->
  (exists A', mzd_slice_set_ui A v = Ok A' /\ sbecomes A A' (fun i c => if i =? c then v else 0%N)) /\
  (exists C', mzd_slice_copy C A = Ok C' /\ sholds C' (ff_minpoly (sl_ff A)) (sl_nrows A) (sl_ncols A) (sentry A)) /\
  (exists C', mzd_slice_add C A B = Ok C' /\ sholds C' (ff_minpoly (sl_ff A)) (sl_nrows A) (sl_ncols A) (madd (sentry A) (sentry B))).
Proof.
  intros A B C v HA HB Ef Er Ec HC Hv. split; [|split].
  - apply wp_iff. now apply slice_set_ui_ok.
  - destruct (proj1 (wp_iff _ _) (slice_copy_ok C A HA HC)) as (C' & E & H & _). eauto.
  - destruct (proj1 (wp_iff _ _) (slice_add_ok C A B HA HB Ef Er Ec HC)) as (C' & E & H & _). eauto.
Qed.
Print Assumptions C36_set_ui_copy_add.
Theorem C36_is_zero_cmp : forall A B, wf_slice A -> wf_slice B ->
  (mzd_slice_is_zero A = true <-> forall i c, i < sl_nrows A -> c < sl_ncols A -> sentry A i c = 0%N) /\
  exists r, mzd_slice_cmp A B = Ok r /\ (r = 0%Z <-> ff_minpoly (sl_ff A) = ff_minpoly (sl_ff B) /\ sl_nrows A = sl_nrows B /\ sl_ncols A = sl_ncols B /\
     forall i c, i < sl_nrows A -> c < sl_ncols A -> sentry A i c = sentry B i c).
Proof. intros A B HA HB. split; [now apply slice_is_zero_ok|now apply slice_cmp_ok]. Qed.
Print Assumptions C36_is_zero_cmp.
Theorem C36_rows_columns : forall A a b s t, wf_slice A ->
  (a < sl_nrows A -> b < sl_nrows A -> exists A', mzd_slice_row_swap A a b = Ok A' /\ sbecomes A A' (fun i c => sentry A (if i =? a then b else if i =? b then a else i) c)) /\
  (a < sl_nrows A -> b < sl_nrows A -> exists A', mzd_slice_row_add A a b = Ok A' /\ sbecomes A A' (fun i c => if i =? b then N.lxor (sentry A b c) (sentry A a c) else sentry A i c)) /\
  (a < sl_ncols A -> b < sl_ncols A -> exists A', mzd_slice_col_swap A a b = Ok A' /\ sbecomes A A' (fun i c => sentry A i (if c =? a then b else if c =? b then a else c))) /\
  (a < sl_ncols A -> b < sl_ncols A -> t <= sl_nrows A -> exists A', mzd_slice_col_swap_in_rows A a b s t = Ok A' /\
     sbecomes A A' (fun i c => sentry A i (if (s <=? i) && (i <? t) then (if c =? a then b else if c =? b then a else c) else c))).
Proof.
  intros A a b s t HA. split; [|split; [|split]]; intros.
  - apply wp_iff. now apply slice_row_swap_ok.
  - apply wp_iff. now apply slice_row_add_ok.
  - apply wp_iff. now apply slice_col_swap_ok.
  - apply wp_iff. now apply slice_col_swap_in_rows_ok.
Qed.
Print Assumptions C36_rows_columns.
Theorem C36_copy_row : forall B i A j, wf_slice A -> wf_slice B -> ff_minpoly (sl_ff A) = ff_minpoly (sl_ff B) -> i < sl_nrows B -> j < sl_nrows A -> sl_ncols A <= sl_ncols B ->
  exists B', mzd_slice_copy_row B i A j = Ok B' /\ sbecomes B B' (fun r c => if (r =? i) && (c <? sl_ncols A) then sentry A j c else sentry B r c).
Proof. intros. apply wp_iff. now apply slice_copy_row_ok. Qed.
Print Assumptions C36_copy_row.
Theorem C36_concat_stack_submatrix : forall C A B, wf_slice A -> wf_slice B -> ff_minpoly (sl_ff A) = ff_minpoly (sl_ff B) ->
  (sl_nrows A = sl_nrows B -> starget C (ff_minpoly (sl_ff A)) (sl_nrows A) (sl_ncols A + sl_ncols B) -> exists C', mzd_slice_concat C A B = Ok C' /\
     sholds C' (ff_minpoly (sl_ff A)) (sl_nrows A) (sl_ncols A + sl_ncols B) (fun i c => if c <? sl_ncols A then sentry A i c else sentry B i (c - sl_ncols A))) /\
  (sl_ncols A = sl_ncols B -> starget C (ff_minpoly (sl_ff A)) (sl_nrows A + sl_nrows B) (sl_ncols A) -> exists C', mzd_slice_stack C A B = Ok C' /\
     sholds C' (ff_minpoly (sl_ff A)) (sl_nrows A + sl_nrows B) (sl_ncols A) (fun i c => if i <? sl_nrows A then sentry A i c else sentry B (i - sl_nrows A) c)) /\
  (forall lr lc hr hc, lr <= hr <= sl_nrows A -> lc <= hc <= sl_ncols A -> starget C (ff_minpoly (sl_ff A)) (hr - lr) (hc - lc) -> exists C', mzd_slice_submatrix C A lr lc hr hc = Ok C' /\
     sholds C' (ff_minpoly (sl_ff A)) (hr - lr) (hc - lc) (fun i c => sentry A (lr + i) (lc + c))).
Proof.
  intros C A B HA HB Ef. split; [|split]; intros.
  - apply wp_iff. now apply slice_concat_ok.
  - apply wp_iff. now apply slice_stack_ok.
  - apply wp_iff. now apply slice_submatrix_ok.
Qed.
Print Assumptions C36_concat_stack_submatrix.
(** windows: column offsets are multiples of 64; an operation on the window changes exactly its entries *)
Theorem C36_window : forall A lr lc hr hc op G, wf_slice A -> lr <= hr <= sl_nrows A -> lc <= hc <= sl_ncols A -> lc mod 64 = 0 ->
  (forall W, wf_slice W -> sl_ff W = sl_ff A -> sl_nrows W = hr - lr -> sl_ncols W = hc - lc -> (forall i c, i < hr - lr -> c < hc - lc -> sentry W i c = sentry A (lr + i) (lc + c)) ->
     exists W', op W = Ok W' /\ sbecomes W W' G) ->
  exists A', on_swin A lr lc hr hc op = Ok A' /\ sbecomes A A' (fun i c => if (lr <=? i) && (i <? hr) && (lc <=? c) && (c <? hc) then G (i - lr) (c - lc) else sentry A i c).
Proof.
  intros A lr lc hr hc op G HA Hr Hc Ha Hop. apply wp_iff. eapply on_swin_ok; [apply sh_self; exact HA|lia|lia|exact Ha|].
  intros W (W1 & W2 & W3 & W4 & W5) Ef. apply wp_iff. now apply Hop.
Qed.
Print Assumptions C36_window.
Example C36_witness :
  (A <- mks 0xb 2 3 (noise 3 1) ;; B <- mzd_slice_write_elem A 1 2 7%N ;; B <- mzd_slice_row_add B 0 1 ;; C <- mzd_slice_concat None A B ;; v <- mzd_slice_read_elem C 1 5 ;;
   Ok (sl_rows A, sl_rows C, v)) = Ok ([[1; 2; 3]; [4; 6; 0]], [[1; 2; 3; 1; 2; 3]; [4; 6; 0; 5; 4; 4]], 4)%N.
Proof. vm_compute. reflexivity. Qed.

(** C37 *)
Theorem C37_addmul_karatsuba : forall C A B, wf_slice A -> wf_slice B -> ff_minpoly (sl_ff A) = ff_minpoly (sl_ff B) -> sl_ncols A = sl_nrows B ->
  starget C (ff_minpoly (sl_ff A)) (sl_nrows A) (sl_ncols B) ->
  exists C', mzd_slice_addmul_karatsuba_ C A B = Ok C' /\ sholds C' (ff_minpoly (sl_ff A)) (sl_nrows A) (sl_ncols B)
     (madd (match C with Some C => sentry C | None => mzero end) (mmul (ff_minpoly (sl_ff A)) (sl_ncols A) (sentry A) (sentry B))).
Proof. intros C A B HA HB Ef En HC. destruct (proj1 (wp_iff _ _) (slice_addmul_karatsuba_ok C A B HA HB Ef En HC)) as (C' & E & H & _). eauto. Qed.
Print Assumptions C37_addmul_karatsuba.
Lemma slice_mul_karatsuba_ok C A B : wf_slice A -> wf_slice B -> sfld A = sfld B -> sl_ncols A = sl_nrows B -> starget C (sfld A) (sl_nrows A) (sl_ncols B) ->
  wp (mzd_slice_mul_karatsuba C A B) (fun C' => sholds C' (sfld A) (sl_nrows A) (sl_ncols B) (mmul (sfld A) (sl_ncols A) (sentry A) (sentry B)) /\
    match C with Some C => sbecomes C C' (mmul (sfld A) (sl_ncols A) (sentry A) (sentry B)) | None => True end).
Proof.
  intros HA HB Ef En HC. unfold mzd_slice_mul_karatsuba. rewrite (proj2 (Nat.eqb_eq _ _) En), (proj2 (sl_same_ff_iff A B) Ef). cbn [andb check bind].
  destruct C as [C|].
  - pose proof HC as (C1 & C2 & C3 & C4). rewrite (proj2 (sl_same_ff_iff C A) C2), C3, C4, !Nat.eqb_refl. cbn [andb check bind].
    apply wp_bind. eapply wp_mono; [apply slice_set_ui_ok; [exact C1|]|].
    { unfold inF. apply N.neq_0_lt_0. now apply N.pow_nonzero. }
    cbv beta. intros C0 B0. pose proof (sb_wf _ _ _ B0) as W0. pose proof (sb_nr _ _ _ B0) as R0. pose proof (sb_nc _ _ _ B0) as N0. pose proof (sb_ff _ _ _ B0) as E4.
    eapply wp_mono; [apply (slice_addmul_karatsuba_ok (Some C0)); auto; split; [exact W0|]; rewrite E4; repeat split; congruence|].
    cbv beta. intros C' (K & Bc).
    assert (E : meq (sl_nrows A) (sl_ncols B) (madd (sentry C0) (mmul (sfld A) (sl_ncols A) (sentry A) (sentry B))) (mmul (sfld A) (sl_ncols A) (sentry A) (sentry B))).
    { intros i j Hi Hj. unfold madd. rewrite (sb_entry _ _ _ _ _ B0) by lia. destruct (i =? j); apply N.lxor_0_l. }
    split; [eapply sh_ext; [exact K|exact E]|]. eapply sb_step; [exact C1|exact B0|exact Bc|]. rewrite C3, C4. exact E.
  - eapply wp_mono; [apply (slice_addmul_karatsuba_ok None); auto|]. cbv beta. intros C' (K & _). split; [|exact Logic.I].
    eapply sh_ext; [exact K|]. intros i j Hi Hj. unfold madd, mzero. apply N.lxor_0_l.
Qed.
Lemma slice_addmul_ok C A B : wf_slice A -> wf_slice B -> wf_slice C -> sfld A = sfld B -> sl_ncols A = sl_nrows B -> sfld C = sfld A -> sl_nrows C = sl_nrows A -> sl_ncols C = sl_ncols B ->
  wp (mzd_slice_addmul (Some C) A B) (fun C' => sbecomes C C' (madd (sentry C) (mmul (sfld A) (sl_ncols A) (sentry A) (sentry B)))).
Proof.
  intros HA HB HC Ef En E1 E2 E3. unfold mzd_slice_addmul, mzd_slice_addmul_karatsuba. rewrite (proj2 (Nat.eqb_eq _ _) En), (proj2 (sl_same_ff_iff A B) Ef). cbn [andb check bind].
  rewrite (proj2 (sl_same_ff_iff C A) E1), E2, E3, !Nat.eqb_refl. cbn [andb check bind].
  eapply wp_mono; [apply (slice_addmul_karatsuba_ok (Some C)); auto; exact (conj HC (conj E1 (conj E2 E3)))|]. cbv beta. intros C' (_ & B'). exact B'.
Qed.
Theorem C37_mul : forall C A B, wf_slice A -> wf_slice B -> ff_minpoly (sl_ff A) = ff_minpoly (sl_ff B) -> sl_ncols A = sl_nrows B ->
  starget C (ff_minpoly (sl_ff A)) (sl_nrows A) (sl_ncols B) ->
  exists C', mzd_slice_mul C A B = Ok C' /\ sholds C' (ff_minpoly (sl_ff A)) (sl_nrows A) (sl_ncols B) (mmul (ff_minpoly (sl_ff A)) (sl_ncols A) (sentry A) (sentry B)).
Proof. intros C A B HA HB Ef En HC. destruct (proj1 (wp_iff _ _) (slice_mul_karatsuba_ok C A B HA HB Ef En HC)) as (C' & E & H & _). eauto. Qed.
Print Assumptions C37_mul.
Theorem C37_addmul : forall C A B, wf_slice A -> wf_slice B -> wf_slice C -> ff_minpoly (sl_ff A) = ff_minpoly (sl_ff B) -> sl_ncols A = sl_nrows B ->
  ff_minpoly (sl_ff C) = ff_minpoly (sl_ff A) -> sl_nrows C = sl_nrows A -> sl_ncols C = sl_ncols B ->
  exists C', mzd_slice_addmul (Some C) A B = Ok C' /\ sbecomes C C' (madd (sentry C) (mmul (ff_minpoly (sl_ff A)) (sl_ncols A) (sentry A) (sentry B))).
Proof. intros. apply wp_iff. now apply slice_addmul_ok. Qed.
Print Assumptions C37_addmul.
(** the packed interface: slice, multiply, cling *)
Theorem C37_packed_mul : forall C A B, wf_mzed A -> wf_mzed B -> ff_minpoly (mz_ff A) = ff_minpoly (mz_ff B) -> mz_ncols A = mz_nrows B ->
  target C (ff_minpoly (mz_ff A)) (mz_nrows A) (mz_ncols B) ->
  exists C', mzed_mul_karatsuba C A B = Ok C' /\ holds C' (ff_minpoly (mz_ff A)) (mz_nrows A) (mz_ncols B) (mmul (ff_minpoly (mz_ff A)) (mz_ncols A) (entry A) (entry B)).
Proof. intros C A B HA HB Ef En HC. destruct (proj1 (wp_iff _ _) (mzed_mul_karatsuba_ok C A B HA HB Ef En HC)) as (C' & E & H & _). eauto. Qed.
Print Assumptions C37_packed_mul.
Theorem C37_packed_addmul : forall C A B, wf_mzed A -> wf_mzed B -> wf_mzed C -> ff_minpoly (mz_ff A) = ff_minpoly (mz_ff B) -> mz_ncols A = mz_nrows B ->
  ff_minpoly (mz_ff C) = ff_minpoly (mz_ff A) -> mz_nrows C = mz_nrows A -> mz_ncols C = mz_ncols B ->
  exists C', mzed_addmul_karatsuba (Some C) A B = Ok C' /\ becomes C C' (madd (entry C) (mmul (ff_minpoly (mz_ff A)) (mz_ncols A) (entry A) (entry B))).
Proof. intros. apply wp_iff. now apply mzed_addmul_karatsuba_ok. Qed.
Print Assumptions C37_packed_addmul.
Example C37_witness :
  (A <- mk 0x13 2 3 (noise 3 1) ;; B <- mk 0x13 3 2 (noise 5 2) ;; C <- mzed_mul_karatsuba None A B ;; D <- mzed_addmul_karatsuba (Some C) A B ;;
   S <- mzed_slice None A ;; T <- mzed_slice None B ;; U <- mzd_slice_mul None S T ;;
   Ok (to_rows A, to_rows B, to_rows C, to_rows D, sl_rows U)) =
  Ok ([[1; 2; 3]; [4; 6; 8]], [[1; 3]; [6; 9]; [11; 15]], [[3; 0]; [4; 14]], [[0; 0]; [0; 0]], [[3; 0]; [4; 14]])%N.
Proof. vm_compute. reflexivity. Qed.

(** C38 *)
Theorem C38_addmul_naive : forall C A B, wf_slice A -> wf_slice B -> ff_minpoly (sl_ff A) = ff_minpoly (sl_ff B) -> sl_ncols A = sl_nrows B ->
  starget C (ff_minpoly (sl_ff A)) (sl_nrows A) (sl_ncols B) ->
  exists C', mzd_slice_addmul_naive_ C A B = Ok C' /\ sholds C' (ff_minpoly (sl_ff A)) (sl_nrows A) (sl_ncols B)
     (madd (match C with Some C => sentry C | None => mzero end) (mmul (ff_minpoly (sl_ff A)) (sl_ncols A) (sentry A) (sentry B))).
Proof. intros C A B HA HB Ef En HC. destruct (proj1 (wp_iff _ _) (slice_addmul_naive_ok C A B HA HB Ef En HC)) as (C' & E & H & _). eauto. Qed.
Print Assumptions C38_addmul_naive.
Example C38_witness :
  (A <- mks 0xb 2 2 (noise 3 1) ;; B <- mks 0xb 2 2 (noise 5 2) ;; C <- mzd_slice_addmul_naive_ (Some B) A B ;; Ok (sl_rows A, sl_rows B, sl_rows C)) =
  Ok ([[1; 2]; [4; 6]], [[1; 3]; [6; 1]], [[7; 2]; [0; 0]])%N.
Proof. vm_compute. reflexivity. Qed.

(** C39 *)
Theorem C39_scalar : forall C a B, wf_slice B -> wf_slice C -> ff_minpoly (sl_ff C) = ff_minpoly (sl_ff B) -> sl_nrows C = sl_nrows B -> sl_ncols C = sl_ncols B -> inF (ff_minpoly (sl_ff B)) a ->
  (exists C', mzd_slice_addmul_scalar C a B = Ok C' /\ sbecomes C C' (fun i c => N.lxor (sentry C i c) (fmul (ff_minpoly (sl_ff B)) a (sentry B i c)))) /\
  (exists C', mzd_slice_mul_scalar (Some C) a B = Ok C' /\ sholds C' (ff_minpoly (sl_ff B)) (sl_nrows B) (sl_ncols B) (fun i c => fmul (ff_minpoly (sl_ff B)) a (sentry B i c))) /\
  (exists C', mzd_slice_mul_scalar None a B = Ok C' /\ sholds C' (ff_minpoly (sl_ff B)) (sl_nrows B) (sl_ncols B) (fun i c => fmul (ff_minpoly (sl_ff B)) a (sentry B i c))).
Proof.
  intros C a B HB HC Ef Er Ec Ha. split; [|split].
  - apply wp_iff. now apply slice_addmul_scalar_ok.
  - apply wp_iff. apply slice_mul_scalar_ok; auto. exact (conj HC (conj Ef (conj Er Ec))).
  - apply wp_iff. apply slice_mul_scalar_ok; auto. exact Logic.I.
Qed.
Print Assumptions C39_scalar.
(** C == B: the result is zero whatever the scalar and the matrix, because B is cleared before it is read *)
Theorem C39_mul_scalar_alias_refuted : forall a B, wf_slice B -> exists B', mzd_slice_mul_scalar_alias a B = Ok B' /\
  forall i c, i < sl_nrows B -> c < sl_ncols B -> sentry B' i c = 0%N.
Proof.
  intros a B HB. apply wp_iff. unfold mzd_slice_mul_scalar_alias. apply wp_bind. eapply wp_mono; [apply slice_set_ui_ok; [exact HB|]|].
  { unfold inF. apply N.neq_0_lt_0. now apply N.pow_nonzero. }
  cbv beta. intros B0 H0. pose proof (sb_wf _ _ _ H0) as W0. pose proof (sb_nr _ _ _ H0) as R0. pose proof (sb_nc _ _ _ H0) as C0.
  assert (Z0 : forall i c, i < sl_nrows B0 -> c < sl_ncols B0 -> sentry B0 i c = 0%N).
  { intros i c Hi Hc. rewrite (sb_entry _ _ _ _ _ H0) by lia. now destruct (i =? c). }
  apply wp_bind. eapply wp_mono with (P := fun X => X = sl_x B0).
  - unfold scalar_loop_alias. apply (wp_for (fun _ X => X = sl_x B0)); [lia|reflexivity|]. intros i X _ ->. destruct (N.testbit a (N.of_nat i)); [|reflexivity].
    apply (wp_for (fun _ X => X = sl_x B0)); [lia|reflexivity|]. intros j X Hj ->. rewrite lget_sx by (auto; lia). cbn [bind].
    unfold ptr_add_modred. assert (Ez : mzd_is_zero (sx B0 j) = true); [|now rewrite Ez].
    apply is_zero_ok. intros i' k Hi Hk. pose proof W0 as (_ & _ & _ & W3). destruct (W3 j ltac:(lia)) as (_ & E1 & E2). rewrite sbit by lia. rewrite Z0 by lia. apply N.bits_0.
  - cbv beta. intros X ->. cbn [wp]. intros i c Hi Hc. unfold sentry, sx, sl_set_x. cbn [sl_x sl_depth]. apply Z0; lia.
Qed.
Print Assumptions C39_mul_scalar_alias_refuted.
Example C39_witness :
  (A <- mks 0xb 2 2 (noise 3 1) ;; B <- mzd_slice_mul_scalar None 3%N A ;; C <- mzd_slice_addmul_scalar A 3%N A ;; D <- mzd_slice_mul_scalar_alias 3%N A ;; Ok (sl_rows A, sl_rows B, sl_rows C, sl_rows D)) =
  Ok ([[1; 2]; [4; 6]], [[3; 6]; [7; 1]], [[2; 4]; [3; 7]], [[0; 0]; [0; 0]])%N.
Proof. vm_compute. reflexivity. Qed.

(** C40: true for row 0; undefined behaviour (out of bounds access) for every other row *)
Theorem C40_rescale_row : forall A c x, wf_slice A -> 2 <= sl_depth A -> 0 < sl_nrows A -> c < sl_ncols A -> inF (ff_minpoly (sl_ff A)) x ->
  exists A', mzd_slice_rescale_row A 0 c x = Ok A' /\
    sbecomes A A' (fun i j => if (i =? 0) && (c <=? j) then fmul (ff_minpoly (sl_ff A)) x (sentry A i j) else sentry A i j).
Proof.
  intros A c x HA H2 Hr Hc Hx. apply wp_iff. unfold mzd_slice_rescale_row. eapply wp_mono.
  - eapply (on_swin_ok A _ _ _ _ 0 0 1 (sl_ncols A) _ (fun i j => if c <=? j then fmul (sfld A) x (sentry A 0 j) else sentry A 0 j)); [apply sh_self; exact HA|lia|lia|reflexivity|].
    intros W (W1 & W2 & W3 & W4 & W5) Ef. pose proof W1 as (_ & D1 & _). pose proof HA as (_ & D2 & _). rewrite Ef in D1.
    apply wp_bind. eapply wp_mono; [apply (mzed_cling_ok None W W1); [lia|exact Logic.I]|]. cbv beta. intros We ((H1 & H3 & H4 & H5 & H6) & _).
    apply wp_bind. eapply wp_mono; [apply mzed_rescale_row_ok; [exact H1|congruence|lia|lia]|]. cbv beta. intros We' B.
    eapply wp_mono; [apply (mzed_slice_ok (Some W) We' (becomes_wf _ _ _ B)); split; [exact W1|]; rewrite (becomes_ff _ _ _ B), (becomes_nr _ _ _ B), (becomes_nc _ _ _ B); repeat split; congruence|].
    cbv beta. intros W' (_ & B'). eapply sb_ext; [exact B'|]. cbv beta. intros i j Hi Hj. rewrite (becomes_entry _ _ _ _ _ B) by lia.
    replace i with 0 by lia. cbn [Nat.eqb andb]. rewrite H3, W2. rewrite !H6 by lia. rewrite !W5 by lia. reflexivity.
  - cbv beta. intros A' B. eapply sb_ext; [exact B|]. cbv beta. intros i j Hi Hj. rewrite !Nat.sub_0_r. cbn [Nat.leb]. replace (j <? sl_ncols A) with true by lia.
    destruct (Nat.eqb_spec i 0) as [->|]; cbn [andb Nat.ltb]; [now destruct (c <=? j)|]. replace (i <? 1) with false by lia. reflexivity.
Qed.
Print Assumptions C40_rescale_row.
Theorem C40_rescale_row_refuted : forall A r c x, wf_slice A -> 2 <= sl_depth A -> 0 < r < sl_nrows A -> c < sl_ncols A -> mzd_slice_rescale_row A r c x = UB.
Proof.
  intros A r c x HA H2 Hr Hc. unfold mzd_slice_rescale_row, on_swin.
  destruct (proj1 (wp_iff _ _) (swin_ok A _ _ _ _ r 0 (r + 1) (sl_ncols A) (sh_self A HA) ltac:(lia) ltac:(lia) eq_refl)) as (W & EW & (W1 & W2 & W3 & W4 & W5) & Ef).
  rewrite EW. cbn [bind]. pose proof W1 as (_ & D1 & _). pose proof HA as (_ & D2 & _). rewrite Ef in D1.
  destruct (proj1 (wp_iff _ _) (mzed_cling_ok None W W1 ltac:(lia) Logic.I)) as (We & E & (H1 & H3 & H4 & H5 & H6) & _). rewrite E. cbn [bind].
  unfold mzed_rescale_row. replace (c <? mz_ncols We) with true by lia. cbn [guard bind].
  unfold lget. assert (L : nth_error (mzd_rows (mz_x We)) r = None) by (wfd H1; apply nth_error_None; lia). rewrite L. reflexivity.
Qed.
Print Assumptions C40_rescale_row_refuted.
Example C40_witness :
  (A <- mks 0xb 2 3 (noise 3 1) ;; B <- mzd_slice_rescale_row A 0 1 2%N ;; Ok (sl_rows A, sl_rows B)) = Ok ([[1; 2; 3]; [4; 6; 0]], [[1; 4; 6]; [4; 6; 0]])%N /\
  (A <- mks 0xb 2 3 (noise 3 1) ;; mzd_slice_rescale_row A 1 1 2%N) = UB.
Proof. split; vm_compute; reflexivity. Qed.
