(** Property C54: the product of matrices over GF(2)[x] by evaluation and interpolation over an extension field,
    [_mzd_poly_addmul_ext1], src/mzd_poly.c. *)
From Coq Require Import NArith ZArith Lia List Bool Arith.
From Coq Require Import ZifyBool ZifyNat ZifyN.
From Verif Require Import Base Spec LinSpec LaneFacts PolyFacts MatFacts Gf2xModel Gf2eModel Gf2eProofs IrrTable IrrProofs MzdModel MzedModel MzedSpec MzedProofs MzedOps MzedOps2 SliceModel SliceSpec MzdFacts SliceProofs SliceOps SliceMul KaraModel KaraProofs.
From Verif Require Import PolyMatModel PolyMatSpec PolyMatProofs PropPoly BlmModel BlmFG Ext1Model Ext1Facts Ext1Proofs.
Import ListNotations.
Local Open Scope nat_scope.

Lemma irrs_nonempty : forallb (fun l => 0 <? length (irrs l)) (seq 1 16) = true.
Proof. vm_cast_no_check (eq_refl true). Qed.
Lemma ext1_field d : 2 <= d -> Nat.log2_up d <= 16 -> exists ff, (p <- irr_read (Nat.log2_up d) 1 ;; gf2e_init p) = Ok ff /\ gf2e_wf ff /\ ff_degree ff = Nat.log2_up d /\
  pdeg (ff_minpoly ff) = N.of_nat (Nat.log2_up d) /\ irreducible (ff_minpoly ff).
Proof.
  intros H2 H16. set (l := Nat.log2_up d) in *. assert (H1 : 1 <= l) by (apply Nat.log2_up_lt_pow2; cbn; lia).
  destruct (irr_read_ok l 0 ltac:(lia)) as [_ E]. assert (Hn : 0 < length (irrs l)).
  { pose proof irrs_nonempty as K. rewrite forallb_forall in K. apply Nat.ltb_lt. apply K. apply in_seq. lia. }
  specialize (E Hn). cbn [Nat.add] in E. rewrite E. cbn [bind]. destruct (irrs_nth l 0 ltac:(lia) Hn) as [Hdeg Hirr].
  destruct (proj1 (wp_iff _ _) (gf2e_init_wf (nth 0 (irrs l) 0%N) ltac:(lia))) as (ff & Ef & E1 & E2 & E3). exists ff. rewrite E1. repeat (split; [auto; lia|]). exact Hirr.
Qed.
Lemma ext1_shape kk C A B ff : Nat.log2_up (mp_depth A + mp_depth B - 1) <= 16 -> (p <- irr_read (Nat.log2_up (mp_depth A + mp_depth B - 1)) 1 ;; gf2e_init p) = Ok ff ->
  mzd_poly_addmul_ext1 kk C A B = ext1_body kk ff (mp_depth A + mp_depth B - 1) C A B.
Proof.
  intros H16 E. unfold mzd_poly_addmul_ext1. replace (Nat.log2_up (mp_depth A + mp_depth B - 1) <=? 16) with true by lia. cbn [guard bind].
  destruct (irr_read _ 1) as [p| |]; try discriminate E. cbn [bind] in *. rewrite E. reflexivity.
Qed.

(** C <- C + A * B, every entry a polynomial product, when the result has at least 3 coefficients (at most 2^16) *)
Theorem C54_addmul_ext1 : forall kk C A B, wf_mpoly A -> wf_mpoly B -> mp_ncols A = mp_nrows B -> 1 <= mp_depth A -> 1 <= mp_depth B ->
  3 <= mp_depth A + mp_depth B - 1 -> Nat.log2_up (mp_depth A + mp_depth B - 1) <= 16 -> kk <= 7 -> ptarget (Some C) A B ->
  exists C', mzd_poly_addmul_ext1 kk (Some C) A B = Ok C' /\ padds (Some C) A B C'.
Proof.
  intros kk C A B HA HB En DA DB H3 H16 Hk HC. destruct (ext1_field (mp_depth A + mp_depth B - 1) ltac:(lia) H16) as (ff & E & Hwf & Hdeg & Hpd & Hirr).
  rewrite (ext1_shape kk (Some C) A B ff H16 E). apply wp_iff. destruct HC as (WC & RC & CC & DC).
  assert (Hl : 2 <= Nat.log2_up (mp_depth A + mp_depth B - 1)) by (apply (Nat.log2_up_lt_pow2 _ 1); cbn; lia).
  apply (body_ok (ff_minpoly ff) ff A B); auto; try lia.
  - rewrite Hpd. destruct (Nat.log2_up_spec (mp_depth A + mp_depth B - 1) ltac:(lia)) as [_ Hs]. assert (Hx : (2 ^ N.of_nat (Nat.log2_up (mp_depth A + mp_depth B - 1)) = N.of_nat (2 ^ Nat.log2_up (mp_depth A + mp_depth B - 1)))%N) by now rewrite Nat2N.inj_pow.
    rewrite Hx. apply N.leb_le. rewrite N.leb_compare, <- Nat2N.inj_compare, <- Nat.leb_compare. now apply Nat.leb_le.
Qed.
(** the function has no answer for the remaining sizes, or when it should allocate the result *)
Theorem C54_one_coefficient : forall kk C A B, mp_depth A + mp_depth B = 2 -> mzd_poly_addmul_ext1 kk C A B = UB.
Proof. intros kk C A B E. unfold mzd_poly_addmul_ext1. replace (mp_depth A + mp_depth B - 1) with 1 by lia. reflexivity. Qed.
Theorem C54_two_coefficients : forall kk C A B, mp_depth A + mp_depth B = 3 -> mzd_poly_addmul_ext1 kk C A B = Die.
Proof. intros kk C A B E. unfold mzd_poly_addmul_ext1. replace (mp_depth A + mp_depth B - 1) with 2 by lia. reflexivity. Qed.
Lemma bind_ub {X Y} (e : res X) (k1 k2 : X -> res Y) v : bind e k1 = Ok v -> (forall x, k1 x = Ok v -> k2 x = UB) -> bind e k2 = UB.
Proof. destruct e; cbn [bind]; try discriminate. auto. Qed.
Theorem C54_null_result : forall kk A B, wf_mpoly A -> wf_mpoly B -> mp_ncols A = mp_nrows B -> 1 <= mp_depth A -> 1 <= mp_depth B ->
  3 <= mp_depth A + mp_depth B - 1 -> Nat.log2_up (mp_depth A + mp_depth B - 1) <= 16 -> kk <= 7 ->
  mzd_poly_addmul_ext1 kk None A B = UB.
Proof.
  intros kk A B HA HB En DA DB H3 H16 Hk. set (C := mzd_poly_init (mp_depth A + mp_depth B - 1) (mp_nrows A) (mp_ncols B)).
  destruct (C54_addmul_ext1 kk C A B HA HB En DA DB H3 H16 Hk) as (C' & E & _); [split; [apply init_wf|repeat split; cbn; lia]|].
  revert E. unfold mzd_poly_addmul_ext1, ext1_body. cbv zeta. intros E.
  repeat (eapply bind_ub; [exact E|]; clear E; intros ? E). match goal with x : (_ * _ * _ * _)%type |- _ => destruct x as [[[Phi a] b] c] end. eapply bind_ub; [exact E|]. reflexivity.
Qed.
Theorem C54_total_refuted :
  ~ (forall kk C A B, wf_mpoly A -> wf_mpoly B -> mp_ncols A = mp_nrows B -> 1 <= mp_depth A -> 1 <= mp_depth B -> Nat.log2_up (mp_depth A + mp_depth B - 1) <= 16 -> kk <= 7 -> ptarget (Some C) A B ->
       exists C', mzd_poly_addmul_ext1 kk (Some C) A B = Ok C' /\ padds (Some C) A B C').
Proof.
  intros H. destruct (H 0 (mzd_poly_init 1 1 1) (mzd_poly_init 0 1 1) (mzd_poly_init 1 1 1)) as (C' & E & _); try apply init_wf; try (cbn; lia).
  - split; [apply init_wf|]. split; [reflexivity|]. split; [reflexivity|]. apply le_n.
  - rewrite C54_two_coefficients in E by reflexivity. discriminate E.
Qed.

(** ** a concrete case: 4 and 3 coefficients, 2x3 times 3x2, added to a non-zero C *)
Definition ext1_demo : res (list (list N) * list (list N)) :=
  A <- demo_poly 3 2 3 (fun i c => N.of_nat (3 * i + 2 * c + 1)) ;;
  B <- demo_poly 2 3 2 (fun i c => N.of_nat (i + 2 * c)) ;;
  C <- demo_poly 5 2 2 (fun i c => N.of_nat (7 * i + c + 16)) ;;
  C' <- mzd_poly_addmul_ext1 3 (Some C) A B ;;
  let want := map (fun i => map (fun c => N.lxor (pentry C i c) (pmmul 3 (pentry A) (pentry B) i c)) (seq 0 2)) (seq 0 2) in
  Ok (rows_of C', want).
Example C54_witness : match ext1_demo with Ok (got, want) => got = want /\ got <> [[16; 17]; [23; 24]]%N | _ => False end.
Proof. vm_compute. split; [reflexivity|discriminate]. Qed.

Print Assumptions C54_addmul_ext1.
Print Assumptions C54_one_coefficient.
Print Assumptions C54_two_coefficients.
Print Assumptions C54_null_result.
Print Assumptions C54_total_refuted.
