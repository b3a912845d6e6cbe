(** The multiplication dispatchers compute the product. *)
From Coq Require Import NArith ZArith Lia List Bool Arith.
From Coq Require Import ZifyBool ZifyNat ZifyN.
From Verif Require Import Base Spec LinSpec PolyFacts MatFacts Gf2xModel Gf2eModel Gf2eProofs.
From Verif Require Import MzdModel MzedModel MzedSpec LaneFacts MzedProofs MzedOps MzedOps2 NjModel NjMul StrassenModel StrassenProofs StrassenMain.
From Verif Require Import SliceModel SliceSpec KaraModel ConvModel ConvCling MulModel.
Import ListNotations.
Local Open Scope nat_scope.

Lemma strassen_cutoff_ok l2 A : wf_mzed A -> (4096 <= l2)%Z -> (3 * Z.of_nat (per (mz_w A)) <= 2 * mzed_strassen_cutoff l2 A)%Z.
Proof.
  intros HA Hl. pose proof HA as ((_ & Dg & _) & Ww & _). unfold mzed_strassen_cutoff. set (e := ff_degree (mz_ff A)) in *.
  assert (S2 : (64 <= Z.sqrt (4 * l2) / 2)%Z).
  { change 64%Z with (Z.sqrt (4 * 4096) / 2)%Z. apply Z.div_le_mono; [lia|]. apply Z.sqrt_le_mono. lia. }
  revert Ww. unfold gf2e_degree_to_w. fold e. intros Ww.
  assert (K : e = 2 /\ mz_w A = 2 \/ (e = 3 \/ e = 4) /\ mz_w A = 4 \/ 5 <= e <= 8 /\ mz_w A = 8 \/ 9 <= e <= 16 /\ mz_w A = 16).
  { revert Ww. clear -e. do 17 (try (destruct e as [|e]; [cbn; intros E; try discriminate; inversion E; lia|])). cbn. discriminate. }
  destruct K as [(-> & Ew)|[(Ee & Ew)|[(Ee & Ew)|(Ee & Ew)]]]; rewrite Ew; unfold per.
  - change (64 / 2) with 32. change (2 =? 2) with true. cbn iota. destruct (Z.ltb_spec (Z.min (Z.sqrt (4 * l2) / 2) 4096) (2 * 2 ^ Z.of_nat 2)); lia.
  - change (64 / 4) with 16. replace (e =? 2) with false by lia. replace ((3 <=? e) && (e <=? 8)) with true by lia.
    assert (S4 : (64 <= Z.sqrt (4 * l2 / Z.of_nat 4))%Z).
    { change 64%Z with (Z.sqrt (4 * 4096 / 4))%Z. apply Z.sqrt_le_mono. change (Z.of_nat 4) with 4%Z. apply Z.div_le_mono; lia. }
    destruct (Z.ltb_spec (Z.min (Z.sqrt (4 * l2 / Z.of_nat 4)) 4096) (2 * 2 ^ Z.of_nat e)); lia.
  - change (64 / 8) with 8. replace (e =? 2) with false by lia. replace ((3 <=? e) && (e <=? 8)) with true by lia.
    assert (P : (2 ^ 5 <= 2 ^ Z.of_nat e)%Z) by (apply Z.pow_le_mono_r; lia). change (2 ^ 5)%Z with 32%Z in P.
    destruct (Z.ltb_spec (Z.min (Z.sqrt (4 * l2 / Z.of_nat 8)) 4096) (2 * 2 ^ Z.of_nat e)); lia.
  - change (64 / 16) with 4. assert (P : (2 ^ 9 <= 2 ^ Z.of_nat e)%Z) by (apply Z.pow_le_mono_r; lia). change (2 ^ 9)%Z with 512%Z in P.
    match goal with |- context [if (?a <? ?b)%Z then _ else _] => destruct (Z.ltb_spec a b) end; lia.
Qed.

Lemma mzed_mul_in_ok mulbs l2 C A B : 16 <= mulbs -> (4096 <= l2)%Z -> wf_mzed A -> wf_mzed B -> wf_mzed C ->
  fld A = fld B -> fld C = fld A -> mz_ncols A = mz_nrows B -> mz_nrows C = mz_nrows A -> mz_ncols C = mz_ncols B -> 0 < mz_ncols B ->
  wp (mzed_mul_ mulbs l2 C A B) (fun C' => becomes C C'
     (if mul_big A B then madd (entry C) (mmul (fld A) (mz_ncols A) (entry A) (entry B)) else mmul (fld A) (mz_ncols A) (entry A) (entry B))).
Proof.
  intros Hb Hl HA HB HC Ef Ec En E1 E2 Hn. unfold mzed_mul_. destruct (mul_big A B) eqn:Eb.
  - eapply wp_mono; [apply (mzed_addmul_karatsuba_in_ok (Some C)); auto; exact (conj HC (conj Ec (conj E1 E2)))|]. cbv beta. now intros C' (_ & H).
  - assert (KA := holds_self A HA). assert (KB := holds_self B HB). assert (KC := holds_self C HC). rewrite <- Ef, <- En in KB. rewrite Ec, E1, E2 in KC.
    apply (mul_strassen_ok mulbs (mzed_strassen_cutoff l2 A) Hb _ C A B _ _ _ _ _ _ _ (Nat.lt_succ_diag_r _) Hn (strassen_cutoff_ok l2 A HA Hl) KC KA KB).
Qed.
Lemma mzed_addmul_in_ok mulbs l2 C A B : 16 <= mulbs -> (4096 <= l2)%Z -> wf_mzed A -> wf_mzed B -> wf_mzed C ->
  fld A = fld B -> fld C = fld A -> mz_ncols A = mz_nrows B -> mz_nrows C = mz_nrows A -> mz_ncols C = mz_ncols B -> 0 < mz_ncols B ->
  wp (mzed_addmul_ mulbs l2 C A B) (fun C' => becomes C C' (madd (entry C) (mmul (fld A) (mz_ncols A) (entry A) (entry B)))).
Proof.
  intros Hb Hl HA HB HC Ef Ec En E1 E2 Hn. unfold mzed_addmul_. destruct (mul_big A B) eqn:Eb.
  - eapply wp_mono; [apply (mzed_addmul_karatsuba_in_ok (Some C)); auto; exact (conj HC (conj Ec (conj E1 E2)))|]. cbv beta. now intros C' (_ & H).
  - assert (KA := holds_self A HA). assert (KB := holds_self B HB). assert (KC := holds_self C HC). rewrite <- Ef, <- En in KB. rewrite Ec, E1, E2 in KC.
    apply (addmul_strassen_ok mulbs (mzed_strassen_cutoff l2 A) Hb _ C A B _ _ _ _ _ _ _ (Nat.lt_succ_diag_r _) Hn (strassen_cutoff_ok l2 A HA Hl) KC KA KB).
Qed.
