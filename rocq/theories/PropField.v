(** Property theorems C01-C10: words, polynomials over GF(2) and field handles. *)
From Coq Require Import NArith Lia List Bool Arith.
From Coq Require Import ZifyBool ZifyNat ZifyN.
From Verif Require Import Base Spec PolyFacts Gf2xModel Gf2xProofs Gf2eModel Gf2eProofs IrrTable IrrProofs.
Import ListNotations.
Local Open Scope N_scope.

(** C01 *)
Theorem C01_gf2x_mul : forall (a b : N) (d : nat) (m : N),
  ((1 <= d <= 32)%nat -> a < 2 ^ N.of_nat d -> b < 2 ^ m -> m + N.of_nat d <= 65 ->
     exists p, gf2x_mul a b d = Ok p /\ p < 2 ^ 64 /\
       forall k : nat, N.testbit p (N.of_nat k) =
         bxsum (S k) (fun i => N.testbit a (N.of_nat i) && N.testbit b (N.of_nat (k - i)))) /\
  (~ (1 <= d <= 32)%nat -> gf2x_mul a b d = Die).
Proof.
  intros a b d m. split.
  - intros Hd Ha Hb Hm. exists (pmul a b). split; [now apply (gf2x_mul_correct a b d m)|].
    split; [|intros; apply pmul_coeff].
    eapply N.lt_le_trans; [apply (pmul_lt_pow2 a b (N.of_nat d) m Ha Hb); lia|].
    apply N.pow_le_mono_r; lia.
  - apply gf2x_mul_dies.
Qed.
Print Assumptions C01_gf2x_mul.
Example C01_witness : gf2x_mul 0xdeadbeef 0xcafebabe 32 = Ok (pmul 0xdeadbeef 0xcafebabe)
  /\ gf2x_mul 3 3 2 = Ok 5 /\ gf2x_mul 1 1 33 = Die.
Proof. vm_compute. auto. Qed.

(** C02 *)
Theorem C02_gf2x_deg : forall a : N, a < 2 ^ 64 ->
  (a = 0 -> gf2x_deg a = 0%nat) /\
  (a <> 0 -> N.testbit a (N.of_nat (gf2x_deg a)) = true /\
     forall k, N.of_nat (gf2x_deg a) < k -> N.testbit a k = false).
Proof.
  intros a Ha. rewrite gf2x_deg_spec by easy. unfold pdeg. split.
  - now intros ->.
  - intros H. rewrite Nnat.N2Nat.id. split; [now apply N.bit_log2|intros; now apply N.bits_above_log2].
Qed.
Print Assumptions C02_gf2x_deg.
Example C02_witness : gf2x_deg 0xffffffffffffffff = 63%nat /\ gf2x_deg 0x100000000 = 32%nat.
Proof. vm_compute. auto. Qed.

(** C03 *)
Theorem C03_gf2x_divmod : forall a b : N, a < 2 ^ 64 -> b < 2 ^ 64 -> b <> 0 ->
  exists q r, gf2x_divmod a b = (q, r) /\ gf2x_div a b = q /\ gf2x_mod a b = r /\
    is_divmod a b q r /\
    (forall q' r', is_divmod a b q' r' -> q' = q /\ r' = r).
Proof.
  intros a b Ha Hb Hb0. exists (gf2x_div a b), (gf2x_mod a b).
  pose proof (gf2x_divmod_correct a b Ha Hb Hb0) as H.
  rewrite gf2x_mod_divmod. unfold gf2x_div.
  split; [apply surjective_pairing|]. split; [easy|]. split; [easy|]. split; [easy|].
  intros q' r' H'. now apply (divmod_unique a b q' r').
Qed.
Print Assumptions C03_gf2x_divmod.
Example C03_witness : gf2x_divmod 0xffffffffffffffff 0x11b = (gf2x_div 0xffffffffffffffff 0x11b, gf2x_mod 0xffffffffffffffff 0x11b)
  /\ gf2x_mod 0xffffffffffffffff 0x11b = 205 /\ gf2x_div 0xff 0x11b = 0.
Proof. vm_compute. auto. Qed.

(** C04 *)
Theorem C04_gf2x_invmod : forall (f a : N) (e : nat),
  irreducible f -> pdeg f = N.of_nat e -> (2 <= e <= 16)%nat -> a < 2 ^ N.of_nat e -> a <> 0 ->
  exists b, gf2x_invmod a f e = Ok b /\ b < 2 ^ N.of_nat e /\ pmod (pmul a b) f = 1.
Proof.
  intros f a e Hirr He Hr Ha Ha0. rewrite <- He in *.
  apply (gf2x_invmod_correct f e a Hirr He); [lia|exact Ha|exact Ha0].
Qed.
Print Assumptions C04_gf2x_invmod.
Example C04_witness : irreducible 0x11b /\ gf2x_invmod 0x53 0x11b 8 = Ok 0xca.
Proof. split; [|vm_compute; reflexivity]. apply irrb_spec; [lia|cbv; discriminate|vm_compute; reflexivity]. Qed.

(** C05 *)
Theorem C05_gf2e_init_tables : forall f : N, 2 <= pdeg f <= 16 ->
  exists ff, gf2e_init f = Ok ff /\
    let e := ff_degree ff in
    N.of_nat e = pdeg f /\ ff_minpoly ff = f /\
    (* red *)
    length (ff_red ff) = (2 ^ e)%nat /\
    (forall h, h < 2 ^ N.of_nat e ->
       let r := nth (N.to_nat h) (ff_red ff) 0 in
       (exists q, r = pmul q f) /\ N.shiftr r (N.of_nat e) = h /\
       (forall r', (exists q, r' = pmul q f) -> N.shiftr r' (N.of_nat e) = h -> r' = r)) /\
    (* pow_gen *)
    length (ff_pow_gen ff) = (2 * e - 1)%nat /\
    (forall i, (i < 2 * e - 1)%nat -> nth i (ff_pow_gen ff) 0 = pmod (ppow 2 i) f) /\
    (* multiplication table *)
    ((e <= 8)%nat <-> ff_tab ff <> None) /\
    (forall tab, ff_tab ff = Some tab ->
       forall a b, a < 2 ^ N.of_nat e -> b < 2 ^ N.of_nat e ->
         nth_error tab (N.to_nat a) <> None /\
         nth_error (nth (N.to_nat a) tab []) (N.to_nat b) = Some (pmod (pmul a b) f)).
Proof.
  intros f Hf. pose proof (gf2e_init_wf f ltac:(lia)) as H. apply wp_iff in H.
  destruct H as (ff & E & Em & Ed & Hwf). exists ff. split; [exact E|].
  destruct Hwf as (He & Hd & [Hp1 Hp2] & Hr & Ht). rewrite Em in *. cbv zeta.
  split; [easy|]. split; [easy|]. destruct Hr as [Hr1 Hr2].
  assert (f0 : f <> 0) by (intros ->; cbn in Hf; lia).
  split; [easy|]. split.
  { intros h Hh. destruct (Hr2 h Hh) as [(q & _ & Eq) Et]. split; [now exists q|]. split; [easy|].
    intros r' [q' Eq'] Et'. rewrite Eq, Eq'. f_equal.
    rewrite Eq in Et. rewrite Eq' in Et'.
    now apply (top_mul_inj f (ff_degree ff) Hd He); rewrite Et, Et'. }
  split; [easy|]. split; [easy|]. destruct (ff_tab ff) as [tab|].
  - destruct Ht as (H8 & Hlen & Htab). split; [split; [easy|lia]|].
    intros tab' [= <-] a b Ha Hb. destruct (Htab a Ha) as [L1 L2].
    rewrite <- pow_nat_N in Ha, Hb. split.
    + apply nth_error_Some. lia.
    + rewrite (nth_error_nth' _ 0) by lia. f_equal. apply L2. now rewrite <- pow_nat_N.
  - split; [split; [lia|easy]|]. easy.
Qed.
Print Assumptions C05_gf2e_init_tables.
Example C05_witness : match gf2e_init 7 with
  | Ok ff => ff_degree ff = 2%nat /\ ff_red ff = [0; 7; 9; 14] /\ ff_pow_gen ff = [1; 2; 3] /\
     ff_tab ff = Some [[0;0;0;0];[0;1;2;3];[0;2;3;1];[0;3;1;2]]
  | _ => False end.
Proof. vm_compute. auto. Qed.

(** C06 *)
Theorem C06_ff_mul : forall f : N, 2 <= pdeg f <= 16 ->
  exists ff, gf2e_init f = Ok ff /\
    forall a b, a < 2 ^ pdeg f -> b < 2 ^ pdeg f -> gf2e_mul ff a b = Ok (pmod (pmul a b) f).
Proof.
  intros f Hf. pose proof (gf2e_init_wf f ltac:(lia)) as H. apply wp_iff in H.
  destruct H as (ff & E & Em & Ed & Hwf). exists ff. split; [exact E|].
  intros a b Ha Hb. subst f. now apply gf2e_mul_ok.
Qed.
Print Assumptions C06_ff_mul.
Example C06_witness : match gf2e_init 0x13 with Ok ff => gf2e_mul ff 9 14 = Ok 7 | _ => False end.
Proof. vm_compute. auto. Qed.

(** C07 *)
Theorem C07_field_laws : forall f : N, irreducible f -> 2 <= pdeg f <= 16 ->
  exists ff, gf2e_init f = Ok ff /\
  exists mul inv : N -> N -> N,      (* inv is used with its first argument only *)
    (forall a b, a < 2 ^ pdeg f -> b < 2 ^ pdeg f -> gf2e_mul ff a b = Ok (mul a b) /\ mul a b < 2 ^ pdeg f) /\
    (forall a, a < 2 ^ pdeg f -> a <> 0 -> gf2e_inv ff a = Ok (inv a 0) /\ inv a 0 < 2 ^ pdeg f) /\
    (forall a b c, a < 2 ^ pdeg f -> b < 2 ^ pdeg f -> c < 2 ^ pdeg f ->
       mul a b = mul b a /\ mul a (mul b c) = mul (mul a b) c /\
       mul a (N.lxor b c) = N.lxor (mul a b) (mul a c) /\
       mul 1 a = a /\ N.lxor a b < 2 ^ pdeg f /\
       (a <> 0 -> mul a (inv a 0) = 1) /\
       (mul a b = 0 -> a = 0 \/ b = 0)).
Proof.
  intros f Hirr Hf. pose proof (gf2e_init_wf f ltac:(lia)) as H. apply wp_iff in H.
  destruct H as (ff & E & Em & Ed & Hwf). exists ff. split; [exact E|].
  assert (f0 : f <> 0) by now apply irreducible_no_factor.
  exists (fmul f), (fun a _ => match gf2e_inv ff a with Ok b => b | _ => 0 end).
  subst f. split; [|split].
  - intros a b Ha Hb. split; [now apply gf2e_mul_ok|now apply fmul_lt].
  - intros a Ha Ha0. destruct (gf2e_inv_ok ff a Hwf Hirr Ha Ha0) as (b & -> & Hb & _). auto.
  - intros a b c Ha Hb Hc. split; [apply fmul_comm|]. split; [now apply fmul_assoc|].
    split; [now apply fmul_lxor_r|]. split; [now apply fmul_1_l|].
    split; [now apply lxor_lt_pow2|]. split.
    + intros Ha0. destruct (gf2e_inv_ok ff a Hwf Hirr Ha Ha0) as (b' & -> & _ & H). exact H.
    + intros H. now apply (fmul_zero_div (ff_minpoly ff)).
Qed.
Print Assumptions C07_field_laws.
Theorem C07_reducible_not_field : forall f : N, ~ irreducible f -> 2 <= pdeg f <= 16 ->
  exists ff a b, gf2e_init f = Ok ff /\ a < 2 ^ pdeg f /\ b < 2 ^ pdeg f /\ a <> 0 /\ b <> 0 /\
    gf2e_mul ff a b = Ok 0.
Proof.
  intros f Hn Hf. pose proof (gf2e_init_wf f ltac:(lia)) as H. apply wp_iff in H.
  destruct H as (ff & E & Em & Ed & Hwf).
  assert (f0 : f <> 0) by (intros ->; cbn in Hf; lia).
  assert (H2 : 2 <= f) by (apply pdeg_ge1; lia).
  assert (Hb : irrb f = false).
  { destruct (irrb f) eqn:Eb; [|easy]. apply irrb_spec in Eb; [easy|easy|lia]. }
  unfold irrb in Hb.
  assert (Hex : exists p, In p trial /\ (pdeg f <? 2 * pdeg p) || negb (pmod f p =? 0) = false).
  { revert Hb. generalize trial as l. induction l as [|p l IH]; cbn [forallb]; [easy|]. intros H.
    apply andb_false_iff in H. destruct H as [H|H]; [exists p; cbn; auto|].
    destruct (IH H) as (q & Hq & Eq). exists q; cbn; auto. }
  destruct Hex as (p & Hp & Ep). apply orb_false_iff in Ep. destruct Ep as [E1 E2].
  apply trial_gt1 in Hp. assert (Hpm : pmod f p = 0) by lia.
  apply pmod_divides in Hpm; [|lia]. destruct Hpm as [q Eq].
  destruct (factor_nz f q p (eq_sym Eq) f0) as [Hq0 Hp0].
  pose proof (pdeg_pmul q p Hq0 Hp0) as D. rewrite <- Eq in D.
  apply pdeg_ge1 in Hp.
  assert (Lq : q < 2 ^ pdeg f) by (apply N.log2_lt_pow2; unfold pdeg in *; lia).
  assert (Lp : p < 2 ^ pdeg f) by (apply N.log2_lt_pow2; unfold pdeg in *; lia).
  exists ff, q, p. repeat split; try easy.
  subst f. rewrite gf2e_mul_ok; [|easy|exact Lq|exact Lp]. unfold fmul. rewrite <- Eq.
  f_equal. apply pmod_divides; [easy|]. exists 1. now rewrite pmul_1_l.
Qed.
Print Assumptions C07_reducible_not_field.
Example C07_witness : irreducible 0x1002b /\ pdeg 0x1002b = 16 /\ ~ irreducible 6.
Proof.
  split; [apply irrb_spec; [lia|cbv; discriminate|vm_compute; reflexivity]|]. split; [reflexivity|].
  intros [_ H]. destruct (H 2 3 eq_refl); discriminate.
Qed.

(** C08 *)
Theorem C08_irreducible_table : forall d : nat, (1 <= d <= 16)%nat ->
  exists l, nth d irreducible_polynomials [] = N.of_nat (length l) :: l /\ NoDup l /\
    forall f, In f l <-> (pdeg f = N.of_nat d /\ irreducible f).
Proof. exact irreducible_table_correct. Qed.
Print Assumptions C08_irreducible_table.
Example C08_witness : nth 4 irreducible_polynomials [] = [3; 0x13; 0x19; 0x1f].
Proof. reflexivity. Qed.

(** C09 *)
Theorem C09_degree_to_w : forall ff : gf2e,
  ((2 <= ff_degree ff <= 16)%nat ->
   exists w, gf2e_degree_to_w ff = Ok w /\ (w = 2 \/ w = 4 \/ w = 8 \/ w = 16)%nat /\
    (ff_degree ff <= w)%nat /\
    (forall v, (v = 2 \/ v = 4 \/ v = 8 \/ v = 16)%nat -> (ff_degree ff <= v)%nat -> (w <= v)%nat)) /\
  (~ (2 <= ff_degree ff <= 16)%nat -> gf2e_degree_to_w ff = Die).
Proof. intros ff. split; [apply gf2e_degree_to_w_ok|apply gf2e_degree_to_w_dies]. Qed.
Print Assumptions C09_degree_to_w.

(** C10: correct when elements fill their slot (degree 2, 4, 8) ... *)
Theorem C10_t16_init : forall (f a : N), (pdeg f = 2 \/ pdeg f = 4 \/ pdeg f = 8) -> a < 2 ^ pdeg f ->
  exists ff T, gf2e_init f = Ok ff /\ gf2e_t16_init ff a = Ok T /\ length T = (2 ^ 16)%nat /\
    forall x, x < 2 ^ 16 ->
      nth (N.to_nat x) T 0 < 2 ^ 16 /\
      forall k, (k < 16 / N.to_nat (pdeg f))%nat ->
        lane (N.to_nat (pdeg f)) (nth (N.to_nat x) T 0) k =
        pmod (pmul a (lane (N.to_nat (pdeg f)) x k)) f.
Proof.
  intros f a Hf Ha. pose proof (gf2e_init_wf f ltac:(lia)) as H. apply wp_iff in H.
  destruct H as (ff & E & Em & Ed & Hwf).
  pose proof (gf2e_t16_init_ok ff a Hwf) as HT. subst f.
  specialize (HT ltac:(lia) Ha). apply wp_iff in HT. destruct HT as (T & ET & HL & HT).
  exists ff, T. split; [easy|]. split; [easy|]. split; [easy|]. rewrite <- Ed, Nnat.Nat2N.id. exact HT.
Qed.
Print Assumptions C10_t16_init.
(** ... and out of bounds for every field of degree 3, 5, 6, 7 and every scalar: the claim
    "tabulates scalar multiplication for every field of degree <= 8" is false of the code. *)
Theorem C10_t16_init_refuted : forall (f a : N),
  (pdeg f = 3 \/ pdeg f = 5 \/ pdeg f = 6 \/ pdeg f = 7) -> a < 2 ^ pdeg f ->
  exists ff, gf2e_init f = Ok ff /\ gf2e_t16_init ff a = UB.
Proof.
  intros f a Hf Ha. pose proof (gf2e_init_wf f ltac:(lia)) as H. apply wp_iff in H.
  destruct H as (ff & E & Em & Ed & Hwf). exists ff. split; [easy|]. subst f.
  apply gf2e_t16_init_oob; [easy|lia|exact Ha].
Qed.
Print Assumptions C10_t16_init_refuted.
Example C10_witness : pdeg 0x1b = 4 /\ pdeg 0xb = 3 /\ (5 < 2 ^ pdeg 0xb).
Proof. cbv. auto. Qed.
