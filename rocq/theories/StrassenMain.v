(** Correctness of Strassen multiplication (C23): the recursion. *)
From Coq Require Import NArith ZArith Lia List Bool Arith.
From Coq Require Import Btauto ZifyBool ZifyNat ZifyN.
From Verif Require Import Base Spec LinSpec PolyFacts MatFacts Gf2xModel Gf2eModel Gf2eProofs.
From Verif Require Import MzdModel MzedModel MzedSpec LaneFacts MzedProofs MzedOps MzedOps2 NjModel NjTable NjMul StrassenModel StrassenProofs.
Import ListNotations.
Local Open Scope nat_scope.

(** ** one level of the recursion *)
Ltac bind_ H := apply wp_bind; eapply wp_mono; [apply H|cbv beta].
Ltac xorb_solve := apply N.bits_inj; intro; rewrite ?N.lxor_spec, ?N.bits_0; btauto.
Ltac add_ HT HX HY T' HT' :=
  match type of HT with holds ?T ?f ?m ?n _ => match type of HX with holds ?X _ _ _ _ => match type of HY with holds ?Y _ _ _ _ =>
    apply wp_bind; eapply wp_mono; [apply (add_h T X Y f m n _ _ _ HT HX HY)|cbv beta];
    let B := fresh "B" in intros T' B; pose proof (holds_becomes _ _ _ _ _ _ _ HT B) as HT'; clear B end end end.
Lemma madd_at A B i j : madd A B i j = N.lxor (A i j) (B i j). Proof. reflexivity. Qed.
Ltac xall f0 := rewrite ?madd_at; repeat (rewrite ?(fun l A X B i j => mmul_add_l _ l A X B i j f0), ?(fun l A X B i j => mmul_add_r _ l A X B i j f0)); xorb_solve.
Lemma mmul_2 f kk FA FB a b i j mm nn :
  mmul f (2 * kk) FA FB ((if a : bool then mm else 0) + i) ((if b : bool then nn else 0) + j) =
  N.lxor (mmul f kk (quads_of FA mm kk a false) (quads_of FB kk nn false b) i j)
         (mmul f kk (quads_of FA mm kk a true) (quads_of FB kk nn true b) i j).
Proof. replace (2 * kk) with (kk + kk) by lia. rewrite mmul_split. unfold mmul, quads_of, sub. f_equal. Qed.
Lemma bulk_index mm nn i j : i < 2 * mm -> j < 2 * nn -> exists r s i' j', i' < mm /\ j' < nn /\
  i = (if r : bool then mm else 0) + i' /\ j = (if s : bool then nn else 0) + j'.
Proof.
  intros Hi Hj. exists (mm <=? i), (nn <=? j), (if mm <=? i then i - mm else i), (if nn <=? j then j - nn else j).
  destruct (Nat.leb_spec mm i), (Nat.leb_spec nn j); lia.
Qed.

Section Main.
Variables (mulbs : nat) (cutoff : Z).
Hypothesis (Hb : 16 <= mulbs).

Definition ok_cut (A : mzed) : Prop := (3 * Z.of_nat (per (mz_w A)) <= 2 * cutoff)%Z.

Theorem mul_strassen_ok fuel : forall C A B f m k n FA FB H, m + n < fuel -> 0 < n -> ok_cut A ->
  holds C f m n H -> holds A f m k FA -> holds B f k n FB ->
  wp (mul_strassen mulbs fuel C A B cutoff) (fun C' => becomes C C' (mmul f k FA FB)).
Proof.
  induction fuel as [|fuel IH]; [lia|]. intros C A B f m k n FA FB H Hfu Hn Hcut HC HA HB.
  pose proof HC as (C1 & C2 & C3 & C4 & C5). pose proof HA as (A1 & A2 & A3 & A4 & A5). pose proof HB as (B1 & B2 & B3 & B4 & B5).
  cbn [mul_strassen]. rewrite C4. replace ((mz_nrows C =? 0) && (n =? 0)) with false by lia.
  assert (f0 : f <> 0%N) by (rewrite <- A2; now apply wf_f0).
  destruct (strassen_small A B cutoff) eqn:Sm.
  - destruct (wf_deg2 C C1) as [G1 G2]. bind_ (init_h (mz_ff C) (mz_nrows C) n G1 G2). intros D HD.
    rewrite C2, C3 in HD.
    bind_ (nj_h mulbs D A B f m k n FA FB mzero Hb Hn HD HA HB). intros D' BD. pose proof (holds_becomes _ _ _ _ _ _ _ HD BD) as HD'.
    pose proof HD' as (D1 & D2 & D3 & D4 & D5).
    eapply wp_mono; [apply (mzed_copy_ok (Some C) D' D1); split; [exact C1|]; split; [congruence|split; congruence]|].
    cbv beta. intros C' (_ & K). specialize (K C eq_refl). eapply becomes_ext; [exact K|]. intros i j Hi Hj.
    rewrite D5 by lia. unfold madd, mzero. apply N.lxor_0_l.
  - assert (Gw := wf_good A A1). assert (Hcl : closer n (n / 2) cutoff = false).
    { unfold strassen_small in Sm. rewrite B4 in Sm. apply orb_false_iff in Sm. now destruct Sm. }
    assert (Hnn0 := half_pos (mz_w A) n cutoff Gw Hn Hcut Hcl).
    destruct (half_le (mz_w A) m) as [_ Lm]. destruct (half_le (mz_w A) k) as [_ Lk]. destruct (half_le (mz_w A) n) as [_ Ln].
    assert (Mk := half_mod (mz_w A) k Gw). assert (Mn := half_mod (mz_w A) n Gw). assert (Mk2 := half2_mod (mz_w A) k Gw). assert (Mn2 := half2_mod (mz_w A) n Gw).
    assert (wC : mz_w C = mz_w A) by (eapply same_wh; [exact HC|exact HA]). assert (wB : mz_w B = mz_w A) by (eapply same_wh; [exact HB|exact HA]).
    rewrite A3, A4, B4. set (mm := half (mz_w A) m) in *. set (kk := half (mz_w A) k) in *. set (nn := half (mz_w A) n) in *.
    clearbody mm kk nn.
    assert (RA := fun r s => rd_h A f m k FA mm kk r s HA Lm Lk Mk).
    assert (MnB : nn mod per (mz_w B) = 0) by now rewrite wB.
    assert (RB := fun r s => rd_h B f k n FB kk nn r s HB Lk Ln MnB).
    bind_ (RA false false). intros A11 (HA11 & wA11 & _). bind_ (RA false true). intros A12 (HA12 & wA12 & _).
    bind_ (RA true false). intros A21 (HA21 & wA21 & _). bind_ (RA true true). intros A22 (HA22 & wA22 & _).
    bind_ (RB false false). intros B11 (HB11 & _ & _). bind_ (RB false true). intros B12 (HB12 & _ & _).
    bind_ (RB true false). intros B21 (HB21 & _ & _). bind_ (RB true true). intros B22 (HB22 & _ & _).
    clear RA RB. set (a := quads_of FA mm kk) in *. set (b := quads_of FB kk nn) in *.
    destruct (wf_deg2 A A1) as [G1 G2].
    assert (CI := cst_init mm nn C C1).
    assert (MnC : nn mod per (mz_w C) = 0) by now rewrite wC.
    assert (WR := cst_wr f m n mm nn C C1 C2 C3 C4 Lm Ln MnC).
    assert (RD := cst_rd f m n mm nn C C2 C3 C4 Lm Ln MnC).
    assert (REC : forall C A' B' FA FB H, holds C f mm nn H -> holds A' f mm kk FA -> holds B' f kk nn FB ->
       wp (mul_strassen mulbs fuel C A' B' cutoff) (fun C' => becomes C C' (mmul f kk FA FB))).
    { intros C' A' B' FA' FB' H' K1 K2 K3. apply (IH C' A' B' f mm kk nn FA' FB' H'); auto; [lia|].
      unfold ok_cut in *. now rewrite (same_wh _ _ _ _ _ _ _ _ _ K2 HA). }
    bind_ (init_h (mz_ff A) mm kk G1 G2). intros M0 HM0. bind_ (init_h (mz_ff A) kk nn G1 G2). intros K0 HK0. rewrite A2 in HM0, HK0.
    add_ HK0 HB22 HB12 K1 HK1. add_ HM0 HA22 HA12 M1 HM1.
    bind_ (WR C _ true false _ _ CI (fun W HW => REC W M1 K1 _ _ _ HW HM1 HK1)). intros D1 HD1.
    add_ HM1 HA22 HA21 M2 HM2. add_ HK1 HB22 HB21 K2 HK2.
    bind_ (WR D1 _ true true _ _ HD1 (fun W HW => REC W M2 K2 _ _ _ HW HM2 HK2)). intros D2 HD2.
    add_ HK2 HK2 HB12 K3 HK3. add_ HM2 HM2 HA12 M3 HM3.
    bind_ (WR D2 _ false false _ _ HD2 (fun W HW => REC W M3 K3 _ _ _ HW HM3 HK3)). intros D3 HD3.
    add_ HM3 HM3 HA11 M4 HM4.
    bind_ (WR D3 _ false true _ _ HD3 (fun W HW => REC W M4 B12 _ _ _ HW HM4 HB12)). intros D4 HD4.
    bind_ (RD D4 _ true true HD4). intros C22 HC22.
    bind_ (WR D4 _ false true _ _ HD4 (fun W HW => add_h W W C22 f mm nn _ _ _ HW HW HC22)). intros D5 HD5.
    apply wp_bind. unfold mzed_mul_init. pose proof HA12 as (a1 & a2 & a3 & a4 & _). pose proof HB21 as (b1 & b2 & b3 & b4 & _).
    apply wp_bind. apply wp_check; [rewrite a4, b3, Nat.eqb_refl; apply same_ff_iff; congruence|]. destruct (wf_deg2 A12 a1) as [g1 g2].
    eapply wp_mono; [apply init_h; auto|]. cbv beta. intros M5 HM5. rewrite a2, a3, b4 in HM5. clear a1 a2 a3 a4 b1 b2 b3 b4 g1 g2.
    bind_ (REC M5 A12 B21 _ _ _ HM5 HA12 HB21). intros M6 BM6. pose proof (holds_becomes _ _ _ _ _ _ _ HM5 BM6) as HM6. clear BM6.
    bind_ (WR D5 _ false false _ _ HD5 (fun W HW => add_h W W M6 f mm nn _ _ _ HW HW HM6)). intros D6 HD6.
    bind_ (RD D6 _ false false HD6). intros C11 HC11.
    bind_ (WR D6 _ false true _ _ HD6 (fun W HW => add_h W C11 W f mm nn _ _ _ HW HC11 HW)). intros D7 HD7.
    bind_ (RD D7 _ true false HD7). intros C21 HC21.
    bind_ (WR D7 _ false false _ _ HD7 (fun W HW => add_h W C21 W f mm nn _ _ _ HW HC21 HW)). intros D8 HD8.
    add_ HK3 HK3 HB11 K4 HK4.
    bind_ (WR D8 _ true false _ _ HD8 (fun W HW => REC W A21 K4 _ _ _ HW HA21 HK4)). intros D9 HD9.
    bind_ (RD D9 _ false false HD9). intros C11' HC11'.
    bind_ (WR D9 _ true false _ _ HD9 (fun W HW => add_h W C11' W f mm nn _ _ _ HW HC11' HW)). intros D10 HD10.
    bind_ (RD D10 _ false false HD10). intros C11'' HC11''.
    bind_ (WR D10 _ true true _ _ HD10 (fun W HW => add_h W W C11'' f mm nn _ _ _ HW HW HC11'')). intros D11 HD11.
    bind_ (WR D11 _ false false _ _ HD11 (fun W HW => REC W A11 B11 _ _ _ HW HA11 HB11)). intros D12 HD12.
    bind_ (WR D12 _ false false _ _ HD12 (fun W HW => add_h W W M6 f mm nn _ _ _ HW HW HM6)). intros D13 HD13.
    match type of HD13 with cst _ _ _ _ ?X => set (XX := X) in HD13 end.
    assert (KEY : forall r s i j, i < mm -> j < nn -> XX r s i j = mmul f (2 * kk) FA FB ((if r : bool then mm else 0) + i) ((if s : bool then nn else 0) + j)).
    { intros r s i j Hi Hj. rewrite mmul_2. fold a b. subst XX. clearbody a b. clear - f0.
      destruct r, s; cbn [updq eqb andb]; xall f0. }
    clearbody XX. clear - Hb HC HA HB Lm Lk Ln Hnn0 Mk2 Mn2 HD13 KEY.
    eapply wp_mono; [apply (strassen_rest_ok mulbs f m k n mm kk nn C A B H FA FB true Hb HC HA HB Lm Lk Ln Hnn0 Mk2 Mn2 D13)|].
    + eapply becomes_ext; [exact HD13|]. intros i j Hi Hj. symmetry. eapply becomes_entry; [exact HD13| |]; auto.
    + intros i j Hi Hj. destruct HC as (_ & _ & R1 & R2 & _). rewrite (becomes_entry _ _ _ _ _ HD13) by lia. rewrite N.lxor_0_l.
      destruct (bulk_index mm nn i j Hi Hj) as (r & s & i' & j' & L1 & L2 & -> & ->). rewrite blkf_at by easy. now apply KEY.
    + intros i j Hi Hj Ho. destruct HC as (_ & _ & R1 & R2 & R3). rewrite (becomes_entry _ _ _ _ _ HD13) by lia.
      unfold blkf. replace (_ && _) with false by lia. now apply R3.
    + cbv beta. intros C' BC'. eapply becomes_ext; [exact BC'|]. intros i j _ _. unfold madd. now rewrite N.lxor_0_l.
Qed.
Theorem addmul_strassen_ok fuel : forall C A B f m k n FA FB H, m + n < fuel -> 0 < n -> ok_cut A ->
  holds C f m n H -> holds A f m k FA -> holds B f k n FB ->
  wp (addmul_strassen mulbs fuel C A B cutoff) (fun C' => becomes C C' (madd H (mmul f k FA FB))).
Proof.
  induction fuel as [|fuel IH]; [lia|]. intros C A B f m k n FA FB H Hfu Hn Hcut HC HA HB.
  pose proof HC as (C1 & C2 & C3 & C4 & C5). pose proof HA as (A1 & A2 & A3 & A4 & A5). pose proof HB as (B1 & B2 & B3 & B4 & B5).
  cbn [addmul_strassen]. rewrite C4. replace ((mz_nrows C =? 0) && (n =? 0)) with false by lia.
  assert (f0 : f <> 0%N) by (rewrite <- A2; now apply wf_f0).
  destruct (strassen_small A B cutoff) eqn:Sm.
  - apply wp_bind. eapply wp_mono; [apply (mzed_copy_ok None C C1); exact I|]. cbv beta. intros D (HD0 & _).
    assert (HD : holds D f m n H).
    { rewrite C2, C3, C4 in HD0. eapply holds_ext; [exact HD0|]. intros i j Hi Hj. now apply C5. }
    bind_ (nj_h mulbs D A B f m k n FA FB H Hb Hn HD HA HB). intros D' BD. pose proof (holds_becomes _ _ _ _ _ _ _ HD BD) as HD'.
    pose proof HD' as (D1 & D2 & D3 & D4 & D5).
    eapply wp_mono; [apply (mzed_copy_ok (Some C) D' D1); split; [exact C1|]; split; [congruence|split; congruence]|].
    cbv beta. intros C' (_ & K). specialize (K C eq_refl). eapply becomes_ext; [exact K|]. intros i j Hi Hj.
    now rewrite D5 by lia.
  - assert (Gw := wf_good A A1). assert (Hcl : closer n (n / 2) cutoff = false).
    { unfold strassen_small in Sm. rewrite B4 in Sm. apply orb_false_iff in Sm. now destruct Sm. }
    assert (Hnn0 := half_pos (mz_w A) n cutoff Gw Hn Hcut Hcl).
    destruct (half_le (mz_w A) m) as [_ Lm]. destruct (half_le (mz_w A) k) as [_ Lk]. destruct (half_le (mz_w A) n) as [_ Ln].
    assert (Mk := half_mod (mz_w A) k Gw). assert (Mn := half_mod (mz_w A) n Gw). assert (Mk2 := half2_mod (mz_w A) k Gw). assert (Mn2 := half2_mod (mz_w A) n Gw).
    assert (wC : mz_w C = mz_w A) by (eapply same_wh; [exact HC|exact HA]). assert (wB : mz_w B = mz_w A) by (eapply same_wh; [exact HB|exact HA]).
    rewrite A3, A4, B4. set (mm := half (mz_w A) m) in *. set (kk := half (mz_w A) k) in *. set (nn := half (mz_w A) n) in *.
    clearbody mm kk nn.
    assert (RA := fun r s => rd_h A f m k FA mm kk r s HA Lm Lk Mk).
    assert (MnB : nn mod per (mz_w B) = 0) by now rewrite wB.
    assert (RB := fun r s => rd_h B f k n FB kk nn r s HB Lk Ln MnB).
    bind_ (RA false false). intros A11 (HA11 & wA11 & _). bind_ (RA false true). intros A12 (HA12 & wA12 & _).
    bind_ (RA true false). intros A21 (HA21 & wA21 & _). bind_ (RA true true). intros A22 (HA22 & wA22 & _).
    bind_ (RB false false). intros B11 (HB11 & _ & _). bind_ (RB false true). intros B12 (HB12 & _ & _).
    bind_ (RB true false). intros B21 (HB21 & _ & _). bind_ (RB true true). intros B22 (HB22 & _ & _).
    clear RA RB. set (a := quads_of FA mm kk) in *. set (b := quads_of FB kk nn) in *.
    destruct (wf_deg2 A A1) as [G1 G2].
    assert (CI := cst_init mm nn C C1).
    assert (MnC : nn mod per (mz_w C) = 0) by now rewrite wC.
    assert (WR := cst_wr f m n mm nn C C1 C2 C3 C4 Lm Ln MnC).
    assert (RD := cst_rd f m n mm nn C C2 C3 C4 Lm Ln MnC).
    assert (MUL : forall C A' B' FA FB H, holds C f mm nn H -> holds A' f mm kk FA -> holds B' f kk nn FB ->
       wp (mul_strassen mulbs fuel C A' B' cutoff) (fun C' => becomes C C' (mmul f kk FA FB))).
    { intros C' A' B' FA' FB' H' K1 K2 K3. apply (mul_strassen_ok fuel C' A' B' f mm kk nn FA' FB' H'); auto; [lia|].
      unfold ok_cut in *. now rewrite (same_wh _ _ _ _ _ _ _ _ _ K2 HA). }
    assert (AMUL : forall C A' B' FA FB H, holds C f mm nn H -> holds A' f mm kk FA -> holds B' f kk nn FB ->
       wp (addmul_strassen mulbs fuel C A' B' cutoff) (fun C' => becomes C C' (madd H (mmul f kk FA FB)))).
    { intros C' A' B' FA' FB' H' K1 K2 K3. apply (IH C' A' B' f mm kk nn FA' FB' H'); auto; [lia|].
      unfold ok_cut in *. now rewrite (same_wh _ _ _ _ _ _ _ _ _ K2 HA). }
    bind_ (init_h (mz_ff A) mm kk G1 G2). intros S0 HS0. bind_ (init_h (mz_ff A) kk nn G1 G2). intros T0 HT0.
    bind_ (init_h (mz_ff A) mm nn G1 G2). intros U0 HU0. rewrite A2 in HS0, HT0, HU0.
    add_ HS0 HA22 HA21 S1 HS1. add_ HT0 HB22 HB21 T1 HT1.
    bind_ (MUL U0 S1 T1 _ _ _ HU0 HS1 HT1). intros U1 BU1. pose proof (holds_becomes _ _ _ _ _ _ _ HU0 BU1) as HU1. clear BU1.
    bind_ (WR C _ true true _ _ CI (fun W HW => add_h W U1 W f mm nn _ _ _ HW HU1 HW)). intros D1 HD1.
    bind_ (WR D1 _ false true _ _ HD1 (fun W HW => add_h W U1 W f mm nn _ _ _ HW HU1 HW)). intros D2 HD2.
    bind_ (MUL U1 A12 B21 _ _ _ HU1 HA12 HB21). intros U2 BU2. pose proof (holds_becomes _ _ _ _ _ _ _ HU1 BU2) as HU2. clear BU2.
    bind_ (WR D2 _ false false _ _ HD2 (fun W HW => add_h W U2 W f mm nn _ _ _ HW HU2 HW)). intros D3 HD3.
    bind_ (WR D3 _ false false _ _ HD3 (fun W HW => AMUL W A11 B11 _ _ _ HW HA11 HB11)). intros D4 HD4.
    add_ HS1 HS1 HA12 S2 HS2. add_ HT1 HT1 HB12 T2 HT2.
    bind_ (AMUL U2 S2 T2 _ _ _ HU2 HS2 HT2). intros U3 BU3. pose proof (holds_becomes _ _ _ _ _ _ _ HU2 BU3) as HU3. clear BU3.
    bind_ (WR D4 _ false true _ _ HD4 (fun W HW => add_h W W U3 f mm nn _ _ _ HW HW HU3)). intros D5 HD5.
    add_ HS2 HA11 HS2 S3 HS3.
    bind_ (WR D5 _ false true _ _ HD5 (fun W HW => AMUL W S3 B12 _ _ _ HW HS3 HB12)). intros D6 HD6.
    add_ HT2 HB11 HT2 T3 HT3.
    bind_ (WR D6 _ true false _ _ HD6 (fun W HW => AMUL W A21 T3 _ _ _ HW HA21 HT3)). intros D7 HD7.
    add_ HS3 HA22 HA12 S4 HS4. add_ HT3 HB22 HB12 T4 HT4.
    bind_ (AMUL U3 S4 T4 _ _ _ HU3 HS4 HT4). intros U4 BU4. pose proof (holds_becomes _ _ _ _ _ _ _ HU3 BU4) as HU4. clear BU4.
    bind_ (WR D7 _ true false _ _ HD7 (fun W HW => add_h W W U4 f mm nn _ _ _ HW HW HU4)). intros D8 HD8.
    bind_ (WR D8 _ true true _ _ HD8 (fun W HW => add_h W W U4 f mm nn _ _ _ HW HW HU4)). intros D9 HD9.
    match type of HD9 with cst _ _ _ _ ?X => set (XX := X) in HD9 end.
    assert (KEY : forall r s i j, i < mm -> j < nn -> XX r s i j = N.lxor (quads_of (entry C) mm nn r s i j)
       (mmul f (2 * kk) FA FB ((if r : bool then mm else 0) + i) ((if s : bool then nn else 0) + j))).
    { intros r s i j Hi Hj. rewrite mmul_2. fold a b. subst XX. clearbody a b. clear - f0.
      destruct r, s; cbn [updq eqb andb]; xall f0. }
    clearbody XX. clear - Hb HC HA HB Lm Lk Ln Hnn0 Mk2 Mn2 HD9 KEY.
    eapply wp_mono; [apply (strassen_rest_ok mulbs f m k n mm kk nn C A B H FA FB false Hb HC HA HB Lm Lk Ln Hnn0 Mk2 Mn2 D9)|].
    + eapply becomes_ext; [exact HD9|]. intros i j Hi Hj. symmetry. eapply becomes_entry; [exact HD9| |]; auto.
    + intros i j Hi Hj. destruct HC as (_ & _ & R1 & R2 & R3). rewrite (becomes_entry _ _ _ _ _ HD9) by lia.
      destruct (bulk_index mm nn i j Hi Hj) as (r & s & i' & j' & L1 & L2 & -> & ->). rewrite blkf_at by easy. rewrite KEY by easy.
      f_equal. unfold quads_of, sub. apply R3; lia.
    + intros i j Hi Hj Ho. destruct HC as (_ & _ & R1 & R2 & R3). rewrite (becomes_entry _ _ _ _ _ HD9) by lia.
      unfold blkf. replace (_ && _) with false by lia. now apply R3.
    + cbv beta. intros C' BC'. eapply becomes_ext; [exact BC'|]. intros i j _ _. reflexivity.
Qed.
End Main.
