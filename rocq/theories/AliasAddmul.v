(** Adding a product to a target that is not a factor, through a store: the target gets the sum, nothing else changes (C62). *)
From Coq Require Import NArith ZArith Lia List Bool Arith.
From Coq Require Import Btauto ZifyBool ZifyNat ZifyN.
From Verif Require Import Base Spec LinSpec PolyFacts MatFacts Gf2xModel Gf2eModel Gf2eProofs.
From Verif Require Import MzdModel MzedModel MzedSpec LaneFacts MzedProofs MzedOps MzedOps2 NjModel NjTable NjMul StrassenModel StrassenProofs StrassenMain.
From Verif Require Import SliceModel KaraModel ConvModel MulModel MulProofs AliasModel AliasRows AliasProofs AliasStrassenModel AliasStrassen AliasStrassen2 AliasStrassen3 AliasAddmulModel.
Import ListNotations.
Local Open Scope nat_scope.

(** ** the left-over parts *)
Lemma vaddrest_wr mulbs h vC vA vB f m k n mm kk nn E FA FB H Y : 16 <= mulbs -> wf_mzed Y -> fld Y = f ->
  vh h vC f m n E -> vh h vA f m k FA -> vh h vB f k n FB -> v_at vA <> v_at vC -> v_at vB <> v_at vC ->
  2 * mm <= m -> 2 * kk <= k -> 2 * nn <= n -> 0 < nn -> (2 * kk) mod per (mz_w Y) = 0 -> (2 * nn) mod per (mz_w Y) = 0 ->
  (forall i j, i < 2 * mm -> j < 2 * nn -> E i j = N.lxor (H i j) (mmul f (2 * kk) FA FB i j)) ->
  (forall i j, i < m -> j < n -> 2 * mm <= i \/ 2 * nn <= j -> E i j = H i j) ->
  exists h', vaddmul_rest mulbs h vC vA vB m k n mm kk nn = Ok h' /\ wrote h vC (madd H (mmul f k FA FB)) h'.
Proof.
  intros Hb WY FY HC HA HB NA NB Hm Hk Hn Hn0 Ak An HE HO.
  assert (A0 : 0 mod per (mz_w Y) = 0) by (pose proof (per_pos _ (wf_good Y WY)); apply Nat.mod_0_l; lia).
  set (P := madd H (mmul f k FA FB)). unfold vaddmul_rest.
  assert (S1 : exists h1, (if 2 * nn <? n then vmul_nj mulbs h (vsub vC 0 (2 * nn) m n) vA (vsub vB 0 (2 * nn) k n) else Ok h) = Ok h1 /\
            wrote h vC (fun i j => if 2 * nn <=? j then P i j else E i j) h1).
  { destruct (Nat.ltb_spec (2 * nn) n) as [L|L].
    - pose proof (vh_sub _ _ _ _ _ _ 0 (2 * nn) m n Y HC WY FY ltac:(lia) ltac:(lia) An) as VC. pose proof (vh_sub _ _ _ _ _ _ 0 (2 * nn) k n Y HB WY FY ltac:(lia) ltac:(lia) An) as VB. rewrite Nat.sub_0_r in VC, VB.
      destruct (vnj_wr mulbs h (vsub vC 0 (2 * nn) m n) vA (vsub vB 0 (2 * nn) k n) f m k (n - 2 * nn) _ FA (sub FB 0 (2 * nn)) Hb ltac:(lia) VC HA VB NA NB) as (h1 & -> & W1).
      exists h1. split; [reflexivity|]. eapply wrote_ext; [exact HC| |eapply wrote_sub; [exact HC| | |exact W1]; lia].
      intros i j Hi Hj. replace (_ && _ && _ && _) with (2 * nn <=? j) by lia. destruct (Nat.leb_spec (2 * nn) j); [|reflexivity].
      unfold P, madd. unfold sub at 1. rewrite Nat.sub_0_r. cbn [Nat.add]. replace (2 * nn + (j - 2 * nn)) with j by lia. rewrite HO by lia. f_equal.
      unfold mmul, sub. apply xsum_ext. intros l Hl. cbn [Nat.add]. f_equal. f_equal; lia.
    - exists h. split; [reflexivity|]. eapply wrote_ext; [exact HC| |exact (wrote_refl _ _ _ _ _ _ HC)]. intros i j Hi Hj. now replace (2 * nn <=? j) with false by lia. }
  destruct S1 as (h1 & -> & W1). cbn [bind].
  pose proof (wrote_vh _ _ _ _ _ _ _ _ HC W1) as HC1. pose proof (wrote_other _ _ _ _ _ _ _ _ _ HA NA W1) as HA1. pose proof (wrote_other _ _ _ _ _ _ _ _ _ HB NB W1) as HB1.
  assert (S2 : exists h2, (if 2 * mm <? m then vmul_nj mulbs h1 (vsub vC (2 * mm) 0 m (2 * nn)) (vsub vA (2 * mm) 0 m k) (vsub vB 0 0 k (2 * nn)) else Ok h1) = Ok h2 /\
            wrote h1 vC (fun i j => if (2 * mm <=? i) || (2 * nn <=? j) then P i j else E i j) h2).
  { destruct (Nat.ltb_spec (2 * mm) m) as [L|L].
    - pose proof (vh_sub _ _ _ _ _ _ (2 * mm) 0 m (2 * nn) Y HC1 WY FY ltac:(lia) ltac:(lia) A0) as VC. pose proof (vh_sub _ _ _ _ _ _ (2 * mm) 0 m k Y HA1 WY FY ltac:(lia) ltac:(lia) A0) as VA.
      pose proof (vh_sub _ _ _ _ _ _ 0 0 k (2 * nn) Y HB1 WY FY ltac:(lia) ltac:(lia) A0) as VB. rewrite Nat.sub_0_r in VC, VA. rewrite !Nat.sub_0_r in VB.
      destruct (vnj_wr mulbs h1 (vsub vC (2 * mm) 0 m (2 * nn)) (vsub vA (2 * mm) 0 m k) (vsub vB 0 0 k (2 * nn)) f (m - 2 * mm) k (2 * nn) _ (sub FA (2 * mm) 0) (sub FB 0 0) Hb ltac:(lia) VC VA VB NA NB) as (h2 & -> & W2).
      exists h2. split; [reflexivity|]. eapply wrote_ext; [exact HC1| |eapply wrote_sub; [exact HC1| | |exact W2]; lia].
      intros i j Hi Hj. destruct (Nat.leb_spec (2 * nn) j).
      + replace (_ && _ && _ && _) with false by lia. now rewrite orb_true_r.
      + rewrite orb_false_r. replace (_ && _ && _ && _) with (2 * mm <=? i) by lia. destruct (Nat.leb_spec (2 * mm) i); [|reflexivity].
        unfold P, madd. unfold sub at 1. rewrite Nat.sub_0_r. cbn [Nat.add]. replace (2 * nn <=? j) with false by lia.
        replace (2 * mm + (i - 2 * mm)) with i by lia. rewrite HO by lia. f_equal.
        unfold mmul, sub. apply xsum_ext. intros l Hl. cbn [Nat.add]. f_equal. f_equal; lia.
    - exists h1. split; [reflexivity|]. eapply wrote_ext; [exact HC1| |exact (wrote_refl _ _ _ _ _ _ HC1)]. intros i j Hi Hj. cbv beta. now replace (2 * mm <=? i) with false by lia. }
  destruct S2 as (h2 & -> & W2). cbn [bind].
  pose proof (wrote_vh _ _ _ _ _ _ _ _ HC1 W2) as HC2. pose proof (wrote_other _ _ _ _ _ _ _ _ _ HA1 NA W2) as HA2. pose proof (wrote_other _ _ _ _ _ _ _ _ _ HB1 NB W2) as HB2.
  destruct (Nat.ltb_spec (2 * kk) k) as [L|L].
  - pose proof (vh_sub _ _ _ _ _ _ 0 0 (2 * mm) (2 * nn) Y HC2 WY FY ltac:(lia) ltac:(lia) A0) as VC. pose proof (vh_sub _ _ _ _ _ _ 0 (2 * kk) (2 * mm) k Y HA2 WY FY ltac:(lia) ltac:(lia) Ak) as VA.
    pose proof (vh_sub _ _ _ _ _ _ (2 * kk) 0 k (2 * nn) Y HB2 WY FY ltac:(lia) ltac:(lia) A0) as VB. rewrite !Nat.sub_0_r in VC. rewrite Nat.sub_0_r in VA, VB.
    destruct (vnj_wr mulbs h2 (vsub vC 0 0 (2 * mm) (2 * nn)) (vsub vA 0 (2 * kk) (2 * mm) k) (vsub vB (2 * kk) 0 k (2 * nn)) f (2 * mm) (k - 2 * kk) (2 * nn) _ (sub FA 0 (2 * kk)) (sub FB (2 * kk) 0) Hb ltac:(lia) VC VA VB NA NB) as (h3 & -> & W3).
    exists h3. split; [reflexivity|]. eapply wrote_trans; [exact W1|]. eapply wrote_trans; [exact W2|].
    eapply wrote_ext; [exact HC2| |eapply wrote_sub; [exact HC2| | |exact W3]; lia].
    intros i j Hi Hj. cbv beta. destruct (Nat.leb_spec (2 * mm) i); destruct (Nat.leb_spec (2 * nn) j); cbn [orb].
    1-3: replace (_ && _ && _ && _) with false by lia; reflexivity.
    replace (_ && _ && _ && _) with true by lia. rewrite !Nat.sub_0_r. unfold madd. unfold sub at 1. cbn [Nat.add].
    replace ((2 * mm <=? i) || (2 * nn <=? j)) with false by lia. rewrite HE by lia. unfold P, madd. replace k with (2 * kk + (k - 2 * kk)) at 2 by lia. rewrite mmul_split, N.lxor_assoc. reflexivity.
  - exists h2. split; [reflexivity|]. eapply wrote_trans; [exact W1|]. eapply wrote_ext; [exact HC1| |exact W2].
    intros i j Hi Hj. cbv beta. destruct (Nat.leb_spec (2 * mm) i); destruct (Nat.leb_spec (2 * nn) j); cbn [orb]; try reflexivity. rewrite HE by lia. unfold P, madd. now replace (2 * kk) with k by lia.
Qed.

(** ** Strassen *)
Section St.
Variables (mulbs : nat) (cutoff : Z).
Hypothesis (Hb : 16 <= mulbs).

Theorem vaddmul_strassen_wr fuel : forall h vC vA vB f m k n E FA FB Y, m + n < fuel -> 0 < n -> wf_mzed Y -> fld Y = f -> ok_cut cutoff Y ->
  vh h vC f m n E -> vh h vA f m k FA -> vh h vB f k n FB -> v_at vA <> v_at vC -> v_at vB <> v_at vC ->
  exists h', vaddmul_strassen mulbs fuel h vC vA vB cutoff = Ok h' /\ wrote h vC (madd E (mmul f k FA FB)) h'.
Proof.
  induction fuel as [|fuel IH]; [lia|]. intros h vC vA vB f m k n E FA FB Y Hfu Hn WY FY Hcut HC HA HB NA NB.
  destruct (vget_h _ _ _ _ _ _ HC) as (C & EC & KC). destruct (vget_h _ _ _ _ _ _ HA) as (A & EA & KA). destruct (vget_h _ _ _ _ _ _ HB) as (B & EB & KB).
  pose proof KC as (C1 & C2 & C3 & C4 & _). pose proof KA as (A1 & A2 & A3 & A4 & _). pose proof KB as (B1 & B2 & B3 & B4 & _).
  cbn [vaddmul_strassen]. rewrite EC, EA, EB. cbn [bind]. rewrite C4. replace ((mz_nrows C =? 0) && (n =? 0)) with false by lia.
  assert (wA : mz_w A = mz_w Y) by (apply same_w; auto; congruence).
  destruct (strassen_small A B cutoff) eqn:Sm.
  - destruct (wp_ok _ _ (mzed_copy_ok None C C1 I)) as (D & ED & HD0 & _). rewrite ED. cbn [bind].
    assert (HD : holds D f m n E).
    { rewrite C2, C3, C4 in HD0. eapply holds_ext; [exact HD0|]. intros i j Hi Hj. destruct KC as (_ & _ & _ & _ & C5). now apply C5. }
    destruct (wp_ok _ _ (nj_h mulbs D A B f m k n _ _ _ Hb Hn HD KA KB)) as (D' & ED' & BD). rewrite ED'. cbn [bind].
    pose proof (holds_becomes _ _ _ _ _ _ _ HD BD) as HD'. pose proof HD' as (D1 & D2 & D3 & D4 & D5).
    apply (vset_wr h vC f m n E); [exact HC|]. intros W (W1 & W2 & W3 & W4 & W5).
    eapply wp_mono; [apply (mzed_copy_ok (Some W) D' D1); split; [exact W1|split; [congruence|split; congruence]]|].
    cbv beta. intros W' (_ & BW). eapply becomes_ext; [exact (BW W eq_refl)|]. intros i j Hi Hj. now rewrite D5 by lia.
  - assert (f0 : f <> 0%N) by (rewrite <- A2; now apply wf_f0).
    assert (Gw := wf_good A A1). assert (Hcl : closer n (n / 2) cutoff = false).
    { unfold strassen_small in Sm. rewrite B4 in Sm. apply orb_false_iff in Sm. now destruct Sm. }
    assert (Hcut' : (3 * Z.of_nat (per (mz_w A)) <= 2 * cutoff)%Z) by (unfold ok_cut in Hcut; now rewrite wA).
    assert (Hnn0 := half_pos (mz_w A) n cutoff Gw Hn Hcut' Hcl).
    destruct (half_le (mz_w A) m) as [_ Lm]. destruct (half_le (mz_w A) k) as [_ Lk]. destruct (half_le (mz_w A) n) as [_ Ln].
    assert (Mk := half_mod (mz_w A) k Gw). assert (Mn := half_mod (mz_w A) n Gw). assert (Mk2 := half2_mod (mz_w A) k Gw). assert (Mn2 := half2_mod (mz_w A) n Gw).
    rewrite A3, A4, B4. set (mm := half (mz_w A) m) in *. set (kk := half (mz_w A) k) in *. set (nn := half (mz_w A) n) in *. clearbody mm kk nn.
    cbv zeta. destruct (wf_deg2 A A1) as [G1 G2].
    destruct (wp_ok _ _ (init_h (mz_ff A) mm kk G1 G2)) as (M & EM & HM). rewrite EM. cbn [bind].
    destruct (wp_ok _ _ (init_h (mz_ff A) kk nn G1 G2)) as (K & EK & HK). rewrite EK. cbn [bind].
    destruct (wp_ok _ _ (init_h (mz_ff A) mm nn G1 G2)) as (U & EU & HU). rewrite EU. cbn [bind]. rewrite A2 in HM, HK, HU.
    set (p := length h).
    pose proof (vh_lt _ _ _ _ _ _ HC) as LC. pose proof (vh_lt _ _ _ _ _ _ HA) as LA. pose proof (vh_lt _ _ _ _ _ _ HB) as LB. fold p in LC, LA, LB.
    set (pc := v_at vC) in *.
    destruct HC as (Y0 & C0 & HC'). assert (HC : vh h vC f m n E) by (exists Y0; now split). fold pc in C0.
    (* the state: the target, the objects of h, Wmk, Wkn, and the rest *)
    set (st := fun (h' : store) (L : nat) (X : quads) (FM FK : mat) (PP : mat) =>
      length h' = L /\ (forall q, q < p -> q <> pc -> nth_error h' q = nth_error h q) /\
      (exists Z, nth_error h' pc = Some Z /\ becomes Y0 Z (patch vC (blkf mm nn E X) (entry Y0))) /\ vh h' vC f m n (blkf mm nn E X) /\
      vh h' (View p 0 0 mm kk) f mm kk FM /\ vh h' (View (S p) 0 0 kk nn) f kk nn FK /\ vh h' (View (S (S p)) 0 0 mm nn) f mm nn PP).
    assert (stA : forall h' L X FM FK PP r s, st h' L X FM FK PP -> vh h' (quad mm kk r s (vsub vA)) f mm kk (quads_of FA mm kk r s)).
    { intros h' L X FM FK PP r s (_ & S1 & _). apply (quad_vh h' vA f m k FA mm kk r s A); auto. apply (vh_same h h'); auto. }
    assert (stB : forall h' L X FM FK PP r s, st h' L X FM FK PP -> vh h' (quad kk nn r s (vsub vB)) f kk nn (quads_of FB kk nn r s)).
    { intros h' L X FM FK PP r s (_ & S1 & _). apply (quad_vh h' vB f k n FB kk nn r s A); auto. apply (vh_same h h'); auto. }
    assert (stC : forall h' L X FM FK PP r s, st h' L X FM FK PP -> vh h' (quad mm nn r s (vsub vC)) f mm nn (X r s)).
    { intros h' L X FM FK PP r s (_ & _ & _ & S1 & _). eapply vh_ext; [apply (quad_vh h' vC f m n _ mm nn r s A S1); auto|]. intros i j Hi Hj. unfold quads_of, sub. now apply blkf_at. }
    assert (stM : forall h' L X FM FK PP, st h' L X FM FK PP -> vh h' (View p 0 0 mm kk) f mm kk FM) by (intros h' L X FM FK PP S1; apply S1).
    assert (stK : forall h' L X FM FK PP, st h' L X FM FK PP -> vh h' (View (S p) 0 0 kk nn) f kk nn FK) by (intros h' L X FM FK PP S1; apply S1).
    assert (stP : forall h' L X FM FK F, st h' L X FM FK F -> vh h' (View (S (S p)) 0 0 mm nn) f mm nn F) by (intros h' L X FM FK F S1; apply S1).
    assert (S0 : st (h ++ [M; K; U]) (S (S (S p))) (quads_of E mm nn) mzero mzero mzero).
    { split; [rewrite app_length; cbn [length]; fold p; lia|]. split; [intros q Hq _; now apply nth_app_old|]. split; [|split; [|split; [|split]]].
      - exists Y0. split; [rewrite nth_app_old by exact LC; exact C0|]. destruct (wrote_refl _ _ _ _ _ _ HC) as (_ & _ & X1 & X2 & K1 & K2 & K3). fold pc in K1, K2.
        assert (X1 = Y0) as -> by congruence. assert (X2 = Y0) as -> by congruence. eapply becomes_ext; [exact K3|]. cbv beta. intros i j Hi Hj. unfold patch. now rewrite blkf_quads_of.
      - eapply vh_ext; [apply (vh_same h); [now apply nth_app_old|exact HC]|]. intros i j _ _. now rewrite blkf_quads_of.
      - apply vh_whole with (X := M); [rewrite nth_error_app2 by (fold p; lia); fold p; rewrite Nat.sub_diag; reflexivity|exact HM].
      - apply vh_whole with (X := K); [rewrite nth_error_app2 by (fold p; lia); fold p; replace (S p - p) with 1 by (clear; lia); reflexivity|exact HK].
      - apply vh_whole with (X := U); [rewrite nth_error_app2 by (fold p; lia); fold p; replace (S (S p) - p) with 2 by (clear; lia); reflexivity|exact HU]. }
    assert (NE : forall q, q < p -> q <> p /\ q <> S p /\ q <> S (S p)) by (clear; intros; lia).
    assert (NE1 : p <> S p /\ p <> S (S p) /\ S p <> S (S p) /\ S p <> p /\ S (S p) <> p /\ S (S p) <> S p) by (clear; lia).
    (* the three kinds of writes *)
    assert (WC : forall h' h'' L X FM FK PP r s F, st h' L X FM FK PP -> wrote h' (quad mm nn r s (vsub vC)) F h'' -> st h'' L (updq X r s F) FM FK PP).
    { intros h' h'' L X FM FK PP r s F (T1 & T2 & (Z & T3 & T3') & T4 & T5 & T6 & T7) Hw. pose proof (quad_wrote h' vC f m n E X mm nn r s F h'' T4 Lm Ln Hw) as Hw'.
      pose proof Hw' as (W1 & W2 & Z1 & Z2 & W3 & W4 & W5). fold pc in W2, W3, W4. assert (Z1 = Z) as -> by congruence.
      split; [congruence|]. split; [intros q Hq Hne; rewrite W2 by exact Hne; apply T2; assumption|]. split.
      { exists Z2. split; [exact W4|]. eapply becomes_step; [exact T3'|exact W5|]. cbv beta. intros i j Hi Hj. unfold patch at 1 2. destruct (_ && _ && _ && _) eqn:Eb; [reflexivity|].
        rewrite (becomes_entry _ _ _ _ _ T3') by auto. unfold patch. now rewrite Eb. }
      split; [exact (wrote_vh _ _ _ _ _ _ _ _ T4 Hw')|].
      split; [apply (wrote_other _ _ _ _ _ _ _ _ _ T5) with (2 := Hw'); cbn [v_at]; fold pc; solve [apply NE, LC|apply not_eq_sym, NE, LC|apply NE1]|].
      split; [apply (wrote_other _ _ _ _ _ _ _ _ _ T6) with (2 := Hw'); cbn [v_at]; fold pc; solve [apply NE, LC|apply not_eq_sym, NE, LC|apply NE1]|].
      apply (wrote_other _ _ _ _ _ _ _ _ _ T7) with (2 := Hw'); cbn [v_at]; fold pc; solve [apply NE, LC|apply not_eq_sym, NE, LC|apply NE1]. }
    assert (WM : forall h' h'' L X FM FK PP F, st h' L X FM FK PP -> wrote h' (View p 0 0 mm kk) F h'' -> st h'' L X F FK PP).
    { intros h' h'' L X FM FK PP F (T1 & T2 & (Z & T3 & T3') & T4 & T5 & T6 & T7) Hw. pose proof Hw as (W1 & W2 & _). cbn [v_at] in W2.
      split; [congruence|]. split; [intros q Hq Hne; rewrite W2 by (apply NE; assumption); apply T2; assumption|]. split; [exists Z; rewrite W2 by (apply NE; assumption); split; assumption|].
      split; [apply (wrote_other _ _ _ _ _ _ _ _ _ T4) with (2 := Hw); cbn [v_at]; fold pc; solve [apply NE, LC|apply not_eq_sym, NE, LC|apply NE1]|].
      split; [exact (wrote_vh _ _ _ _ _ _ _ _ T5 Hw)|].
      split; [apply (wrote_other _ _ _ _ _ _ _ _ _ T6) with (2 := Hw); cbn [v_at]; apply NE1|].
      apply (wrote_other _ _ _ _ _ _ _ _ _ T7) with (2 := Hw); cbn [v_at]; apply NE1. }
    assert (WK : forall h' h'' L X FM FK PP F, st h' L X FM FK PP -> wrote h' (View (S p) 0 0 kk nn) F h'' -> st h'' L X FM F PP).
    { intros h' h'' L X FM FK PP F (T1 & T2 & (Z & T3 & T3') & T4 & T5 & T6 & T7) Hw. pose proof Hw as (W1 & W2 & _). cbn [v_at] in W2.
      split; [congruence|]. split; [intros q Hq Hne; rewrite W2 by (apply NE; assumption); apply T2; assumption|]. split; [exists Z; rewrite W2 by (apply NE; assumption); split; assumption|].
      split; [apply (wrote_other _ _ _ _ _ _ _ _ _ T4) with (2 := Hw); cbn [v_at]; fold pc; solve [apply NE, LC|apply not_eq_sym, NE, LC|apply NE1]|].
      split; [apply (wrote_other _ _ _ _ _ _ _ _ _ T5) with (2 := Hw); cbn [v_at]; apply NE1|].
      split; [exact (wrote_vh _ _ _ _ _ _ _ _ T6 Hw)|].
      apply (wrote_other _ _ _ _ _ _ _ _ _ T7) with (2 := Hw); cbn [v_at]; apply NE1. }
    assert (WP : forall h' h'' L X FM FK F0 F, st h' L X FM FK F0 -> wrote h' (View (S (S p)) 0 0 mm nn) F h'' -> st h'' L X FM FK F).
    { intros h' h'' L X FM FK F0 F (T1 & T2 & (Z & T3 & T3') & T4 & T5 & T6 & T7) Hw. pose proof Hw as (W1 & W2 & _). cbn [v_at] in W2.
      split; [congruence|]. split; [intros q Hq Hne; rewrite W2 by (apply NE; assumption); apply T2; assumption|]. split; [exists Z; rewrite W2 by (apply NE; assumption); split; assumption|].
      split; [apply (wrote_other _ _ _ _ _ _ _ _ _ T4) with (2 := Hw); cbn [v_at]; fold pc; solve [apply NE, LC|apply not_eq_sym, NE, LC|apply NE1]|].
      split; [apply (wrote_other _ _ _ _ _ _ _ _ _ T5) with (2 := Hw); cbn [v_at]; apply NE1|].
      split; [apply (wrote_other _ _ _ _ _ _ _ _ _ T6) with (2 := Hw); cbn [v_at]; apply NE1|].
      exact (wrote_vh _ _ _ _ _ _ _ _ T7 Hw). }
    assert (Hfu' : mm + nn < fuel) by (clear - Hfu Lm Ln Hnn0; lia).
    assert (MUL : forall h' c a b H0 FA' FB', vh h' c f mm nn H0 -> vh h' a f mm kk FA' -> vh h' b f kk nn FB' -> v_at a <> v_at c -> v_at b <> v_at c ->
       exists h'', vmul_strassen mulbs fuel h' c a b cutoff = Ok h'' /\ wrote h' c (mmul f kk FA' FB') h'').
    { intros h' c a b H0 FA' FB' K1 K2 K3 K4 K5. exact (vmul_strassen_wr mulbs cutoff Hb fuel h' c a b f mm kk nn H0 FA' FB' Y Hfu' Hnn0 WY FY Hcut K1 K2 K3 K4 K5). }
    assert (AMUL : forall h' c a b H0 FA' FB', vh h' c f mm nn H0 -> vh h' a f mm kk FA' -> vh h' b f kk nn FB' -> v_at a <> v_at c -> v_at b <> v_at c ->
       exists h'', vaddmul_strassen mulbs fuel h' c a b cutoff = Ok h'' /\ wrote h' c (madd H0 (mmul f kk FA' FB')) h'').
    { intros h' c a b H0 FA' FB' K1 K2 K3 K4 K5. exact (IH h' c a b f mm kk nn H0 FA' FB' Y Hfu' Hnn0 WY FY Hcut K1 K2 K3 K4 K5). }
    assert (NAC : v_at vA <> pc) by exact NA. assert (NBC : v_at vB <> pc) by exact NB.
    match goal with |- exists h', ?x = Ok h' /\ _ => enough (KK : wp x (fun h' => wrote h vC (madd E (mmul f k FA FB)) h')) by (destruct (wp_ok _ _ KK) as (h' & Eh & Wh); exists h'; split; [exact Eh|exact Wh]) end.
    assert (upM : forall h' L X FM FK PP a b F G (P : store -> Prop) kont, st h' L X FM FK PP -> vh h' a f mm kk F -> vh h' b f mm kk G ->
      (forall h'', st h'' L X (madd F G) FK PP -> wp (kont h'') P) -> wp (bind (vadd h' (View p 0 0 mm kk) a b) kont) P).
    { intros h' L X FM FK PP a b F G P kont S1 Va Vb Hk. destruct (vadd_wr h' _ a b f mm kk _ F G (stM _ _ _ _ _ _ S1) Va Vb) as (h'' & -> & W). cbn [bind]. apply Hk. exact (WM _ _ _ _ _ _ _ _ S1 W). }
    assert (upK : forall h' L X FM FK PP a b F G (P : store -> Prop) kont, st h' L X FM FK PP -> vh h' a f kk nn F -> vh h' b f kk nn G ->
      (forall h'', st h'' L X FM (madd F G) PP -> wp (kont h'') P) -> wp (bind (vadd h' (View (S p) 0 0 kk nn) a b) kont) P).
    { intros h' L X FM FK PP a b F G P kont S1 Va Vb Hk. destruct (vadd_wr h' _ a b f kk nn _ F G (stK _ _ _ _ _ _ S1) Va Vb) as (h'' & -> & W). cbn [bind]. apply Hk. exact (WK _ _ _ _ _ _ _ _ S1 W). }
    assert (upC : forall r s h' L X FM FK PP a b F G (P : store -> Prop) kont, st h' L X FM FK PP -> vh h' a f mm nn F -> vh h' b f mm nn G ->
      (forall h'', st h'' L (updq X r s (madd F G)) FM FK PP -> wp (kont h'') P) -> wp (bind (vadd h' (quad mm nn r s (vsub vC)) a b) kont) P).
    { intros r s h' L X FM FK PP a b F G P kont S1 Va Vb Hk. destruct (vadd_wr h' _ a b f mm nn _ F G (stC _ _ _ _ _ _ r s S1) Va Vb) as (h'' & -> & W). cbn [bind]. apply Hk. exact (WC _ _ _ _ _ _ _ _ _ _ S1 W). }
    assert (rcC : forall r s h' L X FM FK PP a b F G (P : store -> Prop) kont, st h' L X FM FK PP -> vh h' a f mm kk F -> vh h' b f kk nn G -> v_at a <> pc -> v_at b <> pc ->
      (forall h'', st h'' L (updq X r s (madd (X r s) (mmul f kk F G))) FM FK PP -> wp (kont h'') P) -> wp (bind (vaddmul_strassen mulbs fuel h' (quad mm nn r s (vsub vC)) a b cutoff) kont) P).
    { intros r s h' L X FM FK PP a b F G P kont S1 Va Vb Na Nb Hk. destruct (AMUL h' _ a b _ F G (stC _ _ _ _ _ _ r s S1) Va Vb Na Nb) as (h'' & -> & W). cbn [bind]. apply Hk. exact (WC _ _ _ _ _ _ _ _ _ _ S1 W). }
    assert (rcP : forall h' L X FM FK F0 a b F G (P : store -> Prop) kont, st h' L X FM FK F0 -> vh h' a f mm kk F -> vh h' b f kk nn G -> v_at a <> S (S p) -> v_at b <> S (S p) ->
      (forall h'', st h'' L X FM FK (mmul f kk F G) -> wp (kont h'') P) -> wp (bind (vmul_strassen mulbs fuel h' (View (S (S p)) 0 0 mm nn) a b cutoff) kont) P).
    { intros h' L X FM FK F0 a b F G P kont S1 Va Vb Na Nb Hk. destruct (MUL h' (View (S (S p)) 0 0 mm nn) a b _ F G (stP _ _ _ _ _ _ S1) Va Vb Na Nb) as (h'' & -> & W). cbn [bind]. apply Hk. exact (WP _ _ _ _ _ _ _ _ S1 W). }
    assert (rcU : forall h' L X FM FK F0 a b F G (P : store -> Prop) kont, st h' L X FM FK F0 -> vh h' a f mm kk F -> vh h' b f kk nn G -> v_at a <> S (S p) -> v_at b <> S (S p) ->
      (forall h'', st h'' L X FM FK (madd F0 (mmul f kk F G)) -> wp (kont h'') P) -> wp (bind (vaddmul_strassen mulbs fuel h' (View (S (S p)) 0 0 mm nn) a b cutoff) kont) P).
    { intros h' L X FM FK F0 a b F G P kont S1 Va Vb Na Nb Hk. destruct (AMUL h' (View (S (S p)) 0 0 mm nn) a b _ F G (stP _ _ _ _ _ _ S1) Va Vb Na Nb) as (h'' & -> & W). cbn [bind]. apply Hk. exact (WP _ _ _ _ _ _ _ _ S1 W). }
    clear MUL AMUL WC WM WK WP.
    assert (Np : p <> pc) by (apply not_eq_sym, NE, LC). assert (NSp : S p <> pc) by (apply not_eq_sym, NE, LC).
    assert (NPA : v_at vA <> S (S p)) by (apply NE, LA). assert (NPB : v_at vB <> S (S p)) by (apply NE, LB).
    assert (NpU : p <> S (S p)) by apply NE1. assert (NSU : S p <> S (S p)) by apply NE1.
    apply (upM _ _ _ _ _ _ _ _ _ _ _ _ S0 (stA _ _ _ _ _ _ true true S0) (stA _ _ _ _ _ _ true false S0)). intros h1 S1.
    apply (upK _ _ _ _ _ _ _ _ _ _ _ _ S1 (stB _ _ _ _ _ _ true true S1) (stB _ _ _ _ _ _ true false S1)). intros h2 S2.
    apply (rcP _ _ _ _ _ _ _ _ _ _ _ _ S2 (stM _ _ _ _ _ _ S2) (stK _ _ _ _ _ _ S2) NpU NSU). intros h3 S3.
    apply (upC true true _ _ _ _ _ _ _ _ _ _ _ _ S3 (stP _ _ _ _ _ _ S3) (stC _ _ _ _ _ _ true true S3)). intros h4 S4.
    apply (upC false true _ _ _ _ _ _ _ _ _ _ _ _ S4 (stP _ _ _ _ _ _ S4) (stC _ _ _ _ _ _ false true S4)). intros h5 S5.
    apply (rcP _ _ _ _ _ _ _ _ _ _ _ _ S5 (stA _ _ _ _ _ _ false true S5) (stB _ _ _ _ _ _ true false S5) NPA NPB). intros h6 S6.
    apply (upC false false _ _ _ _ _ _ _ _ _ _ _ _ S6 (stP _ _ _ _ _ _ S6) (stC _ _ _ _ _ _ false false S6)). intros h7 S7.
    apply (rcC false false _ _ _ _ _ _ _ _ _ _ _ _ S7 (stA _ _ _ _ _ _ false false S7) (stB _ _ _ _ _ _ false false S7) NAC NBC). intros h8 S8.
    apply (upM _ _ _ _ _ _ _ _ _ _ _ _ S8 (stM _ _ _ _ _ _ S8) (stA _ _ _ _ _ _ false true S8)). intros h9 S9.
    apply (upK _ _ _ _ _ _ _ _ _ _ _ _ S9 (stK _ _ _ _ _ _ S9) (stB _ _ _ _ _ _ false true S9)). intros h10 S10.
    apply (rcU _ _ _ _ _ _ _ _ _ _ _ _ S10 (stM _ _ _ _ _ _ S10) (stK _ _ _ _ _ _ S10) NpU NSU). intros h11 S11.
    apply (upC false true _ _ _ _ _ _ _ _ _ _ _ _ S11 (stC _ _ _ _ _ _ false true S11) (stP _ _ _ _ _ _ S11)). intros h12 S12.
    apply (upM _ _ _ _ _ _ _ _ _ _ _ _ S12 (stA _ _ _ _ _ _ false false S12) (stM _ _ _ _ _ _ S12)). intros h13 S13.
    apply (rcC false true _ _ _ _ _ _ _ _ _ _ _ _ S13 (stM _ _ _ _ _ _ S13) (stB _ _ _ _ _ _ false true S13) Np NBC). intros h14 S14.
    apply (upK _ _ _ _ _ _ _ _ _ _ _ _ S14 (stB _ _ _ _ _ _ false false S14) (stK _ _ _ _ _ _ S14)). intros h15 S15.
    apply (rcC true false _ _ _ _ _ _ _ _ _ _ _ _ S15 (stA _ _ _ _ _ _ true false S15) (stK _ _ _ _ _ _ S15) NAC NSp). intros h16 S16.
    apply (upM _ _ _ _ _ _ _ _ _ _ _ _ S16 (stA _ _ _ _ _ _ true true S16) (stA _ _ _ _ _ _ false true S16)). intros h17 S17.
    apply (upK _ _ _ _ _ _ _ _ _ _ _ _ S17 (stB _ _ _ _ _ _ true true S17) (stB _ _ _ _ _ _ false true S17)). intros h18 S18.
    apply (rcU _ _ _ _ _ _ _ _ _ _ _ _ S18 (stM _ _ _ _ _ _ S18) (stK _ _ _ _ _ _ S18) NpU NSU). intros h19 S19.
    apply (upC true false _ _ _ _ _ _ _ _ _ _ _ _ S19 (stC _ _ _ _ _ _ true false S19) (stP _ _ _ _ _ _ S19)). intros h20 S20.
    apply (upC true true _ _ _ _ _ _ _ _ _ _ _ _ S20 (stC _ _ _ _ _ _ true true S20) (stP _ _ _ _ _ _ S20)). intros h21 S21.
    match type of S21 with st _ _ ?X _ _ _ => set (XX := X) in S21 end.
    assert (KEY : forall r s i j, i < mm -> j < nn -> XX r s i j = N.lxor (quads_of E mm nn r s i j) (mmul f (2 * kk) FA FB ((if r : bool then mm else 0) + i) ((if s : bool then nn else 0) + j))).
    { clear - f0. intros r s i j Hi Hj. rewrite mmul_2. subst XX. set (qa := quads_of FA mm kk). set (qb := quads_of FB kk nn). clearbody qa qb. set (qc := quads_of E mm nn). clearbody qc. clear - f0.
      destruct r, s; cbn [updq eqb andb]; xall f0. }
    clearbody XX. destruct S21 as (T1 & T2 & (Z & T3 & T3') & T4 & _).
    assert (VA : vh h21 vA f m k FA) by (apply (vh_same h h21); [apply T2; [exact LA|exact NA]|exact HA]). assert (VB : vh h21 vB f k n FB) by (apply (vh_same h h21); [apply T2; [exact LB|exact NB]|exact HB]).
    destruct (vaddrest_wr mulbs h21 vC vA vB f m k n mm kk nn _ FA FB E A Hb A1 A2 T4 VA VB NA NB Lm Lk Ln Hnn0 Mk2 Mn2) as (h22 & -> & W).
    { clear - KEY. intros i j Hi Hj. destruct (bulk_index mm nn i j Hi Hj) as (r & s & i' & j' & L1 & L2 & -> & ->). rewrite blkf_at by assumption. rewrite KEY by assumption. reflexivity. }
    { clear. intros i j Hi Hj Ho. unfold blkf. now replace (_ && _) with false by lia. }
    cbn [bind wp]. destruct W as (W1 & W2 & Z1 & Z2 & W3 & W4 & W5). fold pc in W2, W3, W4. assert (Z1 = Z) as -> by congruence.
    assert (NF : forall q, q < p -> nth_error (firstn p h22) q = nth_error h22 q) by (clear; intros q Hq; apply nth_error_firstn_lt; exact Hq).
    split; [rewrite firstn_length, W1, T1; clear; fold p; lia|]. split.
    { intros q Hq. fold pc in Hq. destruct (Nat.lt_ge_cases q p) as [Hl|Hl]; [rewrite NF, W2, T2 by assumption; reflexivity|].
      rewrite (proj2 (nth_error_None _ _)); [symmetry; apply nth_error_None; exact Hl|]. rewrite firstn_length. clear - Hl. lia. }
    exists Y0, Z2. fold pc. split; [exact C0|]. split; [rewrite NF by exact LC; exact W4|].
    eapply becomes_step; [exact T3'|exact W5|]. cbv beta. intros i j Hi Hj. unfold patch at 1 2. destruct (_ && _ && _ && _) eqn:Eb; [reflexivity|].
    rewrite (becomes_entry _ _ _ _ _ T3') by auto. unfold patch. now rewrite Eb.
Qed.
End St.
