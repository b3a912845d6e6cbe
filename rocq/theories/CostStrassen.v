(** The volume of the products to which Strassen's algorithm reduces a product, for matrices of any size. *)
From Coq Require Import NArith ZArith Lia List Bool Arith.
From Coq Require Import ZifyBool ZifyNat ZifyN.
From Verif Require Import Base Gf2eModel MzdModel MzedModel MzedSpec NjModel StrassenModel CostModel CostNjModel CostProofs CostNjWorst.
Import ListNotations.
Local Open Scope nat_scope.

Lemma closer_small a c : 0 < c -> closer a (a / 2) (Z.of_nat c) = true -> a <= 2 * c.
Proof.
  intros Hc H. unfold closer in H. apply Z.ltb_lt in H. pose proof (Nat.div_mod a 2 ltac:(lia)) as E. pose proof (Nat.mod_upper_bound a 2 ltac:(lia)) as Hm. lia.
Qed.
Lemma closer_le a c : 0 < a -> a <= c -> closer a (a / 2) (Z.of_nat c) = true.
Proof.
  intros Ha H. unfold closer. apply Z.ltb_lt. pose proof (Nat.div_mod a 2 ltac:(lia)) as E. pose proof (Nat.mod_upper_bound a 2 ltac:(lia)) as Hm. lia.
Qed.
Section Strassen.
Variables (w c : nat).
Let p := 64 / w.
Hypothesis (Hc : 0 < c) (Hp : p <> 0).
Lemma half_le m : 2 * half w m <= m.
Proof. unfold half. pose proof (Nat.mul_div_le m 2 ltac:(lia)). lia. Qed.
Lemma half_rest m : m - 2 * half w m <= 2 * p.
Proof.
  unfold half. fold p. pose proof (Nat.div_mod m 2 ltac:(lia)) as E. pose proof (Nat.mod_upper_bound m 2 ltac:(lia)). pose proof (Nat.mod_upper_bound (m / 2) p Hp). lia.
Qed.
(** V j + 8 p c^2 4^j = 7^j (8 c^3 + 8 p c^2) *)
Definition vol (j : nat) (lg : list call) : Prop := mults lg + 8 * p * (c * c) * 4 ^ j <= 7 ^ j * (8 * (c * c * c) + 8 * p * (c * c)).
Lemma pow_4_7 j : 4 ^ j <= 7 ^ j. Proof. apply Nat.pow_le_mono_l. lia. Qed.
Lemma pow_sq j : 2 ^ j * 2 ^ j = 4 ^ j. Proof. rewrite <- Nat.pow_mul_l. reflexivity. Qed.
Lemma vol_small j x y z t : (x <= 2 * c /\ y <= 2 ^ j * c /\ z <= 2 ^ j * c) -> t = x * (y * z) -> vol j [(1, 1, t)].
Proof.
  intros (Hx & Hy & Hz) ->. unfold vol. change (mults [(1, 1, x * (y * z))]) with (1 * 1 * (x * (y * z)) + 0). rewrite Nat.add_0_r, !Nat.mul_1_l.
  assert (H1 : x * (y * z) <= 2 * c * (4 ^ j * (c * c))).
  { apply Nat.mul_le_mono; [exact Hx|]. rewrite <- pow_sq. replace (2 ^ j * 2 ^ j * (c * c)) with ((2 ^ j * c) * (2 ^ j * c)) by ring. now apply Nat.mul_le_mono. }
  pose proof (pow_4_7 j) as H2. assert (H3 : 4 ^ j * (8 * (c * c * c) + 8 * p * (c * c)) <= 7 ^ j * (8 * (c * c * c) + 8 * p * (c * c))) by now apply Nat.mul_le_mono_r.
  replace (2 * c * (4 ^ j * (c * c))) with (4 ^ j * (2 * (c * c * c))) in H1 by ring. replace (8 * p * (c * c) * 4 ^ j) with (4 ^ j * (8 * p * (c * c))) by ring.
  rewrite Nat.mul_add_distr_l in H3. assert (4 ^ j * (2 * (c * c * c)) <= 4 ^ j * (8 * (c * c * c))) by (apply Nat.mul_le_mono_l; lia). lia.
Qed.
Lemma vol_0 j : vol j [].
Proof.
  unfold vol. change (mults []) with 0. pose proof (pow_4_7 j) as H2. rewrite Nat.add_0_l, Nat.mul_add_distr_l. assert (4 ^ j * (8 * p * (c * c)) <= 7 ^ j * (8 * p * (c * c))) by now apply Nat.mul_le_mono_r.
  replace (8 * p * (c * c) * 4 ^ j) with (4 ^ j * (8 * p * (c * c))) by ring. lia.
Qed.
Lemma vol_7 j l1 l2 l3 l4 l5 l6 l7 r : vol j l1 -> vol j l2 -> vol j l3 -> vol j l4 -> vol j l5 -> vol j l6 -> vol j l7 -> mults r <= 6 * p * (c * c) * 4 ^ S j ->
  vol (S j) (l1 ++ l2 ++ l3 ++ l4 ++ l5 ++ l6 ++ l7 ++ r).
Proof.
  unfold vol. rewrite !mults_app. change (4 ^ S j) with (4 * 4 ^ j). change (7 ^ S j) with (7 * 7 ^ j).
  set (X := 7 ^ j * (8 * (c * c * c) + 8 * p * (c * c))). replace (7 * 7 ^ j * (8 * (c * c * c) + 8 * p * (c * c))) with (7 * X) by (unfold X; ring).
  set (Y := p * (c * c) * 4 ^ j). replace (8 * p * (c * c) * 4 ^ j) with (8 * Y) by (unfold Y; ring). replace (8 * p * (c * c) * (4 * 4 ^ j)) with (32 * Y) by (unfold Y; ring).
  replace (6 * p * (c * c) * (4 * 4 ^ j)) with (24 * Y) by (unfold Y; ring). lia.
Qed.
Lemma logs_nj mb C A B : logs (nj_l mb C A B) (fun _ lg => lg = [(mz_nrows A, mz_ncols A, mz_ncols B)]).
Proof. intros y lg. unfold nj_l. destruct (mzed_mul_newton_john_ mb C A B); cbn; try easy. now intros [= _ <-]. Qed.
Lemma alw_window A lr lc hr hc : alw (mzed_window A lr lc hr hc) (fun W => mz_nrows W = hr - lr /\ mz_ncols W = hc - lc).
Proof. unfold mzed_window. apply alw_bind, alw_true. intros w'. apply alw_bind, alw_true. intros x. apply alw_ok. now split. Qed.
Lemma logs_onwin C lr lc hr hc op P : (forall W, logs (op W) (fun _ lg => P lg)) -> logs (on_win_l C lr lc hr hc op) (fun C' lg => like C C' /\ P lg).
Proof.
  intros H. unfold on_win_l. apply logs_q, alw_true. intros W. apply logs_bind. eapply logs_mono; [apply H|]. cbv beta. intros W' lg Hlg. apply logs_quiet, alw_ok. rewrite app_nil_r. split; [repeat split|exact Hlg].
Qed.
Lemma mults_1 x y z : mults [(x, y, z)] = x * y * z. Proof. cbn. lia. Qed.
Lemma logs_rest mb clr C A B mm kk nn d : mz_nrows A <= d -> mz_ncols A <= d -> mz_ncols B <= d ->
  2 * mm <= mz_nrows A -> 2 * nn <= mz_ncols B -> mz_nrows A - 2 * mm <= 2 * p -> mz_ncols A - 2 * kk <= 2 * p -> mz_ncols B - 2 * nn <= 2 * p ->
  logs (strassen_rest_l mb clr C A B mm kk nn) (fun C' lg => like C C' /\ mults lg <= 6 * p * (d * d)).
Proof.
  intros Hm Hk Hn Lm Ln Rm Rk Rn. unfold strassen_rest_l. cbv zeta.
  assert (V : forall a b e, a <= d -> b <= d -> e <= 2 * p -> a * b * e <= 2 * p * (d * d)) by (intros a b e Ha Hb He; rewrite (Nat.mul_comm (2 * p)); apply Nat.mul_le_mono; [now apply Nat.mul_le_mono|exact He]).
  assert (LT : forall X Y Z, like X Y -> like Y Z -> like X Z) by (intros X Y Z (E1 & E2 & E3 & E4) (G1 & G2 & G3 & G4); repeat split; congruence).
  apply logs_bind. eapply logs_mono with (P := fun C' lg => like C C' /\ mults lg <= 2 * p * (d * d)).
  { destruct (_ <? _); [|apply logs_quiet, alw_ok; split; [repeat split|cbn; lia]]. apply logs_q. eapply alw_mono; [apply alw_window|]. cbv beta. intros B' [_ EB].
    apply (logs_onwin _ _ _ _ _ _ (fun lg => mults lg <= 2 * p * (d * d))). intros W. apply logs_q, alw_true. intros W'. eapply logs_mono; [apply logs_nj|]. cbv beta. intros _ lg ->. rewrite mults_1, EB. apply V; assumption. }
  cbv beta. intros C1 l1 [H1 L1]. apply logs_bind. eapply logs_mono with (P := fun C' lg => like C1 C' /\ mults lg <= 2 * p * (d * d)).
  { destruct (_ <? _); [|apply logs_quiet, alw_ok; split; [repeat split|cbn; lia]]. apply logs_q. eapply alw_mono; [apply alw_window|]. cbv beta. intros A' [EA EA']. apply logs_q. eapply alw_mono; [apply alw_window|]. cbv beta. intros B' [_ EB].
    apply (logs_onwin _ _ _ _ _ _ (fun lg => mults lg <= 2 * p * (d * d))). intros W. apply logs_q, alw_true. intros W'. eapply logs_mono; [apply logs_nj|]. cbv beta. intros _ lg ->. rewrite mults_1, EA, EA', EB.
    replace ((mz_nrows A - 2 * mm) * (mz_ncols A - 0) * (2 * nn - 0)) with ((mz_ncols A - 0) * (2 * nn - 0) * (mz_nrows A - 2 * mm)) by ring. apply V; lia. }
  cbv beta. intros C2 l2 [H2 L2]. eapply logs_mono with (P := fun C' lg => like C2 C' /\ mults lg <= 2 * p * (d * d)).
  { destruct (_ <? _); [|apply logs_quiet, alw_ok; split; [repeat split|cbn; lia]]. apply logs_q. eapply alw_mono; [apply alw_window|]. cbv beta. intros A' [EA EA']. apply logs_q. eapply alw_mono; [apply alw_window|]. cbv beta. intros B' [_ EB].
    apply (logs_onwin _ _ _ _ _ _ (fun lg => mults lg <= 2 * p * (d * d))). intros W. eapply logs_mono; [apply logs_nj|]. cbv beta. intros _ lg ->. rewrite mults_1, EA, EA', EB.
    replace ((2 * mm - 0) * (mz_ncols A - 2 * kk) * (2 * nn - 0)) with ((2 * mm - 0) * (2 * nn - 0) * (mz_ncols A - 2 * kk)) by ring. apply V; lia. }
  cbv beta. intros C3 l3 [H3 L3]. split; [eapply LT; [exact H1|eapply LT; eassumption]|]. rewrite !mults_app. lia.
Qed.
Lemma logs_wr_vol j C mm nn r s op : gf2e_degree_to_w (mz_ff C) = Ok w -> (forall W, zd w mm nn W -> logs (op W) (fun _ lg => vol j lg)) ->
  logs (wr_l C mm nn r s op) (fun C' lg => like C C' /\ vol j lg).
Proof.
  intros E H. unfold wr_l, quad, on_win_l. apply logs_q. pose proof (alw_rd w C mm nn r s E) as R. unfold rd, quad in R. eapply alw_mono; [exact R|]. intros W HW.
  apply logs_bind. eapply logs_mono; [apply H, HW|]. cbv beta. intros W' lg Hlg. apply logs_quiet, alw_ok. rewrite app_nil_r. split; [repeat split|exact Hlg].
Qed.
Ltac zff := match goal with H : zd _ _ _ ?A |- gf2e_degree_to_w (mz_ff ?A) = _ => apply H | H : zd _ _ _ ?A |- mz_nrows ?A = _ => apply H | H : zd _ _ _ ?A |- mz_ncols ?A = _ => apply H end.
Ltac rstep IHm IH := lazymatch goal with
  | |- logs (lbind (quiet (rd _ _ _ _ _)) _) _ =>
      apply logs_q; eapply alw_mono; [apply (alw_rd w); zff|]; cbv beta; let x := fresh "x" in let H := fresh "H" in intros x H
  | |- logs (lbind (quiet (mzed_init _ _ _)) _) _ => apply logs_q; eapply alw_mono; [apply (alw_init w); zff|]; cbv beta; let x := fresh "x" in let H := fresh "H" in intros x H
  | |- logs (lbind (quiet (mzed_add_ ?U _ _)) _) _ =>
      apply logs_q; eapply alw_mono; [apply alw_zadd|]; cbv beta; let x := fresh "x" in let H := fresh "H" in intros x H;
      match goal with HU : zd _ _ _ U |- _ => apply (zd_like _ _ _ _ _ HU) in H end
  | |- logs (lbind (quiet (wr ?U _ _ _ _ _)) _) _ =>
      apply logs_q; eapply alw_mono; [apply alw_wr|]; cbv beta; let x := fresh "x" in let H := fresh "H" in intros x H;
      match goal with HU : zd _ _ _ U |- _ => apply (zd_like _ _ _ _ _ HU) in H end
  | |- logs (lbind (wr_l ?C _ _ _ _ _) _) _ =>
      apply logs_bind; eapply logs_mono; [eapply logs_wr_vol; [zff | let W := fresh "W" in let HW := fresh "HW" in intros W HW; eapply logs_mono; [eapply IH; eassumption | let X := fresh in intros ? ? [_ X]; exact X]] |];
      cbv beta; let x := fresh "x" in let lg := fresh "lg" in let H := fresh "H" in let Hl := fresh "Hl" in intros x lg [H Hl];
      match goal with HU : zd _ _ _ C |- _ => apply (zd_like _ _ _ _ _ HU) in H end
  | |- logs (lbind (mul_strassen_l _ _ ?C _ _ _) _) _ =>
      apply logs_bind; eapply logs_mono; [eapply IHm; eassumption |];
      cbv beta; let x := fresh "x" in let lg := fresh "lg" in let H := fresh "H" in let Hl := fresh "Hl" in intros x lg [H Hl];
      match goal with HU : zd _ _ _ C |- _ => apply (zd_like _ _ _ _ _ HU) in H end
  | |- logs (lbind (addmul_strassen_l _ _ ?C _ _ _) _) _ =>
      apply logs_bind; eapply logs_mono; [eapply IH; eassumption |];
      cbv beta; let x := fresh "x" in let lg := fresh "lg" in let H := fresh "H" in let Hl := fresh "Hl" in intros x lg [H Hl];
      match goal with HU : zd _ _ _ C |- _ => apply (zd_like _ _ _ _ _ HU) in H end
  | |- logs (lbind (quiet (mzed_mul_init None _ _ _)) _) _ => apply logs_q; eapply alw_mono; [eapply (alw_mul_init_none w); zff|]; cbv beta; let x := fresh "x" in let H := fresh "H" in intros x H
  end.
Lemma small_vol j A B : strassen_small A B (Z.of_nat c) = true -> mz_nrows A <= 2 ^ j * c -> mz_ncols A <= 2 ^ j * c -> mz_ncols B <= 2 ^ j * c -> vol j [(mz_nrows A, mz_ncols A, mz_ncols B)].
Proof.
  intros Hs H1 H2 H3. assert (E : forall t x y z, t = x * (y * z) -> vol j [(1, 1, t)] -> t = mz_nrows A * mz_ncols A * mz_ncols B -> vol j [(mz_nrows A, mz_ncols A, mz_ncols B)]).
  { intros t x y z _ V Et. unfold vol in *. rewrite mults_1 in *. now rewrite <- Et, !Nat.mul_1_l in *. }
  unfold strassen_small in Hs. rewrite !orb_true_iff in Hs. destruct Hs as [[Hs|Hs]|Hs]; apply closer_small in Hs; try exact Hc.
  - eapply (E _ (mz_nrows A) (mz_ncols A) (mz_ncols B) eq_refl); [eapply vol_small; [|reflexivity]; auto|ring].
  - eapply (E _ (mz_ncols A) (mz_nrows A) (mz_ncols B) eq_refl); [eapply vol_small; [|reflexivity]; auto|ring].
  - eapply (E _ (mz_ncols B) (mz_nrows A) (mz_ncols A) eq_refl); [eapply vol_small; [|reflexivity]; auto|ring].
Qed.
Lemma not_small_0 A B : strassen_small A B (Z.of_nat c) = false -> mz_nrows A <= c -> mz_ncols B <= c -> mz_nrows A = 0 /\ mz_ncols B = 0.
Proof.
  intros Hs H1 H3. unfold strassen_small in Hs. rewrite !orb_false_iff in Hs. destruct Hs as [[S1 S2] S3].
  split; [destruct (mz_nrows A) eqn:E; [reflexivity|]; rewrite closer_le in S1 by lia; discriminate S1|destruct (mz_ncols B) eqn:E; [reflexivity|]; rewrite closer_le in S3 by lia; discriminate S3].
Qed.
Lemma half_pow j m : m <= 2 ^ S j * c -> half w m <= 2 ^ j * c.
Proof. intros H. pose proof (half_le m). change (2 ^ S j) with (2 * 2 ^ j) in H. lia. Qed.
Lemma sq_pow j : (2 ^ j * c) * (2 ^ j * c) = (c * c) * 4 ^ j.
Proof. rewrite <- pow_sq. ring. Qed.
Lemma copied_like C D : alw (mzed_copy (Some C) D) (like C).
Proof. unfold mzed_copy. apply alw_bind, alw_ok, alw_bind, alw_true. intros _. apply alw_bind, alw_true. intros x. apply alw_ok. repeat split. Qed.
Lemma zd_zd m0 n0 A B : zd w m0 n0 A -> zd w m0 n0 B -> like A B.
Proof. intros (H1 & H2 & H3 & H4) (G1 & G2 & G3 & G4). repeat split; congruence. Qed.
Lemma logs_strassen_vol mb : forall j fuel m k n C A B, m <= 2 ^ j * c -> k <= 2 ^ j * c -> n <= 2 ^ j * c -> zd w m k A -> zd w k n B -> zd w m n C ->
  logs (mul_strassen_l mb fuel C A B (Z.of_nat c)) (fun C' lg => like C C' /\ vol j lg).
Proof.
  induction j as [|j IH]; intros [|fuel] m k n C A B Lm Lk Ln ZA ZB ZC; try easy; cbn [mul_strassen_l];
    pose proof ZA as (A1 & A2 & A3 & A4); pose proof ZC as (C1 & C2 & C3 & C4); pose proof ZB as (B1 & B2 & B3 & B4);
    (destruct ((mz_nrows C =? 0) && (mz_ncols C =? 0)) eqn:Ez; [apply logs_quiet, alw_ok; split; [repeat split|apply vol_0]|]);
    (destruct (strassen_small A B (Z.of_nat c)) eqn:Es;
      [apply logs_q, alw_true; intros D; apply logs_bind; eapply logs_mono; [apply logs_nj|]; cbv beta; intros D' lg ->; apply logs_quiet; eapply alw_mono; [apply copied_like|]; cbv beta; intros C' HC'; rewrite app_nil_r; split; [exact HC'|]; apply small_vol; [exact Es|lia|lia|lia]|]).
  - exfalso. rewrite Nat.mul_1_l in *. destruct (not_small_0 A B Es); lia.
  - cbv zeta. rewrite A2, A3, A4, B4. pose proof (half_pow j m Lm) as Hm. pose proof (half_pow j k Lk) as Hk. pose proof (half_pow j n Ln) as Hn.
    pose proof (half_le m). pose proof (half_le n). pose proof (half_rest m). pose proof (half_rest k). pose proof (half_rest n).
    remember (half w m) as mm eqn:Em. remember (half w k) as kk eqn:Ek. remember (half w n) as nn eqn:En. clear Em Ek En.
    assert (IH' := fun C A B => IH fuel mm kk nn C A B Hm Hk Hn). repeat (rstep IH' IH').
    eapply logs_mono; [apply (logs_rest _ _ _ _ _ _ _ _ (2 ^ S j * c)); lia|]. cbv beta. intros C' lg' [HL HV]. rewrite sq_pow in HV. split.
    + match goal with X : zd w m n ?U, Y : like ?U C' |- _ => pose proof (zd_like _ _ _ _ _ X Y) as Z end. eapply zd_zd; eassumption.
    + apply vol_7; try assumption. rewrite <- Nat.mul_assoc. exact HV.
Qed.
Lemma logs_addstrassen_vol mb : forall j fuel m k n C A B, m <= 2 ^ j * c -> k <= 2 ^ j * c -> n <= 2 ^ j * c -> zd w m k A -> zd w k n B -> zd w m n C ->
  logs (addmul_strassen_l mb fuel C A B (Z.of_nat c)) (fun C' lg => like C C' /\ vol j lg).
Proof.
  induction j as [|j IH]; intros [|fuel] m k n C A B Lm Lk Ln ZA ZB ZC; try easy; cbn [addmul_strassen_l];
    pose proof ZA as (A1 & A2 & A3 & A4); pose proof ZC as (C1 & C2 & C3 & C4); pose proof ZB as (B1 & B2 & B3 & B4);
    (destruct ((mz_nrows C =? 0) && (mz_ncols C =? 0)) eqn:Ez; [apply logs_quiet, alw_ok; split; [repeat split|apply vol_0]|]);
    (destruct (strassen_small A B (Z.of_nat c)) eqn:Es;
      [apply logs_q, alw_true; intros D; apply logs_bind; eapply logs_mono; [apply logs_nj|]; cbv beta; intros D' lg ->; apply logs_quiet; eapply alw_mono; [apply copied_like|]; cbv beta; intros C' HC'; rewrite app_nil_r; split; [exact HC'|]; apply small_vol; [exact Es|lia|lia|lia]|]).
  - exfalso. rewrite Nat.mul_1_l in *. destruct (not_small_0 A B Es); lia.
  - cbv zeta. rewrite A2, A3, A4, B4. pose proof (half_pow j m Lm) as Hm. pose proof (half_pow j k Lk) as Hk. pose proof (half_pow j n Ln) as Hn.
    pose proof (half_le m). pose proof (half_le n). pose proof (half_rest m). pose proof (half_rest k). pose proof (half_rest n).
    remember (half w m) as mm eqn:Em. remember (half w k) as kk eqn:Ek. remember (half w n) as nn eqn:En. clear Em Ek En.
    assert (IH' := fun C A B => IH fuel mm kk nn C A B Hm Hk Hn). assert (IHm := fun C A B => logs_strassen_vol mb j fuel mm kk nn C A B Hm Hk Hn). repeat (rstep IHm IH').
    eapply logs_mono; [apply (logs_rest _ _ _ _ _ _ _ _ (2 ^ S j * c)); lia|]. cbv beta. intros C' lg' [HL HV]. rewrite sq_pow in HV. split.
    + match goal with X : zd w m n ?U, Y : like ?U C' |- _ => pose proof (zd_like _ _ _ _ _ X Y) as Z end. eapply zd_zd; eassumption.
    + apply vol_7; try assumption. rewrite <- Nat.mul_assoc. exact HV.
Qed.
End Strassen.
