(** Products through a store when the target is not a factor: the target gets the product, nothing else changes (C62). *)
From Coq Require Import NArith ZArith Lia List Bool Arith.
From Coq Require Import Btauto ZifyBool ZifyNat ZifyN.
From Verif Require Import Base Spec LinSpec PolyFacts MatFacts Gf2xModel Gf2eModel Gf2eProofs.
From Verif Require Import MzdModel MzedModel MzedSpec LaneFacts MzedProofs MzedOps MzedOps2 NjModel NjTable NjMul StrassenModel StrassenProofs StrassenMain.
From Verif Require Import SliceModel KaraModel ConvModel MulModel MulProofs AliasModel AliasRows AliasProofs AliasStrassenModel AliasStrassen AliasStrassen2.
Import ListNotations.
Local Open Scope nat_scope.

Definition vh (h : store) (v : view) (f : N) (m n : nat) (F : mat) : Prop :=
  exists X, nth_error h (v_at v) = Some X /\ wf_mzed X /\ fld X = f /\
    v_lr v <= v_hr v <= mz_nrows X /\ v_lc v <= v_hc v <= mz_ncols X /\ v_lc v mod per (mz_w X) = 0 /\
    v_hr v - v_lr v = m /\ v_hc v - v_lc v = n /\ (forall i j, i < m -> j < n -> entry X (v_lr v + i) (v_lc v + j) = F i j).
Definition patch (v : view) (F E : mat) : mat := fun i j =>
  if (v_lr v <=? i) && (i <? v_hr v) && (v_lc v <=? j) && (j <? v_hc v) then F (i - v_lr v) (j - v_lc v) else E i j.
Definition wrote (h : store) (v : view) (F : mat) (h' : store) : Prop :=
  length h' = length h /\ (forall q, q <> v_at v -> nth_error h' q = nth_error h q) /\
  exists X Y, nth_error h (v_at v) = Some X /\ nth_error h' (v_at v) = Some Y /\ becomes X Y (patch v F (entry X)).

Lemma vh_same h h' v f m n F : nth_error h' (v_at v) = nth_error h (v_at v) -> vh h v f m n F -> vh h' v f m n F.
Proof. intros E (X & K). exists X. now rewrite E. Qed.
Lemma vh_ext h v f m n F G : vh h v f m n F -> meq m n F G -> vh h v f m n G.
Proof. intros (X & K1 & K2 & K3 & K4 & K5 & K6 & K7 & K8 & K9) E. exists X. repeat (split; [assumption|]). intros i j Hi Hj. rewrite K9 by auto. now apply E. Qed.
Lemma vh_lt h v f m n F : vh h v f m n F -> v_at v < length h.
Proof. intros (X & E & _). now apply stored_lt in E. Qed.
Lemma vh_win h v f m n F : vh h v f m n F -> exists X W, nth_error h (v_at v) = Some X /\ vget h v = Ok W /\ holds W f m n F /\ mz_ff W = mz_ff X /\ mz_w W = mz_w X.
Proof.
  intros (X & E & HX & F0 & R & C & M & E1 & E2 & Z). pose proof (holds_self X HX) as K. rewrite F0 in K.
  destruct (wp_ok _ _ (win_h X _ _ _ _ (v_lr v) (v_lc v) (v_hr v) (v_hc v) K R C M)) as (W & EW & HW & w1 & w2).
  exists X, W. unfold vget. rewrite (lget_stored _ _ _ E). cbn [bind]. rewrite E1, E2 in HW.
  split; [exact E|]. split; [exact EW|]. split; [|now split]. eapply holds_ext; [exact HW|]. intros i j Hi Hj. unfold sub. now apply Z.
Qed.
Lemma vget_h h v f m n F : vh h v f m n F -> exists W, vget h v = Ok W /\ holds W f m n F.
Proof. intros H. destruct (vh_win _ _ _ _ _ _ H) as (X & W & _ & E & K & _). eauto. Qed.
Lemma vset_wr h v f m n F op G : vh h v f m n F -> (forall W, holds W f m n F -> wp (op W) (fun W' => becomes W W' G)) ->
  exists h', vset h v op = Ok h' /\ wrote h v G h'.
Proof.
  intros (X & E & HX & F0 & R & C & M & E1 & E2 & Z) Hop. pose proof (holds_self X HX) as K. rewrite F0 in K.
  destruct (wp_ok _ _ (on_win_h X _ _ _ _ (v_lr v) (v_lc v) (v_hr v) (v_hc v) op G K R C M
     ltac:(intros W HW _ _; apply Hop; rewrite E1, E2 in HW; eapply holds_ext; [exact HW|]; intros i j Hi Hj; unfold sub; now apply Z))) as (X' & EX & BX).
  unfold vset. rewrite (lget_stored _ _ _ E). cbn [bind]. rewrite EX. cbn [bind]. rewrite (lset_stored _ _ _ _ E).
  exists (upd h (v_at v) X'). split; [reflexivity|]. split; [apply upd_length|]. split; [intros q Hq; apply (stored_upd_ne h _ q X X' E); auto|].
  exists X, X'. split; [exact E|]. split; [now apply (stored_upd_eq h _ X)|exact BX].
Qed.
Lemma wrote_vh h v f m n F G h' : vh h v f m n F -> wrote h v G h' -> vh h' v f m n G.
Proof.
  intros (X & E & HX & F0 & R & C & M & E1 & E2 & Z) (_ & _ & X1 & Y & K1 & K2 & B). assert (X1 = X) as -> by congruence.
  exists Y. rewrite (becomes_nr _ _ _ B), (becomes_nc _ _ _ B), (becomes_w _ _ _ B), (becomes_ff _ _ _ B).
  split; [exact K2|]. split; [exact (becomes_wf _ _ _ B)|]. repeat (split; [assumption|]). intros i j Hi Hj. rewrite (becomes_entry _ _ _ _ _ B) by lia. unfold patch.
  replace (_ && _ && _ && _) with true by lia. f_equal; lia.
Qed.
Lemma wrote_other h v u f m n F G h' : vh h u f m n F -> v_at u <> v_at v -> wrote h v G h' -> vh h' u f m n F.
Proof. intros Hu Hn (_ & Q & _). eapply vh_same; [|exact Hu]. now apply Q. Qed.
Lemma wrote_ext h v f m n F G G' h' : vh h v f m n F -> meq m n G G' -> wrote h v G h' -> wrote h v G' h'.
Proof.
  intros (X & E & HX & F0 & R & C & M & E1 & E2 & Z) EG (L & Q & X1 & Y & K1 & K2 & B). assert (X1 = X) as -> by congruence. split; [exact L|]. split; [exact Q|].
  exists X, Y. split; [exact E|]. split; [exact K2|]. eapply becomes_ext; [exact B|]. cbv beta. intros i j Hi Hj. unfold patch.
  destruct (_ && _ && _ && _) eqn:Eb; [|reflexivity]. apply EG; lia.
Qed.
Lemma wrote_refl h v f m n F : vh h v f m n F -> wrote h v F h.
Proof.
  intros (X & E & HX & F0 & R & C & M & E1 & E2 & Z). split; [reflexivity|]. split; [reflexivity|]. exists X, X. split; [exact E|]. split; [exact E|].
  eapply becomes_ext; [now apply becomes_refl|]. cbv beta. intros i j Hi Hj. unfold patch. destruct (_ && _ && _ && _) eqn:Eb; [|reflexivity].
  rewrite <- Z by lia. f_equal; lia.
Qed.
Lemma wrote_trans h v F h1 G h2 : wrote h v F h1 -> wrote h1 v G h2 -> wrote h v G h2.
Proof.
  intros (L & Q & X & Y & K1 & K2 & B) (L' & Q' & X' & Y' & K1' & K2' & B'). split; [congruence|]. split; [intros q Hq; rewrite Q', Q by auto; reflexivity|].
  assert (X' = Y) as -> by congruence. exists X, Y'. split; [exact K1|]. split; [exact K2'|]. eapply becomes_step; [exact B|exact B'|]. cbv beta. intros i j Hi Hj.
  unfold patch at 1 2. destruct (_ && _ && _ && _) eqn:Eb; [reflexivity|]. rewrite (becomes_entry _ _ _ _ _ B) by auto. unfold patch. now rewrite Eb.
Qed.
Lemma wrote_sub h v f m n F lr lc hr hc G h' : vh h v f m n F -> lr <= hr <= m -> lc <= hc <= n -> wrote h (vsub v lr lc hr hc) G h' ->
  wrote h v (fun i j => if (lr <=? i) && (i <? hr) && (lc <=? j) && (j <? hc) then G (i - lr) (j - lc) else F i j) h'.
Proof.
  intros (X & E & HX & F0 & R & C & M & E1 & E2 & Z) Hr Hc (L & Q & X1 & Y & K1 & K2 & B). cbn [v_at vsub] in *. assert (X1 = X) as -> by congruence.
  split; [exact L|]. split; [exact Q|]. exists X, Y. split; [exact E|]. split; [exact K2|]. eapply becomes_ext; [exact B|]. cbv beta. intros i j Hi Hj.
  unfold patch. cbn [v_lr v_lc v_hr v_hc vsub].
  destruct ((v_lr v <=? i) && (i <? v_hr v) && (v_lc v <=? j) && (j <? v_hc v)) eqn:Eb.
  - destruct ((lr <=? i - v_lr v) && (i - v_lr v <? hr) && (lc <=? j - v_lc v) && (j - v_lc v <? hc)) eqn:Ec.
    + replace (_ && _ && _ && _) with true by lia. f_equal; lia.
    + replace (_ && _ && _ && _) with false by lia. rewrite <- Z by lia. f_equal; lia.
  - replace (_ && _ && _ && _) with false by lia. reflexivity.
Qed.
Lemma vh_sub h v f m n F lr lc hr hc Y : vh h v f m n F -> wf_mzed Y -> fld Y = f -> lr <= hr <= m -> lc <= hc <= n -> lc mod per (mz_w Y) = 0 ->
  vh h (vsub v lr lc hr hc) f (hr - lr) (hc - lc) (sub F lr lc).
Proof.
  intros (X & E & W & F0 & R & C & M & E1 & E2 & Z) WY FY Hr Hc Hm.
  assert (Ew : mz_w X = mz_w Y) by (apply same_w; auto; congruence). rewrite <- Ew in Hm.
  exists X. unfold vsub. cbn [v_at v_lr v_lc v_hr v_hc].
  split; [exact E|]. split; [exact W|]. split; [exact F0|]. split; [lia|]. split; [lia|]. split.
  - pose proof (per_pos _ (wf_good X W)). rewrite Nat.add_mod by lia. rewrite M, Hm. rewrite Nat.add_0_l. now apply Nat.mod_0_l; lia.
  - split; [lia|]. split; [lia|]. intros i j Hi Hj. unfold sub. rewrite <- Z by lia. f_equal; lia.
Qed.
Lemma vh_whole h p X f m n F : nth_error h p = Some X -> holds X f m n F -> vh h (View p 0 0 m n) f m n F.
Proof.
  intros E (H1 & H2 & H3 & H4 & H5). exists X. cbn [v_at v_lr v_lc v_hr v_hc]. split; [exact E|]. split; [exact H1|]. split; [exact H2|].
  split; [lia|]. split; [lia|]. split; [pose proof (per_pos _ (wf_good X H1)); apply Nat.mod_0_l; lia|]. split; [lia|]. split; [lia|]. exact H5.
Qed.
Lemma quad_vh h v f m n F mm nn r s Y : vh h v f m n F -> wf_mzed Y -> fld Y = f -> 2 * mm <= m -> 2 * nn <= n -> nn mod per (mz_w Y) = 0 ->
  vh h (quad mm nn r s (vsub v)) f mm nn (quads_of F mm nn r s).
Proof.
  intros Hv WY FY Hm Hn Ha. unfold quad, quads_of.
  assert (M0 : (if s then nn else 0) mod per (mz_w Y) = 0) by (destruct s; [exact Ha|]; pose proof (per_pos _ (wf_good Y WY)); apply Nat.mod_0_l; lia).
  pose proof (vh_sub h v f m n F (if r then mm else 0) (if s then nn else 0) (if r then 2 * mm else mm) (if s then 2 * nn else nn) Y Hv WY FY
    ltac:(destruct r; lia) ltac:(destruct s; lia) M0) as S0.
  replace ((if r then 2 * mm else mm) - (if r then mm else 0)) with mm in S0 by (destruct r; lia).
  replace ((if s then 2 * nn else nn) - (if s then nn else 0)) with nn in S0 by (destruct s; lia). exact S0.
Qed.
Lemma quad_wrote h v f m n E X mm nn r s G h' : vh h v f m n (blkf mm nn E X) -> 2 * mm <= m -> 2 * nn <= n -> wrote h (quad mm nn r s (vsub v)) G h' ->
  wrote h v (blkf mm nn E (updq X r s G)) h'.
Proof.
  intros Hv Hm Hn Hw. unfold quad in Hw. eapply wrote_ext; [exact Hv| |eapply wrote_sub; [exact Hv| | |exact Hw]; [destruct r; lia|destruct s; lia]].
  intros i j Hi Hj. unfold blkf, updq.
  destruct (Nat.ltb_spec i (2 * mm)) as [Li|Li]; destruct (Nat.ltb_spec j (2 * nn)) as [Lj|Lj]; cbn [andb].
  2-4: replace (_ && _ && _ && _) with false by (destruct r, s; lia); reflexivity.
  destruct (Nat.leb_spec mm i) as [Mi|Mi]; destruct (Nat.leb_spec nn j) as [Mj|Mj]; destruct r, s; cbn [eqb andb];
    rewrite ?Nat.sub_0_r; first [replace (_ && _ && _ && _) with true by lia; reflexivity
      |replace (_ && _ && _ && _) with false by lia; reflexivity].
Qed.

(** ** steps *)
Lemma vadd_wr h vC vA vB f m n H F G : vh h vC f m n H -> vh h vA f m n F -> vh h vB f m n G -> exists h', vadd h vC vA vB = Ok h' /\ wrote h vC (madd F G) h'.
Proof.
  intros HC HA HB. destruct (vget_h _ _ _ _ _ _ HA) as (A & EA & KA). destruct (vget_h _ _ _ _ _ _ HB) as (B & EB & KB).
  unfold vadd. rewrite EA, EB. cbn [bind]. apply (vset_wr h vC f m n H); [exact HC|]. intros W HW. exact (add_h W A B f m n _ _ _ HW KA KB).
Qed.
Lemma vzero_wr h v f m n F : vh h v f m n F -> exists h', vzero h v = Ok h' /\ wrote h v mzero h'.
Proof.
  intros HC. apply (vset_wr h v f m n F); [exact HC|]. intros W HW. eapply wp_mono; [exact (zeroed_h true f W m n F HW)|]. cbv beta iota. intros W' B. exact B.
Qed.
Lemma vnj_wr mulbs h vC vA vB f m k n H F G : 16 <= mulbs -> 0 < n -> vh h vC f m n H -> vh h vA f m k F -> vh h vB f k n G ->
  v_at vA <> v_at vC -> v_at vB <> v_at vC -> exists h', vmul_nj mulbs h vC vA vB = Ok h' /\ wrote h vC (madd H (mmul f k F G)) h'.
Proof.
  intros Hb Hn HC HA HB NA NB. destruct (vget_h _ _ _ _ _ _ HA) as (A & EA & KA). destruct (vget_h _ _ _ _ _ _ HB) as (B & EB & KB).
  destruct (vset_wr h vC f m n H (fun V => mzed_mul_newton_john_ mulbs V A B) _ HC (fun W HW => nj_h mulbs W A B f m k n _ _ _ Hb Hn HW KA KB)) as (h' & Eh & Wh).
  exists h'. split; [|exact Wh].
  destruct (vh_win _ _ _ _ _ _ HC) as (X & W & EX & EW & KW & F1 & F2). destruct (vset_wr h vC f m n H (@Ok mzed) H HC) as (h0 & E0 & W0).
  { intros V HV. cbn [wp]. eapply becomes_meq; [exact HV|apply becomes_refl; exact (proj1 HV)|]. intros i j Hi Hj. destruct HV as (_ & _ & _ & _ & V5). now apply V5. }
  pose proof HC as (X1 & EX1 & HX & FX & R & C & M & E1 & E2 & Z). assert (X1 = X) as -> by congruence. clear EX1.
  assert (SW : wsh vC X W).
  { destruct KW as (W1 & W2 & W3 & W4 & W5). pose proof W1 as (_ & _ & x1 & x2 & x3 & x4 & _). unfold wsh. rewrite <- Nat.mul_sub_distr_l. rewrite x1, x2, x3, F2, W3, W4, E1, E2.
    repeat (split; [congruence|]). intros i Hi. destruct (x4 i ltac:(congruence)) as (x5 & _). unfold mrow in x5. now rewrite x5, F2, W4. }
  assert (EP : put h vC X W = h).
  { unfold vget in EW. rewrite (lget_stored _ _ _ EX) in EW. cbn [bind] in EW.
    unfold vset in E0. rewrite (lget_stored _ _ _ EX) in E0. cbn [bind] in E0. unfold on_win in E0. rewrite EW in E0. cbn [bind] in E0. rewrite (lset_stored _ _ _ _ EX) in E0.
    unfold put. injection E0 as E0. rewrite E0. destruct (wrote_refl _ _ _ _ _ _ HC) as (_ & _ & X2 & Y2 & K1 & K2 & B2). destruct W0 as (_ & _ & X3 & Y & K3 & K4 & B3).
    assert (X3 = X) as -> by congruence. rewrite <- E0. assert (Ey : mzed_unwindow X (v_lr vC) (v_lc vC) W = Y).
    { rewrite <- E0 in K4. rewrite (stored_upd_eq h _ X _ EX) in K4. congruence. }
    rewrite Ey. assert (Y = X) as ->; [|now apply upd_stored]. apply becomes_id; [exact HX|]. eapply becomes_ext; [exact B3|]. cbv beta. intros i j Hi Hj. unfold patch.
    destruct (_ && _ && _ && _) eqn:Eb; [|reflexivity]. rewrite <- Z by lia. f_equal; lia. }
  pose proof (nj_sim h vC X EX HX R C M vA vB A B NA NB EA EB mulbs W SW) as S0. rewrite EP in S0.
  pose proof (vset_put h vC X EX HX R C M W (fun V => mzed_mul_newton_john_ mulbs V A B) SW) as P0. rewrite EP, Eh in P0.
  destruct (wp_ok _ _ (nj_h mulbs W A B f m k n _ _ _ Hb Hn KW KA KB)) as (W' & EW' & BW'). rewrite EW' in S0, P0. cbn [bind simr] in S0, P0.
  destruct S0 as (a & -> & Ea & SW'). rewrite Ea. f_equal. symmetry. assert (Ok h' = Ok (put h vC X W')) by (apply P0; intros W2 E; assert (W2 = W') as -> by congruence; exact SW'). congruence.
Qed.

(** ** the left-over parts *)
Lemma vrest_wr mulbs h vC vA vB f m k n mm kk nn E FA FB Y : 16 <= mulbs -> wf_mzed Y -> fld Y = f ->
  vh h vC f m n E -> vh h vA f m k FA -> vh h vB f k n FB -> v_at vA <> v_at vC -> v_at vB <> v_at vC ->
  2 * mm <= m -> 2 * kk <= k -> 2 * nn <= n -> 0 < nn -> (2 * kk) mod per (mz_w Y) = 0 -> (2 * nn) mod per (mz_w Y) = 0 ->
  (forall i j, i < 2 * mm -> j < 2 * nn -> E i j = mmul f (2 * kk) FA FB i j) ->
  exists h', vstrassen_rest mulbs h vC vA vB m k n mm kk nn = Ok h' /\ wrote h vC (mmul f k FA FB) h'.
Proof.
  intros Hb WY FY HC HA HB NA NB Hm Hk Hn Hn0 Ak An HE.
  assert (A0 : 0 mod per (mz_w Y) = 0) by (pose proof (per_pos _ (wf_good Y WY)); apply Nat.mod_0_l; lia).
  set (P := mmul f k FA FB). unfold vstrassen_rest.
  assert (S1 : exists h1, (if 2 * nn <? n then h <- vzero h (vsub vC 0 (2 * nn) m n) ;; vmul_nj mulbs h (vsub vC 0 (2 * nn) m n) vA (vsub vB 0 (2 * nn) k n) else Ok h) = Ok h1 /\
            wrote h vC (fun i j => if 2 * nn <=? j then P i j else E i j) h1).
  { destruct (Nat.ltb_spec (2 * nn) n) as [L|L].
    - pose proof (vh_sub _ _ _ _ _ _ 0 (2 * nn) m n Y HC WY FY ltac:(lia) ltac:(lia) An) as VC. pose proof (vh_sub _ _ _ _ _ _ 0 (2 * nn) k n Y HB WY FY ltac:(lia) ltac:(lia) An) as VB. rewrite Nat.sub_0_r in VC, VB.
      destruct (vzero_wr _ _ _ _ _ _ VC) as (h0 & -> & W0). cbn [bind].
      destruct (vnj_wr mulbs h0 (vsub vC 0 (2 * nn) m n) vA (vsub vB 0 (2 * nn) k n) f m k (n - 2 * nn) mzero FA (sub FB 0 (2 * nn)) Hb ltac:(lia)
        (wrote_vh _ _ _ _ _ _ _ _ VC W0) (wrote_other _ (vsub vC 0 (2 * nn) m n) _ _ _ _ _ _ _ HA NA W0) (wrote_other _ (vsub vC 0 (2 * nn) m n) (vsub vB 0 (2 * nn) k n) _ _ _ _ _ _ VB NB W0) NA NB) as (h1 & -> & W1).
      exists h1. split; [reflexivity|]. eapply wrote_ext; [exact HC| |eapply wrote_sub; [exact HC| | |exact (wrote_trans _ _ _ _ _ _ W0 W1)]; lia].
      intros i j Hi Hj. replace (_ && _ && _ && _) with (2 * nn <=? j) by lia. destruct (Nat.leb_spec (2 * nn) j); [|reflexivity].
      unfold madd, mzero. rewrite N.lxor_0_l, Nat.sub_0_r. unfold P, mmul, sub. apply xsum_ext. intros l Hl. cbn [Nat.add]. f_equal. f_equal; lia.
    - exists h. split; [reflexivity|]. eapply wrote_ext; [exact HC| |exact (wrote_refl _ _ _ _ _ _ HC)]. intros i j Hi Hj. now replace (2 * nn <=? j) with false by lia. }
  destruct S1 as (h1 & -> & W1). cbn [bind].
  pose proof (wrote_vh _ _ _ _ _ _ _ _ HC W1) as HC1. pose proof (wrote_other _ _ _ _ _ _ _ _ _ HA NA W1) as HA1. pose proof (wrote_other _ _ _ _ _ _ _ _ _ HB NB W1) as HB1.
  assert (S2 : exists h2, (if 2 * mm <? m then h <- vzero h1 (vsub vC (2 * mm) 0 m (2 * nn)) ;; vmul_nj mulbs h (vsub vC (2 * mm) 0 m (2 * nn)) (vsub vA (2 * mm) 0 m k) (vsub vB 0 0 k (2 * nn)) else Ok h1) = Ok h2 /\
            wrote h1 vC (fun i j => if (2 * mm <=? i) || (2 * nn <=? j) then P i j else E i j) h2).
  { destruct (Nat.ltb_spec (2 * mm) m) as [L|L].
    - pose proof (vh_sub _ _ _ _ _ _ (2 * mm) 0 m (2 * nn) Y HC1 WY FY ltac:(lia) ltac:(lia) A0) as VC. pose proof (vh_sub _ _ _ _ _ _ (2 * mm) 0 m k Y HA1 WY FY ltac:(lia) ltac:(lia) A0) as VA.
      pose proof (vh_sub _ _ _ _ _ _ 0 0 k (2 * nn) Y HB1 WY FY ltac:(lia) ltac:(lia) A0) as VB. rewrite Nat.sub_0_r in VC, VA. rewrite !Nat.sub_0_r in VB.
      destruct (vzero_wr _ _ _ _ _ _ VC) as (h0 & -> & W0). cbn [bind].
      destruct (vnj_wr mulbs h0 (vsub vC (2 * mm) 0 m (2 * nn)) (vsub vA (2 * mm) 0 m k) (vsub vB 0 0 k (2 * nn)) f (m - 2 * mm) k (2 * nn) mzero (sub FA (2 * mm) 0) (sub FB 0 0) Hb ltac:(lia)
        (wrote_vh _ _ _ _ _ _ _ _ VC W0) (wrote_other _ (vsub vC (2 * mm) 0 m (2 * nn)) (vsub vA (2 * mm) 0 m k) _ _ _ _ _ _ VA NA W0) (wrote_other _ (vsub vC (2 * mm) 0 m (2 * nn)) (vsub vB 0 0 k (2 * nn)) _ _ _ _ _ _ VB NB W0) NA NB) as (h2 & -> & W2).
      exists h2. split; [reflexivity|]. eapply wrote_ext; [exact HC1| |eapply wrote_sub; [exact HC1| | |exact (wrote_trans _ _ _ _ _ _ W0 W2)]; lia].
      intros i j Hi Hj. destruct (Nat.leb_spec (2 * nn) j).
      + replace (_ && _ && _ && _) with false by lia. now rewrite orb_true_r.
      + rewrite orb_false_r. replace (_ && _ && _ && _) with (2 * mm <=? i) by lia. destruct (Nat.leb_spec (2 * mm) i); [|reflexivity].
        unfold madd, mzero. rewrite N.lxor_0_l, Nat.sub_0_r. unfold P, mmul, sub. apply xsum_ext. intros l Hl. cbn [Nat.add]. f_equal. f_equal; lia.
    - exists h1. split; [reflexivity|]. eapply wrote_ext; [exact HC1| |exact (wrote_refl _ _ _ _ _ _ HC1)]. intros i j Hi Hj. cbv beta. now replace (2 * mm <=? i) with false by lia. }
  destruct S2 as (h2 & -> & W2). cbn [bind].
  pose proof (wrote_vh _ _ _ _ _ _ _ _ HC1 W2) as HC2. pose proof (wrote_other _ _ _ _ _ _ _ _ _ HA1 NA W2) as HA2. pose proof (wrote_other _ _ _ _ _ _ _ _ _ HB1 NB W2) as HB2.
  destruct (Nat.ltb_spec (2 * kk) k) as [L|L].
  - pose proof (vh_sub _ _ _ _ _ _ 0 0 (2 * mm) (2 * nn) Y HC2 WY FY ltac:(lia) ltac:(lia) A0) as VC. pose proof (vh_sub _ _ _ _ _ _ 0 (2 * kk) (2 * mm) k Y HA2 WY FY ltac:(lia) ltac:(lia) Ak) as VA.
    pose proof (vh_sub _ _ _ _ _ _ (2 * kk) 0 k (2 * nn) Y HB2 WY FY ltac:(lia) ltac:(lia) A0) as VB. rewrite !Nat.sub_0_r in VC. rewrite Nat.sub_0_r in VA, VB.
    destruct (vnj_wr mulbs h2 (vsub vC 0 0 (2 * mm) (2 * nn)) (vsub vA 0 (2 * kk) (2 * mm) k) (vsub vB (2 * kk) 0 k (2 * nn)) f (2 * mm) (k - 2 * kk) (2 * nn) _ (sub FA 0 (2 * kk)) (sub FB (2 * kk) 0) Hb ltac:(lia) VC VA VB NA NB) as (h3 & -> & W3).
    exists h3. split; [reflexivity|]. eapply wrote_trans; [exact W1|]. eapply wrote_trans; [exact W2|].
    eapply wrote_ext; [exact HC2| |eapply wrote_sub; [exact HC2| | |exact W3]; lia].
    intros i j Hi Hj. cbv beta. destruct (Nat.leb_spec (2 * mm) i); destruct (Nat.leb_spec (2 * nn) j); cbn [orb].
    1-3: replace (_ && _ && _ && _) with false by lia; reflexivity.
    replace (_ && _ && _ && _) with true by lia. rewrite !Nat.sub_0_r. unfold madd. unfold sub at 1. cbn [Nat.add].
    replace ((2 * mm <=? i) || (2 * nn <=? j)) with false by lia. rewrite HE by lia. unfold P. replace k with (2 * kk + (k - 2 * kk)) at 2 by lia. rewrite mmul_split. reflexivity.
  - exists h2. split; [reflexivity|]. eapply wrote_trans; [exact W1|]. eapply wrote_ext; [exact HC1| |exact W2].
    intros i j Hi Hj. cbv beta. destruct (Nat.leb_spec (2 * mm) i); destruct (Nat.leb_spec (2 * nn) j); cbn [orb]; try reflexivity. rewrite HE by lia. unfold P. now replace (2 * kk) with k by lia.
Qed.

(** ** Strassen *)
Lemma nth_error_firstn_lt {X} (l : list X) p q : q < p -> nth_error (firstn p l) q = nth_error l q.
Proof. revert l q. induction p as [|p IH]; intros [|x l] [|q] H; cbn; auto; try lia. apply IH. lia. Qed.
Section St.
Variables (mulbs : nat) (cutoff : Z).
Hypothesis (Hb : 16 <= mulbs).

Theorem vmul_strassen_wr fuel : forall h vC vA vB f m k n E FA FB Y, m + n < fuel -> 0 < n -> wf_mzed Y -> fld Y = f -> ok_cut cutoff Y ->
  vh h vC f m n E -> vh h vA f m k FA -> vh h vB f k n FB -> v_at vA <> v_at vC -> v_at vB <> v_at vC ->
  exists h', vmul_strassen mulbs fuel h vC vA vB cutoff = Ok h' /\ wrote h vC (mmul f k FA FB) h'.
Proof.
  induction fuel as [|fuel IH]; [lia|]. intros h vC vA vB f m k n E FA FB Y Hfu Hn WY FY Hcut HC HA HB NA NB.
  destruct (vget_h _ _ _ _ _ _ HC) as (C & EC & KC). destruct (vget_h _ _ _ _ _ _ HA) as (A & EA & KA). destruct (vget_h _ _ _ _ _ _ HB) as (B & EB & KB).
  pose proof KC as (C1 & C2 & C3 & C4 & _). pose proof KA as (A1 & A2 & A3 & A4 & _). pose proof KB as (B1 & B2 & B3 & B4 & _).
  cbn [vmul_strassen]. rewrite EC, EA, EB. cbn [bind]. rewrite C4. replace ((mz_nrows C =? 0) && (n =? 0)) with false by lia.
  assert (wA : mz_w A = mz_w Y) by (apply same_w; auto; congruence).
  destruct (strassen_small A B cutoff) eqn:Sm.
  - destruct (wf_deg2 C C1) as [G1 G2]. destruct (wp_ok _ _ (init_h (mz_ff C) (mz_nrows C) n G1 G2)) as (D & ED & HD). rewrite ED. cbn [bind]. rewrite C2, C3 in HD.
    destruct (wp_ok _ _ (nj_h mulbs D A B f m k n _ _ _ Hb Hn HD KA KB)) as (D' & ED' & BD). rewrite ED'. cbn [bind].
    pose proof (holds_becomes _ _ _ _ _ _ _ HD BD) as HD'. pose proof HD' as (D1 & D2 & D3 & D4 & D5).
    apply (vset_wr h vC f m n E); [exact HC|]. intros W (W1 & W2 & W3 & W4 & W5).
    eapply wp_mono; [apply (mzed_copy_ok (Some W) D' D1); split; [exact W1|split; [congruence|split; congruence]]|].
    cbv beta. intros W' (_ & BW). eapply becomes_ext; [exact (BW W eq_refl)|]. intros i j Hi Hj. rewrite D5 by lia. unfold madd, mzero. now rewrite N.lxor_0_l.
  - assert (f0 : f <> 0%N) by (rewrite <- A2; now apply wf_f0).
    assert (Gw := wf_good A A1). assert (Hcl : closer n (n / 2) cutoff = false).
    { unfold strassen_small in Sm. rewrite B4 in Sm. apply orb_false_iff in Sm. now destruct Sm. }
    assert (Hcut' : (3 * Z.of_nat (per (mz_w A)) <= 2 * cutoff)%Z) by (unfold ok_cut in Hcut; now rewrite wA).
    assert (Hnn0 := half_pos (mz_w A) n cutoff Gw Hn Hcut' Hcl).
    destruct (half_le (mz_w A) m) as [_ Lm]. destruct (half_le (mz_w A) k) as [_ Lk]. destruct (half_le (mz_w A) n) as [_ Ln].
    assert (Mk := half_mod (mz_w A) k Gw). assert (Mn := half_mod (mz_w A) n Gw). assert (Mk2 := half2_mod (mz_w A) k Gw). assert (Mn2 := half2_mod (mz_w A) n Gw).
    rewrite A3, A4, B4. set (mm := half (mz_w A) m) in *. set (kk := half (mz_w A) k) in *. set (nn := half (mz_w A) n) in *. clearbody mm kk nn.
    cbv zeta. destruct (wf_deg2 A A1) as [G1 G2].
    destruct (wp_ok _ _ (init_h (mz_ff A) mm kk G1 G2)) as (M & EM & HM). rewrite EM. cbn [bind].
    destruct (wp_ok _ _ (init_h (mz_ff A) kk nn G1 G2)) as (K & EK & HK). rewrite EK. cbn [bind]. rewrite A2 in HM, HK.
    set (p := length h).
    pose proof (vh_lt _ _ _ _ _ _ HC) as LC. pose proof (vh_lt _ _ _ _ _ _ HA) as LA. pose proof (vh_lt _ _ _ _ _ _ HB) as LB. fold p in LC, LA, LB.
    set (pc := v_at vC) in *.
    destruct HC as (Y0 & C0 & HC'). assert (HC : vh h vC f m n E) by (exists Y0; now split). fold pc in C0.
    (* the state: the target, the objects of h, Wmk, Wkn, and the rest *)
    set (st := fun (h' : store) (L : nat) (X : quads) (FM FK : mat) (PP : option mat) =>
      length h' = L /\ (forall q, q < p -> q <> pc -> nth_error h' q = nth_error h q) /\
      (exists Z, nth_error h' pc = Some Z /\ becomes Y0 Z (patch vC (blkf mm nn E X) (entry Y0))) /\ vh h' vC f m n (blkf mm nn E X) /\
      vh h' (View p 0 0 mm kk) f mm kk FM /\ vh h' (View (S p) 0 0 kk nn) f kk nn FK /\ match PP with Some F => vh h' (View (S (S p)) 0 0 mm nn) f mm nn F | None => True end).
    assert (stA : forall h' L X FM FK PP r s, st h' L X FM FK PP -> vh h' (quad mm kk r s (vsub vA)) f mm kk (quads_of FA mm kk r s)).
    { intros h' L X FM FK PP r s (_ & S1 & _). apply (quad_vh h' vA f m k FA mm kk r s A); auto. apply (vh_same h h'); auto. }
    assert (stB : forall h' L X FM FK PP r s, st h' L X FM FK PP -> vh h' (quad kk nn r s (vsub vB)) f kk nn (quads_of FB kk nn r s)).
    { intros h' L X FM FK PP r s (_ & S1 & _). apply (quad_vh h' vB f k n FB kk nn r s A); auto. apply (vh_same h h'); auto. }
    assert (stC : forall h' L X FM FK PP r s, st h' L X FM FK PP -> vh h' (quad mm nn r s (vsub vC)) f mm nn (X r s)).
    { intros h' L X FM FK PP r s (_ & _ & _ & S1 & _). eapply vh_ext; [apply (quad_vh h' vC f m n _ mm nn r s A S1); auto|]. intros i j Hi Hj. unfold quads_of, sub. now apply blkf_at. }
    assert (stM : forall h' L X FM FK PP, st h' L X FM FK PP -> vh h' (View p 0 0 mm kk) f mm kk FM) by (intros h' L X FM FK PP S1; apply S1).
    assert (stK : forall h' L X FM FK PP, st h' L X FM FK PP -> vh h' (View (S p) 0 0 kk nn) f kk nn FK) by (intros h' L X FM FK PP S1; apply S1).
    assert (stP : forall h' L X FM FK F, st h' L X FM FK (Some F) -> vh h' (View (S (S p)) 0 0 mm nn) f mm nn F) by (intros h' L X FM FK F S1; apply S1).
    assert (S0 : st (h ++ [M; K]) (S (S p)) (quads_of E mm nn) mzero mzero None).
    { split; [rewrite app_length; cbn [length]; fold p; lia|]. split; [intros q Hq _; now apply nth_app_old|]. split; [|split; [|split; [|split; [|exact I]]]].
      - exists Y0. split; [rewrite nth_app_old by exact LC; exact C0|]. destruct (wrote_refl _ _ _ _ _ _ HC) as (_ & _ & X1 & X2 & K1 & K2 & K3). fold pc in K1, K2.
        assert (X1 = Y0) as -> by congruence. assert (X2 = Y0) as -> by congruence. eapply becomes_ext; [exact K3|]. cbv beta. intros i j Hi Hj. unfold patch. now rewrite blkf_quads_of.
      - eapply vh_ext; [apply (vh_same h); [now apply nth_app_old|exact HC]|]. intros i j _ _. now rewrite blkf_quads_of.
      - apply vh_whole with (X := M); [rewrite nth_error_app2 by (fold p; lia); fold p; rewrite Nat.sub_diag; reflexivity|exact HM].
      - apply vh_whole with (X := K); [rewrite nth_error_app2 by (fold p; lia); fold p; replace (S p - p) with 1 by (clear; lia); reflexivity|exact HK]. }
    assert (NE : forall q, q < p -> q <> p /\ q <> S p /\ q <> S (S p)) by (clear; intros; lia).
    assert (NE1 : p <> S p /\ p <> S (S p) /\ S p <> S (S p) /\ S p <> p /\ S (S p) <> p /\ S (S p) <> S p) by (clear; lia).
    (* the three kinds of writes *)
    assert (WC : forall h' h'' L X FM FK PP r s F, st h' L X FM FK PP -> wrote h' (quad mm nn r s (vsub vC)) F h'' -> st h'' L (updq X r s F) FM FK PP).
    { intros h' h'' L X FM FK PP r s F (T1 & T2 & (Z & T3 & T3') & T4 & T5 & T6 & T7) Hw. pose proof (quad_wrote h' vC f m n E X mm nn r s F h'' T4 Lm Ln Hw) as Hw'.
      pose proof Hw' as (W1 & W2 & Z1 & Z2 & W3 & W4 & W5). fold pc in W2, W3, W4. assert (Z1 = Z) as -> by congruence.
      split; [congruence|]. split; [intros q Hq Hne; rewrite W2 by exact Hne; apply T2; assumption|]. split.
      { exists Z2. split; [exact W4|]. eapply becomes_step; [exact T3'|exact W5|]. cbv beta. intros i j Hi Hj. unfold patch at 1 2. destruct (_ && _ && _ && _) eqn:Eb; [reflexivity|].
        rewrite (becomes_entry _ _ _ _ _ T3') by auto. unfold patch. now rewrite Eb. }
      split; [exact (wrote_vh _ _ _ _ _ _ _ _ T4 Hw')|].
      split; [apply (wrote_other _ _ _ _ _ _ _ _ _ T5) with (2 := Hw'); cbn [v_at]; fold pc; solve [apply NE, LC|apply not_eq_sym, NE, LC|apply NE1]|].
      split; [apply (wrote_other _ _ _ _ _ _ _ _ _ T6) with (2 := Hw'); cbn [v_at]; fold pc; solve [apply NE, LC|apply not_eq_sym, NE, LC|apply NE1]|].
      destruct PP; [|exact I]. apply (wrote_other _ _ _ _ _ _ _ _ _ T7) with (2 := Hw'); cbn [v_at]; fold pc; solve [apply NE, LC|apply not_eq_sym, NE, LC|apply NE1]. }
    assert (WM : forall h' h'' L X FM FK PP F, st h' L X FM FK PP -> wrote h' (View p 0 0 mm kk) F h'' -> st h'' L X F FK PP).
    { intros h' h'' L X FM FK PP F (T1 & T2 & (Z & T3 & T3') & T4 & T5 & T6 & T7) Hw. pose proof Hw as (W1 & W2 & _). cbn [v_at] in W2.
      split; [congruence|]. split; [intros q Hq Hne; rewrite W2 by (apply NE; assumption); apply T2; assumption|]. split; [exists Z; rewrite W2 by (apply NE; assumption); split; assumption|].
      split; [apply (wrote_other _ _ _ _ _ _ _ _ _ T4) with (2 := Hw); cbn [v_at]; fold pc; solve [apply NE, LC|apply not_eq_sym, NE, LC|apply NE1]|].
      split; [exact (wrote_vh _ _ _ _ _ _ _ _ T5 Hw)|].
      split; [apply (wrote_other _ _ _ _ _ _ _ _ _ T6) with (2 := Hw); cbn [v_at]; apply NE1|].
      destruct PP; [|exact I]. apply (wrote_other _ _ _ _ _ _ _ _ _ T7) with (2 := Hw); cbn [v_at]; apply NE1. }
    assert (WK : forall h' h'' L X FM FK PP F, st h' L X FM FK PP -> wrote h' (View (S p) 0 0 kk nn) F h'' -> st h'' L X FM F PP).
    { intros h' h'' L X FM FK PP F (T1 & T2 & (Z & T3 & T3') & T4 & T5 & T6 & T7) Hw. pose proof Hw as (W1 & W2 & _). cbn [v_at] in W2.
      split; [congruence|]. split; [intros q Hq Hne; rewrite W2 by (apply NE; assumption); apply T2; assumption|]. split; [exists Z; rewrite W2 by (apply NE; assumption); split; assumption|].
      split; [apply (wrote_other _ _ _ _ _ _ _ _ _ T4) with (2 := Hw); cbn [v_at]; fold pc; solve [apply NE, LC|apply not_eq_sym, NE, LC|apply NE1]|].
      split; [apply (wrote_other _ _ _ _ _ _ _ _ _ T5) with (2 := Hw); cbn [v_at]; apply NE1|].
      split; [exact (wrote_vh _ _ _ _ _ _ _ _ T6 Hw)|].
      destruct PP; [|exact I]. apply (wrote_other _ _ _ _ _ _ _ _ _ T7) with (2 := Hw); cbn [v_at]; apply NE1. }
    assert (WP : forall h' h'' L X FM FK F0 F, st h' L X FM FK (Some F0) -> wrote h' (View (S (S p)) 0 0 mm nn) F h'' -> st h'' L X FM FK (Some F)).
    { intros h' h'' L X FM FK F0 F (T1 & T2 & (Z & T3 & T3') & T4 & T5 & T6 & T7) Hw. pose proof Hw as (W1 & W2 & _). cbn [v_at] in W2.
      split; [congruence|]. split; [intros q Hq Hne; rewrite W2 by (apply NE; assumption); apply T2; assumption|]. split; [exists Z; rewrite W2 by (apply NE; assumption); split; assumption|].
      split; [apply (wrote_other _ _ _ _ _ _ _ _ _ T4) with (2 := Hw); cbn [v_at]; fold pc; solve [apply NE, LC|apply not_eq_sym, NE, LC|apply NE1]|].
      split; [apply (wrote_other _ _ _ _ _ _ _ _ _ T5) with (2 := Hw); cbn [v_at]; apply NE1|].
      split; [apply (wrote_other _ _ _ _ _ _ _ _ _ T6) with (2 := Hw); cbn [v_at]; apply NE1|].
      exact (wrote_vh _ _ _ _ _ _ _ _ T7 Hw). }
    assert (REC : forall h' c a b H0 FA' FB', vh h' c f mm nn H0 -> vh h' a f mm kk FA' -> vh h' b f kk nn FB' -> v_at a <> v_at c -> v_at b <> v_at c ->
       exists h'', vmul_strassen mulbs fuel h' c a b cutoff = Ok h'' /\ wrote h' c (mmul f kk FA' FB') h'').
    { intros h' c a b H0 FA' FB' K1 K2 K3 K4 K5. assert (Hfu' : mm + nn < fuel) by (clear - Hfu Lm Ln Hnn0; lia). exact (IH h' c a b f mm kk nn H0 FA' FB' Y Hfu' Hnn0 WY FY Hcut K1 K2 K3 K4 K5). }
    assert (NAC : v_at vA <> pc) by exact NA. assert (NBC : v_at vB <> pc) by exact NB.
    match goal with |- exists h', ?x = Ok h' /\ _ => enough (KK : wp x (fun h' => wrote h vC (mmul f k FA FB) h')) by (destruct (wp_ok _ _ KK) as (h' & Eh & Wh); exists h'; split; [exact Eh|exact Wh]) end.
    assert (upM : forall h' L X FM FK PP a b F G (P : store -> Prop) kont, st h' L X FM FK PP -> vh h' a f mm kk F -> vh h' b f mm kk G ->
      (forall h'', st h'' L X (madd F G) FK PP -> wp (kont h'') P) -> wp (bind (vadd h' (View p 0 0 mm kk) a b) kont) P).
    { intros h' L X FM FK PP a b F G P kont S1 Va Vb Hk. destruct (vadd_wr h' _ a b f mm kk _ F G (stM _ _ _ _ _ _ S1) Va Vb) as (h'' & -> & W). cbn [bind]. apply Hk. exact (WM _ _ _ _ _ _ _ _ S1 W). }
    assert (upK : forall h' L X FM FK PP a b F G (P : store -> Prop) kont, st h' L X FM FK PP -> vh h' a f kk nn F -> vh h' b f kk nn G ->
      (forall h'', st h'' L X FM (madd F G) PP -> wp (kont h'') P) -> wp (bind (vadd h' (View (S p) 0 0 kk nn) a b) kont) P).
    { intros h' L X FM FK PP a b F G P kont S1 Va Vb Hk. destruct (vadd_wr h' _ a b f kk nn _ F G (stK _ _ _ _ _ _ S1) Va Vb) as (h'' & -> & W). cbn [bind]. apply Hk. exact (WK _ _ _ _ _ _ _ _ S1 W). }
    assert (upC : forall r s h' L X FM FK PP a b F G (P : store -> Prop) kont, st h' L X FM FK PP -> vh h' a f mm nn F -> vh h' b f mm nn G ->
      (forall h'', st h'' L (updq X r s (madd F G)) FM FK PP -> wp (kont h'') P) -> wp (bind (vadd h' (quad mm nn r s (vsub vC)) a b) kont) P).
    { intros r s h' L X FM FK PP a b F G P kont S1 Va Vb Hk. destruct (vadd_wr h' _ a b f mm nn _ F G (stC _ _ _ _ _ _ r s S1) Va Vb) as (h'' & -> & W). cbn [bind]. apply Hk. exact (WC _ _ _ _ _ _ _ _ _ _ S1 W). }
    assert (rcC : forall r s h' L X FM FK PP a b F G (P : store -> Prop) kont, st h' L X FM FK PP -> vh h' a f mm kk F -> vh h' b f kk nn G -> v_at a <> pc -> v_at b <> pc ->
      (forall h'', st h'' L (updq X r s (mmul f kk F G)) FM FK PP -> wp (kont h'') P) -> wp (bind (vmul_strassen mulbs fuel h' (quad mm nn r s (vsub vC)) a b cutoff) kont) P).
    { intros r s h' L X FM FK PP a b F G P kont S1 Va Vb Na Nb Hk. destruct (REC h' _ a b _ F G (stC _ _ _ _ _ _ r s S1) Va Vb Na Nb) as (h'' & -> & W). cbn [bind]. apply Hk. exact (WC _ _ _ _ _ _ _ _ _ _ S1 W). }
    assert (rcP : forall h' L X FM FK F0 a b F G (P : store -> Prop) kont, st h' L X FM FK (Some F0) -> vh h' a f mm kk F -> vh h' b f kk nn G -> v_at a <> S (S p) -> v_at b <> S (S p) ->
      (forall h'', st h'' L X FM FK (Some (mmul f kk F G)) -> wp (kont h'') P) -> wp (bind (vmul_strassen mulbs fuel h' (View (S (S p)) 0 0 mm nn) a b cutoff) kont) P).
    { intros h' L X FM FK F0 a b F G P kont S1 Va Vb Na Nb Hk. destruct (REC h' (View (S (S p)) 0 0 mm nn) a b _ F G (stP _ _ _ _ _ _ S1) Va Vb Na Nb) as (h'' & -> & W). cbn [bind]. apply Hk. exact (WP _ _ _ _ _ _ _ _ S1 W). }
    clear REC WC WM WK WP.
    assert (apP : forall h' X FM FK PP, st h' (S (S p)) X FM FK None -> holds PP f mm nn mzero -> st (h' ++ [PP]) (S (S (S p))) X FM FK (Some mzero)).
    { clear - LC NE1 NE. intros h' X FM FK PP (T1 & T2 & (Z & T3 & T3') & T4 & T5 & T6 & _) HP.
      assert (NO : forall q, q < S (S p) -> nth_error (h' ++ [PP]) q = nth_error h' q) by (intros q Hq; apply nth_app_old; rewrite T1; exact Hq).
      assert (LC2 : pc < S (S p)) by (clear - LC; lia).
      split; [rewrite app_length, T1; cbn [length]; clear; lia|]. split; [intros q Hq Hne; rewrite NO by (clear - Hq; lia); now apply T2|].
      split; [exists Z; rewrite NO by exact LC2; now split|]. split; [eapply vh_same; [apply NO; exact LC2|exact T4]|].
      split; [eapply vh_same; [apply NO; cbn [v_at]; clear; lia|exact T5]|]. split; [eapply vh_same; [apply NO; cbn [v_at]; clear; lia|exact T6]|].
      apply vh_whole with (X := PP); [rewrite nth_error_app2 by (rewrite T1; clear; lia); rewrite T1, Nat.sub_diag; reflexivity|exact HP]. }
    assert (Np : p <> pc) by (apply not_eq_sym, NE, LC). assert (NSp : S p <> pc) by (apply not_eq_sym, NE, LC).
    assert (NPA : v_at vA <> S (S p)) by (apply NE, LA). assert (NPB : v_at vB <> S (S p)) by (apply NE, LB).
    apply (upK _ _ _ _ _ _ _ _ _ _ _ _ S0 (stB _ _ _ _ _ _ true true S0) (stB _ _ _ _ _ _ false true S0)). intros h1 S1.
    apply (upM _ _ _ _ _ _ _ _ _ _ _ _ S1 (stA _ _ _ _ _ _ true true S1) (stA _ _ _ _ _ _ false true S1)). intros h2 S2.
    apply (rcC true false _ _ _ _ _ _ _ _ _ _ _ _ S2 (stM _ _ _ _ _ _ S2) (stK _ _ _ _ _ _ S2) Np NSp). intros h3 S3.
    apply (upM _ _ _ _ _ _ _ _ _ _ _ _ S3 (stA _ _ _ _ _ _ true true S3) (stA _ _ _ _ _ _ true false S3)). intros h4 S4.
    apply (upK _ _ _ _ _ _ _ _ _ _ _ _ S4 (stB _ _ _ _ _ _ true true S4) (stB _ _ _ _ _ _ true false S4)). intros h5 S5.
    apply (rcC true true _ _ _ _ _ _ _ _ _ _ _ _ S5 (stM _ _ _ _ _ _ S5) (stK _ _ _ _ _ _ S5) Np NSp). intros h6 S6.
    apply (upK _ _ _ _ _ _ _ _ _ _ _ _ S6 (stK _ _ _ _ _ _ S6) (stB _ _ _ _ _ _ false true S6)). intros h7 S7.
    apply (upM _ _ _ _ _ _ _ _ _ _ _ _ S7 (stM _ _ _ _ _ _ S7) (stA _ _ _ _ _ _ false true S7)). intros h8 S8.
    apply (rcC false false _ _ _ _ _ _ _ _ _ _ _ _ S8 (stM _ _ _ _ _ _ S8) (stK _ _ _ _ _ _ S8) Np NSp). intros h9 S9.
    apply (upM _ _ _ _ _ _ _ _ _ _ _ _ S9 (stM _ _ _ _ _ _ S9) (stA _ _ _ _ _ _ false false S9)). intros h10 S10.
    apply (rcC false true _ _ _ _ _ _ _ _ _ _ _ _ S10 (stM _ _ _ _ _ _ S10) (stB _ _ _ _ _ _ false true S10) Np NBC). intros h11 S11.
    apply (upC false true _ _ _ _ _ _ _ _ _ _ _ _ S11 (stC _ _ _ _ _ _ false true S11) (stC _ _ _ _ _ _ true true S11)). intros h12 S12.
    destruct (vget_h _ _ _ _ _ _ (stA _ _ _ _ _ _ false true S12)) as (a & Ea & Ka). destruct (vget_h _ _ _ _ _ _ (stB _ _ _ _ _ _ true false S12)) as (b & Eb' & Kb).
    rewrite Ea, Eb'. cbn [bind]. pose proof Ka as (a1 & a2 & a3 & a4 & _). pose proof Kb as (b1 & b2 & b3 & b4 & _). unfold mzed_mul_init.
    apply wp_bind. apply wp_bind. apply wp_check; [rewrite a4, b3, Nat.eqb_refl; apply same_ff_iff; congruence|]. destruct (wf_deg2 a a1) as [g1 g2].
    eapply wp_mono; [apply init_h; [exact g1|exact g2]|]. cbv beta. intros PP HP. rewrite a2, a3, b4 in HP. clear a1 a2 a3 a4 b1 b2 b3 b4 g1 g2 Ea Eb' Ka Kb.
    pose proof (apP _ _ _ _ _ S12 HP) as S13. set (h13 := h12 ++ [PP]) in *. clearbody h13. clear apP.
    apply (rcP _ _ _ _ _ _ _ _ _ _ _ _ S13 (stA _ _ _ _ _ _ false true S13) (stB _ _ _ _ _ _ true false S13) NPA NPB). intros h14 S14.
    apply (upC false false _ _ _ _ _ _ _ _ _ _ _ _ S14 (stC _ _ _ _ _ _ false false S14) (stP _ _ _ _ _ _ S14)). intros h15 S15.
    apply (upC false true _ _ _ _ _ _ _ _ _ _ _ _ S15 (stC _ _ _ _ _ _ false false S15) (stC _ _ _ _ _ _ false true S15)). intros h16 S16.
    apply (upC false false _ _ _ _ _ _ _ _ _ _ _ _ S16 (stC _ _ _ _ _ _ true false S16) (stC _ _ _ _ _ _ false false S16)). intros h17 S17.
    apply (upK _ _ _ _ _ _ _ _ _ _ _ _ S17 (stK _ _ _ _ _ _ S17) (stB _ _ _ _ _ _ false false S17)). intros h18 S18.
    apply (rcC true false _ _ _ _ _ _ _ _ _ _ _ _ S18 (stA _ _ _ _ _ _ true false S18) (stK _ _ _ _ _ _ S18) NAC NSp). intros h19 S19.
    apply (upC true false _ _ _ _ _ _ _ _ _ _ _ _ S19 (stC _ _ _ _ _ _ false false S19) (stC _ _ _ _ _ _ true false S19)). intros h20 S20.
    apply (upC true true _ _ _ _ _ _ _ _ _ _ _ _ S20 (stC _ _ _ _ _ _ true true S20) (stC _ _ _ _ _ _ false false S20)). intros h21 S21.
    apply (rcC false false _ _ _ _ _ _ _ _ _ _ _ _ S21 (stA _ _ _ _ _ _ false false S21) (stB _ _ _ _ _ _ false false S21) NAC NBC). intros h22 S22.
    apply (upC false false _ _ _ _ _ _ _ _ _ _ _ _ S22 (stC _ _ _ _ _ _ false false S22) (stP _ _ _ _ _ _ S22)). intros h23 S23.
    match type of S23 with st _ _ ?X _ _ _ => set (XX := X) in S23 end.
    assert (KEY : forall r s i j, i < mm -> j < nn -> XX r s i j = mmul f (2 * kk) FA FB ((if r : bool then mm else 0) + i) ((if s : bool then nn else 0) + j)).
    { clear - f0. intros r s i j Hi Hj. rewrite mmul_2. subst XX. set (qa := quads_of FA mm kk). set (qb := quads_of FB kk nn). clearbody qa qb. clear - f0.
      destruct r, s; cbn [updq eqb andb]; xall f0. }
    clearbody XX. destruct S23 as (T1 & T2 & (Z & T3 & T3') & T4 & _).
    assert (VA : vh h23 vA f m k FA) by (apply (vh_same h h23); [apply T2; [exact LA|exact NA]|exact HA]). assert (VB : vh h23 vB f k n FB) by (apply (vh_same h h23); [apply T2; [exact LB|exact NB]|exact HB]).
    destruct (vrest_wr mulbs h23 vC vA vB f m k n mm kk nn _ FA FB A Hb A1 A2 T4 VA VB NA NB Lm Lk Ln Hnn0 Mk2 Mn2) as (h24 & -> & W).
    { clear - KEY. intros i j Hi Hj. destruct (bulk_index mm nn i j Hi Hj) as (r & s & i' & j' & L1 & L2 & -> & ->). rewrite blkf_at by assumption. now apply KEY. }
    cbn [bind wp]. destruct W as (W1 & W2 & Z1 & Z2 & W3 & W4 & W5). fold pc in W2, W3, W4. assert (Z1 = Z) as -> by congruence.
    assert (NF : forall q, q < p -> nth_error (firstn p h24) q = nth_error h24 q) by (clear; intros q Hq; apply nth_error_firstn_lt; exact Hq).
    split; [rewrite firstn_length, W1, T1; clear; fold p; lia|]. split.
    { intros q Hq. fold pc in Hq. destruct (Nat.lt_ge_cases q p) as [Hl|Hl]; [rewrite NF, W2, T2 by assumption; reflexivity|].
      rewrite (proj2 (nth_error_None _ _)); [symmetry; apply nth_error_None; exact Hl|]. rewrite firstn_length. clear - Hl. lia. }
    exists Y0, Z2. fold pc. split; [exact C0|]. split; [rewrite NF by exact LC; exact W4|].
    eapply becomes_step; [exact T3'|exact W5|]. cbv beta. intros i j Hi Hj. unfold patch at 1 2. destruct (_ && _ && _ && _) eqn:Eb; [reflexivity|].
    rewrite (becomes_entry _ _ _ _ _ T3') by auto. unfold patch. now rewrite Eb.
Qed.
End St.
