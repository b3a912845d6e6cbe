(** Products into a zero matrix with a zero factor, through a store: nothing changes (C48). *)
From Coq Require Import NArith ZArith Lia List Bool Arith.
From Coq Require Import ZifyBool ZifyNat ZifyN.
From Verif Require Import Base Spec LinSpec PolyFacts MatFacts Gf2xModel Gf2eModel Gf2eProofs.
From Verif Require Import MzdModel MzedModel MzedSpec LaneFacts MzedProofs MzedOps MzedOps2 NjModel NjTable NjMul StrassenModel StrassenProofs StrassenMain.
From Verif Require Import SliceModel KaraModel ConvModel MulModel MulProofs AliasModel AliasProofs AliasStrassenModel.
Import ListNotations.
Local Open Scope nat_scope.

(** a matrix is determined by its entries and padding *)
Lemma becomes_id A A' : wf_mzed A -> becomes A A' (entry A) -> A' = A.
Proof.
  intros H (W & (Sf & Sw & Sr & Sc) & E & P).
  assert (R : forall i, i < mz_nrows A -> mrow (mz_x A') i = mrow (mz_x A) i).
  { intros i Hi. destruct (wf_mrow A i H Hi) as (L1 & L2 & _). destruct (wf_mrow A' i W ltac:(lia)) as (L1' & L2' & _).
    rewrite <- Sw, <- Sc in L1'.
    apply nth_ext with (d := 0%N) (d' := 0%N); [congruence|]. intros q Hq. rewrite L1' in Hq.
    assert (Gw := wf_good A H). assert (Pm := per_mul _ Gw). assert (Pp := per_pos _ Gw).
    apply (lane_ext_word (mz_w A) _ _ (per (mz_w A))).
    - pose proof (good_w_pos _ Gw); lia.
    - rewrite Pm. apply (proj1 (Forall_forall _ _) L2'). apply nth_In. lia.
    - rewrite Pm. apply (proj1 (Forall_forall _ _) L2). apply nth_In. lia.
    - intros k Hk. set (c := per (mz_w A) * q + k).
      assert (Ec1 : c / per (mz_w A) = q) by (unfold c; rewrite Nat.mul_comm, Nat.div_add_l, Nat.div_small by lia; lia).
      assert (Ec2 : c mod per (mz_w A) = k) by (unfold c; rewrite Nat.add_comm, Nat.mul_comm, Nat.mod_add, Nat.mod_small by lia; lia).
      assert (Hc : c < cap A) by (unfold cap, c; nia).
      assert (EE : entry A' i c = entry A i c).
      { destruct (Nat.lt_ge_cases c (mz_ncols A)); [now apply E|now apply P]. }
      unfold entry, rel in EE. rewrite <- Sw, Ec1, Ec2 in EE. exact EE. }
  destruct H as (_ & _ & X1 & X2 & X3 & _). destruct W as (_ & _ & Y1 & Y2 & Y3 & _).
  destruct A as [ff w nr nc [xr xc rows]], A' as [ff' w' nr' nc' [xr' xc' rows']].
  cbn [mz_ff mz_w mz_nrows mz_ncols mz_x mzd_nrows mzd_ncols mzd_rows] in *.
  assert (rows' = rows).
  { apply nth_ext with (d := []) (d' := []); [congruence|]. intros i Hi. apply (R i). lia. }
  clear R E P. congruence.
Qed.

Lemma for_same {S} lo hi (body : nat -> S -> res S) s : (forall i, lo <= i < hi -> body i s = Ok s) -> for_ lo hi body s = Ok s.
Proof.
  unfold for_. remember (hi - lo) as q eqn:Eq. revert lo Eq. induction q as [|q IH]; intros lo Eq Hb; cbn [forloop]; [reflexivity|].
  rewrite Hb by lia. cbn [bind]. apply IH; [lia|]. intros i Hi. apply Hb. lia.
Qed.
Lemma wp_ok {A} (m : res A) P : wp m P -> exists a, m = Ok a /\ P a.
Proof. intros H. apply wp_iff in H. exact H. Qed.

(** ** views *)
Notation zmat m n F := (forall i j : nat, i < m -> j < n -> F i j = 0%N).
Definition vok (h : store) (v : view) (f : N) (m n : nat) (z : bool) : Prop :=
  exists X, nth_error h (v_at v) = Some X /\ wf_mzed X /\ fld X = f /\
    v_lr v <= v_hr v <= mz_nrows X /\ v_lc v <= v_hc v <= mz_ncols X /\ v_lc v mod per (mz_w X) = 0 /\
    v_hr v - v_lr v = m /\ v_hc v - v_lc v = n /\ (z = true -> zmat (mz_nrows X) (mz_ncols X) (entry X)).

Lemma vok_same h h' v f m n z : nth_error h' (v_at v) = nth_error h (v_at v) -> vok h v f m n z -> vok h' v f m n z.
Proof. intros E (X & K). exists X. now rewrite E. Qed.
Lemma vok_w h v f m n z : vok h v f m n z -> forall Y, wf_mzed Y -> fld Y = f -> exists X, nth_error h (v_at v) = Some X /\ mz_w X = mz_w Y.
Proof. intros (X & E & W & F & _) Y WY FY. exists X. split; [exact E|]. apply same_w; auto. congruence. Qed.
Lemma vok_sub h v f m n z lr lc hr hc Y : vok h v f m n z -> wf_mzed Y -> fld Y = f -> lr <= hr <= m -> lc <= hc <= n -> lc mod per (mz_w Y) = 0 ->
  vok h (vsub v lr lc hr hc) f (hr - lr) (hc - lc) z.
Proof.
  intros (X & E & W & F & R & C & M & E1 & E2 & Z) WY FY Hr Hc Hm.
  assert (Ew : mz_w X = mz_w Y) by (apply same_w; auto; congruence). rewrite <- Ew in Hm.
  exists X. unfold vsub. cbn [v_at v_lr v_lc v_hr v_hc].
  split; [exact E|]. split; [exact W|]. split; [exact F|]. split; [lia|]. split; [lia|]. split.
  - pose proof (per_pos _ (wf_good X W)). rewrite Nat.add_mod by lia. rewrite M, Hm. rewrite Nat.add_0_l. now apply Nat.mod_0_l; lia.
  - split; [lia|]. split; [lia|]. exact Z.
Qed.
Lemma vget_ok h v f m n z : vok h v f m n z -> exists W, vget h v = Ok W /\ holds W f m n (entry W) /\ (z = true -> zmat m n (entry W)).
Proof.
  intros (X & E & HX & F & R & C & M & E1 & E2 & Z).
  pose proof (holds_self X HX) as K. rewrite F in K.
  destruct (wp_ok _ _ (win_h X _ _ _ _ (v_lr v) (v_lc v) (v_hr v) (v_hc v) K R C M)) as (W & EW & HW & _).
  exists W. unfold vget. rewrite (lget_stored _ _ _ E). cbn [bind]. split; [exact EW|]. rewrite E1, E2 in HW.
  split; [destruct HW as (H1 & H2 & H3 & H4 & H5); now split|].
  intros Hz i j Hi Hj. destruct HW as (_ & _ & _ & _ & H5). rewrite H5 by auto. unfold sub. apply (Z Hz); lia.
Qed.
(** a write that keeps the window zero changes nothing *)
Lemma vset_same h v f m n op : vok h v f m n true ->
  (forall W, holds W f m n mzero -> wp (op W) (fun W' => becomes W W' mzero)) -> vset h v op = Ok h.
Proof.
  intros (X & E & HX & F & R & C & M & E1 & E2 & Z) Hop. pose proof (holds_self X HX) as K. rewrite F in K.
  destruct (wp_ok _ _ (on_win_h X _ _ _ _ (v_lr v) (v_lc v) (v_hr v) (v_hc v) op mzero K R C M
     ltac:(intros W HW _ _; apply Hop; rewrite E1, E2 in HW; eapply holds_ext; [exact HW|];
           intros i j Hi Hj; unfold sub; apply (Z eq_refl); lia))) as (X' & EX & BX).
  unfold vset. rewrite (lget_stored _ _ _ E). cbn [bind]. rewrite EX. cbn [bind].
  assert (X' = X) as ->.
  { apply becomes_id; [exact HX|]. eapply becomes_ext; [exact BX|]. cbv beta. intros i j Hi Hj.
    destruct (_ && _ && _ && _); [|reflexivity]. unfold mzero. symmetry. now apply (Z eq_refl). }
  rewrite (lset_stored _ _ _ _ E), (upd_stored _ _ _ E). reflexivity.
Qed.
(** a write in general *)
Lemma vset_upd h v f m n z op G : vok h v f m n z ->
  (forall W, holds W f m n (entry W) -> (z = true -> zmat m n (entry W)) -> wp (op W) (fun W' => becomes W W' G)) ->
  (z = true -> zmat m n G) ->
  exists h', vset h v op = Ok h' /\ length h' = length h /\ (forall q, q <> v_at v -> nth_error h' q = nth_error h q) /\ vok h' v f m n z.
Proof.
  intros (X & E & HX & F & R & C & M & E1 & E2 & Z) Hop HG. pose proof (holds_self X HX) as K. rewrite F in K.
  destruct (wp_ok _ _ (on_win_h X _ _ _ _ (v_lr v) (v_lc v) (v_hr v) (v_hc v) op G K R C M
     ltac:(intros W HW _ _; rewrite E1, E2 in HW; apply Hop; [destruct HW as (H1 & H2 & H3 & H4 & H5); now split|];
           intros Hz i j Hi Hj; destruct HW as (_ & _ & _ & _ & H5); rewrite H5 by auto; unfold sub; apply (Z Hz); lia))) as (X' & EX & BX).
  unfold vset. rewrite (lget_stored _ _ _ E). cbn [bind]. rewrite EX. cbn [bind]. rewrite (lset_stored _ _ _ _ E).
  exists (upd h (v_at v) X'). split; [reflexivity|]. split; [apply upd_length|].
  split; [intros q Hq; rewrite (stored_upd h _ q X X' E); now replace (v_at v =? q) with false by lia|].
  exists X'. split; [now apply (stored_upd_eq h _ X)|]. split; [exact (becomes_wf _ _ _ BX)|].
  rewrite (becomes_nr _ _ _ BX), (becomes_nc _ _ _ BX), (becomes_w _ _ _ BX), (becomes_ff _ _ _ BX).
  split; [exact F|]. split; [exact R|]. split; [exact C|]. split; [exact M|]. split; [exact E1|]. split; [exact E2|].
  intros Hz i j Hi Hj. rewrite (becomes_entry _ _ _ _ _ BX) by auto.
  destruct ((v_lr v <=? i) && (i <? v_hr v) && (v_lc v <=? j) && (j <? v_hc v)) eqn:Eb; [apply (HG Hz); lia|now apply (Z Hz)].
Qed.

Lemma vadd_same h vC vA vB f m n : vok h vC f m n true -> vok h vA f m n true -> vok h vB f m n true -> vadd h vC vA vB = Ok h.
Proof.
  intros HC HA HB. destruct (vget_ok _ _ _ _ _ _ HA) as (A & EA & KA & ZA). destruct (vget_ok _ _ _ _ _ _ HB) as (B & EB & KB & ZB).
  unfold vadd. rewrite EA, EB. cbn [bind]. apply (vset_same h vC f m n); [exact HC|]. intros W HW.
  eapply wp_mono; [exact (add_h W A B f m n _ _ _ HW KA KB)|]. cbv beta. intros W' BW. eapply becomes_meq; [exact HW|exact BW|].
  intros i j Hi Hj. unfold madd. now rewrite (ZA eq_refl i j Hi Hj), (ZB eq_refl i j Hi Hj).
Qed.
Lemma vadd_upd h vC vA vB f m n z : vok h vC f m n z -> vok h vA f m n z -> vok h vB f m n z ->
  exists h', vadd h vC vA vB = Ok h' /\ length h' = length h /\ (forall q, q <> v_at vC -> nth_error h' q = nth_error h q) /\ vok h' vC f m n z.
Proof.
  intros HC HA HB. destruct (vget_ok _ _ _ _ _ _ HA) as (A & EA & KA & ZA). destruct (vget_ok _ _ _ _ _ _ HB) as (B & EB & KB & ZB).
  unfold vadd. rewrite EA, EB. cbn [bind]. apply (vset_upd h vC f m n z _ (madd (entry A) (entry B))); [exact HC| |].
  - intros W HW _. exact (add_h W A B f m n _ _ _ HW KA KB).
  - intros Hz i j Hi Hj. unfold madd. now rewrite (ZA Hz i j Hi Hj), (ZB Hz i j Hi Hj).
Qed.

(** ** Newton-John multiplication *)
Section Nj.
Variables (mulbs : nat) (h : store) (vC vA vB : view) (f : N) (m k n : nat) (A B : mzed).
Hypotheses (Hb : 16 <= mulbs) (Hn : 0 < n) (HC : vok h vC f m n true).
Hypotheses (EA : vget h vA = Ok A) (EB : vget h vB = Ok B) (HA : holds A f m k (entry A)) (HB : holds B f k n (entry B)).
Hypothesis (Hz : zmat m k (entry A) \/ zmat k n (entry B)).
Lemma nz_A1 : wf_mzed A. Proof. exact (proj1 HA). Qed.
Lemma nz_B1 : wf_mzed B. Proof. exact (proj1 HB). Qed.
Local Hint Resolve nz_A1 nz_B1 : core.
Lemma nz_A2 : fld A = fld B. Proof. destruct HA as (_ & E & _), HB as (_ & E' & _). congruence. Qed.
Lemma nz_E : mz_ncols A = mz_nrows B. Proof. destruct HA as (_ & _ & _ & E & _), HB as (_ & _ & E' & _). congruence. Qed.
Lemma nz_n : 0 < mz_ncols B. Proof. destruct HB as (_ & _ & _ & E' & _). lia. Qed.
Lemma nz_mul i l j : i < m -> l < k -> j < n -> fmul f (entry A i l) (entry B l j) = 0%N.
Proof.
  intros Hi Hl Hj. destruct Hz as [Z|Z].
  - rewrite (Z i l Hi Hl). apply fmul_0_l.
  - rewrite (Z l j Hl Hj). rewrite fmul_comm. apply fmul_0_l.
Qed.
Lemma nz_cok W : holds W f m n mzero -> cok A B W.
Proof. intros (W1 & W2 & W3 & W4 & _). destruct HA as (_ & E1 & E2 & E3 & _), HB as (_ & F1 & F2 & F3 & _). unfold cok. split; [exact W1|]. split; [congruence|]. split; congruence. Qed.

Lemma vmul_naive_same : vmul_naive h vC vA vB = Ok h.
Proof.
  unfold vmul_naive. destruct (vget_ok _ _ _ _ _ _ HC) as (C & EC & KC & _). rewrite EC, EA. cbn [bind].
  pose proof KC as (_ & _ & R & Q & _). pose proof HA as (_ & F1 & F2 & F3 & _). pose proof HB as (_ & G1 & G2 & G3 & _). rewrite R, Q, F3.
  apply for_same. intros i Hi. apply for_same. intros j Hj. apply for_same. intros l Hl.
  rewrite EA. cbn [bind]. rewrite mzed_read_elem_ok by (auto; lia). cbn [bind]. rewrite EB. cbn [bind].
  rewrite mzed_read_elem_ok by (auto; lia). cbn [bind].
  apply (vset_same h vC f m n _ HC). intros W HW. pose proof HW as (W1 & W2 & W3 & W4 & W5).
  rewrite gf2e_mul_ok; [|exact (proj1 W1)|rewrite W2, <- F1; apply wf_entry; auto; lia|rewrite W2, <- G1; apply wf_entry; auto; lia].
  cbn [bind]. rewrite W2, nz_mul by lia.
  eapply wp_mono; [apply mzed_add_elem_ok; auto; try lia; apply inF_0|].
  cbv beta. intros W' BW. eapply becomes_meq; [exact HW|exact BW|]. intros i' j' Hi' Hj'. cbv beta.
  rewrite ?N.lxor_0_r, ?N.lxor_0_l. destruct (_ && _); rewrite ?W5 by (auto; lia); reflexivity.
Qed.

Lemma nz_part lo q j c : j < m -> c < n -> lo + q <= k -> part f lo q (entry A) (entry B) j c = 0%N.
Proof. intros Hj Hc Hq. unfold part. apply xsum_0. intros l Hl. apply nz_mul; lia. Qed.
Lemma nz_toks Ts : length Ts = 8 -> (forall i T, lget Ts i = Ok T -> njt_wf (fld B) (ff_degree (mz_ff B)) (mz_ncols B) T) -> toks' B Ts.
Proof. intros L H. split; [exact L|]. intros i T _. apply H. Qed.

Lemma vnj_block_same Ts lo hi : toks' B Ts -> lo <= hi <= m ->
  wp (vnj_block Ts h vC vA vB k lo hi) (fun '(h', Ts') => h' = h /\ toks' B Ts').
Proof.
  intros HT Hl. pose proof HA as (_ & F1 & F2 & F3 & _). pose proof HB as (_ & G1 & G2 & G3 & _). pose proof nz_A2 as E0. pose proof nz_E as E1. pose proof nz_n as E2. unfold vnj_block. eapply wp_mono.
  - apply (wp_for (fun _ '(h', Ts') => h' = h /\ toks' B Ts')); [lia|now split|].
    intros i [h' Ts'] Hi (-> & HT'). rewrite EB. cbn [bind]. apply wp_bind.
    eapply wp_mono; [apply (tables8 A B); auto; lia|]. cbv beta. intros Ts2 (HT2 & Tab).
    pose proof (Nat.mul_div_le k 8 ltac:(lia)).
    rewrite for_same.
    + cbn [bind wp]. now split.
    + intros j Hj. rewrite EA. cbn [bind]. apply (vset_same h vC f m n _ HC). intros W HW.
      eapply wp_mono; [apply (combine8_ok A B nz_A1 nz_B1 E0 E1 E2 W j Ts2 i (nz_cok W HW) (proj1 HT2) Tab); lia|].
      cbv beta. intros W' BW. eapply becomes_meq; [exact HW|exact BW|]. intros i' j' Hi' Hj'. cbv beta.
      destruct HW as (_ & _ & _ & _ & W5). rewrite ?W5 by auto. change (fld B) with (ff_minpoly (mz_ff B)). rewrite G1.
      rewrite nz_part by (auto; lia). now destruct (_ =? _).
  - now intros [h' Ts'].
Qed.
Lemma vgiant_same fuel : forall Ts g bs, 0 < bs -> toks' B Ts -> g <= m -> m - g <= fuel ->
  wp (vgiant_steps fuel Ts h vC vA vB m k g bs) (fun '(h', Ts', g') => h' = h /\ toks' B Ts' /\ g' <= m).
Proof.
  induction fuel as [|fuel IH]; intros Ts g bs Hbs HT Hg Hf; cbn [vgiant_steps].
  - replace (g + bs <=? m) with false by lia. cbn [wp]. auto.
  - destruct (Nat.leb_spec (g + bs) m) as [L|L]; [|cbn [wp]; auto].
    apply wp_bind. eapply wp_mono; [apply vnj_block_same; auto; lia|]. cbv beta. intros [h' Ts'] (-> & HT').
    apply IH; auto; lia.
Qed.
Lemma vnj_col_same T i : tok B T -> i < k -> wp (vnj_col h T vC vA vB m i) (fun '(h', T') => h' = h /\ tok B T').
Proof.
  intros HT Hi. pose proof HA as (_ & F1 & F2 & F3 & _). pose proof HB as (_ & G1 & G2 & G3 & _). pose proof nz_n as E2. unfold vnj_col. rewrite EB. cbn [bind]. apply wp_bind.
  eapply wp_mono; [apply make_table0_ok; auto; lia|]. cbv beta. intros T' HT'. rewrite for_same.
  - cbn [bind wp]. split; [reflexivity|exact (proj1 HT')].
  - intros j Hj. rewrite EA. cbn [bind]. rewrite mzed_read_elem_ok by (auto; lia). cbn [bind].
    apply (vset_same h vC f m n _ HC). intros W HW. destruct (nz_cok W HW) as (K1 & K2 & K3 & K4).
    eapply wp_mono; [apply (tab0_combine W j B i T' (entry A j i)); auto; try lia; rewrite <- nz_A2; apply wf_entry; auto; lia|].
    cbv beta. intros W' BW. eapply becomes_meq; [exact HW|exact BW|]. intros i' j' Hi' Hj'. cbv beta.
    destruct HW as (_ & _ & _ & _ & W5). rewrite ?W5 by auto. change (fld B) with (ff_minpoly (mz_ff B)). rewrite G1.
    destruct (Nat.eqb_spec i' j) as [->|]; [|reflexivity]. now rewrite nz_mul by lia.
Qed.
Lemma vmul_nj_same : vmul_nj mulbs h vC vA vB = Ok h.
Proof.
  pose proof HA as (_ & F1 & F2 & F3 & _). pose proof HB as (_ & G1 & G2 & G3 & _).
  unfold vmul_nj. rewrite EA. cbn [bind]. destruct (_ <? _); [apply vmul_naive_same|]. rewrite EB. cbn [bind].
  match goal with |- ?x = _ => assert (K : wp x (fun h' => h' = h)); [|destruct (wp_ok _ _ K) as (h' & -> & ->); reflexivity] end.
  destruct (wf_deg2 B nz_B1) as [Hff Hd]. apply wp_bind. eapply wp_mono; [now apply njt_inits_ok|]. cbv beta. intros Ts (L & HT0).
  assert (HT := nz_toks Ts L HT0). rewrite F2, F3.
  apply wp_bind. eapply wp_mono with (P := fun '(h', Ts', g') => h' = h /\ toks' B Ts' /\ g' <= m).
  { destruct (_ <=? _); [|cbn [wp]; split; [reflexivity|split; [exact HT|lia]]].
    apply vgiant_same; auto; try lia. pose proof (good_w_pos _ (wf_good A nz_A1)). pose proof (wf_good A nz_A1) as G.
    apply Nat.div_str_pos. destruct G as [->|[->|[->| ->]]]; lia. }
  intros [[h' Ts'] g] (-> & HT' & Hg). apply wp_bind. eapply wp_mono; [apply vnj_block_same; auto|]. cbv beta. intros [h' Ts2] (-> & HT2).
  destruct (lget_some Ts2 0 ltac:(destruct HT2; lia)) as (T & ET). rewrite ET. cbn [bind].
  assert (HTt : tok B T) by (apply (proj2 HT2 0 T); [lia|exact ET]).
  apply wp_bind. eapply wp_mono.
  - pose proof (Nat.mul_div_le k 8 ltac:(lia)). apply (wp_for (fun _ '(h', T') => h' = h /\ tok B T')); [lia|now split|].
    intros i [h' T'] Hi (-> & HT'2). apply vnj_col_same; [exact HT'2|lia].
  - cbv beta. intros [h' T'] (-> & _). cbn [wp]. reflexivity.
Qed.
End Nj.

(** a product with a zero target and a zero factor, views *)
Lemma vmul_nj_zero mulbs h vC vA vB f m k n za zb : 16 <= mulbs -> 0 < n -> vok h vC f m n true -> vok h vA f m k za -> vok h vB f k n zb ->
  za || zb = true -> vmul_nj mulbs h vC vA vB = Ok h.
Proof.
  intros Hb Hn HC HA HB Hz. destruct (vget_ok _ _ _ _ _ _ HA) as (A & EA & KA & ZA). destruct (vget_ok _ _ _ _ _ _ HB) as (B & EB & KB & ZB).
  apply (vmul_nj_same mulbs h vC vA vB f m k n A B); auto. destruct za; [left; now apply ZA|right; now apply ZB].
Qed.
Lemma vzero_same h v f m n : vok h v f m n true -> vzero h v = Ok h.
Proof.
  intros HC. apply (vset_same h v f m n _ HC). intros W HW.
  eapply wp_mono; [apply (zeroed_h true f W m n mzero HW)|]. cbv beta iota. intros W' BW. exact BW.
Qed.
Lemma quad_vsub h v f m n z mm nn r s Y : vok h v f m n z -> wf_mzed Y -> fld Y = f -> 2 * mm <= m -> 2 * nn <= n -> nn mod per (mz_w Y) = 0 ->
  vok h (quad mm nn r s (vsub v)) f mm nn z.
Proof.
  intros Hv WY FY Hm Hn Ha. unfold quad.
  assert (M0 : (if s then nn else 0) mod per (mz_w Y) = 0) by (destruct s; [exact Ha|]; pose proof (per_pos _ (wf_good Y WY)); apply Nat.mod_0_l; lia).
  pose proof (vok_sub h v f m n z (if r then mm else 0) (if s then nn else 0) (if r then 2 * mm else mm) (if s then 2 * nn else nn) Y Hv WY FY
    ltac:(destruct r; lia) ltac:(destruct s; lia) M0) as S0.
  replace ((if r then 2 * mm else mm) - (if r then mm else 0)) with mm in S0 by (destruct r; lia).
  replace ((if s then 2 * nn else nn) - (if s then nn else 0)) with nn in S0 by (destruct s; lia). exact S0.
Qed.
Lemma vrest_same mulbs h vC vA vB f m k n mm kk nn za zb Y : 16 <= mulbs -> wf_mzed Y -> fld Y = f ->
  vok h vC f m n true -> vok h vA f m k za -> vok h vB f k n zb -> za || zb = true ->
  2 * mm <= m -> 2 * kk <= k -> 2 * nn <= n -> 0 < nn -> (2 * kk) mod per (mz_w Y) = 0 -> (2 * nn) mod per (mz_w Y) = 0 ->
  vstrassen_rest mulbs h vC vA vB m k n mm kk nn = Ok h.
Proof.
  intros Hb WY FY HC HA HB Hz Hm Hk Hn Hn0 Ak An. assert (A0 : 0 mod per (mz_w Y) = 0) by (pose proof (per_pos _ (wf_good Y WY)); apply Nat.mod_0_l; lia).
  assert (SC := fun lr lc hr hc => vok_sub h vC f m n true lr lc hr hc Y HC WY FY).
  assert (SA := fun lr lc hr hc => vok_sub h vA f m k za lr lc hr hc Y HA WY FY).
  assert (SB := fun lr lc hr hc => vok_sub h vB f k n zb lr lc hr hc Y HB WY FY).
  unfold vstrassen_rest.
  assert (E1 : (if 2 * nn <? n then h <- vzero h (vsub vC 0 (2 * nn) m n) ;; vmul_nj mulbs h (vsub vC 0 (2 * nn) m n) vA (vsub vB 0 (2 * nn) k n) else Ok h) = Ok h).
  { destruct (Nat.ltb_spec (2 * nn) n); [|reflexivity].
    pose proof (SC 0 (2 * nn) m n ltac:(lia) ltac:(lia) An) as S1. pose proof (SB 0 (2 * nn) k n ltac:(lia) ltac:(lia) An) as S2. rewrite Nat.sub_0_r in S1, S2.
    rewrite (vzero_same _ _ _ _ _ S1). cbn [bind]. eapply vmul_nj_zero; [exact Hb| |exact S1|exact HA|exact S2|exact Hz]. lia. }
  rewrite E1. cbn [bind]. clear E1.
  assert (E2 : (if 2 * mm <? m then h <- vzero h (vsub vC (2 * mm) 0 m (2 * nn)) ;; vmul_nj mulbs h (vsub vC (2 * mm) 0 m (2 * nn)) (vsub vA (2 * mm) 0 m k) (vsub vB 0 0 k (2 * nn)) else Ok h) = Ok h).
  { destruct (Nat.ltb_spec (2 * mm) m); [|reflexivity].
    pose proof (SC (2 * mm) 0 m (2 * nn) ltac:(lia) ltac:(lia) A0) as S1. pose proof (SA (2 * mm) 0 m k ltac:(lia) ltac:(lia) A0) as S2. pose proof (SB 0 0 k (2 * nn) ltac:(lia) ltac:(lia) A0) as S3.
    rewrite Nat.sub_0_r in S1, S2, S3. rewrite Nat.sub_0_r in S3.
    rewrite (vzero_same _ _ _ _ _ S1). cbn [bind]. eapply vmul_nj_zero; [exact Hb| |exact S1|exact S2|exact S3|exact Hz]. lia. }
  rewrite E2. cbn [bind]. clear E2.
  destruct (Nat.ltb_spec (2 * kk) k); [|reflexivity].
  pose proof (SC 0 0 (2 * mm) (2 * nn) ltac:(lia) ltac:(lia) A0) as S1. pose proof (SA 0 (2 * kk) (2 * mm) k ltac:(lia) ltac:(lia) Ak) as S2. pose proof (SB (2 * kk) 0 k (2 * nn) ltac:(lia) ltac:(lia) A0) as S3.
  rewrite !Nat.sub_0_r in S1. rewrite Nat.sub_0_r in S2, S3.
  eapply vmul_nj_zero; [exact Hb| |exact S1|exact S2|exact S3|exact Hz]. lia.
Qed.

(** ** Strassen *)
Lemma nth_app_old {X} (h : list X) t q : q < length h -> nth_error (h ++ t) q = nth_error h q.
Proof. intros H. now apply nth_error_app1. Qed.
Lemma firstn_prefix {X} (h h' : list X) : (forall q, q < length h -> nth_error h' q = nth_error h q) -> firstn (length h) h' = h.
Proof.
  revert h'. induction h as [|x h IH]; intros h' H; [reflexivity|]. destruct h' as [|y h']; [specialize (H 0 ltac:(cbn; lia)); discriminate|].
  cbn [length firstn]. f_equal; [specialize (H 0 ltac:(cbn; lia)); cbn in H; congruence|]. apply IH. intros q Hq. apply (H (S q)). cbn [length]. lia.
Qed.
Lemma vok_lt h v f m n z : vok h v f m n z -> v_at v < length h.
Proof. intros (X & E & _). now apply stored_lt in E. Qed.
Lemma vok_whole h p X f m n z : nth_error h p = Some X -> holds X f m n (entry X) -> (z = true -> zmat m n (entry X)) -> vok h (View p 0 0 m n) f m n z.
Proof.
  intros E (H1 & H2 & H3 & H4 & _) Z. exists X. cbn [v_at v_lr v_lc v_hr v_hc]. split; [exact E|]. split; [exact H1|]. split; [exact H2|].
  split; [lia|]. split; [lia|]. split; [pose proof (per_pos _ (wf_good X H1)); apply Nat.mod_0_l; lia|]. split; [lia|]. split; [lia|]. rewrite H3, H4. exact Z.
Qed.
Lemma holds_entry X f m n F : holds X f m n F -> holds X f m n (entry X).
Proof. intros (H1 & H2 & H3 & H4 & _). now split. Qed.

Section St.
Variables (mulbs : nat) (cutoff : Z).
Hypothesis (Hb : 16 <= mulbs).

Theorem vmul_strassen_same fuel : forall h vC vA vB f m k n za zb Y, m + n < fuel -> 0 < n -> wf_mzed Y -> fld Y = f -> ok_cut cutoff Y ->
  vok h vC f m n true -> vok h vA f m k za -> vok h vB f k n zb -> za || zb = true ->
  vmul_strassen mulbs fuel h vC vA vB cutoff = Ok h.
Proof.
  induction fuel as [|fuel IH]; [lia|]. intros h vC vA vB f m k n za zb Y Hfu Hn WY FY Hcut HC HA HB Hz.
  destruct (vget_ok _ _ _ _ _ _ HC) as (C & EC & KC & ZC). destruct (vget_ok _ _ _ _ _ _ HA) as (A & EA & KA & ZA). destruct (vget_ok _ _ _ _ _ _ HB) as (B & EB & KB & ZB).
  pose proof KC as (C1 & C2 & C3 & C4 & _). pose proof KA as (A1 & A2 & A3 & A4 & _). pose proof KB as (B1 & B2 & B3 & B4 & _).
  cbn [vmul_strassen]. rewrite EC, EA, EB. cbn [bind]. rewrite C4. replace ((mz_nrows C =? 0) && (n =? 0)) with false by lia.
  assert (wA : mz_w A = mz_w Y) by (apply same_w; auto; congruence).
  destruct (strassen_small A B cutoff) eqn:Sm.
  - destruct (wf_deg2 C C1) as [G1 G2]. destruct (wp_ok _ _ (init_h (mz_ff C) (mz_nrows C) n G1 G2)) as (D & ED & HD). rewrite ED. cbn [bind]. rewrite C2, C3 in HD.
    destruct (wp_ok _ _ (nj_h mulbs D A B f m k n _ _ _ Hb Hn HD KA KB)) as (D' & ED' & BD). rewrite ED'. cbn [bind].
    pose proof (holds_becomes _ _ _ _ _ _ _ HD BD) as HD'. pose proof HD' as (D1 & D2 & D3 & D4 & D5).
    apply (vset_same h vC f m n _ HC). intros W (W1 & W2 & W3 & W4 & W5).
    eapply wp_mono; [apply (mzed_copy_ok (Some W) D' D1); split; [exact W1|split; [congruence|split; congruence]]|].
    cbv beta. intros W' (_ & BW). eapply becomes_ext; [exact (BW W eq_refl)|]. intros i j Hi Hj. rewrite D5 by lia. unfold madd, mzero. rewrite N.lxor_0_l.
    unfold mmul. apply xsum_0. intros l Hl. destruct za; [rewrite (ZA eq_refl) by lia; apply fmul_0_l|rewrite (ZB Hz) by lia; apply fmul_0_r].
  - assert (Gw := wf_good A A1). assert (Hcl : closer n (n / 2) cutoff = false).
    { unfold strassen_small in Sm. rewrite B4 in Sm. apply orb_false_iff in Sm. now destruct Sm. }
    assert (Hcut' : (3 * Z.of_nat (per (mz_w A)) <= 2 * cutoff)%Z) by (unfold ok_cut in Hcut; now rewrite wA).
    assert (Hnn0 := half_pos (mz_w A) n cutoff Gw Hn Hcut' Hcl).
    destruct (half_le (mz_w A) m) as [_ Lm]. destruct (half_le (mz_w A) k) as [_ Lk]. destruct (half_le (mz_w A) n) as [_ Ln].
    assert (Mk := half_mod (mz_w A) k Gw). assert (Mn := half_mod (mz_w A) n Gw). assert (Mk2 := half2_mod (mz_w A) k Gw). assert (Mn2 := half2_mod (mz_w A) n Gw).
    rewrite A3, A4, B4. set (mm := half (mz_w A) m) in *. set (kk := half (mz_w A) k) in *. set (nn := half (mz_w A) n) in *. clearbody mm kk nn.
    cbv zeta.
    assert (QC := fun h (K : vok h vC f m n true) r s => quad_vsub h vC f m n true mm nn r s A K A1 A2 Lm Ln Mn).
    assert (QA := fun h (K : vok h vA f m k za) r s => quad_vsub h vA f m k za mm kk r s A K A1 A2 Lm Lk Mk).
    assert (QB := fun h (K : vok h vB f k n zb) r s => quad_vsub h vB f k n zb kk nn r s A K A1 A2 Lk Ln Mn).
    destruct (wf_deg2 A A1) as [G1 G2].
    destruct (wp_ok _ _ (init_h (mz_ff A) mm kk G1 G2)) as (M & EM & HM). rewrite EM. cbn [bind].
    destruct (wp_ok _ _ (init_h (mz_ff A) kk nn G1 G2)) as (K & EK & HK). rewrite EK. cbn [bind]. rewrite A2 in HM, HK.
    set (p := length h).
    pose proof (vok_lt _ _ _ _ _ _ HC) as LC. pose proof (vok_lt _ _ _ _ _ _ HA) as LA. pose proof (vok_lt _ _ _ _ _ _ HB) as LB. fold p in LC, LA, LB.
    (* the state: the objects of h, then Wmk, Wkn and the rest *)
    set (st := fun h' : store => (forall q, q < p -> nth_error h' q = nth_error h q) /\ vok h' (View p 0 0 mm kk) f mm kk za /\ vok h' (View (S p) 0 0 kk nn) f kk nn zb).
    assert (stC : forall h', st h' -> vok h' vC f m n true) by (intros h' (S1 & _); apply (vok_same h h'); auto).
    assert (stA : forall h', st h' -> vok h' vA f m k za) by (intros h' (S1 & _); apply (vok_same h h'); auto).
    assert (stB : forall h', st h' -> vok h' vB f k n zb) by (intros h' (S1 & _); apply (vok_same h h'); auto).
    assert (S0 : st (h ++ [M; K]) /\ length (h ++ [M; K]) = S (S p)).
    { split; [|rewrite app_length; cbn [length]; fold p; lia]. split; [intros q Hq; now apply nth_app_old|]. split.
      - apply vok_whole with (X := M); [rewrite nth_error_app2 by (fold p; lia); fold p; now rewrite Nat.sub_diag|exact (holds_entry _ _ _ _ _ HM)|].
        intros _ i j Hi Hj. destruct HM as (_ & _ & _ & _ & H5). now rewrite H5.
      - apply vok_whole with (X := K); [rewrite nth_error_app2 by (fold p; lia); fold p; now replace (S p - p) with 1 by lia|exact (holds_entry _ _ _ _ _ HK)|].
        intros _ i j Hi Hj. destruct HK as (_ & _ & _ & _ & H5). now rewrite H5. }
    (* updates of Wmk and Wkn *)
    assert (UK : forall h' va vb L, st h' /\ length h' = L -> vok h' va f kk nn zb -> vok h' vb f kk nn zb ->
              exists h'', vadd h' (View (S p) 0 0 kk nn) va vb = Ok h'' /\ st h'' /\ length h'' = L).
    { intros h' va vb L ((S1 & S2 & S3) & <-) Ha Hb'. destruct (vadd_upd h' _ va vb f kk nn zb S3 Ha Hb') as (h'' & E & El & Eq & V). exists h''. split; [exact E|]. split; [|exact El].
      cbn [v_at] in Eq. split; [intros q Hq; rewrite Eq by lia; now apply S1|]. split; [|exact V]. eapply vok_same; [|exact S2]. apply Eq. cbn [v_at]. lia. }
    assert (UM : forall h' va vb L, st h' /\ length h' = L -> vok h' va f mm kk za -> vok h' vb f mm kk za ->
              exists h'', vadd h' (View p 0 0 mm kk) va vb = Ok h'' /\ st h'' /\ length h'' = L).
    { intros h' va vb L ((S1 & S2 & S3) & <-) Ha Hb'. destruct (vadd_upd h' _ va vb f mm kk za S2 Ha Hb') as (h'' & E & El & Eq & V). exists h''. split; [exact E|]. split; [|exact El].
      cbn [v_at] in Eq. split; [intros q Hq; rewrite Eq by lia; now apply S1|]. split; [exact V|]. eapply vok_same; [|exact S3]. apply Eq. cbn [v_at]. lia. }
    assert (REC : forall h' c a b za' zb', vok h' c f mm nn true -> vok h' a f mm kk za' -> vok h' b f kk nn zb' -> za' || zb' = true ->
              vmul_strassen mulbs fuel h' c a b cutoff = Ok h').
    { intros h' c a b za' zb' K1 K2 K3 K4. apply (IH h' c a b f mm kk nn za' zb' Y); auto. lia. }
    assert (VM : forall h', st h' -> vok h' (View p 0 0 mm kk) f mm kk za) by now intros h' (_ & ? & _).
    assert (VK : forall h', st h' -> vok h' (View (S p) 0 0 kk nn) f kk nn zb) by now intros h' (_ & _ & ?).
    assert (ADD : forall h' c a b, vok h' c f mm nn true -> vok h' a f mm nn true -> vok h' b f mm nn true -> vadd h' c a b = Ok h') by (intros; eapply vadd_same; eauto).
    assert (QC' := fun h' (K : st h') => QC h' (stC h' K)). assert (QA' := fun h' (K : st h') => QA h' (stA h' K)). assert (QB' := fun h' (K : st h') => QB h' (stB h' K)). clear QC QA QB.
    destruct S0 as (S0 & L0).
    match goal with |- ?x = _ => assert (KK : wp x (fun h' => h' = h)); [|destruct (wp_ok _ _ KK) as (h' & -> & ->); reflexivity] end.
    assert (upK : forall h' va vb (P : store -> Prop) kont, st h' -> vok h' va f kk nn zb -> vok h' vb f kk nn zb -> (forall h'', st h'' -> length h'' = length h' -> wp (kont h'') P) ->
              wp (bind (vadd h' (View (S p) 0 0 kk nn) va vb) kont) P).
    { intros h' va vb P kont S1 Ha Hb' Hk. destruct (UK h' va vb _ (conj S1 eq_refl) Ha Hb') as (h'' & -> & S2 & L2). cbn [bind]. now apply Hk. }
    assert (upM : forall h' va vb (P : store -> Prop) kont, st h' -> vok h' va f mm kk za -> vok h' vb f mm kk za -> (forall h'', st h'' -> length h'' = length h' -> wp (kont h'') P) ->
              wp (bind (vadd h' (View p 0 0 mm kk) va vb) kont) P).
    { intros h' va vb P kont S1 Ha Hb' Hk. destruct (UM h' va vb _ (conj S1 eq_refl) Ha Hb') as (h'' & -> & S2 & L2). cbn [bind]. now apply Hk. }
    assert (rc : forall h' c a b za' zb' (P : store -> Prop) kont, vok h' c f mm nn true -> vok h' a f mm kk za' -> vok h' b f kk nn zb' -> za' || zb' = true ->
              wp (kont h') P -> wp (bind (vmul_strassen mulbs fuel h' c a b cutoff) kont) P).
    { intros h' c a b za' zb' P kont K1 K2 K3 K4 Hk. rewrite (REC h' c a b za' zb') by auto. exact Hk. }
    assert (ad : forall h' c a b (P : store -> Prop) kont, vok h' c f mm nn true -> vok h' a f mm nn true -> vok h' b f mm nn true ->
              wp (kont h') P -> wp (bind (vadd h' c a b) kont) P).
    { intros h' c a b P kont K1 K2 K3 Hk. rewrite (ADD h' c a b) by auto. exact Hk. }
    clear UK UM REC ADD.
    apply upK; auto. intros h1 S1 L1. apply upM; auto. intros h2 S2 L2. apply (rc _ _ _ _ za zb); auto.
    apply upM; auto. intros h3 S3 L3. apply upK; auto. intros h4 S4 L4. apply (rc _ _ _ _ za zb); auto.
    apply upK; auto. intros h5 S5 L5. apply upM; auto. intros h6 S6 L6. apply (rc _ _ _ _ za zb); auto.
    apply upM; auto. intros h7 S7 L7. apply (rc _ _ _ _ za zb); auto. apply ad; auto.
    destruct (vget_ok _ _ _ _ _ _ (QA' h7 S7 false true)) as (a & Ea & Ka & _). destruct (vget_ok _ _ _ _ _ _ (QB' h7 S7 true false)) as (b & Eb & Kb & _).
    rewrite Ea, Eb. cbn [bind]. pose proof Ka as (a1 & a2 & a3 & a4 & _). pose proof Kb as (b1 & b2 & b3 & b4 & _). unfold mzed_mul_init.
    apply wp_bind. apply wp_bind. apply wp_check; [rewrite a4, b3, Nat.eqb_refl; apply same_ff_iff; congruence|]. destruct (wf_deg2 a a1) as [g1 g2].
    eapply wp_mono; [apply init_h; auto|]. cbv beta. intros P HP. rewrite a2, a3, b4 in HP.
    assert (L8 : length h7 = S (S p)) by lia.
    assert (S8 : st (h7 ++ [P]) /\ vok (h7 ++ [P]) (View (S (S p)) 0 0 mm nn) f mm nn true).
    { destruct S7 as (T1 & T2 & T3). split; [split; [intros q Hq; rewrite nth_app_old by lia; now apply T1|split]|].
      - eapply vok_same; [|exact T2]. apply nth_app_old. cbn [v_at]. lia.
      - eapply vok_same; [|exact T3]. apply nth_app_old. cbn [v_at]. lia.
      - apply vok_whole with (X := P); [rewrite nth_error_app2 by lia; now rewrite L8, Nat.sub_diag|exact (holds_entry _ _ _ _ _ HP)|].
        intros _ i j Hi Hj. destruct HP as (_ & _ & _ & _ & H5). now rewrite H5. }
    destruct S8 as (S8 & VP). set (h8 := h7 ++ [P]) in *. assert (L9 : length h8 = S (S (S p))) by (unfold h8; rewrite app_length; cbn [length]; lia). clearbody h8.
    apply (rc _ _ _ _ za zb); auto. apply ad; auto. apply ad; auto. apply ad; auto.
    (* the last update of Wkn keeps the new matrix *)
    destruct (vadd_upd h8 (View (S p) 0 0 kk nn) (View (S p) 0 0 kk nn) (quad kk nn false false (vsub vB)) f kk nn zb) as (h9 & E9 & L10 & Q9 & V9); auto.
    rewrite E9. cbn [bind]. cbn [v_at] in Q9.
    assert (S9 : st h9). { destruct S8 as (T1 & T2 & T3). split; [intros q Hq; rewrite Q9 by lia; now apply T1|]. split; [|exact V9]. eapply vok_same; [|exact T2]. apply Q9. cbn [v_at]. lia. }
    assert (VP9 : vok h9 (View (S (S p)) 0 0 mm nn) f mm nn true) by (eapply vok_same; [|exact VP]; apply Q9; cbn [v_at]; lia).
    apply (rc _ _ _ _ za zb); auto. apply ad; auto. apply ad; auto. apply (rc _ _ _ _ za zb); auto. apply ad; auto.
    rewrite (vrest_same mulbs h9 vC vA vB f m k n mm kk nn za zb A) by auto. cbn [bind wp].
    destruct S9 as (T1 & _). now apply firstn_prefix.
Qed.
End St.
