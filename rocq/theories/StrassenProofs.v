(** Correctness of Strassen multiplication (C23). *)
From Coq Require Import NArith ZArith Lia List Bool Arith.
From Coq Require Import ZifyBool ZifyNat ZifyN.
From Verif Require Import Base Spec LinSpec PolyFacts MatFacts Gf2xModel Gf2eModel Gf2eProofs.
From Verif Require Import MzdModel MzedModel MzedSpec LaneFacts MzedProofs MzedOps MzedOps2 NjModel NjTable NjMul StrassenModel.
Import ListNotations.
Local Open Scope nat_scope.

Definition sub (F : mat) (a b : nat) : mat := fun i j => F (a + i) (b + j).

(** ** holds-style rules *)
Lemma holds_wf A f m n F : holds A f m n F -> wf_mzed A. Proof. now intros (H & _). Qed.
Lemma holds_self A : wf_mzed A -> holds A (fld A) (mz_nrows A) (mz_ncols A) (entry A).
Proof. intros H. split; [exact H|]. now repeat split. Qed.
Lemma holds_ext A f m n F G : holds A f m n F -> meq m n F G -> holds A f m n G.
Proof. intros (H1 & H2 & H3 & H4 & H5) E. split; [exact H1|]. repeat split; auto. intros i c Hi Hc. rewrite H5 by easy. now apply E. Qed.
Lemma holds_becomes C f m n F C' G : holds C f m n F -> becomes C C' G -> holds C' f m n G.
Proof. intros (H1 & H2 & H3 & H4 & H5) B. pose proof (becomes_holds _ _ _ B) as K. now rewrite H2, H3, H4 in K. Qed.
Lemma becomes_meq C C' f m n F G H : holds C f m n F -> becomes C C' G -> meq m n G H -> becomes C C' H.
Proof. intros (H1 & H2 & H3 & H4 & H5) B E. eapply becomes_ext; [exact B|]. intros i j Hi Hj. apply E; lia. Qed.

Lemma add_h C A B f m n F G H : holds C f m n H -> holds A f m n F -> holds B f m n G ->
  wp (mzed_add_ C A B) (fun C' => becomes C C' (madd F G)).
Proof.
  intros HC (A1 & A2 & A3 & A4 & A5) (B1 & B2 & B3 & B4 & B5). pose proof HC as (C1 & C2 & C3 & C4 & C5).
  eapply wp_mono; [apply mzed_add_inplace_ok; auto; congruence|]. cbv beta. intros C' Bc.
  eapply becomes_meq; [exact HC|exact Bc|]. intros i j Hi Hj. unfold madd. now rewrite A5, B5 by lia.
Qed.
Lemma nj_h mulbs C A B f m k n F G H : 16 <= mulbs -> 0 < n -> holds C f m n H -> holds A f m k F -> holds B f k n G ->
  wp (mzed_mul_newton_john_ mulbs C A B) (fun C' => becomes C C' (madd H (mmul f k F G))).
Proof.
  intros Hb Hn HC (A1 & A2 & A3 & A4 & A5) (B1 & B2 & B3 & B4 & B5). pose proof HC as (C1 & C2 & C3 & C4 & C5).
  assert (0 < mulbs / mz_w A) by (pose proof (good_w_pos _ (wf_good A A1)); apply Nat.div_str_pos; lia).
  assert (Hn' : 0 < mz_ncols B) by lia.
  assert (Hk : cok A B C) by (split; [exact C1|]; split; [congruence|split; congruence]).
  eapply wp_mono; [apply (mzed_mul_newton_john__ok A B); auto; congruence|].
  - cbv beta. intros C' Bc. eapply becomes_meq; [exact HC|exact Bc|]. intros i j Hi Hj. unfold madd. rewrite C5 by lia. f_equal.
    rewrite B2, A4. apply (mmul_ext f m k n); auto.
Qed.
Lemma init_h k m n : gf2e_wf k -> 2 <= ff_degree k -> wp (mzed_init k m n) (fun C => holds C (ff_minpoly k) m n mzero).
Proof.
  intros H1 H2. eapply wp_mono; [now apply mzed_init_ok|]. cbv beta. intros C H.
  destruct H as (E & (W & Ef' & E1 & E2 & E3) & _). split; [exact W|]. repeat split; auto.
Qed.
Lemma win_h A f m n F lr lc hr hc : holds A f m n F -> lr <= hr <= m -> lc <= hc <= n -> lc mod per (mz_w A) = 0 ->
  wp (mzed_window A lr lc hr hc) (fun W => holds W f (hr - lr) (hc - lc) (sub F lr lc) /\ mz_w W = mz_w A /\ mz_ff W = mz_ff A).
Proof.
  intros (A1 & A2 & A3 & A4 & A5) Hr Hc Ha. eapply wp_mono; [apply mzed_window_ok; auto; lia|]. cbv beta.
  intros W (E1 & E2 & E3 & E4 & WW & Hcap & HE). split; [|easy]. split; [exact WW|]. rewrite E1.
  repeat split; auto. intros i c Hi Hcc. pose proof (wf_cap W WW). rewrite HE by lia. unfold sub. apply A5; lia.
Qed.
Lemma on_win_h A f m n F lr lc hr hc op G : holds A f m n F -> lr <= hr <= m -> lc <= hc <= n -> lc mod per (mz_w A) = 0 ->
  (forall W, holds W f (hr - lr) (hc - lc) (sub F lr lc) -> mz_w W = mz_w A -> mz_ff W = mz_ff A -> wp (op W) (fun W' => becomes W W' G)) ->
  wp (on_win A lr lc hr hc op) (fun A' => becomes A A' (fun i c => if (lr <=? i) && (i <? hr) && (lc <=? c) && (c <? hc)
                                         then G (i - lr) (c - lc) else F i c)).
Proof.
  intros (A1 & A2 & A3 & A4 & A5) Hr Hc Ha Hop. unfold on_win. eapply wp_mono; [apply on_window with (F := G); auto; try lia|].
  - intros W E1 E2 E3 E4 WW HE. apply Hop; auto. split; [exact WW|]. rewrite E1.
    repeat split; auto. intros i c Hi Hcc. rewrite HE by lia. unfold sub. apply A5; lia.
  - cbv beta. intros A' B. eapply becomes_ext; [exact B|]. cbv beta. intros i j Hi Hj. destruct (_ && _ && _ && _); [easy|]. apply A5; lia.
Qed.

(** ** halves *)
Lemma half_le w m : half w m <= m / 2 /\ 2 * half w m <= m.
Proof. unfold half. pose proof (Nat.mul_div_le m 2 ltac:(lia)) as H. generalize ((m / 2) mod (64 / w)). intros x. lia. Qed.
Lemma half_mod w m : good_w w -> half w m mod per w = 0.
Proof.
  intros Hw. unfold half. fold (per w). pose proof (per_pos w Hw) as Pp. pose proof (Nat.div_mod (m / 2) (per w) ltac:(lia)) as E.
  assert (E' : m / 2 - (m / 2) mod per w = m / 2 / per w * per w).
  { revert E. generalize (m / 2 / per w) ((m / 2) mod per w). intros; nia. }
  rewrite E'. apply Nat.mod_mul. lia.
Qed.
Lemma half2_mod w m : good_w w -> (2 * half w m) mod per w = 0.
Proof.
  intros Hw. pose proof (half_mod w m Hw) as E. pose proof (per_pos w Hw) as Pp.
  rewrite Nat.mul_mod by lia. rewrite E, Nat.mul_0_r. apply Nat.mod_0_l. lia.
Qed.
Lemma half_pos w n cutoff : good_w w -> 0 < n -> (3 * Z.of_nat (per w) <= 2 * cutoff)%Z -> closer n (n / 2) cutoff = false -> 0 < half w n.
Proof.
  intros Hw Hn Hc Hcl. unfold closer in Hcl. unfold half. fold (per w). pose proof (per_pos w Hw) as Pp.
  assert (Hd : 2 * (n / 2) <= n < 2 * (n / 2) + 2) by (pose proof (Nat.div_mod n 2 ltac:(lia)); pose proof (Nat.mod_upper_bound n 2 ltac:(lia)); lia).
  set (h := n / 2) in *. clearbody h. assert (per w <= h) by lia.
  pose proof (Nat.div_mod h (per w) ltac:(lia)). pose proof (Nat.div_str_pos h (per w) ltac:(lia)) as Q.
  revert H0 Q. generalize (h / per w) (h mod per w). intros; nia.
Qed.

(** ** quadrants *)
Definition quads := bool -> bool -> mat.
Definition updq (X : quads) (r s : bool) (F : mat) : quads :=
  fun r' s' => if Bool.eqb r r' && Bool.eqb s s' then F else X r' s'.
Definition blkf (mm nn : nat) (E : mat) (X : quads) : mat := fun i j =>
  if (i <? 2 * mm) && (j <? 2 * nn) then X (mm <=? i) (nn <=? j) (if mm <=? i then i - mm else i) (if nn <=? j then j - nn else j)
  else E i j.
Definition quads_of (E : mat) (mm nn : nat) : quads := fun r s => sub E (if r then mm else 0) (if s then nn else 0).
Lemma blkf_quads_of mm nn E i j : blkf mm nn E (quads_of E mm nn) i j = E i j.
Proof.
  unfold blkf, quads_of, sub. destruct (_ && _); [|easy]. f_equal.
  - destruct (Nat.leb_spec mm i); lia.
  - destruct (Nat.leb_spec nn j); lia.
Qed.
Lemma blkf_at mm nn E X r s i j : i < mm -> j < nn -> blkf mm nn E X ((if r : bool then mm else 0) + i) ((if s : bool then nn else 0) + j) = X r s i j.
Proof.
  intros Hi Hj. unfold blkf. replace (_ && _) with true by (destruct r, s; lia).
  replace (mm <=? (if r then mm else 0) + i) with r by (destruct r; lia).
  replace (nn <=? (if s then nn else 0) + j) with s by (destruct s; lia).
  f_equal; [destruct r|destruct s]; lia.
Qed.
Lemma rd_h A f m n F mm nn r s : holds A f m n F -> 2 * mm <= m -> 2 * nn <= n -> nn mod per (mz_w A) = 0 ->
  wp (rd A mm nn r s) (fun W => holds W f mm nn (quads_of F mm nn r s) /\ mz_w W = mz_w A /\ mz_ff W = mz_ff A).
Proof.
  intros HA H1 H2 H3. unfold rd, quad. eapply wp_mono; [apply win_h with (1 := HA)|].
  - destruct r; lia.
  - destruct s; lia.
  - destruct s; [easy|]. pose proof (per_pos _ (wf_good A (holds_wf _ _ _ _ _ HA))). apply Nat.mod_0_l. lia.
  - cbv beta. intros W (HW & E1 & E2). split; [|easy].
    replace ((if r then 2 * mm else mm) - (if r then mm else 0)) with mm in HW by (destruct r; lia).
    replace ((if s then 2 * nn else nn) - (if s then nn else 0)) with nn in HW by (destruct s; lia). exact HW.
Qed.

Section Quads.
Variables (f : N) (m n mm nn : nat) (C0 : mzed).
Hypotheses (H0 : wf_mzed C0) (Hf : fld C0 = f) (Hm : mz_nrows C0 = m) (Hn : mz_ncols C0 = n).
Hypotheses (Hmm : 2 * mm <= m) (Hnn : 2 * nn <= n) (Hal : nn mod per (mz_w C0) = 0).
Definition cst (C : mzed) (X : quads) : Prop := becomes C0 C (blkf mm nn (entry C0) X).
Lemma cst_init : cst C0 (quads_of (entry C0) mm nn).
Proof. eapply becomes_ext; [now apply becomes_refl|]. intros i j _ _. now rewrite blkf_quads_of. Qed.
Lemma cst_holds C X : cst C X -> holds C f m n (blkf mm nn (entry C0) X).
Proof. intros H. pose proof (becomes_holds _ _ _ H) as K. now rewrite Hf, Hm, Hn in K. Qed.
Lemma cst_w C X : cst C X -> mz_w C = mz_w C0. Proof. apply becomes_w. Qed.
Lemma cst_rd C X r s : cst C X -> wp (rd C mm nn r s) (fun W => holds W f mm nn (X r s)).
Proof.
  intros HC. eapply wp_mono; [apply rd_h with (1 := cst_holds C X HC); auto; now rewrite (cst_w _ _ HC)|]. cbv beta.
  intros W (HW & _). eapply holds_ext; [exact HW|]. intros i j Hi Hj. unfold quads_of, sub. now apply blkf_at.
Qed.
Lemma cst_wr C X r s op F : cst C X -> (forall W, holds W f mm nn (X r s) -> wp (op W) (fun W' => becomes W W' F)) ->
  wp (wr C mm nn r s op) (fun C' => cst C' (updq X r s F)).
Proof.
  intros HC Hop. unfold wr, quad. pose proof (cst_holds C X HC) as HH.
  eapply wp_mono; [apply on_win_h with (1 := HH) (G := F)|].
  - destruct r; lia.
  - destruct s; lia.
  - rewrite (cst_w _ _ HC). destruct s; [easy|]. pose proof (per_pos _ (wf_good C0 H0)). apply Nat.mod_0_l. lia.
  - intros W HW _ _.
    replace ((if r then 2 * mm else mm) - (if r then mm else 0)) with mm in HW by (destruct r; lia).
    replace ((if s then 2 * nn else nn) - (if s then nn else 0)) with nn in HW by (destruct s; lia). apply Hop.
    eapply holds_ext; [exact HW|]. intros i j Hi Hj. unfold sub. now apply blkf_at.
  - cbv beta. intros C' B. eapply becomes_step; [exact HC|exact B|]. cbv beta. intros i j Hi Hj. unfold blkf, updq.
    destruct (Nat.ltb_spec i (2 * mm)) as [Li|Li]; destruct (Nat.ltb_spec j (2 * nn)) as [Lj|Lj]; cbn [andb].
    2-4: replace (_ && _ && _ && _) with false by (destruct r, s; lia); reflexivity.
    destruct (Nat.leb_spec mm i) as [Mi|Mi]; destruct (Nat.leb_spec nn j) as [Mj|Mj]; destruct r, s; cbn [eqb andb];
      rewrite ?Nat.sub_0_r; first [replace (_ && _ && _ && _) with true by lia; reflexivity
        |replace (_ && _ && _ && _) with false by lia; reflexivity].
Qed.
End Quads.

(** ** the left-over parts *)
Definition zeroed (clr : bool) (W : mzed) : res mzed := if clr then mzed_set_ui W 0 else Ok W.
Lemma zeroed_h clr f W a b F : holds W f a b F -> wp (zeroed clr W) (fun W' => becomes W W' (fun i j => if clr then 0%N else F i j)).
Proof.
  intros HW. unfold zeroed. pose proof HW as (W1 & W2 & W3 & W4 & W5). destruct clr.
  - eapply wp_mono; [apply mzed_set_ui_ok; auto; apply inF_0|]. cbv beta. intros W' B'. eapply becomes_ext; [exact B'|].
    cbv beta. intros i j _ _. destruct (_ =? _); reflexivity.
  - cbn [wp]. eapply becomes_ext; [now apply becomes_refl|]. intros i j Hi Hj. apply W5; lia.
Qed.
Lemma same_wh C D f' m1 n1 m2 n2 F G : holds C f' m1 n1 F -> holds D f' m2 n2 G -> mz_w C = mz_w D.
Proof. intros (C1 & C2 & _) (D1 & D2 & _). apply same_w; auto. unfold fld in *. congruence. Qed.
Section Rest.
Variables (mulbs : nat) (f : N) (m k n mm kk nn : nat) (C0 A B : mzed) (E FA FB : mat) (clr : bool).
Hypotheses (Hb : 16 <= mulbs) (HC0 : holds C0 f m n E) (HA : holds A f m k FA) (HB : holds B f k n FB).
Hypotheses (Hmm : 2 * mm <= m) (Hkk : 2 * kk <= k) (Hnn : 2 * nn <= n) (Hnn0 : 0 < nn).
Hypotheses (Ha1 : (2 * kk) mod per (mz_w A) = 0) (Ha2 : (2 * nn) mod per (mz_w A) = 0).
Let base : mat := fun i j => if clr then 0%N else E i j.
Let P : mat := mmul f k FA FB.
Lemma strassen_rest_ok C :
  becomes C0 C (entry C) ->
  (forall i j, i < 2 * mm -> j < 2 * nn -> entry C i j = N.lxor (base i j) (mmul f (2 * kk) FA FB i j)) ->
  (forall i j, i < m -> j < n -> 2 * mm <= i \/ 2 * nn <= j -> entry C i j = E i j) ->
  wp (strassen_rest mulbs clr C A B mm kk nn) (fun C' => becomes C0 C' (madd base P)).
Proof.
  intros B0 Hin Hout. pose proof HA as (A1 & A2 & A3 & A4 & A5). pose proof HB as (B1 & B2 & B3 & B4 & B5).
  pose proof (holds_becomes _ _ _ _ _ _ _ HC0 B0) as HC.
  assert (wC : mz_w C = mz_w A) by (eapply same_wh; [exact HC|exact HA]).
  assert (wB : mz_w B = mz_w A) by (eapply same_wh; [exact HB|exact HA]).
  pose proof (per_pos _ (wf_good A A1)) as Pp.
  assert (M0 : 0 mod per (mz_w A) = 0) by (apply Nat.mod_0_l; lia).
  unfold strassen_rest. rewrite A3, A4, B4. change (fun W => if clr then mzed_set_ui W 0 else Ok W) with (zeroed clr).
  (* last columns *)
  apply wp_bind. eapply wp_mono with (P := fun C1 => becomes C0 C1 (fun i j => if 2 * nn <=? j then madd base P i j else entry C i j)).
  { destruct (Nat.ltb_spec (2 * nn) n) as [L|L].
    - apply wp_bind. eapply wp_mono; [apply (win_h B _ _ _ _ 0 (2 * nn) k n HB); try lia; now rewrite wB|]. cbv beta. intros B' (HB' & _ & _).
      rewrite Nat.sub_0_r in HB'.
      eapply wp_mono; [apply (on_win_h C _ _ _ _ 0 (2 * nn) m n _ (madd (sub base 0 (2 * nn)) (sub P 0 (2 * nn))) HC); try lia; [now rewrite wC|]|].
      + intros W HW _ _. rewrite Nat.sub_0_r in HW. apply wp_bind. eapply wp_mono; [apply (zeroed_h clr f W _ _ _ HW)|]. cbv beta. intros W' BW.
        pose proof (holds_becomes _ _ _ _ _ _ _ HW BW) as HW'.
        eapply wp_mono; [apply (nj_h mulbs W' A B' f m k (n - 2 * nn) _ _ _ Hb ltac:(lia) HW' HA HB')|].
        cbv beta. intros W'' BW'. eapply becomes_step; [exact BW|exact BW'|]. destruct HW as (_ & _ & R1 & R2 & _).
        intros i j Hi Hj. unfold madd, sub, base. destruct clr; [reflexivity|]. f_equal. rewrite Hout by lia. reflexivity.
      + cbv beta. intros C1 HC1. eapply becomes_step; [exact B0|exact HC1|]. cbv beta. intros i j Hi Hj. destruct HC0 as (_ & _ & R1 & R2 & _).
        replace (_ && _ && _ && _) with (2 * nn <=? j) by lia. destruct (Nat.leb_spec (2 * nn) j); [|easy]. unfold madd, sub. now replace (2 * nn + (j - 2 * nn)) with j by lia; rewrite Nat.sub_0_r.
    - cbn [wp]. eapply becomes_ext; [exact B0|]. cbv beta. intros i j Hi Hj. destruct HC0 as (_ & _ & R1 & R2 & _). now replace (2 * nn <=? j) with false by lia. }
  cbv beta. intros C1 BC1. pose proof (holds_becomes _ _ _ _ _ _ _ HC0 BC1) as HC1.
  assert (wC1 : mz_w C1 = mz_w A) by (eapply same_wh; [exact HC1|exact HA]).
  (* last rows *)
  apply wp_bind. eapply wp_mono with (P := fun C1 => becomes C0 C1 (fun i j => if (2 * mm <=? i) || (2 * nn <=? j) then madd base P i j else entry C i j)).
  { destruct (Nat.ltb_spec (2 * mm) m) as [L|L].
    - apply wp_bind. eapply wp_mono; [apply (win_h A _ _ _ _ (2 * mm) 0 m k HA); try lia; easy|]. cbv beta. intros A' (HA' & _ & _).
      apply wp_bind. eapply wp_mono; [apply (win_h B _ _ _ _ 0 0 k (2 * nn) HB); try lia; now rewrite wB|]. cbv beta. intros B' (HB' & _ & _).
      rewrite Nat.sub_0_r in HA'. rewrite !Nat.sub_0_r in HB'.
      eapply wp_mono; [apply (on_win_h C1 _ _ _ _ (2 * mm) 0 m (2 * nn) _ (madd (sub base (2 * mm) 0) (sub P (2 * mm) 0)) HC1); try lia; [now rewrite wC1|]|].
      + intros W HW _ _. rewrite Nat.sub_0_r in HW. apply wp_bind. eapply wp_mono; [apply (zeroed_h clr f W _ _ _ HW)|]. cbv beta. intros W' BW.
        pose proof (holds_becomes _ _ _ _ _ _ _ HW BW) as HW'.
        eapply wp_mono; [apply (nj_h mulbs W' A' B' f (m - 2 * mm) k (2 * nn) _ _ _ Hb ltac:(lia) HW' HA' HB')|].
        cbv beta. intros W'' BW'. eapply becomes_step; [exact BW|exact BW'|]. destruct HW as (_ & _ & R1 & R2 & _).
        intros i j Hi Hj. unfold madd, sub, base. destruct clr; [reflexivity|]. f_equal. replace (2 * nn <=? 0 + j) with false by lia. rewrite Hout by lia. reflexivity.
      + cbv beta. intros C2 HC2. eapply becomes_step; [exact BC1|exact HC2|]. cbv beta. intros i j Hi Hj. destruct HC0 as (_ & _ & R1 & R2 & _).
        destruct (Nat.leb_spec (2 * nn) j).
        * replace (_ && _ && _ && _) with false by lia. now rewrite orb_true_r.
        * rewrite orb_false_r. replace (_ && _ && _ && _) with (2 * mm <=? i) by lia. destruct (Nat.leb_spec (2 * mm) i); [|easy].
          unfold madd, sub. now replace (2 * mm + (i - 2 * mm)) with i by lia; rewrite Nat.sub_0_r.
    - cbn [wp]. eapply becomes_ext; [exact BC1|]. cbv beta. intros i j Hi Hj. destruct HC0 as (_ & _ & R1 & R2 & _). now replace (2 * mm <=? i) with false by lia. }
  cbv beta. intros C2 BC2. pose proof (holds_becomes _ _ _ _ _ _ _ HC0 BC2) as HC2.
  assert (wC2 : mz_w C2 = mz_w A) by (eapply same_wh; [exact HC2|exact HA]).
  destruct (Nat.ltb_spec (2 * kk) k) as [L|L].
  - apply wp_bind. eapply wp_mono; [apply (win_h A _ _ _ _ 0 (2 * kk) (2 * mm) k HA); try lia; easy|]. cbv beta. intros A' (HA' & _ & _).
    apply wp_bind. eapply wp_mono; [apply (win_h B _ _ _ _ (2 * kk) 0 k (2 * nn) HB); try lia; now rewrite wB|]. cbv beta. intros B' (HB' & _ & _).
    rewrite Nat.sub_0_r in HA'. rewrite Nat.sub_0_r in HB'.
    eapply wp_mono; [apply (on_win_h C2 _ _ _ _ 0 0 (2 * mm) (2 * nn) _ (madd base P) HC2); try lia; [now rewrite wC2|]|].
    + intros W HW _ _. rewrite !Nat.sub_0_r in HW.
      eapply wp_mono; [apply (nj_h mulbs W A' B' f (2 * mm) (k - 2 * kk) (2 * nn) _ _ _ Hb ltac:(lia) HW HA' HB')|].
      cbv beta. intros W'' BW'. eapply becomes_ext; [exact BW'|]. destruct HW as (_ & _ & R1 & R2 & _).
      intros i j Hi Hj. unfold madd, P. change (sub (fun i0 j0 => _) 0 0 i j) with (if (2 * mm <=? i) || (2 * nn <=? j) then madd base P i j else entry C i j).
      replace ((2 * mm <=? i) || (2 * nn <=? j)) with false by lia. rewrite Hin by lia. rewrite N.lxor_assoc. f_equal.
      replace k with (2 * kk + (k - 2 * kk)) at 2 by lia. rewrite mmul_split. reflexivity.
    + cbv beta. intros C3 HC3. eapply becomes_step; [exact BC2|exact HC3|]. cbv beta. intros i j Hi Hj. destruct HC0 as (_ & _ & R1 & R2 & _).
      destruct (Nat.leb_spec (2 * mm) i); destruct (Nat.leb_spec (2 * nn) j); cbn [orb].
      1-3: replace (_ && _ && _ && _) with false by lia; easy.
      replace (_ && _ && _ && _) with true by lia. now rewrite !Nat.sub_0_r.
  - cbn [wp]. eapply becomes_ext; [exact BC2|]. cbv beta. intros i j Hi Hj. destruct HC0 as (_ & _ & R1 & R2 & _).
    destruct (Nat.leb_spec (2 * mm) i); destruct (Nat.leb_spec (2 * nn) j); cbn [orb]; try easy. rewrite Hin by lia.
    unfold madd, P. now replace (2 * kk) with k by lia.
Qed.
End Rest.
