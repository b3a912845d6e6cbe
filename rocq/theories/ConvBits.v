(** Word-level facts about the packed <-> sliced conversions: what [word_slice] and [word_cling] do to
    the bits of a word, and the meaning of one entry of the unrolled tables. *)
From Coq Require Import NArith ZArith Lia List Bool Arith Btauto.
From Coq Require Import ZifyBool ZifyNat ZifyN.
From Verif Require Import Base Spec PolyFacts Gf2xModel Gf2xProofs Gf2eModel Gf2eProofs MzdModel MzedModel MzedSpec LaneFacts MzedProofs SliceModel SliceSpec MzdFacts KaraModel ConvTable ConvModel.
Import ListNotations.
Local Open Scope nat_scope.

(** ** symbolic evaluation: the positions of x whose OR is bit p of the result *)
Fixpoint gsym (rsteps : list (N * N * nat)) (p : nat) : list nat :=
  match rsteps with
  | [] => [p]
  | (m1, m2, s) :: r => (if N.testbit m1 (N.of_nat p) then gsym r p else []) ++
      (if (s <=? p) && N.testbit m2 (N.of_nat (p - s)) then gsym r (p - s) else [])
  end.
Fixpoint ssym (rsteps : list (N * N * nat)) (p : nat) : list nat :=
  match rsteps with
  | [] => [p]
  | (m1, m2, s) :: r => (if N.testbit m1 (N.of_nat p) then ssym r p else []) ++
      (if N.testbit m2 (N.of_nat (p + s)) then ssym r (p + s) else [])
  end.
Definition tb (x : N) (p : nat) : bool := N.testbit x (N.of_nat p).
Lemma gsym_ok rs x : forall p, p < 64 -> tb (fold_left gather1 (rev rs) x) p = existsb (tb x) (gsym rs p).
Proof.
  induction rs as [|[[m1 m2] s] r IH]; intros p Hp; cbn [rev gsym].
  - cbn. now rewrite orb_false_r.
  - rewrite fold_left_app. cbn [fold_left gather1]. rewrite existsb_app. unfold tb at 1. rewrite N.lor_spec, N.land_spec, wshl_spec, N.land_spec.
    replace (N.of_nat p <? 64)%N with true by lia. rewrite andb_true_r. f_equal.
    + specialize (IH p Hp). unfold tb in IH at 1. rewrite IH. destruct (N.testbit m1 (N.of_nat p)); [apply andb_true_r|apply andb_false_r].
    + destruct (Nat.leb_spec s p).
      * replace (N.of_nat s <=? N.of_nat p)%N with true by lia. cbn [andb]. replace (N.of_nat p - N.of_nat s)%N with (N.of_nat (p - s)) by lia.
        specialize (IH (p - s) ltac:(lia)). unfold tb in IH at 1. rewrite IH.
        destruct (N.testbit m2 (N.of_nat (p - s))); [apply andb_true_r|apply andb_false_r].
      * replace (N.of_nat s <=? N.of_nat p)%N with false by lia. reflexivity.
Qed.
Lemma ssym_ok rs x : forall p, tb (fold_left spread1 (rev rs) x) p = existsb (tb x) (ssym rs p).
Proof.
  induction rs as [|[[m1 m2] s] r IH]; intros p; cbn [rev ssym].
  - cbn. now rewrite orb_false_r.
  - rewrite fold_left_app. cbn [fold_left spread1]. rewrite existsb_app. unfold tb at 1. rewrite N.lor_spec, N.land_spec, wshr_spec, N.land_spec. f_equal.
    + specialize (IH p). unfold tb in IH at 1. rewrite IH. destruct (N.testbit m1 (N.of_nat p)); [apply andb_true_r|apply andb_false_r].
    + replace (N.of_nat p + N.of_nat s)%N with (N.of_nat (p + s)) by lia.
      specialize (IH (p + s)). unfold tb in IH at 1. rewrite IH.
      destruct (N.testbit m2 (N.of_nat (p + s))); [apply andb_true_r|apply andb_false_r].
Qed.
Lemma existsb_mask x m l : existsb (tb (N.land x m)) l = existsb (tb x) (filter (tb m) l).
Proof.
  induction l as [|a l IH]; [easy|]. cbn [existsb filter]. rewrite IH. unfold tb at 1. rewrite N.land_spec. fold (tb x a) (tb m a).
  destruct (tb m a); cbn [existsb]; [now rewrite andb_true_r|now rewrite andb_false_r].
Qed.
Definition leq (a b : list nat) : bool := if list_eq_dec Nat.eq_dec a b then true else false.
Lemma leq_ok a b : leq a b = true -> a = b. Proof. unfold leq. now destruct (list_eq_dec _ _ _). Qed.
Definition slice_chk (w : nat) : bool :=
  forallb (fun p => leq (filter (tb (topmask w)) (gsym (rev (slice_steps w)) p)) (if 64 - per w <=? p then [w * (p - (64 - per w)) + (w - 1)] else [])) (seq 0 64).
Definition cling_chk (w : nat) : bool :=
  forallb (fun p => leq (filter (fun q => q <? 64) (ssym (rev (cling_steps w)) p)) (if p mod w =? w - 1 then [64 - per w + p / w] else [])) (seq 0 64).
Lemma slice_chk_ok w : good_w w -> slice_chk w = true. Proof. intros [-> | [-> | [-> | ->]]]; vm_compute; reflexivity. Qed.
Lemma cling_chk_ok w : good_w w -> cling_chk w = true. Proof. intros [-> | [-> | [-> | ->]]]; vm_compute; reflexivity. Qed.

(** bit (w-1) of every lane is gathered at the top of the word *)
Lemma word_slice_bit w x p : good_w w -> p < 64 ->
  tb (word_slice w (N.land x (topmask w))) p = (64 - per w <=? p) && tb x (w * (p - (64 - per w)) + (w - 1)).
Proof.
  intros Hw Hp. unfold word_slice. rewrite <- (rev_involutive (slice_steps w)), gsym_ok, existsb_mask by easy.
  pose proof (slice_chk_ok w Hw) as C. unfold slice_chk in C. rewrite forallb_forall in C. specialize (C p ltac:(apply in_seq; lia)). apply leq_ok in C. rewrite C.
  destruct (64 - per w <=? p); cbn; [apply orb_false_r|reflexivity].
Qed.
Lemma word_cling_bit w x p : good_w w -> p < 64 -> (x < 2 ^ 64)%N ->
  tb (word_cling w x) p = (p mod w =? w - 1) && tb x (64 - per w + p / w).
Proof.
  intros Hw Hp Hx. unfold word_cling. rewrite <- (rev_involutive (cling_steps w)), ssym_ok.
  assert (E : forall l, existsb (tb x) l = existsb (tb x) (filter (fun q => q <? 64) l)).
  { induction l as [|a l IH]; [easy|]. cbn [existsb filter]. destruct (Nat.ltb_spec a 64); cbn [existsb]; rewrite IH; [easy|].
    rewrite lt64_bits in Hx. unfold tb at 1. rewrite Hx by lia. reflexivity. }
  rewrite E. pose proof (cling_chk_ok w Hw) as C. unfold cling_chk in C. rewrite forallb_forall in C. specialize (C p ltac:(apply in_seq; lia)). apply leq_ok in C. rewrite C.
  destruct (p mod w =? w - 1); cbn; [apply orb_false_r|reflexivity].
Qed.
Lemma gather_lt steps : forall x, (x < 2 ^ 64)%N -> (fold_left gather1 steps x < 2 ^ 64)%N.
Proof.
  induction steps as [|[[m1 m2] s] r IH]; intros x Hx; [easy|]. cbn [fold_left gather1]. apply IH. apply lor_lt_pow2; [now apply land_lt_pow2|apply wshl_lt].
Qed.
Lemma wshr_lt64 x s : (x < 2 ^ 64)%N -> (wshr x s < 2 ^ 64)%N.
Proof. rewrite !lt64_bits. intros H k Hk. rewrite wshr_spec. apply H. lia. Qed.
Lemma spread_lt steps : forall x, (x < 2 ^ 64)%N -> (fold_left spread1 steps x < 2 ^ 64)%N.
Proof.
  induction steps as [|[[m1 m2] s] r IH]; intros x Hx; [easy|]. cbn [fold_left spread1]. apply IH. apply lor_lt_pow2; [now apply land_lt_pow2|apply wshr_lt64; now apply land_lt_pow2].
Qed.
Lemma tb_ext x y : (x < 2 ^ 64)%N -> (y < 2 ^ 64)%N -> (forall p, p < 64 -> tb x p = tb y p) -> x = y.
Proof.
  intros Hx Hy H. apply N.bits_inj. intro k. rewrite lt64_bits in Hx, Hy. destruct (N.ltb_spec k 64); [|now rewrite Hx, Hy].
  specialize (H (N.to_nat k) ltac:(lia)). unfold tb in H. now replace (N.of_nat (N.to_nat k)) with k in H by lia.
Qed.
Lemma tb_high x p : (x < 2 ^ 64)%N -> 64 <= p -> tb x p = false.
Proof. intros Hx Hp. rewrite lt64_bits in Hx. apply Hx. lia. Qed.

Lemma top_per w : good_w w -> 64 - per w = (w - 1) * per w.
Proof. now intros [-> | [-> | [-> | ->]]]. Qed.
(** ** one term of a slicing statement *)
Definition sval (w : nat) (x : N) (k t : nat) : N := wshr (word_slice w (N.land (wshl x (w - 1 - t)) (topmask w))) ((w - 1 - k) * per w).
Lemma sval_lt w x k t : (sval w x k t < 2 ^ 64)%N.
Proof. apply wshr_lt64. apply gather_lt. apply land_lt_pow2. apply wshl_lt. Qed.
Lemma sval_bit w x k t p : good_w w -> k < w -> t < w -> p < 64 ->
  tb (sval w x k t) p = (p / per w =? k) && tb x (w * (p mod per w) + t).
Proof.
  intros Hw Hk Ht Hp. pose proof (per_pos w Hw) as Pp. pose proof (per_mul w Hw) as Pm. pose proof (top_per w Hw) as Tp.
  pose proof (Nat.div_mod p (per w) ltac:(lia)) as Dm. pose proof (Nat.mod_upper_bound p (per w) ltac:(lia)) as Mu.
  set (P := per w) in *. set (d := p / P) in *. set (r := p mod P) in *.
  unfold sval. fold P. unfold tb at 1. rewrite wshr_spec. replace (N.of_nat p + N.of_nat ((w - 1 - k) * P))%N with (N.of_nat (p + (w - 1 - k) * P)) by lia.
  fold (tb (word_slice w (N.land (wshl x (w - 1 - t)) (topmask w))) (p + (w - 1 - k) * P)).
  assert (E1 : (w - 1 - k) * P + k * P + P = 64) by nia.
  destruct (Nat.eqb_spec d k) as [Ed|Ed].
  - assert (E2 : p + (w - 1 - k) * P + P = 64 + r) by nia.
    assert (Ex : p + (w - 1 - k) * P - (64 - P) = r) by lia.
    rewrite word_slice_bit by (auto; lia). fold P. rewrite Ex. replace (64 - P <=? p + (w - 1 - k) * P) with true by lia. cbn [andb].
    unfold tb. rewrite wshl_spec.
    assert (w * r + w <= 64) by nia.
    replace (N.of_nat (w - 1 - t) <=? N.of_nat (w * r + (w - 1)))%N with true by lia.
    replace (N.of_nat (w * r + (w - 1)) <? 64)%N with true by lia. cbn [andb]. f_equal. lia.
  - cbn [andb]. destruct (Nat.lt_ge_cases (p + (w - 1 - k) * P) 64) as [H|H].
    + rewrite word_slice_bit by auto. fold P. replace (64 - P <=? p + (w - 1 - k) * P) with false; [reflexivity|]. symmetry. apply Nat.leb_gt. nia.
    + apply tb_high; [|easy]. apply gather_lt. apply land_lt_pow2. apply wshl_lt.
Qed.
Definition sterms (w : nat) (ks : list nat) (t : nat) : list (nat * nat * nat) := map (fun k => (k, w - 1 - t, (w - 1 - k) * per w)) ks.
(** the OR of the terms of the words ks of group j2 *)
Lemma or_sterms w f j2 t ks : good_w w -> t < w -> Forall (fun k => k < w /\ w * j2 + k < length f) ks -> (forall j, (nth j f 0 < 2 ^ 64)%N) ->
  exists e, or_terms (sterm w f (w * j2)) (sterms w ks t) = Ok e /\ (e < 2 ^ 64)%N /\
    forall p, p < 64 -> tb e p = existsb (Nat.eqb (p / per w)) ks && rbit f (w * (64 * j2 + p) + t).
Proof.
  intros Hw Ht Hks Hf. induction Hks as [|k ks [Hk1 Hk2] _ IH].
  - exists 0%N. split; [reflexivity|]. split; [reflexivity|]. intros p Hp. exact (N.bits_0 (N.of_nat p)).
  - destruct IH as (e & E1 & E2 & E3). unfold sterms in *. cbn [map or_terms]. unfold sterm at 1. rewrite (lget_ok _ _ 0%N) by lia. cbn [bind]. rewrite E1. cbn [bind].
    eexists. split; [reflexivity|]. split; [apply lor_lt_pow2; [apply sval_lt|easy]|]. intros p Hp. unfold tb at 1. rewrite N.lor_spec.
    fold (tb e p) (sval w (nth (w * j2 + k) f 0%N) k t) (tb (sval w (nth (w * j2 + k) f 0%N) k t) p). rewrite E3, sval_bit by easy. cbn [existsb].
    destruct (Nat.eqb_spec (p / per w) k) as [Ed|Ed]; cbn [andb orb]; [|reflexivity].
    pose proof (per_pos w Hw) as Pp. pose proof (per_mul w Hw) as Pm. pose proof (Nat.div_mod p (per w) ltac:(lia)) as Dm. pose proof (Nat.mod_upper_bound p (per w) ltac:(lia)) as Mu.
    assert (Ex : w * (64 * j2 + p) + t = (w * j2 + k) * 64 + (w * (p mod per w) + t)).
    { rewrite Ed in Dm. rewrite Dm at 1. transitivity (64 * (w * j2) + (w * per w) * k + w * (p mod per w) + t); [lia|]. rewrite Pm. lia. }
    assert (Eb : rbit f (w * (64 * j2 + p) + t) = tb (nth (w * j2 + k) f 0%N) (w * (p mod per w) + t)).
    { unfold rbit. rewrite Ex. assert (w * (p mod per w) + t < 64) by nia. rewrite Nat.div_add_l, Nat.div_small, Nat.add_0_r by lia.
      rewrite (Nat.add_comm (_ * 64)), Nat.mod_add, Nat.mod_small by lia. reflexivity. }
    rewrite Eb. destruct (tb _ _); cbn; [reflexivity|]. apply andb_false_r.
Qed.
(** ** one term of a clinging statement *)
Definition cval (w : nat) (x : N) (k t : nat) : N := wshr (word_cling w (wshl x ((w - 1 - k) * per w))) (w - 1 - t).
Lemma cval_lt w x k t : (cval w x k t < 2 ^ 64)%N.
Proof. apply wshr_lt64. apply spread_lt. apply wshl_lt. Qed.
Lemma cval_bit w x k t p : good_w w -> k < w -> t < w -> p < 64 -> tb (cval w x k t) p = (p mod w =? t) && tb x (k * per w + p / w).
Proof.
  intros Hw Hk Ht Hp. pose proof (per_pos w Hw) as Pp. pose proof (per_mul w Hw) as Pm. pose proof (top_per w Hw) as Tp. pose proof (good_w_pos w Hw) as Gw.
  pose proof (Nat.div_mod p w ltac:(lia)) as Dm. pose proof (Nat.mod_upper_bound p w ltac:(lia)) as Mu.
  assert (Hd : p / w < per w) by (apply Nat.div_lt_upper_bound; lia).
  unfold cval. unfold tb at 1. rewrite wshr_spec. replace (N.of_nat p + N.of_nat (w - 1 - t))%N with (N.of_nat (p + (w - 1 - t))) by lia.
  fold (tb (word_cling w (wshl x ((w - 1 - k) * per w))) (p + (w - 1 - t))).
  assert (E1 : (w - 1 - k) * per w + k * per w + per w = 64) by nia.
  destruct (Nat.eqb_spec (p mod w) t) as [Ed|Ed].
  - assert (Eq1 : p + (w - 1 - t) = w * (p / w) + (w - 1)) by lia.
    assert (w * (p / w) + w <= 64) by nia.
    rewrite word_cling_bit by (auto using wshl_lt; lia). rewrite Eq1.
    rewrite (Nat.add_comm (w * (p / w))), (Nat.mul_comm w (p / w)), Nat.mod_add, Nat.div_add by lia. rewrite Nat.mod_small, Nat.div_small by lia. rewrite Nat.eqb_refl. cbn [andb Nat.add].
    unfold tb. rewrite wshl_spec. 
    assert (HH : forall d, (w - 1 - k) * per w <= 64 - per w + d) by (clear - E1; intros; lia). specialize (HH (p / w)).
    replace (N.of_nat ((w - 1 - k) * per w) <=? N.of_nat (64 - per w + p / w))%N with true by (clear - HH; generalize dependent (p / w); intros; lia).
    replace (N.of_nat (64 - per w + p / w) <? 64)%N with true by lia. cbn [andb]. f_equal. lia.
  - cbn [andb]. destruct (Nat.lt_ge_cases (p + (w - 1 - t)) 64) as [H|H].
    + rewrite word_cling_bit by (auto using wshl_lt). replace ((p + (w - 1 - t)) mod w =? w - 1) with false; [reflexivity|]. symmetry. apply Nat.eqb_neq. intros E.
      apply Ed. pose proof (Nat.div_mod (p + (w - 1 - t)) w ltac:(lia)) as Dm2. rewrite E in Dm2.
      set (q := (p + (w - 1 - t)) / w) in *. assert (Ep : p = w * q + t) by lia. rewrite Ep. rewrite Nat.add_comm, (Nat.mul_comm w q), Nat.mod_add by lia. now apply Nat.mod_small.
    + apply tb_high; [|easy]. apply spread_lt. apply wshl_lt.
Qed.
Definition cterms (w k : nat) (ts : list nat) : list (nat * nat * nat) := map (fun t => (t, (w - 1 - k) * per w, w - 1 - t)) ts.
Definition memb (ts : list nat) (t : nat) : bool := existsb (Nat.eqb t) ts.
Lemma or_cterms w (X : list mzd) m n i j2 k ts : good_w w -> k < w -> i < m -> j2 < width n ->
  Forall (fun t => t < w /\ t < length X) ts ->
  (forall t, t < length X -> wf_mzd (nth t X (Mzd 0 0 [])) /\ mzd_nrows (nth t X (Mzd 0 0 [])) = m /\ mzd_ncols (nth t X (Mzd 0 0 [])) = n) ->
  exists e, or_terms (cterm w X i j2) (cterms w k ts) = Ok e /\ (e < 2 ^ 64)%N /\
    forall p, p < 64 -> tb e p = memb ts (p mod w) && mbit (nth (p mod w) X (Mzd 0 0 [])) i ((64 * (w * j2 + k) + p) / w).
Proof.
  intros Hw Hk Hi Hj Hts HX. induction Hts as [|t ts [Ht1 Ht2] _ IH].
  - exists 0%N. split; [reflexivity|]. split; [reflexivity|]. intros p Hp. exact (N.bits_0 (N.of_nat p)).
  - destruct IH as (e & E1 & E2 & E3). unfold cterms in *. cbn [map or_terms]. unfold cterm at 1. rewrite (lget_ok _ _ (Mzd 0 0 [])) by lia. cbn [bind].
    destruct (HX t Ht2) as (W & R1 & R2). rewrite wf_lget_row by (auto; lia). cbn [bind]. pose proof W as (_ & W2). destruct (W2 i ltac:(lia)) as [L1 L2]. rewrite R2 in L1.
    rewrite (lget_ok _ _ 0%N) by lia. cbn [bind]. rewrite E1. cbn [bind].
    eexists. split; [reflexivity|]. split; [apply lor_lt_pow2; [apply cval_lt|easy]|]. intros p Hp. unfold tb at 1. rewrite N.lor_spec.
    set (v := nth j2 (mrow (nth t X (Mzd 0 0 [])) i) 0%N). fold (tb e p) (cval w v k t) (tb (cval w v k t) p). rewrite E3, cval_bit by easy. unfold memb. cbn [existsb].
    destruct (Nat.eqb_spec (p mod w) t) as [Ed|Ed]; cbn [andb orb]; [|reflexivity].
    pose proof (per_pos w Hw) as Pp. pose proof (per_mul w Hw) as Pm. pose proof (good_w_pos w Hw) as Gw.
    assert (Hd : p / w < per w) by (apply Nat.div_lt_upper_bound; lia).
    assert (Ex : (64 * (w * j2 + k) + p) / w = 64 * j2 + (k * per w + p / w)).
    { replace (64 * (w * j2 + k) + p) with ((64 * j2 + k * per w) * w + p) by nia. rewrite Nat.div_add_l by lia. lia. }
    assert (H64 : k * per w + p / w < 64) by nia.
    assert (Eb : mbit (nth (p mod w) X (Mzd 0 0 [])) i ((64 * (w * j2 + k) + p) / w) = tb v (k * per w + p / w)).
    { rewrite Ed, Ex. unfold mbit, rbit. rewrite (Nat.mul_comm 64 j2), Nat.div_add_l, (Nat.add_comm (j2 * 64)), Nat.mod_add by lia. rewrite Nat.div_small, Nat.mod_small by easy. now rewrite Nat.add_0_r. }
    rewrite Eb. destruct (tb v _); cbn; [reflexivity|apply andb_false_r].
Qed.

(** ** regularity of the unrolled tables *)
Definition sreg (w : nat) (p : spass) (ts : list nat) : Prop :=
  sp_bulk p = map (fun t => (t, sterms w (seq 0 w) t)) ts /\
  (forall n t, n <= w -> In t ts -> rest_terms p n t = sterms w (rev (seq 0 n)) t) /\ Forall (fun t => t < w) ts.
Definition creg (w : nat) (p : cpass) (ts : list nat) : Prop :=
  cp_bulk p = map (fun k => (k, cterms w k ts)) (seq 0 w) /\ cp_rest p = map (fun k => (k, cterms w k ts)) (seq 0 w) /\ Forall (fun t => t < w) ts.
Definition tr_dec (a b : nat * nat * nat) : {a = b} + {a <> b}. Proof. repeat decide equality. Defined.
Definition sreg_chk (w : nat) (p : spass) (ts : list nat) : bool :=
  forallb (fun n => forallb (fun t => if list_eq_dec tr_dec (rest_terms p n t) (sterms w (rev (seq 0 n)) t) then true else false) ts) (seq 0 (S w)).
Lemma sreg_intro w p ts : sp_bulk p = map (fun t => (t, sterms w (seq 0 w) t)) ts -> sreg_chk w p ts = true -> forallb (fun t => t <? w) ts = true -> sreg w p ts.
Proof.
  intros H1 H2 H3. split; [exact H1|]. split.
  - intros n t Hn Ht. unfold sreg_chk in H2. rewrite forallb_forall in H2. specialize (H2 n ltac:(apply in_seq; lia)). rewrite forallb_forall in H2. specialize (H2 t Ht).
    destruct (list_eq_dec _ _ _) as [E|] in H2; [exact E|discriminate].
  - apply Forall_forall. intros t Ht. rewrite forallb_forall in H3. specialize (H3 t Ht). lia.
Qed.
Lemma creg_intro w p ts : cp_bulk p = map (fun k => (k, cterms w k ts)) (seq 0 w) -> cp_rest p = map (fun k => (k, cterms w k ts)) (seq 0 w) -> forallb (fun t => t <? w) ts = true -> creg w p ts.
Proof.
  intros H1 H2 H3. split; [exact H1|]. split; [exact H2|]. apply Forall_forall. intros t Ht. rewrite forallb_forall in H3. specialize (H3 t Ht). lia.
Qed.
Ltac sreg_tac := apply sreg_intro; [vm_compute; reflexivity|vm_compute; reflexivity|reflexivity].
Ltac creg_tac := apply creg_intro; [vm_compute; reflexivity|vm_compute; reflexivity|reflexivity].
Lemma sreg2_d2 : sreg 2 slice2_d2 (seq 0 2). Proof. sreg_tac. Qed.
Lemma sreg4_d3 : sreg 4 slice4_d3 (seq 0 3). Proof. sreg_tac. Qed.
Lemma sreg4_d4 : sreg 4 slice4_d4 (seq 0 4). Proof. sreg_tac. Qed.
Lemma sreg8_d5 : sreg 8 slice8_d5 (seq 0 5). Proof. sreg_tac. Qed.
Lemma sreg8_d6 : sreg 8 slice8_d6 (seq 0 6). Proof. sreg_tac. Qed.
Lemma sreg8_d7 : sreg 8 slice8_d7 (seq 0 7). Proof. sreg_tac. Qed.
Lemma sreg8_d8 : sreg 8 slice8_d8 (seq 0 8). Proof. sreg_tac. Qed.
Lemma sreg16_0_7 : sreg 16 slice16_0_7 (seq 0 8). Proof. sreg_tac. Qed.
Lemma sreg16_8_8 : sreg 16 slice16_8_8 (seq 8 1). Proof. sreg_tac. Qed.
Lemma sreg16_8_9 : sreg 16 slice16_8_9 (seq 8 2). Proof. sreg_tac. Qed.
Lemma sreg16_8_10 : sreg 16 slice16_8_10 (seq 8 3). Proof. sreg_tac. Qed.
Lemma sreg16_8_11 : sreg 16 slice16_8_11 (seq 8 4). Proof. sreg_tac. Qed.
Lemma sreg16_12_12 : sreg 16 slice16_12_12 (seq 12 1). Proof. sreg_tac. Qed.
Lemma sreg16_12_13 : sreg 16 slice16_12_13 (seq 12 2). Proof. sreg_tac. Qed.
Lemma sreg16_12_14 : sreg 16 slice16_12_14 (seq 12 3). Proof. sreg_tac. Qed.
Lemma sreg16_12_15 : sreg 16 slice16_12_15 (seq 12 4). Proof. sreg_tac. Qed.
Lemma creg2_d2 : creg 2 cling2_d2 (seq 0 2). Proof. creg_tac. Qed.
Lemma creg4_d3 : creg 4 cling4_d3 (seq 0 3). Proof. creg_tac. Qed.
Lemma creg4_d4 : creg 4 cling4_d4 (seq 0 4). Proof. creg_tac. Qed.
Lemma creg8_d5 : creg 8 cling8_d5 (seq 0 5). Proof. creg_tac. Qed.
Lemma creg8_d6 : creg 8 cling8_d6 (seq 0 6). Proof. creg_tac. Qed.
Lemma creg8_d7 : creg 8 cling8_d7 (seq 0 7). Proof. creg_tac. Qed.
Lemma creg8_d8 : creg 8 cling8_d8 (seq 0 8). Proof. creg_tac. Qed.
Lemma creg16_0_7 : creg 16 cling16_0_7 (seq 0 8). Proof. creg_tac. Qed.
Lemma creg16_8_8 : creg 16 cling16_8_8 (seq 8 1). Proof. creg_tac. Qed.
Lemma creg16_8_9 : creg 16 cling16_8_9 (seq 8 2). Proof. creg_tac. Qed.
Lemma creg16_8_10 : creg 16 cling16_8_10 (seq 8 3). Proof. creg_tac. Qed.
Lemma creg16_8_11 : creg 16 cling16_8_11 (seq 8 4). Proof. creg_tac. Qed.
Lemma creg16_12_12 : creg 16 cling16_12_12 (seq 12 1). Proof. creg_tac. Qed.
Lemma creg16_12_13 : creg 16 cling16_12_13 (seq 12 2). Proof. creg_tac. Qed.
Lemma creg16_12_14 : creg 16 cling16_12_14 (seq 12 3). Proof. creg_tac. Qed.
Lemma creg16_12_15 : creg 16 cling16_12_15 (seq 12 4). Proof. creg_tac. Qed.
