(** crt_init: the scheme it returns. *)
From Coq Require Import NArith List Bool Arith Lia ZifyN ZifyNat ZifyBool.
From Verif Require Import Base Spec PolyFacts Gf2eModel IrrTable MzdModel SliceModel BlmTable BlmModel BlmSpec BlmFacts BlmCrt BlmFG.
Import ListNotations.
Local Open Scope nat_scope.

Fixpoint dsum (p : list nat) (n : nat) : nat := match n with O => 0 | S n' => dsum p n' + n' * nth n' p 0 end.
Lemma scheme_degree_dsum p : scheme_degree p = nth 0 p 0 + dsum p 17.
Proof. unfold scheme_degree. cbn [seq fold_right dsum]. lia. Qed.
Fixpoint dtot (n : nat) : nat := match n with O => 0 | S n' => dtot n' + n' * n_irr n' end.
Lemma dsum_ext p q n : (forall d, d < n -> nth d p 0 = nth d q 0) -> dsum p n = dsum q n.
Proof. induction n as [|n IH]; intros H; [easy|]. cbn [dsum]. rewrite IH by (intros; apply H; lia). now rewrite H by lia. Qed.
Lemma dsum_stop p n k : (forall d, n <= d -> nth d p 0 = 0) -> dsum p (n + k) = dsum p n.
Proof. intros H. induction k as [|k IH]; [now rewrite Nat.add_0_r|]. rewrite Nat.add_succ_r. cbn [dsum]. rewrite IH, H by lia. lia. Qed.
Definition winv (omega need deg : nat) (p : list nat) (have : nat) : Prop :=
  length p = 17 /\ nth 0 p 0 = omega /\ have = dsum p deg /\ (forall d, deg <= d -> nth d p 0 = 0) /\ forall d, 1 <= d < deg -> nth d p 0 <= n_irr d.
Lemma irr17 : irr_read 17 0 = UB. Proof. vm_compute. reflexivity. Qed.
Lemma while_ok omega need fuel : forall deg p have, 1 <= deg <= 17 -> 18 <= fuel + deg -> winv omega need deg p have -> (have < need -> have = dtot deg) -> have <= need + 15 /\ (need = 0 -> have = 0) ->
  match crt_while fuel need have deg p with
  | Ok (p', have') => exists deg', 1 <= deg' <= 17 /\ winv omega need deg' p' have' /\ need <= have' <= need + 15 /\ (need = 0 -> have' = 0)
  | Die => False
  | UB => dtot 17 < need
  end.
Proof.
  induction fuel as [|fuel IH]; intros deg p have Hd Hf (Hl & H0 & Hh & Hz & Hb) Ht (H15 & Hn0); [lia|]. cbn [crt_while]. destruct (Nat.leb_spec need have) as [Hn|Hn].
  { exists deg. split; [lia|]. split; [|split; [lia|easy]]. split; [easy|]. auto. }
  specialize (Ht Hn). destruct (Nat.eq_dec deg 17) as [->|Hne]; [rewrite irr17; cbn [bind]; rewrite <- Ht; exact Hn|].
  destruct (irr_read_ok deg 0 ltac:(lia)) as [E0 _]. rewrite E0. cbn [bind]. rewrite Nat2N.id. change (length (irrs deg)) with (n_irr deg). set (n := n_irr deg) in *.
  assert (Step : forall k, k <= n -> winv omega need (deg + 1) (upd p deg k) (have + deg * k)).
  { intros k Hk. split; [now rewrite upd_length|]. split; [rewrite nth_upd_ne by lia; easy|]. split; [|split].
    - rewrite Nat.add_1_r. cbn [dsum]. rewrite nth_upd_eq by lia. rewrite (dsum_ext (upd p deg k) p) by (intros; apply nth_upd_ne; lia). lia.
    - intros d Hdd. rewrite nth_upd_ne by lia. apply Hz. lia.
    - intros d Hdd. destruct (Nat.eq_dec d deg) as [->|]; [now rewrite nth_upd_eq by lia|rewrite nth_upd_ne by lia; apply Hb; lia]. }
  destruct (Nat.ltb_spec (have + deg * n) need) as [Hlt|Hge].
  - rewrite lset_ok by lia. cbn [bind]. apply IH; [lia|lia|now apply Step| |lia]. intros _. rewrite Nat.add_1_r. cbn [dtot]. fold n. lia.
  - set (k := (need - have + deg - 1) / deg). rewrite lset_ok by lia. cbn [bind].
    assert (K1 : need - have <= deg * k). { unfold k. pose proof (Nat.div_mod (need - have + deg - 1) deg ltac:(lia)) as E. pose proof (Nat.mod_upper_bound (need - have + deg - 1) deg ltac:(lia)) as L. lia. }
    assert (K2 : k <= n). { unfold k. apply Nat.lt_succ_r. apply Nat.div_lt_upper_bound; [lia|]. rewrite Nat.mul_succ_r. lia. }
    assert (K3 : deg * k < need - have + deg). { unfold k. pose proof (Nat.div_mod (need - have + deg - 1) deg ltac:(lia)) as E. lia. }
    apply IH; [lia|lia|now apply Step|lia|lia].
Qed.
Definition sched (f_len g_len : nat) (p : list nat) : Prop :=
  length p = 17 /\ nth 0 p 0 <= 7 /\ (forall d, 1 <= d <= 16 -> nth d p 0 <= n_irr d) /\ f_len + g_len - 1 <= scheme_degree p /\ scheme_cost p < f_len * g_len.
Definition binv (f g : nat) (b : list nat * nat) : Prop := (b = (repeat 0 17, f * g)) \/ (sched f g (fst b) /\ snd b = scheme_cost (fst b)).
Lemma dsum_le_term p n d : d < n -> d * nth d p 0 <= dsum p n.
Proof. induction n as [|n IH]; intros H; [lia|]. cbn [dsum]. destruct (Nat.eq_dec d n) as [->|]; [lia|]. specialize (IH ltac:(lia)). lia. Qed.
Lemma dsum_upd_dec p n d : d < n -> n <= length p -> 1 <= nth d p 0 -> dsum (upd p d (nth d p 0 - 1)) n = dsum p n - d.
Proof.
  intros Hd Hl H1. induction n as [|n IH]; [lia|]. cbn [dsum]. destruct (Nat.eq_dec d n) as [->|Hne].
  - rewrite nth_upd_eq by lia. rewrite (dsum_ext (upd p n _) p) by (intros; apply nth_upd_ne; lia). nia.
  - rewrite nth_upd_ne by lia. rewrite IH by lia. pose proof (dsum_le_term p n d ltac:(lia)). nia.
Qed.
Lemma try_ok f g omega best : omega < 8 -> binv f g best ->
  match crt_try f g omega best with Ok b => binv f g b | Die => False | UB => dtot 17 < f + g - 1 - omega end.
Proof.
  intros Ho HB. unfold crt_try. set (L := f + g - 1).
  pose proof (while_ok omega (L - omega) 17 1 (omega :: repeat 0 16) 0 ltac:(lia) ltac:(lia)) as HW.
  assert (W0 : winv omega (L - omega) 1 (omega :: repeat 0 16) 0).
  { split; [easy|]. split; [easy|]. split; [cbn; lia|]. split; [|intros; lia]. intros d Hd. destruct d as [|d]; [lia|]. cbn [nth]. apply nth_repeat. }
  specialize (HW W0 ltac:(intros; cbn; lia) ltac:(lia)). destruct (crt_while 17 (L - omega) 0 1 (omega :: repeat 0 16)) as [[p have]| |]; [|easy|exact HW].
  cbn [bind]. destruct HW as (deg & Hd & (Hl & H0 & Hh & Hz & Hb) & Hn & Hn0).
  assert (HD : scheme_degree p = omega + have).
  { rewrite scheme_degree_dsum, H0, Hh. f_equal. replace 17 with (deg + (17 - deg)) at 1 by lia. now apply dsum_stop. }
  assert (Hb' : forall d, 1 <= d <= 16 -> nth d p 0 <= n_irr d). { intros d Hdd. destruct (Nat.lt_ge_cases d deg); [apply Hb; lia|rewrite Hz by lia; lia]. }
  set (diff := have + omega - L).
  assert (Fin : forall p', length p' = 17 -> nth 0 p' 0 = omega -> (forall d, 1 <= d <= 16 -> nth d p' 0 <= n_irr d) -> L <= scheme_degree p' ->
     match (c <- blm_cost_crt p' ;; Ok (if c <? snd best then (p', c) else best)) with Ok b => binv f g b | _ => False end).
  { intros p' L' Z' B' D'. unfold blm_cost_crt. rewrite crt_rows_ok by lia. cbn [bind]. destruct (Nat.ltb_spec (scheme_cost p') (snd best)) as [Hc|Hc]; [|exact HB].
    right. cbn [fst snd]. split; [|easy]. split; [easy|]. split; [lia|]. split; [easy|]. split; [exact D'|].
    destruct HB as [->|((_ & _ & _ & _ & HC) & E)]; [exact Hc|]. lia. }
  destruct (Nat.eqb_spec diff 0) as [E|E].
  { cbn [bind]. rewrite Nat.eqb_refl. cbn [bind]. specialize (Fin p Hl H0 Hb' ltac:(lia)). destruct (c <- blm_cost_crt p ;; _); easy. }
  assert (Hdl : diff < 17) by lia.
  rewrite (lget_ok p diff 0) by lia. cbn [bind]. destruct (Nat.eqb_spec (nth diff p 0) 0) as [Ez|Ez].
  { cbn [bind]. specialize (Fin p Hl H0 Hb' ltac:(lia)). destruct (c <- blm_cost_crt p ;; _); easy. }
  rewrite lset_ok by lia. cbn [bind]. specialize (Fin (upd p diff (nth diff p 0 - 1))).
  destruct (c <- blm_cost_crt (upd p diff (nth diff p 0 - 1)) ;; _) eqn:Ec; [apply Fin| |]; try (exfalso; apply Fin).
  all: try (now rewrite upd_length); try (rewrite nth_upd_ne by lia; easy).
  all: try (intros d Hdd; destruct (Nat.eq_dec d diff) as [->|]; [rewrite nth_upd_eq by lia; specialize (Hb' diff ltac:(lia)); lia|rewrite nth_upd_ne by lia; now apply Hb']).
  all: rewrite scheme_degree_dsum, nth_upd_ne by lia; rewrite dsum_upd_dec by lia; pose proof (scheme_degree_dsum p); lia.
Qed.
Theorem crt_init_ok f g : match crt_init f g with Ok p => p = repeat 0 17 \/ sched f g p | Die => False | UB => dtot 17 < f + g - 1 end.
Proof.
  unfold crt_init.
  assert (H : forall n b, n <= 8 -> binv f g b -> match forloop n (8 - n) (crt_try f g) b with Ok b => binv f g b | Die => False | UB => dtot 17 < f + g - 1 end).
  { induction n as [|n IH]; intros b Hn Hb; [exact Hb|]. cbn [forloop]. pose proof (try_ok f g (8 - S n) b ltac:(lia) Hb) as HT.
    destruct (crt_try f g (8 - S n) b) as [b'| |]; cbn [bind]; [|easy|lia]. replace (S (8 - S n)) with (8 - n) by lia. apply IH; [lia|easy]. }
  specialize (H 8 (repeat 0 17, f * g) ltac:(lia) (or_introl eq_refl)). unfold for_. cbn [Nat.sub] in H |- *.
  destruct (forloop 8 0 (crt_try f g) (repeat 0 17, f * g)) as [b| |]; cbn [bind]; [|easy|easy]. destruct H as [->|[H _]]; [now left|now right].
Qed.
Lemma dtot_value : N.of_nat (dtot 17) = 130486%N.
Proof. vm_compute. reflexivity. Qed.
