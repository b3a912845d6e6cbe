(** Soundness of the checker: loops over arrays. *)
From Coq Require Import String List Bool Arith Lia Permutation.
From Verif Require Import MemLang MemCheck MemSound MemSteps.
Import ListNotations.
Local Open Scope nat_scope.

(** what a round of such a loop does not change *)
Definition only_at (e e1 : env) : Prop :=
  e_idx e1 = e_idx e /\ (forall b, e_bnd e1 b = e_bnd e b) /\ forall a j, j <> e_idx e -> e_arr e1 a j = e_arr e a j.
Lemma only_at_refl e : only_at e e.
Proof. repeat split; auto. Qed.
Lemma only_at_trans e e1 e2 : only_at e e1 -> only_at e1 e2 -> only_at e e2.
Proof.
  intros [A [B C]] [A' [B' C']]. split; [congruence|]. split; [intros b; rewrite B'; auto|]. intros a j N. rewrite C'; [auto | congruence].
Qed.
Lemma only_at_put e p v : only_at e (put e p v).
Proof.
  destruct p as [x|a]; simpl; repeat split; auto. intros a' j N. simpl. destruct (Nat.eqb_spec j (e_idx e)); [congruence|]. rewrite andb_false_r. auto.
Qed.
Lemma plain_only prog s e h o e1 h1 : exec prog s e h o e1 h1 -> plain s = true -> only_at e e1.
Proof.
  intros H. induction H; intros P; simpl in P; try discriminate; try apply only_at_refl; try apply only_at_put;
    try (apply andb_prop in P; destruct P as [P1 P2]); auto; try (eapply only_at_trans; eauto; fail).
  - apply (only_at_put e (V x)).
  - destruct o; try apply only_at_refl. destruct dst as [p|]; [apply only_at_put | apply only_at_refl].
Qed.

Lemma obj_ok_free X s s' k ds o : forallb no_site ds = true -> obj_ok X s k ds o -> obj_ok X s' k ds o.
Proof.
  intros N [A B]. split; auto. intros l I. destruct (B l I) as [d [J K]]. exists d. split; auto. rewrite forallb_forall in N. specialize (N d J).
  destruct d; simpl in *; auto; discriminate.
Qed.
Lemma csats_asg X s s' e cs L : (forall m, forallb (chunk_fresh m) cs = false -> s' m = s m) -> csats X s e cs L -> csats X s' e cs L.
Proof.
  intros A H. induction H as [|c cs La Lb P Q IH]; [constructor|].
  assert (A1 : forall m, chunk_fresh m c = false -> s' m = s m) by (intros m E; apply A; simpl; rewrite E; auto).
  assert (A2 : forall m, forallb (chunk_fresh m) cs = false -> s' m = s m) by (intros m E; apply A; simpl; rewrite E; apply andb_false_r).
  assert (OO : forall k ds o, (forall m, forallb (dep_fresh m) ds = false -> s' m = s m) -> obj_ok X s k ds o -> obj_ok X s' k ds o).
  { intros k ds o D [B1 B2]. split; auto. intros l I. destruct (B2 l I) as [d [J K]]. exists d. split; auto. destruct d as [i|n|]; simpl in *; auto.
    rewrite D; auto. apply not_true_is_false. intros E. rewrite forallb_forall in E. specialize (E _ J). simpl in E. rewrite Nat.eqb_refl in E. discriminate. }
  constructor; [|auto]. destruct c as [n k ds|a b k ds|a lo len k ds]; simpl in *.
  - destruct P as [o [-> O]]. exists o. rewrite (A1 n); [|rewrite Nat.eqb_refl; auto]. split; auto. apply OO; auto. intros m E. apply A1. rewrite E. apply andb_false_r.
  - destruct P as [P1 P2]. split; auto. intros i l o E. destruct (P2 i l o E). split; auto.
  - destruct P as [P1 P2]. split; auto. intros i l o E. destruct (P2 i l o E). split; auto.
Qed.
Lemma vok_asg X s s' e vs : (forall m, forallb (fun q => val_fresh m (snd q)) vs = false -> s' m = s m) -> vok X s e vs -> vok X s' e vs.
Proof.
  intros A H p a I. assert (Q := H p a I). destruct a as [| | |n]; simpl in *; auto. rewrite A; auto.
  apply not_true_is_false. intros E. rewrite forallb_forall in E. specialize (E _ I). simpl in E. rewrite Nat.eqb_refl in E. discriminate.
Qed.

(** the entries lo .. lo+len-1 of arrays *)
Definition rng (lo len : nat) (sts : list (string * status)) : list chunk :=
  concat (map (fun e => match e with (a, Some (k, ds)) => [CRng a lo len k ds] | _ => [] end) sts).
Lemma rng_some lo len a k ds sts : rng lo len ((a, Some (k, ds)) :: sts) = CRng a lo len k ds :: rng lo len sts.
Proof. reflexivity. Qed.
Lemma rng_none lo len a sts : rng lo len ((a, None) :: sts) = rng lo len sts.
Proof. reflexivity. Qed.
Lemma rng_nil lo len : rng lo len [] = [].
Proof. reflexivity. Qed.
Definition free_sts (sts : list (string * status)) : Prop := forall a k ds, In (a, Some (k, ds)) sts -> forallb no_site ds = true.
Lemma free_tl x sts : free_sts (x :: sts) -> free_sts sts.
Proof. intros H a k ds I. eapply H. right; eauto. Qed.
Lemma csats_cons_inv X s e c cs L : csats X s e (c :: cs) L -> exists L1 L2, L = L1 ++ L2 /\ csat X s e c L1 /\ csats X s e cs L2.
Proof. intros H. inversion H; subst. eauto. Qed.
Lemma rsat_split X s e a k ds lo m n L : rsat X s e a k ds lo (m + n) L -> exists L1 L2, L = L1 ++ L2 /\ rsat X s e a k ds lo m L1 /\ rsat X s e a k ds (lo + m) n L2.
Proof.
  intros [A B]. exists (firstn m L), (skipn m L). split; [symmetry; apply firstn_skipn|]. split; split.
  - rewrite firstn_length. lia.
  - intros i l o E. apply B. assert (Q : i < m) by (assert (Z : i < length (firstn m L)) by (apply nth_error_Some; congruence); rewrite firstn_length in Z; lia).
    rewrite <- (firstn_skipn m L), nth_error_app1; [auto | apply nth_error_Some; congruence].
  - rewrite skipn_length. lia.
  - intros i l o E. replace (lo + m + i) with (lo + (m + i)) by lia. apply B. rewrite <- (firstn_skipn m L), nth_error_app2; rewrite firstn_length; [|lia].
    rewrite <- E. f_equal. lia.
Qed.
Lemma rsat_join X s e a k ds lo m n L1 L2 : rsat X s e a k ds lo m L1 -> rsat X s e a k ds (lo + m) n L2 -> rsat X s e a k ds lo (m + n) (L1 ++ L2).
Proof.
  intros [A B] [A' B']. split; [rewrite app_length; lia|]. intros i l o E. destruct (Nat.lt_ge_cases i m) as [Q|Q].
  - rewrite nth_error_app1 in E by lia. auto.
  - rewrite nth_error_app2 in E by lia. destruct (B' _ _ _ E) as [P R1]. split; auto. rewrite <- P. f_equal. lia.
Qed.
Lemma perm_4 {T} (a b c d : list T) : Permutation ((a ++ b) ++ c ++ d) ((a ++ c) ++ b ++ d).
Proof. rewrite <- !app_assoc. apply Permutation_app_head. rewrite !app_assoc. apply Permutation_app_tail. apply Permutation_app_comm. Qed.
Lemma rng_split X s e lo m n : forall sts L, csats X s e (rng lo (m + n) sts) L ->
  exists L1 L2, Permutation L (L1 ++ L2) /\ csats X s e (rng lo m sts) L1 /\ csats X s e (rng (lo + m) n sts) L2.
Proof.
  induction sts as [|[a [[k ds]|]] sts IH]; intros L H; rewrite ?rng_some, ?rng_none, ?rng_nil in H |- *.
  - inversion H; subst. exists [], []. repeat split; auto; constructor.
  - apply csats_cons_inv in H. destruct H as [La [Lb [-> [P Q]]]]. simpl in P. apply rsat_split in P. destruct P as [Lc [Ld [-> [P1 P2]]]].
    destruct (IH _ Q) as [L1 [L2 [PM [C1 C2]]]]. exists (Lc ++ L1), (Ld ++ L2). split; [rewrite PM; apply perm_4|]. split; constructor; auto.
  - destruct (IH _ H) as [L1 [L2 Q]]. exists L1, L2. exact Q.
Qed.
Lemma rng_join X s e lo m n : forall sts L1 L2, csats X s e (rng lo m sts) L1 -> csats X s e (rng (lo + m) n sts) L2 ->
  exists L, Permutation L (L1 ++ L2) /\ csats X s e (rng lo (m + n) sts) L.
Proof.
  induction sts as [|[a [[k ds]|]] sts IH]; intros L1 L2 H H'; rewrite ?rng_some, ?rng_none, ?rng_nil in H, H' |- *.
  - inversion H; inversion H'; subst. exists []. split; auto; constructor.
  - apply csats_cons_inv in H. destruct H as [La [Lb [-> [P Q]]]]. apply csats_cons_inv in H'. destruct H' as [Lc [Ld [-> [P' Q']]]]. simpl in P, P'.
    destruct (IH _ _ Q Q') as [L [PM C1]]. exists ((La ++ Lc) ++ L). split; [rewrite PM; apply perm_4|]. constructor; auto. simpl. eapply rsat_join; eauto.
  - exact (IH _ _ H H').
Qed.
Lemma rng_env X s s' e e' lo len : forall sts L, free_sts sts -> (forall a j, lo <= j < lo + len -> e_arr e' a j = e_arr e a j) -> csats X s e (rng lo len sts) L -> csats X s' e' (rng lo len sts) L.
Proof.
  induction sts as [|[a [[k ds]|]] sts IH]; intros L FS A H; rewrite ?rng_some, ?rng_none, ?rng_nil in H |- *.
  - inversion H; subst. constructor.
  - apply csats_cons_inv in H. destruct H as [La [Lb [-> [P Q]]]]. constructor; [|apply IH; auto; eapply free_tl; eauto].
    simpl in P |- *. assert (P' : rsat X s e' a k ds lo len La) by (eapply rsat_env; [|exact P]; intros i Hi; apply A; lia).
    destruct P' as [P1 P2]. split; auto. intros i l o E. destruct (P2 i l o E) as [R1 R2]. split; auto. eapply obj_ok_free; [|exact R2]. eapply FS. left; reflexivity.
  - apply IH; auto. eapply free_tl; eauto.
Qed.
Lemma rng_zero X s e lo : forall sts, csats X s e (rng lo 0 sts) [].
Proof.
  induction sts as [|[a [[k ds]|]] sts IH]; rewrite ?rng_some, ?rng_none, ?rng_nil; auto; [constructor|].
  change (@nil (loc * obj)) with (@nil (loc * obj) ++ []). constructor; auto. simpl. split; auto. intros i l o E. destruct i; discriminate.
Qed.
Lemma rng_zero_inv X s e lo : forall sts L, csats X s e (rng lo 0 sts) L -> L = [].
Proof.
  induction sts as [|[a [[k ds]|]] sts IH]; intros L H; rewrite ?rng_some, ?rng_none, ?rng_nil in H; auto; [inversion H; auto|].
  apply csats_cons_inv in H. destruct H as [La [Lb [-> [P Q]]]]. simpl in P. destruct P as [P _]. destruct La; [|discriminate]. simpl. auto.
Qed.
Lemma rng_arr X s e b : forall names ss L, csats X s e (rng 0 (e_bnd e b) (combine names ss)) L -> csats X s e (arr_chs b names ss) L.
Proof.
  unfold arr_chs, rng. intros names ss. generalize (combine names ss). intros sts. induction sts as [|[a [[k ds]|]] sts IH]; intros L H; simpl in *; auto.
  apply csats_cons_inv in H. destruct H as [La [Lb [-> [P Q]]]]. constructor; auto.
Qed.

(** ** the start of a loop *)
Definition drop_n (es : list (string * nat * status)) : list (string * status) := map (fun e => match e with (a, _, st) => (a, st) end) es.
Lemma open_ok X s e b : forall names n cs es C0 L, open_arrs b names n cs = Some (es, C0) -> csats X s e cs L ->
  exists La L0, Permutation L (La ++ L0) /\ csats X s e (rng 0 (e_bnd e b) (drop_n es)) La /\ csats X s e C0 L0 /\ free_sts (drop_n es).
Proof.
  induction names as [|a names IH]; intros n cs es C0 L E C; simpl in E.
  - inversion E; subst. exists [], L. repeat split; auto; [constructor | intros ? ? ? []].
  - destruct (pull_arr a cs) as [[[[b' k] ds] cs']|] eqn:PA.
    + destruct (String.eqb_spec b b') as [<-|]; [|discriminate]. destruct (forallb no_site ds) eqn:NS; [|discriminate]. simpl in E.
      destruct (open_arrs b names (S n) cs') as [[es' r]|] eqn:EO; [|discriminate]. inversion E; subst. clear E.
      destruct (pull_arr_ok _ _ _ _ _ _ _ _ _ _ C PA) as [La [L' [PM [RS C']]]]. destruct (IH _ _ _ _ _ EO C') as [Lb [L0 [PM' [C1 [C2 FS]]]]].
      exists (La ++ Lb), L0. split; [rewrite PM, PM'; rewrite app_assoc; auto|]. split; [|split; auto].
      * unfold drop_n, rng. simpl. constructor; auto.
      * intros a' k' ds' [I|I]; [inversion I; subst; auto | eapply FS; eauto].
    + destruct (open_arrs b names (S n) cs) as [[es' r]|] eqn:EO; [|discriminate]. inversion E; subst. clear E.
      destruct (IH _ _ _ _ _ EO C) as [Lb [L0 [PM' [C1 [C2 FS]]]]]. exists Lb, L0. repeat split; auto.
      intros a' k' ds' [I|I]; [inversion I | eapply FS; eauto].
Qed.
(** the numbers *)
Fixpoint numbered (n : nat) (es : list (string * nat * status)) : Prop := match es with [] => True | (_, m, _) :: es => m = n /\ numbered (S n) es end.
Lemma open_numbered b : forall names n cs es C0, open_arrs b names n cs = Some (es, C0) -> numbered n es /\ length es = length names.
Proof.
  induction names as [|a names IH]; intros n cs es C0 E; simpl in E; [inversion E; subst; simpl; auto|].
  destruct (pull_arr a cs) as [[[[b' k] ds] cs']|].
  - destruct (String.eqb b b' && forallb no_site ds); [|discriminate]. destruct (open_arrs b names (S n) cs') as [[es' r]|] eqn:EO; [|discriminate].
    inversion E; subst. destruct (IH _ _ _ _ EO). simpl. auto.
  - destruct (open_arrs b names (S n) cs) as [[es' r]|] eqn:EO; [|discriminate]. inversion E; subst. destruct (IH _ _ _ _ EO). simpl. auto.
Qed.
Lemma el_fresh m : forall es n, numbered n es -> m < n -> free_sts (drop_n es) -> forallb (chunk_fresh m) (el_chs es) = true /\ forallb (fun q => val_fresh m (snd q)) (el_vars es) = true.
Proof.
  induction es as [|[[a n'] [[k ds]|]] es IH]; intros n N Q FS; simpl in N; auto; destruct N as [-> N];
    assert (FS' : free_sts (drop_n es)) by (intros a' k' ds' I; eapply FS; right; eauto); destruct (IH (S n) N ltac:(lia) FS') as [P1 P2]; auto.
  unfold el_chs, el_vars. simpl. fold (el_chs es). fold (el_vars es). rewrite P1, P2. destruct (Nat.eqb_spec m n); [lia|]. simpl. rewrite andb_true_r. split; auto.
  assert (Z := FS a k ds (or_introl eq_refl)). apply forallb_forall. intros d I. rewrite forallb_forall in Z. specialize (Z d I). destruct d; simpl in *; auto; discriminate.
Qed.
Lemma open_round X i e : forall es n s L, numbered n es -> free_sts (drop_n es) -> csats X s e (rng i 1 (drop_n es)) L ->
  exists s', (forall m, m < n \/ n + length es <= m -> s' m = s m) /\ csats X s' (set_idx e i) (el_chs es) L /\ vok X s' (set_idx e i) (el_vars es).
Proof.
  induction es as [|[[a n'] [[k ds]|]] es IH]; intros n s L N FS H; simpl in N.
  - exists s. unfold rng in H; simpl in H. inversion H; subst. split; auto. split; [constructor | intros p v []].
  - destruct N as [-> N]. assert (FS' : free_sts (drop_n es)) by (intros a' k' ds' I; eapply FS; right; eauto).
    change (drop_n ((a, n, Some (k, ds)) :: es)) with ((a, Some (k, ds)) :: drop_n es) in H. rewrite rng_some in H. apply csats_cons_inv in H. destruct H as [La [Lb [-> [P Q]]]].
    simpl in P. destruct La as [|[l o] La]; [destruct P as [P _]; discriminate|]. apply rsat_cons in P. destruct P as [P1 [P2 [P3 _]]].
    destruct La; [|discriminate]. destruct (IH (S n) s Lb N FS' Q) as [s' [A1 [A2 A3]]]. exists (upd s' n l). destruct (el_fresh n es (S n) N ltac:(lia) FS') as [E1 E2].
    split; [|split].
    + intros m Hm. simpl in Hm. rewrite upd_other by lia. apply A1. lia.
    + unfold el_chs; simpl; fold (el_chs es). change ((l, o) :: Lb) with ([(l, o)] ++ Lb). constructor; [|apply csats_upd; auto].
      exists o. rewrite upd_same. split; auto. eapply obj_ok_free; [|exact P2]. eapply FS. left; reflexivity.
    + unfold el_vars; simpl; fold (el_vars es). intros p v [I|I].
      * inversion I; subst. simpl. rewrite upd_same. exact P1.
      * apply (vok_upd X s' (set_idx e i) n l (el_vars es) E2 A3 p v I).
  - destruct N as [-> N]. assert (FS' : free_sts (drop_n es)) by (intros a' k' ds' I; eapply FS; right; eauto).
    destruct (IH (S n) s L N FS' H) as [s' [A1 [A2 A3]]]. exists s'. split; auto. intros m Hm. simpl in Hm. apply A1. lia.
Qed.
Lemma all_fresh_ok np vs cs : forall len n m, all_fresh np n len vs cs = true -> n <= m < n + len -> np <= m /\ forallb (fun q => val_fresh m (snd q)) vs = true /\ forallb (chunk_fresh m) cs = true.
Proof.
  induction len as [|len IH]; intros n m E Q; [lia|]. simpl in E. apply andb_prop in E. destruct E as [E1 E2]. destruct (Nat.eq_dec m n) as [->|].
  - unfold fresh in E1. apply andb_prop in E1. destruct E1 as [E1 E3]. apply andb_prop in E1. destruct E1 as [E1 E4]. apply Nat.leb_le in E1. auto.
  - apply (IH (S n)); auto. lia.
Qed.

(** ** the end of a round *)
Lemma close_ok X s e : forall names vs cs ss r L, close_arrs names vs cs = (ss, r) -> csats X s e cs L -> vok X s e vs ->
  exists Lel Lr, Permutation L (Lel ++ Lr) /\ csats X s e (rng (e_idx e) 1 (combine names ss)) Lel /\ csats X s e r Lr /\ free_sts (combine names ss).
Proof.
  induction names as [|a names IH]; intros vs cs ss r L E C VO; simpl in E.
  - inversion E; subst. exists [], L. repeat split; auto; [constructor | intros ? ? ? []].
  - destruct (close1 a vs cs) as [st r1] eqn:E1. destruct (close_arrs names vs r1) as [ss' r'] eqn:E2. inversion E; subst. clear E.
    assert (Q : (exists k ds, st = Some (k, ds) /\ forallb no_site ds = true /\ exists n, look (El a) vs = Some (AOwn n) /\ pull n cs = Some (k, ds, r1)) \/ (st = None /\ r1 = cs)).
    { unfold close1 in E1. destruct (look (El a) vs) as [[| | |n]|]; try (inversion E1; auto; fail). destruct (pull n cs) as [[[k ds] r0]|] eqn:PU; [|inversion E1; auto].
      destruct (forallb no_site ds) eqn:NS; inversion E1; subst; auto. left. exists k, ds. repeat split; auto. exists n. auto. }
    destruct Q as [[k [ds [-> [NS [n [LK PU]]]]]]|[-> ->]].
    + destruct (pull_ok _ _ _ _ _ _ _ _ _ C PU) as [o [L' [PM [OK C']]]]. destruct (IH _ _ _ _ _ E2 C' VO) as [Lel [Lr [PM' [C1 [C2 FS]]]]].
      exists ((s n, o) :: Lel), Lr. split; [rewrite PM; simpl; constructor; exact PM'|]. split; [|split; auto].
      * unfold rng. simpl. change ((s n, o) :: Lel) with ([(s n, o)] ++ Lel). constructor; auto. simpl. split; auto. intros i l o' E. destruct i as [|i]; [|destruct i; discriminate].
        inversion E; subst. rewrite Nat.add_0_r. split; auto. apply look_in in LK. assert (V1 := VO _ _ LK). exact V1.
      * intros a' k' ds' [I|I]; [inversion I; subst; auto | eapply FS; eauto].
    + destruct (IH _ _ _ _ _ E2 C VO) as [Lel [Lr [PM' [C1 [C2 FS]]]]]. exists Lel, Lr. repeat split; auto. intros a' k' ds' [I|I]; [inversion I | eapply FS; eauto].
Qed.

(** ** the invariant of the loop *)
Definition inv (X : ctx) (F : heap) (lk : bool) (es : list (string * nat * status)) (fin : list (string * status)) (C0 : list chunk) (vs : list (place * aval)) (b : string)
  (i : nat) (e : env) (h : heap) : Prop :=
  i <= e_bnd e b /\ exists s G L1 L2 L0, (forall n, n < cnp X -> s n = cb X n) /\ vok X s e vs /\ sub F G /\ (lk = false -> heq G F) /\
    csats X s e (rng 0 i fin) L1 /\ csats X s e (rng i (e_bnd e b - i) (drop_n es)) L2 /\ csats X s e C0 L0 /\ holds G (L1 ++ L2 ++ L0) h.
Definition all_V (vs : list (place * aval)) : Prop := forall p a, In (p, a) vs -> exists x, p = V x.
Lemma inv_start X F s A e h b names es C0 vs fin n : R X F s A e h -> open_arrs b names n (chs A) = Some (es, C0) -> (forall q, In q vs -> In q (vars A)) ->
  inv X F (leak A) es fin C0 vs b 0 e h /\ free_sts (drop_n es).
Proof.
  intros [N [VO [G [L [S1 [LK [C H]]]]]]] EO SUB. destruct (open_ok _ _ _ _ _ _ _ _ _ _ EO C) as [La [L0 [PM [C1 [C2 FS]]]]]. split; auto. split; [lia|].
  exists s, G, [], La, L0. repeat split; auto.
  - intros p a I. apply VO. auto.
  - apply rng_zero.
  - rewrite Nat.sub_0_r. auto.
  - apply (holds_perm _ _ _ _ PM H).
  - apply (holds_perm _ _ _ _ PM H).
  - apply (holds_perm _ _ _ _ PM H).
  - apply (holds_perm _ _ _ _ PM H).
Qed.
Lemma inv_open X F lk es fin C0 vs b i e h n : ctx_ok X F -> inv X F lk es fin C0 vs b i e h -> i < e_bnd e b -> numbered n es -> free_sts (drop_n es) -> free_sts fin -> all_V vs ->
  all_fresh (cnp X) n (length es) vs C0 = true ->
  exists s' F' G L1 L2, ctx_ok X F' /\ R X F' s' (Ast (el_vars es ++ vs) (el_chs es ++ C0) (n + length es) false) (set_idx e i) h /\
    sub F G /\ (lk = false -> heq G F) /\ csats X s' e (rng 0 i fin) L1 /\ csats X s' e (rng (S i) (e_bnd e b - S i) (drop_n es)) L2 /\ holds G (L1 ++ L2) F'.
Proof.
  intros CX [LE [s [G [L1 [L2 [L0 [N [VO [S1 [LK [C1 [C2 [C0' H]]]]]]]]]]]]] LT NU FS FS' AV AF.
  replace (e_bnd e b - i) with (1 + (e_bnd e b - S i)) in C2 by lia. apply rng_split in C2. destruct C2 as [La [Lb [PM [Ca Cb]]]]. replace (i + 1) with (S i) in Cb by lia.
  destruct (open_round X i e es n s La NU FS Ca) as [s' [A1 [A2 A3]]].
  assert (AG : forall m, n <= m < n + length es \/ s' m = s m) by (intros m; destruct (Nat.lt_ge_cases m n); [auto|]; destruct (Nat.lt_ge_cases m (n + length es)); auto).
  assert (H' : holds G ((La ++ L0) ++ L1 ++ Lb) h).
  { eapply holds_perm; [|exact H]. rewrite PM. rewrite <- !app_assoc. rewrite (Permutation_app_comm L1). rewrite <- !app_assoc. apply Permutation_app_head.
    rewrite Permutation_app_comm. rewrite <- app_assoc. apply Permutation_app_head. auto. }
  destruct (holds_frame _ _ _ _ H') as [F' [H1 H2]]. exists s', F', G, L1, Lb.
  assert (S3 : sub F F') by (intros l o E; apply (holds_sub _ _ _ H1); auto).
  split; [eapply ctx_sub; eauto|]. split; [|split; [auto|split; [auto|split; [|split; [|auto]]]]].
  - split; [|split].
    + intros m Hm. destruct (AG m) as [Q|Q]; [destruct (all_fresh_ok _ _ _ _ _ _ AF Q); lia | rewrite Q; auto].
    + cbn [vars]. intros p a I. apply in_app_or in I. destruct I as [I|I]; [apply A3; auto|].
      assert (V1 : vok X s' e vs).
      { apply (vok_asg X s); auto. intros m E. destruct (AG m) as [Q|Q]; auto. destruct (all_fresh_ok _ _ _ _ _ _ AF Q) as [_ [Z _]]. congruence. }
      destruct (AV p a I) as [x ->]. exact (V1 _ _ I).
    + exists F', (La ++ L0). split; [intros l o E; exact E|]. split; [intros _ l; auto|]. cbn [chs]. split; [|exact H2]. apply csats_app; auto.
      apply (csats_asg X s); [|apply (csats_env X s e); [split; auto | exact C0']]. intros m E. destruct (AG m) as [Q|Q]; auto. destruct (all_fresh_ok _ _ _ _ _ _ AF Q) as [_ [_ Z]]. congruence.
  - eapply rng_env; [exact FS' | auto | exact C1].
  - eapply rng_env; [exact FS | auto | exact Cb].
Qed.
Lemma inv_close X F lk es names ss C0 vs b i e e1 h1 s' F' G L1 L2 s1 A1 : free_sts (drop_n es) -> free_sts (combine names ss) -> i < e_bnd e b ->
  sub F G -> (lk = false -> heq G F) -> csats X s' e (rng 0 i (combine names ss)) L1 -> csats X s' e (rng (S i) (e_bnd e b - S i) (drop_n es)) L2 -> holds G (L1 ++ L2) F' ->
  only_at (set_idx e i) e1 -> R X F' s1 A1 e1 h1 -> leak A1 = false -> (forall q, In q vs -> In q (vars A1)) -> close_arrs names (vars A1) (chs A1) = (ss, C0) ->
  inv X F lk es (combine names ss) C0 vs b (S i) e1 h1.
Proof.
  intros FS FS' LT S1 LK C1 C2 HF OA [N [VO [G1 [L [S2 [LK1 [C H]]]]]]] LE SUB CL. specialize (LK1 LE). apply (holds_heq _ _ _ _ LK1) in H.
  destruct (close_ok _ _ _ _ _ _ _ _ _ CL C VO) as [Lel [Lr [PM [Ce [Cr _]]]]]. destruct OA as [O1 [O2 O3]]. simpl in O1, O3. rewrite O1 in Ce.
  assert (O2' : e_bnd e1 b = e_bnd e b) by (rewrite O2; auto).
  assert (D1 : csats X s1 e1 (rng 0 i (combine names ss)) L1) by (eapply rng_env; [exact FS' | | exact C1]; intros a j Hj; apply O3; lia).
  assert (D2 : csats X s1 e1 (rng (S i) (e_bnd e b - S i) (drop_n es)) L2) by (eapply rng_env; [exact FS | | exact C2]; intros a j Hj; apply O3; lia).
  destruct (rng_join X s1 e1 0 i 1 _ _ _ D1 Ce) as [L' [PM' D3]]. rewrite Nat.add_1_r in D3.
  assert (H3 := holds_unframe _ _ _ _ _ HF H).
  split; [lia|]. exists s1, G, L', L2, Lr. rewrite O2'. split; auto. split; [intros p a I; apply VO; auto|]. split; auto. split; auto. split; auto. split; auto. split; auto.
  eapply holds_perm; [|exact H3]. rewrite PM, PM'. rewrite <- !app_assoc.
  rewrite (Permutation_app_comm Lel (Lr ++ L1 ++ L2)). rewrite <- !app_assoc. rewrite (Permutation_app_comm Lr). rewrite <- !app_assoc. apply Permutation_app_head.
  rewrite (Permutation_app_comm L2 (Lel ++ Lr)). rewrite <- !app_assoc. apply Permutation_app_head. apply Permutation_app_comm.
Qed.
Lemma inv_end X F A es names ss C0 vs b i e h n idx : inv X F (leak A) es (combine names ss) C0 vs b i e h -> e_bnd e b <= i -> all_V vs ->
  exists s, R X F s (Ast vs (arr_chs b names ss ++ C0) n (leak A)) (set_idx e idx) h.
Proof.
  intros [LE [s [G [L1 [L2 [L0 [N [VO [S1 [LK [C1 [C2 [C0' H]]]]]]]]]]]]] Q AV. assert (i = e_bnd e b) by lia. subst i.
  rewrite Nat.sub_diag in C2. apply rng_zero_inv in C2. subst L2. exists s. split; auto. split.
  - intros p a I. cbn [vars] in I. destruct (AV p a I) as [x ->]. exact (VO _ _ I).
  - exists G, (L1 ++ L0). split; auto. split; auto. split; [|exact H]. cbn [chs]. apply (csats_env X s e); [split; auto|]. apply csats_app; auto. apply rng_arr. exact C1.
Qed.
