(** Soundness of the checker: the beginning and the end of a function, and calls. *)
From Coq Require Import String List Bool Arith Lia Permutation.
From Verif Require Import MemLang MemCheck MemSound MemSteps.
Import ListNotations.
Local Open Scope nat_scope.

(** the objects a function takes over, and the ones it gives back *)
Inductive tks : list mode -> list val -> pairs -> Prop :=
| tk_nil : tks [] [] []
| tk_own k a ms l vs o T : is_obj k o -> tks ms vs T -> tks (MOwn k a :: ms) (VPtr (Some l) :: vs) ((l, o) :: T)
| tk_other m ms v vs T : (forall k a, m <> MOwn k a) -> tks ms vs T -> tks (m :: ms) (v :: vs) T.
Inductive kps : list mode -> list val -> pairs -> Prop :=
| kp_nil : kps [] [] []
| kp_own k k' ms l vs o K : is_obj k' o -> kps ms vs K -> kps (MOwn k (Some k') :: ms) (VPtr (Some l) :: vs) ((l, o) :: K)
| kp_other m ms v vs K : (forall k k', m <> MOwn k (Some k')) -> kps ms vs K -> kps (m :: ms) (v :: vs) K.

Lemma tks_taken ms vs T l : tks ms vs T -> (In l (map fst T) <-> taken ms vs l).
Proof.
  intros H. induction H as [|k a ms l0 vs o T IO H IH|m ms v vs T NM H IH].
  - split; [intros [] | intros [i [k [a [E _]]]]; destruct i; discriminate].
  - simpl. rewrite IH. split.
    + intros [->|[i [k' [a' [P Q]]]]]; [exists 0, k, a; auto | exists (S i), k', a'; auto].
    + intros [[|i] [k' [a' [P Q]]]]; simpl in *; [inversion Q; subst; auto | right; exists i, k', a'; auto].
  - rewrite IH. split.
    + intros [i [k' [a' [P Q]]]]. exists (S i), k', a'. auto.
    + intros [[|i] [k' [a' [P Q]]]]; simpl in *; [inversion P; subst; exfalso; eapply NM; eauto | exists i, k', a'; auto].
Qed.
Lemma kps_kept ms vs K l : kps ms vs K -> (In l (map fst K) <-> kept ms vs l).
Proof.
  intros H. induction H as [|k k1 ms l0 vs o T IO H IH|m ms v vs T NM H IH].
  - split; [intros [] | intros [i [k [a [E _]]]]; destruct i; discriminate].
  - simpl. rewrite IH. split.
    + intros [->|[i [k' [a' [P Q]]]]]; [exists 0, k, k1; auto | exists (S i), k', a'; auto].
    + intros [[|i] [k' [a' [P Q]]]]; simpl in *; [inversion Q; subst; auto | right; exists i, k', a'; auto].
  - rewrite IH. split.
    + intros [i [k' [a' [P Q]]]]. exists (S i), k', a'. auto.
    + intros [[|i] [k' [a' [P Q]]]]; simpl in *; [inversion P; subst; exfalso; eapply NM; eauto | exists i, k', a'; auto].
Qed.
Lemma kps_nodup ms vs K T : kps ms vs K -> tks ms vs T -> NoDup (map fst T) -> NoDup (map fst K).
Proof.
  intros H. revert T. induction H as [|k k1 ms l0 vs o K IO H IH|m ms v vs K NM H IH]; intros T HT N.
  - constructor.
  - inversion HT as [|k' a' ms' l' vs' o' T' IO' HT'|m' ms' v' vs' T' NM' HT']; subst; [|exfalso; eapply NM'; eauto].
    simpl in *. inversion N as [|x xs N1 N2]; subst. constructor; [|eapply IH; eauto].
    rewrite (kps_kept _ _ _ _ H). intros [i [ka [kb [P Q]]]]. apply N1. apply (tks_taken _ _ _ _ HT'). exists i, ka, (Some kb). auto.
  - inversion HT as [|k' a' ms' l' vs' o' T' IO' HT'|m' ms' v' vs' T' NM' HT']; subst; [|eapply IH; eauto].
    simpl in N. inversion N; subst. eapply IH; eauto.
Qed.
Lemma kept_taken ms vs l : kept ms vs l -> taken ms vs l.
Proof. intros [i [k [k' [P Q]]]]. exists i, k, (Some k'). auto. Qed.
Lemma tks_inj ms vs T : tks ms vs T -> NoDup (map fst T) -> forall i j k k' a a' v,
  nth_error ms i = Some (MOwn k a) -> nth_error ms j = Some (MOwn k' a') -> nth_error vs i = Some v -> nth_error vs j = Some v -> i = j.
Proof.
  intros H. induction H as [|k a ms l vs o T IO H IH|m ms v vs T NM H IH]; intros N i j k1 k2 a1 a2 v1 A B C D.
  - destruct i; discriminate.
  - simpl in N. inversion N as [|x xs N1 N2]; subst. destruct i as [|i], j as [|j]; simpl in *; auto.
    + inversion C; subst. exfalso. apply N1. apply (tks_taken _ _ _ _ H). exists j, k2, a2. auto.
    + inversion D; subst. exfalso. apply N1. apply (tks_taken _ _ _ _ H). exists i, k1, a1. auto.
    + f_equal. eapply IH; eauto.
  - destruct i as [|i]; [inversion A; subst; exfalso; eapply NM; eauto|]. destruct j as [|j]; [inversion B; subst; exfalso; eapply NM; eauto|].
    simpl in *. f_equal. eapply IH; eauto.
Qed.
Lemma tks_of h : forall ms vs, length vs = length ms ->
  (forall i k a v, nth_error ms i = Some (MOwn k a) -> nth_error vs i = Some v -> exists l o, v = VPtr (Some l) /\ h l = Some o /\ is_obj k o) ->
  (forall i j k k' a a' v, nth_error ms i = Some (MOwn k a) -> nth_error ms j = Some (MOwn k' a') -> nth_error vs i = Some v -> nth_error vs j = Some v -> i = j) ->
  exists T, tks ms vs T /\ (forall l o, In (l, o) T -> h l = Some o) /\ NoDup (map fst T).
Proof.
  induction ms as [|m ms IH]; intros [|v vs] LN A B; try discriminate.
  - exists []. repeat split; try constructor. intros l o [].
  - destruct (IH vs) as [T [P [Q S1]]]; [simpl in LN; lia | intros i k a w E1 E2; apply (A (S i) k a w E1 E2) | intros i j k k' a a' w E1 E2 E3 E4; assert (Z := B (S i) (S j) k k' a a' w E1 E2 E3 E4); lia |].
    assert (NM : (exists k a, m = MOwn k a) \/ forall k a, m <> MOwn k a) by (destruct m; [right | right | right | left]; try congruence; eauto).
    destruct NM as [[k [a ->]]|NM].
    + destruct (A 0 k a v eq_refl eq_refl) as [l [o [-> [E IO]]]]. exists ((l, o) :: T). split; [constructor; auto|]. split.
      * intros l' o' [I|I]; [inversion I; subst; auto | auto].
      * simpl. constructor; auto. intros I. apply (tks_taken _ _ _ _ P) in I. destruct I as [i [k' [a' [E1 E2]]]].
        assert (Z := B 0 (S i) k k' a a' _ eq_refl E1 eq_refl E2). discriminate.
    + exists T. split; [constructor; auto | auto].
Qed.

(** ** the beginning of a function *)
Definition arg_loc (vs : list val) (i : nat) : loc := match nth_error vs i with Some (VPtr (Some l)) => l | _ => 0 end.
Definition bor (ms : list mode) (i : nat) : bool := match nth_error ms i with Some MBor => true | _ => false end.
Definition mk_ctx (ms : list mode) (vs : list val) (F : heap) : ctx :=
  Ctx (arg_loc vs) (fun i => if bor ms i then roots F (arg_loc vs i) else []) (bor ms) (length ms).
Lemma bor_usable ms vs h F i : pre ms vs h F -> bor ms i = true -> usable F (arg_loc vs i) /\ nth_error vs i = Some (VPtr (Some (arg_loc vs i))).
Proof.
  intros [LN [_ [A _]]] B. unfold bor in B. destruct (nth_error ms i) as [[]|] eqn:E; try discriminate.
  assert (Q : i < length ms) by (apply nth_error_Some; congruence). rewrite <- LN in Q. apply nth_error_Some in Q.
  destruct (nth_error vs i) as [v|] eqn:EV; [|congruence]. destruct (A i MBor v E EV) as [l [-> U]]. unfold arg_loc. rewrite EV. auto.
Qed.
Lemma ctx_ok_init ms vs h F : pre ms vs h F -> ctx_ok (mk_ctx ms vs F) F.
Proof.
  intros P. split; cbn [cb cr cbor mk_ctx].
  - intros i B. destruct (bor_usable _ _ _ _ _ P B) as [[o [E D]] _]. exists o. rewrite B. auto.
  - intros i l I. destruct (bor ms i) eqn:B; [|destruct I]. destruct (bor_usable _ _ _ _ _ P B) as [[o [E D]] _].
    unfold roots in I. rewrite E in I. destruct o as [k [|d dd] fs]; [destruct I as [<-|[]]; congruence | apply D; exact I].
Qed.
Lemma bind_nth : forall ps vs i x v, distinctb ps = true -> nth_error ps i = Some x -> nth_error vs i = Some v -> bind_params ps vs x = v.
Proof.
  induction ps as [|p ps IH]; intros [|w vs] i x v D A B; try (destruct i; discriminate). simpl in D. apply andb_prop in D. destruct D as [D1 D2].
  destruct i as [|i]; simpl in *; [inversion A; inversion B; subst; rewrite String.eqb_refl; auto|].
  destruct (String.eqb_spec x p) as [->|]; [|eapply IH; eauto]. exfalso. apply negb_true_iff in D1. apply nth_error_In in A.
  assert (Q : existsb (String.eqb p) ps = true) by (apply existsb_exists; exists p; split; auto; apply String.eqb_refl). congruence.
Qed.
Lemma in_init_vars : forall ps ms j p a, In (p, a) (init_vars j ps ms) -> exists i x m, p = V x /\ nth_error ps i = Some x /\ nth_error ms i = Some m /\
  a = match m with MBor => ABor (j + i) | MNull => ANull | MFlag b => AFlg b | MOwn _ _ => AOwn (j + i) end.
Proof.
  induction ps as [|q ps IH]; intros [|m ms] j p a I; try destruct I as [].
  - inversion H; subst. exists 0, q, m. rewrite Nat.add_0_r. auto.
  - destruct (IH _ _ _ _ H) as [i [x [m' [P [Q [S1 E]]]]]]. exists (S i), x, m'. replace (j + S i) with (S j + i) by lia. auto.
Qed.
Lemma init_chs_ok X s e : forall ms vs T j, tks ms vs T -> (forall i l, nth_error vs i = Some (VPtr (Some l)) -> s (j + i) = l) -> csats X s e (init_chs j ms) T.
Proof.
  induction ms as [|m ms IH]; intros vs T j HT A; inversion HT as [|k a ms' l vs' o T' IO HT'|m' ms' v' vs' T' NM HT']; subst.
  - constructor.
  - cbn [init_chs]. change ((l, o) :: T') with ([(l, o)] ++ T'). constructor.
    + exists o. rewrite <- (A 0 l eq_refl), Nat.add_0_r. split; auto. apply win_deps_ok; auto.
    + apply (IH vs'); auto. intros i l' E. rewrite <- (A (S i) l' E). f_equal. lia.
  - assert (C : csats X s e (init_chs (S j) ms) T) by (apply (IH vs'); auto; intros i l' E; rewrite <- (A (S i) l' E); f_equal; lia).
    destruct m; auto. exfalso. eapply NM; eauto.
Qed.
Definition init_ast (ps : list string) (ms : list mode) : ast := Ast (init_vars 0 ps ms) (init_chs 0 ms) (length ms) false.
Lemma pre_tks ms vs h F : pre ms vs h F -> exists T, tks ms vs T /\ holds F T h.
Proof.
  intros [LN [FR [A B]]]. destruct (tks_of h ms vs LN) as [T [P [Q N]]]; [intros i k a v E1 E2; apply (A i _ v E1 E2) | exact B |].
  exists T. split; auto. split; [|split; [|split]]; auto.
  - intros l I. apply (tks_taken _ _ _ _ P) in I. destruct (F l) as [o|] eqn:E; auto. apply FR in E. tauto.
  - intros l I. rewrite (tks_taken _ _ _ _ P) in I. destruct (h l) as [o|] eqn:E; [symmetry; apply FR; auto|].
    destruct (F l) as [o|] eqn:E'; auto. apply FR in E'. destruct E'. congruence.
Qed.
Lemma init_ok ms vs h F ps e0 : pre ms vs h F -> length ps = length ms -> distinctb ps = true -> (forall x, e_var e0 x = bind_params ps vs x) ->
  R (mk_ctx ms vs F) F (arg_loc vs) (init_ast ps ms) e0 h.
Proof.
  intros P LN D EB. destruct (pre_tks _ _ _ _ P) as [T [HT HH]]. split; [auto|]. split.
  - intros p a I. cbn [vars init_ast] in I. apply in_init_vars in I. destruct I as [i [x [m [-> [E1 [E2 ->]]]]]]. cbn [Nat.add get]. rewrite EB.
    assert (Q : i < length ms) by (apply nth_error_Some; congruence). destruct P as [LV [_ [A _]]]. rewrite <- LV in Q. apply nth_error_Some in Q.
    destruct (nth_error vs i) as [v|] eqn:EV; [|congruence]. rewrite (bind_nth _ _ _ _ _ D E1 EV). specialize (A i m v E2 EV).
    destruct m as [| |b|k a']; cbn [vsat]; auto.
    + destruct A as [l [-> _]]. unfold arg_loc, mk_ctx, bor; cbn [cb cbor]. unfold arg_loc. rewrite EV, E2. auto.
    + destruct A as [l [o [-> _]]]. unfold arg_loc. rewrite EV. auto.
  - exists F, T. split; [intros l o E; exact E|]. split; [intros _ l; auto|]. split; [|exact HH]. cbn [chs init_ast].
    eapply init_chs_ok; [exact HT|]. intros i l E. unfold arg_loc. cbn [Nat.add]. rewrite E. auto.
Qed.

(** ** the end of a function *)
Lemma pull_kept_ok X s e (vs0 : list val) : forall ms vs cs cs' L j, csats X s e cs L -> pull_kept j ms cs = Some cs' -> length vs = length ms ->
  (forall i k a, nth_error ms i = Some (MOwn k a) -> nth_error vs i = Some (VPtr (Some (s (j + i))))) ->
  exists K L', kps ms vs K /\ Permutation L (K ++ L') /\ csats X s e cs' L'.
Proof.
  induction ms as [|m ms IH]; intros [|v vs] cs cs' L j C P LN A; try discriminate.
  - inversion P; subst. exists [], L. repeat split; auto. constructor.
  - assert (A' : forall i k a, nth_error ms i = Some (MOwn k a) -> nth_error vs i = Some (VPtr (Some (s (S j + i))))).
    { intros i k a E. assert (Z := A (S i) k a E). simpl in Z. rewrite Z. do 3 f_equal. f_equal. lia. }
    assert (LN' : length vs = length ms) by (simpl in LN; lia).
    assert (NM : (exists k k', m = MOwn k (Some k')) \/ ((forall k k', m <> MOwn k (Some k')) /\ pull_kept (S j) ms cs = Some cs')).
    { destruct m as [| |b|k [k'|]]; [right | right | right | left; eauto | right]; (split; [congruence | exact P]). }
    destruct NM as [[k [k' ->]]|[NM P']].
    + cbn [pull_kept] in P. destruct (pull j cs) as [[[k1 ds1] r1]|] eqn:PU; [|discriminate]. destruct (keqb k' k1) eqn:KE; [|discriminate]. apply keqb_eq in KE. subst k1.
      destruct (pull_ok _ _ _ _ _ _ _ _ _ C PU) as [o [L1 [PM [[IO OD] C1]]]].
      destruct (IH _ _ _ _ _ C1 P LN' A') as [K [L2 [HK [PM2 C2]]]].
      assert (Z := A 0 _ _ eq_refl). simpl in Z. rewrite Nat.add_0_r in Z. inversion Z; subst v.
      exists ((s j, o) :: K), L2. split; [constructor; auto|]. split; auto. rewrite PM. simpl. constructor. exact PM2.
    + destruct (IH _ _ _ _ _ C P' LN' A') as [K [L2 [HK [PM2 C2]]]]. exists K, L2. split; [constructor; auto | auto].
Qed.
Lemma kps_in ms vs K : kps ms vs K -> forall i k k' l, nth_error ms i = Some (MOwn k (Some k')) -> nth_error vs i = Some (VPtr (Some l)) -> exists o, In (l, o) K /\ is_obj k' o.
Proof.
  intros H. induction H as [|k k1 ms l0 vs o K IO H IH|m ms v vs K NM H IH]; intros i ka kb l E1 E2.
  - destruct i; discriminate.
  - destruct i as [|i]; simpl in *; [inversion E1; inversion E2; subst; eauto|]. destruct (IH _ _ _ _ E1 E2) as [o' [I J]]. eauto.
  - destruct i as [|i]; simpl in *; [inversion E1; subst; exfalso; eapply NM; eauto|]. eapply IH; eauto.
Qed.
Lemma final_ok c vs h0 F s t A e h o : pre (c_pre c) vs h0 F -> R (mk_ctx (c_pre c) vs F) F s A e h -> osat (mk_ctx (c_pre c) vs F) s o t -> out_ok c (t, A) = true ->
  exists v, (o = ORet v \/ (o = ONorm /\ v = VUndef)) /\ post c vs F v h.
Proof.
  intros P [N [VO [G [L [S1 [LK [C H]]]]]]] OS OK. unfold out_ok in OK. cbn [fst snd] in OK.
  destruct (pull_kept 0 (c_pre c) (chs A)) as [cs|] eqn:PK; [|discriminate].
  assert (LN : length vs = length (c_pre c)) by apply P.
  destruct (pull_kept_ok _ _ _ vs _ vs _ _ _ 0 C PK LN) as [K [L' [HK [PM C']]]].
  { intros i k a E. cbn [Nat.add]. assert (Q : i < length (c_pre c)) by (apply nth_error_Some; congruence). rewrite (N i Q). cbn [cb mk_ctx].
    destruct P as [_ [_ [A1 _]]]. rewrite <- LN in Q. apply nth_error_Some in Q. destruct (nth_error vs i) as [v|] eqn:EV; [|congruence].
    destruct (A1 i _ v E EV) as [l [o' [-> _]]]. unfold arg_loc. rewrite EV. auto. }
  apply (holds_perm _ _ _ _ PM) in H. apply existsb_exists in OK. destruct OK as [r [IR OK]].
  assert (P1 : forall l o', F l = Some o' -> h l = Some o') by (intros l o' E; apply (holds_sub _ _ _ H); auto).
  assert (P2 : forall i k k' l, nth_error (c_pre c) i = Some (MOwn k (Some k')) -> nth_error vs i = Some (VPtr (Some l)) -> exists o', h l = Some o' /\ is_obj k' o').
  { intros i k k' l E1 E2. destruct (kps_in _ _ _ HK _ _ _ _ E1 E2) as [o' [I J]]. exists o'. split; auto. apply (holds_in _ _ _ _ _ H). apply in_or_app; auto. }
  assert (P3 : forall N1 cs' L2, Permutation L' (N1 ++ L2) -> csats (mk_ctx (c_pre c) vs F) s e cs' L2 -> rest_ok c A cs' = true ->
     forall l o', h l = Some o' -> F l = Some o' \/ kept (c_pre c) vs l \/ In l (map fst N1) \/ c_leak c = true).
  { intros N1 cs' L2 PM2 C2 RO l o' E. unfold rest_ok in RO. destruct (c_leak c) eqn:CL; [auto|]. simpl in RO. apply andb_prop in RO. destruct RO as [RO1 RO2].
    destruct cs'; [|discriminate]. inversion C2; subst. rewrite app_nil_r in PM2. apply negb_true_iff in RO2. specialize (LK RO2).
    destruct H as [_ [_ [_ HD]]]. destruct (in_dec Nat.eq_dec l (map fst (K ++ L'))) as [I|I].
    - rewrite map_app in I. apply in_app_or in I. destruct I as [I|I]; [right; left; apply (kps_kept _ _ _ _ HK); auto|].
      right; right; left. eapply Permutation_in; [apply Permutation_map; exact PM2 | exact I].
    - left. rewrite <- LK, <- (HD l I). exact E. }
  assert (P4 : forall v, match r with RNew _ _ => False | _ => True end -> rest_ok c A cs = true -> (match r with RVoid => v = VUndef | RNull => v = VPtr None | RArg i => nth_error vs i = Some v | RNew _ _ => False end) -> post c vs F v h).
  { intros v NN RO M. split; [exact P1|]. split; [exact P2|]. exists r. split; auto. split; [destruct r; auto; destruct NN|].
    intros l o' E. destruct (P3 [] cs L' (Permutation_refl _) C' RO l o' E) as [Z|[Z|[Z|Z]]]; auto. }
  destruct r as [| |i|k into]; simpl in OK.
  - destruct t as [| | |[a|]]; try discriminate.
    + destruct o; try destruct OS. exists VUndef. split; [auto | apply P4; auto].
    + destruct o as [| | |v| |]; try destruct OS. destruct v; try destruct OS. exists VUndef. split; [auto | apply P4; auto].
  - destruct t as [| | |[[]|]]; try discriminate. destruct o as [| | |v| |]; try (destruct OS; fail). cbn [osat vsat] in OS. exists (VPtr None). split; [rewrite OS; auto | apply P4; auto].
  - destruct t as [| | |[[| |j|n]|]]; try discriminate; destruct o as [| | |v| |]; try (destruct OS; fail); cbn [osat vsat] in OS.
    + apply andb_prop in OK. destruct OK as [OK1 OK2]. apply Nat.eqb_eq in OK1. subst j. destruct OS as [-> B]. exists (VPtr (Some (cb (mk_ctx (c_pre c) vs F) i))).
      split; auto. apply P4; auto. exact (proj2 (bor_usable _ _ _ _ _ P B)).
    + apply andb_prop in OK. destruct OK as [OK1 OK2]. apply andb_prop in OK1. destruct OK1 as [OK1 OK3]. apply andb_prop in OK1. destruct OK1 as [OK1 OK4].
      apply Nat.eqb_eq in OK1. subst n. apply Nat.ltb_lt in OK4. exists v. split; auto. apply P4; auto. rewrite OS. rewrite (N i OK4). cbn [cb mk_ctx].
      destruct (nth_error (c_pre c) i) as [[| | |k a]|] eqn:E; try discriminate.
      rewrite <- LN in OK4. apply nth_error_Some in OK4. destruct (nth_error vs i) as [w|] eqn:EV; [|congruence].
      destruct P as [_ [_ [A1 _]]]. destruct (A1 i _ w E EV) as [l [o' [-> _]]]. unfold arg_loc. rewrite EV. auto.
  - destruct t as [| | |[[| |j|n]|]]; try discriminate. destruct o as [| | |v| |]; try (destruct OS; fail). cbn [osat vsat] in OS. subst v.
    destruct (pull n cs) as [[[k' ds] r1]|] eqn:PU; [|discriminate]. apply andb_prop in OK. destruct OK as [OK OK3]. apply andb_prop in OK. destruct OK as [OK1 OK2].
    apply keqb_eq in OK1. subst k'. destruct (pull_ok _ _ _ _ _ _ _ _ _ C' PU) as [o' [L2 [PM2 [[IO OD] C2]]]].
    exists (VPtr (Some (s n))). split; auto. split; [exact P1|]. split; [exact P2|]. exists (RNew k into). split; auto.
    assert (H2 : holds G (K ++ (s n, o') :: L2) h) by (eapply holds_perm; [apply Permutation_app_head; exact PM2 | exact H]). split.
    + exists (s n), o'. split; auto. split; [apply (holds_in _ _ _ _ _ H2); apply in_or_app; right; left; auto|]. split; auto. split; [|split].
      * destruct (F (s n)) as [q|] eqn:E; auto. apply S1 in E. destruct H2 as [_ [_ [HC _]]]. rewrite HC in E; [discriminate|]. rewrite map_app. apply in_or_app; right; left; auto.
      * intros KP. apply (kps_kept _ _ _ _ HK) in KP. destruct H2 as [ND _]. rewrite map_app in ND. apply nodup_app in ND. destruct ND as [_ [_ ND]]. apply (ND (s n) KP). left. auto.
      * intros d I. destruct (OD d I) as [x [J D]]. rewrite forallb_forall in OK2. specialize (OK2 x J). destruct x as [i|m|]; try discriminate.
        apply existsb_exists in OK2. destruct OK2 as [i' [I' E']]. apply Nat.eqb_eq in E'. subst i'. cbn [dsat mk_ctx cr] in D. destruct (bor (c_pre c) i) eqn:B; [|destruct D].
        exists i, (arg_loc vs i). split; auto. split; auto. exact (proj2 (bor_usable _ _ _ _ _ P B)).
    + intros l q E. destruct (P3 [(s n, o')] r1 L2 PM2 C2 OK3 l q E) as [Z|[Z|[Z|Z]]]; auto. destruct Z as [Z|[]]. simpl in Z. subst l. right; right; left. exists k, into. auto.
Qed.

(** ** calls *)
Lemma give_away_ok X s e : forall ms vals avs cs cs' L, csats X s e cs L -> Forall2 (vsat X s) vals avs -> give_away ms avs cs = Some cs' ->
  exists T L', tks ms vals T /\ Permutation L (T ++ L') /\ csats X s e cs' L'.
Proof.
  induction ms as [|m ms IH]; intros vals avs cs cs' L C FV P.
  - destruct avs; [|discriminate]. inversion FV; subst. inversion P; subst. exists [], L. repeat split; auto. constructor.
  - destruct avs as [|a avs]; [destruct m; discriminate|]. inversion FV as [|v a' vals' avs' VS FV']; subst.
    assert (NM : (exists k x, m = MOwn k x) \/ ((forall k x, m <> MOwn k x) /\ give_away ms avs cs = Some cs')).
    { destruct m as [| |b|k x]; [right | right | right | left; eauto]; (split; [congruence | exact P]). }
    destruct NM as [[k [x ->]]|[NM P']].
    + simpl in P. destruct a as [| | |n]; try discriminate. destruct (pull n cs) as [[[k1 ds1] r1]|] eqn:PU; [|discriminate].
      destruct (keqb k k1) eqn:KE; [|discriminate]. apply keqb_eq in KE. subst k1. simpl in VS. subst v.
      destruct (pull_ok _ _ _ _ _ _ _ _ _ C PU) as [o [L1 [PM [[IO OD] C1]]]].
      destruct (IH _ _ _ _ _ C1 FV' P) as [T [L2 [HT [PM2 C2]]]]. exists ((s n, o) :: T), L2. split; [constructor; auto|]. split; auto. rewrite PM. simpl. constructor. exact PM2.
    + destruct (IH _ _ _ _ _ C FV' P') as [T [L2 [HT [PM2 C2]]]]. exists T, L2. split; [constructor; auto | auto].
Qed.
Lemma args_fit_nth : forall ms avs cs i m, args_fit ms avs cs = true -> nth_error ms i = Some m -> exists a, nth_error avs i = Some a /\
  match m with MBor => live cs a = true | MNull => a = ANull | MFlag b => a = AFlg b | MOwn _ _ => exists n, a = AOwn n end.
Proof.
  induction ms as [|m0 ms IH]; intros avs cs i m P E; [destruct i; discriminate|]. destruct avs as [|a avs]; [discriminate|].
  cbn [args_fit] in P. apply andb_prop in P. destruct P as [P1 P2]. destruct i as [|i].
  - simpl in E. inversion E; subst m0. exists a. split; auto. destruct m as [| |b|k x]; auto.
    + destruct a; try discriminate; auto.
    + destruct a; try discriminate. apply Bool.eqb_prop in P1. congruence.
    + destruct a; try discriminate. eauto.
  - simpl in E. apply (IH _ _ _ _ P2 E).
Qed.
Lemma args_fit_len : forall ms avs cs, args_fit ms avs cs = true -> length avs = length ms.
Proof.
  induction ms as [|m ms IH]; intros [|a avs] cs P; try discriminate; auto. cbn [args_fit] in P. apply andb_prop in P. destruct P as [_ P]. simpl. f_equal. eauto.
Qed.
Lemma forall2_nth {S1 T1} (P : S1 -> T1 -> Prop) : forall l m i x y, Forall2 P l m -> nth_error l i = Some x -> nth_error m i = Some y -> P x y.
Proof.
  intros l m i x y H. revert i. induction H as [|a b l m H1 H2 IH]; intros [|i] A B; simpl in *; try discriminate; [congruence | eauto].
Qed.
Lemma forall2_length {S1 T1} (P : S1 -> T1 -> Prop) l m : Forall2 P l m -> length l = length m.
Proof. intros H. induction H; simpl; auto. Qed.
Lemma call_pre X F s e ms vals avs cs cs' L G h : ctx_ok X F -> sub F G -> csats X s e cs L -> holds G L h -> Forall2 (vsat X s) vals avs ->
  give_away ms avs cs = Some cs' -> args_fit ms avs cs' = true ->
  exists T L' Fc, tks ms vals T /\ csats X s e cs' L' /\ holds Fc T h /\ holds G L' Fc /\ pre ms vals h Fc.
Proof.
  intros CX S1 C H FV GA AF. destruct (give_away_ok _ _ _ _ _ _ _ _ _ C FV GA) as [T [L' [HT [PM C']]]].
  apply (holds_perm _ _ _ _ PM) in H. destruct (holds_frame _ _ _ _ H) as [Fc [H1 H2]].
  exists T, L', Fc. split; auto. split; auto. split; auto. split; auto.
  assert (LN : length vals = length ms) by (rewrite (forall2_length _ _ _ FV); eapply args_fit_len; eauto).
  split; auto. split; [|split].
  - intros l o. destruct H2 as [A [B [D E]]]. rewrite <- (tks_taken _ _ _ _ HT). split.
    + intros Q. assert (NI : ~ In l (map fst T)) by (intro I; rewrite (D l I) in Q; discriminate). rewrite (E l NI). auto.
    + intros [Q NI]. rewrite <- (E l NI). auto.
  - intros i m v E1 E2. destruct (args_fit_nth _ _ _ _ _ AF E1) as [a [E3 M]]. assert (VS := forall2_nth _ _ _ _ _ _ FV E2 E3).
    destruct m as [| |b|k x].
    + destruct (live_ok _ _ _ _ _ _ _ _ _ _ CX S1 C' H1 VS M) as [l [-> [U _]]]. exists l. auto.
    + subst a. exact VS.
    + subst a. exact VS.
    + destruct M as [n ->]. simpl in VS. subst v. clear -HT E1 E2 H2. assert (Q : exists o, In (s n, o) T /\ is_obj k o).
      { clear H2. revert i E1 E2. induction HT as [|k' a' ms l vs o T IO H IH|m ms v vs T NM H IH]; intros i E1 E2.
        - destruct i; discriminate.
        - destruct i as [|i]; simpl in *; [inversion E1; inversion E2; subst; exists o; auto|]. destruct (IH _ E1 E2) as [o' [I J]]. exists o'. auto.
        - destruct i as [|i]; simpl in *; [inversion E1; subst; exfalso; eapply NM; eauto|]. eapply IH; eauto. }
      destruct Q as [o [I J]]. exists (s n), o. split; auto. split; auto. apply (holds_in _ _ _ _ _ H2 I).
  - apply (tks_inj _ _ _ HT). apply H2.
Qed.
(** the heap after the call *)
Lemma rebuild G L' Fc h' P : holds G L' Fc -> sub Fc h' -> NoDup (map fst P) -> (forall l o, In (l, o) P -> h' l = Some o /\ Fc l = None) ->
  exists G', sub G G' /\ holds G' (P ++ L') h' /\ ((forall l o, h' l = Some o -> Fc l = Some o \/ In l (map fst P)) -> heq G' G).
Proof.
  intros H S1 N A. assert (HP : holds (without h' P) P h') by (apply holds_without; auto; intros l o I; apply A; auto).
  assert (S2 : sub Fc (without h' P)).
  { intros l o E. unfold without. destruct (in_dec Nat.eq_dec l (map fst P)) as [I|I]; [|auto]. apply in_fst in I. destruct I as [o' I]. destruct (A _ _ I). congruence. }
  exists (without (without h' P) L'). assert (HL : holds (without (without h' P) L') L' (without h' P)).
  { apply holds_without; [apply H|]. intros l o I. apply S2. apply (holds_in _ _ _ _ _ H I). }
  split; [|split].
  - intros l o E. unfold without at 1. destruct (in_dec Nat.eq_dec l (map fst L')) as [I|I].
    + destruct H as [_ [_ [HC _]]]. rewrite (HC l I) in E. discriminate.
    + apply S2. destruct H as [_ [_ [_ HD]]]. rewrite (HD l I). auto.
  - eapply holds_unframe; eauto.
  - intros NL l. unfold without at 1. destruct H as [_ [_ [HC HD]]]. destruct (in_dec Nat.eq_dec l (map fst L')) as [I|I]; [symmetry; auto|].
    rewrite <- (HD l I). unfold without. destruct (in_dec Nat.eq_dec l (map fst P)) as [J|J].
    + apply in_fst in J. destruct J as [o J]. destruct (A _ _ J); auto.
    + destruct (h' l) as [o|] eqn:E; [destruct (NL l o E); [auto | tauto]|]. destruct (Fc l) as [o|] eqn:E'; auto. apply S1 in E'. congruence.
Qed.
Lemma back_pairs X s e : forall ms vals avs h', Forall2 (vsat X s) vals avs -> length avs = length ms -> back_ok ms = true ->
  (forall i k a, nth_error ms i = Some (MOwn k a) -> exists n, nth_error avs i = Some (AOwn n)) ->
  (forall i k k' l, nth_error ms i = Some (MOwn k (Some k')) -> nth_error vals i = Some (VPtr (Some l)) -> exists o, h' l = Some o /\ is_obj k' o) ->
  exists K, kps ms vals K /\ csats X s e (given_back ms avs) K /\ forall l o, In (l, o) K -> h' l = Some o.
Proof.
  induction ms as [|m ms IH]; intros vals avs h' FV LN BO AO A.
  - destruct avs; [|discriminate]. inversion FV; subst. exists []. repeat split; try constructor. intros l o [].
  - destruct avs as [|a avs]; [discriminate|]. inversion FV as [|v a' vals' avs' VS FV']; subst. unfold back_ok in BO. simpl in BO. apply andb_prop in BO. destruct BO as [BO1 BO2].
    destruct (IH vals' avs h' FV') as [K [HK [CK AK]]]; [simpl in LN; lia | exact BO2 | intros i k x E; apply (AO (S i) k x E) | intros i k k' l E1 E2; apply (A (S i) k k' l E1 E2) |].
    assert (NM : (exists k k', m = MOwn k (Some k')) \/ ((forall k k', m <> MOwn k (Some k')) /\ given_back (m :: ms) (a :: avs) = given_back ms avs)).
    { destruct m as [| |b|k [k'|]]; [right | right | right | left; eauto | right]; (split; [congruence | reflexivity]). }
    destruct NM as [[k [k' ->]]|[NM EG]].
    + destruct (AO 0 k (Some k') eq_refl) as [n En]. simpl in En. inversion En; subst a. simpl in VS. subst v.
      destruct (A 0 k k' (s n) eq_refl eq_refl) as [o [E IO]]. exists ((s n, o) :: K). split; [constructor; auto|]. split.
      * cbn [given_back]. change ((s n, o) :: K) with ([(s n, o)] ++ K). constructor; auto. exists o. split; auto. split; auto. intros l I.
        inversion IO as [k0 ds r sh I1 I2 I3]; subst. simpl in I. apply negb_true_iff in BO1. rewrite (I3 BO1) in I. destruct I.
      * intros l o' [I|I]; [inversion I; subst; auto | auto].
    + exists K. split; [constructor; auto|]. rewrite EG. auto.
Qed.
Lemma results_in np c vs cs dst A : forall rs l r, results np c vs cs dst A rs = Some l -> In r rs ->
  exists A', In (TNorm, A') l /\
    Some A' = match r with
        | RVoid => match dst with None => Some A | Some _ => None end
        | RNull => match dst with None => Some A | Some p => put_var p ANull A end
        | RArg i => match nth_error (c_pre c) i, nth_error vs i with
            | Some (MOwn _ None), _ | _, None => None
            | Some _, Some v => match dst with None => Some A | Some p => put_var p v A end
            | _, _ => None end
        | RNew k into =>
            if forallb (fun i => match nth_error (c_pre c) i with Some MBor => true | _ => false end) into
            then alloc np dst k (into_deps cs vs into) A else None
        end.
Proof.
  induction rs as [|r0 rs IH]; intros l r E I; [destruct I|]. cbn [results] in E. apply both_some in E. destruct E as [la [lb [E1 [E2 ->]]]].
  destruct I as [->|I].
  - apply one_some in E1. destruct E1 as [A' [E1 ->]]. exists A'. split; [apply in_merge; left; left; auto | symmetry; exact E1].
  - destruct (IH _ _ E2 I) as [A' [P Q]]. exists A'. split; auto. apply in_merge. auto.
Qed.
Lemma call1_ok X F s A e h c dst vals avs l : ctx_ok X F -> R X F s A e h -> Forall2 (vsat X s) vals avs -> chk_call1 (cnp X) c dst avs A = Some l ->
  exists Fc, pre (c_pre c) vals h Fc /\ forall v h', post c vals Fc v h' ->
    (dst <> None -> v <> VUndef) /\ exists A' s', In (TNorm, A') l /\ R X F s' A' (match dst with Some p => put e p v | None => e end) h'.
Proof.
  intros CX [N [VO [G [L [S1 [LK [C H]]]]]]] FV CH. unfold chk_call1 in CH. destruct (give_away (c_pre c) avs (chs A)) as [cs|] eqn:GA; [|discriminate].
  destruct (args_fit (c_pre c) avs cs) eqn:AF; [|discriminate]. destruct (back_ok (c_pre c)) eqn:BO; [|discriminate]. cbn [andb] in CH.
  destruct (call_pre _ _ _ _ _ _ _ _ _ _ _ _ CX S1 C H FV GA AF) as [T [L' [Fc [HT [C' [H1 [H2 PR]]]]]]]. exists Fc. split; auto.
  intros v h' [PO1 [PO2 [r [IR [PR1 PO3]]]]].
  destruct (results_in _ _ _ _ _ _ _ _ _ CH IR) as [A' [IA EA]].
  set (A0 := Ast (vars A) (given_back (c_pre c) avs ++ cs) (nxt A) (leak A || c_leak c)) in *.
  assert (BASE : forall h0, sub Fc h0 -> (forall i k k' l, nth_error (c_pre c) i = Some (MOwn k (Some k')) -> nth_error vals i = Some (VPtr (Some l)) -> exists o, h0 l = Some o /\ is_obj k' o) ->
     (c_leak c = false -> forall l o, h0 l = Some o -> Fc l = Some o \/ kept (c_pre c) vals l) -> R X F s A0 e h0).
  { intros h0 B1 B2 B3. destruct (back_pairs X s e _ _ _ h0 FV (args_fit_len _ _ _ AF) BO) as [K [HK [CK AK]]]; [|exact B2|].
    - intros i k a E. destruct (args_fit_nth _ _ _ _ _ AF E) as [x [E' [n ->]]]. eauto.
    - assert (NK : NoDup (map fst K)) by (eapply kps_nodup; [exact HK | exact HT | apply H1]).
      destruct (rebuild G L' Fc h0 K H2 B1 NK) as [G' [S2 [H3 Q]]].
      + intros l0 o I. split; [auto|]. destruct H1 as [_ [_ [HC _]]]. apply HC. apply (tks_taken _ _ _ _ HT). apply kept_taken. apply (kps_kept _ _ _ _ HK). apply in_fst; eauto.
      + split; auto. split; auto. exists G', (K ++ L'). split; [intros l0 o E; apply S2; apply S1; auto|]. split; [|split; [apply csats_app; auto | exact H3]].
        cbn [leak A0]. intros LE. apply orb_false_iff in LE. destruct LE as [LE1 LE2]. intros l0. rewrite Q; [apply LK; auto|].
        intros l1 o E. destruct (B3 LE2 l1 o E) as [Z|Z]; auto. right. apply (kps_kept _ _ _ _ HK). auto. }
  destruct r as [| |i|k into].
  - destruct dst; [discriminate|]. inversion EA; subst A'. split; [congruence|]. exists A0, s. split; auto. apply BASE; auto.
    intros CL l0 o E. destruct (PO3 l0 o E) as [Z|[Z|[[k [into [Z _]]]|Z]]]; auto; congruence.
  - subst v. split; [congruence|]. assert (RB : R X F s A0 e h').
    { apply BASE; auto. intros CL l0 o E. destruct (PO3 l0 o E) as [Z|[Z|[[k [into [Z _]]]|Z]]]; auto; congruence. }
    exists A', s. split; auto. destruct dst as [p|]; [|inversion EA; subst; auto]. eapply (R_put X F s A0 e h' p (VPtr None) ANull); [exact RB | exact (eq_refl (VPtr None)) | symmetry; exact EA].
  - assert (RB : R X F s A0 e h').
    { apply BASE; auto. intros CL l0 o E. destruct (PO3 l0 o E) as [Z|[Z|[[k [into [Z _]]]|Z]]]; auto; congruence. }
    destruct (nth_error (c_pre c) i) as [m|] eqn:EM; [|destruct (nth_error avs i); discriminate]. destruct (nth_error avs i) as [a|] eqn:EV; [|destruct m as [| |b|k [k'|]]; discriminate].
    assert (EA' : Some A' = match dst with None => Some A0 | Some p => put_var p a A0 end) by (destruct m as [| |b|k [k'|]]; try discriminate; exact EA).
    assert (VS := forall2_nth _ _ _ _ _ _ FV PR1 EV). split; [intros _ ->; destruct a; simpl in VS; try discriminate; destruct VS; discriminate|].
    exists A', s. split; auto. destruct dst as [p|]; [|inversion EA'; subst; auto]. eapply R_put; [exact RB | exact VS | symmetry; exact EA'].
  - destruct PR1 as [l0 [o [-> [E [IO [FN [NK OD]]]]]]]. split; [congruence|].
    destruct (forallb (fun i => match nth_error (c_pre c) i with Some MBor => true | _ => false end) into) eqn:IM; [|discriminate].
    set (h0 := hset h' l0 None). assert (RB : R X F s A0 e h0).
    { apply BASE; unfold h0, hset.
      - intros l1 o1 E1. destruct (Nat.eqb_spec l1 l0) as [->|]; [congruence | auto].
      - intros i k0 k1 l1 E1 E2. destruct (Nat.eqb_spec l1 l0) as [->|]; [exfalso; apply NK; exists i, k0, k1; auto | eapply PO2; eauto].
      - intros CL l1 o1. destruct (Nat.eqb_spec l1 l0) as [->|]; [discriminate|]. intros E1.
        destruct (PO3 l1 o1 E1) as [Z|[Z|[[k0 [into0 [_ Z]]]|Z]]]; auto; congruence. }
    assert (OK : obj_ok X s k (into_deps cs avs into) o).
    { split; auto. intros d I. destruct (OD d I) as [i [l1 [I1 [E1 I2]]]]. rewrite forallb_forall in IM. specialize (IM i I1).
      destruct (nth_error (c_pre c) i) as [m|] eqn:EM; [|discriminate]. destruct m; try discriminate.
      destruct (args_fit_nth _ _ _ _ _ AF EM) as [a [EV LV]]. assert (VS := forall2_nth _ _ _ _ _ _ FV E1 EV).
      destruct (live_ok _ _ _ _ _ _ _ _ _ _ CX S1 C' H2 VS LV) as [l2 [EL [_ RT]]]. inversion EL; subst l2.
      destruct (RT d I2) as [x [J D]]. exists x. split; auto. unfold into_deps. apply in_concat. exists (val_deps cs a). split; auto.
      apply in_map_iff. exists i. rewrite EV. auto. }
    assert (HN : h0 l0 = None) by (unfold h0, hset; rewrite Nat.eqb_refl; auto).
    destruct (R_alloc X F s A0 e h0 dst k (into_deps cs avs into) A' l0 o h' RB (eq_sym EA) HN OK) as [RR _].
    + intros l1. unfold h0, hset. destruct (Nat.eqb_spec l1 l0) as [->|]; auto.
    + exists A', (upd s (nxt A0) l0). split; auto.
Qed.
Lemma call_ok X F s A e h dst vals avs : ctx_ok X F -> R X F s A e h -> Forall2 (vsat X s) vals avs -> forall cl l, chk_call (cnp X) cl dst avs A = Some l ->
  exists c Fc, In c cl /\ pre (c_pre c) vals h Fc /\ forall v h', post c vals Fc v h' ->
    (dst <> None -> v <> VUndef) /\ exists A' s', In (TNorm, A') l /\ R X F s' A' (match dst with Some p => put e p v | None => e end) h'.
Proof.
  intros CX RR FV. induction cl as [|c cl IH]; intros l E; [discriminate|]. cbn [chk_call] in E. destruct (chk_call1 (cnp X) c dst avs A) as [r|] eqn:E1.
  - inversion E; subst r. destruct (call1_ok _ _ _ _ _ _ _ _ _ _ _ CX RR FV E1) as [Fc Q]. exists c, Fc. split; [left; auto | exact Q].
  - destruct (IH l E) as [c' [Fc [I Q]]]. exists c', Fc. split; [right; auto | exact Q].
Qed.
Lemma arg_avals_ok X s e vs : vok X s e vs -> forall args avs, arg_avals vs args = Some avs -> Forall2 (vsat X s) (map (arg_val e) args) avs.
Proof.
  intros VO. induction args as [|a args IH]; intros avs E; simpl in E; [inversion E; constructor|].
  destruct (arg_aval vs a) as [v|] eqn:E1; [|discriminate]. destruct (arg_avals vs args) as [r|] eqn:E2; [|discriminate]. inversion E; subst. simpl. constructor; auto.
  destruct a as [p| |b]; simpl in *; [apply VO; apply look_in; auto | inversion E1; reflexivity | inversion E1; reflexivity].
Qed.
