(** Soundness of the checker: a function that is accepted for a contract, by a set of contracts all of which are accepted,
    satisfies it ([check_sound]). *)
From Coq Require Import String List Bool Arith Lia Permutation.
From Verif Require Import MemLang MemCheck MemSound MemSteps MemCalls MemFor.
Import ListNotations.
Local Open Scope nat_scope.

Lemma in_decT {T} (d : forall a b : T, {a = b} + {a <> b}) x l : (if in_dec d x l then true else false) = true -> In x l.
Proof. destruct (in_dec d x l); congruence. Qed.
Lemma andthen_stop l f r t A : andthen l f = Some r -> In (t, A) l -> t <> TNorm -> In (t, A) r.
Proof.
  revert r. induction l as [|[t0 A0] l IH]; intros r E I N; [destruct I|]. cbn [andthen] in E.
  destruct t0.
  - apply both_some in E. destruct E as [la [lb [E1 [E2 ->]]]]. destruct I as [I|I]; [inversion I; congruence|]. apply in_merge. right. eapply IH; eauto.
  - apply both_some in E. destruct E as [la [lb [E1 [E2 ->]]]]. inversion E1; subst la. destruct I as [I|I]; apply in_merge; [left; left; auto | right; eapply IH; eauto].
  - apply both_some in E. destruct E as [la [lb [E1 [E2 ->]]]]. inversion E1; subst la. destruct I as [I|I]; apply in_merge; [left; left; auto | right; eapply IH; eauto].
  - apply both_some in E. destruct E as [la [lb [E1 [E2 ->]]]]. inversion E1; subst la. destruct I as [I|I]; apply in_merge; [left; left; auto | right; eapply IH; eauto].
Qed.
Lemma andthen_norm l f r A : andthen l f = Some r -> In (TNorm, A) l -> exists r', f A = Some r' /\ forall x, In x r' -> In x r.
Proof.
  revert r. induction l as [|[t0 A0] l IH]; intros r E I; [destruct I|]. cbn [andthen] in E.
  assert (K : exists la lb, andthen l f = Some lb /\ r = merge la lb /\ (t0 = TNorm -> f A0 = Some la)).
  { destruct t0.
    - apply both_some in E. destruct E as [la [lb [E1 [E2 ->]]]]. exists la, lb. auto.
    - apply both_some in E. destruct E as [la [lb [E1 [E2 ->]]]]. exists la, lb. split; [|split]; [auto | auto | discriminate].
    - apply both_some in E. destruct E as [la [lb [E1 [E2 ->]]]]. exists la, lb. split; [|split]; [auto | auto | discriminate].
    - apply both_some in E. destruct E as [la [lb [E1 [E2 ->]]]]. exists la, lb. split; [|split]; [auto | auto | discriminate]. }
  destruct K as [la [lb [E2 [-> E1]]]]. destruct I as [I|I].
  - inversion I; subst. exists la. split; auto. intros x J. apply in_merge; auto.
  - destruct (IH _ E2 I) as [r' [P Q]]. exists r'. split; auto. intros x J. apply in_merge; auto.
Qed.
Lemma foreseen_incl X F l l' o e h : (forall x, In x l -> In x l') -> foreseen X F l o e h -> foreseen X F l' o e h.
Proof. intros I [D|[t [A [s [J K]]]]]; [left; auto | right; exists t, A, s; auto]. Qed.
Lemma foreseen_one X F s A o e h : osat X s o TNorm -> R X F s A e h -> foreseen X F [(TNorm, A)] o e h.
Proof. intros O H. right. exists TNorm, A, s. split; [left; auto | auto]. Qed.
Lemma take_out_ok c : forall cs r, take_out c cs = Some r -> Permutation cs (c :: r).
Proof.
  induction cs as [|c' cs IH]; intros r E; [discriminate|]. simpl in E. destruct (chunk_eq_dec c c') as [->|]; [inversion E; subst; auto|].
  destruct (take_out c cs) as [r'|]; [|discriminate]. inversion E; subst. rewrite (IH r' eq_refl). apply perm_swap.
Qed.
Lemma permb_ok : forall a b, permb a b = true -> Permutation a b.
Proof.
  induction a as [|c a IH]; intros b E; simpl in E; [destruct b; [auto | discriminate]|].
  destruct (take_out c b) as [r|] eqn:T; [|discriminate]. rewrite (take_out_ok _ _ _ T). constructor. auto.
Qed.
Lemma csats_perm X s e a b : Permutation a b -> forall L, csats X s e a L -> exists L', Permutation L L' /\ csats X s e b L'.
Proof.
  induction 1 as [|c a b P IH|c c' a|a b d P IH P2 IH2]; intros L C.
  - eauto.
  - inversion C as [|c' cs' La Lb A B]; subst. destruct (IH _ B) as [L' [P1 P2]]. exists (La ++ L'). split; [apply Permutation_app_head; auto | constructor; auto].
  - inversion C as [|c1 cs' La Lb A B]; subst. inversion B as [|c2 cs2 Lc Ld A2 B2]; subst. exists (Lc ++ La ++ Ld). split; [apply Permutation_app_swap_app | constructor; auto; constructor; auto].
  - destruct (IH _ C) as [L1 [Q1 C1]]. destruct (IH2 _ C1) as [L2 [Q2 C2]]. exists L2. split; [etransitivity; eauto | auto].
Qed.
Lemma clean_ok X F s np A e h : R X F s A e h -> R X F s (clean np A) e h.
Proof.
  intros [N [VO Q]]. split; [auto|]. split; [|exact Q]. intros p a I. apply VO. cbn [clean vars] in I. apply filter_In in I. tauto.
Qed.
Lemma tidy_ok X F np l l' o e h : tidy np l = Some l' -> exists l0, l = Some l0 /\ (foreseen X F l0 o e h -> foreseen X F l' o e h).
Proof.
  destruct l as [l0|]; [|discriminate]. intros E. inversion E; subst. exists l0. split; [auto|]. intros [D|[t [A [s [I [O RR]]]]]]; [left; auto|].
  right. exists t, (clean np A), s. split; [|split; [auto | apply clean_ok; auto]]. clear E. induction l0 as [|x l0 IH]; [destruct I|]. cbn [fold_right]. apply in_add_out.
  destruct I as [->|I]; [left; auto | right; auto].
Qed.
Lemma entails_ok X F s A A' e h : entails A' A = true -> R X F s A' e h -> R X F s A e h.
Proof.
  intros E [N [VO [G [L [S1 [LK [C H]]]]]]]. unfold entails in E. apply andb_prop in E. destruct E as [E E3]. apply andb_prop in E. destruct E as [E1 E2].
  destruct (csats_perm _ _ _ _ _ (permb_ok _ _ E2) _ C) as [L' [PL C']]. split; auto. split.
  - intros p a I. apply VO. rewrite forallb_forall in E1. specialize (E1 _ I). apply in_decT in E1. auto.
  - exists G, L'. split; auto. split; [|split; [auto | eapply holds_perm; eauto]]. intros Q. apply LK. destruct (leak A'); auto. rewrite Q in E3. discriminate.
Qed.
Lemma loop_start_ok X F s A e h l : R X F s A e h -> R X F s (loop_start A l) e h.
Proof.
  intros [N [VO [G [L [S1 [LK [C H]]]]]]]. split; auto. split.
  - intros p a I. apply VO. unfold loop_start in I. simpl in I. unfold keep_vars in I. apply filter_In in I. tauto.
  - exists G, L. split; auto. split; auto. simpl. intros Q. apply LK. apply orb_false_iff in Q. tauto.
Qed.
Lemma loop_start_fix A l : loop_ok A l = true -> loop_start A l = A.
Proof.
  intros E. unfold loop_ok in E. rewrite forallb_forall in E.
  assert (Q : forall o, In o (filter goes_on l) -> entails (snd o) A = true).
  { intros o I. apply filter_In in I. destruct I as [I G]. specialize (E o I). rewrite G in E. exact E. }
  unfold loop_start. assert (K : keep_vars (vars A) (filter goes_on l) = vars A).
  { unfold keep_vars. rewrite (filter_ext_in _ (fun _ => true)); [induction (vars A); simpl; congruence|]. intros q J. apply forallb_forall. intros o I. specialize (Q o I).
    unfold entails in Q. apply andb_prop in Q. destruct Q as [Q _]. apply andb_prop in Q. destruct Q as [Q _]. rewrite forallb_forall in Q. apply Q. auto. }
  assert (K2 : leak A || existsb (fun o => leak (snd o)) (filter goes_on l) = leak A).
  { destruct (leak A) eqn:LA; auto. cbn [orb]. apply not_true_is_false. intros Z. apply existsb_exists in Z. destruct Z as [o [I LO]]. specialize (Q o I).
    unfold entails in Q. apply andb_prop in Q. destruct Q as [_ Q]. rewrite LO, LA in Q. discriminate. }
  rewrite K, K2. destruct A; reflexivity.
Qed.
Lemma close_free vs : forall names cs, free_sts (combine names (fst (close_arrs names vs cs))).
Proof.
  induction names as [|a names IH]; intros cs; [intros ? ? ? []|]. simpl. destruct (close1 a vs cs) as [st r1] eqn:E1. destruct (close_arrs names vs r1) as [ss' r'] eqn:E2. simpl.
  intros a' k ds [I|I]; [|specialize (IH r1); rewrite E2 in IH; eapply IH; exact I]. inversion I; subst. unfold close1 in E1.
  destruct (look (El a') vs) as [[| | |n]|]; try discriminate. destruct (pull n cs) as [[[k' ds'] r]|]; [|discriminate]. destruct (forallb no_site ds') eqn:NS; [|discriminate]. inversion E1; subst. auto.
Qed.
Lemma vsat_undef X s a : ~ vsat X s VUndef a.
Proof. destruct a; simpl; try discriminate. intros [E _]. discriminate. Qed.
Lemma is_obj_kind k k' ds fs : is_obj k (Obj k' ds fs) -> k' = k /\ (exists sh, In sh (shapes k) /\ is_fields sh fs) /\ (is_win k = false -> ds = []).
Proof. intros H. inversion H; subst. repeat split; eauto. Qed.
Lemma leaf_nil k k' ds fs : leaf_kind k = true -> is_obj k (Obj k' ds fs) -> fs = [].
Proof.
  intros LF H. apply is_obj_kind in H. destruct H as [-> [[sh [I IF]] _]]. unfold leaf_kind in LF. destruct (shapes k) as [|[|] [|]]; try discriminate.
  destruct I as [<-|[]]. inversion IF; auto.
Qed.
Lemma leaf_obj k ds : leaf_kind k = true -> (is_win k = false -> ds = []) -> is_obj k (Obj k ds []).
Proof.
  intros LF W. unfold leaf_kind in LF. destruct (shapes k) as [|[|] [|]] eqn:E; try discriminate. apply is_obj_intro with (sh := []); auto; [rewrite E; left; auto | constructor].
Qed.
Lemma relb_ok k k' : relb k k' = true -> releases k k'.
Proof.
  unfold relb, releases. intros E. apply orb_prop in E. destruct E as [E|E]; [left; apply keqb_eq; auto|]. apply andb_prop in E. destruct E as [E1 E2]. apply keqb_eq in E1, E2. auto.
Qed.

Section Sound.
Variable prog : string -> option fn.
Variable spec : string -> list contract.
Hypothesis spec_ok : forall f c, In c (spec f) -> exists b, prog f = Some b /\ check_fn spec b c = true.

Definition sound (s : stmt) (e : env) (h : heap) (o : outcome) (e1 : env) (h1 : heap) : Prop :=
  forall X F sg A l, ctx_ok X F -> R X F sg A e h -> chk spec (cnp X) s A = Some l -> foreseen X F l o e1 h1.
(** a loop over an array *)
Record for_ok (X : ctx) (es : list (string * nat * status)) (names : list string) (ss : list status) (C0 : list chunk) (vs : list (place * aval)) (n : nat) (s : stmt) : Prop := {
  fo_num : numbered n es; fo_free : free_sts (drop_n es); fo_free1 : free_sts (combine names ss); fo_V : all_V vs;
  fo_fresh : all_fresh (cnp X) n (length es) vs C0 = true; fo_plain : plain s = true;
  fo_body : exists l, chk spec (cnp X) s (Ast (el_vars es ++ vs) (el_chs es ++ C0) (n + length es) false) = Some l /\ forallb (for_round_ok names ss C0 vs) l = true }.
Definition sound_from (s : stmt) (e : env) (h : heap) (o : outcome) (e1 : env) (h1 : heap) : Prop :=
  match s with
  | ForFrom i b body => forall X F lk es names ss C0 vs n, ctx_ok X F -> for_ok X es names ss C0 vs n body -> inv X F lk es (combine names ss) C0 vs b i e h ->
      o = ODie \/ (o = ONorm /\ exists i', e_bnd e1 b <= i' /\ inv X F lk es (combine names ss) C0 vs b i' e1 h1)
  | _ => True
  end.
Lemma round_ok X F lk es names ss C0 vs n body i b e h o e1 h1 : exec prog body (set_idx e i) h o e1 h1 -> sound body (set_idx e i) h o e1 h1 ->
  ctx_ok X F -> for_ok X es names ss C0 vs n body -> inv X F lk es (combine names ss) C0 vs b i e h -> i < e_bnd e b ->
  o = ODie \/ (o = ONorm /\ inv X F lk es (combine names ss) C0 vs b (S i) e1 h1).
Proof.
  intros EX SB CX [NU FS FS1 AV AF PL [l [CH RO]]] IV LT. destruct (inv_open _ _ _ _ _ _ _ _ _ _ _ _ CX IV LT NU FS FS1 AV AF) as [s' [F' [G [L1 [L2 [CX' [RR [S1 [LK [C1 [C2 HF]]]]]]]]]]].
  destruct (SB X F' s' _ l CX' RR CH) as [D|[t [A1 [s1 [I [OS RR1]]]]]]; [auto|]. right. rewrite forallb_forall in RO. specialize (RO _ I). unfold for_round_ok in RO. cbn [fst snd] in RO.
  destruct t; try discriminate. apply andb_prop in RO. destruct RO as [RO RO3]. apply andb_prop in RO. destruct RO as [RO1 RO2]. cbn [andb] in RO1. apply negb_true_iff in RO1.
  destruct o; simpl in OS; try tauto. split; auto. destruct (close_arrs names (vars A1) (chs A1)) as [ss' r] eqn:CL. apply andb_prop in RO3. destruct RO3 as [Q1 Q2].
  destruct (list_eq_dec status_eq_dec ss' ss) as [->|]; [|discriminate]. destruct (list_eq_dec chunk_eq_dec r C0) as [->|]; [|discriminate].
  eapply (inv_close X F lk es names ss C0 vs b i e e1 h1 s' F' G L1 L2 s1 A1); eauto.
  - eapply plain_only; eauto.
  - intros q J. rewrite forallb_forall in RO2. specialize (RO2 _ J). apply in_decT in RO2. auto.
Qed.

Lemma distinct_loc X F s A e h n m k ds r : R X F s A e h -> pull n (chs A) = Some (k, ds, r) -> has_site m r = true -> s n <> s m.
Proof.
  intros [N [VO [G [L [S1 [LK [C H]]]]]]] PU HS E. destruct (pull_ok _ _ _ _ _ _ _ _ _ C PU) as [o [L' [PM [OK C']]]]. destruct (has_site_ok _ _ _ _ _ _ C' HS) as [o' I].
  apply (holds_perm _ _ _ _ PM) in H. destruct H as [ND _]. simpl in ND. inversion ND as [|x xs N1 N2]; subst. apply N1. rewrite E. apply in_fst. eauto.
Qed.
Lemma use_ok X F s A e h p a : ctx_ok X F -> R X F s A e h -> look p (vars A) = Some a -> live (chs A) a = true -> usable_val h (get e p).
Proof.
  intros CX [N [VO [G [L [S1 [LK [C H]]]]]]] LO LV. apply look_in in LO. destruct (live_ok _ _ _ _ _ _ _ _ _ _ CX S1 C H (VO _ _ LO) LV) as [l [E [U _]]]. exists l. auto.
Qed.
Lemma look_val X F s A e h p a : R X F s A e h -> look p (vars A) = Some a -> vsat X s (get e p) a.
Proof. intros [N [VO _]] LO. apply VO. apply look_in. auto. Qed.
Lemma osat_not t o X s : osat X s o t -> o <> ONorm -> t <> TNorm.
Proof. intros H N ->. destruct o; simpl in H; tauto. Qed.

Lemma chk_loop np s A ol : chk spec np (Loop s) A = Some ol -> exists l l1, chk spec np s (loop_start A l) = Some l1 /\ loop_ok (loop_start A l) l1 = true /\
  ol = loop_end (loop_start A l) l1 /\ chk spec np (Loop s) (loop_start A l) = Some ol.
Proof.
  cbn [chk]. destruct (chk spec np s A) as [l|] eqn:C0; [|discriminate]. destruct (chk spec np s (loop_start A l)) as [l1|] eqn:C1; [|discriminate].
  destruct (loop_ok (loop_start A l) l1) eqn:LO; [|discriminate]. intros CH. inversion CH; subst. exists l, l1. split; auto. split; auto. split; auto. cbn [chk]. rewrite C1, (loop_start_fix _ _ LO), C1, LO. auto.
Qed.
Lemma loop_end_in A l o : In o (loop_end A l) <-> o = (TNorm, A) \/ exists t A', In (t, A') l /\ ((t = TBrk /\ o = (TNorm, A')) \/ (exists v, t = TRet v /\ o = (t, A'))).
Proof.
  unfold loop_end. split.
  - intros [I|I]; [left; auto|]. right. apply in_concat in I. destruct I as [x [I J]]. apply in_map_iff in I. destruct I as [[t A'] [E K]]. exists t, A'. split; auto.
    destruct t; simpl in E; subst x; simpl in J; try tauto; destruct J as [J|[]]; subst; eauto.
  - intros [->|[t [A' [I [[-> ->]|[v [-> ->]]]]]]]; [left; auto | |]; right; apply in_concat; [exists [(TNorm, A')] | exists [(TRet v, A')]]; (split; [|left; auto]);
      apply in_map_iff; eexists; (split; [|exact I]); reflexivity.
Qed.
Theorem exec_sound s e h o e1 h1 : exec prog s e h o e1 h1 -> sound s e h o e1 h1 /\ sound_from s e h o e1 h1.
Proof.
  intros EX. induction EX; (split; [intros X F sg A ol CX RR CH; cbn [chk] in CH | try exact Logic.I]).
  - (* skip *) inversion CH; subst. eapply foreseen_one; [exact Logic.I | eauto].
  - (* seq *) destruct IHEX1 as [IH1 _], IHEX2 as [IH2 _]. destruct (chk spec (cnp X) s1 A) as [l1|] eqn:C1; [|discriminate].
    destruct (IH1 _ _ _ _ _ CX RR C1) as [D|[t [A1 [s' [I [OS R1]]]]]]; [discriminate|]. destruct t as [| | |[v|]]; simpl in OS; try tauto.
    destruct (andthen_norm _ _ _ _ CH I) as [r' [C2 SB]]. eapply foreseen_incl; [exact SB|]. eapply IH2; eauto.
  - (* seq, stop *) destruct IHEX as [IH1 _]. destruct (chk spec (cnp X) s1 A) as [l1|] eqn:C1; [|discriminate].
    destruct (IH1 _ _ _ _ _ CX RR C1) as [D|[t [A1 [s' [I [OS R1]]]]]]; [left; auto|]. right. exists t, A1, s'. split; [|auto]. eapply andthen_stop; eauto. eapply osat_not; eauto.
  - (* malloc *) destruct (leaf_kind k) eqn:LF; [|discriminate]. destruct (is_win k) eqn:W; [discriminate|]. cbn [andb negb] in CH. apply one_some in CH. destruct CH as [A' [AL ->]].
    destruct (R_alloc X F sg A e h (Some p) k [] A' l (Obj k [] []) (hset h l (Some (Obj k [] []))) RR AL H) as [R1 _].
    + split; [apply leaf_obj; auto | intros d []].
    + intros x; auto.
    + eapply foreseen_one; [exact Logic.I | exact R1].
  - (* window *) destruct (look q (vars A)) as [v|] eqn:LO; [|discriminate]. destruct (live (chs A) v) eqn:LV; [|discriminate]. destruct (leaf_kind k) eqn:LF; [|discriminate].
    destruct (is_win k) eqn:W; [|discriminate]. cbn [andb] in CH. apply one_some in CH. destruct CH as [A' [AL ->]].
    destruct (R_alloc X F sg A e h (Some p) k (val_deps (chs A) v) A' l (Obj k (roots h l0) []) (hset h l (Some (Obj k (roots h l0) []))) RR AL H1) as [R1 _].
    + split; [apply leaf_obj; auto; congruence|]. cbn [odeps]. assert (VS := look_val _ _ _ _ _ _ _ _ RR LO). destruct RR as [N [VO [G [L [S1 [LK [C HH]]]]]]].
      destruct (live_ok _ _ _ _ _ _ _ _ _ _ CX S1 C HH VS LV) as [l1 [E1 [_ RT]]]. rewrite H in E1. inversion E1; subst. exact RT.
    + intros x; auto.
    + eapply foreseen_one; [exact Logic.I | exact R1].
  - destruct (look q (vars A)) as [v|] eqn:LO; [|discriminate]. destruct (live (chs A) v) eqn:LV; [|discriminate]. exfalso. apply H. eapply use_ok; eauto.
  - (* free *) destruct (look p (vars A)) as [[| | |n]|] eqn:LO; try discriminate. destruct (pull n (chs A)) as [[[k1 ds1] r]|] eqn:PU; [|discriminate].
    destruct (relb k k1) eqn:RB; [|discriminate]. destruct (leaf_kind k1) eqn:LF; [|discriminate]. cbn [andb] in CH. inversion CH; subst ol. clear CH.
    assert (VS := look_val _ _ _ _ _ _ _ _ RR LO). simpl in VS. rewrite H in VS. inversion VS; subst l. destruct RR as [N [VO [G [L [S1 [LK [C HH]]]]]]].
    destruct (pull_ok _ _ _ _ _ _ _ _ _ C PU) as [o [L' [PM [OK C']]]]. apply (holds_perm _ _ _ _ PM) in HH.
    apply (foreseen_one X F sg); [exact Logic.I|]. split; auto. split; auto. exists G, L'. split; auto. split; auto. split; auto. eapply holds_free; eauto.
  - destruct (look p (vars A)) as [[| | |n]|] eqn:LO; try discriminate. destruct (pull n (chs A)) as [[[k1 ds1] r]|] eqn:PU; [|discriminate].
    destruct (relb k k1) eqn:RB; [|discriminate]. destruct (leaf_kind k1) eqn:LF; [|discriminate]. exfalso.
    assert (VS := look_val _ _ _ _ _ _ _ _ RR LO). simpl in VS. destruct RR as [N [VO [G [L [S1 [LK [C HH]]]]]]].
    destruct (pull_ok _ _ _ _ _ _ _ _ _ C PU) as [o [L' [PM [[IO OD] C']]]]. apply (holds_perm _ _ _ _ PM) in HH.
    destruct o as [k2 ds2 fs2]. assert (FN := leaf_nil _ _ _ _ LF IO). subst fs2. destruct (is_obj_kind _ _ _ _ IO) as [-> _].
    eapply H; [exact VS | apply (holds_in _ _ _ _ _ HH); left; reflexivity | apply relb_ok; auto].
  - (* use *) destruct (forallb _ ps); [|discriminate]. inversion CH; subst. eapply foreseen_one; [exact Logic.I | eauto].
  - destruct (forallb _ ps) eqn:FB; [|discriminate]. exfalso. rewrite forallb_forall in FB. specialize (FB _ H). destruct (look p (vars A)) as [v|] eqn:LO; [|discriminate].
    apply H0. eapply use_ok; eauto.
  - (* set *) destruct (look q (vars A)) as [v|] eqn:LO; [|discriminate]. apply one_some in CH. destruct CH as [A' [PV ->]]. eapply foreseen_one; [exact Logic.I|].
    eapply R_put; [exact RR | | exact PV]. eapply look_val; eauto.
  - destruct (look q (vars A)) as [v|] eqn:LO; [|discriminate]. assert (VS := look_val _ _ _ _ _ _ _ _ RR LO). rewrite H in VS. exfalso. eapply vsat_undef; eauto.
  - (* set to NULL *) apply one_some in CH. destruct CH as [A' [PV ->]]. apply (foreseen_one X F sg); [exact Logic.I|]. apply (R_put X F sg A e h p (VPtr None) ANull); auto. exact eq_refl.
  - (* flag *) apply one_some in CH. destruct CH as [A' [PV ->]]. apply (foreseen_one X F sg); [exact Logic.I|]. apply (R_put X F sg A e h (V x) (VFlag b) (AFlg b)); auto. exact eq_refl.
  - (* if *) destruct IHEX as [IH _]. destruct (tidy_ok X F (cnp X) _ _ o e1 h1 CH) as [l0 [CB TD]]. apply TD. apply both_some in CB. destruct CB as [la [lb [E1 [E2 ->]]]]. eapply foreseen_incl; [|eapply IH; eauto]. intros y J. apply in_merge; auto.
  - destruct IHEX as [IH _]. destruct (tidy_ok X F (cnp X) _ _ o e1 h1 CH) as [l0 [CB TD]]. apply TD. apply both_some in CB. destruct CB as [la [lb [E1 [E2 ->]]]]. eapply foreseen_incl; [|eapply IH; eauto]. intros y J. apply in_merge; auto.
  - (* test for NULL *) destruct IHEX as [IH _]. destruct (look p (vars A)) as [a|] eqn:LO; [|discriminate]. assert (VS := look_val _ _ _ _ _ _ _ _ RR LO). rewrite H in VS.
    destruct a; simpl in VS; try discriminate; [|destruct VS; discriminate]. eapply IH; eauto.
  - destruct IHEX as [IH _]. destruct (look p (vars A)) as [a|] eqn:LO; [|discriminate]. assert (VS := look_val _ _ _ _ _ _ _ _ RR LO). rewrite H in VS.
    destruct a; simpl in VS; try discriminate; eapply IH; eauto.
  - destruct (look p (vars A)) as [a|] eqn:LO; [|discriminate]. assert (VS := look_val _ _ _ _ _ _ _ _ RR LO). exfalso.
    destruct a; simpl in VS; [eapply H; eauto | discriminate | destruct VS as [VS _]; eapply H; eauto | eapply H; eauto].
  - (* flag tests *) destruct IHEX as [IH _]. destruct (look (V x) (vars A)) as [[|b| |]|] eqn:LO; try discriminate. assert (VS := look_val _ _ _ _ _ _ _ _ RR LO). simpl in VS. rewrite H in VS.
    inversion VS; subst. eapply IH; eauto.
  - destruct IHEX as [IH _]. destruct (look (V x) (vars A)) as [[|b| |]|] eqn:LO; try discriminate. assert (VS := look_val _ _ _ _ _ _ _ _ RR LO). simpl in VS. rewrite H in VS.
    inversion VS; subst. eapply IH; eauto.
  - destruct (look (V x) (vars A)) as [[|b| |]|] eqn:LO; try discriminate. assert (VS := look_val _ _ _ _ _ _ _ _ RR LO). simpl in VS. exfalso. eapply H; eauto.
  - (* equality of pointers *) destruct IHEX as [IH _]. destruct (look p (vars A)) as [a1|] eqn:LO1; [|destruct (look q (vars A)) as [[| | |]|]; discriminate]. destruct (look q (vars A)) as [a2|] eqn:LO2; [|exfalso; destruct a1; discriminate].
    assert (V1 := look_val _ _ _ _ _ _ _ _ RR LO1). assert (V2 := look_val _ _ _ _ _ _ _ _ RR LO2). rewrite H in V1. rewrite H0 in V2.
    assert (K : chk spec (cnp X) s1 A = Some ol \/ both (chk spec (cnp X) s1 A) (chk spec (cnp X) s2 A) = Some ol).
    { destruct a1, a2; simpl in V1, V2; try discriminate; try (exfalso; destruct V1; discriminate); try (exfalso; destruct V2; congruence); try (exfalso; congruence); try (exfalso; destruct V1; congruence); auto.
      destruct (Nat.eqb_spec n n0); auto. destruct (pull n (chs A)) as [[[k1 ds1] r]|] eqn:PU; auto. destruct (has_site n0 r) eqn:HS; auto.
      exfalso. assert (Z := distinct_loc _ _ _ _ _ _ _ _ _ _ _ RR PU HS). congruence. }
    destruct K as [K|K]; [eapply IH; eauto|]. apply both_some in K. destruct K as [la [lb [E1 [E2 ->]]]]. eapply foreseen_incl; [|eapply IH; eauto]. intros y J. apply in_merge; auto.
  - destruct IHEX as [IH _]. destruct (look p (vars A)) as [a1|] eqn:LO1; [|destruct (look q (vars A)) as [[| | |]|]; discriminate]. destruct (look q (vars A)) as [a2|] eqn:LO2; [|exfalso; destruct a1; discriminate].
    assert (V1 := look_val _ _ _ _ _ _ _ _ RR LO1). assert (V2 := look_val _ _ _ _ _ _ _ _ RR LO2). rewrite H in V1. rewrite H0 in V2.
    assert (K : chk spec (cnp X) s2 A = Some ol \/ both (chk spec (cnp X) s1 A) (chk spec (cnp X) s2 A) = Some ol).
    { destruct a1, a2; simpl in V1, V2; try discriminate; try (exfalso; destruct V1; discriminate); auto.
      - congruence.
      - destruct (Nat.eqb_spec n n0); [congruence|]. destruct (pull n (chs A)) as [[[k1 ds1] r]|] eqn:PU; auto. destruct (has_site n0 r) eqn:HS; auto. }
    destruct K as [K|K]; [eapply IH; eauto|]. apply both_some in K. destruct K as [la [lb [E1 [E2 ->]]]]. eapply foreseen_incl; [|eapply IH; eauto]. intros y J. apply in_merge; auto.
  - destruct (look p (vars A)) as [a1|] eqn:LO1; [|destruct (look q (vars A)) as [[| | |]|]; discriminate]. destruct (look q (vars A)) as [a2|] eqn:LO2; [|exfalso; destruct a1; discriminate]. exfalso.
    assert (V1 := look_val _ _ _ _ _ _ _ _ RR LO1). assert (V2 := look_val _ _ _ _ _ _ _ _ RR LO2).
    assert (K1 : exists x, get e p = VPtr x) by (destruct a1, a2; simpl in V1; try discriminate; eauto; destruct V1; eauto).
    assert (K2 : exists x, get e q = VPtr x) by (destruct a2, a1; simpl in V2; try discriminate; eauto; destruct V2; eauto).
    destruct K1 as [x K1], K2 as [y K2]. eapply H; eauto.
  - (* loop *) change (chk spec (cnp X) (Loop s) A = Some ol) in CH. destruct (chk_loop _ _ _ _ CH) as [l [l1 [C1 [LO [-> _]]]]]. right. exists TNorm, (loop_start A l), sg. split; [left; auto|]. split; [exact Logic.I|].
    apply loop_start_ok. auto.
  - destruct IHEX1 as [IH1 _], IHEX2 as [IH2 _]. change (chk spec (cnp X) (Loop s) A = Some ol) in CH. destruct (chk_loop _ _ _ _ CH) as [l [l1 [C1 [LO [_ CH']]]]].
    assert (R0 := loop_start_ok _ _ _ _ _ _ l RR). destruct (IH1 _ _ _ _ _ CX R0 C1) as [D|[t [A1 [s' [I [OS R1]]]]]]; [destruct H; congruence|].
    eapply IH2; [exact CX | | exact CH']. unfold loop_ok in LO. rewrite forallb_forall in LO. specialize (LO _ I). eapply entails_ok; [|exact R1].
    destruct t as [| | |[v|]]; simpl in LO; auto; destruct H as [-> | ->]; simpl in OS; tauto.
  - destruct IHEX as [IH1 _]. change (chk spec (cnp X) (Loop s) A = Some ol) in CH. destruct (chk_loop _ _ _ _ CH) as [l [l1 [C1 [LO [-> _]]]]].
    assert (R0 := loop_start_ok _ _ _ _ _ _ l RR). destruct (IH1 _ _ _ _ _ CX R0 C1) as [D|[t [A1 [s' [I [OS R1]]]]]]; [discriminate|].
    right. exists TNorm, A1, s'. split; [|split; [exact Logic.I | auto]]. apply loop_end_in. right. exists t, A1. split; auto. left. destruct t as [| | |[v|]]; simpl in OS; try tauto.
  - destruct IHEX as [IH1 _]. change (chk spec (cnp X) (Loop s) A = Some ol) in CH. destruct (chk_loop _ _ _ _ CH) as [l [l1 [C1 [LO [-> _]]]]].
    assert (R0 := loop_start_ok _ _ _ _ _ _ l RR). destruct (IH1 _ _ _ _ _ CX R0 C1) as [D|[t [A1 [s' [I [OS R1]]]]]]; [left; auto|].
    right. exists t, A1, s'. split; [|auto]. apply loop_end_in. right. exists t, A1. split; auto. right. destruct t as [| | |v]; [destruct o; simpl in OS; tauto .. | eauto].
  - (* for *) destruct IHEX as [_ IH]. unfold chk_for in CH. destruct (open_arrs b (nodup_s (arrs s)) (nxt A) (chs A)) as [[es C0]|] eqn:EO; [|discriminate].
    set (names := nodup_s (arrs s)) in *. set (vs0 := filter is_V (vars A)) in *.
    destruct (chk spec (cnp X) s (Ast (el_vars es ++ vs0) (el_chs es ++ C0) (nxt A + length names) false)) as [l1|] eqn:C1; [|discriminate].
    set (vs := keep_vars vs0 l1) in *.
    destruct (chk spec (cnp X) s (Ast (el_vars es ++ vs) (el_chs es ++ C0) (nxt A + length names) false)) as [[|[t A1] l2]|] eqn:C2; try discriminate.
    set (ss := fst (close_arrs names (vars A1) (chs A1))) in *.
    destruct (plain s) eqn:PL; [|discriminate]. destruct (distinctb names) eqn:DN; [|discriminate]. destruct (all_fresh (cnp X) (nxt A) (length names) vs C0) eqn:AF; [|discriminate].
    destruct (length ss =? length names) eqn:LS; [|discriminate]. destruct (forallb (for_round_ok names ss C0 vs) ((t, A1) :: l2)) eqn:RO; [|discriminate].
    cbn [andb] in CH. inversion CH; subst ol. clear CH. destruct (open_numbered _ _ _ _ _ _ EO) as [NU LE].
    assert (AV : all_V vs).
    { intros p a I. unfold vs, keep_vars, vs0 in I. apply filter_In in I. destruct I as [I _]. apply filter_In in I. destruct I as [_ I]. destruct p; [eauto | discriminate]. }
    assert (SUB : forall q, In q vs -> In q (vars A)).
    { intros q I. unfold vs, keep_vars, vs0 in I. apply filter_In in I. destruct I as [I _]. apply filter_In in I. tauto. }
    destruct (inv_start X F sg A e h b names es C0 vs (combine names ss) (nxt A) RR EO SUB) as [IV FS].
    assert (FO : for_ok X es names ss C0 vs (nxt A) s).
    { constructor; auto.
      - apply close_free.
      - rewrite LE. auto.
      - exists ((t, A1) :: l2). rewrite LE. auto. }
    destruct (IH X F (leak A) es names ss C0 vs (nxt A) CX FO IV) as [->|[-> [i' [LE' IV']]]]; [left; auto|].
    destruct (inv_end X F A es names ss C0 vs b i' e1 h1 (nxt A + length names) (e_idx e) IV' LE' AV) as [s' R1]. apply (foreseen_one X F s'); [exact Logic.I | exact R1].
  - (* the rounds *) discriminate.
  - intros X F lk es names ss C0 vs n CX FO IV. right. split; auto. exists i. auto.
  - discriminate.
  - intros X F lk es names ss C0 vs n CX FO IV. destruct IHEX1 as [IH1 _], IHEX2 as [_ IH2].
    destruct (round_ok X F lk es names ss C0 vs n s i b e h ONorm e1 h1 EX1 IH1 CX FO IV H) as [D|[_ IV']]; [discriminate|]. eapply IH2; eauto.
  - discriminate.
  - intros X F lk es names ss C0 vs n CX FO IV. destruct IHEX as [IH1 _].
    destruct (round_ok X F lk es names ss C0 vs n s i b e h o e1 h1 EX IH1 CX FO IV H) as [D|[D IV']]; [auto | congruence].
  - (* break *) inversion CH; subst. right. exists TBrk, A, sg. split; [left; auto | split; [exact Logic.I | auto]].
  - inversion CH; subst. right. exists TCont, A, sg. split; [left; auto | split; [exact Logic.I | auto]].
  - (* pack *) destruct (look (V x) (vars A)) as [[| | |n]|] eqn:LO; try discriminate. destruct (pull n (chs A)) as [[[k1 ds1] cs]|] eqn:PU; [|discriminate].
    destruct k1; try discriminate. destruct ds1; [|discriminate]. destruct (pack_first (shapes k) fs (vars A) cs) as [[cs' ds']|] eqn:PF; [|discriminate].
    destruct (is_win k || forallb (fun _ => false) ds') eqn:W; [|discriminate]. inversion CH; subst ol. clear CH. apply (foreseen_one X F sg); [exact Logic.I|].
    assert (VS := look_val _ _ _ _ _ _ _ _ RR LO). simpl in VS. rewrite H in VS. inversion VS; subst l. destruct RR as [N [VO [G [L [S1 [LK [C HH]]]]]]].
    destruct (pull_ok _ _ _ _ _ _ _ _ _ C PU) as [o [L' [PM [[IO OD] C']]]]. apply (holds_perm _ _ _ _ PM) in HH.
    assert (EO := holds_in _ _ _ _ _ HH (or_introl eq_refl)). rewrite H0 in EO. inversion EO; subst o. destruct (is_obj_kind _ _ _ _ IO) as [_ [_ D0]]. rewrite (D0 eq_refl) in *. clear D0.
    destruct (pack_first_ok _ _ _ _ _ PF) as [sh [IS PS]].
    change ((sg n, Obj KRaw [] []) :: L') with ([(sg n, Obj KRaw [] [])] ++ L') in HH. assert (HH2 : holds G (L' ++ [(sg n, Obj KRaw [] [])]) h) by (eapply holds_perm; [apply Permutation_app_comm | exact HH]).
    destruct (holds_frame _ _ _ _ HH2) as [G' [HG1 HG2]]. destruct (pack_ok X sg e (vars A) G' VO _ _ _ _ _ _ _ _ _ C' HG2 PS H1) as [L2 [C2 [H2 [IF DD]]]].
    assert (H3 := holds_unframe _ _ _ _ _ HG1 H2). assert (H4 : holds G ((sg n, Obj KRaw [] []) :: L2) h1) by (eapply holds_perm; [|exact H3]; rewrite Permutation_app_comm; auto).
    split; auto. split; auto. exists G, ((sg n, Obj k (concat (map slot_deps (concat r))) r) :: L2). split; auto. split; auto. split; [|eapply holds_upd; exact H4].
    cbn [chs]. change ((sg n, Obj k (concat (map slot_deps (concat r))) r) :: L2) with ([(sg n, Obj k (concat (map slot_deps (concat r))) r)] ++ L2). constructor; auto.
    exists (Obj k (concat (map slot_deps (concat r))) r). split; auto. split.
    + apply is_obj_intro with (sh := sh); auto. intros WF. rewrite WF in W. destruct ds'; [|discriminate]. destruct (concat (map slot_deps (concat r))) as [|d dd]; auto.
      destruct (DD d (or_introl eq_refl)) as [y [[] _]].
    + exact DD.
  - destruct (look (V x) (vars A)) as [[| | |n]|] eqn:LO; try discriminate. destruct (pull n (chs A)) as [[[k1 ds1] cs]|] eqn:PU; [|discriminate].
    destruct k1; try discriminate. destruct ds1; [|discriminate]. exfalso. assert (VS := look_val _ _ _ _ _ _ _ _ RR LO). simpl in VS. destruct RR as [N [VO [G [L [S1 [LK [C HH]]]]]]].
    destruct (pull_ok _ _ _ _ _ _ _ _ _ C PU) as [o [L' [PM [[IO OD] C']]]]. apply (holds_perm _ _ _ _ PM) in HH.
    destruct o as [k2 ds2 fs2]. assert (FN := leaf_nil KRaw _ _ _ eq_refl IO). subst fs2. destruct (is_obj_kind _ _ _ _ IO) as [-> _].
    eapply H; [exact VS | apply (holds_in _ _ _ _ _ HH); left; reflexivity].
  - (* unpack *) destruct (look (V x) (vars A)) as [[| | |n]|] eqn:LO; try discriminate. destruct (pull n (chs A)) as [[[k1 ds1] cs]|] eqn:PU; [|discriminate].
    assert (VS := look_val _ _ _ _ _ _ _ _ RR LO). simpl in VS. rewrite H in VS. inversion VS; subst l. destruct RR as [N [VO [G [L [S1 [LK [C HH]]]]]]].
    destruct (pull_ok _ _ _ _ _ _ _ _ _ C PU) as [o [L' [PM [[IO OD] C']]]]. apply (holds_perm _ _ _ _ PM) in HH.
    assert (EO := holds_in _ _ _ _ _ HH (or_introl eq_refl)). rewrite H0 in EO. inversion EO; subst o. destruct (is_obj_kind _ _ _ _ IO) as [-> [[sh [IS IF]] _]].
    destruct (unpack_all_ok _ _ _ _ _ _ CH IS) as [A' [UA IA]].
    assert (R0 : R X F sg (Ast (vars A) (CObj n KRaw [] :: cs) (nxt A) (leak A)) e (hset h (sg n) (Some (Obj KRaw [] [])))).
    { split; auto. split; auto. exists G, ((sg n, Obj KRaw [] []) :: L'). split; auto. split; auto. split; [|eapply holds_upd; eauto].
      cbn [chs]. change ((sg n, Obj KRaw [] []) :: L') with ([(sg n, Obj KRaw [] [])] ++ L'). constructor; auto. exists (Obj KRaw [] []). split; auto. split; [apply leaf_obj; auto | intros d []]. }
    destruct (unpack_ok X F _ _ _ _ _ _ _ _ _ _ UA IF R0 H1) as [s' R1]. right. exists TNorm, A', s'. split; auto. split; [exact Logic.I | auto].
  - destruct (look (V x) (vars A)) as [[| | |n]|] eqn:LO; try discriminate. destruct (pull n (chs A)) as [[[k1 ds1] cs]|] eqn:PU; [|discriminate].
    exfalso. assert (VS := look_val _ _ _ _ _ _ _ _ RR LO). simpl in VS. destruct RR as [N [VO [G [L [S1 [LK [C HH]]]]]]].
    destruct (pull_ok _ _ _ _ _ _ _ _ _ C PU) as [o [L' [PM [[IO OD] C']]]]. apply (holds_perm _ _ _ _ PM) in HH.
    destruct o as [k2 ds2 fs2]. destruct (is_obj_kind _ _ _ _ IO) as [-> [[sh [IS IF]] _]]. destruct (unpack_all_ok _ _ _ _ _ _ CH IS) as [A' [UA IA]].
    eapply H; [exact VS | apply (holds_in _ _ _ _ _ HH); left; reflexivity | eapply fits_ok; eauto].
  - (* call *) destruct IHEX as [IH _]. destruct (arg_avals (vars A) args) as [avs|] eqn:AA; [|discriminate].
    assert (FV : Forall2 (vsat X sg) vs avs) by (subst vs; eapply arg_avals_ok; [apply RR | exact AA]).
    destruct (call_ok X F sg A e h dst vs avs CX RR FV _ _ CH) as [c [Fc [IC [PR K]]]]. destruct (spec_ok f c IC) as [b' [PB CF]]. rewrite H in PB. inversion PB; subst b'.
    unfold check_fn in CF. apply andb_prop in CF. destruct CF as [CF CF3]. apply andb_prop in CF. destruct CF as [CF1 CF2]. apply Nat.eqb_eq in CF1.
    destruct (chk spec (length (c_pre c)) (fn_body b) (Ast (init_vars 0 (fn_params b) (c_pre c)) (init_chs 0 (c_pre c)) (length (c_pre c)) false)) as [lo|] eqn:CB; [|discriminate].
    assert (RI := init_ok _ _ _ _ _ _ PR CF1 CF2 H3).
    destruct (IH (mk_ctx (c_pre c) vs Fc) Fc (arg_loc vs) (init_ast (fn_params b) (c_pre c)) lo (ctx_ok_init _ _ _ _ PR) RI CB) as [->|[t [A1 [s1 [I [OS R1]]]]]]; [left; auto|].
    rewrite forallb_forall in CF3. destruct (final_ok c vs h Fc s1 t A1 e1 h1 o PR R1 OS (CF3 _ I)) as [v [OV PO]]. destruct (K v h1 PO) as [NU [A' [s' [IA R2]]]].
    right. exists TNorm, A', s'. split; auto. destruct OV as [->|[-> ->]]; destruct dst as [p|]; simpl; auto.
    + destruct v; simpl; auto. exfalso. apply NU; congruence.
    + exfalso. apply NU; congruence.
  - destruct (arg_avals (vars A) args) as [avs|] eqn:AA; [|discriminate]. exfalso.
    assert (FV : Forall2 (vsat X sg) (map (arg_val e) args) avs) by (eapply arg_avals_ok; [apply RR | exact AA]).
    destruct (call_ok X F sg A e h dst _ avs CX RR FV _ _ CH) as [c [Fc [IC [PR K]]]]. destruct (spec_ok f c IC) as [b' [PB CF]].
    destruct H as [H|[H|H]]; [congruence | |].
    + clear -FV H. induction FV as [|v a vs avs P Q IH]; [destruct H|]. destruct H as [H|H]; [subst; eapply vsat_undef; eauto | auto].
    + apply (H b' PB). unfold check_fn in CF. apply andb_prop in CF. destruct CF as [CF CF3]. apply andb_prop in CF. destruct CF as [CF1 CF2]. apply Nat.eqb_eq in CF1. rewrite CF1.
      destruct PR as [LN _]. rewrite map_length in LN. auto.
  - (* return *) destruct (look p (vars A)) as [v|] eqn:LO; [|discriminate]. inversion CH; subst. right. exists (TRet (Some v)), A, sg. split; [left; auto|]. split; auto. simpl. eapply look_val; eauto.
  - destruct (look p (vars A)) as [v|] eqn:LO; [|discriminate]. assert (VS := look_val _ _ _ _ _ _ _ _ RR LO). rewrite H in VS. exfalso. eapply vsat_undef; eauto.
  - inversion CH; subst. right. exists (TRet None), A, sg. split; [left; auto|]. split; [exact Logic.I | auto].
  - inversion CH; subst. right. exists (TRet (Some ANull)), A, sg. split; [left; auto|]. split; auto. exact eq_refl.
  - left. auto.
Qed.

Theorem check_sound f c : In c (spec f) -> satisfies prog f c.
Proof.
  intros IC vs h F o h' PR [b [e0 [e1 [PB [LN [EB [EA EX]]]]]]]. destruct (spec_ok f c IC) as [b' [PB' CF]]. rewrite PB in PB'. inversion PB'; subst b'.
  unfold check_fn in CF. apply andb_prop in CF. destruct CF as [CF CF3]. apply andb_prop in CF. destruct CF as [CF1 CF2]. apply Nat.eqb_eq in CF1.
  destruct (chk spec (length (c_pre c)) (fn_body b) (Ast (init_vars 0 (fn_params b) (c_pre c)) (init_chs 0 (c_pre c)) (length (c_pre c)) false)) as [lo|] eqn:CB; [|discriminate].
  assert (RI := init_ok _ _ _ _ _ _ PR CF1 CF2 EB). destruct (exec_sound _ _ _ _ _ _ EX) as [SD _].
  destruct (SD (mk_ctx (c_pre c) vs F) F (arg_loc vs) (init_ast (fn_params b) (c_pre c)) lo (ctx_ok_init _ _ _ _ PR) RI CB) as [->|[t [A1 [s1 [I [OS R1]]]]]]; [left; auto|].
  rewrite forallb_forall in CF3. destruct (final_ok c vs h F s1 t A1 e1 h' o PR R1 OS (CF3 _ I)) as [v [[->|[-> ->]] PO]]; eauto.
Qed.
End Sound.
