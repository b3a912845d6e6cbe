(** Soundness of the checker: uses, structures, calls. *)
From Coq Require Import String List Bool Arith Lia Permutation.
From Verif Require Import MemLang MemCheck MemSound.
Import ListNotations.
Local Open Scope nat_scope.

(** ** uses and windows *)
Lemma live_ok X F s e cs L G h v a : ctx_ok X F -> sub F G -> csats X s e cs L -> holds G L h -> vsat X s v a -> live cs a = true ->
  exists l, v = VPtr (Some l) /\ usable h l /\ forall d, In d (roots h l) -> exists x, In x (val_deps cs a) /\ dsat X s x d.
Proof.
  intros CX S1 C H VS LV. assert (S2 : sub F h) by (intros l o E; apply (holds_sub _ _ _ H); auto).
  destruct a as [|b|i|n]; simpl in LV; try discriminate.
  - destruct VS as [-> B]. exists (cb X i). split; auto. destruct CX as [CX1 CX2]. destruct (CX1 i B) as [o [E [D RT]]]. split.
    + exists o. split; auto. intros d I. eapply sub_some; [exact S2 | auto].
    + intros d I. rewrite (roots_sub _ _ _ _ S2 E), <- RT in I. exists (DBor i). split; [left; auto | exact I].
  - simpl in VS. subst v. exists (s n). split; auto. destruct (pull n cs) as [[[k ds] r]|] eqn:P; [|discriminate].
    destruct (pull_ok _ _ _ _ _ _ _ _ _ C P) as [o [L' [PM [[IO OD] C']]]].
    assert (E : h (s n) = Some o) by (apply (holds_in _ _ _ _ _ H); eapply Permutation_in; [symmetry; exact PM | left; auto]).
    rewrite forallb_forall in LV. split.
    + exists o. split; auto. intros d I. destruct (OD d I) as [x [J K]]. specialize (LV x J). destruct x as [i|m|]; simpl in *; try discriminate.
      * destruct CX as [_ CX2]. eapply sub_some; [exact S2 | eapply CX2; eauto].
      * destruct (has_site_ok _ _ _ _ _ _ C LV) as [o' J']. rewrite K, (holds_in _ _ _ _ _ H J'). congruence.
    + intros d I. unfold val_deps. rewrite P. unfold roots in I. rewrite E in I. destruct o as [k0 [|d0 dd] fs].
      * destruct I as [<-|[]]. exists (DSite n). split; [left; auto | reflexivity].
      * destruct (OD d I) as [x [J K]]. exists x. split; [right; auto | auto].
Qed.

(** ** structures *)
Lemma keqb_eq a b : keqb a b = true -> a = b.
Proof. unfold keqb. destruct (kind_eq_dec a b); congruence. Qed.
Lemma rsat_cons X s e a k ds lo len l o L : rsat X s e a k ds lo (S len) ((l, o) :: L) -> e_arr e a lo = VPtr (Some l) /\ obj_ok X s k ds o /\ rsat X s e a k ds (S lo) len L.
Proof.
  intros [A B]. split; [|split].
  - destruct (B 0 l o eq_refl) as [P _]. rewrite Nat.add_0_r in P. auto.
  - destruct (B 0 l o eq_refl); auto.
  - split; [simpl in A; lia|]. intros i l' o' E. destruct (B (S i) l' o' E) as [P Q]. split; auto. rewrite <- P. f_equal. lia.
Qed.
Lemma take_arr X s e a k ds G : forall La lo len L h ss h', rsat X s e a k ds lo len La -> holds G (La ++ L) h ->
  take_all h (map (e_arr e a) (seq lo len)) = (ss, h') ->
  is_slots k ss /\ holds G L h' /\ forall d, In d (concat (map slot_deps ss)) -> exists x, In x ds /\ dsat X s x d.
Proof.
  induction La as [|[l o] La IH]; intros lo len L h ss h' RS H E.
  - destruct RS as [Q _]. simpl in Q. subst len. simpl in E. inversion E; subst. repeat split; auto; try constructor; try apply H. intros d [].
  - destruct len as [|len]; [destruct RS as [Q _]; simpl in Q; discriminate|].
    apply rsat_cons in RS. destruct RS as [EA [[OO OD] RS]]. cbn [seq map take_all] in E. rewrite EA in E. cbn [take] in E.
    rewrite (holds_in _ _ _ _ _ H (or_introl eq_refl)) in E.
    destruct (take_all (hset h l None) (map (e_arr e a) (seq (S lo) len))) as [ss1 h1] eqn:T. inversion E; subst.
    cbn [app] in H. apply holds_free in H. destruct (IH _ _ _ _ _ _ RS H T) as [P [Q S1]]. split; [constructor; auto|]. split; auto.
    intros d I. simpl in I. apply in_app_or in I. destruct I; auto.
Qed.
Lemma pack_ok X s e vs G : vok X s e vs -> forall sh fs cs cs' ds L h r h1, csats X s e cs L -> holds G L h ->
  pack_shape sh fs vs cs = Some (cs', ds) -> pack_fields e h fs = (r, h1) ->
  exists L', csats X s e cs' L' /\ holds G L' h1 /\ is_fields sh r /\ forall d, In d (concat (map slot_deps (concat r))) -> exists x, In x ds /\ dsat X s x d.
Proof.
  intros VO. induction sh as [|f sh IH]; intros fs cs cs' ds L h r h1 C H P E.
  - destruct fs; [|discriminate]. inversion P; subst. inversion E; subst. exists L. repeat split; auto; try apply H; try constructor. intros d [].
  - destruct f as [k| |k|k|]; destruct fs as [|f0 fs]; try discriminate; destruct f0 as [x|a b|]; try discriminate; cbn [pack_shape] in P.
    + destruct (look (V x) vs) as [[| | |n]|] eqn:LK; try discriminate. destruct (pull n cs) as [[[k' dn] rr]|] eqn:PU; [|discriminate].
      destruct (keqb k k') eqn:KE; [|discriminate]. apply keqb_eq in KE. subst k'.
      destruct (pack_shape sh fs vs rr) as [[rr' ds']|] eqn:PS; [|discriminate]. inversion P; subst.
      destruct (pull_ok _ _ _ _ _ _ _ _ _ C PU) as [o [L1 [PM [[OO OD] C1]]]].
      assert (VX := VO _ _ (look_in _ _ _ LK)). simpl in VX.
      apply (holds_perm _ _ _ _ PM) in H. cbn [pack_fields] in E. rewrite VX in E. cbn [take_all take] in E.
      rewrite (holds_in _ _ _ _ _ H (or_introl eq_refl)) in E. apply holds_free in H.
      destruct (pack_fields e (hset h (s n) None) fs) as [r2 h2] eqn:PF. inversion E; subst.
      destruct (IH _ _ _ _ _ _ _ _ C1 H PS PF) as [L2 [C2 [H2 [I2 D2]]]]. exists L2. split; auto. split; auto. split; [constructor; auto|].
      intros d I. cbn [concat map app] in I. simpl in I. apply in_app_or in I. destruct I as [I|I].
      * destruct (OD d I) as [q [J K]]. exists q. split; auto. apply in_or_app; auto.
      * destruct (D2 d I) as [q [J K]]. exists q. split; auto. apply in_or_app; auto.
    + destruct (look (V x) vs) as [[| | |n]|] eqn:LK; try discriminate.
      assert (VX := VO _ _ (look_in _ _ _ LK)). simpl in VX. cbn [pack_fields] in E. rewrite VX in E. cbn [take_all take] in E.
      destruct (pack_fields e h fs) as [r2 h2] eqn:PF. inversion E; subst.
      destruct (IH _ _ _ _ _ _ _ _ C H P PF) as [L2 [C2 [H2 [I2 D2]]]]. exists L2. split; auto. split; auto. split; [constructor; auto|].
      intros d I. apply D2. exact I.
    + destruct fs as [|f1 fs]; try discriminate; destruct f1 as [y|a b|]; try (destruct (look (V x) vs) as [[]|]; discriminate).
      destruct (look (V x) vs) as [[| | |n]|] eqn:LK; try discriminate. destruct (look (V y) vs) as [[| | |m]|] eqn:LK2; try discriminate.
      destruct (Nat.eqb_spec n m) as [<-|]; [|discriminate].
      destruct (pull n cs) as [[[k' dn] rr]|] eqn:PU; [|discriminate].
      destruct (keqb k k') eqn:KE; [|discriminate]. apply keqb_eq in KE. subst k'.
      destruct (pack_shape sh fs vs rr) as [[rr' ds']|] eqn:PS; [|discriminate]. inversion P; subst.
      destruct (pull_ok _ _ _ _ _ _ _ _ _ C PU) as [o [L1 [PM [[OO OD] C1]]]].
      assert (VX := VO _ _ (look_in _ _ _ LK)). assert (VY := VO _ _ (look_in _ _ _ LK2)). simpl in VX, VY.
      apply (holds_perm _ _ _ _ PM) in H. cbn [pack_fields] in E. rewrite VX, VY in E. cbn [take_all take] in E.
      rewrite (holds_in _ _ _ _ _ H (or_introl eq_refl)) in E. apply holds_free in H.
      destruct (pack_fields e (hset (hset h (s n) None) (s n) None) fs) as [r2 h2] eqn:PF. inversion E; subst.
      assert (H' : holds G L1 (hset (hset h (s n) None) (s n) None)).
      { eapply holds_same; [|exact H]. intros l. unfold hset. destruct (l =? s n); auto. }
      destruct (IH _ _ _ _ _ _ _ _ C1 H' PS PF) as [L2 [C2 [H2 [I2 D2]]]]. exists L2. split; auto. split; auto. split.
      * replace (hset h (s n) None (s n)) with (@None obj) by (unfold hset; rewrite Nat.eqb_refl; auto). constructor; auto.
      * intros d I. cbn [concat map app] in I. replace (hset h (s n) None (s n)) with (@None obj) in I by (unfold hset; rewrite Nat.eqb_refl; auto).
        simpl in I. apply in_app_or in I. destruct I as [I|I].
        -- destruct (OD d I) as [q [J K]]. exists q. split; auto. apply in_or_app; auto.
        -- destruct (D2 d I) as [q [J K]]. exists q. split; auto. apply in_or_app; auto.
    + destruct (pull_arr a cs) as [[[[b' k'] dn] rr]|] eqn:PU; [|discriminate].
      destruct (String.eqb_spec b b') as [<-|]; [|discriminate]. destruct (keqb k k') eqn:KE; [|discriminate]. apply keqb_eq in KE. subst k'. cbn [andb] in P.
      destruct (pack_shape sh fs vs rr) as [[rr' ds']|] eqn:PS; [|discriminate]. inversion P; subst.
      destruct (pull_arr_ok _ _ _ _ _ _ _ _ _ _ C PU) as [La [L1 [PM [RS C1]]]].
      apply (holds_perm _ _ _ _ PM) in H. cbn [pack_fields] in E.
      destruct (take_all h (map (e_arr e a) (seq 0 (e_bnd e b)))) as [ss h0] eqn:T.
      destruct (take_arr _ _ _ _ _ _ _ _ _ _ _ _ _ _ RS H T) as [IS [H1 DD]].
      destruct (pack_fields e h0 fs) as [r2 h2] eqn:PF. inversion E; subst.
      destruct (IH _ _ _ _ _ _ _ _ C1 H1 PS PF) as [L2 [C2 [H2 [I2 D2]]]]. exists L2. split; auto. split; auto. split; [constructor; auto|].
      intros d I. cbn [concat] in I. rewrite map_app, concat_app in I. apply in_app_or in I. destruct I as [I|I].
      * destruct (DD d I) as [q [J K]]. exists q. split; auto. apply in_or_app; auto.
      * destruct (D2 d I) as [q [J K]]. exists q. split; auto. apply in_or_app; auto.
    + cbn [pack_fields take_all] in E. destruct (pack_fields e h fs) as [r2 h2] eqn:PF. inversion E; subst.
      destruct (IH _ _ _ _ _ _ _ _ C H P PF) as [L2 [C2 [H2 [I2 D2]]]]. exists L2. split; auto. split; auto. split; [constructor; auto|].
      intros d I. apply D2. exact I.
Qed.
Lemma pack_first_ok shs fs vs cs res : pack_first shs fs vs cs = Some res -> exists sh, In sh shs /\ pack_shape sh fs vs cs = Some res.
Proof.
  induction shs as [|sh shs IH]; simpl; [discriminate|]. destruct (pack_shape sh fs vs cs) as [r|] eqn:E.
  - intros Q. inversion Q; subst. exists sh. auto.
  - intros Q. destruct (IH Q) as [sh' [I P]]. exists sh'. auto.
Qed.

Lemma win_deps_ok X s k o : is_obj k o -> obj_ok X s k (win_deps k) o.
Proof.
  intros H. split; auto. intros l I. unfold win_deps. inversion H as [k' ds r sh A B C]; subst. simpl in I. destruct (is_win k) eqn:W.
  - exists DAny. split; [left; auto | exact Logic.I].
  - rewrite (C eq_refl) in I. destruct I.
Qed.
Lemma give_one l o h h' : give [Slot (VPtr (Some l)) (Some o)] h h' -> h l = None /\ heq h' (hset h l (Some o)).
Proof. intros H. inversion H as [|l' o' ss h0 h0' E G|]; subst. inversion G; subst. split; auto. intros x; auto. Qed.
Lemma give_none v h h' : give [Slot v None] h h' -> h' = h.
Proof. intros H. inversion H as [| |v' ss h0 h0' G]; subst. inversion G; subst. auto. Qed.
Lemma give_slots k G : forall ss h h' L, is_slots k ss -> give ss h h' -> holds G L h ->
  exists La, holds G (La ++ L) h' /\ length La = length ss /\ forall i l o, nth_error La i = Some (l, o) -> nth i (map slot_val ss) VUndef = VPtr (Some l) /\ is_obj k o.
Proof.
  induction ss as [|s ss IH]; intros h h' L IS GV H.
  - inversion GV; subst. exists []. split; [exact H|]. split; auto. intros i l o E. destruct i; discriminate.
  - inversion IS as [|k' l o ss' IO IS']; subst. inversion GV as [|l' o' ss' h0 h0' EN GV'|]; subst.
    assert (H1 := holds_alloc _ _ _ _ o H EN).
    destruct (IH _ _ _ IS' GV' H1) as [La [H2 [LE NE]]]. exists ((l, o) :: La). split; [|split; [simpl; auto|]].
    + eapply holds_perm; [|exact H2]. symmetry. apply (Permutation_middle La L).
    + intros [|i] l' o' E; simpl in *; [inversion E; subst; auto | apply NE; auto].
Qed.
Lemma fits_ok np : forall sh fs A A' r, unpack_shape np sh fs A = Some A' -> is_fields sh r -> fits fs r.
Proof.
  induction sh as [|f sh IH]; intros fs A A' r P IF.
  - destruct fs; [|discriminate]. inversion IF; subst. constructor.
  - destruct f as [k| |k|k|]; destruct fs as [|f0 fs]; try discriminate; destruct f0 as [x|a b|]; try discriminate; cbn [unpack_shape] in P.
    + destruct (alloc np (Some (V x)) k (win_deps k) A) as [A1|] eqn:AL; [|discriminate]. inversion IF; subst. constructor; [eauto | eapply IH; eauto].
    + destruct (put_var (V x) ANull A) as [A1|] eqn:AL; [|discriminate]. inversion IF; subst. constructor; [eauto | eapply IH; eauto].
    + destruct fs as [|f1 fs]; [discriminate|]. destruct f1 as [y|? ?|]; try discriminate.
      destruct (alloc np (Some (V x)) k (win_deps k) A) as [A1|] eqn:AL; [|discriminate].
      destruct (put_var (V y) (AOwn (nxt A)) A1) as [A2|] eqn:PV; [|discriminate]. inversion IF; subst. constructor; [eauto|]. constructor; [eauto | eapply IH; eauto].
    + destruct (has_arr a (chs A) || has_bnd b (chs A)); [discriminate|]. inversion IF; subst. constructor; [exact Logic.I | eapply IH; eauto].
    + destruct (has_arr a (chs A) || has_bnd b (chs A)); [discriminate|]. inversion IF; subst. constructor; [exact Logic.I | eapply IH; eauto].
    + inversion IF; subst. constructor; [auto | eapply IH; eauto].
Qed.
Lemma unpack_ok X F : forall sh fs A A' r s e h e1 h1, unpack_shape (cnp X) sh fs A = Some A' -> is_fields sh r -> R X F s A e h ->
  unpack_fields fs r e h e1 h1 -> exists s', R X F s' A' e1 h1.
Proof.
  induction sh as [|f sh IH]; intros fs A A' r s e h e1 h1 P IF RR U.
  - destruct fs; [|discriminate]. inversion P; subst. inversion IF; subst. inversion U; subst. eauto.
  - destruct f as [k| |k|k|]; destruct fs as [|f0 fs]; try discriminate; destruct f0 as [x|a b|]; try discriminate; cbn [unpack_shape] in P.
    + destruct (alloc (cnp X) (Some (V x)) k (win_deps k) A) as [A1|] eqn:AL; [|discriminate].
      inversion IF as [|k' l o sh' r' IO IF'| | | |]; subst. inversion U as [|x' s' fs' r0 e0 h0 h2 e' h' GV U'| |]; subst.
      apply give_one in GV. destruct GV as [EN HQ]. cbn [slot_val] in U'.
      destruct (R_alloc _ _ _ _ _ _ _ _ _ _ _ _ _ RR AL EN (win_deps_ok X s k o IO) HQ) as [R1 _].
      eapply IH; [exact P | exact IF' | exact R1 | exact U'].
    + destruct (put_var (V x) ANull A) as [A1|] eqn:AL; [|discriminate].
      inversion IF as [| |sh' r' IF'| | |]; subst. inversion U as [|x' s' fs' r0 e0 h0 h2 e' h' GV U'| |]; subst.
      apply give_none in GV. subst h2. cbn [slot_val] in U'.
      assert (R1 := R_put X F s A e h (V x) (VPtr None) ANull A1 RR eq_refl AL).
      eapply IH; [exact P | exact IF' | exact R1 | exact U'].
    + destruct fs as [|f1 fs]; [discriminate|]. destruct f1 as [y|? ?|]; try discriminate.
      destruct (alloc (cnp X) (Some (V x)) k (win_deps k) A) as [A1|] eqn:AL; [|discriminate].
      destruct (put_var (V y) (AOwn (nxt A)) A1) as [A2|] eqn:PV; [|discriminate].
      inversion IF as [| | |k' l o sh' r' IO IF'| |]; subst. inversion U as [|x' s' fs' r0 e0 h0 h2 e' h' GV U'| |]; subst.
      inversion U' as [|x' s' fs' r0 e0 h0 h3 e' h' GV' U''| |]; subst.
      apply give_one in GV. destruct GV as [EN HQ]. apply give_none in GV'. subst h3. cbn [slot_val] in U', U''.
      destruct (R_alloc _ _ _ _ _ _ _ _ _ _ _ _ _ RR AL EN (win_deps_ok X s k o IO) HQ) as [R1 [V1 _]].
      assert (R2 := R_put _ _ _ _ _ _ (V y) _ _ A2 R1 V1 PV).
      eapply IH; [exact P | exact IF' | exact R2 | exact U''].
    + destruct (has_arr a (chs A)) eqn:HA; [discriminate|]. destruct (has_bnd b (chs A)) eqn:HB; [discriminate|]. cbn [orb] in P.
      inversion IF as [| | | |k' ss sh' r' IS IF'|]; subst. inversion U as [| |a' b' ss' fs' r0 e0 h0 h2 e' h' GV U'|]; subst.
      destruct RR as [N [O [G [L [S1 [E [C H]]]]]]].
      destruct (give_slots _ _ _ _ _ _ IS GV H) as [La [H2 [LE NE]]].
      eapply IH; [exact P | exact IF' | | exact U']. split; [exact N|]. split.
      * intros p v I. cbn [vars] in I. apply in_vdel in I. destruct I as [I D]. specialize (O p v I). destruct p as [y|y]; simpl in *; [exact O|].
        rewrite String.eqb_sym, D. exact O.
      * exists G, (La ++ L). split; [exact S1|]. split; [exact E|]. split; [|exact H2]. cbn [chs]. constructor.
        -- cbn [csat]. split; [cbn [e_bnd set_arr]; rewrite String.eqb_refl, map_length; exact LE|].
           intros i l o EN. destruct (NE i l o EN) as [P1 P2]. cbn [e_arr set_arr]. rewrite String.eqb_refl. split; [exact P1 | apply win_deps_ok; auto].
        -- eapply csats_env; [|exact C]. split; intros z HZ; [intros i|]; cbn [e_arr e_bnd set_arr].
           ++ destruct (String.eqb_spec z a) as [->|]; [congruence | reflexivity].
           ++ destruct (String.eqb_spec z b) as [->|]; [congruence | reflexivity].
    + destruct (has_arr a (chs A)) eqn:HA; [discriminate|]. destruct (has_bnd b (chs A)) eqn:HB; [discriminate|]. cbn [orb] in P.
      inversion IF as [| | | | |sh' r' IF']; subst. inversion U as [| |a' b' ss' fs' r0 e0 h0 h2 e' h' GV U'|]; subst. inversion GV; subst.
      destruct RR as [N [O [G [L [S1 [E [C H]]]]]]].
      eapply IH; [exact P | exact IF' | | exact U']. split; [exact N|]. split.
      * intros p v I. cbn [vars] in I. apply in_vdel in I. destruct I as [I D]. specialize (O p v I). destruct p as [y|y]; simpl in *; [exact O|].
        rewrite String.eqb_sym, D. exact O.
      * exists G, L. split; [exact S1|]. split; [exact E|]. split; [|exact H]. cbn [chs].
        eapply csats_env; [|exact C]. split; intros z HZ; [intros i|]; cbn [e_arr e_bnd set_arr].
        ++ destruct (String.eqb_spec z a) as [->|]; [congruence | reflexivity].
        ++ destruct (String.eqb_spec z b) as [->|]; [congruence | reflexivity].
    + inversion IF as [| | | | |sh' r' IF']; subst. inversion U as [| | |fs' r0 e0 h0 e' h' U']; subst. eapply IH; [exact P | exact IF' | exact RR | exact U'].
Qed.
Lemma in_add_out o x l : In o (add_out x l) <-> o = x \/ In o l.
Proof. unfold add_out. destruct (in_dec out_eq_dec x l); simpl; split; intros H; intuition congruence. Qed.
Lemma in_merge o a b : In o (merge a b) <-> In o a \/ In o b.
Proof.
  induction a as [|x a IH]; simpl; [tauto|]. rewrite in_add_out, IH. intuition congruence.
Qed.
Lemma both_some a b l : both a b = Some l -> exists la lb, a = Some la /\ b = Some lb /\ l = merge la lb.
Proof. destruct a, b; simpl; try discriminate. intros E. inversion E; subst. eauto. Qed.
Lemma one_some A l : one A = Some l -> exists A', A = Some A' /\ l = [(TNorm, A')].
Proof. destruct A; simpl; try discriminate. intros E. inversion E; subst. eauto. Qed.
Lemma unpack_all_ok np fs A : forall shs l sh, unpack_all np shs fs A = Some l -> In sh shs -> exists A', unpack_shape np sh fs A = Some A' /\ In (TNorm, A') l.
Proof.
  induction shs as [|sh0 shs IH]; intros l sh E I; [destruct I|]. cbn [unpack_all] in E. apply both_some in E. destruct E as [la [lb [E1 [E2 ->]]]].
  destruct I as [->|I].
  - apply one_some in E1. destruct E1 as [A' [E1 ->]]. exists A'. split; auto. apply in_merge. left. left. auto.
  - destruct (IH _ _ E2 I) as [A' [P Q]]. exists A'. split; auto. apply in_merge. auto.
Qed.
