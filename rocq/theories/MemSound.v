(** Soundness of the checker of MemCheck.v: a function accepted for a contract satisfies it ([check_sound]). *)
From Coq Require Import String List Bool Arith Lia Permutation.
From Verif Require Import MemLang MemCheck.
Import ListNotations.
Local Open Scope nat_scope.

(** ** heaps *)
Definition pairs := list (loc * obj).
Definition sub (F G : heap) : Prop := forall l o, F l = Some o -> G l = Some o.
Definition heq (F G : heap) : Prop := forall l, F l = G l.
(** h consists of the objects of L and of G *)
Definition holds (G : heap) (L : pairs) (h : heap) : Prop :=
  NoDup (map fst L) /\ (forall l o, In (l, o) L -> h l = Some o) /\ (forall l, In l (map fst L) -> G l = None) /\ (forall l, ~ In l (map fst L) -> h l = G l).

Lemma in_fst (l : loc) (L : pairs) : In l (map fst L) <-> exists o, In (l, o) L.
Proof.
  rewrite in_map_iff. split; [intros [[l' o] [E I]]; simpl in E; subst; eauto | intros [o I]; exists (l, o); auto].
Qed.
Lemma holds_in G L h l o : holds G L h -> In (l, o) L -> h l = Some o.
Proof. intros [_ [A _]] I. auto. Qed.
Lemma holds_perm G L L' h : Permutation L L' -> holds G L h -> holds G L' h.
Proof.
  intros P [A [B [C D]]]. assert (Q := Permutation_map fst P). split; [|split; [|split]].
  - eapply Permutation_NoDup; eauto.
  - intros l o I. apply B. eapply Permutation_in; [symmetry; exact P | exact I].
  - intros l I. apply C. eapply Permutation_in; [symmetry; exact Q | exact I].
  - intros l I. apply D. intro J. apply I. eapply Permutation_in; eauto.
Qed.
Lemma holds_sub G L h : holds G L h -> sub G h.
Proof.
  intros [A [B [C D]]] l o E. destruct (in_dec Nat.eq_dec l (map fst L)) as [I|I]; [rewrite (C l I) in E; discriminate | rewrite (D l I); auto].
Qed.
Lemma holds_nil G : holds G [] G.
Proof. repeat split; simpl; try constructor; tauto. Qed.
Lemma holds_heq G G' L h : heq G G' -> holds G L h -> holds G' L h.
Proof. intros E [A [B [C D]]]. split; [|split; [|split]]; auto; intros l I; rewrite <- E; auto. Qed.
Lemma holds_same G L h h' : heq h h' -> holds G L h -> holds G L h'.
Proof. intros E [A [B [C D]]]. split; [|split; [|split]]; auto; [intros l o I | intros l I]; rewrite <- E; auto. Qed.
Lemma holds_alloc G L h l o : holds G L h -> h l = None -> holds G ((l, o) :: L) (hset h l (Some o)).
Proof.
  intros [A [B [C D]]] E. assert (N : ~ In l (map fst L)) by (intro I; apply in_fst in I; destruct I as [o' I]; rewrite (B _ _ I) in E; discriminate).
  unfold hset. split; [|split; [|split]].
  - simpl. constructor; auto.
  - intros l' o' [I|I]; [inversion I; subst; rewrite Nat.eqb_refl; auto|].
    destruct (Nat.eqb_spec l' l) as [->|]; [exfalso; apply N; apply in_fst; eauto | auto].
  - intros l' [I|I]; simpl in I; [subst l'; rewrite <- (D l N); auto | auto].
  - intros l' I. simpl in I. destruct (Nat.eqb_spec l' l) as [->|]; [tauto | apply D; tauto].
Qed.
Lemma holds_free G L h l o : holds G ((l, o) :: L) h -> holds G L (hset h l None).
Proof.
  intros [A [B [C D]]]. simpl in A. inversion A as [|x xs N A']; subst. unfold hset. split; [|split; [|split]]; auto.
  - intros l' o' I. destruct (Nat.eqb_spec l' l) as [->|]; [exfalso; apply N; apply in_fst; eauto | apply B; right; auto].
  - intros l' I. apply C. right; auto.
  - intros l' I. destruct (Nat.eqb_spec l' l) as [->|Q]; [symmetry; apply C; left; auto | apply D; simpl; intros [J|J]; [congruence | tauto]].
Qed.
Lemma holds_upd G L h l o o' : holds G ((l, o) :: L) h -> holds G ((l, o') :: L) (hset h l (Some o')).
Proof.
  intros [A [B [C D]]]. simpl in A. inversion A as [|x xs N A']; subst. unfold hset. split; [|split; [|split]]; auto.
  - intros l' o'' [I|I]; [inversion I; subst; rewrite Nat.eqb_refl; auto|].
    destruct (Nat.eqb_spec l' l) as [->|]; [exfalso; apply N; apply in_fst; eauto | apply B; right; auto].
  - intros l' I. simpl in I. destruct (Nat.eqb_spec l' l) as [->|Q]; [tauto | apply D; simpl; tauto].
Qed.
Lemma holds_set G L h l o : holds G L h -> G l = None -> ~ In l (map fst L) -> holds G ((l, o) :: L) (hset h l (Some o)).
Proof. intros H E N. apply holds_alloc; auto. destruct H as [_ [_ [_ D]]]. rewrite (D l N). auto. Qed.
Definition without (h : heap) (L : pairs) : heap := fun l => if in_dec Nat.eq_dec l (map fst L) then None else h l.
Lemma nodup_app {T} (a b : list T) : NoDup (a ++ b) <-> NoDup a /\ NoDup b /\ forall x, In x a -> ~ In x b.
Proof.
  induction a as [|x a IH]; simpl.
  - split; [intros; repeat split; auto; constructor | tauto].
  - split.
    + intros H. inversion H as [|y ys N H']; subst. apply IH in H'. destruct H' as [A [B C]]. rewrite in_app_iff in N. repeat split; auto.
      * constructor; tauto.
      * intros y [->|I]; [tauto | auto].
    + intros [A [B C]]. inversion A as [|y ys N A']; subst. constructor; [rewrite in_app_iff; intros [I|I]; [tauto | apply (C x); auto] | apply IH; auto].
Qed.
Lemma holds_without h L : NoDup (map fst L) -> (forall l o, In (l, o) L -> h l = Some o) -> holds (without h L) L h.
Proof.
  intros N B. unfold without. split; [|split; [|split]]; auto; intros l I; destruct (in_dec Nat.eq_dec l (map fst L)); tauto.
Qed.
Lemma holds_frame G L1 L2 h : holds G (L1 ++ L2) h -> exists G', holds G L2 G' /\ holds G' L1 h.
Proof.
  intros [A [B [C D]]]. rewrite map_app in *. apply nodup_app in A. destruct A as [A1 [A2 A3]]. exists (without h L1). split.
  - unfold without. split; [|split; [|split]]; auto.
    + intros l o I. destruct (in_dec Nat.eq_dec l (map fst L1)) as [J|J]; [exfalso; apply (A3 l J); apply in_fst; eauto | apply B; apply in_or_app; auto].
    + intros l I. apply C. apply in_or_app; auto.
    + intros l I. destruct (in_dec Nat.eq_dec l (map fst L1)) as [J|J]; [symmetry; apply C; apply in_or_app; auto | apply D; rewrite in_app_iff; tauto].
  - apply holds_without; auto. intros l o I. apply B. apply in_or_app; auto.
Qed.
Lemma holds_unframe G G' L1 L2 h : holds G L2 G' -> holds G' L1 h -> holds G (L1 ++ L2) h.
Proof.
  intros [A [B [C D]]] [A' [B' [C' D']]]. split; [|split; [|split]]; rewrite ?map_app in *.
  - apply nodup_app. repeat split; auto. intros l I J. apply in_fst in J. destruct J as [o J]. specialize (B l o J). rewrite (C' l I) in B. discriminate.
  - intros l o I. apply in_app_or in I. destruct I as [I|I]; [auto|].
    destruct (in_dec Nat.eq_dec l (map fst L1)) as [J|J]; [specialize (B l o I); rewrite (C' l J) in B; discriminate | rewrite (D' l J); auto].
  - intros l I. apply in_app_or in I. destruct I as [I|I]; [|auto].
    destruct (in_dec Nat.eq_dec l (map fst L2)) as [J|J]; [auto | rewrite <- (D l J); auto].
  - intros l I. rewrite in_app_iff in I. rewrite D', D; tauto.
Qed.
Lemma holds_grow G L h h' : holds G L h -> sub h h' -> exists G', sub G G' /\ holds G' L h'.
Proof.
  intros [A [B [C D]]] S1. exists (without h' L). split.
  - intros l o E. unfold without. destruct (in_dec Nat.eq_dec l (map fst L)) as [I|I]; [rewrite (C l I) in E; discriminate | apply S1; rewrite (D l I); auto].
  - apply holds_without; auto.
Qed.

(** ** the meaning of the abstract states *)
(** the arguments: where they are, what the ones that are only used point into, which ones are only used, how many *)
Record ctx := Ctx { cb : nat -> loc; cr : nat -> list loc; cbor : nat -> bool; cnp : nat }.
Definition ctx_ok (X : ctx) (F : heap) : Prop :=
  (forall i, cbor X i = true -> exists o, F (cb X i) = Some o /\ (forall d, In d (odeps o) -> F d <> None) /\ cr X i = roots F (cb X i)) /\
  (forall i l, In l (cr X i) -> F l <> None).
Lemma sub_some F G l : sub F G -> F l <> None -> G l <> None.
Proof. intros S1 E. destruct (F l) as [o|] eqn:Q; [rewrite (S1 l o Q); congruence | congruence]. Qed.
Lemma roots_sub F G l o : sub F G -> F l = Some o -> roots G l = roots F l.
Proof. intros S1 E. unfold roots. rewrite E, (S1 l o E). auto. Qed.
Lemma ctx_sub X F G : sub F G -> ctx_ok X F -> ctx_ok X G.
Proof.
  intros S1 [A B]. split.
  - intros i E. destruct (A i E) as [o [P [Q R]]]. exists o. repeat split; auto; [intros d I; eapply sub_some; eauto | rewrite R; symmetry; eapply roots_sub; eauto].
  - intros i l I. eapply sub_some; eauto.
Qed.
Definition asg := nat -> loc.
Definition upd (s : asg) (n : nat) (l : loc) : asg := fun m => if m =? n then l else s m.
Definition vsat (X : ctx) (s : asg) (v : val) (a : aval) : Prop :=
  match a with
  | ANull => v = VPtr None
  | AFlg b => v = VFlag b
  | ABor i => v = VPtr (Some (cb X i)) /\ cbor X i = true
  | AOwn n => v = VPtr (Some (s n))
  end.
Definition dsat (X : ctx) (s : asg) (d : dep) (l : loc) : Prop :=
  match d with DBor i => In l (cr X i) | DSite n => l = s n | DAny => True end.
Definition obj_ok (X : ctx) (s : asg) (k : kind) (ds : list dep) (o : obj) : Prop :=
  is_obj k o /\ forall l, In l (odeps o) -> exists d, In d ds /\ dsat X s d l.
Definition rsat (X : ctx) (s : asg) (e : env) (a : string) (k : kind) (ds : list dep) (lo len : nat) (L : pairs) : Prop :=
  length L = len /\ forall i l o, nth_error L i = Some (l, o) -> e_arr e a (lo + i) = VPtr (Some l) /\ obj_ok X s k ds o.
Definition csat (X : ctx) (s : asg) (e : env) (c : chunk) (L : pairs) : Prop :=
  match c with
  | CObj n k ds => exists o, L = [(s n, o)] /\ obj_ok X s k ds o
  | CArr a b k ds => rsat X s e a k ds 0 (e_bnd e b) L
  | CRng a lo len k ds => rsat X s e a k ds lo len L
  end.
Inductive csats (X : ctx) (s : asg) (e : env) : list chunk -> pairs -> Prop :=
| cs_nil : csats X s e [] []
| cs_cons c cs L1 L2 : csat X s e c L1 -> csats X s e cs L2 -> csats X s e (c :: cs) (L1 ++ L2).
Definition vok (X : ctx) (s : asg) (e : env) (vs : list (place * aval)) : Prop := forall p a, In (p, a) vs -> vsat X s (get e p) a.
Definition R (X : ctx) (F : heap) (s : asg) (A : ast) (e : env) (h : heap) : Prop :=
  (forall n, n < cnp X -> s n = cb X n) /\ vok X s e (vars A) /\
  exists G L, sub F G /\ (leak A = false -> heq G F) /\ csats X s e (chs A) L /\ holds G L h.
Definition osat (X : ctx) (s : asg) (o : outcome) (t : aout) : Prop :=
  match t, o with
  | TNorm, ONorm | TBrk, OBrk | TCont, OCont | TRet None, ORet VUndef => True
  | TRet (Some a), ORet v => vsat X s v a
  | _, _ => False
  end.
(** the outcome is one of those foreseen *)
Definition foreseen (X : ctx) (F : heap) (l : outs) (o : outcome) (e : env) (h : heap) : Prop :=
  o = ODie \/ exists t A s, In (t, A) l /\ osat X s o t /\ R X F s A e h.

Lemma csats_app X s e c1 c2 L1 L2 : csats X s e c1 L1 -> csats X s e c2 L2 -> csats X s e (c1 ++ c2) (L1 ++ L2).
Proof. intros H K. induction H; simpl; auto. rewrite <- app_assoc. constructor; auto. Qed.
Lemma csats_split X s e c1 : forall c2 L, csats X s e (c1 ++ c2) L -> exists L1 L2, L = L1 ++ L2 /\ csats X s e c1 L1 /\ csats X s e c2 L2.
Proof.
  induction c1 as [|c c1 IH]; simpl; intros c2 L H.
  - exists [], L. repeat split; auto. constructor.
  - inversion H as [|c' cs' La Lb A B]; subst. destruct (IH _ _ B) as [L1 [L2 [-> [P Q]]]]. exists (La ++ L1), L2. rewrite app_assoc. repeat split; auto. constructor; auto.
Qed.
Lemma csats_one X s e c L : csat X s e c L -> csats X s e [c] L.
Proof. intros H. rewrite <- (app_nil_r L). constructor; auto. constructor. Qed.
Lemma csats_one_inv X s e c L : csats X s e [c] L -> csat X s e c L.
Proof. intros H. inversion H as [|c' cs' La Lb A B]; subst. inversion B; subst. rewrite app_nil_r. auto. Qed.

Lemma pull_ok X s e n : forall cs L k ds r, csats X s e cs L -> pull n cs = Some (k, ds, r) ->
  exists o L', Permutation L ((s n, o) :: L') /\ obj_ok X s k ds o /\ csats X s e r L'.
Proof.
  induction cs as [|c cs IH]; intros L k ds r H E; [discriminate|]. inversion H as [|c' cs' La Lb A B]; subst. simpl in E.
  assert (K : forall r', pull n cs = Some (k, ds, r') -> r = c :: r' -> exists o L', Permutation (La ++ Lb) ((s n, o) :: L') /\ obj_ok X s k ds o /\ csats X s e r L').
  { intros r' E' ->. destruct (IH _ _ _ _ B E') as [o [L' [P [Q S1]]]]. exists o, (La ++ L'). split; [|split; [exact Q|]].
    - transitivity (La ++ (s n, o) :: L'); [apply Permutation_app_head; exact P | symmetry; apply Permutation_middle].
    - constructor; auto. }
  destruct c as [m k0 ds0|a b k0 ds0|a lo len k0 ds0].
  - destruct (Nat.eqb_spec n m) as [->|Q].
    + inversion E; subst. destruct A as [o [-> O]]. exists o, Lb. repeat split; auto; apply O.
    + destruct (pull n cs) as [[[k' ds'] r']|] eqn:E'; [|discriminate]. inversion E; subst. apply (K r'); auto.
  - destruct (pull n cs) as [[[k' ds'] r']|] eqn:E'; [|discriminate]. inversion E; subst. apply (K r'); auto.
  - destruct (pull n cs) as [[[k' ds'] r']|] eqn:E'; [|discriminate]. inversion E; subst. apply (K r'); auto.
Qed.
Lemma pull_arr_ok X s e a : forall cs L b k ds r, csats X s e cs L -> pull_arr a cs = Some (b, k, ds, r) ->
  exists La L', Permutation L (La ++ L') /\ rsat X s e a k ds 0 (e_bnd e b) La /\ csats X s e r L'.
Proof.
  induction cs as [|c cs IH]; intros L b k ds r H E; [discriminate|]. inversion H as [|c' cs' Lc Lb A B]; subst. simpl in E.
  assert (K : forall r', pull_arr a cs = Some (b, k, ds, r') -> r = c :: r' -> exists La L', Permutation (Lc ++ Lb) (La ++ L') /\ rsat X s e a k ds 0 (e_bnd e b) La /\ csats X s e r L').
  { intros r' E' ->. destruct (IH _ _ _ _ _ B E') as [La [L' [P [Q S1]]]]. exists La, (Lc ++ L'). split; [|split; [exact Q|]].
    - transitivity (Lc ++ La ++ L'); [apply Permutation_app_head; exact P | apply Permutation_app_swap_app].
    - constructor; auto. }
  destruct c as [m k0 ds0|a' b0 k0 ds0|a' lo len k0 ds0].
  - destruct (pull_arr a cs) as [[[[b' k'] ds'] r']|] eqn:E'; [|discriminate]. inversion E; subst. apply (K r'); auto.
  - destruct (String.eqb_spec a a') as [->|Q].
    + inversion E; subst. exists Lc, Lb. split; [|split]; auto.
    + destruct (pull_arr a cs) as [[[[b' k'] ds'] r']|] eqn:E'; [|discriminate]. inversion E; subst. apply (K r'); auto.
  - destruct (pull_arr a cs) as [[[[b' k'] ds'] r']|] eqn:E'; [|discriminate]. inversion E; subst. apply (K r'); auto.
Qed.
Lemma has_site_ok X s e n : forall cs L, csats X s e cs L -> has_site n cs = true -> exists o, In (s n, o) L.
Proof.
  induction cs as [|c cs IH]; intros L H E; [discriminate|]. inversion H as [|c' cs' La Lb A B]; subst. simpl in E. apply orb_prop in E.
  destruct E as [E|E].
  - destruct c; try discriminate. apply Nat.eqb_eq in E. subst. destruct A as [o [-> _]]. exists o. left; auto.
  - destruct (IH _ B E) as [o I]. exists o. apply in_or_app; auto.
Qed.
Lemma look_in p vs a : look p vs = Some a -> In (p, a) vs.
Proof.
  induction vs as [|[q b] vs IH]; simpl; [discriminate|]. destruct (place_eqb p q) eqn:E.
  - intros H. inversion H; subst. left. f_equal. destruct p, q; simpl in E; try discriminate; apply String.eqb_eq in E; congruence.
  - right; auto.
Qed.
Lemma place_eqb_refl p : place_eqb p p = true.
Proof. destruct p; simpl; apply String.eqb_refl. Qed.

(** changing the assignment at a number that does not occur *)
Lemma upd_same s n l : upd s n l n = l. Proof. unfold upd. rewrite Nat.eqb_refl. auto. Qed.
Lemma upd_other s n l m : m <> n -> upd s n l m = s m.
Proof. unfold upd. intros. destruct (Nat.eqb_spec m n); congruence. Qed.
Lemma dsat_upd X s n l d x : dep_fresh n d = true -> dsat X s d x -> dsat X (upd s n l) d x.
Proof. destruct d; simpl; auto. intros F E. rewrite upd_other; auto. intros ->. rewrite Nat.eqb_refl in F. discriminate. Qed.
Lemma obj_ok_upd X s n l k ds o : forallb (dep_fresh n) ds = true -> obj_ok X s k ds o -> obj_ok X (upd s n l) k ds o.
Proof.
  intros F [A B]. split; auto. intros x I. destruct (B x I) as [d [J K]]. exists d. split; auto. apply dsat_upd; auto. rewrite forallb_forall in F. auto.
Qed.
Lemma csats_upd X s e n l cs L : forallb (chunk_fresh n) cs = true -> csats X s e cs L -> csats X (upd s n l) e cs L.
Proof.
  intros F H. induction H as [|c cs La Lb A B IH]; [constructor|]. simpl in F. apply andb_prop in F. destruct F as [F1 F2]. constructor; auto.
  destruct c as [m k ds|a b k ds|a lo len k ds]; simpl in *.
  - apply andb_prop in F1. destruct F1 as [F0 F1]. destruct A as [o [-> O]]. exists o. split; [|apply obj_ok_upd; auto].
    rewrite upd_other; auto. intros ->. rewrite Nat.eqb_refl in F0. discriminate.
  - destruct A as [A1 A2]. split; auto. intros i x o E. destruct (A2 i x o E). split; auto. apply obj_ok_upd; auto.
  - destruct A as [A1 A2]. split; auto. intros i x o E. destruct (A2 i x o E). split; auto. apply obj_ok_upd; auto.
Qed.
Lemma vsat_upd X s n l v a : val_fresh n a = true -> vsat X s v a -> vsat X (upd s n l) v a.
Proof. destruct a; simpl; auto. intros F ->. rewrite upd_other; auto. intros ->. rewrite Nat.eqb_refl in F. discriminate. Qed.
Lemma vok_upd X s e n l vs : forallb (fun q => val_fresh n (snd q)) vs = true -> vok X s e vs -> vok X (upd s n l) e vs.
Proof. intros F H p a I. apply vsat_upd; [rewrite forallb_forall in F; apply (F (p, a) I) | apply H; auto]. Qed.

(** changing the environment where no array of the state is *)
Definition env_agrees (cs : list chunk) (e e' : env) : Prop :=
  (forall a, has_arr a cs = true -> forall i, e_arr e' a i = e_arr e a i) /\ (forall b, has_bnd b cs = true -> e_bnd e' b = e_bnd e b).
Lemma env_agrees_tl c cs e e' : env_agrees (c :: cs) e e' -> env_agrees cs e e'.
Proof. intros [A B]. split; intros x H; [apply A | apply B]; simpl; rewrite H; apply orb_true_r. Qed.
Lemma rsat_env X s e e' a k ds lo len L : (forall i, i < len -> e_arr e' a (lo + i) = e_arr e a (lo + i)) -> rsat X s e a k ds lo len L -> rsat X s e' a k ds lo len L.
Proof.
  intros H [A B]. split; auto. intros i l o E. rewrite H; [auto|]. rewrite <- A. apply nth_error_Some. congruence.
Qed.
Lemma csats_env X s e e' cs L : env_agrees cs e e' -> csats X s e cs L -> csats X s e' cs L.
Proof.
  intros G H. induction H as [|c cs La Lb A B IH]; [constructor|]. constructor; [|apply IH; eapply env_agrees_tl; eauto].
  destruct G as [G1 G2]. destruct c as [m k ds|a b k ds|a lo len k ds]; simpl in *; auto.
  - rewrite (G2 b); [|rewrite String.eqb_refl; auto]. eapply rsat_env; [|exact A]. intros i _. apply G1. rewrite String.eqb_refl; auto.
  - eapply rsat_env; [|exact A]. intros i _. apply G1. rewrite String.eqb_refl; auto.
Qed.
Lemma put_agrees p v cs e : putable p cs = true -> env_agrees cs e (put e p v).
Proof.
  intros H. destruct p as [x|a]; simpl in H; (split; [intros a' H' i | intros b H'; reflexivity]); simpl; auto.
  destruct (String.eqb_spec a' a) as [->|]; simpl; auto. rewrite H' in H. discriminate.
Qed.
Lemma get_put_same e p v : get (put e p v) p = v.
Proof. destruct p as [x|a]; simpl; rewrite String.eqb_refl; auto. rewrite Nat.eqb_refl. auto. Qed.
Lemma get_put_other e p q v : place_eqb p q = false -> get (put e p v) q = get e q.
Proof.
  destruct p as [x|a], q as [y|b]; simpl; auto; intros H.
  - rewrite String.eqb_sym, H. auto.
  - rewrite String.eqb_sym, H. auto.
Qed.
Lemma in_vdel p q vs : In q (vdel p vs) <-> In q vs /\ place_eqb p (fst q) = false.
Proof. unfold vdel. rewrite filter_In. split; intros [A B]; split; auto; destruct (place_eqb p (fst q)); auto; discriminate. Qed.
Lemma vok_put X s e p v a vs : vsat X s v a -> vok X s e vs -> vok X s (put e p v) (vput p a vs).
Proof.
  intros H K q b [I|I].
  - inversion I; subst. rewrite get_put_same. auto.
  - apply in_vdel in I. destruct I as [I E]. simpl in E. rewrite get_put_other; auto.
Qed.
Lemma R_put X F s A e h p v a A' : R X F s A e h -> vsat X s v a -> put_var p a A = Some A' -> R X F s A' (put e p v) h.
Proof.
  intros [N [O [G [L [S1 [E [C H]]]]]]] S2 P. unfold put_var in P. destruct (putable p (chs A)) eqn:Q; [|discriminate]. inversion P; subst A'. clear P.
  split; auto. split; [apply vok_put; auto|]. exists G, L. split; [auto|split; [auto|split; [|auto]]]. simpl. eapply csats_env; [|exact C]. apply put_agrees; auto.
Qed.
(** a new object *)
Lemma R_alloc X F s A e h p k ds A' l o h' : R X F s A e h -> alloc (cnp X) p k ds A = Some A' -> h l = None -> obj_ok X s k ds o -> heq h' (hset h l (Some o)) ->
  R X F (upd s (nxt A) l) A' (match p with Some p => put e p (VPtr (Some l)) | None => e end) h' /\ vsat X (upd s (nxt A) l) (VPtr (Some l)) (AOwn (nxt A)) /\
  (forall v a, (exists q, In (q, a) (vars A)) -> vsat X s v a -> vsat X (upd s (nxt A) l) v a).
Proof.
  intros [N [O [G [L [S1 [E [C H]]]]]]] P HN OK HQ. unfold alloc in P. destruct (fresh (cnp X) (nxt A) (vars A) (chs A)) eqn:FR; [|discriminate].
  unfold fresh in FR. apply andb_prop in FR. destruct FR as [FR F3]. apply andb_prop in FR. destruct FR as [F1 F2]. apply Nat.leb_le in F1.
  destruct (forallb (dep_fresh (nxt A)) ds) eqn:F4; [|discriminate]. simpl in P.
  assert (PP : A' = Ast (match p with Some p => vput p (AOwn (nxt A)) (vars A) | None => vars A end) (CObj (nxt A) k ds :: chs A) (S (nxt A)) (leak A) /\ match p with Some p => putable p (chs A) = true | None => True end).
  { destruct p as [p|]; [destruct (putable p (chs A)) eqn:Q; [|discriminate]|]; inversion P; auto. }
  destruct PP as [-> PU]. clear P. split; [|split].
  - split; [intros n Hn; rewrite upd_other; [auto | lia]|]. split.
    + simpl. destruct p as [p|]; [apply vok_put; [simpl; rewrite upd_same; auto | apply vok_upd; auto] | apply vok_upd; auto].
    + exists G, ((l, o) :: L). split; [auto|split; [auto|split]].
      * simpl. change ((l, o) :: L) with ([(l, o)] ++ L). constructor; [exists o; rewrite upd_same; split; auto; apply obj_ok_upd; auto|].
        apply csats_upd; auto. destruct p as [p|]; auto. eapply csats_env; [|exact C]. apply put_agrees; auto.
      * eapply holds_same; [|apply holds_alloc; eauto]. intros l'. symmetry. apply HQ.
  - simpl. rewrite upd_same. auto.
  - intros v a [q I] V1. apply vsat_upd; auto. rewrite forallb_forall in F2. apply (F2 _ I).
Qed.
