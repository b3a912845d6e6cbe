(** Executions of the language of MemLang.v, computed: an interpreter that is told which branches to take, and allocates at
    increasing addresses.  It serves to show that certain executions exist ([run_exec]); it says nothing about the others. *)
From Coq Require Import String List Bool Arith Lia.
From Verif Require Import MemLang.
Import ListNotations.
Local Open Scope nat_scope.

Definition isSome {A} (x : option A) : bool := match x with Some _ => true | None => false end.
Definition usableb (h : heap) (l : loc) : bool := match h l with Some (Obj _ ds _) => forallb (fun d => isSome (h d)) ds | None => false end.
Definition usable_valb (h : heap) (v : val) : bool := match v with VPtr (Some l) => usableb h l | _ => false end.
Definition kind_eq (a b : kind) : {a = b} + {a <> b}. Proof. decide equality. Defined.
Definition releasesb (k k' : kind) : bool := match kind_eq k k' with left _ => true | right _ => match k, k' with KMzd, KMzdWin => true | _, _ => false end end.
Definition is_undef (v : val) : bool := match v with VUndef => true | _ => false end.
Definition opt_eqb (a b : option loc) : bool := match a, b with Some x, Some y => x =? y | None, None => true | _, _ => false end.
Fixpoint giveb (ss : list slot) (h : heap) : option heap :=
  match ss with
  | [] => Some h
  | Slot (VPtr (Some l)) (Some o) :: ss => match h l with None => giveb ss (hset h l (Some o)) | Some _ => None end
  | Slot _ None :: ss => giveb ss h
  | _ => None
  end.
Fixpoint unpackb (fs : list field) (r : list (list slot)) (e : env) (h : heap) : option (env * heap) :=
  match fs, r with
  | [], [] => Some (e, h)
  | FV x :: fs, [s] :: r => match giveb [s] h with Some h1 => unpackb fs r (set_var e x (slot_val s)) h1 | None => None end
  | FA a b :: fs, ss :: r => match giveb ss h with Some h1 => unpackb fs r (set_arr e a b (map slot_val ss)) h1 | None => None end
  | FE :: fs, [] :: r => unpackb fs r e h
  | _, _ => None
  end.
(** the environment of a function called: every array has B entries *)
Definition start (B : nat) (ps : list string) (vs : list val) : env := Env (bind_params ps vs) (fun _ _ => VUndef) (fun _ => B) 0.
Record st := St { s_env : env; s_heap : heap; s_todo : list bool; s_next : loc }.
Definition with_env (s : st) (e : env) : st := St e (s_heap s) (s_todo s) (s_next s).
Definition with_heap (s : st) (h : heap) : st := St (s_env s) h (s_todo s) (s_next s).

Section Run.
Variable prog : string -> option fn.
Variable B : nat.
Definition alloc (s : st) (p : place) (o : obj) : option (outcome * st) :=
  match s_heap s (s_next s) with
  | None => Some (ONorm, St (put (s_env s) p (VPtr (Some (s_next s)))) (hset (s_heap s) (s_next s) (Some o)) (s_todo s) (S (s_next s)))
  | Some _ => None
  end.
Fixpoint run (fuel : nat) (c : stmt) (s : st) : option (outcome * st) :=
  match fuel with
  | O => None
  | S f =>
    let e := s_env s in let h := s_heap s in
    match c with
    | Skip => Some (ONorm, s)
    | Seq c1 c2 => match run f c1 s with Some (ONorm, s1) => run f c2 s1 | r => r end
    | Malloc p k => alloc s p (Obj k [] [])
    | Window p k q => match get e q with VPtr (Some l0) => if usableb h l0 then alloc s p (Obj k (roots h l0) []) else Some (OErr, s) | _ => Some (OErr, s) end
    | Free p k => match get e p with
                  | VPtr (Some l) => match h l with
                                     | Some (Obj k' ds []) => if releasesb k k' then Some (ONorm, with_heap s (hset h l None)) else Some (OErr, s)
                                     | _ => Some (OErr, s) end
                  | _ => Some (OErr, s) end
    | Use ps => if forallb (fun p => usable_valb h (get e p)) ps then Some (ONorm, s) else Some (OErr, s)
    | Set_ p q => if is_undef (get e q) then Some (OErr, s) else Some (ONorm, with_env s (put e p (get e q)))
    | SetNull p => Some (ONorm, with_env s (put e p (VPtr None)))
    | SetFlag x b => Some (ONorm, with_env s (set_var e x (VFlag b)))
    | If c1 c2 => match s_todo s with b :: t => run f (if b then c1 else c2) (St e h t (s_next s)) | [] => None end
    | IfNull p c1 c2 => match get e p with VPtr None => run f c1 s | VPtr (Some _) => run f c2 s | _ => Some (OErr, s) end
    | IfFlag x c1 c2 => match e_var e x with VFlag b => run f (if b then c1 else c2) s | _ => Some (OErr, s) end
    | IfSame p q c1 c2 => match get e p, get e q with VPtr a, VPtr b => run f (if opt_eqb a b then c1 else c2) s | _, _ => Some (OErr, s) end
    | Loop c1 =>
        match s_todo s with
        | true :: t => match run f c1 (St e h t (s_next s)) with
                       | Some (ONorm, s1) | Some (OCont, s1) => run f (Loop c1) s1
                       | Some (OBrk, s1) => Some (ONorm, s1)
                       | r => r end
        | false :: t => Some (ONorm, St e h t (s_next s))
        | [] => None end
    | For b c1 => match run f (ForFrom 0 b c1) s with Some (o, s1) => Some (o, with_env s1 (set_idx (s_env s1) (e_idx e))) | None => None end
    | ForFrom i b c1 =>
        if e_bnd e b <=? i then Some (ONorm, s)
        else match run f c1 (with_env s (set_idx e i)) with Some (ONorm, s1) => run f (ForFrom (S i) b c1) s1 | r => r end
    | Break => Some (OBrk, s)
    | Continue => Some (OCont, s)
    | Pack x k fs =>
        match e_var e x with
        | VPtr (Some l) => match h l with
            | Some (Obj KRaw ds []) => let '(r, h1) := pack_fields e h fs in
                Some (ONorm, with_heap s (hset h1 l (Some (Obj k (ds ++ concat (map slot_deps (concat r))) r))))
            | _ => Some (OErr, s) end
        | _ => Some (OErr, s) end
    | Unpack x fs =>
        match e_var e x with
        | VPtr (Some l) => match h l with
            | Some (Obj k ds r) => match unpackb fs r e (hset h l (Some (Obj KRaw [] []))) with
                                   | Some (e1, h1) => Some (ONorm, with_heap (with_env s e1) h1) | None => None end
            | _ => Some (OErr, s) end
        | _ => Some (OErr, s) end
    | Call dst g args =>
        let vs := map (arg_val e) args in
        match prog g with
        | Some b =>
            if existsb is_undef vs then Some (OErr, s) else
            if length vs =? length (fn_params b) then
              match run f (fn_body b) (with_env s (start B (fn_params b) vs)) with
              | Some (o, s1) =>
                  Some (match o, dst with
                        | ONorm, None | ORet _, None => ONorm
                        | ORet v, Some _ => match v with VUndef => OErr | _ => ONorm end
                        | ODie, _ => ODie
                        | _, _ => OErr
                        end, with_env s1 (match o, dst with ORet v, Some p => put e p v | _, _ => e end))
              | None => None end
            else Some (OErr, s)
        | None => Some (OErr, s) end
    | Ret (Some p) => if is_undef (get e p) then Some (OErr, s) else Some (ORet (get e p), s)
    | Ret None => Some (ORet VUndef, s)
    | RetNull => Some (ORet (VPtr None), s)
    | Abort => Some (ODie, s)
    end
  end.

Lemma isSome_ok {A} (x : option A) : isSome x = true <-> x <> None.
Proof. destruct x; simpl; split; congruence. Qed.
Lemma usableb_ok h l : usableb h l = true <-> usable h l.
Proof.
  unfold usableb, usable. destruct (h l) as [[k ds r]|] eqn:E.
  - rewrite forallb_forall. split.
    + intros K. exists (Obj k ds r). split; auto. intros d I. apply isSome_ok. apply K. exact I.
    + intros [o [EO K]] d I. inversion EO; subst. apply isSome_ok. apply K. exact I.
  - split; [discriminate | intros [o [EO _]]; discriminate].
Qed.
Lemma usable_valb_ok h v : usable_valb h v = true <-> usable_val h v.
Proof.
  unfold usable_valb, usable_val. destruct v as [|[l|]|b]; try (split; [discriminate | intros [l [E _]]; discriminate]).
  rewrite usableb_ok. split; [eauto | intros [l' [E K]]; inversion E; subst; auto].
Qed.
Lemma releasesb_ok k k' : releasesb k k' = true <-> releases k k'.
Proof.
  unfold releasesb, releases. destruct (kind_eq k k'); [tauto|]. split.
  - destruct k, k'; intros K; try discriminate; auto.
  - intros [K|[-> ->]]; [congruence | reflexivity].
Qed.
Lemma giveb_ok ss : forall h h', giveb ss h = Some h' -> give ss h h'.
Proof.
  induction ss as [|[v [o|]] ss IH]; intros h h' E; simpl in E.
  - inversion E. constructor.
  - destruct v as [|[l|]|]; try discriminate. destruct (h l) eqn:EL; [discriminate|]. constructor; auto.
  - assert (K : giveb ss h = Some h') by (destruct v as [|[|]|]; exact E). constructor. auto.
Qed.
Lemma unpackb_ok fs : forall r e h e' h', unpackb fs r e h = Some (e', h') -> unpack_fields fs r e h e' h'.
Proof.
  induction fs as [|[x|a b|] fs IH]; intros [|ss r] e h e' h' E; cbn [unpackb] in E; try discriminate.
  - inversion E. constructor.
  - destruct ss as [|s [|s' ss]]; try discriminate. destruct (giveb [s] h) as [h1|] eqn:G; [|discriminate]. econstructor; [apply giveb_ok; eauto | auto].
  - destruct (giveb ss h) as [h1|] eqn:G; [|discriminate]. econstructor; [apply giveb_ok; eauto | auto].
  - destruct ss; [|discriminate]. constructor. auto.
Qed.
Lemma is_undef_ok v : is_undef v = true <-> v = VUndef.
Proof. destruct v; simpl; split; congruence. Qed.
Lemma existsb_undef vs : existsb is_undef vs = true <-> In VUndef vs.
Proof.
  rewrite existsb_exists. split.
  - intros [v [I E]]. apply is_undef_ok in E. subst. auto.
  - intros I. exists VUndef. auto.
Qed.
Lemma opt_eqb_ok a b : opt_eqb a b = true <-> a = b.
Proof. destruct a, b; simpl; rewrite ?Nat.eqb_eq; split; congruence. Qed.
Ltac use_err := match goal with E : Some (_, _) = Some (_, _) |- _ => inversion E; subst; clear E; cbn [s_env s_heap s_todo s_next with_env with_heap] in * end.
Lemma alloc_ok s p o r s' : alloc s p o = Some (r, s') ->
  r = ONorm /\ exists l, s_heap s l = None /\ s_env s' = put (s_env s) p (VPtr (Some l)) /\ s_heap s' = hset (s_heap s) l (Some o).
Proof. unfold alloc. destruct (s_heap s (s_next s)) eqn:E; [discriminate|]. intros K. inversion K; subst. split; auto. exists (s_next s). auto. Qed.

(** an execution computed is an execution *)
Theorem run_exec fuel : forall c s o s', run fuel c s = Some (o, s') -> exec prog c (s_env s) (s_heap s) o (s_env s') (s_heap s').
Proof.
  induction fuel as [|f IH]; intros c s o s' E; [discriminate|]. destruct s as [e h t n]. destruct c; cbn [run s_env s_heap s_todo s_next] in *.
  - use_err. constructor.
  - destruct (run f c1 _) as [[o1 s1]|] eqn:E1; [|discriminate]. apply IH in E1. cbn [s_env s_heap] in E1.
    destruct o1; try (use_err; eapply x_seq_stop; [exact E1 | discriminate]). eapply x_seq; [exact E1|]. apply IH in E. exact E.
  - apply alloc_ok in E. destruct E as [-> [l [K [-> ->]]]]. constructor. exact K.
  - destruct (get e q) as [|[l0|]|] eqn:G; try (use_err; apply x_window_err; rewrite G; intros [l' [D _]]; discriminate).
    destruct (usableb h l0) eqn:U; [|use_err; apply x_window_err; rewrite <- usable_valb_ok, G; simpl; congruence].
    apply alloc_ok in E. destruct E as [-> [l [K [-> ->]]]]. econstructor; eauto. apply usableb_ok. auto.
  - destruct (get e p) as [|[l|]|] eqn:G; try (use_err; apply x_free_err; intros l' k' ds D; rewrite G in D; discriminate).
    destruct (h l) as [[k' ds [|r0 r]]|] eqn:L.
    + destruct (releasesb k k') eqn:RB.
      * use_err. econstructor; eauto. apply releasesb_ok; auto.
      * use_err. apply x_free_err. intros l' k2 ds2 D1 D2. rewrite G in D1. inversion D1; subst l'. rewrite L in D2. inversion D2; subst. rewrite <- releasesb_ok. congruence.
    + use_err. apply x_free_err. intros l' k2 ds2 D1 D2. rewrite G in D1. inversion D1; subst l'. rewrite L in D2. discriminate.
    + use_err. apply x_free_err. intros l' k2 ds2 D1 D2. rewrite G in D1. inversion D1; subst l'. rewrite L in D2. discriminate.
  - destruct (forallb _ ps) eqn:FB.
    + use_err. constructor. intros p I. rewrite forallb_forall in FB. apply usable_valb_ok. apply FB. auto.
    + use_err. assert (K : exists p, In p ps /\ usable_valb h (get e p) = false).
      { clear -FB. induction ps as [|p ps IH]; [discriminate|]. simpl in FB. apply andb_false_iff in FB. destruct FB as [K|K]; [exists p; simpl; auto|].
        destruct (IH K) as [q [I Q]]. exists q; simpl; auto. }
      destruct K as [p [I K]]. eapply x_use_err; [exact I|]. rewrite <- usable_valb_ok. cbn. congruence.
  - destruct (is_undef (get e q)) eqn:U; use_err.
    + constructor. apply is_undef_ok; auto.
    + cbn. constructor. rewrite <- is_undef_ok. congruence.
  - use_err. constructor.
  - use_err. constructor.
  - destruct t as [|[] t]; [discriminate| |]; apply IH in E; [apply x_if1 | apply x_if2]; exact E.
  - destruct (get e p) as [|[l|]|] eqn:G; try (use_err; apply x_ifnull_err; intros q; rewrite G; discriminate).
    + apply IH in E. eapply x_ifnull2; eauto.
    + apply IH in E. eapply x_ifnull1; eauto.
  - destruct (e_var e x) as [|p|[]] eqn:G; try (use_err; apply x_ifflag_err; intros b; rewrite G; discriminate).
    + apply IH in E. eapply x_ifflag1; eauto.
    + apply IH in E. eapply x_ifflag2; eauto.
  - destruct (get e p) as [|a|] eqn:G1; try (use_err; apply x_ifsame_err; intros a' b' K; rewrite G1 in K; discriminate).
    destruct (get e q) as [|b|] eqn:G2; try (use_err; apply x_ifsame_err; intros a' b' K1 K2; rewrite G2 in K2; discriminate).
    apply IH in E. destruct (opt_eqb a b) eqn:OE.
    + apply opt_eqb_ok in OE. subst b. eapply x_ifsame1; eauto.
    + eapply x_ifsame2; eauto. rewrite <- opt_eqb_ok. congruence.
  - destruct t as [|[] t]; [discriminate| |].
    + destruct (run f c _) as [[o1 s1]|] eqn:E1; [|discriminate]. apply IH in E1. cbn [s_env s_heap] in E1.
      destruct o1; try (use_err; apply x_loop_stop; [exact E1 | discriminate ..]).
      * apply IH in E. eapply x_loopS; [exact E1 | auto | exact E].
      * use_err. apply x_loop_break. exact E1.
      * apply IH in E. eapply x_loopS; [exact E1 | auto | exact E].
    + use_err. constructor.
  - destruct (run f (ForFrom 0 b c) _) as [[o1 s1]|] eqn:E1; [|discriminate]. apply IH in E1. use_err. cbn in *. constructor. exact E1.
  - destruct (e_bnd e b <=? i) eqn:LE.
    + use_err. constructor. apply Nat.leb_le; auto.
    + apply Nat.leb_gt in LE. destruct (run f c _) as [[o1 s1]|] eqn:E1; [|discriminate]. apply IH in E1. cbn in E1.
      destruct o1; try (use_err; eapply x_from_stop; [exact LE | exact E1 | discriminate]). apply IH in E. eapply x_from; eauto.
  - use_err. constructor.
  - use_err. constructor.
  - destruct (e_var e x) as [|[l|]|] eqn:G; try (use_err; apply x_pack_err; intros l' ds' D; rewrite G in D; discriminate).
    destruct (h l) as [[k' ds r0]|] eqn:L; [|use_err; apply x_pack_err; intros l' ds' D; rewrite G in D; inversion D; subst; cbn; congruence].
    destruct k'; try (use_err; apply x_pack_err; intros l' ds' D; rewrite G in D; inversion D; subst; cbn; congruence).
    destruct r0; [|use_err; apply x_pack_err; intros l' ds' D; rewrite G in D; inversion D; subst; cbn; congruence].
    destruct (pack_fields e h fs) as [r h1] eqn:PF. use_err. econstructor; eauto.
  - destruct (e_var e x) as [|[l|]|] eqn:G; try (use_err; apply x_unpack_err; intros l' k' ds' r' D; rewrite G in D; discriminate).
    destruct (h l) as [[k' ds r0]|] eqn:L; [|use_err; apply x_unpack_err; intros l' k2 ds' r' D; rewrite G in D; inversion D; subst; cbn; congruence].
    destruct (unpackb fs r0 e _) as [[e1 h1]|] eqn:UP; [|discriminate]. use_err. apply unpackb_ok in UP. econstructor; eauto.
  - destruct (prog f0) as [b|] eqn:P.
    + destruct (existsb is_undef (map (arg_val e) args)) eqn:EU.
      * use_err. apply x_call_err. right. left. apply existsb_undef. auto.
      * destruct (Nat.eqb_spec (length (map (arg_val e) args)) (length (fn_params b))) as [LN|LN].
        -- destruct (run f (fn_body b) _) as [[o1 s1]|] eqn:E1; [|discriminate]. apply IH in E1. use_err. cbn in E1.
           eapply x_call; [exact P | reflexivity | | exact LN | | | exact E1].
           ++ rewrite <- existsb_undef. congruence.
           ++ reflexivity.
           ++ reflexivity.
        -- use_err. apply x_call_err. right. right. intros b' P'. rewrite P in P'. inversion P'; subst. rewrite map_length in LN. auto.
    + use_err. apply x_call_err. auto.
  - destruct p as [p|]; [|use_err; constructor]. destruct (is_undef (get e p)) eqn:U; use_err.
    + constructor. apply is_undef_ok; auto.
    + constructor. rewrite <- is_undef_ok. cbn. congruence.
  - use_err. constructor.
  - use_err. constructor.
Qed.
(** the same for calls *)
Definition run_call (fuel : nat) (f : string) (vs : list val) (h : heap) (todo : list bool) (next : loc) : option (outcome * st) :=
  match prog f with Some b => if length vs =? length (fn_params b) then run fuel (fn_body b) (St (start B (fn_params b) vs) h todo next) else None | None => None end.
Theorem run_call_ok fuel f vs h todo next o s' : run_call fuel f vs h todo next = Some (o, s') -> call prog f vs h o (s_heap s').
Proof.
  unfold run_call. destruct (prog f) as [b|] eqn:P; [|discriminate]. destruct (Nat.eqb_spec (length vs) (length (fn_params b))) as [LN|]; [|discriminate].
  intros E. apply run_exec in E. exists b. exists (start B (fn_params b) vs). exists (s_env s'). split; [exact P|]. split; [exact LN|]. split; [reflexivity|]. split; [reflexivity|]. exact E.
Qed.
End Run.
