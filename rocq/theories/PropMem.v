(** C55, C56, C57: the lifetime of objects.  (The language, the heap and the meaning of a contract: MemLang.v; the functions of the
    library: MemLib.v; their contracts: MemSpec.v.) *)
From Coq Require Import String List Bool Arith Lia.
From Verif Require Import MemLang MemLib MemSpec MemCert MemRun.
Import ListNotations.
Local Open Scope string_scope.
Local Open Scope nat_scope.

(** ** C56: memory is used correctly *)
(** No function of the tables, called as they say, ever uses, releases or passes on a pointer that is NULL, not initialised or
    released, or a window into memory that was released, or releases an object twice or with the wrong function: *)
Theorem C56_no_misuse f c : In c (of_function f tidy_functions) \/ In c (of_function f leaky_functions) ->
  forall vs h F o h', pre (c_pre c) vs h F -> call m4rie f vs h o h' -> o <> OErr.
Proof.
  intros I vs h F o h' PR CA. assert (IS : In c (spec f)) by (unfold spec; apply in_or_app; auto).
  destruct (spec_satisfied f c IS vs h F o h' PR CA) as [->|[[-> _]|[v [-> _]]]]; discriminate.
Qed.
(** Functions that get all their arguments on loan (they release none of them; several arguments may be the same object): *)
Definition on_loan (ms : list mode) (vs : list val) (h : heap) : Prop :=
  Forall2 (fun m v => match m with MBor => usable_val h v | MNull => v = VPtr None | MFlag b => v = VFlag b | MOwn _ _ => False end) ms vs.
Lemma on_loan_pre ms vs h : on_loan ms vs h -> pre ms vs h h /\ (forall l, ~ taken ms vs l) /\ (forall l, ~ kept ms vs l).
Proof.
  intros OL. assert (NO : forall i k a v, nth_error ms i = Some (MOwn k a) -> nth_error vs i = Some v -> False).
  { unfold on_loan in OL. induction OL; intros [|i] k a v E1 E2; simpl in *; try discriminate; [inversion E1; subst; auto | eauto]. }
  split; [|split].
  - split; [clear NO; unfold on_loan in OL; induction OL; simpl; auto|]. split.
    + intros l o. split; [|tauto]. intros E. split; auto. intros [i [k [a [E1 E2]]]]. eauto.
    + split.
      * unfold on_loan in OL. induction OL as [|m v ms vs K OL IH]; intros [|i] m' v' E1 E2; simpl in *; try discriminate.
        -- inversion E1; inversion E2; subst. destruct m'; auto. destruct K.
        -- eapply IH; eauto. intros j k a w; apply (NO (S j)).
      * intros i j k k' a a' v E1 _ E2. exfalso; eauto.
  - intros l [i [k [a [E1 E2]]]]. eauto.
  - intros l [i [k [a [E1 E2]]]]. eauto.
Qed.
(** those that return nothing leave the heap as it was, *)
Theorem C56_void f ms : In (Contract ms [RVoid] false) (of_function f tidy_functions) ->
  forall vs h o h', on_loan ms vs h -> call m4rie f vs h o h' -> o = ODie \/ ((o = ONorm \/ o = ORet VUndef) /\ forall l, h' l = h l).
Proof.
  intros I vs h o h' OL CA. destruct (on_loan_pre _ _ _ OL) as [PR [_ NK]].
  assert (IS : In (Contract ms [RVoid] false) (spec f)) by (unfold spec; apply in_or_app; auto).
  assert (K : forall v, post (Contract ms [RVoid] false) vs h v h' -> v = VUndef /\ forall l, h' l = h l).
  { intros v [P1 [_ [r [[<-|[]] [RV P3]]]]]. split; auto. intros l. destruct (h' l) as [x|] eqn:E.
    - destruct (P3 _ _ E) as [E1|[E1|[[k [into [E1 _]]]|E1]]]; [auto | exfalso; eapply NK; eauto | discriminate | discriminate].
    - destruct (h l) as [x|] eqn:E1; auto. rewrite (P1 _ _ E1) in E. discriminate. }
  destruct (spec_satisfied f _ IS vs h h o h' PR CA) as [->|[[-> P]|[v [-> P]]]]; auto; right; destruct (K _ P) as [E1 E2]; subst; auto.
Qed.
(** those that return an argument (the result C) leave it as it was, too, *)
Theorem C56_in_place f ms i : In (Contract ms [RArg i] false) (of_function f tidy_functions) ->
  forall vs h o h', on_loan ms vs h -> call m4rie f vs h o h' -> o = ODie \/ exists v, o = ORet v /\ nth_error vs i = Some v /\ forall l, h' l = h l.
Proof.
  intros I vs h o h' OL CA. destruct (on_loan_pre _ _ _ OL) as [PR [_ NK]].
  assert (IS : In (Contract ms [RArg i] false) (spec f)) by (unfold spec; apply in_or_app; auto).
  assert (K : forall v, post (Contract ms [RArg i] false) vs h v h' -> nth_error vs i = Some v /\ forall l, h' l = h l).
  { intros v [P1 [_ [r [[<-|[]] [RV P3]]]]]. split; auto. intros l. destruct (h' l) as [x|] eqn:E.
    - destruct (P3 _ _ E) as [E1|[E1|[[k [into [E1 _]]]|E1]]]; [auto | exfalso; eapply NK; eauto | discriminate | discriminate].
    - destruct (h l) as [x|] eqn:E1; auto. rewrite (P1 _ _ E1) in E. discriminate. }
  assert (NU : ~ In VUndef vs).
  { clear -OL. unfold on_loan in OL. induction OL as [|m v ms vs J OL IH]; [intros []|]. intros [->|E]; auto. destruct m; try discriminate; auto. destruct J as [l [D _]]. discriminate. }
  destruct (spec_satisfied f _ IS vs h h o h' PR CA) as [->|[[-> P]|[v [-> P]]]]; auto; right; destruct (K _ P) as [E1 E2]; eauto.
  exfalso. apply NU. eapply nth_error_In; eauto.
Qed.
(** and those that make a new object add just this one to the heap; a window points only into the memory of the arguments. *)
Theorem C56_new f ms k into : In (Contract ms [RNew k into] false) (of_function f tidy_functions) ->
  forall vs h o h', on_loan ms vs h -> call m4rie f vs h o h' ->
  o = ODie \/ exists l x, o = ORet (VPtr (Some l)) /\ h l = None /\ is_obj k x /\ (forall l', h' l' = if l' =? l then Some x else h l') /\
    forall d, In d (odeps x) -> exists i l', In i into /\ nth_error vs i = Some (VPtr (Some l')) /\ In d (roots h l').
Proof.
  intros I vs h o h' OL CA. destruct (on_loan_pre _ _ _ OL) as [PR [_ NK]].
  assert (IS : In (Contract ms [RNew k into] false) (spec f)) by (unfold spec; apply in_or_app; auto).
  destruct (spec_satisfied f _ IS vs h h o h' PR CA) as [->|[[-> P]|[v [-> P]]]]; auto; right; destruct P as [P1 [_ [r [[<-|[]] [[l [x [EV [E2 [OB [FN [_ DP]]]]]]] P3]]]]]; [discriminate|]. subst v.
  exists l, x. split; auto. split; auto. split; auto. split; auto. intros l'. destruct (Nat.eqb_spec l' l) as [->|NE]; auto. destruct (h' l') as [y|] eqn:E.
  - destruct (P3 _ _ E) as [E1|[E1|[[k' [in' [_ E1]]]|E1]]]; [auto | exfalso; eapply NK; eauto | inversion E1; congruence | discriminate].
  - destruct (h l') as [y|] eqn:E1; auto. rewrite (P1 _ _ E1) in E. discriminate.
Qed.
(** Functions that release their argument: afterwards it is gone, with all it owns, and nothing else. *)
Theorem C56_release f k : In (Contract [MOwn k None] [RVoid] false) (of_function f tidy_functions) ->
  forall l x h o h', h l = Some x -> is_obj k x -> call m4rie f [VPtr (Some l)] h o h' ->
  o = ODie \/ ((o = ONorm \/ o = ORet VUndef) /\ forall l', h' l' = if l' =? l then None else h l').
Proof.
  intros I l x h o h' HL OB CA. set (F := fun l' => if l' =? l then None else h l').
  assert (TK : forall l', taken [MOwn k None] [VPtr (Some l)] l' <-> l' = l).
  { intros l'. split; [intros [[|[|i]] [k' [a [E1 E2]]]]; simpl in *; congruence | intros ->; exists 0, k, None; auto]. }
  assert (PR : pre [MOwn k None] [VPtr (Some l)] h F).
  { split; [reflexivity|]. split; [|split].
    - intros l' y. rewrite TK. unfold F. destruct (Nat.eqb_spec l' l); split; [discriminate | tauto | auto | tauto].
    - intros [|[|i]] m v E1 E2; simpl in *; try discriminate. inversion E1; inversion E2; subst. eauto.
    - intros [|[|i]] [|[|j]] k1 k2 a1 a2 v E1 E2 _ _; simpl in *; auto; discriminate. }
  assert (IS : In (Contract [MOwn k None] [RVoid] false) (spec f)) by (unfold spec; apply in_or_app; auto).
  assert (NK : forall l', ~ kept [MOwn k None] [VPtr (Some l)] l') by (intros l' [[|[|i]] [k1 [k2 [E1 E2]]]]; simpl in *; discriminate).
  assert (K : forall v, post (Contract [MOwn k None] [RVoid] false) [VPtr (Some l)] F v h' -> v = VUndef /\ forall l', h' l' = F l').
  { intros v [P1 [_ [r [[<-|[]] [RV P3]]]]]. split; auto. intros l'. destruct (h' l') as [y|] eqn:E.
    - destruct (P3 _ _ E) as [E1|[E1|[[k1 [into [E1 _]]]|E1]]]; [auto | exfalso; eapply NK; eauto | discriminate | discriminate].
    - destruct (F l') as [y|] eqn:E1; auto. rewrite (P1 _ _ E1) in E. discriminate. }
  destruct (spec_satisfied f _ IS _ _ _ _ _ PR CA) as [->|[[-> P]|[v [-> P]]]]; auto; right; destruct (K _ P) as [E1 E2]; subst; auto.
Qed.

(** ** C55: what a constructor makes, the destructor releases *)
(** (constructor, arguments it looks at, what it makes, destructor) *)
Definition pairs : list (string * nat * kind * string) :=
  [("gf2e_init", 0, KField, "gf2e_free"); ("gf2e_t16_init", 1, KRaw, "gf2e_t16_free");
   ("mzed_init", 1, KMzed, "mzed_free"); ("mzed_init_window", 1, KMzedWin, "mzed_free_window"); ("mzed_init_window", 1, KMzedWin, "mzed_free");
   ("mzd_slice_init", 1, KSlice, "mzd_slice_free"); ("mzd_slice_init_window", 1, KSliceWin, "mzd_slice_free_window");
   ("mzd_poly_init", 0, KPoly, "mzd_poly_free"); ("njt_mzed_init", 1, KNjt, "njt_mzed_free")].
(** objects that come from elsewhere, e.g. as the result of a product with C = NULL, can be released the same way: the kind
    decides, see [C56_release] *)
Theorem C55_restored mk n k fr : In (mk, n, k, fr) pairs ->
  forall vs h h1 l o h2, length vs = n -> Forall (usable_val h) vs -> call m4rie mk vs h (ORet (VPtr (Some l))) h1 -> call m4rie fr [VPtr (Some l)] h1 o h2 ->
  h l = None /\ (exists x, h1 l = Some x /\ is_obj k x) /\ (o = ODie \/ ((o = ONorm \/ o = ORet VUndef) /\ forall l', h2 l' = h l')).
Proof.
  intros I vs h h1 l o h2 LN US C1 C2.
  assert (K : (exists into, In (Contract (repeat MBor n) [RNew k into] false) (of_function mk tidy_functions)) /\ In (Contract [MOwn k None] [RVoid] false) (of_function fr tidy_functions)).
  { unfold pairs in I. simpl in I. repeat (destruct I as [E|I]; [inversion E; subst; split; [eexists; vm_compute; left; reflexivity | vm_compute; auto] |]). destruct I. }
  destruct K as [[into K1] K2].
  assert (OL : on_loan (repeat MBor n) vs h).
  { clear -LN US. subst n. unfold on_loan. induction US; simpl; constructor; auto. }
  destruct (C56_new _ _ _ _ K1 _ _ _ _ OL C1) as [D|[l' [x [E1 [E2 [OB [HH _]]]]]]]; [discriminate|]. inversion E1; subst l'. clear E1.
  assert (HL : h1 l = Some x) by (rewrite HH, Nat.eqb_refl; reflexivity).
  split; auto. split; [eauto|]. destruct (C56_release _ _ K2 _ _ _ _ _ HL OB C2) as [->|[E3 HH2]]; auto. right. split; auto.
  intros l'. rewrite HH2, HH. destruct (Nat.eqb_spec l' l); subst; auto.
Qed.
(** In particular nothing else can be released with it: all other objects are still there in the same state, so that e.g. after
    the release of a window the matrix is intact, and usable if it was. *)
Theorem C55_window_parent : forall h h1 h2 a l o, usable h a -> call m4rie "mzed_init_window" [VPtr (Some a)] h (ORet (VPtr (Some l))) h1 ->
  call m4rie "mzed_free_window" [VPtr (Some l)] h1 o h2 -> o = ODie \/ (h2 a = h a /\ usable h2 a).
Proof.
  intros h h1 h2 a l o U C1 C2. destruct (C55_restored "mzed_init_window" 1 KMzedWin "mzed_free_window" ltac:(simpl; tauto) [VPtr (Some a)] h h1 l o h2 eq_refl
    ltac:(constructor; [exists a; auto | constructor]) C1 C2) as [_ [_ [->|[_ HH]]]]; auto. right. split; auto.
  destruct U as [x [E DP]]. exists x. rewrite HH. split; auto. intros d I. rewrite HH. auto.
Qed.

(** ** Executions *)
Definition empty : heap := fun _ => None.
(** a heap with two matrices, at 1 and 2 *)
Definition matrix (l : loc) : obj := Obj KMzed [] [[Slot (VPtr (Some l)) (Some (Obj KMzd [] []))]].
Definition two : heap := hset (hset empty 1 (Some (matrix 10))) 2 (Some (matrix 11)).
Definition ptr (l : loc) : val := VPtr (Some l).
Lemma matrix_ok l : is_obj KMzed (matrix l).
Proof. econstructor; [left; reflexivity | | auto]. constructor; [|constructor]. econstructor; [left; reflexivity | constructor | auto]. Qed.
Lemma two_usable : usable_val two (ptr 1) /\ usable_val two (ptr 2).
Proof. split; eexists; (split; [reflexivity|]); eexists; (split; [reflexivity|]); intros d []. Qed.
(** the objects of a heap at the addresses below n *)
Definition live_below (n : nat) (h : heap) : list nat := filter (fun l => isSome (h l)) (seq 0 n).
(** mzed_mul(NULL, A, A) by way of _mzed_mul_naive returns one new matrix *)
Example C56_hypotheses : on_loan [MNull; MBor; MBor] [VPtr None; ptr 1; ptr 2] two /\ In (Contract [MNull; MBor; MBor] [RNew KMzed []] false) (of_function "mzed_mul" tidy_functions).
Proof. split; [|vm_compute; auto]. destruct two_usable. repeat constructor; auto. Qed.
(** a call computed, seen from outside: the outcome and the addresses below n that are in use afterwards *)
Definition sees (n : nat) (r : option (outcome * st)) : option (outcome * list nat) := match r with Some (o, s) => Some (o, live_below n (s_heap s)) | None => None end.
Lemma sees_call B fuel f vs h todo next n o ls : sees n (run_call m4rie B fuel f vs h todo next) = Some (o, ls) ->
  exists h', call m4rie f vs h o h' /\ live_below n h' = ls.
Proof.
  unfold sees. destruct (run_call m4rie B fuel f vs h todo next) as [[o' s]|] eqn:E; [|discriminate]. intros K. inversion K; subst.
  exists (s_heap s). split; auto. eapply run_call_ok; eauto.
Qed.
Lemma live_below_in n h l : In l (live_below n h) <-> l < n /\ h l <> None.
Proof. unfold live_below. rewrite filter_In, in_seq. rewrite isSome_ok. intuition lia. Qed.
(** that product, with one level of Strassen-Winograd recursion (21 calls of functions with 28 windows and temporaries): a new matrix at 20 *)
Definition todo_strassen : list bool := [true; true] ++ [false] ++ [false; false; false; false] ++ repeat true 60.
Example C56_strassen_runs : exists h', call m4rie "mzed_mul" [VPtr None; ptr 1; ptr 2] two (ORet (ptr 20)) h' /\ live_below 500 h' = [1; 2; 20].
Proof. apply (sees_call 2 500 _ _ _ todo_strassen 20). vm_compute. reflexivity. Qed.
(** two calls one after the other, the second with the result of the first *)
Definition sees2 (n : nat) (r : option (outcome * st)) (r2 : loc -> heap -> option (outcome * st)) : option (loc * list nat * outcome * list nat) :=
  match r with
  | Some (ORet (VPtr (Some l)), s) => match r2 l (s_heap s) with Some (o, s2) => Some (l, live_below n (s_heap s), o, live_below n (s_heap s2)) | None => None end
  | _ => None
  end.
Lemma sees2_call B fuel f g vs h todo next n l ls o ls2 :
  sees2 n (run_call m4rie B fuel f vs h todo next) (fun l h => run_call m4rie B fuel g [ptr l] h todo next) = Some (l, ls, o, ls2) ->
  exists h1 h2, call m4rie f vs h (ORet (ptr l)) h1 /\ live_below n h1 = ls /\ call m4rie g [ptr l] h1 o h2 /\ live_below n h2 = ls2.
Proof.
  unfold sees2. destruct (run_call m4rie B fuel f vs h todo next) as [[[| | |[|[l'|]|]| |] s]|] eqn:E; try discriminate.
  destruct (run_call m4rie B fuel g [ptr l'] (s_heap s) todo next) as [[o' s2]|] eqn:E2; [|discriminate]. intros K. inversion K; subst.
  exists (s_heap s), (s_heap s2). split; [eapply run_call_ok; eauto|]. split; auto. split; auto. eapply run_call_ok; eauto.
Qed.
Example C55_runs : exists h1 h2, call m4rie "mzd_slice_init" [ptr 1] two (ORet (ptr 20)) h1 /\ live_below 30 h1 = [1; 2; 20] /\
  call m4rie "mzd_slice_free" [ptr 20] h1 ONorm h2 /\ live_below 30 h2 = [1; 2].
Proof. apply (sees2_call 3 100 _ _ _ _ [] 20). vm_compute. reflexivity. Qed.
Example C55_window_runs : exists h1 h2, call m4rie "mzed_init_window" [ptr 1] two (ORet (ptr 20)) h1 /\ live_below 30 h1 = [1; 2; 20] /\
  call m4rie "mzed_free_window" [ptr 20] h1 ONorm h2 /\ live_below 30 h2 = [1; 2].
Proof. apply (sees2_call 3 100 _ _ _ _ [] 20). vm_compute. reflexivity. Qed.
(** (the conditions hold: a released window cannot be released again, and a window into a released matrix cannot be used) *)
Example C56_detects : exists h1 h2 h3, call m4rie "mzed_init_window" [ptr 1] two (ORet (ptr 20)) h1 /\ call m4rie "mzed_free" [ptr 1] h1 ONorm h2 /\
  call m4rie "mzed_add" [VPtr None; ptr 20; ptr 2] h2 OErr h3.
Proof.
  assert (R1 : exists s, run_call m4rie 3 100 "mzed_init_window" [ptr 1] two [] 20 = Some (ORet (ptr 20), s) /\ exists s2, run_call m4rie 3 100 "mzed_free" [ptr 1] (s_heap s) [] 30 = Some (ONorm, s2) /\
     exists s3, run_call m4rie 3 100 "mzed_add" [VPtr None; ptr 20; ptr 2] (s_heap s2) (repeat true 20) 40 = Some (OErr, s3)).
  { eexists; split; [vm_compute; reflexivity|]. eexists; split; [vm_compute; reflexivity|]. eexists. vm_compute. reflexivity. }
  destruct R1 as [s [E1 [s2 [E2 [s3 E3]]]]]. exists (s_heap s), (s_heap s2), (s_heap s3).
  split; [eapply run_call_ok; eauto|]. split; eapply run_call_ok; eauto.
Qed.

(** ** C57: bilinear maps *)
(** The functions that make or use bilinear maps keep to their contracts otherwise ([C56_no_misuse]), but: *)
(** _crt_modred_mat does not release its two temporaries, *)
Theorem C57_modred_leak_refuted : exists h', call m4rie "_crt_modred_mat" [] empty (ORet (ptr 20)) h' /\ live_below 30 h' = [20; 21; 22].
Proof. apply (sees_call 2 100 _ _ _ (repeat false 20) 20). vm_compute. reflexivity. Qed.
(** so a bilinear map made and released leaves objects behind: one from _blm_finish_polymult alone, *)
Theorem C57_blm_leak_refuted : exists h1 h2, call m4rie "blm_init_crt" [VPtr None; ptr 1; VFlag true] two (ORet (ptr 20)) h1 /\
  (exists ls, live_below 100 h1 = ls /\ In 20 ls) /\ call m4rie "blm_free" [ptr 20] h1 ONorm h2 /\ exists l, two l = None /\ h2 l <> None.
Proof.
  destruct (sees2_call 2 200 "blm_init_crt" "blm_free" [VPtr None; ptr 1; VFlag true] two (repeat false 40) 20 100 20 [1; 2; 20; 32] ONorm [1; 2; 32]) as [h1 [h2 [C1 [L1 [C2 L2]]]]].
  { vm_compute. reflexivity. }
  exists h1, h2. split; auto. split; [exists [1; 2; 20; 32]; split; [auto | simpl; auto]|]. split; auto. exists 32. split; [reflexivity|].
  assert (I : In 32 (live_below 100 h2)) by (rewrite L2; simpl; auto). apply live_below_in in I. tauto.
Qed.
(** and so does every product that makes a map of its own (here A is at 1, B at 2 and C at 3; C, A and B are intact, an object is left over). *)
Definition sliced (l : loc) : obj := Obj KSlice [] [[Slot (VPtr (Some l)) (Some (Obj KMzd [] [])); Slot (VPtr (Some (l + 1))) (Some (Obj KMzd [] []))]].
Definition slices : heap := hset (hset (hset empty 1 (Some (sliced 10))) 2 (Some (sliced 12))) 3 (Some (sliced 14)).
Lemma sliced_ok l : is_obj KSlice (sliced l).
Proof.
  econstructor; [left; reflexivity | | auto]. constructor; [|constructor].
  repeat (constructor; [econstructor; [left; reflexivity | constructor | auto] | ]). constructor.
Qed.
Theorem C57_slice_mul_leak_refuted : exists h', call m4rie "mzd_slice_mul_blm" [ptr 3; ptr 1; ptr 2; VPtr None] slices (ORet (ptr 3)) h' /\ exists l, slices l = None /\ h' l <> None.
Proof.
  destruct (sees_call 2 200 "mzd_slice_mul_blm" [ptr 3; ptr 1; ptr 2; VPtr None] slices (repeat true 5 ++ repeat false 60) 20 100 (ORet (ptr 3)) [1; 2; 3; 33; 37; 38]) as [h' [C1 L1]].
  { vm_compute. reflexivity. }
  exists h'. split; auto. exists 33. split; [reflexivity|]. assert (I : In 33 (live_below 100 h')) by (rewrite L1; simpl; auto). apply live_below_in in I. tauto.
Qed.
(** A map made without straight-line programs (djb = 0) can be used but not released: every execution of blm_free ends in the
    release of NULL as a program. *)
Theorem C57_uncompiled_refuted : forall h l x o h', h l = Some x -> is_obj KBlmM x -> call m4rie "blm_free" [ptr l] h o h' -> o = OErr.
Proof.
  intros h l x o h' HL OB [b [e0 [e1 [PB [_ [EV [_ EX]]]]]]]. vm_compute in PB. injection PB as <-. cbn [fn_body fn_params] in *.
  inversion OB; subst. destruct H as [<-|[]].
  repeat match goal with K : is_fields (_ :: _) _ |- _ => inversion K; subst; clear K end.
  match goal with K : is_fields [] _ |- _ => inversion K; subst; clear K end.
  assert (GF : e_var e0 "f" = ptr l) by (rewrite EV; reflexivity).
  inversion EX; subst; clear EX.
  2:{ match goal with K : exec _ (Unpack _ _) _ _ _ _ _ |- _ => inversion K; subst; auto; congruence end. }
  match goal with K : exec _ (Unpack _ _) _ _ _ _ _ |- _ => inversion K; subst; clear K end.
  match goal with K : e_var e0 "f" = _ |- _ => rewrite GF in K; inversion K; subst; clear K end.
  match goal with K : h ?z = Some (Obj _ _ _), J : h ?z = Some (Obj _ _ _) |- _ => rewrite K in J; inversion J; subst; clear J end.
  repeat match goal with K : unpack_fields _ _ _ _ _ _ |- _ => inversion K; subst; clear K end.
  repeat match goal with K : give _ _ _ |- _ => inversion K; subst; clear K end.
  cbn [slot_val] in *.
  do 3 (match goal with K : exec _ (Seq (Free _ _) _) _ _ _ _ _ |- _ => inversion K; subst; clear K end;
    match goal with K : exec _ (Free _ _) _ _ _ _ _ |- _ => inversion K; subst; clear K end; auto; try congruence).
  match goal with K : exec _ (Seq _ _) _ _ _ _ _ |- _ => inversion K; subst; clear K end;
    match goal with K : exec _ (IfSame _ _ _ _) _ _ _ _ _ |- _ => inversion K; subst; clear K end; auto;
    try match goal with A : get _ _ = VPtr ?a, B : get _ _ = VPtr ?b, D : ?a <> ?b |- _ => exfalso; vm_compute in A; vm_compute in B; congruence end;
    match goal with K : exec _ Skip _ _ _ _ _ |- _ => inversion K; subst; clear K end; try congruence.
  match goal with K : exec _ (Seq (Free _ _) _) _ _ _ _ _ |- _ => inversion K; subst; clear K end;
    match goal with K : exec _ (Free _ _) _ _ _ _ _ |- _ => inversion K; subst; clear K end; auto; try congruence.
  match goal with A : get _ _ = VPtr (Some _) |- _ => vm_compute in A; congruence end.
Qed.
(** (and such maps are made) *)
Example C57_uncompiled_hypotheses : exists h1 h2, call m4rie "blm_init_crt" [VPtr None; ptr 1; VFlag false] two (ORet (ptr 20)) h1 /\ live_below 100 h1 = [1; 2; 20; 32] /\
  call m4rie "blm_free" [ptr 20] h1 OErr h2 /\ exists ls, live_below 100 h2 = ls.
Proof.
  destruct (sees2_call 2 200 "blm_init_crt" "blm_free" [VPtr None; ptr 1; VFlag false] two (repeat false 40) 20 100 20 [1; 2; 20; 32] OErr [1; 2; 20; 32]) as [h1 [h2 [C1 [L1 [C2 L2]]]]].
  { vm_compute. reflexivity. }
  exists h1, h2. repeat (split; eauto).
Qed.
(** _mzd_poly_addmul_crt with C = NULL makes a polynomial for the result, but returns NULL. *)
Theorem C57_poly_crt_refuted : forall a b h o h', usable h a -> usable h b -> call m4rie "_mzd_poly_addmul_crt" [VPtr None; ptr a; ptr b] h o h' ->
  o = ODie \/ o = ORet (VPtr None).
Proof.
  intros a b h o h' UA UB CA.
  assert (I : In (Contract [MNull; MBor; MBor] [RNull] true) (spec "_mzd_poly_addmul_crt")) by (vm_compute; auto).
  assert (OL : on_loan [MNull; MBor; MBor] [VPtr None; ptr a; ptr b] h) by (repeat apply Forall2_cons; [reflexivity | exists a; auto | exists b; auto | constructor]).
  destruct (on_loan_pre _ _ _ OL) as [PR _].
  destruct (spec_satisfied _ _ I _ _ _ _ _ PR CA) as [->|[[-> P]|[v [-> P]]]]; auto; destruct P as [_ [_ [r [[<-|[]] [RV _]]]]]; [discriminate | subst; auto].
Qed.
Definition polynomial (l : loc) : obj := Obj KPoly [] [[Slot (VPtr (Some l)) (Some (Obj KRaw [] []))]; [Slot (VPtr (Some (l + 1))) (Some (Obj KMzd [] [])); Slot (VPtr (Some (l + 2))) (Some (Obj KMzd [] []))]].
Definition polynomials : heap := hset (hset empty 1 (Some (polynomial 5))) 2 (Some (polynomial 10)).
Definition lost_poly (r : option (outcome * st)) : bool :=
  match r with
  | Some (ORet (VPtr None), s) => existsb (fun l => match polynomials l, s_heap s l with None, Some (Obj KPoly _ _) => true | _, _ => false end) (seq 0 200)
  | _ => false
  end.
Theorem C57_poly_crt_leak_refuted : exists h', call m4rie "_mzd_poly_addmul_crt" [VPtr None; ptr 1; ptr 2] polynomials (ORet (VPtr None)) h' /\
  exists l x, polynomials l = None /\ h' l = Some x /\ okind x = KPoly.
Proof.
  assert (K : lost_poly (run_call m4rie 2 200 "_mzd_poly_addmul_crt" [VPtr None; ptr 1; ptr 2] polynomials (repeat false 80) 20) = true) by (vm_compute; reflexivity).
  revert K. generalize (run_call_ok m4rie 2 200 "_mzd_poly_addmul_crt" [VPtr None; ptr 1; ptr 2] polynomials (repeat false 80) 20).
  generalize (run_call m4rie 2 200 "_mzd_poly_addmul_crt" [VPtr None; ptr 1; ptr 2] polynomials (repeat false 80) 20). intros r RC K.
  destruct r as [[[| | |[|[l|]|]| |] s]|]; try discriminate. exists (s_heap s). split; [apply RC; reflexivity|]. unfold lost_poly in K.
  apply existsb_exists in K. destruct K as [l [_ K]]. exists l. destruct (polynomials l); [discriminate|]. destruct (s_heap s l) as [[[] ds fs]|]; try discriminate. eauto.
Qed.
Print Assumptions C55_restored. Print Assumptions C55_window_parent. Print Assumptions C56_no_misuse. Print Assumptions C56_void. Print Assumptions C56_in_place.
Print Assumptions C56_new. Print Assumptions C56_release. Print Assumptions C57_modred_leak_refuted. Print Assumptions C57_blm_leak_refuted.
Print Assumptions C57_slice_mul_leak_refuted. Print Assumptions C57_uncompiled_refuted. Print Assumptions C57_poly_crt_refuted. Print Assumptions C57_poly_crt_leak_refuted.
