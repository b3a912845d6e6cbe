(** Client programs: the state relation and the step lemmas. *)
From Coq Require Import NArith ZArith Lia List Bool Arith.
From Coq Require Import ZifyBool ZifyNat ZifyN.
From Verif Require Import Base Spec PolyFacts Gf2xModel Gf2eModel Gf2eProofs MzdModel MzedModel MzedSpec LinSpec TrsmSpec MatFacts.
From Verif Require Import MzedProofs MzedOps MzedOps2 NjModel StrassenModel SliceModel SliceSpec SliceProofs SliceOps KaraModel ConvModel ConvCling EchNaive EchFacts StrassenProofs SliceMul.
From Verif Require Import MulModel TrsmModel PermModel PleModel BlmSpec BlmModel BlmOps BlmFin BlmOpsProofs HistSpec HistModel.
From Verif Require Import FrameProofs.
From Verif Require Import PropMzed PropNj PropStrassen PropSlice PropMul PropTrsm PropPle PropEch PropBlm PropSlice2 PleSpec.
Import ListNotations.
Local Open Scope nat_scope.

(** ** tables *)
Lemma val_tab m n F i j : i < m -> j < n -> val (tab m n F) i j = F i j.
Proof.
  intros Hi Hj. unfold val, tab. cbn [a_rows].
  rewrite (nth_indep _ [] (map (F 0) (seq 0 n))) by (rewrite map_length, seq_length; lia).
  rewrite (map_nth (fun i => map (F i) (seq 0 n))), seq_nth by lia. cbn [plus].
  rewrite (nth_indep _ 0%N (F i 0)) by (rewrite map_length, seq_length; lia).
  rewrite (map_nth (F i)), seq_nth by lia. reflexivity.
Qed.
Lemma tab_ext m n F G : meq m n F G -> tab m n F = tab m n G.
Proof.
  intros E. unfold tab. f_equal. apply map_ext_in. intros i Hi. apply in_seq in Hi. apply map_ext_in. intros j Hj. apply in_seq in Hj.
  apply E; lia.
Qed.

(** ** lists *)
Lemma put_length {X} (l : list X) x v : x < length l -> length (put l x v) = length l.
Proof. intros H. unfold put. rewrite app_length, firstn_length. cbn [length]. rewrite skipn_length. lia. Qed.
Lemma map_put {X Y} (g : X -> Y) l x v : map g (put l x v) = put (map g l) x (g v).
Proof. unfold put. rewrite map_app, firstn_map. cbn [map]. now rewrite skipn_map. Qed.
Lemma put_same {X} (l : list X) x v : nth_error l x = Some v -> put l x v = l.
Proof.
  revert x. induction l as [|a l IH]; intros [|x] E; cbn in E; try discriminate.
  - injection E as ->. reflexivity.
  - unfold put in *. cbn [firstn skipn app]. f_equal. now apply IH.
Qed.
Lemma Forall2_put {X Y} (R : X -> Y -> Prop) l l' x v w : Forall2 R l l' -> x < length l -> R v w -> Forall2 R (put l x v) (put l' x w).
Proof.
  intros H. revert x. induction H; intros [|x0] Hx Hr; cbn in Hx; try lia; unfold put; cbn.
  - now constructor.
  - constructor; [easy|]. apply IHForall2; [lia|easy].
Qed.
Lemma Forall2_nth {X Y} (R : X -> Y -> Prop) l l' x w : Forall2 R l l' -> nth_error l' x = Some w -> exists v, nth_error l x = Some v /\ R v w.
Proof.
  intros H. revert x. induction H; intros [|x0] E; cbn in E; try discriminate.
  - injection E as <-. exists x. now split.
  - cbn. now apply IHForall2.
Qed.

Lemma rel_has f ks st S x k A : rel f ks st S -> has ks st x k A -> exists v, nth_error S x = Some v /\ kind_of v = k /\ stands f v A.
Proof.
  intros [-> H] [Hk HA]. destruct (Forall2_nth _ _ _ _ _ H HA) as (v & E & Hs). exists v. split; [exact E|]. split; [|exact Hs].
  rewrite (map_nth_error _ _ _ E) in Hk. congruence.
Qed.
Lemma has_p f ks st S x A : rel f ks st S -> has ks st x Packed A -> exists M, nth_error S x = Some (Pk M) /\ holds M f (a_m A) (a_n A) (val A).
Proof. intros R H. destruct (rel_has _ _ _ _ _ _ _ R H) as ([M|M] & E & K & Hs); [|discriminate]. now exists M. Qed.
Lemma has_s f ks st S x A : rel f ks st S -> has ks st x Sliced A -> exists M, nth_error S x = Some (Sl M) /\ sholds M f (a_m A) (a_n A) (val A).
Proof. intros R H. destruct (rel_has _ _ _ _ _ _ _ R H) as ([M|M] & E & K & Hs); [discriminate|]. now exists M. Qed.

Lemma rel_put f ks st S x v0 v A : rel f ks st S -> nth_error S x = Some v0 -> kind_of v = kind_of v0 -> stands f v A ->
  rel f ks (put st x A) (put S x v).
Proof.
  intros [-> H] E K Hs. split.
  - rewrite map_put, K. symmetry. apply put_same. now apply map_nth_error.
  - apply Forall2_put; auto. apply nth_error_Some. congruence.
Qed.
Lemma rel_new f ks st S v A : rel f ks st S -> stands f v A -> rel f (ks ++ [kind_of v]) (st ++ [A]) (S ++ [v]).
Proof. intros [-> H] Hs. split; [now rewrite map_app|]. apply Forall2_app; auto. Qed.

Lemma stands_tab_p f M m n F G : holds M f m n F -> meq m n F G -> stands f (Pk M) (tab m n G).
Proof.
  intros H E. cbn [stands tab a_m a_n]. eapply holds_ext; [exact H|]. intros i j Hi Hj. rewrite val_tab by easy. now apply E.
Qed.
Lemma stands_tab_s f M m n F G : sholds M f m n F -> meq m n F G -> stands f (Sl M) (tab m n G).
Proof.
  intros H E. cbn [stands tab a_m a_n]. eapply sh_ext; [exact H|]. intros i j Hi Hj. rewrite val_tab by easy. now apply E.
Qed.

Definition stepped (f : N) (ks : list kind) (r : res (state * out)) (P : list amat -> out -> Prop) : Prop :=
  exists S' o st', r = Ok (S', o) /\ P st' o /\ rel f ks st' S'.

(** the same for a call that changes matrix x, whose words beside its elements stay *)
Definition kept (v v' : mval) : Prop :=
  match v, v' with Pk A, Pk A' => kept_p A A' | Sl A, Sl A' => kept_s A A' | _, _ => False end.
Definition keeps (S : state) (x : nat) (S' : state) : Prop :=
  exists v v', nth_error S x = Some v /\ nth_error S' x = Some v' /\ kept v v'.
Definition steppedk (f : N) (ks : list kind) (S : state) (x : nat) (r : res (state * out)) (P : list amat -> out -> Prop) : Prop :=
  exists S' o st', r = Ok (S', o) /\ P st' o /\ rel f ks st' S' /\ keeps S x S'.
Lemma steppedk_stepped f ks S x r P : steppedk f ks S x r P -> stepped f ks r P.
Proof. intros (S' & o & st' & H1 & H2 & H3 & _). exists S', o, st'. auto. Qed.
Lemma nth_put {X} (l : list X) x v v0 : nth_error l x = Some v0 -> nth_error (put l x v) x = Some v.
Proof.
  revert x. induction l as [|a l IH]; intros [|x] E; cbn in E; try discriminate; [reflexivity|].
  unfold put in *. cbn [firstn skipn app nth_error]. now apply IH.
Qed.
Lemma keeps_put S x v v' : nth_error S x = Some v -> kept v v' -> keeps S x (put S x v').
Proof. intros E K. exists v, v'. split; [exact E|]. split; [eapply nth_put; eauto|exact K]. Qed.

Lemma get_some S x v : nth_error S x = Some v -> get S x = Ok v.
Proof. intros E. unfold get. now rewrite E. Qed.

Lemma in_place_ok f ks st S x k A p s F : rel f ks st S -> has ks st x k A ->
  (k = Packed -> forall M, holds M f (a_m A) (a_n A) (val A) -> exists M' G, p M = Ok M' /\ becomes M M' G /\ meq (a_m A) (a_n A) G (F (val A))) ->
  (k = Sliced -> forall M, sholds M f (a_m A) (a_n A) (val A) -> exists M' G, s M = Ok M' /\ sbecomes M M' G /\ meq (a_m A) (a_n A) G (F (val A))) ->
  steppedk f ks S x (in_place S x p s) (changes st x F).
Proof.
  intros R Hh Hp Hs. destruct (rel_has _ _ _ _ _ _ _ R Hh) as (v & E & K & Hv). unfold in_place. rewrite (get_some _ _ _ E). cbn [bind].
  destruct v as [M|M]; cbn [kind_of] in K; subst k.
  - destruct (Hp eq_refl M Hv) as (M' & G & EM & B & EG). rewrite EM. cbn [bind].
    exists (put S x (Pk M')), Nothing, (put st x (tab (a_m A) (a_n A) (F (val A)))). split; [reflexivity|]. split.
    + exists A. destruct Hh. auto.
    + split; [|eapply keeps_put; [exact E|]; cbn [kept]; eapply kept_of; eauto]. eapply rel_put; eauto. eapply stands_tab_p; [|exact EG]. eapply holds_becomes; eauto.
  - destruct (Hs eq_refl M Hv) as (M' & G & EM & B & EG). rewrite EM. cbn [bind].
    exists (put S x (Sl M')), Nothing, (put st x (tab (a_m A) (a_n A) (F (val A)))). split; [reflexivity|]. split.
    + exists A. destruct Hh. auto.
    + split; [|eapply keeps_put; [exact E|]; cbn [kept]; eapply skept_of; eauto]. eapply rel_put; eauto. eapply stands_tab_s; [|exact EG]. eapply sh_becomes; eauto.
Qed.

Lemma in_place2_ok f ks st S x y k A B p s F : rel f ks st S -> has ks st x k A -> has ks st y k B ->
  (k = Packed -> forall M N, holds M f (a_m A) (a_n A) (val A) -> holds N f (a_m B) (a_n B) (val B) -> exists M' G, p M N = Ok M' /\ becomes M M' G /\ meq (a_m A) (a_n A) G (F (val A))) ->
  (k = Sliced -> forall M N, sholds M f (a_m A) (a_n A) (val A) -> sholds N f (a_m B) (a_n B) (val B) -> exists M' G, s M N = Ok M' /\ sbecomes M M' G /\ meq (a_m A) (a_n A) G (F (val A))) ->
  steppedk f ks S x (in_place2 S x y p s) (changes st x F).
Proof.
  intros R Hx Hy Hp Hs. destruct (rel_has _ _ _ _ _ _ _ R Hy) as (w & E & K & Hv). unfold in_place2. rewrite (get_some _ _ _ E). cbn [bind].
  destruct w as [M|M]; cbn [kind_of] in K; subst k.
  - eapply in_place_ok; eauto; discriminate.
  - eapply in_place_ok; eauto; discriminate.
Qed.

Lemma get_p_ok f ks st S t m n xs : rel f ks st S -> fits ks st t Packed m n xs -> exists T, get_p S t = Ok T /\ target T f m n.
Proof.
  intros R H. destruct t as [x|]; [|exists None; now split]. destruct H as (T & Hh & <- & <- & _).
  destruct (has_p _ _ _ _ _ _ R Hh) as (M & E & (H1 & H2 & H3 & H4 & _)). exists (Some M). unfold get_p. rewrite E. split; [reflexivity|]. exact (conj H1 (conj H2 (conj H3 H4))).
Qed.
Lemma get_s_ok f ks st S t m n xs : rel f ks st S -> fits ks st t Sliced m n xs -> exists T, get_s S t = Ok T /\ starget T f m n.
Proof.
  intros R H. destruct t as [x|]; [|exists None; now split]. destruct H as (T & Hh & <- & <- & _).
  destruct (has_s _ _ _ _ _ _ R Hh) as (M & E & (H1 & H2 & H3 & H4 & _)). exists (Some M). unfold get_s. rewrite E. split; [reflexivity|]. exact (conj H1 (conj H2 (conj H3 H4))).
Qed.
Definition kstore (ks : list kind) (t : option nat) (k : kind) : list kind := match t with None => ks ++ [k] | Some _ => ks end.
Lemma rel_store f ks st S t k m n xs v A : rel f ks st S -> fits ks st t k m n xs -> kind_of v = k -> stands f v A ->
  rel f (kstore ks t k) (store st t A) (store S t v).
Proof.
  intros R H K Hs. destruct t as [x|]; cbn [store kstore].
  - destruct H as (T & Hh & _). destruct (rel_has _ _ _ _ _ _ _ R Hh) as (v0 & E & K0 & _). eapply rel_put; eauto. congruence.
  - subst k. now apply rel_new.
Qed.

Definition fills (st : list amat) (t : option nat) (m n : nat) (F : mat) (st' : list amat) (o : out) : Prop :=
  st' = store st t (tab m n F) /\ o = Nothing.
Lemma into_ok f ks st S t x k A m n xs p s F : rel f ks st S -> has ks st x k A -> fits ks st t k m n xs ->
  (k = Packed -> forall T M, target T f m n -> holds M f (a_m A) (a_n A) (val A) -> exists M' G, p T M = Ok M' /\ holds M' f m n G /\ meq m n G F) ->
  (k = Sliced -> forall T M, starget T f m n -> sholds M f (a_m A) (a_n A) (val A) -> exists M' G, s T M = Ok M' /\ sholds M' f m n G /\ meq m n G F) ->
  stepped f (kstore ks t k) (into S t x p s) (fills st t m n F).
Proof.
  intros R Hh Ht Hp Hs. destruct (rel_has _ _ _ _ _ _ _ R Hh) as (v & E & K & Hv). unfold into. rewrite (get_some _ _ _ E). cbn [bind].
  destruct v as [M|M]; cbn [kind_of] in K; subst k.
  - destruct (get_p_ok _ _ _ _ _ _ _ _ R Ht) as (T & ET & HT). rewrite ET. cbn [bind].
    destruct (Hp eq_refl T M HT Hv) as (M' & G & EM & B & EG). rewrite EM. cbn [bind].
    exists (store S t (Pk M')), Nothing, (store st t (tab m n F)). split; [reflexivity|]. split; [now split|].
    eapply rel_store; eauto. eapply stands_tab_p; eauto.
  - destruct (get_s_ok _ _ _ _ _ _ _ _ R Ht) as (T & ET & HT). rewrite ET. cbn [bind].
    destruct (Hs eq_refl T M HT Hv) as (M' & G & EM & B & EG). rewrite EM. cbn [bind].
    exists (store S t (Sl M')), Nothing, (store st t (tab m n F)). split; [reflexivity|]. split; [now split|].
    eapply rel_store; eauto. eapply stands_tab_s; eauto.
Qed.
Lemma into2_ok f ks st S t x y k A B m n xs p s F : rel f ks st S -> has ks st x k A -> has ks st y k B -> fits ks st t k m n xs ->
  (k = Packed -> forall T M N, target T f m n -> holds M f (a_m A) (a_n A) (val A) -> holds N f (a_m B) (a_n B) (val B) -> exists M' G, p T M N = Ok M' /\ holds M' f m n G /\ meq m n G F) ->
  (k = Sliced -> forall T M N, starget T f m n -> sholds M f (a_m A) (a_n A) (val A) -> sholds N f (a_m B) (a_n B) (val B) -> exists M' G, s T M N = Ok M' /\ sholds M' f m n G /\ meq m n G F) ->
  stepped f (kstore ks t k) (into2 S t x y p s) (fills st t m n F).
Proof.
  intros R Hx Hy Ht Hp Hs. destruct (rel_has _ _ _ _ _ _ _ R Hy) as (w & E & K & Hv). unfold into2. rewrite (get_some _ _ _ E). cbn [bind].
  destruct w as [M|M]; cbn [kind_of] in K; subst k.
  - eapply into_ok; eauto; discriminate.
  - eapply into_ok; eauto; discriminate.
Qed.
Lemma stepped_mono f ks r (P Q : list amat -> out -> Prop) : (forall st o, P st o -> Q st o) -> stepped f ks r P -> stepped f ks r Q.
Proof. intros H (S' & o & st' & E & HP & HR). exists S', o, st'. auto. Qed.

Lemma steppedk_mono f ks S x r (P Q : list amat -> out -> Prop) : (forall st o, P st o -> Q st o) -> steppedk f ks S x r P -> steppedk f ks S x r Q.
Proof. intros H (S' & o & st' & E & HP & HR). exists S', o, st'. destruct HR. auto. Qed.

(** ** the calls, one by one *)
Section Steps.
Variable f : N.
Variable cf : config.
Hypothesis CF : config_ok f cf.
Variables (ks : list kind) (st : list amat) (S : state).
Hypothesis R : rel f ks st S.

Ltac hd H := let a := fresh "W" in let b := fresh "Ef" in let c := fresh "Er" in let d := fresh "Ec" in let e := fresh "Ee" in
  pose proof H as (a & b & c & d & e).

Lemma step_new m n k : stepped f (ks ++ [k]) (run_cmd cf S (New m n) (As k)) (fun st' o => effect f st (New m n) st' o).
Proof.
  destruct CF as (F1 & F2 & F3 & _). destruct k; cbn [run_cmd].
  - destruct (proj1 (wp_iff _ _) (mzed_init_ok _ m n F1 F3)) as (A & E & _ & H & _). rewrite E. cbn [bind]. rewrite F2 in H.
    exists (S ++ [Pk A]), Nothing, (st ++ [tab m n mzero]). split; [reflexivity|]. split; [now split|].
    apply (rel_new f ks st S (Pk A)); auto. eapply stands_tab_p; [exact H|]. now intros i j _ _.
  - pose proof (slice_init_ok _ m n F1) as H. rewrite F2 in H.
    exists (S ++ [Sl (mzd_slice_init (cf_ff cf) m n)]), Nothing, (st ++ [tab m n mzero]). split; [reflexivity|]. split; [now split|].
    apply (rel_new f ks st S (Sl _)); auto. eapply stands_tab_s; [exact H|]. now intros i j _ _.
Qed.

Lemma step_set x i j v k A : has ks st x k A -> i < a_m A -> j < a_n A -> inF f v ->
  steppedk f ks S x (run_cmd cf S (SetElem x i j v) Default) (effect f st (SetElem x i j v)).
Proof.
  intros H Hi Hj Hv. eapply in_place_ok; eauto; intros _ M HM; hd HM.
  - destruct (C11_element_access M i j v) as (_ & (M' & E & B & _) & _); auto; try lia; [congruence|].
    exists M', (fun a b => if (a =? i) && (b =? j) then v else entry M a b). split; [exact E|]. split; [exact B|]. intros a b Ha Hb. now rewrite Ee.
  - destruct (C36_elements M i j v) as (_ & (M' & E & B) & _); auto; try lia; [congruence|].
    exists M', (fun a b => if (a =? i) && (b =? j) then v else sentry M a b). split; [exact E|]. split; [exact B|]. intros a b Ha Hb. now rewrite Ee.
Qed.

Lemma step_add_elem x i j v k A : has ks st x k A -> i < a_m A -> j < a_n A -> inF f v ->
  steppedk f ks S x (run_cmd cf S (AddElem x i j v) Default) (effect f st (AddElem x i j v)).
Proof.
  intros H Hi Hj Hv. eapply in_place_ok; eauto; intros _ M HM; hd HM.
  - destruct (C11_element_access M i j v) as (_ & _ & (M' & E & B)); auto; try lia; [congruence|].
    eexists M', _. split; [exact E|]. split; [exact B|]. intros a b Ha Hb. cbv beta. rewrite !Ee by lia.
    destruct (Nat.eqb_spec a i), (Nat.eqb_spec b j); subst; reflexivity.
  - destruct (C36_elements M i j v) as (_ & _ & (M' & E & B)); auto; try lia; [congruence|].
    eexists M', _. split; [exact E|]. split; [exact B|]. intros a b Ha Hb. cbv beta. now rewrite !Ee by lia.
Qed.
Lemma step_set_diag x v k A : has ks st x k A -> inF f v ->
  steppedk f ks S x (run_cmd cf S (SetDiag x v) Default) (effect f st (SetDiag x v)).
Proof.
  intros H Hv. eapply in_place_ok; eauto; intros _ M HM; hd HM.
  - destruct (C15_set_ui M v) as (M' & E & B); auto; [congruence|].
    eexists M', _. split; [exact E|]. split; [exact B|]. now intros a b Ha Hb.
  - destruct (C36_set_ui_copy_add M M None v) as ((M' & E & B) & _); auto; [exact Logic.I|congruence|].
    eexists M', _. split; [exact E|]. split; [exact B|]. now intros a b Ha Hb.
Qed.
Lemma step_row_swap x a b k A : has ks st x k A -> a < a_m A -> b < a_m A ->
  steppedk f ks S x (run_cmd cf S (RowSwap x a b) Default) (effect f st (RowSwap x a b)).
Proof.
  intros H Ha Hb. eapply in_place_ok; eauto; intros _ M HM; hd HM.
  - destruct (proj1 (C15_row_col_swap M a b W)) as (M' & E & B); try lia.
    eexists M', _. split; [exact E|]. split; [exact B|]. intros i j Hi Hj. cbv beta. unfold swapped. rewrite !Ee by lia. now destruct (i =? a), (i =? b).
  - destruct (proj1 (C36_rows_columns M a b 0 0 W)) as (M' & E & B); try lia.
    eexists M', _. split; [exact E|]. split; [exact B|]. intros i j Hi Hj. cbv beta. unfold swapped. destruct (i =? a), (i =? b); rewrite !Ee by lia; reflexivity.
Qed.
Lemma step_col_swap x a b k A : has ks st x k A -> a < a_n A -> b < a_n A ->
  steppedk f ks S x (run_cmd cf S (ColSwap x a b) Default) (effect f st (ColSwap x a b)).
Proof.
  intros H Ha Hb. eapply in_place_ok; eauto; intros _ M HM; hd HM.
  - destruct (proj1 (proj2 (C15_row_col_swap M a b W))) as (M' & E & B); try lia.
    eexists M', _. split; [exact E|]. split; [exact B|]. intros i j Hi Hj. cbv beta. unfold swapped. rewrite !Ee by lia. now destruct (j =? a), (j =? b).
  - destruct (proj1 (proj2 (proj2 (C36_rows_columns M a b 0 0 W)))) as (M' & E & B); try lia.
    eexists M', _. split; [exact E|]. split; [exact B|]. intros i j Hi Hj. cbv beta. unfold swapped. destruct (j =? a), (j =? b); rewrite !Ee by lia; reflexivity.
Qed.
Lemma step_row_add x s d k A : has ks st x k A -> s < a_m A -> d < a_m A ->
  steppedk f ks S x (run_cmd cf S (RowAdd x s d) Default) (effect f st (RowAdd x s d)).
Proof.
  intros H Ha Hb. eapply in_place_ok; eauto; intros _ M HM; hd HM.
  - destruct (proj2 (C15_row_copy_add M M W W eq_refl) s d) as (M' & E & B); try lia.
    eexists M', _. split; [exact E|]. split; [exact B|]. intros i j Hi Hj. cbv beta. now rewrite !Ee by lia.
  - destruct (proj1 (proj2 (C36_rows_columns M s d 0 0 W))) as (M' & E & B); try lia.
    eexists M', _. split; [exact E|]. split; [exact B|]. intros i j Hi Hj. cbv beta. now rewrite !Ee by lia.
Qed.
Lemma step_row_add_mul x i y j v s A B : has ks st x Packed A -> has ks st y Packed B -> inF f v ->
  a_n A = a_n B -> i < a_m A -> j < a_m B -> s < a_n A ->
  steppedk f ks S x (run_cmd cf S (RowAddMul x i y j v s) Default) (effect f st (RowAddMul x i y j v s)).
Proof.
  intros Hx Hy Hv En Hi Hj Hs. eapply steppedk_mono; [|eapply in_place2_ok with (F := fun A a b => if (a =? i) && (s <=? b) then N.lxor (A a b) (fmul f v (val B j b)) else A a b); eauto; [|discriminate]].
  - cbn [effect]. intros st' o Hc. exists B. destruct Hy. auto.
  - intros _ M M2 HM HM2. hd HM. hd HM2.
    destruct (C12_add_multiple_of_row M i M2 j v s) as (M' & E & Bc); auto; try lia; [congruence|].
    eexists M', _. split; [exact E|]. split; [exact Bc|]. intros a b Ha Hb. cbv beta. rewrite Ef. rewrite !Ee, !Ee0 by lia.
    destruct (Nat.eqb_spec a i); subst; reflexivity.
Qed.
Lemma step_row_scale x i s v k A : has ks st x k A -> inF f v -> i < a_m A -> s < a_n A -> (k = Sliced -> i = 0) ->
  steppedk f ks S x (run_cmd cf S (RowScale x i s v) Default) (effect f st (RowScale x i s v)).
Proof.
  intros H Hv Hi Hs H0. eapply in_place_ok; eauto; intros K M HM; hd HM.
  - destruct (C14_rescale_row M i s v) as (M' & E & B); auto; try lia; [congruence|].
    eexists M', _. split; [exact E|]. split; [exact B|]. intros a b Ha Hb. cbv beta. rewrite Ef, !Ee by lia. destruct (Nat.eqb_spec a i); subst; reflexivity.
  - rewrite (H0 K) in *. destruct CF as (F1 & F2 & F3 & _).
    assert (D : 2 <= sl_depth M). { pose proof (wfs_deg M W) as Q. rewrite Ef in Q. destruct F1 as (_ & Dg & _). rewrite F2 in Dg. lia. }
    destruct (C40_rescale_row M s v) as (M' & E & B); auto; try lia; [congruence|].
    eexists M', _. split; [exact E|]. split; [exact B|]. intros a b Ha Hb. cbv beta. now rewrite Ef, !Ee by lia.
Qed.
Lemma step_row_copy x i y j k A B : has ks st x k A -> has ks st y k B -> i < a_m A -> j < a_m B -> a_n B <= a_n A ->
  steppedk f ks S x (run_cmd cf S (RowCopy x i y j) Default) (effect f st (RowCopy x i y j)).
Proof.
  intros Hx Hy Hi Hj Hn. eapply steppedk_mono; [|eapply in_place2_ok with (F := fun A a b => if (a =? i) && (b <? a_n B) then val B j b else A a b); eauto].
  - cbn [effect]. intros st' o Hc. exists B. destruct Hy. auto.
  - intros _ M M2 HM HM2. hd HM. hd HM2.
    destruct (proj1 (C15_row_copy_add M2 M W0 W ltac:(congruence)) i j) as (M' & E & Bc); try lia.
    eexists M', _. split; [exact E|]. split; [exact Bc|]. intros a b Ha Hb. cbv beta. rewrite Ec0.
    destruct (a =? i); cbn [andb]; [|now rewrite Ee]. destruct (Nat.ltb_spec b (a_n B)); [now rewrite Ee0|now rewrite Ee].
  - intros _ M M2 HM HM2. hd HM. hd HM2.
    destruct (C36_copy_row M i M2 j) as (M' & E & Bc); auto; try lia.
    eexists M', _. split; [exact E|]. split; [exact Bc|]. intros a b Ha Hb. cbv beta. rewrite Ec0.
    destruct (a =? i); cbn [andb]; [|now rewrite Ee]. destruct (Nat.ltb_spec b (a_n B)); [now rewrite Ee0|now rewrite Ee].
Qed.

Lemma target_eq T g m n g' m' n' : target T g m n -> g = g' -> m = m' -> n = n' -> target T g' m' n'.
Proof. now intros H -> -> ->. Qed.
Lemma starget_eq T g m n g' m' n' : starget T g m n -> g = g' -> m = m' -> n = n' -> starget T g' m' n'.
Proof. now intros H -> -> ->. Qed.
Lemma holds_eq T g m n g' m' n' F : holds T g m n F -> g = g' -> m = m' -> n = n' -> holds T g' m' n' F.
Proof. now intros H -> -> ->. Qed.
Lemma sholds_eq T g m n g' m' n' F : sholds T g m n F -> g = g' -> m = m' -> n = n' -> sholds T g' m' n' F.
Proof. now intros H -> -> ->. Qed.
Ltac tg := match goal with H : target ?T _ _ _ |- target ?T _ _ _ => eapply target_eq; [exact H|..]; try congruence; try lia
                         | H : starget ?T _ _ _ |- starget ?T _ _ _ => eapply starget_eq; [exact H|..]; try congruence; try lia end.
(** close "exists M' G, op = Ok M' /\ holds M' .. G /\ meq .. G F" from E : op = Ok M' and H : holds M' .. *)
Ltac done E H := eexists _, _; split; [exact E|]; split; [first [eapply holds_eq|eapply sholds_eq]; [exact H|..]; try congruence; try lia|].

Lemma step_copy t x k A : has ks st x k A -> fits ks st t k (a_m A) (a_n A) [x] ->
  stepped f (kstore ks t k) (run_cmd cf S (Copy t x) Default) (effect f st (Copy t x)).
Proof.
  intros Hx Ht. eapply stepped_mono; [|eapply into_ok; eauto; intros _ T M HT HM; hd HM].
  - intros st' o [-> ->]. exists A. destruct Hx. auto.
  - destruct (proj1 (C15_copy T M W)) as (M' & E & Hc); [tg|]. done E Hc. intros i j Hi Hj. now apply Ee.
  - assert (Hv : inF (ff_minpoly (sl_ff M)) 0) by (unfold inF; apply N.neq_0_lt_0; now apply N.pow_nonzero).
    destruct (C36_set_ui_copy_add M M T 0 W W eq_refl eq_refl eq_refl ltac:(tg) Hv) as (_ & (M' & E & Hc) & _).
    done E Hc. intros i j Hi Hj. now apply Ee.
Qed.
Lemma step_convert t x k A : has ks st x k A -> fits ks st t (flip k) (a_m A) (a_n A) [] ->
  stepped f (kstore ks t (flip k)) (run_cmd cf S (Copy t x) Convert) (effect f st (Copy t x)).
Proof.
  intros Hx Ht. destruct (rel_has _ _ _ _ _ _ _ R Hx) as (v & E & K & Hv). cbn [run_cmd]. rewrite (get_some _ _ _ E). cbn [bind].
  destruct v as [M|M]; cbn [kind_of] in K; subst k; cbn [flip stands] in *; hd Hv.
  - destruct (get_s_ok _ _ _ _ _ _ _ _ R Ht) as (T & ET & HT). rewrite ET. cbn [bind].
    destruct (C35_slice T M W ltac:(tg)) as (M' & EM & HM & _). rewrite EM. cbn [bind]. rewrite Ef, Er, Ec in HM.
    exists (store S t (Sl M')), Nothing, (store st t (tab (a_m A) (a_n A) (val A))). split; [reflexivity|]. split.
    + exists A. destruct Hx. auto.
    + eapply rel_store; eauto. eapply stands_tab_s; [exact HM|]. intros i j Hi Hj. now apply Ee.
  - destruct (get_p_ok _ _ _ _ _ _ _ _ R Ht) as (T & ET & HT). rewrite ET. cbn [bind].
    assert (D : 2 <= sl_depth M). { destruct CF as (F1 & F2 & F3 & _). pose proof (wfs_deg M W) as Q. rewrite Ef in Q. destruct F1 as (_ & Dg & _). rewrite F2 in Dg. lia. }
    destruct (C35_cling T M W D ltac:(tg)) as (M' & EM & HM & _). rewrite EM. cbn [bind]. rewrite Ef, Er, Ec in HM.
    exists (store S t (Pk M')), Nothing, (store st t (tab (a_m A) (a_n A) (val A))). split; [reflexivity|]. split.
    + exists A. destruct Hx. auto.
    + eapply rel_store; eauto. eapply stands_tab_p; [exact HM|]. intros i j Hi Hj. now apply Ee.
Qed.
Lemma step_add t x y k A B : has ks st x k A -> has ks st y k B -> a_m A = a_m B -> a_n A = a_n B -> fits ks st t k (a_m A) (a_n A) [x; y] ->
  stepped f (kstore ks t k) (run_cmd cf S (Add t x y) Default) (effect f st (Add t x y)).
Proof.
  intros Hx Hy E1 E2 Ht. eapply stepped_mono; [|eapply into2_ok; [exact R|exact Hx|exact Hy|exact Ht|..]; intros _ T M M2 HT HM HM2; hd HM; hd HM2].
  - intros st' o [-> ->]. exists A, B. destruct Hx, Hy. auto.
  - destruct (proj1 (C15_add T M M2 W W0)) as (M' & E & Hc); [congruence|lia|lia|tg|]. done E Hc.
    intros i j Hi Hj. unfold madd. now rewrite Ee, Ee0 by lia.
  - assert (Hv : inF (ff_minpoly (sl_ff M)) 0) by (unfold inF; apply N.neq_0_lt_0; now apply N.pow_nonzero).
    destruct (C36_set_ui_copy_add M M2 T 0 W W0) as (_ & _ & (M' & E & Hc)); [congruence|lia|lia|tg|exact Hv|].
    done E Hc. intros i j Hi Hj. unfold madd. now rewrite Ee, Ee0 by lia.
Qed.
Lemma step_scale t v x k A : has ks st x k A -> inF f v -> fits ks st t k (a_m A) (a_n A) [x] -> scale_ok f k (a_m A) (a_n A) ->
  stepped f (kstore ks t k) (run_cmd cf S (Scale t v x) Default) (effect f st (Scale t v x)).
Proof.
  intros Hx Hv Ht Hk. eapply stepped_mono; [|eapply into_ok; [exact R|exact Hx|exact Ht|..]; intros Kk T M HT HM; hd HM; subst k].
  - intros st' o [-> ->]. exists A. destruct Hx. auto.
  - destruct Hk as (K1 & K2 & K3).
    assert (D : ff_degree (mz_ff M) = deg f). { destruct W as ((_ & Dg & _) & _). rewrite Ef in Dg. unfold deg. lia. }
    destruct (C18_mul_scalar T v M W) as (M' & E & Hc); [congruence|tg| | | |].
    + lia.
    + rewrite D, Er, Ec. exact K2.
    + rewrite D, Er, Ec. exact K3.
    + done E Hc. intros i j Hi Hj. unfold mscal. now rewrite Ef, Ee by lia.
  - destruct T as [T|].
    + destruct HT as (T1 & T2 & T3 & T4).
      destruct (C39_scalar T v M W T1) as (_ & (M' & E & Hc) & _); try congruence.
      done E Hc. intros i j Hi Hj. unfold mscal. now rewrite Ef, Ee by lia.
    + destruct (C39_scalar M v M W W) as (_ & _ & (M' & E & Hc)); try congruence.
      done E Hc. intros i j Hi Hj. unfold mscal. now rewrite Ef, Ee by lia.
Qed.
Lemma step_concat t x y k A B : has ks st x k A -> has ks st y k B -> a_m A = a_m B -> fits ks st t k (a_m A) (a_n A + a_n B) [x; y] ->
  stepped f (kstore ks t k) (run_cmd cf S (Concat t x y) Default) (effect f st (Concat t x y)).
Proof.
  intros Hx Hy E1 Ht. eapply stepped_mono; [|eapply into2_ok; [exact R|exact Hx|exact Hy|exact Ht|..]; intros _ T M M2 HT HM HM2; hd HM; hd HM2].
  - intros st' o [-> ->]. exists A, B. destruct Hx, Hy. auto.
  - destruct (proj1 (C15_concat T M M2 W W0 ltac:(congruence))) as (M' & E & Hc); [lia|tg|]. done E Hc.
    intros i j Hi Hj. cbv beta. rewrite Ec. destruct (Nat.ltb_spec j (a_n A)); [rewrite Ee by lia|rewrite Ee0 by lia]; reflexivity.
  - destruct (proj1 (C36_concat_stack_submatrix T M M2 W W0 ltac:(congruence))) as (M' & E & Hc); [lia|tg|]. done E Hc.
    intros i j Hi Hj. cbv beta. rewrite Ec. destruct (Nat.ltb_spec j (a_n A)); [rewrite Ee by lia|rewrite Ee0 by lia]; reflexivity.
Qed.
Lemma step_stack t x y k A B : has ks st x k A -> has ks st y k B -> a_n A = a_n B -> fits ks st t k (a_m A + a_m B) (a_n A) [x; y] ->
  stepped f (kstore ks t k) (run_cmd cf S (Stack t x y) Default) (effect f st (Stack t x y)).
Proof.
  intros Hx Hy E1 Ht. eapply stepped_mono; [|eapply into2_ok; [exact R|exact Hx|exact Hy|exact Ht|..]; intros _ T M M2 HT HM HM2; hd HM; hd HM2].
  - intros st' o [-> ->]. exists A, B. destruct Hx, Hy. auto.
  - destruct (proj1 (C15_stack T M M2 W W0 ltac:(congruence))) as (M' & E & Hc); [lia|tg|]. done E Hc.
    intros i j Hi Hj. cbv beta. rewrite Er. destruct (Nat.ltb_spec i (a_m A)); [rewrite Ee by lia|rewrite Ee0 by lia]; reflexivity.
  - destruct (proj1 (proj2 (C36_concat_stack_submatrix T M M2 W W0 ltac:(congruence)))) as (M' & E & Hc); [lia|tg|]. done E Hc.
    intros i j Hi Hj. cbv beta. rewrite Er. destruct (Nat.ltb_spec i (a_m A)); [rewrite Ee by lia|rewrite Ee0 by lia]; reflexivity.
Qed.
Lemma step_sub t x lr lc hr hc k A : has ks st x k A -> lr <= hr <= a_m A -> lc <= hc <= a_n A -> fits ks st t k (hr - lr) (hc - lc) [x] ->
  stepped f (kstore ks t k) (run_cmd cf S (Sub t x lr lc hr hc) Default) (effect f st (Sub t x lr lc hr hc)).
Proof.
  intros Hx H1 H2 Ht. eapply stepped_mono; [|eapply into_ok; [exact R|exact Hx|exact Ht|..]; intros _ T M HT HM; hd HM].
  - intros st' o [-> ->]. exists A. destruct Hx. auto.
  - destruct (C15_submatrix T M lr lc hr hc W ltac:(lia) ltac:(lia)) as (M' & E & Hc); [tg|]. done E Hc.
    intros i j Hi Hj. cbv beta. now rewrite Ee by lia.
  - destruct (proj2 (proj2 (C36_concat_stack_submatrix T M M W W eq_refl)) lr lc hr hc ltac:(lia) ltac:(lia)) as (M' & E & Hc); [tg|]. done E Hc.
    intros i j Hi Hj. cbv beta. now rewrite Ee by lia.
Qed.

(** *** products *)
Lemma slot_w M : wf_mzed M -> ff_minpoly (mz_ff M) = f -> mz_w M = slot (deg f).
Proof.
  intros W Ef. pose proof W as ((_ & Dg & _) & Ww & _). rewrite Ef in Dg. unfold gf2e_degree_to_w in Ww. unfold deg.
  assert (ED : N.to_nat (pdeg f) = ff_degree (mz_ff M)) by lia. rewrite ED. clear - Ww. revert Ww. generalize (ff_degree (mz_ff M)) as d. intros d.
  do 17 (destruct d as [|d]; [cbn; intros; congruence|]). cbn. discriminate.
Qed.
Lemma fuel_p M : wf_mzed M -> ff_degree (mz_ff M) * ff_degree (mz_ff M) + ff_degree (mz_ff M) <= BLM_FUEL.
Proof. intros (((_ & D) & _) & _). unfold BLM_FUEL. nia. Qed.
Lemma fuel_s M : wf_slice M -> sl_depth M * sl_depth M + sl_depth M <= BLM_FUEL.
Proof. intros (((_ & D) & _) & -> & _). unfold BLM_FUEL. nia. Qed.

Lemma p_mul_ok ch T M M2 A B : target T f (a_m A) (a_n B) -> holds M f (a_m A) (a_n A) (val A) -> holds M2 f (a_m B) (a_n B) (val B) -> a_n A = a_m B ->
  product_ok f Packed ch (a_n B) ->
  exists M' G, p_mul cf ch T M M2 = Ok M' /\ holds M' f (a_m A) (a_n B) G /\ meq (a_m A) (a_n B) G (mmul f (a_n A) (val A) (val B)).
Proof.
  intros HT HM HM2 En Hp. hd HM. hd HM2. destruct CF as (F1 & F2 & F3 & F4 & F5 & F6 & F7 & F8).
  assert (E : meq (a_m A) (a_n B) (mmul (fld M) (mz_ncols M) (entry M) (entry M2)) (mmul f (a_n A) (val A) (val B))).
  { rewrite Ef, Ec. apply mmul_ext; intros i j Hi Hj; [apply Ee|apply Ee0]; lia. }
  assert (K : exists M', p_mul cf ch T M M2 = Ok M' /\ holds M' (fld M) (mz_nrows M) (mz_ncols M2) (mmul (fld M) (mz_ncols M) (entry M) (entry M2))).
  { destruct ch; cbn [product_ok] in Hp; try contradiction; cbn [p_mul].
    - apply C24_mul; auto; [congruence|lia|lia|tg].
    - destruct (proj1 (C19_mul_naive T M M2 W W0)) as (X & _); auto; [congruence|lia|tg].
    - destruct (C22_mul_newton_john (cf_mulbs cf) T M M2) as (X & _); auto; [congruence|lia|lia|tg].
    - destruct Hp as (Hp & Hcut). destruct (C23_mul_strassen (cf_mulbs cf) T M M2 cutoff) as (X & _); auto; [congruence|lia|lia|tg|].
      rewrite (slot_w M W Ef). exact Hcut.
    - apply C37_packed_mul; auto; [congruence|lia|tg].
    - destruct (C52_mzed_mul BLM_FUEL (cf_x cf) T M M2) as (M' & E1 & E2 & _); auto using fuel_p; [congruence|lia|tg|].
      exists M'. rewrite E1. now split. }
  destruct K as (M' & E1 & E2). exists M', (mmul (fld M) (mz_ncols M) (entry M) (entry M2)). split; [exact E1|]. split; [|exact E].
  eapply holds_eq; [exact E2|..]; try congruence.
Qed.
Lemma s_mul_ok ch T M M2 A B : starget T f (a_m A) (a_n B) -> sholds M f (a_m A) (a_n A) (val A) -> sholds M2 f (a_m B) (a_n B) (val B) -> a_n A = a_m B ->
  product_ok f Sliced ch (a_n B) ->
  exists M' G, s_mul cf ch T M M2 = Ok M' /\ sholds M' f (a_m A) (a_n B) G /\ meq (a_m A) (a_n B) G (mmul f (a_n A) (val A) (val B)).
Proof.
  intros HT HM HM2 En Hp. hd HM. hd HM2. destruct CF as (F1 & F2 & F3 & F4 & F5 & F6 & F7 & F8).
  assert (E : meq (a_m A) (a_n B) (mmul (sfld M) (sl_ncols M) (sentry M) (sentry M2)) (mmul f (a_n A) (val A) (val B))).
  { rewrite Ef, Ec. apply mmul_ext; intros i j Hi Hj; [apply Ee|apply Ee0]; lia. }
  assert (K : exists M', s_mul cf ch T M M2 = Ok M' /\ sholds M' (sfld M) (sl_nrows M) (sl_ncols M2) (mmul (sfld M) (sl_ncols M) (sentry M) (sentry M2))).
  { destruct ch; cbn [product_ok] in Hp; try contradiction; cbn [s_mul].
    - apply C37_mul; auto; [congruence|lia|tg].
    - apply C37_mul; auto; [congruence|lia|tg].
    - destruct (C52_slice_mul BLM_FUEL (cf_x cf) T M M2 None) as (M' & E1 & E2 & _); auto using fuel_s; [congruence|lia|tg|].
      exists M'. rewrite E1. now split. }
  destruct K as (M' & E1 & E2). exists M', (mmul (sfld M) (sl_ncols M) (sentry M) (sentry M2)). split; [exact E1|]. split; [|exact E].
  eapply sholds_eq; [exact E2|..]; try congruence.
Qed.
Lemma step_mul t x y k A B ch : has ks st x k A -> has ks st y k B -> a_n A = a_m B -> fits ks st t k (a_m A) (a_n B) [x; y] -> product_ok f k ch (a_n B) ->
  stepped f (kstore ks t k) (run_cmd cf S (Mul t x y) ch) (effect f st (Mul t x y)).
Proof.
  intros Hx Hy En Ht Hp. eapply stepped_mono; [|eapply into2_ok; [exact R|exact Hx|exact Hy|exact Ht|..]; intros -> T M M2 HT HM HM2].
  - intros st' o [-> ->]. exists A, B. destruct Hx, Hy. auto.
  - now apply p_mul_ok.
  - now apply s_mul_ok.
Qed.

Lemma p_addmul_ok ch C M M2 A B c : holds C f (a_m A) (a_n B) c -> holds M f (a_m A) (a_n A) (val A) -> holds M2 f (a_m B) (a_n B) (val B) -> a_n A = a_m B ->
  product_ok f Packed ch (a_n B) ->
  exists M', p_addmul cf ch C M M2 = Ok M' /\ holds M' f (a_m A) (a_n B) (madd c (mmul f (a_n A) (val A) (val B))) /\ kept_p C M'.
Proof.
  intros HC HM HM2 En Hp. hd HM. hd HM2. hd HC. destruct CF as (F1 & F2 & F3 & F4 & F5 & F6 & F7 & F8).
  assert (E : meq (a_m A) (a_n B) (madd (entry C) (mmul (fld M) (mz_ncols M) (entry M) (entry M2))) (madd c (mmul f (a_n A) (val A) (val B)))).
  { intros i j Hi Hj. unfold madd. rewrite Ee1 by lia. f_equal. rewrite Ef, Ec. revert i j Hi Hj. change (meq (a_m A) (a_n B) (mmul f (a_n A) (entry M) (entry M2)) (mmul f (a_n A) (val A) (val B))).
    apply mmul_ext; intros i j Hi Hj; [apply Ee|apply Ee0]; lia. }
  assert (HT : target (Some C) f (a_m A) (a_n B)) by (exact (conj W1 (conj Ef1 (conj Er1 Ec1)))).
  assert (K : exists M', p_addmul cf ch C M M2 = Ok M' /\ holds M' (fld M) (mz_nrows M) (mz_ncols M2) (madd (entry C) (mmul (fld M) (mz_ncols M) (entry M) (entry M2)))).
  { destruct ch; cbn [product_ok] in Hp; try contradiction; cbn [p_addmul].
    - apply (C24_addmul _ _ (Some C)); auto; [congruence|lia|lia|tg].
    - destruct (proj1 (C19_mul_naive (Some C) M M2 W W0)) as (_ & X); auto; [congruence|lia|tg].
    - destruct (C22_mul_newton_john (cf_mulbs cf) (Some C) M M2) as (_ & X); auto; [congruence|lia|lia|tg].
    - destruct Hp as (Hp & Hcut). destruct (C23_mul_strassen (cf_mulbs cf) (Some C) M M2 cutoff) as (_ & X); auto; [congruence|lia|lia|tg|].
      rewrite (slot_w M W Ef). exact Hcut.
    - destruct (C37_packed_addmul C M M2) as (M' & E1 & E2); auto; try lia; try congruence. exists M'. split; [exact E1|].
      eapply holds_eq; [eapply holds_becomes; [exact HC|exact E2]|..]; congruence.
    - destruct (C52_mzed_addmul BLM_FUEL (cf_x cf) C M M2) as (M' & E1 & E2); auto using fuel_p; try lia; try congruence.
      exists M'. rewrite E1. split; [reflexivity|]. eapply holds_eq; [eapply holds_becomes; [exact HC|exact E2]|..]; congruence. }
  assert (Q : wp (p_addmul cf ch C M M2) (kept_p C)).
  { clear K. destruct ch; cbn [product_ok] in Hp; try contradiction; cbn [p_addmul].
    - apply mul_frame; auto; try congruence; lia.
    - apply naive_frame; auto; try congruence; lia.
    - apply nj_frame; auto; try congruence; lia.
    - destruct Hp as (Hp & Hcut). apply strassen_frame; auto; try congruence; try lia. rewrite (slot_w M W Ef). exact Hcut.
    - destruct (C37_packed_addmul C M M2) as (M' & -> & E2); auto; try lia; try congruence. cbn [wp]. eapply kept_of; eauto.
    - destruct (C52_mzed_addmul BLM_FUEL (cf_x cf) C M M2) as (M' & -> & E2); auto using fuel_p; try lia; try congruence. cbn [ended wp]. eapply kept_of; eauto. }
  destruct K as (M' & E1 & E2). rewrite E1 in Q. exists M'. split; [exact E1|]. split; [|exact Q]. eapply holds_ext; [|exact E]. eapply holds_eq; [exact E2|..]; try congruence.
Qed.
Lemma s_addmul_ok ch C M M2 A B c : sholds C f (a_m A) (a_n B) c -> sholds M f (a_m A) (a_n A) (val A) -> sholds M2 f (a_m B) (a_n B) (val B) -> a_n A = a_m B ->
  accumulate_ok f Sliced ch (a_n B) ->
  exists M', s_addmul cf ch C M M2 = Ok M' /\ sholds M' f (a_m A) (a_n B) (madd c (mmul f (a_n A) (val A) (val B))) /\ kept_s C M'.
Proof.
  intros HC HM HM2 En Hp. hd HM. hd HM2. hd HC. destruct CF as (F1 & F2 & F3 & F4 & F5 & F6 & F7 & F8).
  assert (E : meq (a_m A) (a_n B) (madd (sentry C) (mmul (sfld M) (sl_ncols M) (sentry M) (sentry M2))) (madd c (mmul f (a_n A) (val A) (val B)))).
  { intros i j Hi Hj. unfold madd. rewrite Ee1 by lia. f_equal. rewrite Ef, Ec. revert i j Hi Hj. change (meq (a_m A) (a_n B) (mmul f (a_n A) (sentry M) (sentry M2)) (mmul f (a_n A) (val A) (val B))).
    apply mmul_ext; intros i j Hi Hj; [apply Ee|apply Ee0]; lia. }
  assert (HT : starget (Some C) f (a_m A) (a_n B)) by (exact (conj W1 (conj Ef1 (conj Er1 Ec1)))).
  assert (K : exists M', s_addmul cf ch C M M2 = Ok M' /\ sholds M' (sfld M) (sl_nrows M) (sl_ncols M2) (madd (sentry C) (mmul (sfld M) (sl_ncols M) (sentry M) (sentry M2)))).
  { assert (Dk : exists M', mzd_slice_addmul (Some C) M M2 = Ok M' /\ sholds M' (sfld M) (sl_nrows M) (sl_ncols M2) (madd (sentry C) (mmul (sfld M) (sl_ncols M) (sentry M) (sentry M2)))).
    { destruct (C37_addmul C M M2) as (M' & E1 & E2); auto; try lia; try congruence. exists M'. split; [exact E1|].
      eapply sholds_eq; [eapply sh_becomes; [exact HC|exact E2]|..]; congruence. }
    destruct Hp as [Hp|[_ ->]].
    - destruct ch; cbn [product_ok] in Hp; try contradiction; cbn [s_addmul]; try exact Dk.
      destruct (C52_slice_addmul BLM_FUEL (cf_x cf) C M M2 None) as (M' & E1 & E2); auto using fuel_s; try lia; try congruence; try exact Logic.I.
      exists M'. rewrite E1. split; [reflexivity|]. eapply sholds_eq; [eapply sh_becomes; [exact HC|exact E2]|..]; congruence.
    - cbn [s_addmul]. apply (C38_addmul_naive (Some C)); auto; [congruence|lia|tg]. }
  assert (Q : wp (s_addmul cf ch C M M2) (kept_s C)).
  { clear K. assert (Dk : wp (mzd_slice_addmul (Some C) M M2) (kept_s C)).
    { destruct (C37_addmul C M M2) as (M' & -> & E2); auto; try lia; try congruence. cbn [wp]. eapply skept_of; eauto. }
    destruct Hp as [Hp|[_ ->]].
    - destruct ch; cbn [product_ok] in Hp; try contradiction; cbn [s_addmul]; try exact Dk.
      destruct (C52_slice_addmul BLM_FUEL (cf_x cf) C M M2 None) as (M' & -> & E2); auto using fuel_s; try lia; try congruence; try exact Logic.I.
      cbn [ended wp]. eapply skept_of; eauto.
    - cbn [s_addmul]. eapply wp_mono; [apply (slice_addmul_naive_ok (Some C)); auto; [congruence|lia|tg]|]. cbv beta. intros M' (_ & B'). eapply skept_of; eauto. }
  destruct K as (M' & E1 & E2). rewrite E1 in Q. exists M'. split; [exact E1|]. split; [|exact Q]. eapply sh_ext; [|exact E]. eapply sholds_eq; [exact E2|..]; try congruence.
Qed.
Lemma step_addmul t x y k A B ch : has ks st x k A -> has ks st y k B -> a_n A = a_m B -> fits ks st (Some t) k (a_m A) (a_n B) [x; y] -> accumulate_ok f k ch (a_n B) ->
  steppedk f ks S t (run_cmd cf S (AddMul t x y) ch) (effect f st (AddMul t x y)).
Proof.
  intros Hx Hy En Ht Hp. destruct Ht as (C & Hc & Em & Ecn & _). cbn [run_cmd].
  assert (Q : forall M st' o, holds M f (a_m C) (a_n C) (val C) -> o = Nothing -> st' = put st t (tab (a_m C) (a_n C) (madd (val C) (mmul f (a_n A) (val A) (val B)))) -> effect f st (AddMul t x y) st' o).
  { intros M st' o _ -> ->. exists A, B. destruct Hx, Hy, Hc. split; [easy|]. split; [easy|]. exists C. auto. }
  destruct k.
  - destruct (has_p _ _ _ _ _ _ R Hx) as (M & E & HM). rewrite (get_some _ _ _ E). cbn [bind].
    destruct (has_p _ _ _ _ _ _ R Hy) as (M2 & E2 & HM2). unfold in_place2. rewrite (get_some _ _ _ E2). cbn [bind].
    destruct (has_p _ _ _ _ _ _ R Hc) as (M3 & E3 & HM3). unfold in_place. rewrite (get_some _ _ _ E3). cbn [bind].
    destruct Hp as [Hp|[? _]]; [|discriminate]. pose proof HM3 as HM4. rewrite Em, Ecn in HM4.
    destruct (p_addmul_ok ch M3 M M2 A B _ HM4 HM HM2 En Hp) as (M' & E4 & H4 & Kp). rewrite E4. cbn [bind].
    eexists _, Nothing, _. split; [reflexivity|]. split; [now eapply Q; eauto|]. split; [|eapply keeps_put; [exact E3|exact Kp]]. eapply rel_put; eauto. rewrite <- Em, <- Ecn in H4.
    eapply stands_tab_p; [exact H4|apply meq_refl].
  - destruct (has_s _ _ _ _ _ _ R Hx) as (M & E & HM). rewrite (get_some _ _ _ E). cbn [bind].
    destruct (has_s _ _ _ _ _ _ R Hy) as (M2 & E2 & HM2). unfold in_place2. rewrite (get_some _ _ _ E2). cbn [bind].
    destruct (has_s _ _ _ _ _ _ R Hc) as (M3 & E3 & HM3). unfold in_place. rewrite (get_some _ _ _ E3). cbn [bind].
    pose proof HM3 as HM4. rewrite Em, Ecn in HM4.
    destruct (s_addmul_ok ch M3 M M2 A B _ HM4 HM HM2 En Hp) as (M' & E4 & H4 & Kp). rewrite E4. cbn [bind].
    eexists _, Nothing, (put st t (tab (a_m C) (a_n C) (madd (val C) (mmul f (a_n A) (val A) (val B))))). split; [reflexivity|]. split.
    { exists A, B. destruct Hx, Hy, Hc. split; [easy|]. split; [easy|]. exists C. auto. }
    split; [|eapply keeps_put; [exact E3|exact Kp]]. eapply rel_put; eauto. rewrite <- Em, <- Ecn in H4. eapply stands_tab_s; [exact H4|apply meq_refl].
Qed.

(** *** inversion, triangular systems, echelon forms *)
Lemma inverse_ext_l m A A' V : inverse f m A V -> meq m m A A' -> inverse f m A' V.
Proof.
  intros (H1 & H2 & H3 & H4) E. split; [|split; [exact H2|split]].
  - intros i j Hi Hj. rewrite <- E by easy. now apply H1.
  - eapply meq_trans; [|exact H3]. apply mmul_ext; [now apply meq_sym|apply meq_refl].
  - eapply meq_trans; [|exact H4]. apply mmul_ext; [apply meq_refl|now apply meq_sym].
Qed.
Lemma solution_ext n w T T' X B B' : the_solution f n w T X B -> meq n n T T' -> meq n w B B' -> the_solution f n w T' X B'.
Proof.
  intros (H1 & H2 & H3) ET EB.
  assert (Q : forall Y, meq n w (mmul f n T Y) (mmul f n T' Y)) by (intros Y; apply mmul_ext; [exact ET|apply meq_refl]).
  split; [exact H1|]. split.
  - eapply meq_trans; [apply meq_sym; apply Q|]. eapply meq_trans; [exact H2|exact EB].
  - intros Y HY EY. apply H3; [exact HY|]. eapply meq_trans; [apply Q|]. eapply meq_trans; [exact EY|now apply meq_sym].
Qed.
Lemma rank_ext m n A A' r : is_rank f m n A r -> meq m n A A' -> is_rank f m n A' r.
Proof.
  intros (Q & P & L & H1 & H2 & H3 & H4 & H5 & H6) E. exists Q, P, L. split; [exact H1|]. split; [exact H2|]. split; [exact H3|]. split; [|split; [|exact H6]].
  - eapply meq_trans; [apply meq_sym; exact E|exact H4].
  - eapply meq_trans; [exact H5|]. apply mmul_ext; [apply meq_refl|exact E].
Qed.
Lemma step_invert t x A : has ks st x Packed A -> a_m A = a_n A -> invertible f (a_m A) (val A) -> fits ks st t Packed (a_m A) (a_n A) [x] ->
  stepped f (kstore ks t Packed) (run_cmd cf S (Invert t x) NewtonJohn) (effect f st (Invert t x)).
Proof.
  intros Hx En Hi Ht. destruct (has_p _ _ _ _ _ _ R Hx) as (M & E & HM). hd HM. cbn [run_cmd]. unfold into. rewrite (get_some _ _ _ E). cbn [bind].
  destruct (get_p_ok _ _ _ _ _ _ _ _ R Ht) as (T & ET & HT). rewrite ET. cbn [bind].
  destruct CF as (F1 & F2 & F3 & F4 & F5 & F6 & F7 & F8).
  destruct (proj1 (C28_invert (cf_k0 cf) T M W ltac:(congruence) F7 ltac:(lia) ltac:(tg))) as (M' & EM & W' & Ef' & Er' & Ec' & HI).
  { destruct Hi as (V & HV). exists V. rewrite Ef, Er. eapply inverse_ext_l; [exact HV|]. intros i j Hi Hj. symmetry. apply Ee; lia. }
  rewrite EM. cbn [bind]. rewrite Ef, Er in HI.
  exists (store S t (Pk M')), Nothing, (store st t (tab (a_m A) (a_m A) (entry M'))). split; [reflexivity|]. split.
  - exists A, (entry M'). destruct Hx. split; [easy|]. split; [|auto]. eapply inverse_ext_l; [exact HI|]. intros i j Hi' Hj. apply Ee; lia.
  - eapply rel_store; eauto. eapply stands_tab_p; [|apply meq_refl]. split; [exact W'|]. split; [congruence|]. split; [congruence|]. split; [congruence|]. reflexivity.
Qed.

Lemma p_tri A B M N : holds M f (a_m A) (a_n A) (val A) -> holds N f (a_m B) (a_n B) (val B) -> triangular_ok A B -> tri_input M N.
Proof.
  intros HM HN (T1 & T2 & T3 & T4). hd HM. hd HN. destruct CF as (F1 & F2 & F3 & F4 & _).
  split; [congruence|]. split; [exact W|]. split; [exact W0|]. split; [congruence|]. split; [lia|]. split; [lia|]. split; [lia|].
  intros i Hi. rewrite Ee by lia. apply T4. lia.
Qed.
Lemma s_tri A B M N : sholds M f (a_m A) (a_n A) (val A) -> sholds N f (a_m B) (a_n B) (val B) -> triangular_ok A B -> stri_input M N.
Proof.
  intros HM HN (T1 & T2 & T3 & T4). hd HM. hd HN. destruct CF as (F1 & F2 & F3 & F4 & _).
  split; [congruence|]. split. { destruct F1 as (_ & D & _). rewrite F2 in D. rewrite Ef0. lia. }
  split; [exact W|]. split; [exact W0|]. split; [congruence|]. split; [lia|]. split; [lia|]. split; [lia|].
  intros i Hi. rewrite Ee by lia. apply T4. lia.
Qed.
Lemma p_lower_ok ch A B M N : holds M f (a_m A) (a_n A) (val A) -> holds N f (a_m B) (a_n B) (val B) -> triangular_ok A B -> solve_ok ch ->
  exists X, (exists N', p_lower cf ch M N = Ok N' /\ becomes N N' X) /\ the_solution f (a_m B) (a_n B) (tril (val A)) X (val B).
Proof.
  intros HM HN HT Hch. pose proof (p_tri _ _ _ _ HM HN HT) as I. destruct HT as (T1 & T2 & T3 & T4). hd HM. hd HN. destruct CF as (F1 & F2 & F3 & F4 & F5 & F6 & F7 & F8).
  assert (K : exists X, (exists N', p_lower cf ch M N = Ok N' /\ becomes N N' X) /\ the_solution (fld N) (mz_nrows N) (mz_ncols N) (tril (entry M)) X (entry N)).
  { destruct Hch as [->|[->| ->]]; cbn [p_lower].
    - destruct (C30_trsm_lower M N I) as (X & HX & _ & Q). destruct (Q _ _ F5 F6) as (Q1 & _). exists X. split; [exact Q1|exact HX].
    - destruct (C29_trsm_naive M N I) as ((X & N' & E1 & E2 & E3) & _). exists X. split; [|exact E3]. exists N'. now split.
    - destruct (C30_trsm_lower M N I) as (X & HX & Q & _). exists X. split; [exact Q|exact HX]. }
  destruct K as (X & K1 & K2). exists X. split; [exact K1|]. rewrite Ef0, Er0, Ec0 in K2. eapply solution_ext; [exact K2|..].
  - intros i j Hi Hj. unfold tril. now rewrite Ee by lia.
  - intros i j Hi Hj. apply Ee0; lia.
Qed.
Lemma p_upper_ok ch A B M N : holds M f (a_m A) (a_n A) (val A) -> holds N f (a_m B) (a_n B) (val B) -> triangular_ok A B -> solve_ok ch ->
  exists X, (exists N', p_upper cf ch M N = Ok N' /\ becomes N N' X) /\ the_solution f (a_m B) (a_n B) (triu (val A)) X (val B).
Proof.
  intros HM HN HT Hch. pose proof (p_tri _ _ _ _ HM HN HT) as I. destruct HT as (T1 & T2 & T3 & T4). hd HM. hd HN. destruct CF as (F1 & F2 & F3 & F4 & F5 & F6 & F7 & F8).
  assert (K : exists X, (exists N', p_upper cf ch M N = Ok N' /\ becomes N N' X) /\ the_solution (fld N) (mz_nrows N) (mz_ncols N) (triu (entry M)) X (entry N)).
  { destruct Hch as [->|[->| ->]]; cbn [p_upper].
    - destruct (C30_trsm_upper M N I) as (X & HX & _ & Q). destruct (Q _ _ F5 F6) as (Q1 & _). exists X. split; [exact Q1|exact HX].
    - destruct (C29_trsm_naive M N I) as (_ & (X & N' & E1 & E2 & E3)). exists X. split; [|exact E3]. exists N'. now split.
    - destruct (C30_trsm_upper M N I) as (X & HX & Q & _). exists X. split; [exact Q|exact HX]. }
  destruct K as (X & K1 & K2). exists X. split; [exact K1|]. rewrite Ef0, Er0, Ec0 in K2. eapply solution_ext; [exact K2|..].
  - intros i j Hi Hj. unfold triu. now rewrite Ee by lia.
  - intros i j Hi Hj. apply Ee0; lia.
Qed.
Lemma s_lower_ok ch A B M N : sholds M f (a_m A) (a_n A) (val A) -> sholds N f (a_m B) (a_n B) (val B) -> triangular_ok A B -> solve_ok ch ->
  exists X, (exists N', s_lower ch M N = Ok N' /\ sbecomes N N' X) /\ the_solution f (a_m B) (a_n B) (tril (val A)) X (val B).
Proof.
  intros HM HN HT Hch. pose proof (s_tri _ _ _ _ HM HN HT) as I. destruct HT as (T1 & T2 & T3 & T4). hd HM. hd HN.
  destruct (C30_slice_trsm_lower M N I) as (X & HX & Q1 & Q2 & Q3 & _). exists X. split.
  - destruct Hch as [->|[->| ->]]; cbn [s_lower]; assumption.
  - rewrite Ef0, Er0, Ec0 in HX. eapply solution_ext; [exact HX|..].
    + intros i j Hi Hj. unfold tril. now rewrite Ee by lia.
    + intros i j Hi Hj. apply Ee0; lia.
Qed.
Lemma s_upper_ok ch A B M N : sholds M f (a_m A) (a_n A) (val A) -> sholds N f (a_m B) (a_n B) (val B) -> triangular_ok A B -> solve_ok ch ->
  exists X, (exists N', s_upper ch M N = Ok N' /\ sbecomes N N' X) /\ the_solution f (a_m B) (a_n B) (triu (val A)) X (val B).
Proof.
  intros HM HN HT Hch. pose proof (s_tri _ _ _ _ HM HN HT) as I. destruct HT as (T1 & T2 & T3 & T4). hd HM. hd HN.
  destruct (C30_slice_trsm_upper M N I) as (X & HX & Q1 & Q2 & Q3 & _). exists X. split.
  - destruct Hch as [->|[->| ->]]; cbn [s_upper]; assumption.
  - rewrite Ef0, Er0, Ec0 in HX. eapply solution_ext; [exact HX|..].
    + intros i j Hi Hj. unfold triu. now rewrite Ee by lia.
    + intros i j Hi Hj. apply Ee0; lia.
Qed.
Lemma step_solve_lower x b k A B ch : has ks st x k A -> has ks st b k B -> triangular_ok A B -> solve_ok ch ->
  steppedk f ks S b (run_cmd cf S (SolveLower x b) ch) (effect f st (SolveLower x b)).
Proof.
  intros Hx Hb HT Hch. cbn [run_cmd]. unfold in_place2, in_place. destruct k.
  - destruct (has_p _ _ _ _ _ _ R Hx) as (M & E & HM). destruct (has_p _ _ _ _ _ _ R Hb) as (M2 & E2 & HM2).
    rewrite (get_some _ _ _ E). cbn [bind]. rewrite (get_some _ _ _ E2). cbn [bind].
    destruct (p_lower_ok ch A B M M2 HM HM2 HT Hch) as (X & (N' & E3 & B3) & HX). rewrite E3. cbn [bind].
    eexists _, Nothing, (put st b (tab (a_m B) (a_n B) X)). split; [reflexivity|]. split.
    + exists A, B, X. destruct Hx, Hb. auto.
    + split; [|eapply keeps_put; [exact E2|]; cbn [kept]; eapply kept_of; eauto]. eapply rel_put; eauto. eapply stands_tab_p; [|apply meq_refl]. eapply holds_becomes; eauto.
  - destruct (has_s _ _ _ _ _ _ R Hx) as (M & E & HM). destruct (has_s _ _ _ _ _ _ R Hb) as (M2 & E2 & HM2).
    rewrite (get_some _ _ _ E). cbn [bind]. rewrite (get_some _ _ _ E2). cbn [bind].
    destruct (s_lower_ok ch A B M M2 HM HM2 HT Hch) as (X & (N' & E3 & B3) & HX). rewrite E3. cbn [bind].
    eexists _, Nothing, (put st b (tab (a_m B) (a_n B) X)). split; [reflexivity|]. split.
    + exists A, B, X. destruct Hx, Hb. auto.
    + split; [|eapply keeps_put; [exact E2|]; cbn [kept]; eapply skept_of; eauto]. eapply rel_put; eauto. eapply stands_tab_s; [|apply meq_refl]. eapply sh_becomes; eauto.
Qed.
Lemma step_solve_upper x b k A B ch : has ks st x k A -> has ks st b k B -> triangular_ok A B -> solve_ok ch ->
  steppedk f ks S b (run_cmd cf S (SolveUpper x b) ch) (effect f st (SolveUpper x b)).
Proof.
  intros Hx Hb HT Hch. cbn [run_cmd]. unfold in_place2, in_place. destruct k.
  - destruct (has_p _ _ _ _ _ _ R Hx) as (M & E & HM). destruct (has_p _ _ _ _ _ _ R Hb) as (M2 & E2 & HM2).
    rewrite (get_some _ _ _ E). cbn [bind]. rewrite (get_some _ _ _ E2). cbn [bind].
    destruct (p_upper_ok ch A B M M2 HM HM2 HT Hch) as (X & (N' & E3 & B3) & HX). rewrite E3. cbn [bind].
    eexists _, Nothing, (put st b (tab (a_m B) (a_n B) X)). split; [reflexivity|]. split.
    + exists A, B, X. destruct Hx, Hb. auto.
    + split; [|eapply keeps_put; [exact E2|]; cbn [kept]; eapply kept_of; eauto]. eapply rel_put; eauto. eapply stands_tab_p; [|apply meq_refl]. eapply holds_becomes; eauto.
  - destruct (has_s _ _ _ _ _ _ R Hx) as (M & E & HM). destruct (has_s _ _ _ _ _ _ R Hb) as (M2 & E2 & HM2).
    rewrite (get_some _ _ _ E). cbn [bind]. rewrite (get_some _ _ _ E2). cbn [bind].
    destruct (s_upper_ok ch A B M M2 HM HM2 HT Hch) as (X & (N' & E3 & B3) & HX). rewrite E3. cbn [bind].
    eexists _, Nothing, (put st b (tab (a_m B) (a_n B) X)). split; [reflexivity|]. split.
    + exists A, B, X. destruct Hx, Hb. auto.
    + split; [|eapply keeps_put; [exact E2|]; cbn [kept]; eapply skept_of; eauto]. eapply rel_put; eauto. eapply stands_tab_s; [|apply meq_refl]. eapply sh_becomes; eauto.
Qed.

Lemma p_echelon_ok ch full M A : holds M f (a_m A) (a_n A) (val A) -> echelon_ok f Packed ch (a_m A) (a_n A) ->
  exists M' r, p_echelon cf ch M full = Ok (M', r) /\ echelonises full M M' r.
Proof.
  intros HM Hk. hd HM. destruct CF as (F1 & F2 & F3 & F4 & F5 & F6 & F7 & F8).
  assert (D : ff_degree (mz_ff M) = deg f). { destruct W as ((_ & Dg & _) & _). rewrite Ef in Dg. unfold deg. lia. }
  destruct ch; cbn [echelon_ok] in Hk; try contradiction; cbn [p_echelon].
  - apply C34_mzed_echelonize; auto; [congruence|]. rewrite D, Er, Ec, (slot_w M W Ef). exact Hk.
  - apply C26_echelonize_naive; auto. congruence.
  - apply C27_echelonize_newton_john; auto. congruence.
  - apply C34_mzed_echelonize_ple; auto. congruence.
Qed.
Lemma step_echelon full x k A ch : has ks st x k A -> echelon_ok f k ch (a_m A) (a_n A) ->
  steppedk f ks S x (run_cmd cf S (Echelon full x) ch) (effect f st (Echelon full x)).
Proof.
  intros Hx Hk. cbn [run_cmd]. destruct k.
  - destruct (has_p _ _ _ _ _ _ R Hx) as (M & E & HM). rewrite (get_some _ _ _ E). cbn [bind].
    destruct (p_echelon_ok ch full M A HM Hk) as (M' & r & EM & B & Q & (piv & He & Hr) & Hrk & _). rewrite EM. cbn [bind].
    hd HM. rewrite Ef, Er, Ec in *. pose proof (holds_becomes _ _ _ _ _ _ _ HM B) as HM'.
    eexists _, (Rank r), (put st x (tab (a_m A) (a_n A) (entry M'))). split; [reflexivity|]. split.
    + exists A, (entry M'), r, piv. destruct Hx. split; [easy|].
      assert (EQ : meq (a_m A) (a_n A) (entry M) (val A)) by (intros i j Hi Hj; now apply Ee).
      split. { pose proof (wf_inM M' (proj1 HM')) as X. destruct HM' as (_ & X1 & X2 & X3 & _). now rewrite X1, X2, X3 in X. }
      split; [eapply row_equiv_ext_l; [exact Q|exact EQ]|]. split; [exact He|]. split; [exact Hr|]. split; [eapply rank_ext; [exact Hrk|exact EQ]|]. auto.
    + split; [|eapply keeps_put; [exact E|]; cbn [kept]; eapply kept_of; exact B]. eapply rel_put; eauto. eapply stands_tab_p; [exact HM'|apply meq_refl].
  - destruct (has_s _ _ _ _ _ _ R Hx) as (M & E & HM). rewrite (get_some _ _ _ E). cbn [bind]. hd HM.
    destruct CF as (F1 & F2 & F3 & F4 & F5 & F6 & F7 & F8).
    assert (D : (2 <= pdeg f)%N). { destruct F1 as (_ & D & _). rewrite F2 in D. lia. }
    assert (K : exists M' r, s_echelon cf ch M full = Ok (M', r) /\ sechelonises full M M' r).
    { destruct ch; cbn [echelon_ok] in Hk; try contradiction; cbn [s_echelon]; apply C34_slice_echelonize_ple; auto; congruence. }
    destruct K as (M' & r & EM & B & Q & (piv & He & Hr) & Hrk & _). rewrite EM. cbn [bind].
    rewrite Ef, Er, Ec in *. pose proof (sh_becomes _ _ _ _ _ _ _ HM B) as HM'.
    eexists _, (Rank r), (put st x (tab (a_m A) (a_n A) (sentry M'))). split; [reflexivity|]. split.
    + exists A, (sentry M'), r, piv. destruct Hx. split; [easy|].
      assert (EQ : meq (a_m A) (a_n A) (sentry M) (val A)) by (intros i j Hi Hj; now apply Ee).
      split. { pose proof (self_inM M' (proj1 HM')) as X. destruct HM' as (_ & X1 & X2 & X3 & _). now rewrite X1, X2, X3 in X. }
      split; [eapply row_equiv_ext_l; [exact Q|exact EQ]|]. split; [exact He|]. split; [exact Hr|]. split; [eapply rank_ext; [exact Hrk|exact EQ]|]. auto.
    + split; [|eapply keeps_put; [exact E|]; cbn [kept]; eapply skept_of; exact B]. eapply rel_put; eauto. eapply stands_tab_s; [exact HM'|apply meq_refl].
Qed.

(** *** decompositions and permutations *)
Lemma is_ple_ext0 m n A0 A0' D P Q r : meq m n A0 A0' -> (forall i, i < m -> swaps P m i < m) -> is_ple f m n A0 D P Q r -> is_ple f m n A0' D P Q r.
Proof.
  intros E HP (H1 & H2 & H3 & H4 & H5 & H6 & H7 & H8 & H9 & H10). unfold is_ple. do 9 (split; [assumption|]).
  intros i j Hi Hj. rewrite <- H10 by easy. symmetry. apply E; auto.
Qed.
Lemma is_pluq_ext0 m n A0 A0' D P Q r : meq m n A0 A0' -> (forall i, i < m -> swaps P m i < m) -> (forall i, i < n -> swaps Q n i < n) ->
  is_pluq f m n A0 D P Q r -> is_pluq f m n A0' D P Q r.
Proof.
  intros E HP HQ (H1 & H2 & H3 & H4 & H5 & H6 & H7). unfold is_pluq. do 6 (split; [assumption|]).
  intros i j Hi Hj. rewrite <- H7 by easy. symmetry. apply E; auto.
Qed.
Lemma swaps_lt P m n : (forall i, i < m -> P i < n) -> m <= n -> forall i, i < n -> swaps P m i < n.
Proof.
  induction m as [|m IH]; intros HP Hm i Hi; cbn [swaps]; [exact Hi|]. apply IH; [intros; apply HP; lia|lia|].
  unfold tr. specialize (HP m ltac:(lia)). destruct (i =? m); [exact HP|]. destruct (i =? P m); lia.
Qed.
Lemma unswaps_lt P m n : (forall i, i < m -> P i < n) -> m <= n -> forall i, i < n -> unswaps P m i < n.
Proof.
  induction m as [|m IH]; intros HP Hm i Hi; cbn [unswaps]; [exact Hi|].
  assert (K : unswaps P m i < n) by (apply IH; [intros; apply HP; lia|lia|exact Hi]).
  unfold tr. specialize (HP m ltac:(lia)). destruct (unswaps P m i =? m); [exact HP|]. destruct (unswaps P m i =? P m); lia.
Qed.
Lemma valid_lt P n : valid_perm n P -> forall i, i < n -> swaps P n i < n.
Proof. intros H. apply swaps_lt; [|lia]. intros i Hi. apply H. exact Hi. Qed.

Lemma p_ple_ok ch M A : holds M f (a_m A) (a_n A) (val A) -> ple_ok Packed ch -> exists x, p_ple cf ch M = Ok x /\ decomposes M x.
Proof.
  intros HM Hch. hd HM. destruct CF as (F1 & F2 & F3 & F4 & F5 & F6 & F7 & F8).
  assert (I : irreducible (fld M)) by congruence.
  unfold p_ple. destruct Hch as [->|[->| ->]].
  - unfold mzed_ple. apply C34_mzed_ple; auto; apply seq_length.
  - apply C32_ple_naive; auto; apply seq_length.
  - apply C33_ple_newton_john_decomposes; auto; apply seq_length.
Qed.
Lemma step_ple x k A ch : has ks st x k A -> ple_ok k ch -> steppedk f ks S x (run_cmd cf S (Ple x) ch) (effect f st (Ple x)).
Proof.
  intros Hx Hk. cbn [run_cmd]. destruct k.
  - destruct (has_p _ _ _ _ _ _ R Hx) as (M & E & HM). rewrite (get_some _ _ _ E). cbn [bind].
    destruct (p_ple_ok ch M A HM Hk) as ([[[M' P] Q] r] & EM & B & L1 & L2 & I & Rk). rewrite EM. cbn [bind].
    hd HM. rewrite Ef, Er, Ec in *. pose proof (holds_becomes _ _ _ _ _ _ _ HM B) as HM'.
    assert (EQ : meq (a_m A) (a_n A) (entry M) (val A)) by (intros i j Hi Hj; now apply Ee).
    eexists _, (Factors P Q r), (put st x (tab (a_m A) (a_n A) (entry M'))). split; [reflexivity|]. split.
    + exists A, (entry M'), P, Q, r. destruct Hx. split; [easy|].
      split. { pose proof (wf_inM M' (proj1 HM')) as X. destruct HM' as (_ & X1 & X2 & X3 & _). now rewrite X1, X2, X3 in X. }
      split; [exact L1|]. split; [exact L2|]. split; [eapply is_ple_ext0; [exact EQ| |exact I]; apply valid_lt; apply I|].
      split; [eapply rank_ext; [exact Rk|exact EQ]|]. auto.
    + split; [|eapply keeps_put; [exact E|]; cbn [kept]; eapply kept_of; exact B]. eapply rel_put; eauto. eapply stands_tab_p; [exact HM'|apply meq_refl].
  - cbn [ple_ok] in Hk. subst ch. destruct (has_s _ _ _ _ _ _ R Hx) as (M & E & HM). rewrite (get_some _ _ _ E). cbn [bind]. hd HM.
    destruct CF as (F1 & F2 & F3 & F4 & F5 & F6 & F7 & F8).
    assert (D : (2 <= pdeg f)%N). { destruct F1 as (_ & D & _). rewrite F2 in D. lia. }
    assert (K : exists x, s_ple cf M = Ok x /\ sdecomposes M x).
    { unfold s_ple. assert (I : irreducible (spoly M)) by congruence. assert (D' : (2 <= pdeg (spoly M))%N) by congruence.
      apply (proj1 (C34_slice_wrappers (cf_l2 cf) M _ _ I D' W) (seq_length _ _) (seq_length _ _)). }
    destruct K as ([[[M' P] Q] r] & EM & B & L1 & L2 & I & Rk). rewrite EM. cbn [bind].
    rewrite Ef, Er, Ec in *. pose proof (sh_becomes _ _ _ _ _ _ _ HM B) as HM'.
    assert (EQ : meq (a_m A) (a_n A) (sentry M) (val A)) by (intros i j Hi Hj; now apply Ee).
    eexists _, (Factors P Q r), (put st x (tab (a_m A) (a_n A) (sentry M'))). split; [reflexivity|]. split.
    + exists A, (sentry M'), P, Q, r. destruct Hx. split; [easy|].
      split. { pose proof (self_inM M' (proj1 HM')) as X. destruct HM' as (_ & X1 & X2 & X3 & _). now rewrite X1, X2, X3 in X. }
      split; [exact L1|]. split; [exact L2|]. split; [eapply is_ple_ext0; [exact EQ| |exact I]; apply valid_lt; apply I|].
      split; [eapply rank_ext; [exact Rk|exact EQ]|]. auto.
    + split; [|eapply keeps_put; [exact E|]; cbn [kept]; eapply skept_of; exact B]. eapply rel_put; eauto. eapply stands_tab_s; [exact HM'|apply meq_refl].
Qed.
Lemma step_pluq x A : has ks st x Sliced A -> steppedk f ks S x (run_cmd cf S (Pluq x) Default) (effect f st (Pluq x)).
Proof.
  intros Hx. cbn [run_cmd]. destruct (has_s _ _ _ _ _ _ R Hx) as (M & E & HM). rewrite (get_some _ _ _ E). cbn [bind]. hd HM.
  destruct CF as (F1 & F2 & F3 & F4 & F5 & F6 & F7 & F8).
  assert (D : (2 <= pdeg f)%N). { destruct F1 as (_ & D & _). rewrite F2 in D. lia. }
  assert (K : exists x, s_pluq cf M = Ok x /\ spluqs M x).
  { unfold s_pluq. assert (I : irreducible (spoly M)) by congruence. assert (D' : (2 <= pdeg (spoly M))%N) by congruence.
    apply (proj1 (C34_slice_wrappers (cf_l2 cf) M _ _ I D' W) (seq_length _ _) (seq_length _ _)). }
  destruct K as ([[[M' P] Q] r] & EM & B & L1 & L2 & I & Rk). rewrite EM. cbn [bind].
  rewrite Ef, Er, Ec in *. pose proof (sh_becomes _ _ _ _ _ _ _ HM B) as HM'.
  assert (EQ : meq (a_m A) (a_n A) (sentry M) (val A)) by (intros i j Hi Hj; now apply Ee).
  eexists _, (Factors P Q r), (put st x (tab (a_m A) (a_n A) (sentry M'))). split; [reflexivity|]. split.
  - exists A, (sentry M'), P, Q, r. destruct Hx. split; [easy|].
    split. { pose proof (self_inM M' (proj1 HM')) as X. destruct HM' as (_ & X1 & X2 & X3 & _). now rewrite X1, X2, X3 in X. }
    split; [exact L1|]. split; [exact L2|]. split; [eapply is_pluq_ext0; [exact EQ| | |exact I]; apply valid_lt; apply I|].
    split; [eapply rank_ext; [exact Rk|exact EQ]|]. auto.
  - split; [|eapply keeps_put; [exact E|]; cbn [kept]; eapply skept_of; exact B]. eapply rel_put; eauto. eapply stands_tab_s; [exact HM'|apply meq_refl].
Qed.
Lemma perm_rows_eq (trans : bool) P m n (F G : mat) : (forall i, i < Nat.min (length P) m -> nth i P 0 < m) -> meq m n F G ->
  meq m n (fun i j => F ((if trans then unswaps else swaps) (at_ P) (Nat.min (length P) m) i) j) (fun i j => G ((if trans then unswaps else swaps) (at_ P) (Nat.min (length P) m) i) j).
Proof. intros HP E i j Hi Hj. apply E; [|exact Hj]. destruct trans; [apply unswaps_lt|apply swaps_lt]; auto; lia. Qed.
Lemma perm_cols_eq (trans : bool) P m n (F G : mat) : (forall i, i < Nat.min (length P) n -> nth i P 0 < n) -> meq m n F G ->
  meq m n (fun i j => F i ((if trans then swaps else unswaps) (at_ P) (Nat.min (length P) n) j)) (fun i j => G i ((if trans then swaps else unswaps) (at_ P) (Nat.min (length P) n) j)).
Proof. intros HP E i j Hi Hj. apply E; [exact Hi|]. destruct trans; [apply swaps_lt|apply unswaps_lt]; auto; lia. Qed.
Lemma step_perm_rows trans x P k A : has ks st x k A -> (forall i, i < Nat.min (length P) (a_m A) -> nth i P 0 < a_m A) ->
  steppedk f ks S x (run_cmd cf S (PermRows trans x P) Default) (effect f st (PermRows trans x P)).
Proof.
  intros Hx HP.
  assert (K : steppedk f ks S x (run_cmd cf S (PermRows trans x P) Default) (changes st x (fun B i j => B ((if trans then unswaps else swaps) (at_ P) (Nat.min (length P) (a_m A)) i) j))).
  { eapply in_place_ok; [exact R|exact Hx|..]; intros -> M HM; hd HM.
    - assert (HP' : perm_ok (mz_nrows M) P) by (unfold perm_ok; now rewrite Er).
      destruct (proj1 (C45_mzed_apply M P W) HP') as ((B1 & E1 & K1) & (B2 & E2 & K2)). unfold eff in K1, K2. rewrite Er in K1, K2.
      destruct trans; eexists _, _; (split; [eassumption|]; split; [eassumption|]).
      + apply (perm_rows_eq true); [exact HP|]. intros i j Hi Hj. now apply Ee.
      + apply (perm_rows_eq false); [exact HP|]. intros i j Hi Hj. now apply Ee.
    - assert (HP' : perm_ok (sl_nrows M) P) by (unfold perm_ok; now rewrite Er).
      destruct (proj1 (C45_slice_apply M P W) HP') as ((B1 & E1 & K1) & (B2 & E2 & K2)). unfold eff in K1, K2. rewrite Er in K1, K2.
      destruct trans; eexists _, _; (split; [eassumption|]; split; [eassumption|]).
      + apply (perm_rows_eq true); [exact HP|]. intros i j Hi Hj. now apply Ee.
      + apply (perm_rows_eq false); [exact HP|]. intros i j Hi Hj. now apply Ee. }
  destruct K as (S' & o & st' & K1 & K2 & K3). exists S', o, st'. split; [exact K1|]. split; [|exact K3]. exists A. split; [apply Hx|exact K2].
Qed.
Lemma step_perm_cols trans x P k A : has ks st x k A -> (forall i, i < Nat.min (length P) (a_n A) -> nth i P 0 < a_n A) ->
  steppedk f ks S x (run_cmd cf S (PermCols trans x P) Default) (effect f st (PermCols trans x P)).
Proof.
  intros Hx HP.
  assert (K : steppedk f ks S x (run_cmd cf S (PermCols trans x P) Default) (changes st x (fun B i j => B i ((if trans then swaps else unswaps) (at_ P) (Nat.min (length P) (a_n A)) j)))).
  { eapply in_place_ok; [exact R|exact Hx|..]; intros -> M HM; hd HM.
    - assert (HP' : perm_ok (mz_ncols M) P) by (unfold perm_ok; now rewrite Ec).
      destruct (proj2 (C45_mzed_apply M P W) HP') as ((B1 & E1 & K1) & (B2 & E2 & K2)). unfold eff in K1, K2. rewrite Ec in K1, K2.
      destruct trans; eexists _, _; (split; [eassumption|]; split; [eassumption|]).
      + apply (perm_cols_eq true); [exact HP|]. intros i j Hi Hj. now apply Ee.
      + apply (perm_cols_eq false); [exact HP|]. intros i j Hi Hj. now apply Ee.
    - assert (HP' : perm_ok (sl_ncols M) P) by (unfold perm_ok; now rewrite Ec).
      destruct (proj2 (C45_slice_apply M P W) HP') as ((B1 & E1 & K1) & (B2 & E2 & K2) & _). unfold eff in K1, K2. rewrite Ec in K1, K2.
      destruct trans; eexists _, _; (split; [eassumption|]; split; [eassumption|]).
      + apply (perm_cols_eq true); [exact HP|]. intros i j Hi Hj. now apply Ee.
      + apply (perm_cols_eq false); [exact HP|]. intros i j Hi Hj. now apply Ee. }
  destruct K as (S' & o & st' & K1 & K2 & K3). exists S', o, st'. split; [exact K1|]. split; [|exact K3]. exists A. split; [apply Hx|exact K2].
Qed.
Lemma step_randomize x rnd k A : has ks st x k A -> steppedk f ks S x (run_cmd cf S (Randomize x) (Random rnd)) (effect f st (Randomize x)).
Proof.
  intros Hx. cbn [run_cmd]. unfold in_place. destruct k.
  - destruct (has_p _ _ _ _ _ _ R Hx) as (M & E & HM). rewrite (get_some _ _ _ E). cbn [bind]. hd HM.
    destruct (C17_randomize rnd M W) as (M' & EM & B & _). rewrite EM. cbn [bind].
    pose proof (holds_becomes _ _ _ _ _ _ _ HM B) as HM'. pose proof (wf_inM M' (proj1 HM')) as X. destruct HM' as (X0 & X1 & X2 & X3 & X4). rewrite X1, X2, X3 in X.
    eexists _, Nothing, (put st x (tab (a_m A) (a_n A) (entry M'))). split; [reflexivity|]. split.
    + exists A, (entry M'). destruct Hx. auto.
    + split; [|eapply keeps_put; [exact E|]; cbn [kept]; eapply kept_of; exact B]. eapply rel_put; eauto. eapply stands_tab_p; [|apply meq_refl].
      split; [exact X0|]. split; [exact X1|]. split; [exact X2|]. split; [exact X3|]. reflexivity.
  - destruct (has_s _ _ _ _ _ _ R Hx) as (M & E & HM). rewrite (get_some _ _ _ E). cbn [bind]. hd HM.
    destruct (C17_slice_randomize (fun k i j => N.testbit (rnd i j) (N.of_nat k)) M W) as (M' & EM & B & _). rewrite EM. cbn [bind].
    pose proof (sh_becomes _ _ _ _ _ _ _ HM B) as HM'. pose proof (self_inM M' (proj1 HM')) as X. destruct HM' as (X0 & X1 & X2 & X3 & X4). rewrite X1, X2, X3 in X.
    eexists _, Nothing, (put st x (tab (a_m A) (a_n A) (sentry M'))). split; [reflexivity|]. split.
    + exists A, (sentry M'). destruct Hx. auto.
    + split; [|eapply keeps_put; [exact E|]; cbn [kept]; eapply skept_of; exact B]. eapply rel_put; eauto. eapply stands_tab_s; [|apply meq_refl].
      split; [exact X0|]. split; [exact X1|]. split; [exact X2|]. split; [exact X3|]. reflexivity.
Qed.

(** *** queries *)
Lemma step_first_zero_row x A : has ks st x Packed A -> stepped f ks (run_cmd cf S (FirstZeroRow x) Default) (effect f st (FirstZeroRow x)).
Proof.
  intros Hx. cbn [run_cmd]. destruct (has_p _ _ _ _ _ _ R Hx) as (M & E & HM). rewrite (get_some _ _ _ E). cbn [bind]. hd HM.
  exists S, (Index (mzed_first_zero_row M)), st. split; [reflexivity|]. split; [|exact R]. exists A, (mzed_first_zero_row M). destruct Hx. do 3 (split; [auto|]).
  destruct (C16_first_zero_row M W) as (Z1 & Z2 & Z3). rewrite Er, Ec in *. split; [exact Z1|]. split.
  - intros i j Hi Hj. rewrite <- Ee by lia. now apply Z2.
  - intros Hr. destruct (Z3 Hr) as (j & Hj & Z). exists j. split; [exact Hj|]. rewrite <- Ee by lia. exact Z.
Qed.
Lemma step_read x i j k A : has ks st x k A -> i < a_m A -> j < a_n A ->
  stepped f ks (run_cmd cf S (Read x i j) Default) (effect f st (Read x i j)).
Proof.
  intros Hx Hi Hj. destruct (rel_has _ _ _ _ _ _ _ R Hx) as (v & E & K & Hv). cbn [run_cmd]. rewrite (get_some _ _ _ E). cbn [bind].
  exists S, (Elem (val A i j)), st. split; [|split; [exists A; destruct Hx; auto|exact R]].
  destruct v as [M|M]; cbn [stands] in Hv; hd Hv.
  - rewrite mzed_read_elem_ok by (auto; lia). cbn [bind]. now rewrite Ee by lia.
  - rewrite slice_read_elem_ok by (auto; lia). cbn [bind]. now rewrite Ee by lia.
Qed.
Lemma step_is_zero x k A : has ks st x k A -> stepped f ks (run_cmd cf S (IsZero x) Default) (effect f st (IsZero x)).
Proof.
  intros Hx. destruct (rel_has _ _ _ _ _ _ _ R Hx) as (v & E & K & Hv). cbn [run_cmd]. rewrite (get_some _ _ _ E). cbn [bind].
  eexists S, _, st. split; [reflexivity|]. split; [|exact R]. exists A. eexists. destruct Hx. split; [easy|]. split; [easy|]. split; [reflexivity|].
  destruct v as [M|M]; cbn [stands] in Hv; hd Hv.
  - rewrite (proj2 (C16_cmp_is_zero M M W W eq_refl)), Er, Ec. split; intros Z i j Hi Hj; unfold mzero in *; [rewrite <- Ee by lia|rewrite Ee by lia]; now apply Z.
  - rewrite (proj1 (C36_is_zero_cmp M M W W)), Er, Ec. split; intros Z i j Hi Hj; unfold mzero in *; [rewrite <- Ee by lia|rewrite Ee by lia]; now apply Z.
Qed.
Lemma step_equal x y k A B : has ks st x k A -> has ks st y k B -> stepped f ks (run_cmd cf S (Equal x y) Default) (effect f st (Equal x y)).
Proof.
  intros Hx Hy. destruct (rel_has _ _ _ _ _ _ _ R Hx) as (v & E & K & Hv). destruct (rel_has _ _ _ _ _ _ _ R Hy) as (w & E2 & K2 & Hw).
  cbn [run_cmd]. rewrite (get_some _ _ _ E). cbn [bind]. rewrite (get_some _ _ _ E2). cbn [bind].
  destruct v as [M|M], w as [M2|M2]; cbn [stands kind_of] in *; try congruence; hd Hv; hd Hw.
  - eexists S, _, st. split; [reflexivity|]. split; [|exact R]. exists A, B. eexists. destruct Hx, Hy. split; [easy|]. split; [easy|]. split; [easy|]. split; [reflexivity|].
    transitivity (mzed_cmp M M2 = Eq); [destruct (mzed_cmp M M2); split; congruence|].
    rewrite (proj1 (C16_cmp_is_zero M M2 W W0 ltac:(congruence))), Er, Ec, Er0, Ec0.
    split; intros (Z1 & Z2 & Z); (split; [exact Z1|]; split; [exact Z2|]); intros i j Hi Hj; [rewrite <- Ee, <- Ee0 by lia|rewrite Ee, Ee0 by lia]; now apply Z.
  - destruct (proj2 (C36_is_zero_cmp M M2 W W0)) as (r & Er' & Hr). rewrite Er'. cbn [bind].
    eexists S, _, st. split; [reflexivity|]. split; [|exact R]. exists A, B. eexists. destruct Hx, Hy. split; [easy|]. split; [easy|]. split; [easy|]. split; [reflexivity|].
    rewrite Z.eqb_eq, Hr, Er, Ec, Er0, Ec0, Ef, Ef0.
    split; [intros (_ & Z1 & Z2 & Z)|intros (Z1 & Z2 & Z); split; [reflexivity|]]; (split; [exact Z1|]; split; [exact Z2|]); intros i j Hi Hj; [rewrite <- Ee, <- Ee0 by lia|rewrite Ee, Ee0 by lia]; now apply Z.
Qed.

Lemma new_kind_default x k t ch : nth_error ks x = Some k -> ch <> Convert -> new_kind ks x t ch = kstore ks t k.
Proof. intros E H. unfold new_kind, kstore. rewrite E. destruct t; [reflexivity|]. now destruct ch. Qed.
Lemma new_kind_convert x k t : nth_error ks x = Some k -> new_kind ks x t Convert = kstore ks t (flip k).
Proof. intros E. unfold new_kind, kstore. rewrite E. now destruct t. Qed.

Theorem step_ok c ch : allowed f ks st c ch -> stepped f (kinds ks c ch) (run_cmd cf S c ch) (effect f st c).
Proof.
  intros H. destruct c; cbn [allowed kinds] in *;
    repeat match goal with H : _ /\ _ |- _ => destruct H | H : exists _, _ |- _ => destruct H | H : ch = _ |- _ => subst ch end.
  - apply step_new.
  - eapply steppedk_stepped, step_set; eauto.
  - eapply steppedk_stepped, step_add_elem; eauto.
  - eapply steppedk_stepped, step_set_diag; eauto.
  - eapply steppedk_stepped, step_row_swap; eauto.
  - eapply steppedk_stepped, step_col_swap; eauto.
  - eapply steppedk_stepped, step_row_add; eauto.
  - eapply steppedk_stepped, step_row_add_mul; eauto.
  - eapply steppedk_stepped, step_row_scale; eauto.
  - eapply steppedk_stepped, step_row_copy; eauto.
  - destruct H0 as [[-> Ht]|[-> Ht]].
    + rewrite (new_kind_default _ _ _ _ (proj1 H)) by discriminate. eapply step_copy; eauto.
    + rewrite (new_kind_convert _ _ _ (proj1 H)). eapply step_convert; eauto.
  - rewrite (new_kind_default _ x0 _ _) by (apply H0 || discriminate). eapply step_add; eauto.
  - rewrite (new_kind_default _ x0 _ _) by (apply H1 || discriminate). eapply step_scale; eauto.
  - rewrite (new_kind_default _ x0 _ _) by (apply H0 || discriminate). eapply step_concat; eauto.
  - rewrite (new_kind_default _ x0 _ _) by (apply H0 || discriminate). eapply step_stack; eauto.
  - rewrite (new_kind_default _ x0 _ _) by (apply H0 || discriminate). eapply step_sub; eauto.
  - rewrite (new_kind_default _ x0 _ _); [eapply step_mul; eauto|apply H|].
    intros ->. destruct x0; cbn in *; contradiction.
  - eapply steppedk_stepped, step_addmul; eauto.
  - rewrite (new_kind_default _ Packed _ _) by (apply H0 || discriminate). eapply step_invert; eauto.
  - eapply steppedk_stepped, step_solve_lower; eauto.
  - eapply steppedk_stepped, step_solve_upper; eauto.
  - eapply steppedk_stepped, step_echelon; eauto.
  - eapply steppedk_stepped, step_ple; eauto.
  - eapply steppedk_stepped, step_pluq; eauto.
  - eapply steppedk_stepped, step_perm_rows; eauto.
  - eapply steppedk_stepped, step_perm_cols; eauto.
  - eapply steppedk_stepped, step_randomize; eauto.
  - eapply step_read; eauto.
  - eapply step_is_zero; eauto.
  - eapply step_first_zero_row; eauto.
  - eapply step_equal; eauto.
Qed.

End Steps.

(** ** whole programs *)
Lemma rel_inM f ks st S x A : rel f ks st S -> nth_error st x = Some A -> inM f (a_m A) (a_n A) (val A).
Proof.
  intros [_ H] E. destruct (Forall2_nth _ _ _ _ _ H E) as ([M|M] & _ & Hs); cbn [stands] in Hs; destruct Hs as (W & Ef & Er & Ec & Ee).
  - pose proof (wf_inM M W) as X. rewrite Ef, Er, Ec in X. intros i j Hi Hj. rewrite <- Ee by easy. now apply X.
  - pose proof (self_inM M W) as X. rewrite Ef, Er, Ec in X. intros i j Hi Hj. rewrite <- Ee by easy. now apply X.
Qed.

Lemma inverse_unique f m A V V' : f <> 0%N -> inverse f m A V -> inverse f m A V' -> meq m m V V'.
Proof.
  intros Hf (H1 & H2 & H3 & H4) (K1 & K2 & K3 & K4).
  eapply meq_trans; [apply meq_sym; apply (mmul_1_r f m m V Hf H2)|].
  eapply meq_trans; [apply mmul_ext; [apply meq_refl|apply meq_sym; exact K3]|].
  eapply meq_trans; [apply meq_sym; apply mmul_assoc; auto|].
  eapply meq_trans; [apply mmul_ext; [exact H4|apply meq_refl]|]. apply mmul_1_l; auto.
Qed.

Lemma changes_det st x F st1 o1 st2 o2 : changes st x F st1 o1 -> changes st x F st2 o2 -> st1 = st2 /\ o1 = o2.
Proof. intros (A & E & -> & ->) (A' & E' & -> & ->). rewrite E in E'. injection E' as ->. now split. Qed.
Lemma iff_bool (a b : bool) (P : Prop) : (a = true <-> P) -> (b = true <-> P) -> a = b.
Proof. destruct a, b; intros H1 H2; auto; [symmetry|]; [apply H2|apply H1]; [apply H1|apply H2]; reflexivity. Qed.

Lemma effect_det f st c st1 o1 st2 o2 : (1 <= pdeg f)%N -> irreducible f -> (forall x A, nth_error st x = Some A -> inM f (a_m A) (a_n A) (val A)) ->
  determined c -> effect f st c st1 o1 -> effect f st c st2 o2 -> st1 = st2 /\ o1 = o2.
Proof.
  intros Hd Hirr HI Hc H1 H2. assert (f0 : f <> 0%N) by (intros ->; cbn in Hd; lia).
  destruct c; cbn [effect determined] in *; try contradiction; try (eapply changes_det; eassumption);
    repeat match goal with H : exists _, _ |- _ => destruct H | H : _ /\ _ |- _ => destruct H end;
    repeat match goal with H : nth_error st ?x = Some ?a, H' : nth_error st ?x = Some ?b |- _ =>
      assert (a = b) by congruence; subst b; clear H' end;
    try (subst; split; reflexivity).
  - eapply changes_det; eassumption.
  - eapply changes_det; eassumption.
  - eapply changes_det; eassumption.
  - subst. split; [|reflexivity]. f_equal. apply tab_ext. eapply inverse_unique; eauto.
  - subst. split; [|reflexivity]. f_equal. apply tab_ext.
    match goal with K1 : the_solution _ _ _ _ ?X _, K2 : the_solution _ _ _ _ ?Y _ |- meq _ _ ?X ?Y => destruct K1 as (P1 & P2 & _); destruct K2 as (_ & _ & Q); now apply Q end.
  - subst. split; [|reflexivity]. f_equal. apply tab_ext.
    match goal with K1 : the_solution _ _ _ _ ?X _, K2 : the_solution _ _ _ _ ?Y _ |- meq _ _ ?X ?Y => destruct K1 as (P1 & P2 & _); destruct K2 as (_ & _ & Q); now apply Q end.
  - subst full. subst st1 st2 o1 o2.
    match goal with K1 : echelon ?m ?n ?r ?p ?E, K2 : echelon _ _ ?r' ?p' ?E' |- put _ _ (tab _ _ ?E) = put _ _ (tab _ _ ?E') /\ _ =>
      assert (U : r = r' /\ meq m n E E' /\ forall i, i < r -> p i = p' i) end.
    { apply (rref_unique f Hd Hirr _ _ (val x4)); auto. eapply HI; eassumption. }
    destruct U as (-> & M & _).
    split; [|reflexivity]. f_equal. now apply tab_ext.
  - eapply changes_det; eassumption.
  - eapply changes_det; eassumption.
  - subst. split; [reflexivity|]. f_equal. eapply iff_bool; eassumption.
  - subst. split; [reflexivity|]. f_equal.
    match goal with |- ?a = ?b => destruct (Nat.lt_trichotomy a b) as [L|[L|L]]; [exfalso|exact L|exfalso] end.
    + match goal with Z : 0 < ?b -> exists _, _ |- _ => match type of L with _ < b => destruct (Z ltac:(lia)) as (j & Hj & Nz) end end.
      apply Nz. match goal with Z : forall i j, ?a <= i < _ -> _ |- _ => match type of L with a < _ => apply Z; lia end end.
    + match goal with Z : 0 < ?b -> exists _, _ |- _ => match type of L with _ < b => destruct (Z ltac:(lia)) as (j & Hj & Nz) end end.
      apply Nz. match goal with Z : forall i j, ?a <= i < _ -> _ |- _ => match type of L with a < _ => apply Z; lia end end.
  - subst. split; [reflexivity|]. f_equal. eapply iff_bool; eassumption.
Qed.

Lemma run_ok f cf : config_ok f cf -> forall p ks st S, rel f ks st S -> legal f ks st p ->
  exists S' os st', run cf S p = Ok (S', os) /\ effects f st (map fst p) st' os /\ Forall2 (stands f) S' st'.
Proof.
  intros CF. induction p as [|[c ch] p IH]; intros ks st S R L.
  - exists S, [], st. cbn. split; [reflexivity|]. split; [now split|]. apply R.
  - destruct L as [La Ll]. destruct (step_ok f cf CF ks st S R c ch La) as (S1 & o & st1 & E & Ef & R1).
    destruct (IH _ st1 S1 R1 (Ll _ _ Ef)) as (S' & os & st' & E' & Es & F). exists S', (o :: os), st'. cbn [run map fst]. rewrite E. cbn [bind]. rewrite E'. cbn [bind].
    split; [reflexivity|]. split; [|exact F]. exists st1, o, os. auto.
Qed.

Lemma run_same f cf cf' : config_ok f cf -> config_ok f cf' -> forall p p' ks ks' st S S2, map fst p = map fst p' -> Forall determined (map fst p) ->
  rel f ks st S -> rel f ks' st S2 -> legal f ks st p -> legal f ks' st p' ->
  exists S' S2' os st', run cf S p = Ok (S', os) /\ run cf' S2 p' = Ok (S2', os) /\ Forall2 (stands f) S' st' /\ Forall2 (stands f) S2' st'.
Proof.
  intros CF CF'. assert (Hd : (1 <= pdeg f)%N). { destruct CF as ((H1 & H2 & _) & <- & _). lia. }
  assert (Hirr : irreducible f) by apply CF.
  induction p as [|[c ch] p IH]; intros [|[c' ch'] p'] ks ks' st S S2 E D R R2 L L2; cbn [map fst] in E; try discriminate.
  - exists S, S2, [], st. cbn. split; [reflexivity|]. split; [reflexivity|]. split; [apply R|apply R2].
  - injection E as -> E. inversion D as [|? ? D1 D2]; subst. destruct L as [La Ll]. destruct L2 as [La2 Ll2].
    destruct (step_ok f cf CF ks st S R c' ch La) as (S1 & o & st1 & E1 & Ef1 & R1).
    destruct (step_ok f cf' CF' ks' st S2 R2 c' ch' La2) as (S3 & o' & st3 & E3 & Ef3 & R3).
    destruct (effect_det f st c' st1 o st3 o' Hd Hirr (fun x A => rel_inM f ks st S x A R) D1 Ef1 Ef3) as (<- & <-).
    destruct (IH p' _ _ st1 S1 S3 E D2 R1 R3 (Ll _ _ Ef1) (Ll2 _ _ Ef3)) as (S' & S2' & os & st' & Q1 & Q2 & Q3 & Q4).
    exists S', S2', (o :: os), st'. cbn [run]. rewrite E1, E3. cbn [bind]. rewrite Q1, Q2. cbn [bind]. auto.
Qed.

(** ** clients that look at the answers *)
Lemma serve_ok f cf : config_ok f cf -> forall t ks st S, rel f ks st S -> careful f ks st t ->
  exists S' tr st', serve cf S t = Ok (S', tr) /\ course f st t tr st' /\ Forall2 (stands f) S' st'.
Proof.
  intros CF. induction t as [|c ch next IH]; intros ks st S R L.
  - exists S, [], st. split; [reflexivity|]. split; [constructor|]. apply R.
  - destruct L as [La Ll]. destruct (step_ok f cf CF ks st S R c ch La) as (S1 & o & st1 & E & Ef & R1).
    destruct (IH o _ st1 S1 R1 (Ll _ _ Ef)) as (S' & tr & st' & E' & Es & F). exists S', ((c, o) :: tr), st'. cbn [serve]. rewrite E. cbn [bind]. rewrite E'. cbn [bind].
    split; [reflexivity|]. split; [|exact F]. econstructor; eauto.
Qed.
Lemma serve_same f cf cf' : config_ok f cf -> config_ok f cf' -> forall t t' ks ks' st S S2, alike t t' -> all_determined t ->
  rel f ks st S -> rel f ks' st S2 -> careful f ks st t -> careful f ks' st t' ->
  exists S' S2' tr st', serve cf S t = Ok (S', tr) /\ serve cf' S2 t' = Ok (S2', tr) /\ course f st t tr st' /\ Forall2 (stands f) S' st' /\ Forall2 (stands f) S2' st'.
Proof.
  intros CF CF'. assert (Hd : (1 <= pdeg f)%N). { destruct CF as ((H1 & H2 & _) & <- & _). lia. }
  assert (Hirr : irreducible f) by apply CF.
  induction t as [|c ch next IH]; intros [|c' ch' next'] ks ks' st S S2 E D R R2 L L2; cbn [alike] in E; try contradiction.
  - exists S, S2, [], st. cbn. split; [reflexivity|]. split; [reflexivity|]. split; [constructor|]. split; [apply R|apply R2].
  - destruct E as [<- E]. destruct D as [D1 D2]. destruct L as [La Ll]. destruct L2 as [La2 Ll2].
    destruct (step_ok f cf CF ks st S R c ch La) as (S1 & o & st1 & E1 & Ef1 & R1).
    destruct (step_ok f cf' CF' ks' st S2 R2 c ch' La2) as (S3 & o' & st3 & E3 & Ef3 & R3).
    destruct (effect_det f st c st1 o st3 o' Hd Hirr (fun x A => rel_inM f ks st S x A R) D1 Ef1 Ef3) as (<- & <-).
    destruct (IH o (next' o) _ _ st1 S1 S3 (E o) (D2 o) R1 R3 (Ll _ _ Ef1) (Ll2 _ _ Ef3)) as (S' & S2' & tr & st' & Q1 & Q2 & Q3 & Q4 & Q5).
    exists S', S2', ((c, o) :: tr), st'. cbn [serve]. rewrite E1, E3. cbn [bind]. rewrite Q1, Q2. cbn [bind]. split; [reflexivity|]. split; [reflexivity|].
    split; [|split; [exact Q4|exact Q5]]. econstructor; eauto.
Qed.
