(** Proofs about ThreadModel.v. *)
From Coq Require Import NArith ZArith Lia List Bool Arith.
From Coq Require Import ZifyBool ZifyNat ZifyN.
From Verif Require Import Base Spec MzedModel SliceModel HistSpec HistModel HistProofs ThreadModel.
Import ListNotations.
Local Open Scope nat_scope.

(** ** a call depends on its operands only and changes its target only *)
Definition local_to (d : dest) (S S2 : state) (r r2 : res (state * out)) : Prop :=
  match r with
  | Ok (S', o) =>
      match d with
      | Nowhere => S' = S /\ r2 = Ok (S2, o)
      | Into x => x < length S /\ exists v, S' = put S x v /\ r2 = Ok (put S2 x v, o)
      | Fresh => exists v, S' = S ++ [v] /\ r2 = Ok (S2 ++ [v], o)
      end
  | Die => r2 = Die
  | UB => r2 = UB
  end.
Definition agree (l : list nat) (S S2 : state) : Prop := length S = length S2 /\ forall x, In x l -> nth_error S x = nth_error S2 x.
Section Local.
Variables (cf : config) (S S2 : state).
Hypothesis L : length S = length S2.
Lemma nth_lt x (v : mval) : nth_error S x = Some v -> x < length S.
Proof. intros E. apply nth_error_Some. congruence. Qed.
Lemma in_place_local x p s : nth_error S x = nth_error S2 x -> local_to (Into x) S S2 (in_place S x p s) (in_place S2 x p s).
Proof.
  intros E. unfold in_place, get. rewrite <- E. destruct (nth_error S x) as [v|] eqn:E1; [|reflexivity].
  cbn [bind]. pose proof (nth_lt _ _ E1). destruct v as [A|A].
  - destruct (p A); cbn [bind local_to]; auto. split; eauto.
  - destruct (s A); cbn [bind local_to]; auto. split; eauto.
Qed.
Lemma in_place2_local x y p s : nth_error S x = nth_error S2 x -> nth_error S y = nth_error S2 y ->
  local_to (Into x) S S2 (in_place2 S x y p s) (in_place2 S2 x y p s).
Proof.
  intros E E'. unfold in_place2, get. rewrite <- E'. destruct (nth_error S y) as [v|]; [|reflexivity]. cbn [bind].
  destruct v; now apply in_place_local.
Qed.
Lemma store_local t v : (forall x, t = Some x -> x < length S) -> forall r2, r2 = Ok (store S2 t v, Nothing) -> local_to (target t) S S2 (Ok (store S t v, Nothing)) r2.
Proof. intros H r2 ->. destruct t as [x|]; cbn [target store local_to]; eauto. Qed.
Lemma get_p_local t : (forall x, In x (given t) -> nth_error S x = nth_error S2 x) -> get_p S t = get_p S2 t.
Proof. destruct t as [x|]; cbn [given get_p]; intros E; [|reflexivity]. now rewrite (E x (or_introl eq_refl)). Qed.
Lemma get_s_local t : (forall x, In x (given t) -> nth_error S x = nth_error S2 x) -> get_s S t = get_s S2 t.
Proof. destruct t as [x|]; cbn [given get_s]; intros E; [|reflexivity]. now rewrite (E x (or_introl eq_refl)). Qed.
Lemma get_p_lt t T : get_p S t = Ok T -> forall x, t = Some x -> x < length S.
Proof. intros E x ->. cbn [get_p] in E. destruct (nth_error S x) eqn:E1; [eapply nth_lt; eauto|discriminate]. Qed.
Lemma get_s_lt t T : get_s S t = Ok T -> forall x, t = Some x -> x < length S.
Proof. intros E x ->. cbn [get_s] in E. destruct (nth_error S x) eqn:E1; [eapply nth_lt; eauto|discriminate]. Qed.
Lemma into_p_local t (g : option mzed -> res mzed) : (forall x, In x (given t) -> nth_error S x = nth_error S2 x) ->
  local_to (target t) S S2 (T <- get_p S t ;; C <- g T ;; Ok (store S t (Pk C), Nothing)) (T <- get_p S2 t ;; C <- g T ;; Ok (store S2 t (Pk C), Nothing)).
Proof.
  intros E. rewrite <- (get_p_local t E). destruct (get_p S t) as [T| |] eqn:G; cbn [bind local_to]; auto.
  destruct (g T); cbn [bind]; auto; try reflexivity. apply store_local; auto. eapply get_p_lt; eauto.
Qed.
Lemma into_s_local t (g : option slice -> res slice) : (forall x, In x (given t) -> nth_error S x = nth_error S2 x) ->
  local_to (target t) S S2 (T <- get_s S t ;; C <- g T ;; Ok (store S t (Sl C), Nothing)) (T <- get_s S2 t ;; C <- g T ;; Ok (store S2 t (Sl C), Nothing)).
Proof.
  intros E. rewrite <- (get_s_local t E). destruct (get_s S t) as [T| |] eqn:G; cbn [bind local_to]; auto.
  destruct (g T); cbn [bind]; auto; try reflexivity. apply store_local; auto. eapply get_s_lt; eauto.
Qed.
Lemma into_local t x p s : (forall y, In y (given t ++ [x]) -> nth_error S y = nth_error S2 y) -> local_to (target t) S S2 (into S t x p s) (into S2 t x p s).
Proof.
  intros E. unfold into, get. rewrite <- (E x) by (apply in_or_app; right; now left). destruct (nth_error S x) as [v|]; [|reflexivity]. cbn [bind].
  assert (E' : forall y, In y (given t) -> nth_error S y = nth_error S2 y) by (intros y Hy; apply E, in_or_app; now left).
  destruct v; [now apply (into_p_local t (fun T => p T A))|now apply (into_s_local t (fun T => s T A))].
Qed.
Lemma into2_local t x y p s : (forall z, In z (given t ++ [x; y]) -> nth_error S z = nth_error S2 z) -> local_to (target t) S S2 (into2 S t x y p s) (into2 S2 t x y p s).
Proof.
  intros E. unfold into2, get. rewrite <- (E y) by (apply in_or_app; right; cbn; auto). destruct (nth_error S y) as [v|]; [|reflexivity]. cbn [bind].
  assert (E' : forall z, In z (given t ++ [x]) -> nth_error S z = nth_error S2 z).
  { intros z Hz. apply E. apply in_app_or in Hz. apply in_or_app. destruct Hz as [Hz|[<-|[]]]; [now left|right; now left]. }
  destruct v; now apply into_local.
Qed.
Lemma run_cmd_local c ch : (forall x, In x (operands c) -> nth_error S x = nth_error S2 x) -> local_to (dest_of c) S S2 (run_cmd cf S c ch) (run_cmd cf S2 c ch).
Proof.
  intros E. destruct c; cbn [operands dest_of run_cmd] in *.
  all: try (apply in_place_local; apply E; now left).
  all: try (apply in_place2_local; apply E; cbn; auto; fail).
  all: try (apply into_local; exact E).
  all: try (apply into2_local; exact E).
  - destruct ch as [k| | | | | | | | |]; try reflexivity. destruct k; [|cbn; eauto]. destruct (mzed_init (cf_ff cf) m n); cbn [bind local_to]; eauto.
  - destruct ch; try (apply into_local; exact E). unfold get. rewrite <- (E x) by (apply in_or_app; right; now left).
    assert (E' : forall y, In y (given t) -> nth_error S y = nth_error S2 y) by (intros y Hy; apply E, in_or_app; now left).
    destruct (nth_error S x) as [v|]; [|reflexivity]. cbn [bind]. destruct v; [now apply (into_s_local t (fun T => ConvModel.mzed_slice T A))|now apply (into_p_local t (fun T => ConvModel.mzed_cling T A))].
  - unfold get. rewrite <- (E x) by (cbn; auto). destruct (nth_error S x) as [v|]; [|reflexivity]. cbn [bind].
    destruct v; apply in_place2_local; apply E; cbn; auto.
  - unfold get. rewrite <- (E x) by (cbn; auto). destruct (nth_error S x) as [v|] eqn:E1; [|reflexivity]. cbn [bind]. pose proof (nth_lt _ _ E1).
    destruct v; [destruct (p_echelon cf ch A full) as [[A' r]| |]|destruct (s_echelon cf ch A full) as [[A' r]| |]]; cbn [bind local_to]; eauto.
  - unfold get. rewrite <- (E x) by (cbn; auto). destruct (nth_error S x) as [v|] eqn:E1; [|reflexivity]. cbn [bind]. pose proof (nth_lt _ _ E1).
    destruct v; [destruct (p_ple cf ch A) as [[[[A' P] Q] r]| |]|destruct (s_ple cf A) as [[[[A' P] Q] r]| |]]; cbn [bind local_to]; eauto.
  - unfold get. rewrite <- (E x) by (cbn; auto). destruct (nth_error S x) as [v|] eqn:E1; [|reflexivity]. cbn [bind]. pose proof (nth_lt _ _ E1).
    destruct v; [reflexivity|destruct (s_pluq cf A) as [[[[A' P] Q] r]| |]]; cbn [bind local_to]; eauto.
  - destruct ch; try reflexivity. apply in_place_local; apply E; now left.
  - unfold get. rewrite <- (E x) by (cbn; auto). destruct (nth_error S x) as [v|] eqn:E1; [|reflexivity]. cbn [bind].
    destruct (match v with Pk A => mzed_read_elem A i j | Sl A => mzd_slice_read_elem A i j end); cbn [bind local_to]; auto.
  - unfold get. rewrite <- (E x) by (cbn; auto). destruct (nth_error S x) as [v|] eqn:E1; [|reflexivity]. cbn [bind local_to]. auto.
  - unfold get. rewrite <- (E x) by (cbn; auto). destruct (nth_error S x) as [v|] eqn:E1; [|reflexivity]. cbn [bind]. destruct v; [cbn [local_to]; auto|reflexivity].
  - unfold get. rewrite <- (E x), <- (E y) by (cbn; auto). destruct (nth_error S x) as [v|] eqn:E1; [|reflexivity]. cbn [bind].
    destruct (nth_error S y) as [w|]; [|reflexivity]. cbn [bind]. destruct v, w; try reflexivity; [cbn [local_to]; auto|].
    destruct (mzd_slice_cmp A A0); cbn [bind local_to]; auto.
Qed.
End Local.

(** ** lists *)
Lemma nth_put_eq {X} (l : list X) x v : x < length l -> nth_error (put l x v) x = Some v.
Proof. intros H. unfold put. rewrite nth_error_app2; rewrite firstn_length, Nat.min_l by lia; [|lia]. now rewrite Nat.sub_diag. Qed.
Lemma nth_put_ne {X} (l : list X) x y v : x < length l -> y <> x -> nth_error (put l x v) y = nth_error l y.
Proof.
  intros H N. unfold put. destruct (Nat.lt_ge_cases y x).
  - rewrite nth_error_app1 by (rewrite firstn_length; lia). revert y x H N H0. induction l as [|a l IH]; intros [|y] [|x] H N H0; cbn in *; try lia; auto. apply IH; lia.
  - rewrite nth_error_app2; rewrite firstn_length, Nat.min_l by lia; [|lia].
    replace (y - x) with (S (y - S x)) by lia. cbn [nth_error].
    assert (K : forall (l : list X) k z, nth_error (skipn k l) z = nth_error l (k + z)).
    { clear. induction l as [|a l IH]; intros [|k] z; cbn; auto. now destruct z. }
    rewrite K. f_equal. lia.
Qed.
Lemma nth_put_inv {X} (l : list X) x y v u : x < length l -> nth_error (put l x v) y = Some u -> (y = x /\ u = v) \/ (y <> x /\ nth_error l y = Some u).
Proof.
  intros H E. destruct (Nat.eq_dec y x) as [->|N]; [rewrite nth_put_eq in E by easy; left; split; congruence|right].
  rewrite nth_put_ne in E by easy. auto.
Qed.
Lemma nth_error_lt {X} (l : list X) x v : nth_error l x = Some v -> x < length l.
Proof. intros E. apply nth_error_Some. congruence. Qed.
Lemma nth_error_snoc {X} (l : list X) v : nth_error (l ++ [v]) (length l) = Some v.
Proof. rewrite nth_error_app2, Nat.sub_diag by lia. reflexivity. Qed.

Section World.
Variables (cf : config).
(** the program a thread has still to run, with the call it is in *)
Definition pending (t : thread) : program := match t_call t with Some k => (c_cmd k, c_choice k) :: t_prog t | None => t_prog t end.
(** thread t has the matrices Sc, as far as it goes, and will end with S and the answers os *)
Definition on_track (w : world) (t : thread) (Send : state) (os : list out) : Prop :=
  exists Sc os', length Sc = length (t_names t) /\ run cf Sc (pending t) = Ok (Send, os') /\ os = t_out t ++ os' /\
    (forall x a, nth_error (t_names t) x = Some a ->
       (exists k, t_call t = Some k /\ dest_of (c_cmd k) = Into x) \/ nth_error (w_mem w) a = nth_error Sc x) /\
    (forall k, t_call t = Some k ->
       (forall x v, c_seen k x = Some v -> nth_error Sc x = Some v) /\ (forall x, dest_of (c_cmd k) = Into x -> c_seen k x = nth_error Sc x)).
Definition separate (w : world) : Prop :=
  (forall i t, nth_error (w_threads w) i = Some t -> NoDup (t_names t) /\ forall a, In a (t_names t) -> a < length (w_mem w)) /\
  (forall i j t u x a, i <> j -> nth_error (w_threads w) i = Some t -> nth_error (w_threads w) j = Some u ->
     changed (pending t) x -> nth_error (t_names t) x = Some a -> ~ In a (t_names u)).
Definition inv (Ss : list state) (oss : list (list out)) (w : world) : Prop :=
  separate w /\ length Ss = length (w_threads w) /\ length oss = length (w_threads w) /\
  forall i t S os, nth_error (w_threads w) i = Some t -> nth_error Ss i = Some S -> nth_error oss i = Some os -> on_track w t S os.

Lemma NoDup_nth_eq (l : list nat) x y a : NoDup l -> nth_error l x = Some a -> nth_error l y = Some a -> x = y.
Proof. intros N E1 E2. apply (proj1 (NoDup_nth_error l) N); [eapply nth_error_lt; eauto|congruence]. Qed.

(** the other threads do not notice *)
Lemma track_mem w t S os mem' : on_track w t S os ->
  (forall a, In a (t_names t) -> nth_error mem' a = nth_error (w_mem w) a) -> forall ths, on_track (World mem' ths) t S os.
Proof.
  intros (Sc & os' & E1 & E2 & E3 & E4 & E5) H ths. exists Sc, os'. split; [exact E1|]. split; [exact E2|]. split; [exact E3|]. split; [|exact E5].
  intros x a E. destruct (E4 x a E) as [K|K]; [now left|right]. cbn [w_mem]. rewrite <- K. apply H. eapply nth_error_In; eauto.
Qed.
(** a step of thread i that changes the address a only, known to no other *)
Lemma inv_step Ss oss w i t t' mem' : inv Ss oss w -> nth_error (w_threads w) i = Some t ->
  length (w_mem w) <= length mem' ->
  (forall j u a, j <> i -> nth_error (w_threads w) j = Some u -> In a (t_names u) -> nth_error mem' a = nth_error (w_mem w) a) ->
  NoDup (t_names t') -> (forall a, In a (t_names t') -> a < length mem') ->
  (forall a, In a (t_names t') -> In a (t_names t) \/ length (w_mem w) <= a) ->
  (forall x, changed (pending t') x -> changed (pending t) x) ->
  (forall x a, nth_error (t_names t') x = Some a -> nth_error (t_names t) x = Some a \/ length (w_mem w) <= a) ->
  (forall S os, nth_error Ss i = Some S -> nth_error oss i = Some os -> on_track w t S os -> on_track (World mem' (put (w_threads w) i t')) t' S os) ->
  inv Ss oss (World mem' (put (w_threads w) i t')).
Proof.
  intros ((SA & SB) & L1 & L2 & T) Ht Lm Hm ND LT NEW CH NM TR. assert (Hi := nth_error_lt _ _ _ Ht).
  split; [split|split; [|split]]; cbn [w_mem w_threads]; try (rewrite put_length by easy; easy).
  - intros j u E. apply nth_put_inv in E; auto. destruct E as [[-> ->]|[N E]]; [now split|]. destruct (SA j u E) as [K1 K2]. split; auto.
    intros a Ha. specialize (K2 a Ha). lia.
  - intros j k u v x a N E1 E2 C E. apply nth_put_inv in E1, E2; auto. destruct E1 as [[-> ->]|[N1 E1]], E2 as [[-> ->]|[N2 E2]]; try (now elim N).
    + destruct (NM x a E) as [E'|G].
      * exact (SB i k t v x a N Ht E2 (CH x C) E').
      * intros K. destruct (SA k v E2) as [_ K2]. specialize (K2 a K). lia.
    + intros K. destruct (NEW a K) as [K1|K1].
      * exact (SB j i u t x a N E1 Ht C E K1).
      * destruct (SA j u E1) as [_ K2]. specialize (K2 a (nth_error_In _ _ E)). lia.
    + exact (SB j k u v x a N E1 E2 C E).
  - intros j u S os E ES Eos. apply nth_put_inv in E; auto. destruct E as [[-> ->]|[N E]].
    + eapply TR; eauto.
    + eapply track_mem; [eapply T; eauto|]. intros a Ha. eapply Hm; eauto.
Qed.

Lemma run_cons Sc c ch p r : run cf Sc ((c, ch) :: p) = Ok r ->
  exists S1 o os, run_cmd cf Sc c ch = Ok (S1, o) /\ run cf S1 p = Ok (fst r, os) /\ snd r = o :: os.
Proof.
  cbn [run]. destruct (run_cmd cf Sc c ch) as [[S1 o]| |]; cbn [bind]; try discriminate. destruct (run cf S1 p) as [[S' os]| |] eqn:E; cbn [bind]; try discriminate.
  intros K. injection K as <-. exists S1, o, os. auto.
Qed.
Lemma informed_agrees w t k S Send os : on_track w t Send os -> t_call t = Some k -> informed t k S ->
  exists Sc, (exists os', length Sc = length (t_names t) /\ run cf Sc (pending t) = Ok (Send, os') /\ os = t_out t ++ os' /\
    (forall x a, nth_error (t_names t) x = Some a -> dest_of (c_cmd k) = Into x \/ nth_error (w_mem w) a = nth_error Sc x)) /\
    local_to (dest_of (c_cmd k)) S Sc (run_cmd cf S (c_cmd k) (c_choice k)) (run_cmd cf Sc (c_cmd k) (c_choice k)).
Proof.
  intros (Sc & os' & E1 & E2 & E3 & E4 & E5) Hk [I1 I2]. exists Sc. split.
  - exists os'. split; [exact E1|]. split; [exact E2|]. split; [exact E3|]. intros x a E. destruct (E4 x a E) as [(k' & K1 & K2)|K]; [|now right]. left. congruence.
  - apply run_cmd_local. intros x Hx. destruct (I2 x Hx) as [K1 K2]. rewrite K1. destruct (c_seen k x) as [v|] eqn:E; [|congruence].
    destruct (E5 k Hk) as [E6 _]. symmetry. now apply E6.
Qed.

Lemma step_inv Ss oss i w w' : inv Ss oss w -> step cf i w w' -> inv Ss oss w'.
Proof.
  intros I ST. pose proof I as ((SA & SB) & L1 & L2 & T). destruct ST as [t c ch p Ht Hc Hp|t k x v Ht Hk Hx Hd Hv|t k x a v Ht Hk Hd Ha La|t k S o Ht Hk HI Hd (S' & E)|t k S S' o x a v Ht Hk HI Hd E Hv Ha La|t k S S' o v Ht Hk HI Hd E Hv].
  - destruct (SA i t Ht) as [ND LT]. apply (inv_step Ss oss w i t); auto; cbn [t_names].
    + unfold pending. cbn [t_call c_cmd c_choice t_prog]. rewrite Hc, Hp. auto.
    + intros S os _ _ (Sc & os' & E1 & E2 & E3 & E4 & E5). exists Sc, os'. cbn [t_names t_out t_call w_mem].
      assert (E4' : forall x a, nth_error (t_names t) x = Some a -> nth_error (w_mem w) a = nth_error Sc x).
      { intros x a E. destruct (E4 x a E) as [(k & K & _)|K]; [congruence|exact K]. }
      assert (Eat : forall x, at_name w t x = nth_error Sc x).
      { intros x. unfold at_name. destruct (nth_error (t_names t) x) as [a|] eqn:E; [now apply E4'|]. symmetry. apply nth_error_None. rewrite E1. now apply nth_error_None. }
      split; [exact E1|]. split; [unfold pending in *; cbn [t_call c_cmd c_choice t_prog]; rewrite Hc, Hp in E2; exact E2|]. split; [exact E3|]. split; [intros; right; auto|].
      intros k K. injection K as <-. cbn [c_seen c_cmd]. split.
      * intros x v. destruct (dest_of c); try discriminate. destruct (x =? x0); [|discriminate]. intros K. now rewrite Eat in K.
      * intros x ->. now rewrite Nat.eqb_refl.
  - destruct (SA i t Ht) as [ND LT]. apply (inv_step Ss oss w i t); auto; cbn [t_names].
    + unfold pending. cbn [t_call c_cmd c_choice t_prog]. rewrite Hk. auto.
    + intros S os _ _ (Sc & os' & E1 & E2 & E3 & E4 & E5). exists Sc, os'. cbn [t_names t_out t_call w_mem].
      split; [exact E1|]. split; [unfold pending in *; cbn [t_call c_cmd c_choice t_prog]; rewrite Hk in E2; exact E2|]. split; [exact E3|]. split.
      * intros y a E. destruct (E4 y a E) as [(k' & K & K')|K]; [left|right; exact K]. assert (k' = k) by congruence. subst k'. eexists. split; [reflexivity|exact K'].
      * intros k' K. injection K as <-. cbn [c_seen c_cmd]. destruct (E5 k Hk) as [E6 E7]. split.
        -- intros y u. destruct (Nat.eqb_spec y x) as [->|N]; [|apply E6]. intros K. injection K as <-. unfold at_name in Hv.
           destruct (nth_error (t_names t) x) as [a|] eqn:E; [|discriminate]. destruct (E4 x a E) as [(k' & K & K')|K]; [congruence|congruence].
        -- intros y K. destruct (Nat.eqb_spec y x) as [->|N]; [congruence|now apply E7].
  - (* memory only *) destruct (SA i t Ht) as [ND LT]. assert (Hi := nth_error_lt _ _ _ Ht).
    replace (w_threads w) with (put (w_threads w) i t) by (now apply put_same). apply (inv_step Ss oss w i t); auto.
    + rewrite put_length; auto.
    + intros j u b N Hu Hb. apply nth_put_ne; auto. intros ->. apply (SB i j t u x a (not_eq_sym N) Ht Hu); auto. unfold pending. rewrite Hk. eexists _, _. split; [now left|exact Hd].
    + intros b Hb. rewrite put_length by easy. auto.
    + intros S os _ _ (Sc & os' & E1 & E2 & E3 & E4 & E5). exists Sc, os'. cbn [w_mem].
      split; [exact E1|]. split; [exact E2|]. split; [exact E3|]. split; [|exact E5].
      intros y b E. destruct (E4 y b E) as [K|K]; [now left|]. destruct (Nat.eq_dec b a) as [->|N].
      * left. exists k. split; [exact Hk|]. rewrite Hd. f_equal. eapply NoDup_nth_eq; eauto.
      * right. now rewrite nth_put_ne.
  - destruct (SA i t Ht) as [ND LT]. apply (inv_step Ss oss w i t); auto; cbn [t_names].
    + unfold pending. cbn [t_call t_prog]. rewrite Hk. intros y (c & ch & K & K'). exists c, ch. split; [now right|exact K'].
    + intros Send os _ _ TR. destruct (informed_agrees w t k S Send os TR Hk HI) as (Sc & (os' & E1 & E2 & E3 & E4) & LO).
      rewrite E, Hd in LO. cbn [local_to] in LO. destruct LO as [_ LO]. unfold pending in E2. rewrite Hk in E2. apply run_cons in E2.
      destruct E2 as (S1 & o1 & os1 & F1 & F2 & F3). cbn [fst snd] in *. rewrite F1 in LO. injection LO as -> ->.
      exists Sc, os1. cbn [t_names t_out t_call w_mem pending t_prog]. split; [exact E1|]. split; [exact F2|]. split; [subst; now rewrite <- app_assoc|]. split; [|discriminate].
      intros y a Hy. right. destruct (E4 y a Hy) as [K|K]; [congruence|exact K].
  - destruct (SA i t Ht) as [ND LT]. apply (inv_step Ss oss w i t); auto; cbn [t_names].
    + rewrite put_length; auto.
    + intros j u b N Hu Hb. apply nth_put_ne; auto. intros ->. apply (SB i j t u x a (not_eq_sym N) Ht Hu); auto. unfold pending. rewrite Hk. eexists _, _. split; [now left|exact Hd].
    + intros b Hb. rewrite put_length by easy. auto.
    + unfold pending. cbn [t_call t_prog]. rewrite Hk. intros y (c & ch & K & K'). exists c, ch. split; [now right|exact K'].
    + intros Send os _ _ TR. destruct (informed_agrees w t k S Send os TR Hk HI) as (Sc & (os' & E1 & E2 & E3 & E4) & LO).
      rewrite E, Hd in LO. cbn [local_to] in LO. destruct LO as [Lx (u & -> & LO)]. rewrite nth_put_eq in Hv by easy. injection Hv as ->.
      unfold pending in E2. rewrite Hk in E2. apply run_cons in E2. destruct E2 as (S1 & o1 & os1 & F1 & F2 & F3). cbn [fst snd] in *. rewrite F1 in LO. injection LO as -> ->.
      assert (Lx' : x < length Sc) by (destruct HI as [K _]; lia).
      exists (put Sc x v), os1. cbn [t_names t_out t_call w_mem pending t_prog]. split; [now rewrite put_length|]. split; [exact F2|]. split; [subst; now rewrite <- app_assoc|]. split; [|discriminate].
      intros y b Hy. right. destruct (Nat.eq_dec b a) as [->|N].
      * assert (y = x) by (eapply NoDup_nth_eq; eauto). subst y. now rewrite !nth_put_eq.
      * assert (y <> x) by (intros ->; congruence). rewrite !nth_put_ne by easy. destruct (E4 y b Hy) as [K|K]; [congruence|exact K].
  - destruct (SA i t Ht) as [ND LT]. apply (inv_step Ss oss w i t); auto; cbn [t_names].
    + rewrite app_length. lia.
    + intros j u b N Hu Hb. destruct (SA j u Hu) as [_ K]. apply nth_error_app1. auto.
    + apply NoDup_rev in ND. rewrite <- (rev_involutive (_ ++ _)). apply NoDup_rev. rewrite rev_app_distr. cbn. constructor; auto.
      rewrite <- in_rev. intros K. specialize (LT _ K). lia.
    + intros b Hb. rewrite app_length. cbn. apply in_app_or in Hb. destruct Hb as [Hb|[<-|[]]]; [specialize (LT b Hb)|]; lia.
    + intros b Hb. apply in_app_or in Hb. destruct Hb as [Hb|[<-|[]]]; auto.
    + unfold pending. cbn [t_call t_prog]. rewrite Hk. intros y (c & ch & K & K'). exists c, ch. split; [now right|exact K'].
    + intros y b Hy. destruct (Nat.lt_ge_cases y (length (t_names t))) as [G|G].
      * rewrite nth_error_app1 in Hy by easy. now left.
      * rewrite nth_error_app2 in Hy by easy. right. destruct (y - length (t_names t)) as [|z]; [injection Hy as <-; lia|]. destruct z; discriminate.
    + intros Send os _ _ TR. destruct (informed_agrees w t k S Send os TR Hk HI) as (Sc & (os' & E1 & E2 & E3 & E4) & LO).
      rewrite E, Hd in LO. cbn [local_to] in LO. destruct LO as (u & -> & LO). rewrite nth_error_snoc in Hv. injection Hv as ->.
      unfold pending in E2. rewrite Hk in E2. apply run_cons in E2. destruct E2 as (S1 & o1 & os1 & F1 & F2 & F3). cbn [fst snd] in *. rewrite F1 in LO. injection LO as -> ->.
      exists (Sc ++ [v]), os1. cbn [t_names t_out t_call w_mem pending t_prog]. split; [rewrite !app_length; cbn; lia|]. split; [exact F2|]. split; [subst; now rewrite <- app_assoc|]. split; [|discriminate].
      intros y b Hy. right. destruct (Nat.lt_ge_cases y (length (t_names t))) as [G|G].
      * rewrite nth_error_app1 in Hy by easy. pose proof (LT b (nth_error_In _ _ Hy)). rewrite !nth_error_app1 by lia. destruct (E4 y b Hy) as [K|K]; [congruence|exact K].
      * rewrite nth_error_app2 in Hy by easy. assert (y = length (t_names t)).
        { destruct (y - length (t_names t)) as [|z] eqn:K; [lia|]. destruct z; discriminate. } subst y. rewrite Nat.sub_diag in Hy. injection Hy as <-. now rewrite <- E1, !nth_error_snoc.
Qed.
End World.

(** ** starting *)
Section Reach.
Variables (cf : config).
Lemma start_inv w Ss oss : race_free w -> length Ss = length (w_threads w) -> length oss = length (w_threads w) ->
  (forall i t S S' os, nth_error (w_threads w) i = Some t -> sees w t S -> nth_error Ss i = Some S' -> nth_error oss i = Some os -> run cf S (t_prog t) = Ok (S', os)) ->
  inv cf Ss oss w.
Proof.
  intros [R1 R2] L1 L2 H. split; [split|split; [exact L1|split; [exact L2|]]].
  - intros i t Ht. destruct (R1 i t Ht) as (_ & _ & K). exact K.
  - intros i j t u x a N Ht Hu C. apply (R2 i j t u x a N Ht Hu). unfold pending in C. destruct (R1 i t Ht) as (K & _). now rewrite K in C.
  - intros i t S' os Ht HS Hos. destruct (R1 i t Ht) as (Hc & Ho & ND & LT). 
    assert (X : exists S, sees w t S).
    { clear -LT. unfold sees, at_name. induction (t_names t) as [|a l IH] using rev_ind; [exists []; split; [reflexivity|]; cbn; lia|].
      destruct IH as (S & I1 & I2); [intros b Hb; apply LT, in_or_app; now left|].
      assert (La : a < length (w_mem w)) by (apply LT, in_or_app; right; now left).
      destruct (nth_error (w_mem w) a) as [v|] eqn:E; [|apply nth_error_None in E; lia].
      exists (S ++ [v]). split; [rewrite !app_length; cbn; lia|]. intros x Hx. rewrite app_length in Hx. cbn in Hx.
      destruct (Nat.eq_dec x (length S)) as [->|N].
      - rewrite nth_error_snoc, I1, nth_error_snoc. exact E.
      - rewrite !nth_error_app1 by lia. apply I2. lia. }
    destruct X as (S & X). exists S, os. destruct X as [X1 X2]. split; [exact X1|]. unfold pending. rewrite Hc, Ho. split; [eapply H; eauto; split; auto|]. split; [reflexivity|]. split; [|discriminate].
    intros x a Ha. right. assert (Hx := nth_error_lt _ _ _ Ha). rewrite <- X2 by lia. unfold at_name. now rewrite Ha.
Qed.
Lemma steps_inv Ss oss w w' : inv cf Ss oss w -> steps cf w w' -> inv cf Ss oss w'.
Proof. intros I H. induction H as [|i w w1 w2 H IH ST]; [exact I|]. eapply step_inv; [apply IH; exact I|exact ST]. Qed.
Lemma steps_trans w w1 w2 : steps cf w w1 -> steps cf w1 w2 -> steps cf w w2.
Proof. intros H1 H2. induction H2 as [|i w1 w2 w3 H2 IH ST]; [exact H1|]. eapply steps_more; [apply IH; exact H1|exact ST]. Qed.
Lemma step_threads i w w' : step cf i w w' -> length (w_threads w') = length (w_threads w).
Proof. destruct 1; cbn [w_threads]; auto; apply put_length; eapply nth_error_lt; eauto. Qed.

Lemma inv_thread Ss oss w i t : inv cf Ss oss w -> nth_error (w_threads w) i = Some t -> exists S os, nth_error Ss i = Some S /\ nth_error oss i = Some os /\ on_track cf w t S os.
Proof.
  intros (_ & L1 & L2 & T) Ht. assert (Hi := nth_error_lt _ _ _ Ht). destruct (nth_error Ss i) as [S|] eqn:E1; [|apply nth_error_None in E1; lia].
  destruct (nth_error oss i) as [os|] eqn:E2; [|apply nth_error_None in E2; lia]. exists S, os. eauto.
Qed.
(** a call that succeeds has operands that exist *)
Lemma run_cmd_exists S c ch r : run_cmd cf S c ch = Ok r -> forall x, In x (operands c) -> nth_error S x <> None.
Proof.
  intros E x Hx.
  assert (G : forall y {Y} (g : mval -> res Y) r, (v <- get S y ;; g v) = Ok r -> nth_error S y <> None).
  { intros y Y g r0. unfold get. destruct (nth_error S y); [discriminate|]. cbn [bind]. discriminate. }
  assert (G1 : forall y p s r, in_place S y p s = Ok r -> nth_error S y <> None).
  { intros y p s r0. unfold in_place. apply G. }
  assert (G2 : forall y z p s r, in_place2 S y z p s = Ok r -> nth_error S y <> None /\ nth_error S z <> None).
  { intros y z p s r0. unfold in_place2, get. destruct (nth_error S z) as [v|]; cbn [bind]; [|discriminate]. intros K. split; [|discriminate]. destruct v; eapply G1; eauto. }
  assert (Gp : forall t {Y} (g : option mzed -> res Y) r, (T <- get_p S t ;; g T) = Ok r -> forall y, In y (given t) -> nth_error S y <> None).
  { intros t Y g r0. destruct t as [y|]; cbn [get_p given]; [|intros _ y []]. intros K y' [<-|[]]. destruct (nth_error S y); [discriminate|]. cbn [bind] in K. discriminate. }
  assert (Gs : forall t {Y} (g : option slice -> res Y) r, (T <- get_s S t ;; g T) = Ok r -> forall y, In y (given t) -> nth_error S y <> None).
  { intros t Y g r0. destruct t as [y|]; cbn [get_s given]; [|intros _ y []]. intros K y' [<-|[]]. destruct (nth_error S y); [discriminate|]. cbn [bind] in K. discriminate. }
  assert (G3 : forall t y p s r, into S t y p s = Ok r -> forall z, In z (given t ++ [y]) -> nth_error S z <> None).
  { intros t y p s r0 K z Hz. unfold into in K. pose proof (G _ _ _ _ K) as K1. unfold get in K. destruct (nth_error S y) as [v|] eqn:Ey; [|easy]. cbn [bind] in K.
    apply in_app_or in Hz. destruct Hz as [Hz|[<-|[]]]; [|congruence]. destruct v; [exact (Gp _ _ _ _ K z Hz)|exact (Gs _ _ _ _ K z Hz)]. }
  assert (G4 : forall t y y2 p s r, into2 S t y y2 p s = Ok r -> forall z, In z (given t ++ [y; y2]) -> nth_error S z <> None).
  { intros t y y2 p s r0 K z Hz. unfold into2 in K. pose proof (G _ _ _ _ K) as K1. unfold get in K. destruct (nth_error S y2) as [v|] eqn:Ey; [|easy]. cbn [bind] in K.
    assert (Hz' : In z (given t ++ [y]) \/ z = y2).
    { apply in_app_or in Hz. destruct Hz as [Hz|[<-|[<-|[]]]]; auto; left; apply in_or_app; cbn; auto. }
    destruct Hz' as [Hz'| ->]; [|congruence]. destruct v; exact (G3 _ _ _ _ _ K z Hz'). }
  destruct c; cbn [operands run_cmd] in *.
  all: try (destruct Hx as [<-|[]]; eauto; fail).
  all: try (destruct (G2 _ _ _ _ _ E) as [K1 K2]; destruct Hx as [<-|[<-|[]]]; auto; fail).
  all: try (eapply G3; eauto; fail).
  all: try (eapply G4; eauto; fail).
  all: try (destruct Hx; fail).
  - destruct ch; try (eapply G3; eauto; fail). pose proof (G _ _ _ _ E) as K1. unfold get in E. destruct (nth_error S x0) as [v|] eqn:Ey; [|easy]. cbn [bind] in E.
    apply in_app_or in Hx. destruct Hx as [Hx|[<-|[]]]; [|congruence]. destruct v; [exact (Gs _ _ _ _ E x Hx)|exact (Gp _ _ _ _ E x Hx)].
  - pose proof (G _ _ _ _ E) as K1. unfold get in E. destruct (nth_error S x0) as [v|] eqn:Ey; [|easy]. cbn [bind] in E.
    destruct v; destruct (G2 _ _ _ _ _ E) as [K3 K2]; destruct Hx as [<-|[<-|[<-|[]]]]; auto; congruence.
  - destruct Hx as [<-|[]]. exact (G _ _ _ _ E).
  - destruct Hx as [<-|[]]. exact (G _ _ _ _ E).
  - destruct Hx as [<-|[]]. exact (G _ _ _ _ E).
  - destruct ch; try discriminate E. destruct Hx as [<-|[]]. eauto.
  - destruct Hx as [<-|[]]. exact (G _ _ _ _ E).
  - destruct Hx as [<-|[]]. exact (G _ _ _ _ E).
  - destruct Hx as [<-|[]]. exact (G _ _ _ _ E).
  - pose proof (G _ _ _ _ E) as K1. unfold get in E. destruct (nth_error S x0) as [v|] eqn:Ex; [|easy]. cbn [bind] in E. destruct (nth_error S y) as [v2|] eqn:Ey; cbn [bind] in E; [|discriminate].
    destruct Hx as [<-|[<-|[]]]; congruence.
Qed.

(** thread i is alone at work *)
Definition only (i : nat) (w w' : world) : Prop := steps cf w w' /\ forall j, j <> i -> nth_error (w_threads w') j = nth_error (w_threads w) j.
Lemma only_refl i w : only i w w. Proof. split; [constructor|auto]. Qed.
Lemma only_step i w w1 t1 mem : only i w w1 -> i < length (w_threads w1) -> step cf i w1 (World mem (put (w_threads w1) i t1)) -> only i w (World mem (put (w_threads w1) i t1)).
Proof.
  intros [H1 H2] Hi ST. split; [eapply steps_more; eauto|]. cbn [w_threads]. intros j N. rewrite nth_put_ne by easy. auto.
Qed.
(** it can look at all its operands *)
Lemma look_all Ss oss i k0 w0 : forall l w t, only i w0 w -> inv cf Ss oss w -> nth_error (w_threads w) i = Some t -> (exists k, t_call t = Some k /\ c_cmd k = c_cmd k0 /\ c_choice k = c_choice k0) ->
  (forall x, In x l -> In x (operands (c_cmd k0))) ->
  exists w' t' k', only i w0 w' /\ inv cf Ss oss w' /\ nth_error (w_threads w') i = Some t' /\ t_names t' = t_names t /\ t_prog t' = t_prog t /\ t_out t' = t_out t /\ t_call t' = Some k' /\
    c_cmd k' = c_cmd k0 /\ c_choice k' = c_choice k0 /\ forall x, In x l -> c_seen k' x <> None.
Proof.
  induction l as [|x l IH]; intros w t OW I Ht (k & Hk & Ek & Ek') Hl.
  - exists w, t, k. split; [exact OW|]. split; [exact I|]. split; [exact Ht|]. do 3 (split; [reflexivity|]). split; [exact Hk|]. split; [exact Ek|]. split; [exact Ek'|]. intros x [].
  - destruct (IH w t OW I Ht) as (w1 & t1 & k1 & O1 & I1 & H1 & N1 & P1 & T1 & C1 & Q1 & Q2 & Q3); [eauto|intros; apply Hl; now right|].
    assert (Hx : In x (operands (c_cmd k1))) by (rewrite Q1; apply Hl; now left).
    destruct (inv_thread _ _ _ _ _ I1 H1) as (S & os & _ & _ & (Sc & os' & E1 & E2 & E3 & E4 & E5)).
    destruct (E5 k1 C1) as [E6 E7]. assert (Ex : nth_error Sc x <> None).
    { unfold pending in E2. rewrite C1 in E2. apply run_cons in E2. destruct E2 as (S1 & o & os1 & F1 & _). eapply run_cmd_exists; eauto. }
    assert (D : {dest_of (c_cmd k1) = Into x} + {dest_of (c_cmd k1) <> Into x}) by (repeat decide equality).
    destruct D as [D|D].
    + exists w1, t1, k1. split; [exact O1|]. split; [exact I1|]. split; [exact H1|]. split; [exact N1|]. split; [exact P1|]. split; [exact T1|]. split; [exact C1|]. split; [exact Q1|]. split; [exact Q2|]. intros y [<-|Hy]; [rewrite (E7 x D); exact Ex|now apply Q3].
    + destruct (nth_error (t_names t1) x) as [a|] eqn:Ea.
      2:{ apply nth_error_None in Ea. apply nth_error_Some in Ex. lia. }
      destruct (E4 x a Ea) as [(k2 & K1 & K2)|K]; [congruence|]. destruct (nth_error (w_mem w1) a) as [v|] eqn:Ev; [|congruence].
      assert (Hat : at_name w1 t1 x = Some v) by (unfold at_name; now rewrite Ea).
      assert (Hi := nth_error_lt _ _ _ H1). pose proof (s_look cf i w1 t1 k1 x v H1 C1 Hx D Hat) as ST.
      eexists _, _, _. split; [eapply only_step; eauto|]. split; [eapply step_inv; eauto|]. cbn [w_threads]. rewrite nth_put_eq by easy.
      split; [reflexivity|]. cbn [t_names t_prog t_out t_call]. split; [exact N1|]. split; [exact P1|]. split; [exact T1|]. split; [reflexivity|]. cbn [c_cmd c_choice c_seen].
      split; [exact Q1|]. split; [exact Q2|]. intros y [<-|Hy]; [now rewrite Nat.eqb_refl|]. destruct (y =? x); [discriminate|now apply Q3].
Qed.
(** and end the call *)
Lemma end_call Ss oss i w t k : inv cf Ss oss w -> nth_error (w_threads w) i = Some t -> t_call t = Some k ->
  exists w' t', only i w w' /\ inv cf Ss oss w' /\ nth_error (w_threads w') i = Some t' /\ t_call t' = None /\ t_prog t' = t_prog t.
Proof.
  intros I Ht Hk. destruct (look_all Ss oss i k w (operands (c_cmd k)) w t (only_refl i w) I Ht) as (w1 & t1 & k1 & O1 & I1 & H1 & N1 & P1 & T1 & C1 & Q1 & Q2 & Q3); [eauto|auto|].
  destruct (inv_thread _ _ _ _ _ I1 H1) as (S & os & _ & _ & TR). destruct TR as (Sc & os' & E1 & E2 & E3 & E4 & E5).
  destruct (E5 k1 C1) as [E6 E7]. assert (HI : informed t1 k1 Sc).
  { split; [exact E1|]. intros x Hx. rewrite Q1 in Hx. specialize (Q3 x Hx). split; [|exact Q3]. destruct (c_seen k1 x) eqn:E; [|easy]. now apply E6. }
  unfold pending in E2. rewrite C1 in E2. apply run_cons in E2. destruct E2 as (S1 & o & os1 & F1 & _).
  pose proof (run_cmd_local cf Sc Sc (c_cmd k1) (c_choice k1) (fun x _ => eq_refl)) as LO. rewrite F1 in LO.
  assert (Hi := nth_error_lt _ _ _ H1). destruct (dest_of (c_cmd k1)) as [x| |] eqn:D; cbn [local_to] in LO.
  - destruct LO as [Lx (v & -> & _)]. destruct (nth_error (t_names t1) x) as [a|] eqn:Ea; [|apply nth_error_None in Ea; lia].
    destruct I1 as ((SA & SB) & I1'). assert (La : a < length (w_mem w1)) by (apply (SA i t1 H1); eapply nth_error_In; eauto).
    pose proof (s_write cf i w1 t1 k1 Sc (put Sc x v) o x a v H1 C1 HI D F1 (nth_put_eq _ _ _ Lx) Ea La) as ST.
    eexists _, _. split; [eapply only_step; eauto|]. split; [eapply step_inv; [|exact ST]; split; [split; assumption|exact I1']|]. cbn [w_threads]. rewrite nth_put_eq by easy. split; [reflexivity|]. auto.
  - destruct LO as (v & -> & _). pose proof (s_create cf i w1 t1 k1 Sc (Sc ++ [v]) o v H1 C1 HI D F1 (nth_error_snoc _ _)) as ST.
    eexists _, _. split; [eapply only_step; eauto|]. split; [eapply step_inv; eauto|]. cbn [w_threads]. rewrite nth_put_eq by easy. split; [reflexivity|]. auto.
  - destruct LO as [-> _]. pose proof (s_answer cf i w1 t1 k1 Sc o H1 C1 HI D (ex_intro _ Sc F1)) as ST.
    eexists _, _. split; [eapply only_step; eauto|]. split; [eapply step_inv; eauto|]. cbn [w_threads]. rewrite nth_put_eq by easy. split; [reflexivity|]. auto.
Qed.
Lemma only_trans i w w1 w2 : only i w w1 -> only i w1 w2 -> only i w w2.
Proof. intros [A1 A2] [B1 B2]. split; [eapply steps_trans; eauto|]. intros j N. rewrite B2, A2; auto. Qed.
Lemma finish_idle Ss oss i : forall p w t, inv cf Ss oss w -> nth_error (w_threads w) i = Some t -> t_call t = None -> t_prog t = p ->
  exists w' t', only i w w' /\ inv cf Ss oss w' /\ nth_error (w_threads w') i = Some t' /\ finished t'.
Proof.
  induction p as [|[c ch] p IH]; intros w t I Ht Hc Hp.
  - exists w, t. split; [apply only_refl|]. split; [exact I|]. split; [exact Ht|]. split; auto.
  - assert (Hi := nth_error_lt _ _ _ Ht). pose proof (s_begin cf i w t c ch p Ht Hc Hp) as ST.
    pose proof (step_inv _ _ _ _ _ _ I ST) as I1. pose proof (only_step i w w _ _ (only_refl i w) Hi ST) as O1.
    match type of ST with step _ _ _ (World _ (put _ _ ?t1)) =>
      destruct (end_call Ss oss i _ t1 _ I1 (nth_put_eq _ _ t1 Hi) eq_refl) as (w2 & t2 & O2 & I2 & H2 & C2 & P2) end.
    cbn [t_prog] in P2. destruct (IH w2 t2 I2 H2 C2 P2) as (w3 & t3 & O3 & I3 & H3 & F3). exists w3, t3. split; [|auto]. eapply only_trans; [exact O1|]. eapply only_trans; eauto.
Qed.
Lemma finish_one Ss oss i w t : inv cf Ss oss w -> nth_error (w_threads w) i = Some t ->
  exists w' t', only i w w' /\ inv cf Ss oss w' /\ nth_error (w_threads w') i = Some t' /\ finished t'.
Proof.
  intros I Ht. destruct (t_call t) as [k|] eqn:Hk.
  - destruct (end_call Ss oss i w t k I Ht Hk) as (w1 & t1 & O1 & I1 & H1 & C1 & P1). destruct (finish_idle Ss oss i _ w1 t1 I1 H1 C1 eq_refl) as (w2 & t2 & O2 & K). exists w2, t2.
    split; [eapply only_trans; eauto|exact K].
  - eapply finish_idle; eauto.
Qed.
Lemma finish_below Ss oss w : inv cf Ss oss w -> forall n, n <= length (w_threads w) ->
  exists w', steps cf w w' /\ inv cf Ss oss w' /\ length (w_threads w') = length (w_threads w) /\ forall i t, i < n -> nth_error (w_threads w') i = Some t -> finished t.
Proof.
  intros I. induction n as [|n IH]; intros Hn.
  - exists w. split; [constructor|]. split; [exact I|]. split; [reflexivity|]. intros; lia.
  - destruct IH as (w1 & S1 & I1 & L1 & F1); [lia|]. destruct (nth_error (w_threads w1) n) as [t|] eqn:E; [|apply nth_error_None in E; lia].
    destruct (finish_one Ss oss n w1 t I1 E) as (w2 & t2 & [O1 O2] & I2 & H2 & F2). exists w2. split; [eapply steps_trans; eauto|]. split; [exact I2|]. split.
    + destruct I1 as (_ & K1 & _), I2 as (_ & K2 & _). congruence.
    + intros i u Hi Hu. destruct (Nat.eq_dec i n) as [->|N]; [congruence|]. rewrite O2 in Hu by easy. eapply F1; eauto. lia.
Qed.
(** no call fails *)
Lemma inv_safe Ss oss i w : inv cf Ss oss w -> ~ fails cf i w.
Proof.
  intros I (t & k & S & Ht & Hk & HI & H). destruct (inv_thread _ _ _ _ _ I Ht) as (Send & os & _ & _ & TR).
  destruct (informed_agrees cf w t k S Send os TR Hk HI) as (Sc & (os' & E1 & E2 & E3 & E4) & LO).
  unfold pending in E2. rewrite Hk in E2. apply run_cons in E2. destruct E2 as (S1 & o & os1 & F1 & _).
  unfold local_to in LO. destruct (run_cmd cf S (c_cmd k) (c_choice k)) as [r| |] eqn:E; [now apply (H r)| |]; congruence.
Qed.
Lemma inv_finished Ss oss i w t S os : inv cf Ss oss w -> nth_error (w_threads w) i = Some t -> finished t -> nth_error Ss i = Some S -> nth_error oss i = Some os ->
  t_out t = os /\ sees w t S.
Proof.
  intros I Ht [F1 F2] ES Eo. destruct I as (_ & _ & _ & T). destruct (T i t S os Ht ES Eo) as (Sc & os' & E1 & E2 & E3 & E4 & _).
  unfold pending in E2. rewrite F2, F1 in E2. cbn [run] in E2. injection E2 as <- <-. split; [subst; now rewrite app_nil_r|]. split; [exact E1|].
  intros x Hx. unfold at_name. destruct (nth_error (t_names t) x) as [a|] eqn:Ea; [|apply nth_error_None in Ea; lia].
  destruct (E4 x a Ea) as [(k & K & _)|K]; [congruence|exact K].
Qed.
(** matrices that no thread changes *)
Definition untouched (w : world) (a : nat) : Prop :=
  a < length (w_mem w) /\ forall i t x, nth_error (w_threads w) i = Some t -> changed (pending t) x -> nth_error (t_names t) x <> Some a.
Lemma step_untouched i w w' a : untouched w a -> step cf i w w' -> untouched w' a /\ nth_error (w_mem w') a = nth_error (w_mem w) a.
Proof.
  intros [La U] ST.
  assert (G : forall t t' mem, nth_error (w_threads w) i = Some t -> (forall x, changed (pending t') x -> changed (pending t) x) ->
    (forall x, nth_error (t_names t') x = Some a -> nth_error (t_names t) x = Some a) -> a < length mem -> untouched (World mem (put (w_threads w) i t')) a).
  { intros t t' mem Ht H1 H2 Lm. split; [exact Lm|]. cbn [w_threads]. intros j u x Hu C. apply nth_put_inv in Hu; [|eapply nth_error_lt; eauto].
    destruct Hu as [[-> ->]|[N Hu]]; [|eapply U; eauto]. intros E. exact (U i t x Ht (H1 x C) (H2 x E)). }
  destruct ST as [t c ch p Ht Hc Hp|t k x v Ht Hk Hx Hd Hv|t k x b v Ht Hk Hd Hb Lb|t k S o Ht Hk HI Hd (S' & E)|t k S S' o x b v Ht Hk HI Hd E Hv Hb Lb|t k S S' o v Ht Hk HI Hd E Hv]; cbn [w_mem].
  - split; [|reflexivity]. apply (G t); auto. unfold pending. cbn [t_call c_cmd c_choice t_prog]. rewrite Hc, Hp. auto.
  - split; [|reflexivity]. apply (G t); auto. unfold pending. cbn [t_call c_cmd c_choice t_prog]. rewrite Hk. auto.
  - assert (N : a <> b). { intros ->. apply (U i t x Ht); auto. unfold pending. rewrite Hk. eexists _, _. split; [now left|exact Hd]. }
    rewrite nth_put_ne by auto. split; [|reflexivity]. split; [cbn [w_mem]; now rewrite put_length|exact U].
  - split; [|reflexivity]. apply (G t); auto. unfold pending. cbn [t_call t_prog]. rewrite Hk. intros y (c & ch & K & K'). exists c, ch. split; [now right|exact K'].
  - assert (N : a <> b). { intros ->. apply (U i t x Ht); auto. unfold pending. rewrite Hk. eexists _, _. split; [now left|exact Hd]. }
    rewrite nth_put_ne by auto. split; [|reflexivity]. apply (G t); auto; [|now rewrite put_length]. unfold pending. cbn [t_call t_prog]. rewrite Hk. intros y (c & ch & K & K'). exists c, ch. split; [now right|exact K'].
  - rewrite nth_error_app1 by easy. split; [|reflexivity]. apply (G t); auto.
    + unfold pending. cbn [t_call t_prog]. rewrite Hk. intros y (c & ch & K & K'). exists c, ch. split; [now right|exact K'].
    + cbn [t_names]. intros y Hy. destruct (Nat.lt_ge_cases y (length (t_names t))) as [K|K].
      * now rewrite nth_error_app1 in Hy.
      * rewrite nth_error_app2 in Hy by easy. destruct (y - length (t_names t)) as [|z]; [injection Hy as Hy; lia|]. destruct z; discriminate.
    + rewrite app_length. lia.
Qed.
End Reach.
