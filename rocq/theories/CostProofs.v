(** Forgetting the log gives the models without log; what the logs contain. *)
From Coq Require Import NArith ZArith List Bool Arith Lia.
From Verif Require Import Base Gf2xModel Gf2eModel MzdModel MzedModel NjModel StrassenModel SliceModel KaratsubaTable KaraModel ConvModel PolyMatModel DjbModel BlmModel BlmOps CostModel.
Import ListNotations.
Local Open Scope nat_scope.

(** ** erasure *)
Lemma erase_quiet {T} (m : res T) : erase (quiet m) = m.
Proof. now destruct m. Qed.
Lemma erase_bind {T U} (m : log T) (k : T -> log U) : erase (lbind m k) = bind (erase m) (fun x => erase (k x)).
Proof. unfold erase, lbind. destruct m as [[a l]| |]; cbn [bind fst snd]; [|easy|easy]. now destruct (k a) as [[b l']| |]. Qed.
Lemma bind_ext {T U} (m : res T) (k k' : T -> res U) : (forall x, k x = k' x) -> bind m k = bind m k'.
Proof. intros H. destruct m; cbn; auto. Qed.
Lemma erase_loop {S} n : forall i (body : nat -> S -> log S) (body' : nat -> S -> res S) s,
  (forall i s, erase (body i s) = body' i s) -> erase (lloop n i body s) = forloop n i body' s.
Proof.
  induction n as [|n IH]; intros i body body' s H; cbn [lloop forloop]; [apply erase_quiet|].
  rewrite erase_bind, H. apply bind_ext. intros s'. now apply IH.
Qed.
Lemma erase_for {S} lo hi (body : nat -> S -> log S) (body' : nat -> S -> res S) s :
  (forall i s, erase (body i s) = body' i s) -> erase (lfor lo hi body s) = for_ lo hi body' s.
Proof. intros H. now apply erase_loop. Qed.
Lemma erase_mul C A B : erase (mzd_mul_l C A B) = mzd_mul C A B.
Proof. unfold mzd_mul_l. now destruct (mzd_mul C A B). Qed.
Lemma erase_addmul C A B : erase (mzd_addmul_l C A B) = mzd_addmul C A B.
Proof. unfold mzd_addmul_l. now destruct (mzd_addmul C A B). Qed.
Lemma erase_nj m C A B : erase (nj_l m C A B) = mzed_mul_newton_john_ m C A B.
Proof. unfold nj_l. now destruct (mzed_mul_newton_john_ m C A B). Qed.
Lemma erase_b {T U} (m : log T) m' (k : T -> log U) k' : erase m = m' -> (forall x, erase (k x) = k' x) -> erase (lbind m k) = bind m' k'.
Proof. intros <- H. rewrite erase_bind. now apply bind_ext. Qed.
Lemma erase_q {T U} (m : res T) (k : T -> log U) k' : (forall x, erase (k x) = k' x) -> erase (lbind (quiet m) k) = bind m k'.
Proof. intros H. apply erase_b; [apply erase_quiet|exact H]. Qed.
Ltac er := cbv beta; repeat lazymatch goal with
  | |- erase (quiet _) = _ => apply erase_quiet
  | |- erase (mzd_mul_l _ _ _) = _ => apply erase_mul
  | |- erase (mzd_addmul_l _ _ _) = _ => apply erase_addmul
  | |- erase (nj_l _ _ _ _) = _ => apply erase_nj
  | |- erase (lbind (quiet _) _) = _ => apply erase_q; let x := fresh "x" in intros x; cbv beta
  | |- erase (lbind (mzd_mul_l _ _ _) _) = _ => apply erase_b; [apply erase_mul|let x := fresh "x" in intros x; cbv beta]
  | |- erase (lbind (mzd_addmul_l _ _ _) _) = _ => apply erase_b; [apply erase_addmul|let x := fresh "x" in intros x; cbv beta]
  | |- erase (lbind (nj_l _ _ _ _) _) = _ => apply erase_b; [apply erase_nj|let x := fresh "x" in intros x; cbv beta]
  | |- erase (let '(a, b) := ?p in _) = _ => destruct p as [? ?]
  end.

Lemma erase_kstep ff A B s st : erase (kstep_l ff A B s st) = kstep ff A B s st.
Proof. destruct s as [[ai bi] ts], st as [[[t0 t1] t2] X]. cbn [kstep_l kstep]. er. Qed.
Lemma erase_ksteps ff A B prog : forall st, erase (ksteps_l ff A B prog st) = ksteps ff A B prog st.
Proof. induction prog as [|s r IH]; intros st; cbn [ksteps_l ksteps]; [apply erase_quiet|]. apply erase_b; [apply erase_kstep|exact IH]. Qed.
Lemma erase_kara_run ff prog X A B : erase (kara_run_l ff prog X A B) = kara_run ff prog X A B.
Proof. unfold kara_run_l, kara_run. er. apply erase_b; [apply erase_ksteps|]. intros [[[? ?] ?] ?]. er. Qed.
Lemma erase_kara2 ff X A B : erase (ptr_addmul_karatsuba2_l ff X A B) = ptr_addmul_karatsuba2 ff X A B.
Proof. unfold ptr_addmul_karatsuba2_l, ptr_addmul_karatsuba2. er. apply erase_b; [apply erase_ksteps|]. intros [[[? ?] ?] ?]. er. Qed.
Lemma erase_kara ff d X A B : option_map erase (ptr_addmul_karatsuba_l ff d X A B) = ptr_addmul_karatsuba ff d X A B.
Proof. do 17 (destruct d as [|d]; [cbn [ptr_addmul_karatsuba_l ptr_addmul_karatsuba option_map]; rewrite ?erase_kara2, ?erase_kara_run; reflexivity|]). reflexivity. Qed.
Lemma erase_slice_naive C A B : erase (mzd_slice_addmul_naive_l C A B) = mzd_slice_addmul_naive_ C A B.
Proof.
  unfold mzd_slice_addmul_naive_l, mzd_slice_addmul_naive_. apply erase_b; [|intros [? ?]; er].
  apply erase_for. intros i [t0 X]. apply erase_for. intros j [t0' X']. er.
Qed.
Lemma erase_slice_kara_ C A B : erase (mzd_slice_addmul_karatsuba_l_ C A B) = mzd_slice_addmul_karatsuba_ C A B.
Proof.
  unfold mzd_slice_addmul_karatsuba_l_, mzd_slice_addmul_karatsuba_. rewrite <- erase_kara. destruct (ptr_addmul_karatsuba_l _ _ _ _ _); cbn [option_map]; [|apply erase_slice_naive].
  apply erase_b; [reflexivity|]. intros x. er.
Qed.
Lemma erase_slice_mul C A B : erase (mzd_slice_mul_l C A B) = mzd_slice_mul C A B.
Proof. unfold mzd_slice_mul_l, mzd_slice_mul, mzd_slice_mul_karatsuba. er. destruct C; er; apply erase_slice_kara_. Qed.
Lemma erase_slice_addmul C A B : erase (mzd_slice_addmul_l C A B) = mzd_slice_addmul C A B.
Proof. unfold mzd_slice_addmul_l, mzd_slice_addmul, mzd_slice_addmul_karatsuba. destruct C; [|reflexivity]. er. apply erase_slice_kara_. Qed.
Lemma erase_mzed_kara C A B : erase (mzed_mul_karatsuba_l C A B) = mzed_mul_karatsuba C A B.
Proof.
  assert (H : forall C, erase (mzed_addmul_karatsuba_l_ C A B) = mzed_addmul_karatsuba_ C A B).
  { intros D. unfold mzed_addmul_karatsuba_l_, mzed_addmul_karatsuba_. er. apply erase_b; [apply erase_slice_kara_|]. intros y. er. }
  unfold mzed_mul_karatsuba_l, mzed_mul_karatsuba. er. destruct C; er; apply H.
Qed.
Lemma erase_poly_naive C A B : erase (mzd_poly_addmul_naive_l C A B) = mzd_poly_addmul_naive C A B.
Proof.
  unfold mzd_poly_addmul_naive_l, mzd_poly_addmul_naive. apply erase_b; [|intros y; er].
  apply erase_for. intros i X. apply erase_for. intros j X'. er.
Qed.
Lemma erase_poly_kara C A B : erase (mzd_poly_addmul_karatsubs_balanced_l C A B) = mzd_poly_addmul_karatsubs_balanced C A B.
Proof.
  unfold mzd_poly_addmul_karatsubs_balanced_l, mzd_poly_addmul_karatsubs_balanced. er. destruct (mp_depth A) as [|[|d]]; [reflexivity|er|].
  rewrite <- erase_kara. destruct (ptr_addmul_karatsuba_l _ _ _ _ _); cbn [option_map]; [|reflexivity]. apply erase_b; [reflexivity|]. intros y. er.
Qed.
Lemma erase_apply_mzd X A B f : erase (ptr_apply_blm_mzd_l X A B f) = ptr_apply_blm_mzd X A B f.
Proof.
  unfold ptr_apply_blm_mzd_l, ptr_apply_blm_mzd. er. apply erase_b; [|intros [[[? ?] ?] ?]; er].
  apply erase_for. intros i [[[? ?] ?] ?]. er.
Qed.
Lemma erase_apply_djb X A B f : erase (ptr_apply_blm_djb_l X A B f) = ptr_apply_blm_djb X A B f.
Proof.
  unfold ptr_apply_blm_djb_l, ptr_apply_blm_djb. er. destruct (bl_f f), (bl_g f), (bl_h f); try reflexivity. er.
  apply erase_b; [|intros y; er]. apply erase_for. intros i t. er.
Qed.
Lemma erase_apply X A B f : erase (ptr_apply_blm_l X A B f) = ptr_apply_blm X A B f.
Proof. unfold ptr_apply_blm_l, ptr_apply_blm. destruct (bl_f f); [apply erase_apply_djb|apply erase_apply_mzd]. Qed.
Lemma erase_slice_blm_ fuel x C A B f : option_map erase (mzd_slice_mul_blm_l_ fuel x C A B f) = mzd_slice_mul_blm_ fuel x C A B f.
Proof.
  unfold mzd_slice_mul_blm_l_, mzd_slice_mul_blm_, omap. destruct (match f with Some f0 => _ | None => _ end); [|reflexivity]. cbn [option_map]. f_equal. er.
  apply erase_b; [apply erase_apply|]. intros y. er.
Qed.
Lemma erase_slice_blm fuel x C A B f : option_map erase (mzd_slice_mul_blm_l fuel x C A B f) = mzd_slice_mul_blm fuel x C A B f.
Proof. unfold mzd_slice_mul_blm_l, mzd_slice_mul_blm, orun. destruct (bind _ _); [apply erase_slice_blm_|reflexivity|reflexivity]. Qed.

Lemma erase_on_win C a b c d op op' : (forall W, erase (op W) = op' W) -> erase (on_win_l C a b c d op) = on_win C a b c d op'.
Proof. intros H. unfold on_win_l, on_win. er. apply erase_b; [apply H|]. intros y. er. Qed.
Lemma erase_wr C mm nn r s op op' : (forall W, erase (op W) = op' W) -> erase (wr_l C mm nn r s op) = wr C mm nn r s op'.
Proof. intros H. unfold wr_l, wr, quad. now apply erase_on_win. Qed.
Lemma erase_rest mb clr C A B mm kk nn : erase (strassen_rest_l mb clr C A B mm kk nn) = strassen_rest mb clr C A B mm kk nn.
Proof.
  unfold strassen_rest_l, strassen_rest. apply erase_b.
  { destruct (_ <? _); [|apply erase_quiet]. er. apply erase_on_win. intros W. er. }
  intros C1. apply erase_b.
  { destruct (_ <? _); [|apply erase_quiet]. er. apply erase_on_win. intros W. er. }
  intros C2. destruct (_ <? _); [|apply erase_quiet]. er. apply erase_on_win. intros W. er.
Qed.
Lemma erase_strassen mb fuel : forall C A B c, erase (mul_strassen_l mb fuel C A B c) = mul_strassen mb fuel C A B c.
Proof.
  induction fuel as [|fuel IH]; intros C A B c; [reflexivity|]. cbn [mul_strassen_l mul_strassen]. destruct (_ && _); [apply erase_quiet|].
  destruct (strassen_small A B c); [er|]. cbv zeta.
  repeat lazymatch goal with
    | |- erase (lbind (quiet _) _) = _ => apply erase_q; let x := fresh "x" in intros x; cbv beta
    | |- erase (lbind (wr_l _ _ _ _ _ _) _) = _ => apply erase_b; [apply erase_wr; let W := fresh "W" in intros W; apply IH|let x := fresh "x" in intros x; cbv beta]
    | |- erase (lbind (mul_strassen_l _ _ _ _ _ _) _) = _ => apply erase_b; [apply IH|let x := fresh "x" in intros x; cbv beta]
    end.
  apply erase_rest.
Qed.
Lemma erase_addstrassen mb fuel : forall C A B c, erase (addmul_strassen_l mb fuel C A B c) = addmul_strassen mb fuel C A B c.
Proof.
  induction fuel as [|fuel IH]; intros C A B c; [reflexivity|]. cbn [addmul_strassen_l addmul_strassen]. destruct (_ && _); [apply erase_quiet|].
  destruct (strassen_small A B c); [er|]. cbv zeta.
  repeat lazymatch goal with
    | |- erase (lbind (quiet _) _) = _ => apply erase_q; let x := fresh "x" in intros x; cbv beta
    | |- erase (lbind (wr_l _ _ _ _ _ _) _) = _ => apply erase_b; [apply erase_wr; let W := fresh "W" in intros W; apply IH|let x := fresh "x" in intros x; cbv beta]
    | |- erase (lbind (mul_strassen_l _ _ _ _ _ _) _) = _ => apply erase_b; [apply erase_strassen|let x := fresh "x" in intros x; cbv beta]
    | |- erase (lbind (addmul_strassen_l _ _ _ _ _ _) _) = _ => apply erase_b; [apply IH|let x := fresh "x" in intros x; cbv beta]
    end.
  apply erase_rest.
Qed.
Lemma erase_mul_strassen mb C A B c : erase (mzed_mul_strassen_l mb C A B c) = mzed_mul_strassen mb C A B c.
Proof. unfold mzed_mul_strassen_l, mzed_mul_strassen, mzed_mul_strassen_. er. apply erase_strassen. Qed.
Lemma erase_addmul_strassen mb C A B c : erase (mzed_addmul_strassen_l mb C A B c) = mzed_addmul_strassen mb C A B c.
Proof. unfold mzed_addmul_strassen_l, mzed_addmul_strassen, mzed_addmul_strassen_. er. apply erase_addstrassen. Qed.

(** ** what the logs contain *)
Definition alw {T} (m : res T) (P : T -> Prop) : Prop := forall a, m = Ok a -> P a.
Definition logs {T} (m : log T) (P : T -> list call -> Prop) : Prop := forall a l, m = Ok (a, l) -> P a l.
Lemma alw_ok {T} (a : T) (P : T -> Prop) : P a -> alw (Ok a) P.
Proof. intros H b [= <-]. exact H. Qed.
Lemma alw_bind {T U} (m : res T) (k : T -> res U) P : alw m (fun a => alw (k a) P) -> alw (bind m k) P.
Proof. intros H b. destruct m as [a| |]; cbn; try easy. intros E. exact (H a eq_refl b E). Qed.
Lemma alw_mono {T} (m : res T) (P Q : T -> Prop) : alw m P -> (forall a, P a -> Q a) -> alw m Q.
Proof. intros H HQ a E. auto. Qed.
Lemma alw_true {T} (m : res T) (P : T -> Prop) : (forall a, P a) -> alw m P.
Proof. intros H a _. auto. Qed.
Lemma alw_for {S} (I : S -> Prop) lo hi body (s : S) : I s -> (forall i s, I s -> alw (body i s) I) -> alw (for_ lo hi body s) I.
Proof.
  intros H Hb. unfold for_. generalize (hi - lo) as n. intros n. revert lo s H. induction n as [|n IH]; intros lo s H; cbn [forloop]; [now apply alw_ok|].
  apply alw_bind. eapply alw_mono; [apply Hb, H|]. intros s' H'. now apply IH.
Qed.
Lemma logs_quiet {T} (m : res T) P : alw m (fun a => P a []) -> logs (quiet m) P.
Proof. intros H a l. unfold quiet. destruct m as [b| |]; cbn; try easy. intros [= <- <-]. now apply H. Qed.
Lemma logs_bind {T U} (m : log T) (k : T -> log U) P : logs m (fun a l => logs (k a) (fun b l' => P b (l ++ l'))) -> logs (lbind m k) P.
Proof.
  intros H b l. unfold lbind. destruct m as [[a l1]| |]; cbn; try easy. destruct (k a) as [[b' l2]| |] eqn:E; cbn; try easy.
  intros [= <- <-]. now apply (H a l1 eq_refl).
Qed.
Lemma logs_mono {T} (m : log T) (P Q : T -> list call -> Prop) : logs m P -> (forall a l, P a l -> Q a l) -> logs m Q.
Proof. intros H HQ a l E. auto. Qed.
Lemma logs_q {T U} (m : res T) (k : T -> log U) P : alw m (fun a => logs (k a) P) -> logs (lbind (quiet m) k) P.
Proof. intros H. apply logs_bind, logs_quiet. exact H. Qed.

(** n calls, all of them of sizes t *)
Definition calls (n : nat) (t : call) (l : list call) : Prop := length l = n /\ forall x, In x l -> x = t.
Lemma calls_0 t : calls 0 t [].
Proof. split; [reflexivity|easy]. Qed.
Lemma calls_1 t : calls 1 t [t].
Proof. split; [reflexivity|]. now intros x [<-|[]]. Qed.
Lemma calls_app n n' t l l' : calls n t l -> calls n' t l' -> calls (n + n') t (l ++ l').
Proof. intros [H1 H2] [H3 H4]. split; [rewrite app_length; lia|]. intros x Hx. apply in_app_or in Hx. destruct Hx; auto. Qed.
Lemma calls_repeat n t l : calls n t l <-> l = repeat t n.
Proof.
  split.
  - intros [H1 H2]. subst n. induction l as [|x l IH]; [reflexivity|]. cbn [length repeat]. rewrite <- IH by (intros y Hy; apply H2; now right). f_equal. apply H2. now left.
  - intros ->. split; [apply repeat_length|]. intros x Hx. now apply repeat_spec in Hx.
Qed.
Lemma logs_for {X} (I : X -> Prop) k t lo hi body (s : X) : I s -> (forall i s, lo <= i < hi -> I s -> logs (body i s) (fun s' l => I s' /\ calls k t l)) ->
  logs (lfor lo hi body s) (fun s' l => I s' /\ calls (k * (hi - lo)) t l).
Proof.
  intros H Hb. unfold lfor. assert (G : forall n i s, lo <= i -> i + n <= hi \/ n = 0 -> I s -> logs (lloop n i body s) (fun s' l => I s' /\ calls (k * n) t l)).
  { clear s H. induction n as [|n IH]; intros i s Hi Hn HI; cbn [lloop].
    - apply logs_quiet, alw_ok. split; [exact HI|]. rewrite Nat.mul_0_r. apply calls_0.
    - apply logs_bind. eapply logs_mono; [apply Hb; [lia|exact HI]|]. cbv beta. intros s' l [H1 H2].
      eapply logs_mono; [apply IH; [lia| |exact H1]; lia|]. cbv beta. intros s'' l' [H3 H4]. split; [exact H3|]. replace (k * S n) with (k + k * n) by lia. now apply calls_app. }
  apply G; [lia| |exact H]. lia.
Qed.

(** *** shapes *)
Definition dims (m n : nat) (A : mzd) : Prop := mzd_nrows A = m /\ mzd_ncols A = n.
Lemma dims_init m n : dims m n (mzd_init m n).
Proof. split; reflexivity. Qed.
Lemma alw_mul C A B m n : dims m n C -> alw (mzd_mul C A B) (dims m n).
Proof. intros [H1 H2] X. unfold mzd_mul. destruct (check _); cbn [bind]; try easy. destruct (check _); cbn [bind]; try easy. intros [= <-]. split; assumption. Qed.
Lemma alw_add C A B m n : dims m n C -> alw (mzd_add C A B) (dims m n).
Proof. intros [H1 H2] X. unfold mzd_add. destruct (check _); cbn [bind]; try easy. destruct (check _); cbn [bind]; try easy. intros [= <-]. split; assumption. Qed.
Lemma alw_lget {T} (l : list T) i : alw (lget l i) (fun x => In x l).
Proof. intros x. unfold lget. destruct (nth_error l i) eqn:E; [|easy]. intros [= <-]. now apply nth_error_In in E. Qed.
Lemma logs_mul C A B m l n : dims m n C -> mzd_nrows A = m -> mzd_ncols A = l -> mzd_ncols B = n -> logs (mzd_mul_l C A B) (fun X lg => dims m n X /\ calls 1 (m, l, n) lg).
Proof.
  intros HC <- <- <- X lg. unfold mzd_mul_l. destruct (mzd_mul C A B) as [Y| |] eqn:E; cbn; try easy. intros [= <- <-].
  split; [exact (alw_mul _ _ _ _ _ HC Y E)|apply calls_1].
Qed.
Lemma logs_addmul C A B m l n : mzd_nrows A = m -> mzd_ncols A = l -> mzd_ncols B = n -> logs (mzd_addmul_l C A B) (fun X lg => calls 1 (m, l, n) lg).
Proof. intros <- <- <- X lg. unfold mzd_addmul_l. destruct (mzd_addmul C A B) as [Y| |] eqn:E; cbn; try easy. intros [= <- <-]. apply calls_1. Qed.
Lemma alw_sum T l m n : dims m n T -> (forall x, In x l -> dims m n x) -> alw (mzd_sum T l) (dims m n).
Proof.
  intros HT Hl. destruct l as [|a [|b r]]; cbn [mzd_sum]; [easy|apply alw_ok, Hl; now left|].
  apply alw_bind. eapply alw_mono; [apply alw_add, HT|]. clear T HT. intros T HT. assert (H0 : alw (Ok T) (dims m n)) by now apply alw_ok.
  clear HT. revert H0. generalize (Ok T) as acc. induction r as [|x r IH]; intros acc H0; [exact H0|]. cbn [fold_left]. apply IH; [intros y [Hy|[Hy|Hy]]; apply Hl; cbn; auto|].
  apply alw_bind. eapply alw_mono; [exact H0|]. intros T' HT'. now apply alw_add.
Qed.
Lemma alw_lgets A idx : alw (lgets A idx) (fun l => forall x, In x l -> In x A).
Proof.
  induction idx as [|i r IH]; cbn [lgets]; [now apply alw_ok|]. apply alw_bind. eapply alw_mono; [apply alw_lget|]. cbv beta. intros a Ha.
  apply alw_bind. eapply alw_mono; [exact IH|]. cbv beta. intros l Hl. apply alw_ok. intros x [<-|Hx]; auto.
Qed.
Lemma alw_operand T A idx m n : dims m n T -> (forall x, In x A -> dims m n x) -> alw (operand T A idx) (fun p => dims m n (fst p) /\ dims m n (snd p)).
Proof.
  intros HT HA. unfold operand. apply alw_bind. eapply alw_mono; [apply alw_lgets|]. cbv beta. intros l Hl.
  destruct l as [|a [|b r]]; [easy|apply alw_ok; split; [exact HT|]; apply HA, Hl; now left|].
  apply alw_bind. eapply alw_mono; [apply alw_sum; [exact HT|auto]|]. cbv beta. intros T' HT'. apply alw_ok. now split.
Qed.

(** *** Karatsuba *)
Definition kst_dims (m l n : nat) (st : kst) : Prop := let '(t0, t1, t2, X) := st in dims m n t0 /\ dims m l t1 /\ dims l n t2.
Lemma logs_kstep ff A B s st m l n : (forall x, In x A -> dims m l x) -> (forall x, In x B -> dims l n x) -> kst_dims m l n st ->
  logs (kstep_l ff A B s st) (fun st' lg => kst_dims m l n st' /\ calls 1 (m, l, n) lg).
Proof.
  intros HA HB. destruct s as [[ai bi] ts], st as [[[t0 t1] t2] X]. intros (H0 & H1 & H2). cbn [kstep_l].
  apply logs_q. eapply alw_mono; [exact (alw_operand t1 A ai m l H1 HA)|]. intros [t1' a] [Ht1 Ha]. cbn [fst snd] in Ht1, Ha.
  apply logs_q. eapply alw_mono; [exact (alw_operand t2 B bi l n H2 HB)|]. intros [t2' b] [Ht2 Hb]. cbn [fst snd] in Ht2, Hb.
  apply logs_bind. eapply logs_mono; [apply logs_mul with (l := l); [exact H0|apply Ha|apply Ha|apply Hb]|]. cbv beta. intros t0' lg [Ht0 Hlg].
  apply logs_q. apply alw_true. intros X'. apply logs_quiet, alw_ok. split; [easy|]. rewrite app_nil_r. exact Hlg.
Qed.
Lemma logs_ksteps ff A B m l n : (forall x, In x A -> dims m l x) -> (forall x, In x B -> dims l n x) -> forall prog st, kst_dims m l n st ->
  logs (ksteps_l ff A B prog st) (fun _ lg => calls (length prog) (m, l, n) lg).
Proof.
  intros HA HB. induction prog as [|s r IH]; intros st H; cbn [ksteps_l length]; [apply logs_quiet, alw_ok, calls_0|].
  apply logs_bind. eapply logs_mono; [exact (logs_kstep ff A B s st m l n HA HB H)|]. cbv beta. intros st' lg [H1 H2]. eapply logs_mono; [apply IH, H1|]. cbv beta. intros _ lg' H3.
  now apply (calls_app 1).
Qed.
Lemma logs_kara_run ff prog X A B m l n : (forall x, In x A -> dims m l x) -> (forall x, In x B -> dims l n x) ->
  logs (kara_run_l ff prog X A B) (fun _ lg => calls (length prog) (m, l, n) lg).
Proof.
  intros HA HB. unfold kara_run_l. apply logs_q. eapply alw_mono; [apply alw_lget|]. cbv beta. intros a0 H0. apply logs_q. eapply alw_mono; [apply alw_lget|]. cbv beta. intros b0 G0.
  destruct (HA _ H0) as [E1 E2], (HB _ G0) as [E3 E4]. apply logs_bind. eapply logs_mono; [apply (logs_ksteps ff A B m l n HA HB)|].
  - cbn [kst_dims]. rewrite E1, E2, E3, E4. repeat split.
  - cbv beta. intros [[[? ?] ?] ?] lg Hlg. apply logs_quiet, alw_ok. now rewrite app_nil_r.
Qed.
Lemma logs_kara2 ff X A B m l n : (forall x, In x A -> dims m l x) -> (forall x, In x B -> dims l n x) ->
  logs (ptr_addmul_karatsuba2_l ff X A B) (fun _ lg => calls 3 (m, l, n) lg).
Proof.
  intros HA HB. unfold ptr_addmul_karatsuba2_l.
  apply logs_q. eapply alw_mono; [apply alw_lget|]. cbv beta. intros a0 H0. apply logs_q. eapply alw_mono; [apply alw_lget|]. cbv beta. intros a1 H1.
  apply logs_q. eapply alw_mono; [apply alw_lget|]. cbv beta. intros b0 G0. apply logs_q. eapply alw_mono; [apply alw_lget|]. cbv beta. intros b1 G1.
  destruct (HA _ H0) as [E1 E2], (HB _ G0) as [E3 E4]. rewrite E1, E2, E3, E4.
  apply logs_q. eapply alw_mono; [apply alw_add, dims_init|]. intros t0 Ht0. apply logs_q. eapply alw_mono; [apply alw_add, dims_init|]. intros t1 Ht1.
  apply logs_q. apply alw_true. intros x1. apply logs_bind. eapply logs_mono; [apply (logs_addmul x1 t0 t1 m l n); [apply Ht0|apply Ht0|apply Ht1]|]. cbv beta. intros x1' lg Hlg.
  apply logs_q. apply alw_true. intros X'. apply logs_bind. eapply logs_mono; [apply (logs_ksteps ff A B m l n HA HB)|].
  - cbn [kst_dims]. split; [apply dims_init|]. split; assumption.
  - cbv beta. intros [[[? ?] ?] ?] lg' Hlg'. apply logs_quiet, alw_ok. rewrite app_nil_r. now apply (calls_app 1 2).
Qed.
(** the number of products, by the number of coefficients *)
Definition kara_len (d : nat) : nat :=
  nth d [0; 0; 3; length kara3; length kara4; length kara5; length kara6; length kara7; length kara8; length kara9; length kara10; length kara11; length kara12; length kara13;
         length kara14; length kara15; length kara16] 0.
Lemma logs_kara ff d X A B m l n : (forall x, In x A -> dims m l x) -> (forall x, In x B -> dims l n x) ->
  match ptr_addmul_karatsuba_l ff d X A B with Some r => logs r (fun _ lg => calls (kara_len d) (m, l, n) lg) | None => True end.
Proof.
  intros HA HB.
  do 17 (destruct d as [|d]; [cbn [ptr_addmul_karatsuba_l]; first [exact I | now apply logs_kara2 | now apply logs_kara_run]|]). exact I.
Qed.
(** *** schoolbook products of slices and polynomials *)
Lemma logs_slice_naive C A B m l n : sl_nrows A = m -> sl_ncols B = n -> (forall x, In x (sl_x A) -> dims m l x) -> (forall x, In x (sl_x B) -> dims l n x) ->
  logs (mzd_slice_addmul_naive_l C A B) (fun _ lg => calls (ff_degree (sl_ff A) * ff_degree (sl_ff A)) (m, l, n) lg).
Proof.
  intros Em En HA HB. unfold mzd_slice_addmul_naive_l. rewrite Em, En. apply logs_bind.
  eapply logs_mono; [apply (logs_for (fun s => dims m n (fst s)) (1 * (ff_degree (sl_ff A) - 0)) (m, l, n)); [apply dims_init|]|].
  - intros i [t0 X] _ H. cbn [fst] in H. apply (logs_for (fun s : mzd * list mzd => dims m n (fst s)) 1 (m, l, n)); [exact H|]. clear t0 X H. intros j [t0 X] _ H. cbn [fst] in H.
    apply logs_q. eapply alw_mono; [apply alw_lget|]. cbv beta. intros a Ha. apply logs_q. eapply alw_mono; [apply alw_lget|]. cbv beta. intros b Hb.
    apply logs_bind. eapply logs_mono; [apply logs_mul with (l := l); [exact H|apply HA, Ha|apply HA, Ha|apply HB, Hb]|]. cbv beta. intros t0' lg [H1 H2].
    apply logs_q. apply alw_true. intros X'. apply logs_quiet, alw_ok. rewrite app_nil_r. split; assumption.
  - cbv beta. intros [t0 X] lg [_ H]. apply logs_quiet, alw_ok. rewrite app_nil_r. replace (_ * _) with (1 * (ff_degree (sl_ff A) - 0) * (ff_degree (sl_ff A) - 0)) by (rewrite !Nat.sub_0_r; lia). exact H.
Qed.
Lemma logs_slice_kara C A B m l n : sl_nrows A = m -> sl_ncols B = n -> (forall x, In x (sl_x A) -> dims m l x) -> (forall x, In x (sl_x B) -> dims l n x) ->
  2 <= ff_degree (sl_ff A) <= 16 ->
  logs (mzd_slice_addmul_karatsuba_l_ C A B) (fun _ lg => calls (kara_len (ff_degree (sl_ff A))) (m, l, n) lg).
Proof.
  intros Em En HA HB Hd. unfold mzd_slice_addmul_karatsuba_l_.
  pose proof (logs_kara (Some (sl_ff A)) (ff_degree (sl_ff A)) (sl_x (sl_or_init C (sl_ff A) (sl_nrows A) (sl_ncols B))) (sl_x A) (sl_x B) m l n HA HB) as H.
  destruct (ptr_addmul_karatsuba_l _ _ _ _ _) as [r|] eqn:E.
  - apply logs_bind. eapply logs_mono; [exact H|]. cbv beta. intros x lg Hlg. apply logs_quiet, alw_ok. now rewrite app_nil_r.
  - exfalso. clear H. revert E Hd. generalize (ff_degree (sl_ff A)) as d. intros d E Hd. do 17 (destruct d as [|d]; [first [discriminate E | lia]|]). lia.
Qed.
Lemma logs_poly_naive C A B m l n : (forall x, In x (mp_x A) -> dims m l x) -> (forall x, In x (mp_x B) -> dims l n x) ->
  logs (mzd_poly_addmul_naive_l C A B) (fun _ lg => calls (mp_depth A * mp_depth B) (m, l, n) lg).
Proof.
  intros HA HB. unfold mzd_poly_addmul_naive_l. apply logs_bind.
  eapply logs_mono; [apply (logs_for (fun _ => True) (1 * (mp_depth B - 0)) (m, l, n)); [exact I|]|].
  - intros i X _ _. apply (logs_for (fun _ => True) 1 (m, l, n)); [exact I|]. clear X. intros j X _ _.
    apply logs_q. apply alw_true. intros c. apply logs_q. eapply alw_mono; [apply alw_lget|]. cbv beta. intros a Ha. apply logs_q. eapply alw_mono; [apply alw_lget|]. cbv beta. intros b Hb.
    apply logs_bind. eapply logs_mono; [apply logs_addmul with (l := l); [apply HA, Ha|apply HA, Ha|apply HB, Hb]|]. cbv beta. intros c' lg H2.
    apply logs_quiet, alw_true. intros X'. rewrite app_nil_r. split; [exact I|exact H2].
  - cbv beta. intros X lg [_ H]. apply logs_quiet, alw_ok. rewrite app_nil_r. replace (mp_depth A * mp_depth B) with (1 * (mp_depth B - 0) * (mp_depth A - 0)) by (rewrite !Nat.sub_0_r; lia). exact H.
Qed.
Lemma logs_poly_kara C A B m l n : (forall x, In x (mp_x A) -> dims m l x) -> (forall x, In x (mp_x B) -> dims l n x) -> 1 <= mp_depth A <= 16 ->
  logs (mzd_poly_addmul_karatsubs_balanced_l C A B) (fun _ lg => calls (if mp_depth A =? 1 then 1 else kara_len (mp_depth A)) (m, l, n) lg).
Proof.
  intros HA HB Hd. unfold mzd_poly_addmul_karatsubs_balanced_l. apply logs_q, alw_true. intros _. destruct (mp_depth A) as [|[|d]] eqn:Ed; [lia| |].
  - cbn [Nat.eqb]. apply logs_q. apply alw_true. intros c. apply logs_q. eapply alw_mono; [apply alw_lget|]. cbv beta. intros a Ha. apply logs_q. eapply alw_mono; [apply alw_lget|]. cbv beta. intros b Hb.
    apply logs_bind. eapply logs_mono; [apply logs_addmul with (l := l); [apply HA, Ha|apply HA, Ha|apply HB, Hb]|]. cbv beta. intros c' lg H2.
    apply logs_q, alw_true. intros x. apply logs_quiet, alw_ok. now rewrite app_nil_r.
  - change (S (S d) =? 1) with false. cbv iota. cbv zeta.
    pose proof (logs_kara None (S (S d)) (mp_x (mp_or_init C A B)) (mp_x A) (mp_x B) m l n HA HB) as H.
    destruct (ptr_addmul_karatsuba_l _ _ _ _ _) as [r|] eqn:E.
    + apply logs_bind. eapply logs_mono; [exact H|]. cbv beta. intros x lg Hlg. apply logs_quiet, alw_ok. now rewrite app_nil_r.
    + easy.
Qed.

(** *** bilinear maps *)
Lemma alw_ladd_row M i X t m n : dims m n t -> alw (blm_row M i X t) (dims m n).
Proof.
  intros H. unfold blm_row. apply alw_for; [destruct H; split; assumption|]. intros j s Hs. apply alw_bind, alw_true. intros [|]; [|now apply alw_ok].
  apply alw_bind, alw_true. intros x. now apply alw_add.
Qed.
Lemma logs_apply_mzd X A B f m l n : (forall x, In x A -> dims m l x) -> (forall x, In x B -> dims l n x) ->
  logs (ptr_apply_blm_mzd_l X A B f) (fun _ lg => calls (mzd_nrows (bl_F f)) (m, l, n) lg).
Proof.
  intros HA HB. unfold ptr_apply_blm_mzd_l. apply logs_q, alw_true. intros _. apply logs_q. eapply alw_mono; [apply alw_lget|]. cbv beta. intros a0 H0. apply logs_q. eapply alw_mono; [apply alw_lget|]. cbv beta. intros b0 G0.
  destruct (HA _ H0) as [E1 E2], (HB _ G0) as [E3 E4]. rewrite E1, E2, E3, E4. cbv zeta. apply logs_bind.
  eapply logs_mono; [apply (logs_for (fun st => let '(X, t0, t1, t2) := st in dims m n t0 /\ dims m l t1 /\ dims l n t2) 1 (m, l, n)); [repeat split|]|].
  - intros i [[[X' t0] t1] t2] _ (H1 & H2 & H3). apply logs_q. eapply alw_mono; [apply alw_ladd_row, H2|]. cbv beta. intros t1' H2'. apply logs_q. eapply alw_mono; [apply alw_ladd_row, H3|]. cbv beta. intros t2' H3'.
    apply logs_bind. eapply logs_mono; [apply logs_mul with (l := l); [exact H1|apply H2'|apply H2'|apply H3']|]. cbv beta. intros t0' lg [H1' Hlg].
    apply logs_q, alw_true. intros X''. apply logs_quiet, alw_ok. rewrite app_nil_r. auto.
  - cbv beta. intros [[[X' t0] t1] t2] lg [_ H]. apply logs_quiet, alw_ok. rewrite app_nil_r. now rewrite Nat.mul_1_l, Nat.sub_0_r in H.
Qed.
Lemma upd_in {T} (l : list T) : forall i x y, In y (upd l i x) -> y = x \/ In y l.
Proof. induction l as [|h t IH]; intros [|i] x y; cbn; try tauto. - intros [H|H]; auto. - intros [H|H]; auto. destruct (IH _ _ _ H); auto. Qed.
Lemma alw_lset {T} (l : list T) i x (P : T -> Prop) : P x -> (forall y, In y l -> P y) -> alw (lset l i x) (fun l' => forall y, In y l' -> P y).
Proof. intros Hx Hl l'. unfold lset. destruct (_ <? _); [|easy]. intros [= <-] y Hy. destruct (upd_in _ _ _ _ Hy) as [->|H]; auto. Qed.
Lemma alw_copy C A m n : dims m n C -> alw (mzd_copy C A) (dims m n).
Proof. intros [H1 H2] X. unfold mzd_copy. destruct (check _); cbn [bind]; try easy. intros [= <-]. split; assumption. Qed.
Lemma alw_fordown {S} (I : S -> Prop) lo hi body (s : S) : I s -> (forall i s, I s -> alw (body i s) I) -> alw (for_down lo hi body s) I.
Proof.
  intros H Hb. unfold for_down. generalize (hi - lo) as n. intros n. revert s H. induction n as [|n IH]; intros s H; cbn [fordown]; [now apply alw_ok|].
  apply alw_bind. eapply alw_mono; [apply Hb, H|]. intros s' H'. now apply IH.
Qed.
Lemma alw_djb p W V m n : (forall x, In x W -> dims m n x) -> alw (djb_apply_mzd_ptr p W V) (fun W' => forall x, In x W' -> dims m n x).
Proof.
  intros H. unfold djb_apply_mzd_ptr. apply alw_bind. eapply alw_mono; [apply (alw_fordown (fun s : list mzd * list bool => forall x, In x (fst s) -> dims m n x)); [exact H|]|].
  - intros i [W' z] HW. cbn [fst] in HW. apply alw_bind, alw_true. intros [[t s] typ]. cbn [djb_step]. apply alw_bind, alw_true. intros [|].
    + apply alw_bind. eapply alw_mono; [apply alw_lget|]. cbv beta. intros wt Hwt. apply alw_bind.
      eapply alw_mono with (P := dims m n); [destruct typ; apply alw_bind, alw_true; intros v; apply alw_copy; auto|]. intros w Hw.
      apply alw_bind. eapply alw_mono; [apply (alw_lset W' t w (dims m n)); assumption|]. cbv beta. intros W'' HW''. apply alw_bind, alw_true. intros z'. apply alw_ok. exact HW''.
    + apply alw_bind. eapply alw_mono; [apply alw_lget|]. cbv beta. intros wt Hwt. apply alw_bind.
      eapply alw_mono with (P := dims m n); [destruct typ; apply alw_bind, alw_true; intros v; apply alw_add; auto|]. intros w Hw.
      apply alw_bind. eapply alw_mono; [apply (alw_lset W' t w (dims m n)); assumption|]. cbv beta. intros W'' HW''. apply alw_ok. exact HW''.
  - cbv beta. intros [W' z] HW. apply alw_ok. exact HW.
Qed.
Lemma logs_apply_djb X A B f m l n : (forall x, In x A -> dims m l x) -> (forall x, In x B -> dims l n x) ->
  logs (ptr_apply_blm_djb_l X A B f) (fun _ lg => calls (mzd_nrows (bl_F f)) (m, l, n) lg).
Proof.
  intros HA HB. unfold ptr_apply_blm_djb_l. apply logs_q, alw_true. intros _. destruct (bl_f f) as [pf|], (bl_g f) as [pg|], (bl_h f) as [ph|]; try easy.
  cbv zeta. apply logs_q. eapply alw_mono; [apply alw_lget|]. cbv beta. intros a0 H0. apply logs_q. eapply alw_mono; [apply alw_lget|]. cbv beta. intros b0 G0.
  destruct (HA _ H0) as [E1 E2], (HB _ G0) as [E3 E4]. rewrite E1, E2, E3, E4.
  apply logs_q. eapply alw_mono; [apply (alw_djb pf _ A m l); intros x Hx; apply repeat_spec in Hx; subst x; apply dims_init|]. cbv beta. intros t1 H1.
  apply logs_q. eapply alw_mono; [apply (alw_djb pg _ B l n); intros x Hx; apply repeat_spec in Hx; subst x; apply dims_init|]. cbv beta. intros t2 H2.
  apply logs_bind. eapply logs_mono; [apply (logs_for (fun _ => True) 1 (m, l, n)); [exact I|]|].
  - intros i t0 _ _. apply logs_q. eapply alw_mono; [apply alw_lget|]. cbv beta. intros x Hx. apply logs_q. eapply alw_mono; [apply alw_lget|]. cbv beta. intros y Hy.
    apply logs_bind. eapply logs_mono; [apply logs_mul with (l := l); [apply dims_init|apply H1, Hx|apply H1, Hx|apply H2, Hy]|]. cbv beta. intros z lg [_ Hlg].
    apply logs_quiet, alw_ok. rewrite app_nil_r. auto.
  - cbv beta. intros t0 lg [_ H]. apply logs_quiet, alw_true. intros X'. rewrite app_nil_r. now rewrite Nat.mul_1_l, Nat.sub_0_r in H.
Qed.
Lemma logs_apply X A B f m l n : (forall x, In x A -> dims m l x) -> (forall x, In x B -> dims l n x) ->
  logs (ptr_apply_blm_l X A B f) (fun _ lg => calls (mzd_nrows (bl_F f)) (m, l, n) lg).
Proof. intros HA HB. unfold ptr_apply_blm_l. destruct (bl_f f); [now apply logs_apply_djb|now apply logs_apply_mzd]. Qed.

(** *** Strassen *)
(** a result in the memory of C: field, width and size of C *)
Definition like (C C' : mzed) : Prop := gf2e_degree_to_w (mz_ff C') = gf2e_degree_to_w (mz_ff C) /\ mz_w C' = mz_w C /\ mz_nrows C' = mz_nrows C /\ mz_ncols C' = mz_ncols C.
Lemma like_refl C : like C C.
Proof. repeat split. Qed.
Lemma like_trans A B C : like A B -> like B C -> like A C.
Proof. intros (H1 & H2 & H3 & H4) (G1 & G2 & G3 & G4). repeat split; congruence. Qed.
(** field, width and size *)
Definition zd (w m n : nat) (A : mzed) : Prop := gf2e_degree_to_w (mz_ff A) = Ok w /\ mz_w A = w /\ mz_nrows A = m /\ mz_ncols A = n.
Lemma zd_like w m n A A' : zd w m n A -> like A A' -> zd w m n A'.
Proof. intros (H1 & H2 & H3 & H4) (G1 & G2 & G3 & G4). repeat split; congruence. Qed.
Lemma alw_zadd C A B : alw (mzed_add_ C A B) (like C).
Proof. unfold mzed_add_. apply alw_bind, alw_true. intros x. apply alw_ok. repeat split. Qed.
Section Strassen.
Variable w : nat.
Lemma alw_init ff m n : gf2e_degree_to_w ff = Ok w -> alw (mzed_init ff m n) (zd w m n).
Proof. intros Hw. unfold mzed_init. rewrite Hw. cbn [bind]. apply alw_ok. repeat split. exact Hw. Qed.
Lemma alw_rd A mm nn r s : gf2e_degree_to_w (mz_ff A) = Ok w -> alw (rd A mm nn r s) (zd w mm nn).
Proof.
  intros Hw. unfold rd, quad, mzed_window. rewrite Hw. cbn [bind]. apply alw_bind, alw_true. intros x. apply alw_ok. unfold zd. cbn [mz_ff mz_w mz_nrows mz_ncols].
  split; [exact Hw|]. split; [reflexivity|]. split; [destruct r|destruct s]; lia.
Qed.
Lemma alw_wr C mm nn r s op : alw (wr C mm nn r s op) (like C).
Proof. unfold wr, quad, on_win. apply alw_bind, alw_true. intros W. apply alw_bind, alw_true. intros W'. apply alw_ok. repeat split. Qed.
Lemma logs_wr C mm nn r s op n t : gf2e_degree_to_w (mz_ff C) = Ok w -> (forall W, zd w mm nn W -> logs (op W) (fun _ lg => calls n t lg)) ->
  logs (wr_l C mm nn r s op) (fun C' lg => like C C' /\ calls n t lg).
Proof.
  intros E H. unfold wr_l, quad, on_win_l. apply logs_q. pose proof (alw_rd C mm nn r s E) as R. unfold rd, quad in R. eapply alw_mono; [exact R|]. intros W HW.
  apply logs_bind. eapply logs_mono; [apply H, HW|]. cbv beta. intros W' lg Hlg. apply logs_quiet, alw_ok. rewrite app_nil_r. split; [repeat split|exact Hlg].
Qed.
Lemma closer_false b c : (2 * c <= 3 * Z.of_nat b)%Z -> closer (2 * b) b c = false.
Proof. intros H. unfold closer. apply Z.ltb_ge. rewrite Nat2Z.inj_mul. change (Z.of_nat 2) with 2%Z. lia. Qed.
Lemma closer_true a c : (0 < Z.of_nat a)%Z -> (3 * Z.of_nat a < 4 * c)%Z -> closer a (a / 2) c = true.
Proof.
  intros H0 H. unfold closer. apply Z.ltb_lt. pose proof (Nat.div_mod a 2 ltac:(lia)) as E. pose proof (Nat.mod_upper_bound a 2 ltac:(lia)) as Hm.
  remember (a / 2) as b. assert (Z.of_nat a = 2 * Z.of_nat b + Z.of_nat (a mod 2))%Z by lia. lia.
Qed.
Lemma half_double x : x mod (64 / w) = 0 -> 64 / w <> 0 -> half w (2 * x) = x.
Proof. intros H H0. unfold half. rewrite (Nat.mul_comm 2 x), Nat.div_mul by lia. lia. Qed.
Variables (m k n : nat) (c : Z).
Hypothesis (Hm : (2 * c <= 3 * Z.of_nat m)%Z) (Hk : (2 * c <= 3 * Z.of_nat k)%Z) (Hn : (2 * c <= 3 * Z.of_nat n)%Z).
Hypothesis (Hc : (0 < c)%Z) (Hs : (3 * Z.of_nat m < 4 * c \/ 3 * Z.of_nat k < 4 * c \/ 3 * Z.of_nat n < 4 * c)%Z).
Hypothesis (Dm : m mod (64 / w) = 0) (Dk : k mod (64 / w) = 0) (Dn : n mod (64 / w) = 0) (Dw : 64 / w <> 0).
Lemma mod_pow x j : x mod (64 / w) = 0 -> (2 ^ j * x) mod (64 / w) = 0.
Proof. intros H. rewrite <- Nat.mul_mod_idemp_r, H by exact Dw. now rewrite Nat.mul_0_r, Nat.mod_0_l by exact Dw. Qed.
Lemma small_base A B : mz_nrows A = m -> mz_ncols A = k -> mz_ncols B = n -> strassen_small A B c = true.
Proof.
  intros E1 E2 E3. unfold strassen_small. rewrite E1, E2, E3, !orb_true_iff. destruct Hs as [H|[H|H]]; [left; left|left; right|right]; apply closer_true; lia.
Qed.
Lemma big_step A B j : mz_nrows A = 2 ^ S j * m -> mz_ncols A = 2 ^ S j * k -> mz_ncols B = 2 ^ S j * n -> strassen_small A B c = false.
Proof.
  intros E1 E2 E3. assert (Hp : 1 <= 2 ^ j) by (pose proof (Nat.pow_nonzero 2 j); lia).
  assert (G : forall x, (2 * c <= 3 * Z.of_nat x)%Z -> closer (2 ^ S j * x) (2 ^ S j * x / 2) c = false).
  { intros x H. replace (2 ^ S j * x) with (2 * (2 ^ j * x)) by (cbn [Nat.pow]; lia). rewrite (Nat.mul_comm 2 (2 ^ j * x)) at 2. rewrite Nat.div_mul by lia. apply closer_false.
    assert (x <= 2 ^ j * x) by nia. lia. }
  unfold strassen_small. rewrite E1, E2, E3. now rewrite !G.
Qed.
Ltac qstep := lazymatch goal with
  | |- logs (lbind (quiet (rd _ _ _ _ _)) _) _ =>
      apply logs_q; eapply alw_mono; [apply alw_rd; solve [assumption | match goal with H : zd _ _ _ ?A |- gf2e_degree_to_w (mz_ff ?A) = _ => apply H end]|]; cbv beta; let x := fresh "x" in let H := fresh "H" in intros x H
  | |- logs (lbind (quiet (mzed_init _ _ _)) _) _ => apply logs_q; eapply alw_mono; [apply alw_init; match goal with H : zd _ _ _ ?A |- gf2e_degree_to_w (mz_ff ?A) = _ => apply H end|]; cbv beta; let x := fresh "x" in let H := fresh "H" in intros x H
  | |- logs (lbind (quiet (mzed_add_ ?U _ _)) _) _ =>
      apply logs_q; eapply alw_mono; [apply alw_zadd|]; cbv beta; let x := fresh "x" in let H := fresh "H" in intros x H;
      match goal with HU : zd _ _ _ U |- _ => apply (zd_like _ _ _ _ _ HU) in H end
  | |- logs (lbind (quiet (wr ?U _ _ _ _ _)) _) _ =>
      apply logs_q; eapply alw_mono; [apply alw_wr|]; cbv beta; let x := fresh "x" in let H := fresh "H" in intros x H;
      match goal with HU : zd _ _ _ U |- _ => apply (zd_like _ _ _ _ _ HU) in H end
  end.
Definition kids (j : nat) (lg : list call) : Prop := calls (7 ^ j) (m, k, n) lg.
Lemma rest_none mb clr C A B mm kk nn (P : mzed -> list call -> Prop) : mz_nrows A = 2 * mm -> mz_ncols A = 2 * kk -> mz_ncols B = 2 * nn -> P C [] -> logs (strassen_rest_l mb clr C A B mm kk nn) P.
Proof.
  intros E1 E2 E3 HP. unfold strassen_rest_l. rewrite E1, E2, E3, !Nat.ltb_irrefl. cbv zeta. apply logs_q, alw_ok, logs_q, alw_ok. now apply logs_quiet, alw_ok.
Qed.
Lemma nj_calls mb D A B : mz_nrows A = m -> mz_ncols A = k -> mz_ncols B = n -> logs (nj_l mb D A B) (fun _ lg => kids 0 lg).
Proof. intros E1 E2 E3 X lg. unfold nj_l. rewrite E1, E2, E3. destruct (mzed_mul_newton_john_ mb D A B); cbn; try easy. intros [= <- <-]. apply calls_1. Qed.
Lemma kids_7 j l1 l2 l3 l4 l5 l6 l7 : kids j l1 -> kids j l2 -> kids j l3 -> kids j l4 -> kids j l5 -> kids j l6 -> kids j l7 ->
  kids (S j) (l1 ++ l2 ++ l3 ++ l4 ++ l5 ++ l6 ++ l7 ++ []).
Proof.
  unfold kids. intros H1 H2 H3 H4 H5 H6 H7. rewrite app_nil_r.
  replace (7 ^ S j) with (7 ^ j + (7 ^ j + (7 ^ j + (7 ^ j + (7 ^ j + (7 ^ j + 7 ^ j)))))) by (cbn [Nat.pow]; lia).
  repeat (apply calls_app; [assumption|]). assumption.
Qed.
Lemma alw_mul_init_none A B m0 n0 : gf2e_degree_to_w (mz_ff A) = Ok w -> mz_nrows A = m0 -> mz_ncols B = n0 -> alw (mzed_mul_init None A B true) (zd w m0 n0).
Proof. intros E1 E2 E3. unfold mzed_mul_init. rewrite E2, E3. apply alw_bind, alw_true. intros _. now apply alw_init. Qed.
Ltac zff := match goal with H : zd _ _ _ ?A |- gf2e_degree_to_w (mz_ff ?A) = _ => apply H | H : zd _ _ _ ?A |- mz_nrows ?A = _ => apply H | H : zd _ _ _ ?A |- mz_ncols ?A = _ => apply H end.
Ltac rstep IHm IH := lazymatch goal with
  | |- logs (lbind (wr_l ?C _ _ _ _ _) _) _ =>
      apply logs_bind; eapply logs_mono; [eapply logs_wr; [zff | let W := fresh "W" in let HW := fresh "HW" in intros W HW; eapply logs_mono; [apply IH; eassumption | let X := fresh in intros ? ? [_ X]; exact X]] |];
      cbv beta; let x := fresh "x" in let lg := fresh "lg" in let H := fresh "H" in let Hl := fresh "Hl" in intros x lg [H Hl];
      match goal with HU : zd _ _ _ C |- _ => apply (zd_like _ _ _ _ _ HU) in H end
  | |- logs (lbind (mul_strassen_l _ _ ?C _ _ _) _) _ =>
      apply logs_bind; eapply logs_mono; [apply IHm; eassumption |];
      cbv beta; let x := fresh "x" in let lg := fresh "lg" in let H := fresh "H" in let Hl := fresh "Hl" in intros x lg [H Hl];
      match goal with HU : zd _ _ _ C |- _ => apply (zd_like _ _ _ _ _ HU) in H end
  | |- logs (lbind (addmul_strassen_l _ _ ?C _ _ _) _) _ =>
      apply logs_bind; eapply logs_mono; [apply IH; eassumption |];
      cbv beta; let x := fresh "x" in let lg := fresh "lg" in let H := fresh "H" in let Hl := fresh "Hl" in intros x lg [H Hl];
      match goal with HU : zd _ _ _ C |- _ => apply (zd_like _ _ _ _ _ HU) in H end
  | |- logs (lbind (quiet (mzed_mul_init None _ _ _)) _) _ => apply logs_q; eapply alw_mono; [eapply alw_mul_init_none; zff|]; cbv beta; let x := fresh "x" in let H := fresh "H" in intros x H
  | _ => qstep
  end.
Lemma zd_zd_like m0 n0 A B : zd w m0 n0 A -> zd w m0 n0 B -> like A B.
Proof. intros (H1 & H2 & H3 & H4) (G1 & G2 & G3 & G4). repeat split; congruence. Qed.
Lemma logs_strassen mb : forall j fuel C A B, zd w (2 ^ j * m) (2 ^ j * k) A -> zd w (2 ^ j * k) (2 ^ j * n) B -> zd w (2 ^ j * m) (2 ^ j * n) C ->
  logs (mul_strassen_l mb fuel C A B c) (fun C' lg => like C C' /\ kids j lg).
Proof.
  assert (M0 : m <> 0) by lia. induction j as [|j IH]; intros [|fuel] C A B ZA ZB ZC; try easy; cbn [mul_strassen_l].
  - rewrite !Nat.mul_1_l in *. destruct ZA as (A1 & A2 & A3 & A4), ZC as (C1 & C2 & C3 & C4), ZB as (B1 & B2 & B3 & B4). replace (mz_nrows C =? 0) with false by (symmetry; apply Nat.eqb_neq; lia). cbn [andb].
    rewrite small_base by assumption. apply logs_q, alw_true. intros D. apply logs_bind. eapply logs_mono; [now apply nj_calls|]. cbv beta. intros D' lg Hlg.
    apply logs_quiet. unfold mzed_copy. apply alw_bind, alw_ok, alw_bind, alw_true. intros _. apply alw_bind, alw_true. intros x. apply alw_ok. rewrite app_nil_r. split; [repeat split|exact Hlg].
  - pose proof ZA as (A1 & A2 & A3 & A4). pose proof ZC as (C1 & C2 & C3 & C4). pose proof ZB as (B1 & B2 & B3 & B4). assert (Hp : 1 <= 2 ^ j) by (pose proof (Nat.pow_nonzero 2 j); lia).
    replace (mz_nrows C =? 0) with false by (symmetry; apply Nat.eqb_neq; rewrite C3; cbn [Nat.pow]; nia). cbn [andb].
    rewrite (big_step A B j) by assumption. cbv zeta. rewrite A2, A3, A4, B4.
    replace (2 ^ S j * m) with (2 * (2 ^ j * m)) in * by (cbn [Nat.pow]; lia). replace (2 ^ S j * k) with (2 * (2 ^ j * k)) in * by (cbn [Nat.pow]; lia). replace (2 ^ S j * n) with (2 * (2 ^ j * n)) in * by (cbn [Nat.pow]; lia).
    rewrite !half_double by (try apply mod_pow; assumption).
    remember (2 ^ j * m) as mm. remember (2 ^ j * k) as kk. remember (2 ^ j * n) as nn.
    repeat (rstep IH IH). apply rest_none; [assumption|assumption|assumption|]. split; [eapply zd_zd_like; eassumption|]. now apply kids_7.
Qed.
Lemma logs_addstrassen mb : forall j fuel C A B, zd w (2 ^ j * m) (2 ^ j * k) A -> zd w (2 ^ j * k) (2 ^ j * n) B -> zd w (2 ^ j * m) (2 ^ j * n) C ->
  logs (addmul_strassen_l mb fuel C A B c) (fun C' lg => like C C' /\ kids j lg).
Proof.
  assert (M0 : m <> 0) by lia. induction j as [|j IH]; intros [|fuel] C A B ZA ZB ZC; try easy; cbn [addmul_strassen_l].
  - rewrite !Nat.mul_1_l in *. destruct ZA as (A1 & A2 & A3 & A4), ZC as (C1 & C2 & C3 & C4), ZB as (B1 & B2 & B3 & B4). replace (mz_nrows C =? 0) with false by (symmetry; apply Nat.eqb_neq; lia). cbn [andb].
    rewrite small_base by assumption. apply logs_q, alw_true. intros D. apply logs_bind. eapply logs_mono; [now apply nj_calls|]. cbv beta. intros D' lg Hlg.
    apply logs_quiet. unfold mzed_copy. apply alw_bind, alw_ok, alw_bind, alw_true. intros _. apply alw_bind, alw_true. intros x. apply alw_ok. rewrite app_nil_r. split; [repeat split|exact Hlg].
  - pose proof ZA as (A1 & A2 & A3 & A4). pose proof ZC as (C1 & C2 & C3 & C4). pose proof ZB as (B1 & B2 & B3 & B4). assert (Hp : 1 <= 2 ^ j) by (pose proof (Nat.pow_nonzero 2 j); lia).
    replace (mz_nrows C =? 0) with false by (symmetry; apply Nat.eqb_neq; rewrite C3; cbn [Nat.pow]; nia). cbn [andb].
    rewrite (big_step A B j) by assumption. cbv zeta. rewrite A2, A3, A4, B4.
    replace (2 ^ S j * m) with (2 * (2 ^ j * m)) in * by (cbn [Nat.pow]; lia). replace (2 ^ S j * k) with (2 * (2 ^ j * k)) in * by (cbn [Nat.pow]; lia). replace (2 ^ S j * n) with (2 * (2 ^ j * n)) in * by (cbn [Nat.pow]; lia).
    rewrite !half_double by (try apply mod_pow; assumption).
    remember (2 ^ j * m) as mm. remember (2 ^ j * k) as kk. remember (2 ^ j * n) as nn.
    assert (IHmul := logs_strassen mb j). rewrite <- Heqmm, <- Heqkk, <- Heqnn in IHmul. repeat (rstep IHmul IH). apply rest_none; [assumption|assumption|assumption|]. split; [eapply zd_zd_like; eassumption|]. now apply kids_7.
Qed.
End Strassen.
