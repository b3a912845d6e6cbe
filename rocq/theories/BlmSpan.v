(** Deciding whether the points x^v, x^w span: elimination on the closed form of the matrices F and G. *)
From Coq Require Import NArith List Bool Arith Lia ZifyN ZifyNat ZifyBool.
From Verif Require Import Base Spec PolyFacts MatFacts SliceMul KaraProofs Gf2eModel IrrTable MzdModel MzedSpec SliceModel SliceSpec MzdFacts SliceProofs MzedProofs PermModel PleSpec BlmTable BlmModel BlmSpec BlmFacts BlmCrt BlmSched BlmFG BlmFin BlmMult BlmInit.
Import ListNotations.
Local Open Scope nat_scope.

(** ** columns *)
Fixpoint parN (d : nat) (x : N) : bool := match d with O => false | S d => xorb (N.odd x) (parN d (N.div2 x)) end.
Lemma parN_ok d x : parN d x = bxsum d (fun j => N.testbit x (N.of_nat j)).
Proof.
  revert x. induction d as [|d IH]; intros x; [easy|]. rewrite bxsum_Sl. cbn [parN]. rewrite IH. f_equal; [now rewrite N.bit0_odd|]. apply bxsum_ext. intros j Hj.
  rewrite N.div2_spec, N.shiftr_spec by lia. f_equal. lia.
Qed.
Definition bcol (len : nat) (bl : list (nat * N)) (v : nat) : list bool :=
  flat_map (fun b => let x := bval len b v in map (fun row => parN (fst b) (N.land row x)) (nth (fst b - 1) small_maps [])) bl.
Lemma bcol_ok len bl v : (forall b, In b bl -> 1 <= fst b <= 16) -> length (bcol len bl v) = bcost bl /\ forall k, nth k (bcol len bl v) false = bbit len bl k v.
Proof.
  induction bl as [|b bl IH]; intros H; [split; [easy|intros k; destruct k; reflexivity]|].
  destruct IH as [L E]; [intros; apply H; now right|]. specialize (H b (or_introl eq_refl)). pose proof (small_rows (fst b) H) as R. fold (cost (fst b)) in R.
  cbn [bcol flat_map bcost fold_right bbit]. cbv zeta. fold (bcol len bl v) (bcost bl). set (hd := map _ _).
  assert (Lh : length hd = cost (fst b)) by (unfold hd; now rewrite map_length). split; [now rewrite app_length, Lh, L|].
  intros k. destruct (Nat.ltb_spec k (cost (fst b))).
  - rewrite app_nth1 by lia. set (h := fun row => parN (fst b) (N.land row (bval len b v))). change hd with (map h (nth (fst b - 1) small_maps [])) in *. rewrite (nth_indep _ false (h 0%N)) by lia.
    rewrite map_nth. unfold h. rewrite parN_ok. unfold small_par. apply bxsum_ext. intros j Hj. apply N.land_spec.
  - rewrite app_nth2 by lia. rewrite Lh. apply E.
Qed.
Lemma blks_deg p n : n <= 17 -> nth 0 p 0 <= 16 -> forall b, In b (blks p n) -> 1 <= fst b <= 16.
Proof.
  intros Hn H0. induction n as [|n IH]; intros b; cbn [blks].
  - destruct (Nat.eqb_spec (nth 0 p 0) 0); [easy|]. intros [<-|[]]. cbn [fst]. lia.
  - intros Hb. apply in_app_or in Hb. destruct Hb as [Hb|Hb]; [apply IH; [lia|easy]|]. destruct (Nat.eqb_spec n 0); [easy|].
    unfold deg_blks in Hb. apply in_map_iff in Hb. destruct Hb as (j & <- & _). cbn [fst]. lia.
Qed.

(** ** points *)
Fixpoint andl (a b : list bool) : list bool := match a, b with x :: a, y :: b => (x && y) :: andl a b | _, _ => [] end.
Lemma nth_andl a b k : nth k (andl a b) false = nth k a false && nth k b false.
Proof.
  revert b k. induction a as [|x a IH]; intros [|y b] k; try (destruct k; cbn; now rewrite ?andb_false_r).
Qed.
Definition points (nf ng : nat) (f g : list (list bool)) : list (list bool) :=
  flat_map (fun v => map (fun w => andl (nth v f []) (nth w g [])) (seq v (ng - v))) (seq 0 nf).
Lemma in_points nf ng f g x : In x (points nf ng f g) <-> exists vw, in_tri nf ng vw /\ x = andl (nth (fst vw) f []) (nth (snd vw) g []).
Proof.
  unfold points, in_tri. rewrite in_flat_map. split.
  - intros (v & Hv & Hw). apply in_map_iff in Hw. destruct Hw as (w & <- & Hw). apply in_seq in Hv, Hw. exists (v, w). cbn [fst snd]. split; [lia|easy].
  - intros ([v w] & H & ->). cbn [fst snd] in *. exists v. split; [apply in_seq; lia|]. apply in_map_iff. exists w. split; [easy|]. apply in_seq. lia.
Qed.
Section Span.
Variables (F G : mzd) (m nf ng : nat).
Variable (f g : list (list bool)).
Hypothesis Hf : forall v k, v < nf -> k < m -> nth k (nth v f []) false = mbit F k v.
Hypothesis Hg : forall v k, v < ng -> k < m -> nth k (nth v g []) false = mbit G k v.
Lemma point_bit x : In x (points nf ng f g) -> exists vw, in_tri nf ng vw /\ forall k, k < m -> nth k x false = cval F G vw k.
Proof.
  intros H. apply in_points in H. destruct H as (vw & Hv & ->). exists vw. split; [easy|]. intros k Hk. rewrite nth_andl. destruct Hv. unfold cval. rewrite Hf, Hg by lia. easy.
Qed.
Definition inspan (z : nat -> bool) : Prop := exists l, (forall vw, In vw l -> in_tri nf ng vw) /\ forall k, k < m -> z k = lbs (fun vw => cval F G vw k) l.
Lemma inspan_ext z z' : (forall k, k < m -> z k = z' k) -> inspan z -> inspan z'.
Proof. intros H (l & Hl & E). exists l. split; [easy|]. intros k Hk. rewrite <- H by easy. now apply E. Qed.
Lemma inspan_xor z z' : inspan z -> inspan z' -> inspan (fun k => xorb (z k) (z' k)).
Proof.
  intros (l & Hl & E) (l' & Hl' & E'). exists (l ++ l'). split; [intros vw Hv; apply in_app_or in Hv; destruct Hv; auto|].
  intros k Hk. rewrite E, E' by easy. clear. induction l as [|a l IH]; cbn [app lbs fold_right]; [now rewrite xorb_false_l|]. fold (lbs (fun vw => cval F G vw k) l) (lbs (fun vw => cval F G vw k) (l ++ l')). rewrite <- IH. now rewrite xorb_assoc.
Qed.
Lemma inspan_point x : In x (points nf ng f g) -> inspan (fun k => nth k x false).
Proof.
  intros H. destruct (point_bit x H) as (vw & Hv & E). exists [vw]. split; [intros ? [<-|[]]; easy|]. intros k Hk. rewrite E by easy. cbn. now rewrite xorb_false_r.
Qed.

(** ** elimination: entry i of the basis is the rest of a vector with i zeros and a one in front *)
Fixpoint xorl (a b : list bool) : list bool := match a, b with x :: a, y :: b => xorb x y :: xorl a b | [], b => b | a, [] => a end.
Lemma nth_xorl a b k : nth k (xorl a b) false = xorb (nth k a false) (nth k b false).
Proof.
  revert b k. induction a as [|x a IH]; intros b k.
  - replace (nth k [] false) with false by now destruct k. now rewrite xorb_false_l.
  - destruct b as [|y b]; [replace (nth k [] false) with false by (now destruct k); now rewrite xorb_false_r|]. destruct k; cbn [xorl nth]; [reflexivity|apply IH].
Qed.
Fixpoint insert (bs : list (option (list bool))) (x : list bool) : list (option (list bool)) :=
  match bs, x with
  | o :: bs, false :: x => o :: insert bs x
  | Some b :: bs, true :: x => Some b :: insert bs (xorl x b)
  | None :: bs, true :: x => Some x :: bs
  | _, _ => bs
  end.
Definition full (bs : list (option (list bool))) : bool := forallb (fun o => match o with Some _ => true | None => false end) bs.
Fixpoint eliminate (bs : list (option (list bool))) (pts : list (list bool)) : list (option (list bool)) :=
  match pts with [] => bs | x :: pts => if full bs then bs else eliminate (insert bs x) pts end.
Definition lift (n : nat) (x : list bool) (k : nat) : bool := if k <? n then false else nth (k - n) x false.
Fixpoint bok (n : nat) (bs : list (option (list bool))) : Prop :=
  match bs with [] => True | o :: bs => (match o with Some b => inspan (lift n (true :: b)) | None => True end) /\ bok (S n) bs end.
Lemma lift_false n x k : lift n (false :: x) k = lift (S n) x k.
Proof.
  unfold lift. destruct (Nat.ltb_spec k n), (Nat.ltb_spec k (S n)); try easy; try lia.
  - replace (k - n) with 0 by lia. reflexivity.
  - replace (k - n) with (S (k - S n)) by lia. reflexivity.
Qed.
Lemma insert_len bs x : length (insert bs x) = length bs.
Proof. revert x. induction bs as [|o bs IH]; intros x; [now destruct x|]. destruct o, x as [|[|] x]; cbn [insert length]; auto. Qed.
Lemma insert_ok bs : forall n x, bok n bs -> inspan (lift n x) -> bok n (insert bs x).
Proof.
  induction bs as [|o bs IH]; intros n x; [now destruct x|]. cbn [bok]. intros [Ho Hbs] Hx. destruct x as [|[|] x].
  - destruct o; cbn [insert bok]; auto.
  - destruct o as [b|]; cbn [insert bok]; [|auto]. split; [easy|]. apply IH; [easy|]. apply (inspan_ext _ _) with (2 := inspan_xor _ _ Hx Ho).
    intros k Hk. rewrite <- (lift_false n (xorl x b) k). unfold lift. destruct (Nat.ltb_spec k n); [easy|]. destruct (k - n); cbn [nth]; [easy|]. now rewrite nth_xorl.
  - assert (E : inspan (lift (S n) x)) by (apply (inspan_ext _ _) with (2 := Hx); intros; apply lift_false).
    destruct o; cbn [insert bok]; auto.
Qed.
Lemma eliminate_ok pts : forall bs, (forall x, In x pts -> inspan (fun k => nth k x false)) -> bok 0 bs -> bok 0 (eliminate bs pts) /\ length (eliminate bs pts) = length bs.
Proof.
  induction pts as [|x pts IH]; intros bs Hp Hb; [easy|]. cbn [eliminate]. destruct (full bs); [easy|]. rewrite <- (insert_len bs x). apply IH; [intros; apply Hp; now right|].
  apply insert_ok; [easy|]. apply (inspan_ext _ _) with (2 := Hp x (or_introl eq_refl)). intros k Hk. unfold lift. now rewrite Nat.sub_0_r.
Qed.
Lemma full_spans bs : forall n, n + length bs = m -> bok n bs -> full bs = true -> forall z, (forall k, k < n -> z k = false) -> inspan z.
Proof.
  induction bs as [|o bs IH]; intros n L Hb Hfull z Hz.
  - exists []. split; [easy|]. intros k Hk. apply Hz. cbn in L. lia.
  - cbn [full forallb] in Hfull. apply andb_prop in Hfull. destruct Hfull as [Ho Hfull]. destruct o as [b|]; [|discriminate Ho]. destruct Hb as [Hb Hbs]. cbn [length] in L.
    destruct (z n) eqn:Ez.
    + assert (Hz' : inspan (fun k => xorb (z k) (lift n (true :: b) k))).
      { apply (IH (S n)); [lia|easy|easy|]. intros k Hk. unfold lift. destruct (Nat.ltb_spec k n); [now rewrite Hz|]. replace k with n by lia. rewrite Nat.sub_diag, Ez. reflexivity. }
      apply (inspan_ext _ _) with (2 := inspan_xor _ _ Hz' Hb). intros k Hk. now rewrite xorb_assoc, xorb_nilpotent, xorb_false_r.
    + apply (IH (S n)); [lia|easy|easy|]. intros k Hk. destruct (Nat.eq_dec k n) as [->|]; [easy|]. apply Hz. lia.
Qed.
Theorem eliminate_spans : full (eliminate (repeat None m) (points nf ng f g)) = true -> spans F G m nf ng.
Proof.
  intros H i Hi. assert (B0 : forall n j, bok n (repeat None j)) by (intros n j; revert n; induction j as [|j IH]; intros n; cbn; auto).
  destruct (eliminate_ok (points nf ng f g) (repeat None m) inspan_point (B0 0 m)) as [B L]. rewrite repeat_length in L.
  exact (full_spans _ 0 L B H (fun k => k =? i) ltac:(intros; lia)).
Qed.
(** ** a vector orthogonal to all points *)
Fixpoint dot (a b : list bool) : bool := match a, b with x :: a, y :: b => xorb (x && y) (dot a b) | _, _ => false end.
Lemma dot_ok a b n : length b <= n -> dot a b = bxsum n (fun k => nth k a false && nth k b false).
Proof.
  revert b n. induction a as [|x a IH]; intros b n L.
  - cbn [dot]. symmetry. apply bxsum_0. intros k _. now destruct k.
  - destruct b as [|y b]; cbn [dot]; [symmetry; apply bxsum_0; intros k _; rewrite andb_comm; now destruct k|].
    cbn [length] in L. destruct n as [|n]; [lia|]. rewrite bxsum_Sl. cbn [nth]. f_equal. apply IH. lia.
Qed.
Definition orth_check (y : list bool) (pts : list (list bool)) : bool :=
  (length y =? m) && existsb (fun b => b) y && forallb (fun x => negb (dot x y)) pts.
Theorem orth_check_ok y : orth_check y (points nf ng f g) = true ->
  exists y : nat -> bool, (exists k, k < m /\ y k = true) /\ forall vw, in_tri nf ng vw -> bxsum m (fun k => cval F G vw k && y k) = false.
Proof.
  intros H. apply andb_prop in H. destruct H as [H H2]. apply andb_prop in H. destruct H as [HL H1]. apply Nat.eqb_eq in HL. exists (fun k => nth k y false). split.
  - apply existsb_exists in H1. destruct H1 as (b & Hb & ->). apply (In_nth _ _ false) in Hb. destruct Hb as (k & Hk & E). exists k. split; [lia|easy].
  - intros vw Hv. rewrite forallb_forall in H2. specialize (H2 _ (proj2 (in_points nf ng f g _) (ex_intro _ vw (conj Hv eq_refl)))).
    apply negb_true_iff in H2. refine (eq_trans _ H2). rewrite (dot_ok _ _ m) by lia. apply bxsum_ext. intros k Hk. rewrite nth_andl. destruct Hv. rewrite Hf, Hg by lia. reflexivity.
Qed.
End Span.
(** ** the decision *)
Inductive status := Spanning | Stuck | Unknown.
Definition crt_status (nf ng : nat) (y : N) (p : list nat) : status :=
  if nth 0 p 0 <=? nf then
    let bl := blks p 17 in let m := bcost bl in
    let f := map (bcol nf bl) (seq 0 nf) in let g := map (bcol ng bl) (seq 0 ng) in
    let pts := points nf ng f g in
    if (y =? 0)%N then (if full (eliminate (repeat None m) pts) then Spanning else Unknown)
    else if orth_check m (map (fun k => N.testbit y (N.of_nat k)) (seq 0 m)) pts then Stuck else Unknown
  else Unknown.
Lemma bcol_FG n p F : scheme p -> has_blocks n (blks p 17) F -> forall v k, v < n -> k < bcost (blks p 17) -> nth k (nth v (map (bcol n (blks p 17)) (seq 0 n)) []) false = mbit F k v.
Proof.
  intros (_ & H0 & _) HF v k Hv Hk. rewrite HF by easy. rewrite (nth_indep _ [] (bcol n (blks p 17) 0)) by (rewrite map_length, seq_length; lia). rewrite map_nth, seq_nth by lia.
  now apply bcol_ok, blks_deg.
Qed.
Theorem status_spanning nf ng y p : scheme p -> nf <= ng -> crt_status nf ng y p = Spanning -> terminates nf ng p.
Proof.
  intros Hs Hn. unfold crt_status, terminates. destruct (Nat.leb_spec (nth 0 p 0) nf) as [H0|]; [|easy]. cbv zeta. intros H.
  destruct (proj1 (wp_iff _ _) (crt_FG_total nf ng p Hs H0 ltac:(lia))) as ([F G] & E & _ & _ & RF & _ & _ & _ & BF & BG). exists F, G. split; [exact E|].
  destruct (y =? 0)%N; [|now destruct (orth_check _ _ _)]. destruct (full _) eqn:Es; [|easy].
  rewrite RF, scheme_cost_csum, <- blks_cost. eapply eliminate_spans; [| |exact Es]; now apply bcol_FG.
Qed.
Theorem status_stuck nf ng y p : scheme p -> nf <= ng -> crt_status nf ng y p = Stuck -> diverges nf ng p.
Proof.
  intros Hs Hn. unfold crt_status, diverges. destruct (Nat.leb_spec (nth 0 p 0) nf) as [H0|]; [|easy]. cbv zeta. intros H.
  destruct (proj1 (wp_iff _ _) (crt_FG_total nf ng p Hs H0 ltac:(lia))) as ([F G] & E & _ & _ & RF & _ & _ & _ & BF & BG). exists F, G. split; [exact E|].
  destruct (y =? 0)%N; [now destruct (full _)|]. destruct (orth_check _ _ _) eqn:Eo; [|easy].
  rewrite RF, scheme_cost_csum, <- blks_cost. eapply orth_check_ok; [| |exact Eo]; now apply bcol_FG.
Qed.

(** one modulus of degree d *)
Definition one_modulus (d : nat) : list nat := upd (repeat 0 17) d 1.
Lemma one_modulus_scheme d : 1 <= d <= 16 -> scheme (one_modulus d).
Proof.
  intros Hd. unfold one_modulus. split; [now rewrite upd_length|]. split; [rewrite nth_upd_ne by lia; cbn; lia|].
  intros k Hk. rewrite nth_upd by (rewrite repeat_length; lia). destruct (Nat.eqb_spec d k); [|rewrite nth_repeat; lia].
  assert (HF : Forall (fun l => tl (A := N) l <> []) (tl irreducible_polynomials)) by (repeat constructor; cbn [tl]; discriminate).
  rewrite Forall_forall in HF. unfold n_irr. specialize (HF (nth k irreducible_polynomials [])).
  destruct (tl (nth k irreducible_polynomials [])) as [|q l]; [|cbn [length]; lia]. exfalso. apply HF; [|easy].
  replace (nth k irreducible_polynomials []) with (nth (k - 1) (tl irreducible_polynomials) []) by (destruct k; [lia|]; cbn [Nat.sub]; rewrite Nat.sub_0_r; destruct irreducible_polynomials; [now destruct k|reflexivity]).
  apply nth_In. change (length (tl irreducible_polynomials)) with 16. lia.
Qed.
Lemma one_modulus_spans : forallb (fun d => match crt_status d d 0 (one_modulus d) with Spanning => true | _ => false end) (seq 1 16) = true.
Proof. vm_cast_no_check (eq_refl true). Qed.
Lemma one_modulus_terminates d : 1 <= d <= 16 -> terminates d d (one_modulus d).
Proof.
  intros Hd. pose proof one_modulus_spans as H. rewrite forallb_forall in H. specialize (H d (proj2 (in_seq 16 1 d) ltac:(lia))).
  apply (status_spanning d d 0); [now apply one_modulus_scheme|easy|]. destruct (crt_status d d 0 (one_modulus d)); easy.
Qed.
(** vectors orthogonal to all points, where there are any (by script; they are checked below) *)
Definition orth (nf ng : nat) : N :=
  match nf, ng with
  | 2, 6 => 0x80%N
  | 2, 7 => 0x100%N
  | 2, 8 => 0x400%N
  | 2, 9 => 0x80%N
  | 2, 10 => 0x100%N
  | 2, 11 => 0x400%N
  | 2, 12 => 0x400%N
  | 2, 14 => 0x100%N
  | 2, 15 => 0x400%N
  | 3, 11 => 0x20000%N
  | 3, 12 => 0x100000%N
  | 3, 13 => 0x200000%N
  | 3, 14 => 0x800000%N
  | 3, 15 => 0x20000%N
  | 3, 16 => 0x100000%N
  | 4, 4 => 0x204%N
  | _, _ => 0%N
  end.
(** the schemes of crt_init, for matrices of polynomials with at most 16 coefficients *)
Definition code_of (o : res (list nat)) (st : list nat -> status) : nat :=
  match o with
  | Ok p => if forallb (Nat.eqb 0) p then 3 else match st p with Spanning => 0 | Stuck => 1 | _ => 9 end
  | _ => 9
  end.
Lemma code_of_0 o st : code_of o st = 0 -> exists p, o = Ok p /\ p <> repeat 0 17 /\ st p = Spanning.
Proof.
  destruct o as [p| |]; cbn [code_of]; [|discriminate|discriminate]. intros H. exists p. split; [reflexivity|]. destruct (forallb (Nat.eqb 0) p) eqn:Hz; [discriminate H|].
  split; [intros ->; discriminate Hz|]. destruct (st p); try discriminate H. reflexivity.
Qed.
Lemma code_of_1 o st : code_of o st = 1 -> exists p, o = Ok p /\ p <> repeat 0 17 /\ st p = Stuck.
Proof.
  destruct o as [p| |]; cbn [code_of]; [|discriminate|discriminate]. intros H. exists p. split; [reflexivity|]. destruct (forallb (Nat.eqb 0) p) eqn:Hz; [discriminate H|].
  split; [intros ->; discriminate Hz|]. destruct (st p); try discriminate H. reflexivity.
Qed.
Lemma code_of_3 o st : code_of o st = 3 -> exists p, o = Ok p /\ forallb (Nat.eqb 0) p = true.
Proof.
  destruct o as [p| |]; cbn [code_of]; [|discriminate|discriminate]. intros H. exists p. split; [reflexivity|]. destruct (forallb (Nat.eqb 0) p) eqn:Hz; [reflexivity|].
  destruct (st p); discriminate H.
Qed.
Lemma crt_classes : forallb (fun nf => forallb (fun ng => code_of (crt_init nf ng) (crt_status nf ng (orth nf ng)) =? crt_class nf ng) (seq nf (17 - nf))) (seq 1 16) = true.
Proof. vm_cast_no_check (eq_refl true). Qed.
Lemma crt_class_ok nf ng : 1 <= nf <= ng -> ng <= 16 -> code_of (crt_init nf ng) (crt_status nf ng (orth nf ng)) = crt_class nf ng.
Proof.
  intros Hn Hg. pose proof crt_classes as H. rewrite forallb_forall in H. specialize (H nf (proj2 (in_seq 16 1 nf) ltac:(lia))). rewrite forallb_forall in H.
  specialize (H ng (proj2 (in_seq (17 - nf) nf ng) ltac:(lia))). now apply Nat.eqb_eq.
Qed.
