(** Facts about sums over GF(2), coprime moduli and the small multiplication maps. *)
From Coq Require Import NArith List Bool Arith Lia ZifyN ZifyNat ZifyBool.
From Verif Require Import Base Spec PolyFacts MatFacts SliceMul KaraProofs IrrTable IrrProofs BlmTable.
Import ListNotations.
Local Open Scope nat_scope.

(** ** bxsum *)
Lemma bxsum_0 n g : (forall i, i < n -> g i = false) -> bxsum n g = false.
Proof. intros H. rewrite (bxsum_ext n g (fun _ => false)) by easy. apply bxsum_false. Qed.
Lemma bxsum_xorb n g h : bxsum n (fun i => xorb (g i) (h i)) = xorb (bxsum n g) (bxsum n h).
Proof. induction n; [easy|]. cbn [bxsum]. rewrite IHn. destruct (bxsum n g), (bxsum n h), (g n), (h n); easy. Qed.
Lemma bxsum_and_l n b g : b && bxsum n g = bxsum n (fun i => b && g i).
Proof. destruct b; cbn [andb]; [easy|]. now rewrite bxsum_false. Qed.
Lemma bxsum_and_r n b g : bxsum n g && b = bxsum n (fun i => g i && b).
Proof. rewrite andb_comm, bxsum_and_l. apply bxsum_ext. intros. apply andb_comm. Qed.
Lemma bxsum_swap m n g : bxsum m (fun i => bxsum n (fun j => g i j)) = bxsum n (fun j => bxsum m (fun i => g i j)).
Proof. induction m; cbn [bxsum]; [now rewrite bxsum_false|]. now rewrite IHm, <- bxsum_xorb. Qed.
Lemma bxsum_single n k g : k < n -> (forall i, i < n -> i <> k -> g i = false) -> bxsum n g = g k.
Proof.
  induction n; intros Hk H; [lia|]. cbn [bxsum]. destruct (Nat.eq_dec k n) as [->|E].
  - rewrite bxsum_0; [now destruct (g n)|]. intros. apply H; lia.
  - rewrite IHn, (H n) by (try lia; auto with arith). apply xorb_false_r.
Qed.
Lemma bxsum_eqb n k g : k < n -> bxsum n (fun i => (i =? k) && g i) = g k.
Proof. intros Hk. rewrite (bxsum_single n k) by (try lia; intros i _ Hi; now replace (i =? k) with false by lia). now rewrite Nat.eqb_refl. Qed.
Lemma bxsum_eqb_r n k g : k < n -> bxsum n (fun i => g i && (i =? k)) = g k.
Proof. intros Hk. rewrite <- (bxsum_eqb n k g Hk). apply bxsum_ext. intros. apply andb_comm. Qed.
Lemma bxsum_split a b g : bxsum (a + b) g = xorb (bxsum a g) (bxsum b (fun i => g (a + i))).
Proof.
  induction b; cbn [bxsum]; [now rewrite Nat.add_0_r, xorb_false_r|]. rewrite Nat.add_succ_r. cbn [bxsum]. rewrite IHb. apply xorb_assoc.
Qed.

(** ** sums over lists *)
Definition lxs {A} (g : A -> N) (l : list A) : N := fold_right (fun x s => N.lxor (g x) s) 0%N l.
Definition lbs {A} (g : A -> bool) (l : list A) : bool := fold_right (fun x s => xorb (g x) s) false l.
Lemma lxs_ext {A} (g h : A -> N) l : (forall x, In x l -> g x = h x) -> lxs g l = lxs h l.
Proof. induction l as [|x l IH]; intros H; [easy|]. cbn. rewrite H by now left. f_equal. apply IH. intros. apply H. now right. Qed.
Lemma lbs_ext {A} (g h : A -> bool) l : (forall x, In x l -> g x = h x) -> lbs g l = lbs h l.
Proof. induction l as [|x l IH]; intros H; [easy|]. cbn. rewrite H by now left. f_equal. apply IH. intros. apply H. now right. Qed.
Lemma lxs_xsum {A} n (g : A -> nat -> N) l : lxs (fun x => xsum n (g x)) l = xsum n (fun k => lxs (fun x => g x k) l).
Proof.
  induction l as [|x l IH]; cbn; [symmetry; now apply xsum_0|]. unfold lxs in IH. rewrite IH, <- xsum_lxor. now apply xsum_ext.
Qed.
Lemma lxs_if {A} (g : A -> bool) v l : lxs (fun x => if g x then v else 0%N) l = if lbs g l then v else 0%N.
Proof.
  induction l as [|x l IH]; [easy|]. cbn. unfold lxs, lbs in *. rewrite IH.
  destruct (g x), (fold_right _ false l); cbn; now rewrite ?N.lxor_nilpotent, ?N.lxor_0_r.
Qed.
Lemma lxs_pmod {A} (g : A -> N) f l : f <> 0%N -> pmod (lxs g l) f = lxs (fun x => pmod (g x) f) l.
Proof. intros Hf. induction l as [|x l IH]; [easy|]. cbn. rewrite pmod_lxor by easy. unfold lxs in IH. now rewrite IH. Qed.
Lemma lxs_testbit {A} (g : A -> N) l b : N.testbit (lxs g l) b = lbs (fun x => N.testbit (g x) b) l.
Proof. induction l as [|x l IH]; [apply N.bits_0|]. cbn. rewrite N.lxor_spec. unfold lxs in IH. now rewrite IH. Qed.
Lemma lxs_lt {A} (g : A -> N) l b : (forall x, In x l -> (g x < 2 ^ b)%N) -> (lxs g l < 2 ^ b)%N.
Proof.
  induction l as [|x l IH]; intros H; cbn; [pose proof (N.pow_nonzero 2 b); lia|].
  apply lxor_lt_pow2; [apply H; now left|]. apply IH. intros. apply H. now right.
Qed.

(** ** the small maps *)
(** row k of the map of degree d, applied to a *)
Definition small_par (d k : nat) (a : N) : bool :=
  bxsum d (fun j => N.testbit (nth k (nth (d - 1) small_maps []) 0%N) (N.of_nat j) && N.testbit a (N.of_nat j)).
Definition small_checkb (d : nat) : bool :=
  let rows := nth (d - 1) small_maps [] in
  let cert := nth (d - 1) small_cert [] in
  (length rows =? nth d costs 0) &&
  forallb (fun i => forallb (fun j =>
     N.eqb (2 ^ N.of_nat (i + j)) (xsum (length rows) (fun k => if N.testbit (nth k rows 0%N) (N.of_nat i) && N.testbit (nth k rows 0%N) (N.of_nat j) then nth k cert 0%N else 0%N))) (seq 0 d)) (seq 0 d).
Lemma small_check_all : forallb small_checkb (seq 1 16) = true.
Proof. vm_compute. reflexivity. Qed.
Lemma small_check d : 1 <= d <= 16 -> small_checkb d = true.
Proof. intros H. pose proof small_check_all as E. rewrite forallb_forall in E. apply E. apply in_seq. lia. Qed.
Lemma small_rows d : 1 <= d <= 16 -> length (nth (d - 1) small_maps []) = nth d costs 0.
Proof. intros H. pose proof (small_check d H) as E. unfold small_checkb in E. apply andb_prop in E. now apply Nat.eqb_eq. Qed.
Lemma small_map_mul d a b : 1 <= d <= 16 -> (a < 2 ^ N.of_nat d)%N -> (b < 2 ^ N.of_nat d)%N ->
  pmul a b = xsum (nth d costs 0) (fun k => if small_par d k a && small_par d k b then nth k (nth (d - 1) small_cert []) 0%N else 0%N).
Proof.
  intros Hd Ha Hb. pose proof (small_check d Hd) as E. unfold small_checkb in E. apply andb_prop in E. destruct E as [El E].
  apply Nat.eqb_eq in El. rewrite El in E. rewrite forallb_forall in E.
  set (c := nth d costs 0) in *. set (rows := nth (d - 1) small_maps []) in *. set (cert := nth (d - 1) small_cert []) in *.
  transitivity (xsum d (fun i => xsum d (fun j => if N.testbit a (N.of_nat i) && N.testbit b (N.of_nat j) then (2 ^ N.of_nat (i + j))%N else 0%N))).
  - rewrite (bits_sum d a Ha) at 1. rewrite pmul_xsum_l. apply xsum_ext. intros i Hi.
    rewrite (bits_sum d b Hb) at 1. rewrite pmul_xsum_r. apply xsum_ext. intros j Hj.
    destruct (N.testbit a (N.of_nat i)); [|now rewrite pmul_0_l]. destruct (N.testbit b (N.of_nat j)); [|now rewrite pmul_0_r].
    cbn [andb]. rewrite pmul_pow2_l, N.shiftl_mul_pow2, <- N.pow_add_r. f_equal. lia.
  - transitivity (xsum d (fun i => xsum d (fun j => xsum c (fun k => if (N.testbit (nth k rows 0%N) (N.of_nat i) && N.testbit a (N.of_nat i)) && (N.testbit (nth k rows 0%N) (N.of_nat j) && N.testbit b (N.of_nat j)) then nth k cert 0%N else 0%N)))).
    + apply xsum_ext. intros i Hi. apply xsum_ext. intros j Hj.
      assert (Ei := E i ltac:(apply in_seq; lia)). rewrite forallb_forall in Ei. specialize (Ei j ltac:(apply in_seq; lia)). apply N.eqb_eq in Ei.
      rewrite Ei. destruct (N.testbit a (N.of_nat i)), (N.testbit b (N.of_nat j)); cbn [andb].
      * apply xsum_ext. intros k Hk. now rewrite !andb_true_r.
      * symmetry. apply xsum_0. intros k Hk. now rewrite !andb_false_r.
      * symmetry. apply xsum_0. intros k Hk. now rewrite !andb_false_r.
      * symmetry. apply xsum_0. intros k Hk. now rewrite !andb_false_r.
    + rewrite (xsum_ext d _ (fun i => xsum c (fun k => xsum d (fun j => if (N.testbit (nth k rows 0%N) (N.of_nat i) && N.testbit a (N.of_nat i)) && (N.testbit (nth k rows 0%N) (N.of_nat j) && N.testbit b (N.of_nat j)) then nth k cert 0%N else 0%N)))) by (intros; apply xsum_swap).
      rewrite xsum_swap. apply xsum_ext. intros k Hk. unfold small_par. fold rows. now rewrite if_and_sum.
Qed.
(** a relation between the values of the map is a relation between the products *)
Lemma small_map_rel {A} d (ga gb : A -> N) l : 1 <= d <= 16 ->
  (forall x, In x l -> (ga x < 2 ^ N.of_nat d)%N /\ (gb x < 2 ^ N.of_nat d)%N) ->
  (forall k, k < nth d costs 0 -> lbs (fun x => small_par d k (ga x) && small_par d k (gb x)) l = false) ->
  lxs (fun x => pmul (ga x) (gb x)) l = 0%N.
Proof.
  intros Hd Hl Hz.
  rewrite (lxs_ext _ (fun x => xsum (nth d costs 0) (fun k => if small_par d k (ga x) && small_par d k (gb x) then nth k (nth (d - 1) small_cert []) 0%N else 0%N)))
    by (intros x Hx; destruct (Hl x Hx); now apply small_map_mul).
  rewrite lxs_xsum. apply xsum_0. intros k Hk. rewrite lxs_if, Hz by easy. reflexivity.
Qed.

(** ** coprime moduli *)
Definition pdvd (q x : N) : Prop := exists y, x = pmul q y.
Lemma pdvd_trans a b c : pdvd a b -> pdvd b c -> pdvd a c.
Proof. intros (x & ->) (y & ->). exists (pmul x y). now rewrite pmul_assoc. Qed.
Lemma prime_dvd p a b : irreducible p -> pdvd p (pmul a b) -> pdvd p a \/ pdvd p b.
Proof.
  intros Hp (y & E). assert (p0 : p <> 0%N) by now apply irreducible_no_factor.
  assert (Hz : fmul p (pmod a p) (pmod b p) = 0%N).
  { unfold fmul. rewrite pmod_mul_l, pmod_mul_r by easy. rewrite E, pmul_comm. now apply pmod_mul_f. }
  apply fmul_zero_div in Hz; [|easy|now apply pmod_lt|now apply pmod_lt].
  destruct Hz as [Hz|Hz]; apply pmod_divides in Hz; try easy; destruct Hz as (q & ->); [left|right]; exists q; apply pmul_comm.
Qed.
Lemma pmul_cancel a b c : a <> 0%N -> pmul a b = pmul a c -> b = c.
Proof.
  intros Ha E. assert (Hz : pmul a (N.lxor b c) = 0%N) by (rewrite pmul_lxor_r, E; apply N.lxor_nilpotent).
  apply pmul_eq_0 in Hz. destruct Hz as [|Hz]; [easy|]. now apply N.lxor_eq.
Qed.
Lemma ppow_nz p e : p <> 0%N -> ppow p e <> 0%N.
Proof. intros Hp. induction e; cbn; [easy|]. intros E. apply pmul_eq_0 in E. tauto. Qed.
Lemma prime_pow_dvd p e : irreducible p -> forall a y, ~ pdvd p a -> pdvd (ppow p e) (pmul a y) -> pdvd (ppow p e) y.
Proof.
  intros Hp. assert (p0 : p <> 0%N) by now apply irreducible_no_factor.
  induction e as [|e IH]; intros a y Ha (z & E); [exists y; symmetry; apply pmul_1_l|].
  cbn [ppow] in *. destruct (prime_dvd p a y Hp) as [|(y' & ->)]; [exists (pmul (ppow p e) z); now rewrite pmul_assoc|easy|].
  destruct (IH a y' Ha) as (u & ->).
  - exists z. apply (pmul_cancel p); [easy|]. rewrite !pmul_assoc, <- E, !pmul_assoc. f_equal. apply pmul_comm.
  - exists u. now rewrite pmul_assoc.
Qed.
(** product of prime powers *)
Definition pprod (l : list (N * nat)) : N := fold_right (fun pe s => pmul (ppow (fst pe) (snd pe)) s) 1%N l.
Lemma irreducible_dvd p q : irreducible p -> irreducible q -> pdvd p q -> p = q.
Proof.
  intros Hp Hq (y & E). destruct Hq as [Hq1 Hq2], Hp as [Hp1 Hp2]. symmetry in E. destruct (Hq2 _ _ E) as [-> | ->].
  - lia.
  - now rewrite pmul_1_r in E.
Qed.
Lemma not_dvd_1 p : irreducible p -> ~ pdvd p 1%N.
Proof. intros Hp (y & E). pose proof Hp as [H1 H2]. assert (p <> 0%N) by lia. assert (y <> 0%N) by (intros ->; now rewrite pmul_0_r in E).
  assert (E' : pdeg (pmul p y) = 0%N) by now rewrite <- E. rewrite pdeg_pmul in E' by easy.
  assert (1 <= pdeg p)%N by (apply pdeg_ge1; lia). lia.
Qed.
Lemma not_dvd_pow p q e : irreducible p -> irreducible q -> p <> q -> ~ pdvd p (ppow q e).
Proof.
  intros Hp Hq Hne. induction e as [|e IH]; [now apply not_dvd_1|]. cbn. intros H. apply prime_dvd in H; [|easy]. destruct H as [H|H]; [|easy].
  apply irreducible_dvd in H; easy.
Qed.
Lemma not_dvd_pprod p l : irreducible p -> (forall q e, In (q, e) l -> irreducible q) -> ~ In p (map fst l) -> ~ pdvd p (pprod l).
Proof.
  intros Hp. induction l as [|[q e] l IH]; intros Hl Hn; [now apply not_dvd_1|]. cbn. intros H. apply prime_dvd in H; [|easy]. destruct H as [H|H].
  - apply not_dvd_pow in H; [easy|easy|apply (Hl q e); now left|]. intros ->. apply Hn. now left.
  - revert H. apply IH; [intros; apply (Hl q0 e0); now right|]. intros H. apply Hn. now right.
Qed.
Lemma pprod_dvd l x : (forall p e, In (p, e) l -> irreducible p /\ pdvd (ppow p e) x) -> NoDup (map fst l) -> pdvd (pprod l) x.
Proof.
  revert x. induction l as [|[p e] l IH]; intros x Hl Hnd; [exists x; symmetry; apply pmul_1_l|].
  cbn in *. inversion_clear Hnd as [|? ? Hni Hnd'].
  destruct (IH x) as (y & ->); [intros p' e' Hq; apply (Hl p' e'); now right|easy|].
  destruct (Hl p e) as [Hp Hd]; [now left|].
  apply prime_pow_dvd in Hd; [|easy|].
  - destruct Hd as (z & ->). exists z. rewrite !pmul_assoc. f_equal. apply pmul_comm.
  - apply not_dvd_pprod; [easy|intros q' e' Hq; apply (Hl q' e'); now right|easy].
Qed.
Lemma pprod_nz l : (forall p e, In (p, e) l -> irreducible p) -> pprod l <> 0%N.
Proof.
  induction l as [|[p e] l IH]; intros H; cbn; [easy|]. intros E. apply pmul_eq_0 in E. destruct E as [E|E].
  - revert E. apply ppow_nz. apply irreducible_no_factor, (H p e). now left.
  - revert E. apply IH. intros. apply (H p0 e0). now right.
Qed.
Definition degs (l : list (N * nat)) : N := fold_right (fun pe s => N.add (pdeg (ppow (fst pe) (snd pe))) s) 0%N l.
Lemma pdeg_pprod l : (forall p e, In (p, e) l -> irreducible p) -> pdeg (pprod l) = degs l.
Proof.
  induction l as [|[p e] l IH]; intros H; [easy|]. cbn [pprod fold_right degs fst snd].
  assert (Hl : forall p e, In (p, e) l -> irreducible p) by (intros p' e' H'; apply (H p' e'); now right).
  change (fold_right _ 1%N l) with (pprod l). rewrite pdeg_pmul.
  - now rewrite IH.
  - apply ppow_nz. apply irreducible_no_factor, (H p e). now left.
  - now apply pprod_nz.
Qed.
(** the Chinese remainder theorem, injectivity *)
Theorem crt_injective l x n : (forall p e, In (p, e) l -> irreducible p /\ pdvd (ppow p e) x) -> NoDup (map fst l) ->
  (x < 2 ^ n)%N -> (n <= degs l)%N -> x = 0%N.
Proof.
  intros Hl Hnd Hx Hn. destruct (pprod_dvd l x Hl Hnd) as (y & E).
  assert (Hi : forall p e, In (p, e) l -> irreducible p) by (intros p e H; now apply (Hl p e)).
  destruct (N.eq_dec x 0) as [|Hx0]; [easy|exfalso].
  assert (y <> 0%N) by (intros ->; rewrite pmul_0_r in E; easy).
  assert (Ed : pdeg x = (degs l + pdeg y)%N) by (rewrite E, pdeg_pmul, pdeg_pprod; auto using pprod_nz).
  unfold pdeg in Ed. apply N.log2_lt_pow2 in Hx; lia.
Qed.
