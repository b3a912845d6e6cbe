(** The table of irreducible polynomials is sound and complete. *)
From Coq Require Import NArith Lia List Bool Arith.
From Coq Require Import ZifyBool ZifyNat ZifyN.
From Verif Require Import Base Spec PolyFacts IrrTable.
Import ListNotations.
Local Open Scope N_scope.

(** the irreducible polynomials of degree <= 8, used as trial divisors *)
Definition trial : list N :=
  concat (map (fun l => tl l) (firstn 9 irreducible_polynomials)).

(** decision procedure: no trial divisor of degree <= deg f / 2 *)
Definition irrb (f : N) : bool :=
  let d := pdeg f in
  forallb (fun p => (d <? 2 * pdeg p) || negb (pmod f p =? 0)) trial.

Fixpoint nrange (n : nat) (start : N) : list N :=
  match n with O => [] | S n' => start :: nrange n' (N.succ start) end.
Lemma in_nrange n s x : In x (nrange n s) <-> s <= x < s + N.of_nat n.
Proof.
  revert s; induction n as [|n IH]; intros s; cbn [nrange In]; [lia|]. rewrite IH. lia.
Qed.
Lemma nodup_nrange n s : NoDup (nrange n s).
Proof.
  revert s; induction n as [|n IH]; intros s; cbn [nrange]; constructor; [|apply IH].
  rewrite in_nrange. lia.
Qed.

(** every polynomial of degree 1..8 has a trial divisor *)
Lemma trial_complete g : 2 <= g < 512 -> exists p, In p trial /\ pmod g p = 0.
Proof.
  intros Hg.
  assert (H : forallb (fun g => existsb (fun p => pmod g p =? 0) trial) (nrange 510 2) = true)
    by (vm_compute; reflexivity).
  rewrite forallb_forall in H. specialize (H g).
  assert (Hin : In g (nrange 510 2)) by (apply in_nrange; lia).
  apply H, existsb_exists in Hin. destruct Hin as (p & Hp & E). exists p. split; [easy|]. lia.
Qed.
Lemma trial_gt1 p : In p trial -> 2 <= p.
Proof.
  assert (H : forallb (fun p => 2 <=? p) trial = true) by (vm_compute; reflexivity).
  rewrite forallb_forall in H. intros Hp. specialize (H p Hp). lia.
Qed.

Lemma pdeg_ge1 a : 2 <= a <-> 1 <= pdeg a.
Proof.
  unfold pdeg. split; intros H.
  - change 1 with (N.log2 2). now apply N.log2_le_mono.
  - destruct (N.le_gt_cases 2 a); [easy|]. assert (a = 0 \/ a = 1) as [-> | ->] by lia; cbn in H; lia.
Qed.

Lemma factor_nz f a b : pmul a b = f -> f <> 0 -> a <> 0 /\ b <> 0.
Proof.
  intros E Hf. split; intros ->; apply Hf; rewrite <- E; [reflexivity|apply pmul_0_r].
Qed.

Theorem irrb_spec f : 2 <= f -> pdeg f <= 16 -> (irrb f = true <-> irreducible f).
Proof.
  intros Hf Hd. unfold irrb. rewrite forallb_forall. split.
  - intros H. split; [lia|].
    (* it is enough to treat the factor of smaller degree *)
    assert (G : forall a b, pmul a b = f -> pdeg a <= pdeg b -> a = 1).
    { intros a b E Hab. destruct (factor_nz f a b E) as [Ha Hb]; [lia|].
      destruct (N.eq_dec a 1) as [|Ha1]; [easy|]. exfalso.
      pose proof (pdeg_pmul a b Ha Hb) as D. rewrite E in D.
      assert (La : a < 512).
      { apply N.log2_lt_cancel. change (N.log2 512) with 9. unfold pdeg in *. lia. }
      destruct (trial_complete a) as (p & Hp & Ep); [lia|].
      assert (Hp2 := trial_gt1 p Hp).
      apply pmod_divides in Ep; [|lia]. destruct Ep as [u Eu].
      specialize (H p Hp).
      assert (Du : pdeg p <= pdeg a).
      { rewrite Eu, pdeg_pmul; [lia| |lia]. intros ->. now rewrite pmul_0_l in Eu. }
      assert (Em : pmod f p = 0).
      { apply pmod_divides; [lia|]. exists (pmul b u). rewrite <- E, Eu.
        rewrite (pmul_comm b u), <- !pmul_assoc, (pmul_comm p b). reflexivity. }
      rewrite Em in H. lia. }
    intros a b E. destruct (N.le_ge_cases (pdeg a) (pdeg b)) as [L|L].
    + left. now apply (G a b).
    + right. apply (G b a); [now rewrite pmul_comm|easy].
  - intros [_ Hirr] p Hp. assert (Hp2 := trial_gt1 p Hp).
    destruct (N.ltb_spec (pdeg f) (2 * pdeg p)) as [|L]; [easy|]. cbn [orb].
    destruct (N.eqb_spec (pmod f p) 0) as [E|]; [|easy]. exfalso.
    apply pmod_divides in E; [|lia]. destruct E as [q Eq].
    destruct (factor_nz f q p (eq_sym Eq)) as [Hq _]; [lia|].
    destruct (Hirr q p (eq_sym Eq)) as [-> | ->]; [|lia].
    rewrite pmul_1_l in Eq. subst p. apply pdeg_ge1 in Hf. lia.
Qed.

(** a faster evaluation of [irrb]: degrees of the trial divisors precomputed *)
Fixpoint pmod_fast (p : positive) (f d : N) : N :=
  let r := match p with
           | xH => 1
           | xO p' => N.double (pmod_fast p' f d)
           | xI p' => N.succ_double (pmod_fast p' f d)
           end in
  if N.testbit r d then N.lxor r f else r.
Lemma pmod_fast_eq p f : pmod_fast p f (pdeg f) = pmod_pos p f.
Proof. induction p as [p IH|p IH|]; cbn [pmod_fast pmod_pos]; rewrite ?IH; reflexivity. Qed.
Definition trial_deg : list (N * N) := Eval vm_compute in map (fun p => (p, pdeg p)) trial.
Definition irrb_fast (tr : list (N * N)) (f : N) : bool :=
  match f with
  | 0 => true
  | Npos pf =>
    let d := pdeg f in
    (fix go (l : list (N * N)) : bool :=
       match l with
       | [] => true
       | (p, dp) :: l' =>
           if d <? N.double dp then true       (* trial divisors are sorted by degree *)
           else match pmod_fast pf p dp with 0 => false | _ => go l' end
       end) tr
  end.
Fixpoint sorted_deg (l : list (N * N)) : bool :=
  match l with
  | [] => true
  | (p, dp) :: l' => (dp =? pdeg p) && forallb (fun q => dp <=? snd q) l' && sorted_deg l'
  end.
Lemma irrb_fast_eq f : irrb_fast trial_deg f = irrb f.
Proof.
  unfold irrb, irrb_fast. destruct f as [|pf].
  - symmetry. apply forallb_forall. intros p Hp. apply trial_gt1 in Hp.
    apply pdeg_ge1 in Hp. cbn [pdeg N.log2]. change (N.log2 0) with 0. lia.
  - set (d := pdeg (N.pos pf)).
    assert (Hs : sorted_deg trial_deg = true) by (vm_compute; reflexivity).
    assert (Ht : trial = map fst trial_deg) by (vm_compute; reflexivity).
    rewrite Ht. revert Hs. generalize trial_deg as l. clear.
    induction l as [|[p dp] l IH]; intros Hs; [reflexivity|].
    cbn [sorted_deg] in Hs. apply andb_prop in Hs. destruct Hs as [Hs Hl].
    apply andb_prop in Hs. destruct Hs as [Hp Hle]. cbn [map fst forallb].
    assert (dp = pdeg p) by lia. subst dp.
    replace (2 * pdeg p) with (N.double (pdeg p)) by apply N.double_spec.
    destruct (d <? N.double (pdeg p)) eqn:E.
    + cbn [orb andb]. symmetry. apply forallb_forall. intros q Hq.
      apply in_map_iff in Hq. destruct Hq as ([q' dq] & <- & Hq). cbn [fst].
      assert (Hdq : dq = pdeg q').
      { clear - Hl Hq. induction l as [|[r dr] l IH]; [easy|]. cbn [sorted_deg] in Hl.
        apply andb_prop in Hl. destruct Hl as [Hs Hl].
        apply andb_prop in Hs. destruct Hs as [Hp Hle].
        destruct Hq as [[= -> ->]|Hq]; [lia|now apply IH]. }
      rewrite forallb_forall in Hle. specialize (Hle _ Hq). cbn [snd] in Hle. lia.
    + rewrite pmod_fast_eq. cbn [orb pmod]. destruct (pmod_pos pf p) eqn:E2; [reflexivity|].
      cbn [N.eqb negb andb]. now apply IH.
Qed.

(** the whole table, by computation: the polynomials of degree d passing the test are exactly
    the tail of entry d, in order, and the head is their number *)
Definition table_okb (d : nat) : bool :=
  match nth d irreducible_polynomials [] with
  | [] => false
  | c :: l =>
      (c =? N.of_nat (length l)) &&
      (fix eqb (a b : list N) := match a, b with
        | [], [] => true
        | x :: a', y :: b' => (x =? y) && eqb a' b'
        | _, _ => false end) (filter (irrb_fast trial_deg) (nrange (2 ^ d) (2 ^ N.of_nat d))) l
  end.
Lemma table_ok_all : forallb table_okb (seq 1 16) = true.
Proof. vm_cast_no_check (eq_refl true). Qed.

Theorem irreducible_table_correct d :
  (1 <= d <= 16)%nat ->
  exists l, nth d irreducible_polynomials [] = N.of_nat (length l) :: l /\ NoDup l /\
    forall f, In f l <-> (pdeg f = N.of_nat d /\ irreducible f).
Proof.
  intros Hd.
  pose proof table_ok_all as H. rewrite forallb_forall in H. specialize (H d).
  assert (Hin : In d (seq 1 16)) by (apply in_seq; lia). specialize (H Hin). unfold table_okb in H.
  destruct (nth d irreducible_polynomials []) as [|c l]; [discriminate|].
  apply andb_prop in H. destruct H as [Hc Hl].
  assert (E : filter irrb (nrange (2 ^ d) (2 ^ N.of_nat d)) = l).
  { rewrite <- (filter_ext _ _ irrb_fast_eq). revert Hl. generalize (filter (irrb_fast trial_deg) (nrange (2 ^ d) (2 ^ N.of_nat d))) as a. clear.
    induction l as [|y l IH]; intros [|x a] H; try easy.
    apply andb_prop in H. destruct H as [Hx Ha]. f_equal; [lia|now apply IH]. }
  exists l. split; [f_equal; lia|]. split.
  - rewrite <- E. apply NoDup_filter, nodup_nrange.
  - intros f. rewrite <- E, filter_In, in_nrange, Nnat.Nat2N.inj_pow. change (N.of_nat 2) with 2.
    assert (Hrange : 2 ^ N.of_nat d <= f < 2 ^ N.of_nat d + 2 ^ N.of_nat d <-> 2 <= f /\ pdeg f = N.of_nat d).
    { assert (E2 : 2 ^ N.succ (N.of_nat d) = 2 * 2 ^ N.of_nat d) by apply N.pow_succ_r'.
      assert (2 ^ 1 <= 2 ^ N.of_nat d) by (apply N.pow_le_mono_r; lia). change (2 ^ 1) with 2 in *.
      split.
      - intros Hr. split; [lia|]. apply N.log2_unique; lia.
      - intros [H2 Hl2]. unfold pdeg in Hl2. pose proof (N.log2_spec f ltac:(lia)) as S. rewrite Hl2 in S. lia. }
    rewrite Hrange. split.
    + intros [[H2 Hl2] Hi]. split; [easy|]. apply irrb_spec in Hi; [easy|easy|lia].
    + intros [Hl2 Hi]. assert (2 <= f) by (destruct Hi; lia). split; [easy|]. apply irrb_spec; [easy|lia|easy].
Qed.
