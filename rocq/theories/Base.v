(** Result monad, loops, arrays, and their reasoning rules.  Shared by all model files. *)
From Coq Require Import NArith Lia List Bool Arith.
Import ListNotations.

(** Outcome of running C code: normal return, [m4ri_die] (process exit with a message), or
    undefined behaviour (out-of-bounds access, failed [assert], exhausted fuel of a loop
    whose termination is not structural). *)
Inductive res (A : Type) : Type :=
| Ok (a : A)
| Die
| UB.
Arguments Ok {A} a.
Arguments Die {A}.
Arguments UB {A}.

Definition bind {A B} (m : res A) (k : A -> res B) : res B :=
  match m with Ok a => k a | Die => Die | UB => UB end.
Notation "x <- m ;; k" := (bind m (fun x => k)) (at level 61, m at next level, right associativity).
Notation "' p <- m ;; k" := (bind m (fun x => match x with p => k end))
  (at level 61, p pattern, m at next level, right associativity).

(** [guard b] is undefined behaviour unless [b]; [check b] dies unless [b]. *)
Definition guard (b : bool) : res unit := if b then Ok tt else UB.
Definition check (b : bool) : res unit := if b then Ok tt else Die.

(** [for (i = lo; i < hi; i++) s = body i s] *)
Fixpoint forloop {S} (n : nat) (i : nat) (body : nat -> S -> res S) (s : S) : res S :=
  match n with
  | O => Ok s
  | Datatypes.S n' => bind (body i s) (forloop n' (Datatypes.S i) body)
  end.
Definition for_ {S} (lo hi : nat) (body : nat -> S -> res S) (s : S) : res S :=
  forloop (hi - lo) lo body s.

(** [for (i = hi-1; i >= lo; i--) s = body i s] *)
Fixpoint fordown {S} (n : nat) (lo : nat) (body : nat -> S -> res S) (s : S) : res S :=
  match n with
  | O => Ok s
  | Datatypes.S n' => bind (body (lo + n') s) (fordown n' lo body)
  end.
Definition for_down {S} (lo hi : nat) (body : nat -> S -> res S) (s : S) : res S :=
  fordown (hi - lo) lo body s.

(** arrays *)
Fixpoint upd {A} (l : list A) (i : nat) (x : A) : list A :=
  match l, i with
  | [], _ => []
  | _ :: t, O => x :: t
  | h :: t, S i' => h :: upd t i' x
  end.
Definition lget {A} (l : list A) (i : nat) : res A :=
  match nth_error l i with Some x => Ok x | None => UB end.
Definition lset {A} (l : list A) (i : nat) (x : A) : res (list A) :=
  if i <? length l then Ok (upd l i x) else UB.

(** ** Reasoning *)
Definition wp {A} (m : res A) (P : A -> Prop) : Prop :=
  match m with Ok a => P a | _ => False end.

Lemma wp_iff {A} (m : res A) P : wp m P <-> exists a, m = Ok a /\ P a.
Proof.
  split.
  - destruct m; cbn; try easy. eauto.
  - now intros (a & -> & H).
Qed.
Lemma wp_ok {A} (a : A) (P : A -> Prop) : P a -> wp (Ok a) P.
Proof. easy. Qed.
Lemma wp_bind {A B} (m : res A) (k : A -> res B) P :
  wp m (fun a => wp (k a) P) -> wp (bind m k) P.
Proof. destruct m; cbn; easy. Qed.
Lemma wp_mono {A} (m : res A) (P Q : A -> Prop) :
  wp m P -> (forall a, P a -> Q a) -> wp m Q.
Proof. destruct m; cbn; auto. Qed.
Lemma wp_conj {A} (m : res A) (P Q : A -> Prop) : wp m P -> wp m Q -> wp m (fun a => P a /\ Q a).
Proof. destruct m; cbn; auto. Qed.
Lemma wp_guard (b : bool) (P : unit -> Prop) : b = true -> P tt -> wp (guard b) P.
Proof. intros ->. easy. Qed.
Lemma wp_check (b : bool) (P : unit -> Prop) : b = true -> P tt -> wp (check b) P.
Proof. intros ->. easy. Qed.

Lemma wp_forloop {S} (Inv : nat -> S -> Prop) n i body (s : S) :
  Inv i s ->
  (forall j t, i <= j < i + n -> Inv j t -> wp (body j t) (Inv (Datatypes.S j))) ->
  wp (forloop n i body s) (Inv (i + n)).
Proof.
  revert i s. induction n as [|n IH]; intros i s H0 Hs.
  - cbn. now rewrite Nat.add_0_r.
  - cbn [forloop]. apply wp_bind. eapply wp_mono.
    + apply Hs; [lia|exact H0].
    + cbn. intros t Ht. replace (i + Datatypes.S n) with (Datatypes.S i + n) by lia.
      apply IH; [exact Ht|]. intros j u Hj Hu. apply Hs; [lia|exact Hu].
Qed.

Lemma wp_for {S} (Inv : nat -> S -> Prop) lo hi body (s : S) :
  lo <= hi ->
  Inv lo s ->
  (forall j t, lo <= j < hi -> Inv j t -> wp (body j t) (Inv (Datatypes.S j))) ->
  wp (for_ lo hi body s) (Inv hi).
Proof.
  intros Hle H0 Hs. unfold for_. replace hi with (lo + (hi - lo)) at 2 by lia.
  apply wp_forloop; [exact H0|]. intros j t Hj. apply Hs. lia.
Qed.

Lemma for_ge {S} lo hi body (s : S) : hi <= lo -> for_ lo hi body s = Ok s.
Proof. intros H. unfold for_. now replace (hi - lo) with 0 by lia. Qed.

Lemma wp_fordown {S} (Inv : nat -> S -> Prop) n lo body (s : S) :
  Inv (lo + n) s ->
  (forall j t, lo <= j < lo + n -> Inv (Datatypes.S j) t -> wp (body j t) (Inv j)) ->
  wp (fordown n lo body s) (Inv lo).
Proof.
  revert s. induction n as [|n IH]; intros s H0 Hs.
  - cbn. now rewrite Nat.add_0_r in H0.
  - cbn [fordown]. apply wp_bind. eapply wp_mono.
    + apply Hs; [lia|]. now replace (Datatypes.S (lo + n)) with (lo + Datatypes.S n) by lia.
    + cbn. intros t Ht. apply IH; [exact Ht|]. intros j u Hj Hu. apply Hs; [lia|exact Hu].
Qed.

Lemma wp_for_down {S} (Inv : nat -> S -> Prop) lo hi body (s : S) :
  lo <= hi ->
  Inv hi s ->
  (forall j t, lo <= j < hi -> Inv (Datatypes.S j) t -> wp (body j t) (Inv j)) ->
  wp (for_down lo hi body s) (Inv lo).
Proof.
  intros Hle H0 Hs. unfold for_down. apply wp_fordown.
  - now replace (lo + (hi - lo)) with hi by lia.
  - intros j t Hj. apply Hs. lia.
Qed.

(** arrays *)
Lemma upd_length {A} (l : list A) i x : length (upd l i x) = length l.
Proof. revert i; induction l; intros [|i]; cbn; auto. Qed.
Lemma nth_upd_eq {A} (l : list A) i x d : i < length l -> nth i (upd l i x) d = x.
Proof. revert i; induction l; intros [|i]; cbn; intros; try lia; auto. apply IHl; lia. Qed.
Lemma nth_upd_ne {A} (l : list A) i j x d : i <> j -> nth j (upd l i x) d = nth j l d.
Proof. revert i j; induction l; intros [|i] [|j]; cbn; intros; try lia; auto. Qed.
Lemma nth_upd {A} (l : list A) i j x d :
  i < length l -> nth j (upd l i x) d = if Nat.eqb i j then x else nth j l d.
Proof.
  intros H. destruct (Nat.eqb_spec i j) as [->|Hne]; [now apply nth_upd_eq|now apply nth_upd_ne].
Qed.
Lemma lget_ok {A} (l : list A) i d : i < length l -> lget l i = Ok (nth i l d).
Proof. intros H. unfold lget. now rewrite (nth_error_nth' l d H). Qed.
Lemma lset_ok {A} (l : list A) i x : i < length l -> lset l i x = Ok (upd l i x).
Proof. intros H. unfold lset. now rewrite (proj2 (Nat.ltb_lt _ _) H). Qed.
Lemma Forall_upd {A} (P : A -> Prop) l i x : Forall P l -> P x -> Forall P (upd l i x).
Proof.
  intros H Hx. revert i; induction H; intros [|i]; cbn; constructor; auto.
Qed.
