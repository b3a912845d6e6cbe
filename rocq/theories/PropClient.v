(** Property theorem C68: clients that decide what to call next by what was answered before (rank, permutations,
    elements, ...).  Calls, meaning and contracts are in HistSpec.v; the execution by the modelled functions in
    HistModel.v. *)
From Coq Require Import NArith ZArith Lia List Bool Arith.
From Coq Require Import ZifyBool ZifyNat ZifyN.
From Verif Require Import Base Spec PolyFacts Gf2xModel Gf2eModel Gf2eProofs IrrProofs MzdModel MzedModel MzedSpec LinSpec TrsmSpec PleSpec SliceModel SliceSpec.
From Verif Require Import BlmSpec BlmModel BlmOracle HistSpec HistModel HistProofs Demo PropMzed PropSlice PropHist.
Import ListNotations.
Local Open Scope nat_scope.

(** Every client that keeps to the contracts is served without error, and calls, answers and the matrices it leaves
    behind are one course the mathematical meaning allows. *)
Theorem C68_clients : forall f cf t, config_ok f cf -> careful f [] [] t ->
  exists S tr st, serve cf [] t = Ok (S, tr) /\ course f [] t tr st /\ Forall2 (stands f) S st.
Proof. intros f cf t CF L. apply (serve_ok f cf CF t [] [] []); [split; [reflexivity|constructor]|exact L]. Qed.
Print Assumptions C68_clients.

(** Two clients that make the same calls as long as they get the same answers, whatever representations and algorithms
    they choose and on whatever machine they run, do get the same answers and end with the same matrices. *)
Theorem C68_choices_invisible : forall f cf cf' t t', config_ok f cf -> config_ok f cf' -> alike t t' -> all_determined t ->
  careful f [] [] t -> careful f [] [] t' ->
  exists S S' tr st, serve cf [] t = Ok (S, tr) /\ serve cf' [] t' = Ok (S', tr) /\
    course f [] t tr st /\ Forall2 (stands f) S st /\ Forall2 (stands f) S' st.
Proof.
  intros f cf cf' t t' CF CF' E D L L'.
  apply (serve_same f cf cf' CF CF' t t' [] [] [] [] [] E D); auto; (split; [reflexivity|constructor]).
Qed.
Print Assumptions C68_choices_invisible.

(** A client: it decomposes a matrix, permutes a copy of it with the permutation it got back, and depending on the entry
    that comes to the top left looks for zero rows or overwrites the matrix. *)
Definition demo_client (ch : choice) : client :=
  Call (New 3 3) (As Packed) (fun _ =>
  Call (SetElem 0 1 0 2%N) Default (fun _ =>
  Call (SetElem 0 0 1 3%N) Default (fun _ =>
  Call (Copy None 0) Default (fun _ =>
  Call (Ple 0) ch (fun o =>
  match o with
  | Factors P Q r =>
      Call (PermRows false 1 P) Default (fun _ =>
      Call (Read 1 0 0) Default (fun o =>
      match o with
      | Elem 0%N => Call (SetDiag 1 1%N) Default (fun _ => Stop)
      | _ => Call (FirstZeroRow 1) Default (fun _ => Stop)
      end))
  | _ => Stop
  end))))).
Lemma demo_client_careful ch : ch = Default \/ ch = Naive \/ ch = NewtonJohn -> careful 7 [] [] (demo_client ch).
Proof.
  intros Hch. unfold demo_client. cbn [careful].
  split; [eexists; reflexivity|next].
  split; [one|next].
  split; [one|next].
  split; [eexists _, _; split; [has|]; left; split; [reflexivity|exact Logic.I]|next].
  split; [eexists _, _; split; [has|exact Hch]|next].
  match goal with K : is_ple _ _ _ _ _ _ _ _ |- _ => destruct K as (_ & _ & V & _) end.
  cbn [careful]. split.
  { split; [reflexivity|]. eexists _, _. split; [has|]. cbn [a_m tab]. intros i Hi. destruct (V i ltac:(cbn [a_m tab]; lia)) as [_ V']. exact V'. }
  next. split; [one|next].
  match goal with |- context [match ?v with 0%N => _ | Npos _ => _ end] => destruct v end; cbn [careful].
  - split; [split; [reflexivity|]; split; [reflexivity|]; eexists _, _; has|]. intros; exact Logic.I.
  - split; [split; [reflexivity|]; eexists; has|]. intros; exact Logic.I.
Qed.
Example C68_witness : forall ch, In ch [Default; Naive; NewtonJohn] ->
  (ff <- gf2e_init 7 ;; '(_, tr) <- serve (cf1 ff) [] (demo_client ch) ;; Ok (map snd tr)) =
  Ok [Nothing; Nothing; Nothing; Nothing; Factors [1; 1; 2] [0; 1; 2] 2; Nothing; Elem 2%N; Index 2].
Proof. intros ch [<-|[<-|[<-|[]]]]; vm_compute; reflexivity. Qed.

(** the second theorem, too, has non-trivial cases: the same client with packed and with bit-sliced matrices *)
Definition rank_client (k : kind) (ch : choice) : client :=
  Call (New 2 2) (As k) (fun _ =>
  Call (SetElem 0 1 0 2%N) Default (fun _ =>
  Call (SetElem 0 1 1 3%N) Default (fun _ =>
  Call (Echelon true 0) ch (fun o =>
  match o with
  | Rank (S (S _)) => Call (IsZero 0) Default (fun _ => Stop)
  | _ => Call (Read 0 0 1) Default (fun o => match o with Elem v => Call (SetElem 0 0 0 1%N) Default (fun _ => Stop) | _ => Stop end)
  end)))).
Lemma rank_client_careful k ch : (k = Packed /\ ch = Naive) \/ (k = Sliced /\ ch = Default) -> careful 7 [] [] (rank_client k ch).
Proof.
  intros Hch. unfold rank_client. cbn [careful].
  split; [eexists; reflexivity|next].
  split; [one|next].
  split; [one|next].
  split; [eexists _, _; split; [has|]; destruct Hch as [[-> ->]|[-> ->]]; exact Logic.I|next].
  match goal with |- context [match ?r with 0 => _ | S _ => _ end] => destruct r as [|[|r]] end; cbn [careful].
  - split; [one|next]. split; [one|]. intros; exact Logic.I.
  - split; [one|next]. split; [one|]. intros; exact Logic.I.
  - split; [split; [reflexivity|]; eexists _, _; has|]. intros; exact Logic.I.
Qed.
Lemma rank_client_determined k ch : all_determined (rank_client k ch).
Proof.
  cbn. do 4 (split; [exact Logic.I || reflexivity|intros ?]).
  match goal with |- context [match ?o with Nothing => _ | _ => _ end] => destruct o as [| | |[|[|r]]| |] end; cbn; (split; [exact Logic.I|intros o']); try exact Logic.I; destruct o'; cbn; auto.
Qed.
Lemma rank_client_alike : alike (rank_client Packed Naive) (rank_client Sliced Default).
Proof.
  cbn. do 4 (split; [reflexivity|intros ?]).
  match goal with |- context [match ?o with Nothing => _ | _ => _ end] => destruct o as [| | |[|[|r]]| |] end; cbn; (split; [reflexivity|intros o']); try exact Logic.I; destruct o'; cbn; auto.
Qed.
Example C68_witness_alike :
  (ff <- gf2e_init 7 ;; '(_, tr) <- serve (cf1 ff) [] (rank_client Packed Naive) ;; '(_, tr') <- serve (cf2 ff) [] (rank_client Sliced Default) ;; Ok (map snd tr, map snd tr')) =
  (let a := [Nothing; Nothing; Nothing; Rank 1; Elem 2%N; Nothing] in Ok (a, a)).
Proof. vm_compute. reflexivity. Qed.
