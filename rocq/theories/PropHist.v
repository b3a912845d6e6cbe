(** Property theorem C58: client programs.  The calls, their meaning and their contracts are in HistSpec.v; the
    execution by the modelled functions in HistModel.v. *)
From Coq Require Import NArith ZArith Lia List Bool Arith.
From Coq Require Import ZifyBool ZifyNat ZifyN.
From Verif Require Import Base Spec PolyFacts Gf2xModel Gf2eModel Gf2eProofs IrrProofs MzdModel MzedModel MzedSpec LinSpec TrsmSpec SliceModel SliceSpec.
From Verif Require Import BlmSpec BlmModel BlmOracle HistSpec HistModel HistProofs Demo PropMzed PropSlice.
Import ListNotations.
Local Open Scope nat_scope.

(** Every program that keeps to the contracts runs without error, and its answers and the matrices it leaves
    behind are those of the mathematical meaning, for every length of the program, every field, every mixture of
    representations and algorithms, every block size of M4RI. *)
Theorem C58_history : forall f cf p, config_ok f cf -> legal f [] [] p ->
  exists S os st, run cf [] p = Ok (S, os) /\ effects f [] (map fst p) st os /\ Forall2 (stands f) S st.
Proof. intros f cf p CF L. apply (run_ok f cf CF p [] [] []); [split; [reflexivity|constructor]|exact L]. Qed.
Print Assumptions C58_history.

(** one call in the middle of a history: every matrix other than the target is untouched *)
Theorem C58_step : forall f cf ks st S c ch, config_ok f cf -> rel f ks st S -> allowed f ks st c ch ->
  exists S' o st', run_cmd cf S c ch = Ok (S', o) /\ effect f st c st' o /\ rel f (kinds ks c ch) st' S'.
Proof. intros f cf ks st S c ch CF R H. exact (step_ok f cf CF ks st S R c ch H). Qed.
Print Assumptions C58_step.

(** Two programs that make the same calls with different representations and algorithms, on differently configured
    machines, give the same answers and leave the same matrices behind. *)
Theorem C58_choices_invisible : forall f cf cf' p p', config_ok f cf -> config_ok f cf' -> map fst p = map fst p' ->
  Forall determined (map fst p) -> legal f [] [] p -> legal f [] [] p' ->
  exists S S' os st, run cf [] p = Ok (S, os) /\ run cf' [] p' = Ok (S', os) /\ Forall2 (stands f) S st /\ Forall2 (stands f) S' st.
Proof.
  intros f cf cf' p p' CF CF' E D L L'.
  apply (run_same f cf cf' CF CF' p p' [] [] [] [] [] E D); auto; (split; [reflexivity|constructor]).
Qed.
Print Assumptions C58_choices_invisible.

(** the programs that follow make the same calls *)
Definition calls : list cmd :=
  [New 2 2; SetElem 0 0 0 2%N; SetElem 0 0 1 1%N; SetElem 0 1 1 3%N; New 2 3; SetDiag 1 2%N; SetElem 1 0 2 3%N;
   Mul None 0 1; AddMul 2 0 1; IsZero 2; Mul (Some 2) 0 1; RowSwap 2 0 1; Echelon true 2; Read 2 0 0; Read 2 0 2; SolveUpper 0 1; Equal 1 2].
Definition prog1 : program := combine calls
  [As Packed; Default; Default; Default; As Packed; Default; Default;
   NewtonJohn; Naive; Default; Strassen 128; Default; Naive; Default; Default; NewtonJohn; Default].
Definition prog2 : program := combine calls
  [As Sliced; Default; Default; Default; As Sliced; Default; Default;
   Bilinear; Naive; Default; Karatsuba; Default; ByPle; Default; Default; Default; Default].
Definition cf1 (ff : gf2e) : config := Config ff 2048 262144 3 x0.
Definition cf2 (ff : gf2e) : config := Config ff 16 4096 0 x0.

(** contracts can be met: for every field there are clients *)
Lemma C58_configs_exist f : (2 <= pdeg f <= 16)%N -> irreducible f ->
  exists ff, gf2e_init f = Ok ff /\ config_ok f (cf1 ff) /\ config_ok f (cf2 ff).
Proof.
  intros Hf Hi. destruct (proj1 (wp_iff _ _) (gf2e_init_wf f ltac:(lia))) as (ff & E & Em & Ed & W). exists ff. split; [exact E|].
  split; (split; [exact W|]; split; [exact Em|]; split; [cbn [cf_ff cf1 cf2]; lia|]; split; [exact Hi|]; cbn; split; [lia|]; split; [lia|]; split; [lia|exact x0_ok]).
Qed.

(** proof of legality of concrete programs *)
Ltac has := split; reflexivity.
Ltac side := repeat match goal with |- _ /\ _ => split end; cbn; auto; try lia; try reflexivity; try discriminate.
Ltac one := split; [reflexivity|]; eexists _, _; split; [has|]; side.
Ltac two := eexists _, _, _; split; [has|]; split; [has|]; split; [reflexivity|]; split; [|unfold accumulate_ok, product_ok; side].
Lemma legal_step f ks st c ch p : allowed f ks st c ch -> (forall st' o, effect f st c st' o -> legal f (kinds ks c ch) st' p) -> legal f ks st ((c, ch) :: p).
Proof. intros H1 H2. exact (conj H1 H2). Qed.
Ltac next := let st' := fresh "st" in let o := fresh "o" in let H := fresh "H" in
   intros st' o H; unfold effect, changes in H;
   repeat match goal with H : exists _, _ |- _ => destruct H | H : _ /\ _ |- _ => destruct H end;
   repeat match goal with H : nth_error _ _ = Some _ |- _ => cbn [nth_error] in H; injection H as <- end; subst;
   cbn [kinds new_kind nth_error app put firstn skipn store].
Ltac to_third := eexists; split; [has|]; split; [reflexivity|]; split; [reflexivity|]; cbn; intuition discriminate.
Lemma C58_legal1 : legal 7 [] [] prog1.
Proof.
  unfold prog1, calls. cbn [combine].
  apply legal_step; [eexists; reflexivity|next].
  apply legal_step; [one|next].
  apply legal_step; [one|next].
  apply legal_step; [one|next].
  apply legal_step; [eexists; reflexivity|next].
  apply legal_step; [split; [reflexivity|]; split; [reflexivity|]; eexists _, _; has|next].
  apply legal_step; [one|next].
  apply legal_step; [two; exact Logic.I|next].
  apply legal_step; [two; to_third|next].
  apply legal_step; [split; [reflexivity|]; eexists _, _; has|next].
  apply legal_step; [two; to_third|next].
  apply legal_step; [one|next].
  apply legal_step; [eexists _, _; split; [has|]; exact Logic.I|next].
  apply legal_step; [one|next].
  apply legal_step; [one|next].
  apply legal_step; [|next].
  { split; [right; right; reflexivity|]. split; [discriminate|]. eexists _, _, _. split; [has|]. split; [has|].
    split; [reflexivity|]. split; [reflexivity|]. split; [cbn; lia|]. intros [|[|i]] Hi; cbn in *; [discriminate|discriminate|lia]. }
  apply legal_step; [|exact (fun _ _ _ => Logic.I)]. split; [reflexivity|]. eexists _, _, _. split; has.
Qed.
Lemma C58_legal2 : legal 7 [] [] prog2.
Proof.
  unfold prog2, calls. cbn [combine].
  apply legal_step; [eexists; reflexivity|next].
  apply legal_step; [one|next].
  apply legal_step; [one|next].
  apply legal_step; [one|next].
  apply legal_step; [eexists; reflexivity|next].
  apply legal_step; [split; [reflexivity|]; split; [reflexivity|]; eexists _, _; has|next].
  apply legal_step; [one|next].
  apply legal_step; [two; exact Logic.I|next].
  apply legal_step; [two; to_third|next].
  apply legal_step; [split; [reflexivity|]; eexists _, _; has|next].
  apply legal_step; [two; to_third|next].
  apply legal_step; [one|next].
  apply legal_step; [eexists _, _; split; [has|]; exact Logic.I|next].
  apply legal_step; [one|next].
  apply legal_step; [one|next].
  apply legal_step; [|next].
  { split; [left; reflexivity|]. split; [discriminate|]. eexists _, _, _. split; [has|]. split; [has|].
    split; [reflexivity|]. split; [reflexivity|]. split; [cbn; lia|]. intros [|[|i]] Hi; cbn in *; [discriminate|discriminate|lia]. }
  apply legal_step; [|exact (fun _ _ _ => Logic.I)]. split; [reflexivity|]. eexists _, _, _. split; has.
Qed.
Lemma C58_determined : Forall determined calls.
Proof. unfold calls. repeat constructor. Qed.
(** so the theorems apply to both programs; what they answer: *)
Example C58_witness : forall n : nat, (n = 1 \/ n = 2) ->
  (ff <- gf2e_init 7 ;; '(_, os) <- run (if n =? 1 then cf1 ff else cf2 ff) [] (if n =? 1 then prog1 else prog2) ;; Ok os) =
  Ok [Nothing; Nothing; Nothing; Nothing; Nothing; Nothing; Nothing; Nothing; Nothing; Answer true; Nothing; Nothing; Rank 2; Elem 1%N; Elem 2%N; Nothing; Answer false].
Proof. intros n [-> | ->]; vm_compute; reflexivity. Qed.
