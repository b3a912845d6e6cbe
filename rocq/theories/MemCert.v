(** Every contract of MemSpec.v is accepted by the checker of MemCheck.v, so every function satisfies its contracts. *)
From Coq Require Import String List Bool.
From Verif Require Import MemLang MemCheck MemChecked MemLib MemSpec.
Import ListNotations.
Definition accepted (q : string * list contract) : bool :=
  forallb (fun c => match m4rie (fst q) with Some b => check_fn spec b c | None => false end) (snd q).
Definition all_functions : list (string * list contract) := tidy_functions ++ leaky_functions.
Lemma all_accepted : forallb accepted all_functions = true.
Proof. vm_cast_no_check (eq_refl true). Qed.
Lemma of_function_in f l c : In c (of_function f l) -> exists q, In q l /\ fst q = f /\ In c (snd q).
Proof.
  unfold of_function. intros I. apply in_concat in I. destruct I as [cs [I J]]. apply in_map_iff in I. destruct I as [q [<- I]].
  apply filter_In in I. destruct I as [I E]. apply String.eqb_eq in E. eauto.
Qed.
Lemma spec_in f c : In c (spec f) -> exists q, In q all_functions /\ fst q = f /\ In c (snd q).
Proof.
  unfold spec, all_functions. intros I. apply in_app_or in I. destruct I as [I|I]; destruct (of_function_in _ _ _ I) as [q [J K]]; exists q; split; auto; apply in_or_app; auto.
Qed.
Lemma spec_checked f c : In c (spec f) -> exists b, m4rie f = Some b /\ check_fn spec b c = true.
Proof.
  intros I. destruct (spec_in f c I) as [q [J [E I1]]].
  assert (Z := proj1 (forallb_forall accepted all_functions) all_accepted q J). unfold accepted in Z. rewrite E in Z.
  assert (Y := proj1 (forallb_forall _ _) Z c I1). cbv beta in Y. destruct (m4rie f) as [b|]; [exists b; auto | discriminate].
Qed.
Theorem spec_satisfied f c : In c (spec f) -> satisfies m4rie f c.
Proof. apply (check_sound m4rie spec spec_checked). Qed.
Definition leaves_nothing (q : string * list contract) : bool := forallb (fun c => negb (c_leak c)) (snd q).
Lemma tidy_leave_nothing : forallb leaves_nothing tidy_functions = true.
Proof. vm_cast_no_check (eq_refl true). Qed.
Lemma tidy_leaves_nothing f c : In c (of_function f tidy_functions) -> c_leak c = false.
Proof.
  intros I. destruct (of_function_in _ _ _ I) as [q [J [_ K]]].
  assert (Z := proj1 (forallb_forall leaves_nothing tidy_functions) tidy_leave_nothing q J). unfold leaves_nothing in Z.
  assert (Y := proj1 (forallb_forall _ _) Z c K). apply negb_true_iff in Y. exact Y.
Qed.
