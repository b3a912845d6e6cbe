(** Specification vocabulary, independent of the code of m4rie.

    Polynomials over GF(2) are numbers of type [N]: bit i is the coefficient of X^i.
    Addition is [N.lxor].  This file contains definitions only. *)
From Coq Require Import NArith List.
Import ListNotations.
Local Open Scope N_scope.

(** ** Polynomials over GF(2) *)

(** Carry-less product; [pmul_coeff] in PolyFacts.v proves that coefficient k of
    [pmul a b] is the XOR over i <= k of a_i b_(k-i). *)
Fixpoint pmul_pos (p : positive) (b : N) : N :=
  match p with
  | xH => b
  | xO p' => N.double (pmul_pos p' b)
  | xI p' => N.lxor b (N.double (pmul_pos p' b))
  end.
Definition pmul (a b : N) : N :=
  match a with N0 => 0 | Npos p => pmul_pos p b end.

(** Degree (0 for the zero polynomial). *)
Definition pdeg (a : N) : N := N.log2 a.

(** [r] is the remainder of [a] modulo [f], [q] the quotient. *)
Definition is_divmod (a f q r : N) : Prop :=
  a = N.lxor (pmul q f) r /\ r < 2 ^ pdeg f.

(** Remainder, computed by Horner's rule (PolyFacts.v: [pmod_spec] shows it is the
    unique [r] with [is_divmod a f q r]). *)
Definition pred1 (f r : N) : N := if N.testbit r (pdeg f) then N.lxor r f else r.
Fixpoint pmod_pos (p : positive) (f : N) : N :=
  match p with
  | xH => pred1 f 1
  | xO p' => pred1 f (N.double (pmod_pos p' f))
  | xI p' => pred1 f (N.succ_double (pmod_pos p' f))
  end.
Definition pmod (a f : N) : N := match a with N0 => 0 | Npos p => pmod_pos p f end.

(** A polynomial of positive degree is irreducible when every factorisation is trivial. *)
Definition irreducible (f : N) : Prop :=
  1 < f /\ forall a b, pmul a b = f -> a = 1 \/ b = 1.

(** Powers of a polynomial. *)
Fixpoint ppow (a : N) (n : nat) : N :=
  match n with O => 1 | S n' => pmul a (ppow a n') end.

(** ** The field GF(2)[X]/(f): elements are the numbers below 2^deg f *)

Definition fmul (f a b : N) : N := pmod (pmul a b) f.
Definition inF (f a : N) : Prop := a < 2 ^ pdeg f.

(** ** Matrices over GF(2)[X]/(f), as functions; sums are XOR sums *)

Definition mat := nat -> nat -> N.

Fixpoint xsum (n : nat) (g : nat -> N) : N :=
  match n with O => 0 | S n' => N.lxor (xsum n' g) (g n') end.

Definition madd (A B : mat) : mat := fun i j => N.lxor (A i j) (B i j).
(** product of an m x l by an l x n matrix *)
Definition mmul (f : N) (l : nat) (A B : mat) : mat :=
  fun i j => xsum l (fun k => fmul f (A i k) (B k j)).
Definition mscal (f a : N) (A : mat) : mat := fun i j => fmul f a (A i j).
Definition mone : mat := fun i j => if Nat.eqb i j then 1 else 0.
Definition mzero : mat := fun _ _ => 0.
Definition meq (m n : nat) (A B : mat) : Prop :=
  forall i j, (i < m)%nat -> (j < n)%nat -> A i j = B i j.

(** ** Packed elements: the k-th w-bit field of a word *)
Definition lane (w : nat) (x : N) (k : nat) : N :=
  N.land (N.shiftr x (N.of_nat (w * k))) (N.ones (N.of_nat w)).
