(** Specification of client programs: sequences of library calls on a growing collection of matrices over one
    field GF(2)[X]/(f).  This file does not mention the model of the code.

    A client holds matrices, numbered 0, 1, 2, ... in the order of their creation.  [cmd] says what a call is
    supposed to do; how it is done (representation of the matrices, algorithm) is a separate [choice].  [effect]
    gives the mathematical meaning of a call, on plain tables of field elements; it does not see the choice.
    [allowed] is the contract of the call: what the caller has to make sure of. *)
From Coq Require Import NArith ZArith List Bool Arith.
From Verif Require Import Spec LinSpec TrsmSpec PleSpec.
Import ListNotations.
Local Open Scope nat_scope.

(** a matrix: dimensions and the table of its rows *)
Record amat := AM { a_m : nat; a_n : nat; a_rows : list (list N) }.
Definition val (A : amat) : mat := fun i j => nth j (nth i (a_rows A) []) 0%N.
Definition tab (m n : nat) (F : mat) : amat := AM m n (map (fun i => map (F i) (seq 0 n)) (seq 0 m)).

(** the calls; t : option nat is the place of the result, an existing matrix or (None, a NULL argument) a new one *)
Inductive cmd :=
| New (m n : nat)
| SetElem (x i j : nat) (v : N)
| AddElem (x i j : nat) (v : N)
| SetDiag (x : nat) (v : N)
| RowSwap (x a b : nat)
| ColSwap (x a b : nat)
| RowAdd (x s d : nat)
| RowAddMul (x i y j : nat) (v : N) (s : nat)
| RowScale (x i s : nat) (v : N)
| RowCopy (x i y j : nat)
| Copy (t : option nat) (x : nat)
| Add (t : option nat) (x y : nat)
| Scale (t : option nat) (v : N) (x : nat)
| Concat (t : option nat) (x y : nat)
| Stack (t : option nat) (x y : nat)
| Sub (t : option nat) (x lr lc hr hc : nat)
| Mul (t : option nat) (x y : nat)
| AddMul (t x y : nat)
| Invert (t : option nat) (x : nat)
| SolveLower (x b : nat)
| SolveUpper (x b : nat)
| Echelon (full : bool) (x : nat)
| Ple (x : nat)
| Pluq (x : nat)
| PermRows (trans : bool) (x : nat) (P : list nat)
| PermCols (trans : bool) (x : nat) (P : list nat)
| Randomize (x : nat)
| Read (x i j : nat)
| IsZero (x : nat)
| FirstZeroRow (x : nat)
| Equal (x y : nat).

(** what a call returns besides matrices *)
Inductive out := Nothing | Elem (v : N) | Answer (b : bool) | Rank (r : nat) | Index (i : nat) | Factors (P Q : list nat) (r : nat).

Inductive kind := Packed | Sliced.
(** how: for New the representation; for Copy, Convert changes the representation; for Randomize the values the random
    source delivers for the elements; else the algorithm *)
Inductive choice :=
| As (k : kind) | Convert
| Random (rnd : nat -> nat -> N)
| Default | Naive | NewtonJohn | Strassen (cutoff : Z) | Karatsuba | Bilinear | ByPle.

Definition put {X} (l : list X) (x : nat) (v : X) : list X := firstn x l ++ v :: skipn (S x) l.
(** the result of a call with target t *)
Definition store {X} (l : list X) (t : option nat) (v : X) : list X :=
  match t with None => l ++ [v] | Some x => put l x v end.

Definition swapped (a b i : nat) : nat := if i =? a then b else if i =? b then a else i.

(** meaning of the calls *)
Definition changes (st : list amat) (x : nat) (F : mat -> mat) (st' : list amat) (o : out) : Prop :=
  exists A, nth_error st x = Some A /\ st' = put st x (tab (a_m A) (a_n A) (F (val A))) /\ o = Nothing.
Definition effect (f : N) (st : list amat) (c : cmd) (st' : list amat) (o : out) : Prop :=
  match c with
  | New m n => st' = st ++ [tab m n mzero] /\ o = Nothing
  | SetElem x i j v => changes st x (fun A a b => if (a =? i) && (b =? j) then v else A a b) st' o
  | AddElem x i j v => changes st x (fun A a b => if (a =? i) && (b =? j) then N.lxor (A a b) v else A a b) st' o
  | SetDiag x v => changes st x (fun _ a b => if a =? b then v else 0%N) st' o
  | RowSwap x a b => changes st x (fun A i j => A (swapped a b i) j) st' o
  | ColSwap x a b => changes st x (fun A i j => A i (swapped a b j)) st' o
  | RowAdd x s d => changes st x (fun A i j => if i =? d then N.lxor (A d j) (A s j) else A i j) st' o
  | RowAddMul x i y j v s =>
      exists B, nth_error st y = Some B /\
      changes st x (fun A a b => if (a =? i) && (s <=? b) then N.lxor (A a b) (fmul f v (val B j b)) else A a b) st' o
  | RowScale x i s v => changes st x (fun A a b => if (a =? i) && (s <=? b) then fmul f v (A a b) else A a b) st' o
  | RowCopy x i y j =>
      exists B, nth_error st y = Some B /\
      changes st x (fun A a b => if (a =? i) && (b <? a_n B) then val B j b else A a b) st' o
  | Copy t x => exists A, nth_error st x = Some A /\ st' = store st t (tab (a_m A) (a_n A) (val A)) /\ o = Nothing
  | Add t x y => exists A B, nth_error st x = Some A /\ nth_error st y = Some B /\
      st' = store st t (tab (a_m A) (a_n A) (madd (val A) (val B))) /\ o = Nothing
  | Scale t v x => exists A, nth_error st x = Some A /\
      st' = store st t (tab (a_m A) (a_n A) (mscal f v (val A))) /\ o = Nothing
  | Concat t x y => exists A B, nth_error st x = Some A /\ nth_error st y = Some B /\
      st' = store st t (tab (a_m A) (a_n A + a_n B) (fun i j => if j <? a_n A then val A i j else val B i (j - a_n A))) /\ o = Nothing
  | Stack t x y => exists A B, nth_error st x = Some A /\ nth_error st y = Some B /\
      st' = store st t (tab (a_m A + a_m B) (a_n A) (fun i j => if i <? a_m A then val A i j else val B (i - a_m A) j)) /\ o = Nothing
  | Sub t x lr lc hr hc => exists A, nth_error st x = Some A /\
      st' = store st t (tab (hr - lr) (hc - lc) (fun i j => val A (lr + i) (lc + j))) /\ o = Nothing
  | Mul t x y => exists A B, nth_error st x = Some A /\ nth_error st y = Some B /\
      st' = store st t (tab (a_m A) (a_n B) (mmul f (a_n A) (val A) (val B))) /\ o = Nothing
  | AddMul t x y => exists A B, nth_error st x = Some A /\ nth_error st y = Some B /\
      changes st t (fun C => madd C (mmul f (a_n A) (val A) (val B))) st' o
  | Invert t x => exists A V, nth_error st x = Some A /\ inverse f (a_m A) (val A) V /\
      st' = store st t (tab (a_m A) (a_m A) V) /\ o = Nothing
  | SolveLower x b => exists A B X, nth_error st x = Some A /\ nth_error st b = Some B /\
      the_solution f (a_m B) (a_n B) (tril (val A)) X (val B) /\ st' = put st b (tab (a_m B) (a_n B) X) /\ o = Nothing
  | SolveUpper x b => exists A B X, nth_error st x = Some A /\ nth_error st b = Some B /\
      the_solution f (a_m B) (a_n B) (triu (val A)) X (val B) /\ st' = put st b (tab (a_m B) (a_n B) X) /\ o = Nothing
  | Echelon full x => exists A E r piv, nth_error st x = Some A /\ inM f (a_m A) (a_n A) E /\
      row_equiv f (a_m A) (a_n A) (val A) E /\ echelon (a_m A) (a_n A) r piv E /\ (full = true -> reduced (a_m A) r piv E) /\
      is_rank f (a_m A) (a_n A) (val A) r /\ st' = put st x (tab (a_m A) (a_n A) E) /\ o = Rank r
  | Ple x => exists A D P Q r, nth_error st x = Some A /\ inM f (a_m A) (a_n A) D /\ length P = a_m A /\ length Q = a_n A /\
      is_ple f (a_m A) (a_n A) (val A) D (at_ P) (at_ Q) r /\ is_rank f (a_m A) (a_n A) (val A) r /\
      st' = put st x (tab (a_m A) (a_n A) D) /\ o = Factors P Q r
  | Pluq x => exists A D P Q r, nth_error st x = Some A /\ inM f (a_m A) (a_n A) D /\ length P = a_m A /\ length Q = a_n A /\
      is_pluq f (a_m A) (a_n A) (val A) D (at_ P) (at_ Q) r /\ is_rank f (a_m A) (a_n A) (val A) r /\
      st' = put st x (tab (a_m A) (a_n A) D) /\ o = Factors P Q r
  | PermRows trans x P => exists A, nth_error st x = Some A /\
      let n := Nat.min (length P) (a_m A) in
      changes st x (fun A i j => A ((if trans then unswaps else swaps) (at_ P) n i) j) st' o
  | PermCols trans x P => exists A, nth_error st x = Some A /\
      let n := Nat.min (length P) (a_n A) in
      changes st x (fun A i j => A i ((if trans then swaps else unswaps) (at_ P) n j)) st' o
  | Randomize x => exists A R, nth_error st x = Some A /\ inM f (a_m A) (a_n A) R /\ st' = put st x (tab (a_m A) (a_n A) R) /\ o = Nothing
  | FirstZeroRow x => exists A r, nth_error st x = Some A /\ st' = st /\ o = Index r /\ r <= a_m A /\
      (forall i j, r <= i < a_m A -> j < a_n A -> val A i j = 0%N) /\
      (0 < r -> exists j, j < a_n A /\ val A (r - 1) j <> 0%N)
  | Read x i j => exists A, nth_error st x = Some A /\ st' = st /\ o = Elem (val A i j)
  | IsZero x => exists A b, nth_error st x = Some A /\ st' = st /\ o = Answer b /\
      (b = true <-> meq (a_m A) (a_n A) (val A) mzero)
  | Equal x y => exists A B b, nth_error st x = Some A /\ nth_error st y = Some B /\ st' = st /\ o = Answer b /\
      (b = true <-> a_m A = a_m B /\ a_n A = a_n B /\ meq (a_m A) (a_n A) (val A) (val B))
  end.

(** ** Contracts *)

(** bits an element of a degree-d field occupies in a packed matrix *)
Definition slot (d : nat) : nat := if d <=? 2 then 2 else if d <=? 4 then 4 else if d <=? 8 then 8 else 16.

Section Contracts.
(** degree of the field, representations and contents of the matrices *)
Variables (f : N) (ks : list kind) (st : list amat).
Definition deg : nat := N.to_nat (pdeg f).

(** matrix x exists, with representation k and contents A *)
Definition has (x : nat) (k : kind) (A : amat) : Prop := nth_error ks x = Some k /\ nth_error st x = Some A.
(** t may receive a k-represented m x n result computed from the matrices xs *)
Definition fits (t : option nat) (k : kind) (m n : nat) (xs : list nat) : Prop :=
  match t with
  | None => True
  | Some x => exists T, has x k T /\ a_m T = m /\ a_n T = n /\ ~ In x xs
  end.

Definition product_ok (k : kind) (ch : choice) (n : nat) : Prop :=
  match k, ch with
  | Packed, Naive => True
  | Packed, Karatsuba => True
  | Packed, Bilinear => True
  | Packed, NewtonJohn => 0 < n
  | Packed, Default => 0 < n
  | Packed, Strassen cutoff => 0 < n /\ (3 * Z.of_nat (64 / slot deg) <= 2 * cutoff)%Z
  | Sliced, Default => True
  | Sliced, Karatsuba => True
  | Sliced, Bilinear => True
  | _, _ => False
  end.
(** the products that the code offers as "C += A*B" *)
Definition accumulate_ok (k : kind) (ch : choice) (n : nat) : Prop :=
  product_ok k ch n \/ (k = Sliced /\ ch = Naive).
Definition scale_ok (k : kind) (m n : nat) : Prop :=
  match k with
  | Sliced => True
  | Packed => (0 < n \/ m = 0) /\
      (deg <= 8 -> (N.of_nat m * N.of_nat n < 2 ^ 31)%N) /\
      (deg <= 8 -> (2 ^ 17 <= N.of_nat m * N.of_nat n)%N -> deg = 2 \/ deg = 4 \/ deg = 8)
  end.
Definition echelon_ok (k : kind) (ch : choice) (m n : nat) : Prop :=
  match k, ch with
  | Packed, Default => deg <= m -> (Z.of_nat m * Z.of_nat n * Z.of_nat (slot deg) < 2 ^ 31)%Z
  | Packed, Naive => True
  | Packed, NewtonJohn => True
  | Packed, ByPle => True
  | Sliced, Default => True
  | Sliced, ByPle => True
  | _, _ => False
  end.
Definition ple_ok (k : kind) (ch : choice) : Prop :=
  match k with
  | Packed => ch = Default \/ ch = Naive \/ ch = NewtonJohn
  | Sliced => ch = Default
  end.
Definition solve_ok (ch : choice) : Prop := ch = Default \/ ch = Naive \/ ch = NewtonJohn.
Definition triangular_ok (A B : amat) : Prop :=
  a_m A = a_n A /\ a_m B = a_m A /\ 0 < a_n B /\ forall i, i < a_m A -> val A i i <> 0%N.

Definition allowed (c : cmd) (ch : choice) : Prop :=
  match c with
  | New _ _ => exists k, ch = As k
  | SetElem x i j v | AddElem x i j v =>
      ch = Default /\ exists k A, has x k A /\ i < a_m A /\ j < a_n A /\ inF f v
  | SetDiag x v => ch = Default /\ inF f v /\ exists k A, has x k A
  | RowSwap x a b | RowAdd x a b => ch = Default /\ exists k A, has x k A /\ a < a_m A /\ b < a_m A
  | ColSwap x a b => ch = Default /\ exists k A, has x k A /\ a < a_n A /\ b < a_n A
  | RowAddMul x i y j v s => ch = Default /\ inF f v /\ exists A B, has x Packed A /\ has y Packed B /\
      a_n A = a_n B /\ i < a_m A /\ j < a_m B /\ s < a_n A /\ (x <> y \/ i <> j)
  | RowScale x i s v => ch = Default /\ inF f v /\ exists k A, has x k A /\ i < a_m A /\ s < a_n A /\ (k = Sliced -> i = 0)
  | RowCopy x i y j => ch = Default /\ exists k A B, has x k A /\ has y k B /\
      i < a_m A /\ j < a_m B /\ a_n B <= a_n A /\ (x <> y \/ i <> j)
  | Copy t x => exists k A, has x k A /\
      ((ch = Default /\ fits t k (a_m A) (a_n A) [x]) \/
       (ch = Convert /\ fits t (match k with Packed => Sliced | Sliced => Packed end) (a_m A) (a_n A) []))
  | Add t x y => ch = Default /\ exists k A B, has x k A /\ has y k B /\
      a_m A = a_m B /\ a_n A = a_n B /\ fits t k (a_m A) (a_n A) [x; y]
  | Scale t v x => ch = Default /\ inF f v /\ exists k A, has x k A /\
      fits t k (a_m A) (a_n A) [x] /\ scale_ok k (a_m A) (a_n A)
  | Concat t x y => ch = Default /\ exists k A B, has x k A /\ has y k B /\
      a_m A = a_m B /\ fits t k (a_m A) (a_n A + a_n B) [x; y]
  | Stack t x y => ch = Default /\ exists k A B, has x k A /\ has y k B /\
      a_n A = a_n B /\ fits t k (a_m A + a_m B) (a_n A) [x; y]
  | Sub t x lr lc hr hc => ch = Default /\ exists k A, has x k A /\
      lr <= hr <= a_m A /\ lc <= hc <= a_n A /\ fits t k (hr - lr) (hc - lc) [x]
  | Mul t x y => exists k A B, has x k A /\ has y k B /\
      a_n A = a_m B /\ fits t k (a_m A) (a_n B) [x; y] /\ product_ok k ch (a_n B)
  | AddMul t x y => exists k A B, has x k A /\ has y k B /\
      a_n A = a_m B /\ fits (Some t) k (a_m A) (a_n B) [x; y] /\ accumulate_ok k ch (a_n B)
  | Invert t x => ch = NewtonJohn /\ exists A, has x Packed A /\
      a_m A = a_n A /\ invertible f (a_m A) (val A) /\ fits t Packed (a_m A) (a_n A) [x]
  | SolveLower x b | SolveUpper x b => solve_ok ch /\ x <> b /\ exists k A B, has x k A /\ has b k B /\ triangular_ok A B
  | Echelon full x => exists k A, has x k A /\ echelon_ok k ch (a_m A) (a_n A)
  | Ple x => exists k A, has x k A /\ ple_ok k ch
  | Pluq x => ch = Default /\ exists A, has x Sliced A
  | PermRows _ x P => ch = Default /\ exists k A, has x k A /\ forall i, i < Nat.min (length P) (a_m A) -> nth i P 0 < a_m A
  | PermCols _ x P => ch = Default /\ exists k A, has x k A /\ forall i, i < Nat.min (length P) (a_n A) -> nth i P 0 < a_n A
  | Randomize x => (exists rnd, ch = Random rnd) /\ exists k A, has x k A
  | FirstZeroRow x => ch = Default /\ exists A, has x Packed A
  | Read x i j => ch = Default /\ exists k A, has x k A /\ i < a_m A /\ j < a_n A
  | IsZero x => ch = Default /\ exists k A, has x k A
  | Equal x y => ch = Default /\ exists k A B, has x k A /\ has y k B
  end.
End Contracts.

(** representations after a call: only calls that create a matrix matter *)
Definition flip (k : kind) : kind := match k with Packed => Sliced | Sliced => Packed end.
Definition new_kind (ks : list kind) (x : nat) (t : option nat) (ch : choice) : list kind :=
  match t, nth_error ks x with
  | None, Some k => ks ++ [match ch with Convert => flip k | _ => k end]
  | _, _ => ks
  end.
Definition kinds (ks : list kind) (c : cmd) (ch : choice) : list kind :=
  match c with
  | New _ _ => match ch with As k => ks ++ [k] | _ => ks end
  | Copy t x | Add t x _ | Scale t _ x | Concat t x _ | Stack t x _ | Sub t x _ _ _ _ | Mul t x _ | Invert t x =>
      new_kind ks x t ch
  | _ => ks
  end.

(** ** Histories *)
Definition program := list (cmd * choice).
(** meaning of a program: it does not depend on the choices *)
Fixpoint effects (f : N) (st : list amat) (p : list cmd) (st' : list amat) (os : list out) : Prop :=
  match p with
  | [] => st' = st /\ os = []
  | c :: p => exists st1 o os1, effect f st c st1 o /\ effects f st1 p st' os1 /\ os = o :: os1
  end.
(** every call of the program keeps to its contract, whatever the calls before it answered *)
Fixpoint legal (f : N) (ks : list kind) (st : list amat) (p : program) : Prop :=
  match p with
  | [] => True
  | (c, ch) :: p => allowed f ks st c ch /\ forall st' o, effect f st c st' o -> legal f (kinds ks c ch) st' p
  end.
(** the calls whose result is determined: an echelon form that is not reduced is not unique, nor are the factors of a
    decomposition (the pivots may be chosen) *)
Definition determined (c : cmd) : Prop :=
  match c with Echelon full _ => full = true | Ple _ | Pluq _ | Randomize _ => False | _ => True end.

(** ** Clients that look at the answers: what is called next may depend on everything that was answered so far *)
Inductive client :=
| Stop
| Call (c : cmd) (ch : choice) (next : out -> client).
(** meaning: one possible course, the calls made and the answers received *)
Inductive course (f : N) : list amat -> client -> list (cmd * out) -> list amat -> Prop :=
| course_stop st : course f st Stop [] st
| course_call st c ch next o st1 tr st' : effect f st c st1 o -> course f st1 (next o) tr st' ->
    course f st (Call c ch next) ((c, o) :: tr) st'.
(** every call keeps to its contract, whatever was answered before *)
Fixpoint careful (f : N) (ks : list kind) (st : list amat) (t : client) : Prop :=
  match t with
  | Stop => True
  | Call c ch next => allowed f ks st c ch /\ forall st' o, effect f st c st' o -> careful f (kinds ks c ch) st' (next o)
  end.
(** clients that make the same calls, as long as they get the same answers; the choices may differ *)
Fixpoint alike (t t' : client) : Prop :=
  match t, t' with
  | Stop, Stop => True
  | Call c _ next, Call c' _ next' => c = c' /\ forall o, alike (next o) (next' o)
  | _, _ => False
  end.
Fixpoint all_determined (t : client) : Prop :=
  match t with Stop => True | Call c _ next => determined c /\ forall o, all_determined (next o) end.
