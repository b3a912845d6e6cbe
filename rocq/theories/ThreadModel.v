(** Client programs with several threads.  Each thread makes calls of HistSpec.v, one after the other, executed by the
    modelled functions (HistModel.v); the threads share the memory and one field.

    Models no function of /repo by itself.  It uses that the library has no mutable global variables: the only objects with
    static storage are the tables costs (src/blm.c:484), irreducible_polynomials (src/gf2e.c:68-85) and the masks of
    src/conversion.h:303-316, which no function writes.  Not modelled: the allocator of M4RI (m4ri_mm_malloc and its cache
    of blocks), which is not part of /repo, and the single loads and stores: see below for what stands in for them.

    Calls are not atomic.  A call begins, it looks at its operands one by one at any times, while it runs its target may
    contain anything at all, and it ends with the result in the target (or a new matrix).  The steps of different threads
    interleave freely. *)
From Coq Require Import NArith ZArith List Bool Arith.
From Verif Require Import Base Spec HistSpec HistModel.
Import ListNotations.
Local Open Scope nat_scope.

(** the matrices a call gets as arguments *)
Definition given (t : option nat) : list nat := match t with Some x => [x] | None => [] end.
Definition operands (c : cmd) : list nat :=
  match c with
  | New _ _ => []
  | SetElem x _ _ _ | AddElem x _ _ _ | SetDiag x _ | RowSwap x _ _ | ColSwap x _ _ | RowAdd x _ _ | RowScale x _ _ _ => [x]
  | RowAddMul x _ y _ _ _ | RowCopy x _ y _ => [x; y]
  | Copy t x | Scale t _ x | Sub t x _ _ _ _ | Invert t x => given t ++ [x]
  | Add t x y | Concat t x y | Stack t x y | Mul t x y => given t ++ [x; y]
  | AddMul t x y => [t; x; y]
  | SolveLower x b | SolveUpper x b => [x; b]
  | Ple x | Pluq x | PermRows _ x _ | PermCols _ x _ | Randomize x | FirstZeroRow x => [x]
  | Echelon _ x | Read x _ _ | IsZero x => [x]
  | Equal x y => [x; y]
  end.
(** where its result goes: into an existing matrix, a new one, or nowhere *)
Inductive dest := Into (x : nat) | Fresh | Nowhere.
Definition target (t : option nat) : dest := match t with Some x => Into x | None => Fresh end.
Definition dest_of (c : cmd) : dest :=
  match c with
  | New _ _ => Fresh
  | SetElem x _ _ _ | AddElem x _ _ _ | SetDiag x _ | RowSwap x _ _ | ColSwap x _ _ | RowAdd x _ _ | RowScale x _ _ _ => Into x
  | RowAddMul x _ _ _ _ _ | RowCopy x _ _ _ => Into x
  | Copy t _ | Scale t _ _ | Sub t _ _ _ _ _ | Invert t _ | Add t _ _ | Concat t _ _ | Stack t _ _ | Mul t _ _ => target t
  | AddMul t _ _ => Into t
  | SolveLower _ b | SolveUpper _ b => Into b
  | Echelon _ x | Ple x | Pluq x | PermRows _ x _ | PermCols _ x _ | Randomize x => Into x
  | Read _ _ _ | IsZero _ | FirstZeroRow _ | Equal _ _ => Nowhere
  end.

(** a call that runs: [c_seen] is what it has found in its operands so far *)
Record running := Running { c_cmd : cmd; c_choice : choice; c_seen : nat -> option mval }.
(** a thread: its matrices (their addresses, numbered by the thread in the order in which it got or created them), what is
    left of its program, its answers so far, the call it is in *)
Record thread := Thread { t_names : list nat; t_prog : program; t_out : list out; t_call : option running }.
(** the matrices in memory, by address, and the threads *)
Record world := World { w_mem : list mval; w_threads : list thread }.

Definition at_name (w : world) (t : thread) (x : nat) : option mval :=
  match nth_error (t_names t) x with Some a => nth_error (w_mem w) a | None => None end.
Definition finished (t : thread) : Prop := t_prog t = [] /\ t_call t = None.

Section Steps.
Variable cf : config.

(** the call k has seen all its operands, and S, a list of as many matrices as the thread has, agrees with that.  (What the
    other entries of S are is left open.) *)
Definition informed (t : thread) (k : running) (S : state) : Prop :=
  length S = length (t_names t) /\ forall x, In x (operands (c_cmd k)) -> nth_error S x = c_seen k x /\ c_seen k x <> None.

(** a step of thread i *)
Inductive step (i : nat) (w : world) : world -> Prop :=
| s_begin t c ch p : nth_error (w_threads w) i = Some t -> t_call t = None -> t_prog t = (c, ch) :: p ->
    (* the previous contents of the target belongs to the call *)
    step i w (World (w_mem w) (put (w_threads w) i (Thread (t_names t) p (t_out t)
      (Some (Running c ch (fun x => match dest_of c with Into y => if x =? y then at_name w t x else None | _ => None end))))))
| s_look t k x v : nth_error (w_threads w) i = Some t -> t_call t = Some k -> In x (operands (c_cmd k)) -> dest_of (c_cmd k) <> Into x ->
    at_name w t x = Some v ->
    step i w (World (w_mem w) (put (w_threads w) i (Thread (t_names t) (t_prog t) (t_out t)
      (Some (Running (c_cmd k) (c_choice k) (fun y => if y =? x then Some v else c_seen k y))))))
| s_disturb t k x a v : nth_error (w_threads w) i = Some t -> t_call t = Some k -> dest_of (c_cmd k) = Into x ->
    nth_error (t_names t) x = Some a -> a < length (w_mem w) ->
    step i w (World (put (w_mem w) a v) (w_threads w))
| s_answer t k S o : nth_error (w_threads w) i = Some t -> t_call t = Some k -> informed t k S -> dest_of (c_cmd k) = Nowhere ->
    (exists S', run_cmd cf S (c_cmd k) (c_choice k) = Ok (S', o)) ->
    step i w (World (w_mem w) (put (w_threads w) i (Thread (t_names t) (t_prog t) (t_out t ++ [o]) None)))
| s_write t k S S' o x a v : nth_error (w_threads w) i = Some t -> t_call t = Some k -> informed t k S -> dest_of (c_cmd k) = Into x ->
    run_cmd cf S (c_cmd k) (c_choice k) = Ok (S', o) -> nth_error S' x = Some v ->
    nth_error (t_names t) x = Some a -> a < length (w_mem w) ->
    step i w (World (put (w_mem w) a v) (put (w_threads w) i (Thread (t_names t) (t_prog t) (t_out t ++ [o]) None)))
| s_create t k S S' o v : nth_error (w_threads w) i = Some t -> t_call t = Some k -> informed t k S -> dest_of (c_cmd k) = Fresh ->
    run_cmd cf S (c_cmd k) (c_choice k) = Ok (S', o) -> nth_error S' (length S) = Some v ->
    step i w (World (w_mem w ++ [v]) (put (w_threads w) i (Thread (t_names t ++ [length (w_mem w)]) (t_prog t) (t_out t ++ [o]) None))).
(** thread i is in a call that dies or runs into undefined behaviour *)
Definition fails (i : nat) (w : world) : Prop :=
  exists t k S, nth_error (w_threads w) i = Some t /\ t_call t = Some k /\ informed t k S /\
    forall r, run_cmd cf S (c_cmd k) (c_choice k) <> Ok r.
Inductive steps : world -> world -> Prop :=
| steps_none w : steps w w
| steps_more i w w1 w2 : steps w w1 -> step i w1 w2 -> steps w w2.
End Steps.

(** ** What the client has to make sure of *)
(** the matrices a program changes *)
Definition changed (p : program) (x : nat) : Prop := exists c ch, In (c, ch) p /\ dest_of c = Into x.
(** the start: no thread is in a call, or has answered; every thread has a name for each of its matrices; a matrix that one
    thread changes is not known to any other thread *)
Definition race_free (w : world) : Prop :=
  (forall i t, nth_error (w_threads w) i = Some t -> t_call t = None /\ t_out t = [] /\ NoDup (t_names t) /\
     forall a, In a (t_names t) -> a < length (w_mem w)) /\
  (forall i j t u x a, i <> j -> nth_error (w_threads w) i = Some t -> nth_error (w_threads w) j = Some u ->
     changed (t_prog t) x -> nth_error (t_names t) x = Some a -> ~ In a (t_names u)).
(** the matrices of thread t, in the order of its names, are S *)
Definition sees (w : world) (t : thread) (S : state) : Prop :=
  length S = length (t_names t) /\ forall x, x < length S -> at_name w t x = nth_error S x.
