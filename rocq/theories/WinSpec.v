(** Specification of client programs with windows, on top of HistSpec.v; this file does not mention the model of the
    code.

    A window (mzed_init_window, mzd_slice_init_window) is a rectangle of a matrix; whoever reads it reads the matrix,
    whoever writes it writes the matrix.  A call may use windows as operands and as targets: the windows ws of the
    call are numbered after the matrices of the client, from length st on. *)
From Coq Require Import NArith ZArith List Bool Arith.
From Verif Require Import Spec LinSpec TrsmSpec HistSpec.
Import ListNotations.
Local Open Scope nat_scope.

(** rows lr .. hr-1, columns lc .. hc-1 of matrix w_x *)
Record view := View { w_x : nat; w_lr : nat; w_lc : nat; w_hr : nat; w_hc : nat }.
Definition within (w : view) (i j : nat) : bool := (w_lr w <=? i) && (i <? w_hr w) && (w_lc w <=? j) && (j <? w_hc w).

(** what a window shows *)
Definition cut (A : amat) (w : view) : amat :=
  tab (w_hr w - w_lr w) (w_hc w - w_lc w) (fun i j => val A (w_lr w + i) (w_lc w + j)).
(** matrix A after B was written through window w *)
Definition paste (A : amat) (w : view) (B : amat) : amat :=
  tab (a_m A) (a_n A) (fun i j => if within w i j then val B (i - w_lr w) (j - w_lc w) else val A i j).

(** the matrix a call writes, and those it reads besides *)
Definition written (c : cmd) : option nat :=
  match c with
  | New _ _ | Read _ _ _ | IsZero _ | FirstZeroRow _ | Equal _ _ => None
  | SetElem x _ _ _ | AddElem x _ _ _ | SetDiag x _ | RowSwap x _ _ | ColSwap x _ _ | RowAdd x _ _
  | RowAddMul x _ _ _ _ _ | RowScale x _ _ _ | RowCopy x _ _ _ | Echelon _ x
  | Ple x | Pluq x | PermRows _ x _ | PermCols _ x _ | Randomize x => Some x
  | Copy t _ | Add t _ _ | Scale t _ _ | Concat t _ _ | Stack t _ _ | Sub t _ _ _ _ _ | Mul t _ _ | Invert t _ => t
  | AddMul t _ _ => Some t
  | SolveLower _ b | SolveUpper _ b => Some b
  end.
Definition read (c : cmd) : list nat :=
  match c with
  | New _ _ | SetElem _ _ _ _ | AddElem _ _ _ _ | SetDiag _ _ | RowSwap _ _ _ | ColSwap _ _ _ | RowAdd _ _ _ | RowScale _ _ _ _ | Echelon _ _
  | Ple _ | Pluq _ | PermRows _ _ _ | PermCols _ _ _ | Randomize _ => []
  | RowAddMul _ _ y _ _ _ | RowCopy _ _ y _ => [y]
  | Copy _ x | Scale _ _ x | Sub _ x _ _ _ _ | Invert _ x | SolveLower x _ | SolveUpper x _ | Read x _ _ | IsZero x | FirstZeroRow x => [x]
  | Add _ x y | Concat _ x y | Stack _ x y | Mul _ x y | AddMul _ x y | Equal x y => [x; y]
  end.

Section Windows.
Variables (f : N) (ks : list kind) (st : list amat) (ws : list view).
Definition nothing : amat := AM 0 0 [].
Definition shown : list amat := map (fun w => cut (nth (w_x w) st nothing) w) ws.

(** the matrices after a call that left st1 (matrices, then windows, then what the call created): what was written to
    a window is in its matrix *)
Definition settle (c : cmd) (st1 : list amat) : list amat :=
  let rest := firstn (length st) st1 ++ skipn (length st + length ws) st1 in
  match written c with
  | Some x =>
      if x <? length st then rest
      else match nth_error ws (x - length st), nth_error st1 x with
           | Some w, Some B => put rest (w_x w) (paste (nth (w_x w) st nothing) w B)
           | _, _ => rest
           end
  | None => rest
  end.
(** meaning of a call with windows *)
Definition weffect (c : cmd) (st' : list amat) (o : out) : Prop :=
  exists st1, effect f (st ++ shown) c st1 o /\ st' = settle c st1.

(** contract: windows are inside their matrices and start at a word boundary *)
Definition word_elems (k : kind) : nat := match k with Packed => 64 / slot (deg f) | Sliced => 64 end.
Definition placed (w : view) : Prop :=
  exists k A, has ks st (w_x w) k A /\ w_lr w <= w_hr w <= a_m A /\ w_lc w <= w_hc w <= a_n A /\ w_lc w mod word_elems k = 0.
(** the part of the client's memory that an operand stands for *)
Definition region (x : nat) : view :=
  if x <? length st then View x 0 0 (a_m (nth x st nothing)) (a_n (nth x st nothing))
  else nth (x - length st) ws (View 0 0 0 0 0).
Definition apart (v w : view) : Prop :=
  w_x v <> w_x w \/ w_hr v <= w_lr w \/ w_hr w <= w_lr v \/ w_hc v <= w_lc w \/ w_hc w <= w_lc v.
(** the calls that may write to a window; the others may also write behind the last column of their target *)
Definition confined (c : cmd) : Prop :=
  match c with Concat _ _ _ | Stack _ _ _ | Sub _ _ _ _ _ _ | Invert _ _ => False | _ => True end.
Definition window_kinds : list kind := map (fun w => nth (w_x w) ks Packed) ws.
Definition wallowed (c : cmd) (ch : choice) : Prop :=
  (forall w, In w ws -> placed w) /\
  allowed f (ks ++ window_kinds) (st ++ shown) c ch /\
  forall x, written c = Some x ->
    (length st <= x -> confined c) /\
    forall y, In y (read c) -> y <> x -> apart (region x) (region y).
Definition wkinds (c : cmd) (ch : choice) : list kind :=
  let ks1 := kinds (ks ++ window_kinds) c ch in firstn (length ks) ks1 ++ skipn (length ks + length ws) ks1.
End Windows.

(** programs: every call with the windows it uses *)
Definition wprogram := list (list view * cmd * choice).
Fixpoint weffects (f : N) (st : list amat) (p : list (list view * cmd)) (st' : list amat) (os : list out) : Prop :=
  match p with
  | [] => st' = st /\ os = []
  | (ws, c) :: p => exists st1 o os1, weffect f st ws c st1 o /\ weffects f st1 p st' os1 /\ os = o :: os1
  end.
Fixpoint wlegal (f : N) (ks : list kind) (st : list amat) (p : wprogram) : Prop :=
  match p with
  | [] => True
  | (ws, c, ch) :: p => wallowed f ks st ws c ch /\ forall st' o, weffect f st ws c st' o -> wlegal f (wkinds ks ws c ch) st' p
  end.
