(** Client programs with windows (WinSpec.v), executed by the modelled functions.

    A window shares the words of its matrix.  Here the words of a window are copied out before the call
    (mzed_window, mzd_slice_window) and copied back into the matrix after a call that writes to the window
    (mzed_unwindow, mzd_slice_unwindow), padding included: bits of the matrix that a call would damage behind the last
    column of a window are damaged here too.  The copy is faithful when the target of the call shares no memory with
    its other operands; a call where it does is [UB] here.  In C a window may be kept for many calls: it holds only
    pointers to the words of the matrix, so making it anew for every call is the same. *)
From Coq Require Import NArith ZArith List Bool Arith.
From Verif Require Import Base Spec Gf2eModel MzdModel MzedModel SliceModel HistSpec WinSpec HistModel.
Import ListNotations.
Local Open Scope nat_scope.

(** mzed.h:187-195 [mzed_init_window], mzd_slice.h:480-492 [mzd_slice_init_window] *)
Definition window_of (v : mval) (w : view) : res mval :=
  match v with
  | Pk A => W <- mzed_window A (w_lr w) (w_lc w) (w_hr w) (w_hc w) ;; Ok (Pk W)
  | Sl A => W <- mzd_slice_window A (w_lr w) (w_lc w) (w_hr w) (w_hc w) ;; Ok (Sl W)
  end.
Definition write_window (v : mval) (w : view) (u : mval) : res mval :=
  match v, u with
  | Pk A, Pk W => Ok (Pk (mzed_unwindow A (w_lr w) (w_lc w) W))
  | Sl A, Sl W => A' <- mzd_slice_unwindow A (w_lr w) (w_lc w) W ;; Ok (Sl A')
  | _, _ => UB
  end.
Fixpoint windows (S : state) (ws : list view) : res (list mval) :=
  match ws with
  | [] => Ok []
  | w :: ws => v <- get S (w_x w) ;; W <- window_of v w ;; l <- windows S ws ;; Ok (W :: l)
  end.

Definition rows_of (v : mval) : nat := match v with Pk A => mz_nrows A | Sl A => sl_nrows A end.
Definition cols_of (v : mval) : nat := match v with Pk A => mz_ncols A | Sl A => sl_ncols A end.
Definition memory (S : state) (ws : list view) (x : nat) : view :=
  match nth_error S x with
  | Some v => View x 0 0 (rows_of v) (cols_of v)
  | None => nth (x - length S) ws (View 0 0 0 0 0)
  end.
Definition separate (v w : view) : bool :=
  negb (w_x v =? w_x w) || (w_hr v <=? w_lr w) || (w_hr w <=? w_lr v) || (w_hc v <=? w_lc w) || (w_hc w <=? w_lc v).
Definition no_sharing (S : state) (ws : list view) (c : cmd) : bool :=
  match written c with
  | None => true
  | Some x => forallb (fun y => (y =? x) || separate (memory S ws x) (memory S ws y)) (read c)
  end.

Definition run_wcmd (cf : config) (S : state) (ws : list view) (c : cmd) (ch : choice) : res (state * out) :=
  ext <- windows S ws ;;
  _ <- guard (no_sharing S ws c) ;;
  '(S1, o) <- run_cmd cf (S ++ ext) c ch ;;
  let rest := firstn (length S) S1 ++ skipn (length S + length ws) S1 in
  match written c with
  | Some x =>
      if x <? length S then Ok (rest, o)
      else match nth_error ws (x - length S) with
           | Some w => v <- get S (w_x w) ;; u <- get S1 x ;; v' <- write_window v w u ;; Ok (put rest (w_x w) v', o)
           | None => UB
           end
  | None => Ok (rest, o)
  end.
Fixpoint run_w (cf : config) (S : state) (p : wprogram) : res (state * list out) :=
  match p with
  | [] => Ok (S, [])
  | (ws, c, ch) :: p => '(S1, o) <- run_wcmd cf S ws c ch ;; '(S', os) <- run_w cf S1 p ;; Ok (S', o :: os)
  end.
