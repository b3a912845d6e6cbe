(** The products again, keeping a log of the multiplications of smaller matrices they call: the models of KaraModel.v, SliceModel.v,
    PolyMatModel.v, ConvModel.v, BlmModel.v, BlmOps.v and StrassenModel.v with every call of the base multiplication (M4RI's mzd_mul and mzd_addmul
    for sliced matrices, _mzed_mul_newton_john for Strassen) recorded.  CostProofs.v proves that forgetting the log gives back these models. *)
From Coq Require Import NArith ZArith List Bool Arith.
From Verif Require Import Base Gf2xModel Gf2eModel MzdModel MzedModel NjModel StrassenModel SliceModel KaratsubaTable KaraModel ConvModel PolyMatModel DjbModel BlmModel BlmOps.
Import ListNotations.
Local Open Scope nat_scope.

(** one call: the product of an m x l matrix and an l x n matrix *)
Definition call := (nat * nat * nat)%type.
(** a computation with the list of its calls, in order *)
Definition log T := res (T * list call).
Definition quiet {T} (m : res T) : log T := x <- m ;; Ok (x, []).
Definition lbind {T U} (m : log T) (k : T -> log U) : log U := x <- m ;; y <- k (fst x) ;; Ok (fst y, snd x ++ snd y).
Notation "x <~ m ;; k" := (lbind m (fun x => k)) (at level 61, m at next level, right associativity).
Notation "' p <~ m ;; k" := (lbind m (fun x => match x with p => k end)) (at level 61, p pattern, m at next level, right associativity).
Fixpoint lloop {S} (n i : nat) (body : nat -> S -> log S) (s : S) : log S :=
  match n with O => quiet (Ok s) | Datatypes.S n' => lbind (body i s) (lloop n' (Datatypes.S i) body) end.
Definition lfor {S} (lo hi : nat) (body : nat -> S -> log S) (s : S) : log S := lloop (hi - lo) lo body s.
Definition erase {T} (m : log T) : res T := x <- m ;; Ok (fst x).

(** M4RI [mzd_mul], [mzd_addmul] *)
Definition mzd_mul_l (C A B : mzd) : log mzd := x <- mzd_mul C A B ;; Ok (x, [(mzd_nrows A, mzd_ncols A, mzd_ncols B)]).
Definition mzd_addmul_l (C A B : mzd) : log mzd := x <- mzd_addmul C A B ;; Ok (x, [(mzd_nrows A, mzd_ncols A, mzd_ncols B)]).

(** karatsuba.c, every line *)
Definition kstep_l (ff : option gf2e) (A B : list mzd) (s : list nat * list nat * list nat) (st : kst) : log kst :=
  let '(ai, bi, ts) := s in let '(t0, t1, t2, X) := st in
  '(t1, a) <~ quiet (operand t1 A ai) ;;
  '(t2, b) <~ quiet (operand t2 B bi) ;;
  t0 <~ mzd_mul_l t0 a b ;;
  X <~ quiet (ptr_add_to_all ff t0 X ts) ;;
  quiet (Ok (t0, t1, t2, X)).
Fixpoint ksteps_l (ff : option gf2e) (A B : list mzd) (prog : list (list nat * list nat * list nat)) (st : kst) : log kst :=
  match prog with [] => quiet (Ok st) | s :: r => st <~ kstep_l ff A B s st ;; ksteps_l ff A B r st end.
(** karatsuba.c:25-1886 *)
Definition kara_run_l (ff : option gf2e) (prog : list (list nat * list nat * list nat)) (X A B : list mzd) : log (list mzd) :=
  a0 <~ quiet (lget A 0) ;; b0 <~ quiet (lget B 0) ;;
  '(_, _, _, X) <~ ksteps_l ff A B prog
    (mzd_init (mzd_nrows a0) (mzd_ncols b0), mzd_init (mzd_nrows a0) (mzd_ncols a0), mzd_init (mzd_nrows b0) (mzd_ncols b0), X) ;;
  quiet (Ok X).
(** karatsuba.c:4-23 [_mzd_ptr_addmul_karatsuba2] *)
Definition ptr_addmul_karatsuba2_l (ff : option gf2e) (X A B : list mzd) : log (list mzd) :=
  a0 <~ quiet (lget A 0) ;; a1 <~ quiet (lget A 1) ;; b0 <~ quiet (lget B 0) ;; b1 <~ quiet (lget B 1) ;;
  t0 <~ quiet (mzd_add (mzd_init (mzd_nrows a0) (mzd_ncols a0)) a0 a1) ;;
  t1 <~ quiet (mzd_add (mzd_init (mzd_nrows b0) (mzd_ncols b0)) b0 b1) ;;
  x1 <~ quiet (lget X 1) ;; x1 <~ mzd_addmul_l x1 t0 t1 ;; X <~ quiet (lset X 1 x1) ;;
  '(_, _, _, X) <~ ksteps_l ff A B kara2 (mzd_init (mzd_nrows a0) (mzd_ncols b0), t0, t1, X) ;;
  quiet (Ok X).
Definition ptr_addmul_karatsuba_l (ff : option gf2e) (d : nat) (X A B : list mzd) : option (log (list mzd)) :=
  match d with
  | 2 => Some (ptr_addmul_karatsuba2_l ff X A B)
  | 3 => Some (kara_run_l ff kara3 X A B)
  | 4 => Some (kara_run_l ff kara4 X A B)
  | 5 => Some (kara_run_l ff kara5 X A B)
  | 6 => Some (kara_run_l ff kara6 X A B)
  | 7 => Some (kara_run_l ff kara7 X A B)
  | 8 => Some (kara_run_l ff kara8 X A B)
  | 9 => Some (kara_run_l ff kara9 X A B)
  | 10 => Some (kara_run_l ff kara10 X A B)
  | 11 => Some (kara_run_l ff kara11 X A B)
  | 12 => Some (kara_run_l ff kara12 X A B)
  | 13 => Some (kara_run_l ff kara13 X A B)
  | 14 => Some (kara_run_l ff kara14 X A B)
  | 15 => Some (kara_run_l ff kara15 X A B)
  | 16 => Some (kara_run_l ff kara16 X A B)
  | _ => None
  end.
(** mzd_slice.c:82-98 [_mzd_slice_addmul_naive] *)
Definition mzd_slice_addmul_naive_l (C : option slice) (A B : slice) : log slice :=
  let C := sl_or_init C (sl_ff A) (sl_nrows A) (sl_ncols B) in
  let e := ff_degree (sl_ff A) in
  '(t0, x) <~ lfor 0 e (fun i '(t0, X) =>
     lfor 0 e (fun j '(t0, X) =>
       a <~ quiet (lget (sl_x A) i) ;; b <~ quiet (lget (sl_x B) j) ;;
       t0 <~ mzd_mul_l t0 a b ;;
       X <~ quiet (ptr_add_modred (Some (sl_ff A)) t0 X (i + j)) ;; quiet (Ok (t0, X))) (t0, X))
     (mzd_init (sl_nrows A) (sl_ncols B), sl_x C) ;;
  quiet (Ok (sl_set_x C x)).
(** mzd_slice.h:624-647 [_mzd_slice_addmul_karatsuba] *)
Definition mzd_slice_addmul_karatsuba_l_ (C : option slice) (A B : slice) : log slice :=
  let C := sl_or_init C (sl_ff A) (sl_nrows A) (sl_ncols B) in
  match ptr_addmul_karatsuba_l (Some (sl_ff A)) (ff_degree (sl_ff A)) (sl_x C) (sl_x A) (sl_x B) with
  | Some r => x <~ r ;; quiet (Ok (sl_set_x C x))
  | None => mzd_slice_addmul_naive_l (Some C) A B
  end.
(** mzd_slice.h:661-670, 818-820 [mzd_slice_mul] *)
Definition mzd_slice_mul_l (C : option slice) (A B : slice) : log slice :=
  _ <~ quiet (check ((sl_ncols A =? sl_nrows B) && sl_same_ff A B)) ;;
  match C with
  | None => mzd_slice_addmul_karatsuba_l_ None A B
  | Some C =>
      _ <~ quiet (check (sl_same_ff C A && (sl_nrows C =? sl_nrows A) && (sl_ncols C =? sl_ncols B))) ;;
      C <~ quiet (mzd_slice_set_ui C 0) ;;
      mzd_slice_addmul_karatsuba_l_ (Some C) A B
  end.
(** mzd_slice.h:684-691, 834-836 [mzd_slice_addmul] *)
Definition mzd_slice_addmul_l (C : option slice) (A B : slice) : log slice :=
  match C with
  | None => UB
  | Some C =>
      _ <~ quiet (check ((sl_ncols A =? sl_nrows B) && sl_same_ff A B)) ;;
      _ <~ quiet (check (sl_same_ff C A && (sl_nrows C =? sl_nrows A) && (sl_ncols C =? sl_ncols B))) ;;
      mzd_slice_addmul_karatsuba_l_ (Some C) A B
  end.
(** conversion.h:148-165 [_mzed_addmul_karatsuba] *)
Definition mzed_addmul_karatsuba_l_ (C : option mzed) (A B : mzed) : log mzed :=
  Cs <~ quiet (match C with Some C => Cs <- mzed_slice None C ;; Ok (Some Cs) | None => Ok None end) ;;
  As <~ quiet (mzed_slice None A) ;;
  Bs <~ quiet (mzed_slice None B) ;;
  Cs <~ mzd_slice_addmul_karatsuba_l_ Cs As Bs ;;
  quiet (mzed_cling C Cs).
(** conversion.h:177-186 [mzed_mul_karatsuba] *)
Definition mzed_mul_karatsuba_l (C : option mzed) (A B : mzed) : log mzed :=
  _ <~ quiet (check ((mz_ncols A =? mz_nrows B) && same_ff A B)) ;;
  match C with
  | None => mzed_addmul_karatsuba_l_ None A B
  | Some C =>
      _ <~ quiet (check (same_ff C A && (mz_nrows C =? mz_nrows A) && (mz_ncols C =? mz_ncols B))) ;;
      C <~ quiet (mzed_set_ui C 0) ;;
      mzed_addmul_karatsuba_l_ (Some C) A B
  end.
(** mzd_poly.h:152-162 [_mzd_poly_addmul_naive] *)
Definition mzd_poly_addmul_naive_l (C : option mpoly) (A B : mpoly) : log mpoly :=
  let C := mp_or_init C A B in
  x <~ lfor 0 (mp_depth A) (fun i x =>
         lfor 0 (mp_depth B) (fun j x =>
           c <~ quiet (lget x (i + j)) ;; a <~ quiet (lget (mp_x A) i) ;; b <~ quiet (lget (mp_x B) j) ;; c <~ mzd_addmul_l c a b ;;
           quiet (lset x (i + j) c)) x) (mp_x C) ;;
  quiet (Ok (mp_set_x C x)).
(** mzd_poly.h:175-203 [_mzd_poly_addmul_karatsubs_balanced] *)
Definition mzd_poly_addmul_karatsubs_balanced_l (C : option mpoly) (A B : mpoly) : log mpoly :=
  _ <~ quiet (guard (mp_depth A =? mp_depth B)) ;;
  let C := mp_or_init C A B in
  match mp_depth A with
  | 0 => Die
  | 1 => c <~ quiet (lget (mp_x C) 0) ;; a <~ quiet (lget (mp_x A) 0) ;; b <~ quiet (lget (mp_x B) 0) ;; c <~ mzd_addmul_l c a b ;;
         x <~ quiet (lset (mp_x C) 0 c) ;; quiet (Ok (mp_set_x C x))
  | d => match ptr_addmul_karatsuba_l None d (mp_x C) (mp_x A) (mp_x B) with
         | Some r => x <~ r ;; quiet (Ok (mp_set_x C x))
         | None => Die
         end
  end.
(** blm.c:6-41 [_mzd_ptr_apply_blm_mzd] *)
Definition ptr_apply_blm_mzd_l (X A B : list mzd) (f : blm) : log (list mzd) :=
  _ <~ quiet (guard ((mzd_ncols (bl_H f) =? mzd_nrows (bl_F f)) && (mzd_nrows (bl_F f) =? mzd_nrows (bl_G f)))) ;;
  A0 <~ quiet (lget A 0) ;; B0 <~ quiet (lget B 0) ;;
  let t0 := mzd_init (mzd_nrows A0) (mzd_ncols B0) in
  let t1 := mzd_init (mzd_nrows A0) (mzd_ncols A0) in
  let t2 := mzd_init (mzd_nrows B0) (mzd_ncols B0) in
  st <~ lfor 0 (mzd_nrows (bl_F f)) (fun i st =>
          let '(X, t0, t1, t2) := st in
          t1 <~ quiet (blm_row (bl_F f) i A t1) ;;
          t2 <~ quiet (blm_row (bl_G f) i B t2) ;;
          t0 <~ mzd_mul_l t0 t1 t2 ;;
          X <~ quiet (for_ 0 (mzd_nrows (bl_H f)) (fun j X => b <- mzd_read_bit (bl_H f) j i ;; if b : bool then ptr_add_modred None t0 X j else Ok X) X) ;;
          quiet (Ok (X, t0, t1, t2))) (X, t0, t1, t2) ;;
  let '(X, _, _, _) := st in quiet (Ok X).
(** blm.c:65-101 [_mzd_ptr_apply_blm_djb] *)
Definition ptr_apply_blm_djb_l (X A B : list mzd) (f : blm) : log (list mzd) :=
  _ <~ quiet (guard ((mzd_ncols (bl_H f) =? mzd_nrows (bl_F f)) && (mzd_nrows (bl_F f) =? mzd_nrows (bl_G f)))) ;;
  match bl_f f, bl_g f, bl_h f with
  | Some pf, Some pg, Some ph =>
      let m := mzd_nrows (bl_F f) in
      A0 <~ quiet (lget A 0) ;; B0 <~ quiet (lget B 0) ;;
      t1 <~ quiet (djb_apply_mzd_ptr pf (repeat (mzd_init (mzd_nrows A0) (mzd_ncols A0)) m) A) ;;
      t2 <~ quiet (djb_apply_mzd_ptr pg (repeat (mzd_init (mzd_nrows B0) (mzd_ncols B0)) m) B) ;;
      t0 <~ lfor 0 m (fun i t0 =>
              x <~ quiet (lget t1 i) ;; y <~ quiet (lget t2 i) ;; z <~ mzd_mul_l (mzd_init (mzd_nrows A0) (mzd_ncols B0)) x y ;; quiet (Ok (t0 ++ [z]))) [] ;;
      quiet (djb_apply_mzd_ptr ph X t0)
  | _, _, _ => UB
  end.
(** blm.h:153-158 [_mzd_ptr_apply_blm] *)
Definition ptr_apply_blm_l (X A B : list mzd) (f : blm) : log (list mzd) :=
  match bl_f f with Some _ => ptr_apply_blm_djb_l X A B f | None => ptr_apply_blm_mzd_l X A B f end.
(** mzd_slice.h:706-729 [_mzd_slice_mul_blm]; the logs of blm_init_crt (products of matrices over GF(2) whose size depends on the degree
    only) are not kept *)
Definition mzd_slice_mul_blm_l_ (fuel : nat) (x : m4ri) (C : option slice) (A B : slice) (f : option blm) : option (log slice) :=
  let C := sl_or_init C (sl_ff A) (sl_nrows A) (sl_ncols B) in
  match (match f with
         | Some f => Some (Ok f)
         | None => let d := ff_degree (sl_ff C) in
                   if 16 <? d then Some Die else blm_init_crt fuel x (Some (sl_ff C)) d d (upd (repeat 0 17) d 1) true
         end) with
  | None => None
  | Some r => Some (f <~ quiet r ;; X <~ ptr_apply_blm_l (sl_x C) (sl_x A) (sl_x B) f ;; quiet (Ok (sl_set_x C X)))
  end.
(** mzd_slice.h:744-753 [mzd_slice_mul_blm] *)
Definition mzd_slice_mul_blm_l (fuel : nat) (x : m4ri) (C : option slice) (A B : slice) (f : option blm) : option (log slice) :=
  match (_ <- check ((sl_ncols A =? sl_nrows B) && sl_same_ff A B) ;;
        match C with
        | None => Ok None
        | Some C => _ <- check (sl_same_ff C A && (sl_nrows C =? sl_nrows A) && (sl_ncols C =? sl_ncols B)) ;;
                    C <- mzd_slice_set_ui C 0 ;; Ok (Some C)
        end) with
  | Ok C => mzd_slice_mul_blm_l_ fuel x C A B f
  | Die => Some Die
  | UB => Some UB
  end.

(** ** Strassen: the calls of _mzed_mul_newton_john *)
Definition nj_l (mulbs : nat) (C A B : mzed) : log mzed := x <- mzed_mul_newton_john_ mulbs C A B ;; Ok (x, [(mz_nrows A, mz_ncols A, mz_ncols B)]).
Definition on_win_l (C : mzed) (lr lc hr hc : nat) (op : mzed -> log mzed) : log mzed :=
  W <~ quiet (mzed_window C lr lc hr hc) ;; W' <~ op W ;; quiet (Ok (mzed_unwindow C lr lc W')).
Definition wr_l (C : mzed) (mm nn : nat) (r s : bool) (op : mzed -> log mzed) : log mzed := quad mm nn r s (on_win_l C) op.
(** strassen.c:146-182 and 289-323 *)
Definition strassen_rest_l (mulbs : nat) (clr : bool) (C A B : mzed) (mm kk nn : nat) : log mzed :=
  let m := mz_nrows A in let k := mz_ncols A in let n := mz_ncols B in
  let zero W := if clr then mzed_set_ui W 0 else Ok W in
  C <~ (if 2 * nn <? n then
          B' <~ quiet (mzed_window B 0 (2 * nn) k n) ;;
          on_win_l C 0 (2 * nn) m n (fun W => W <~ quiet (zero W) ;; nj_l mulbs W A B')
        else quiet (Ok C)) ;;
  C <~ (if 2 * mm <? m then
          A' <~ quiet (mzed_window A (2 * mm) 0 m k) ;;
          B' <~ quiet (mzed_window B 0 0 k (2 * nn)) ;;
          on_win_l C (2 * mm) 0 m (2 * nn) (fun W => W <~ quiet (zero W) ;; nj_l mulbs W A' B')
        else quiet (Ok C)) ;;
  if 2 * kk <? k then
    A' <~ quiet (mzed_window A 0 (2 * kk) (2 * mm) k) ;;
    B' <~ quiet (mzed_window B (2 * kk) 0 k (2 * nn)) ;;
    on_win_l C 0 0 (2 * mm) (2 * nn) (fun W => nj_l mulbs W A' B')
  else quiet (Ok C).
(** strassen.c:43-185 [_mzed_mul_strassen] *)
Fixpoint mul_strassen_l (mulbs fuel : nat) (C A B : mzed) (cutoff : Z) : log mzed :=
  match fuel with
  | O => UB
  | S fuel' =>
    if (mz_nrows C =? 0) && (mz_ncols C =? 0) then quiet (Ok C) else
    if strassen_small A B cutoff then
      D <~ quiet (mzed_init (mz_ff C) (mz_nrows C) (mz_ncols C)) ;;
      D <~ nj_l mulbs D A B ;;
      quiet (mzed_copy (Some C) D)
    else
      let mm := half (mz_w A) (mz_nrows A) in
      let kk := half (mz_w A) (mz_ncols A) in
      let nn := half (mz_w A) (mz_ncols B) in
      let rec_ C A B := mul_strassen_l mulbs fuel' C A B cutoff in
      A11 <~ quiet (rd A mm kk false false) ;; A12 <~ quiet (rd A mm kk false true) ;;
      A21 <~ quiet (rd A mm kk true false) ;; A22 <~ quiet (rd A mm kk true true) ;;
      B11 <~ quiet (rd B kk nn false false) ;; B12 <~ quiet (rd B kk nn false true) ;;
      B21 <~ quiet (rd B kk nn true false) ;; B22 <~ quiet (rd B kk nn true true) ;;
      Wmk <~ quiet (mzed_init (mz_ff A) mm kk) ;;
      Wkn <~ quiet (mzed_init (mz_ff A) kk nn) ;;
      Wkn <~ quiet (mzed_add_ Wkn B22 B12) ;;
      Wmk <~ quiet (mzed_add_ Wmk A22 A12) ;;
      C <~ wr_l C mm nn true false (fun C21 => rec_ C21 Wmk Wkn) ;;
      Wmk <~ quiet (mzed_add_ Wmk A22 A21) ;;
      Wkn <~ quiet (mzed_add_ Wkn B22 B21) ;;
      C <~ wr_l C mm nn true true (fun C22 => rec_ C22 Wmk Wkn) ;;
      Wkn <~ quiet (mzed_add_ Wkn Wkn B12) ;;
      Wmk <~ quiet (mzed_add_ Wmk Wmk A12) ;;
      C <~ wr_l C mm nn false false (fun C11 => rec_ C11 Wmk Wkn) ;;
      Wmk <~ quiet (mzed_add_ Wmk Wmk A11) ;;
      C <~ wr_l C mm nn false true (fun C12 => rec_ C12 Wmk B12) ;;
      C22 <~ quiet (rd C mm nn true true) ;;
      C <~ quiet (wr C mm nn false true (fun C12 => mzed_add_ C12 C12 C22)) ;;
      Wmk <~ quiet (mzed_mul_init None A12 B21 true) ;;
      Wmk <~ rec_ Wmk A12 B21 ;;
      C <~ quiet (wr C mm nn false false (fun C11 => mzed_add_ C11 C11 Wmk)) ;;
      C11 <~ quiet (rd C mm nn false false) ;;
      C <~ quiet (wr C mm nn false true (fun C12 => mzed_add_ C12 C11 C12)) ;;
      C21 <~ quiet (rd C mm nn true false) ;;
      C <~ quiet (wr C mm nn false false (fun C11 => mzed_add_ C11 C21 C11)) ;;
      Wkn <~ quiet (mzed_add_ Wkn Wkn B11) ;;
      C <~ wr_l C mm nn true false (fun C21 => rec_ C21 A21 Wkn) ;;
      C11 <~ quiet (rd C mm nn false false) ;;
      C <~ quiet (wr C mm nn true false (fun C21 => mzed_add_ C21 C11 C21)) ;;
      C11 <~ quiet (rd C mm nn false false) ;;
      C <~ quiet (wr C mm nn true true (fun C22 => mzed_add_ C22 C22 C11)) ;;
      C <~ wr_l C mm nn false false (fun C11 => rec_ C11 A11 B11) ;;
      C <~ quiet (wr C mm nn false false (fun C11 => mzed_add_ C11 C11 Wmk)) ;;
      strassen_rest_l mulbs true C A B mm kk nn
  end.
(** strassen.c:187-326 [_mzed_addmul_strassen] *)
Fixpoint addmul_strassen_l (mulbs fuel : nat) (C A B : mzed) (cutoff : Z) : log mzed :=
  match fuel with
  | O => UB
  | S fuel' =>
    if (mz_nrows C =? 0) && (mz_ncols C =? 0) then quiet (Ok C) else
    if strassen_small A B cutoff then
      D <~ quiet (mzed_copy None C) ;;
      D <~ nj_l mulbs D A B ;;
      quiet (mzed_copy (Some C) D)
    else
      let mm := half (mz_w A) (mz_nrows A) in
      let kk := half (mz_w A) (mz_ncols A) in
      let nn := half (mz_w A) (mz_ncols B) in
      let mul_ C A B := mul_strassen_l mulbs fuel' C A B cutoff in
      let addmul_ C A B := addmul_strassen_l mulbs fuel' C A B cutoff in
      A11 <~ quiet (rd A mm kk false false) ;; A12 <~ quiet (rd A mm kk false true) ;;
      A21 <~ quiet (rd A mm kk true false) ;; A22 <~ quiet (rd A mm kk true true) ;;
      B11 <~ quiet (rd B kk nn false false) ;; B12 <~ quiet (rd B kk nn false true) ;;
      B21 <~ quiet (rd B kk nn true false) ;; B22 <~ quiet (rd B kk nn true true) ;;
      S <~ quiet (mzed_init (mz_ff A) mm kk) ;;
      T <~ quiet (mzed_init (mz_ff A) kk nn) ;;
      U <~ quiet (mzed_init (mz_ff A) mm nn) ;;
      S <~ quiet (mzed_add_ S A22 A21) ;;
      T <~ quiet (mzed_add_ T B22 B21) ;;
      U <~ mul_ U S T ;;
      C <~ quiet (wr C mm nn true true (fun C22 => mzed_add_ C22 U C22)) ;;
      C <~ quiet (wr C mm nn false true (fun C12 => mzed_add_ C12 U C12)) ;;
      U <~ mul_ U A12 B21 ;;
      C <~ quiet (wr C mm nn false false (fun C11 => mzed_add_ C11 U C11)) ;;
      C <~ wr_l C mm nn false false (fun C11 => addmul_ C11 A11 B11) ;;
      S <~ quiet (mzed_add_ S S A12) ;;
      T <~ quiet (mzed_add_ T T B12) ;;
      U <~ addmul_ U S T ;;
      C <~ quiet (wr C mm nn false true (fun C12 => mzed_add_ C12 C12 U)) ;;
      S <~ quiet (mzed_add_ S A11 S) ;;
      C <~ wr_l C mm nn false true (fun C12 => addmul_ C12 S B12) ;;
      T <~ quiet (mzed_add_ T B11 T) ;;
      C <~ wr_l C mm nn true false (fun C21 => addmul_ C21 A21 T) ;;
      S <~ quiet (mzed_add_ S A22 A12) ;;
      T <~ quiet (mzed_add_ T B22 B12) ;;
      U <~ addmul_ U S T ;;
      C <~ quiet (wr C mm nn true false (fun C21 => mzed_add_ C21 C21 U)) ;;
      C <~ quiet (wr C mm nn true true (fun C22 => mzed_add_ C22 C22 U)) ;;
      strassen_rest_l mulbs false C A B mm kk nn
  end.
(** strassen.c:33-36 [mzed_mul_strassen], [mzed_addmul_strassen] *)
Definition mzed_mul_strassen_l (mulbs : nat) (C : option mzed) (A B : mzed) (cutoff : Z) : log mzed :=
  C <~ quiet (mzed_mul_init C A B true) ;; mul_strassen_l mulbs (strassen_fuel A B) C A B cutoff.
Definition mzed_addmul_strassen_l (mulbs : nat) (C : option mzed) (A B : mzed) (cutoff : Z) : log mzed :=
  C <~ quiet (mzed_mul_init C A B false) ;; addmul_strassen_l mulbs (strassen_fuel A B) C A B cutoff.
