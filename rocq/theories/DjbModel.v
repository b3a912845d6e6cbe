(** Model of src/mzd_ptr.c and of the part of src/blm.c that applies bilinear maps. *)
From Coq Require Import NArith List Bool Arith.
From Verif Require Import Base Gf2xModel Gf2eModel MzdModel SliceModel.
Import ListNotations.
Local Open Scope nat_scope.

(** M4RI djb.h [djb_t]: a straight-line program.  An instruction is (target, source, type); type true is
    [source_source] (the operand is an input), false [source_target] (the operand is another target).
    M4RI executes the array from its end to its beginning. *)
Definition instr := (nat * nat * bool)%type.
Record djb := Djb { dj_nrows : nat; dj_ncols : nat; dj_prog : list instr }.

(** mzd_ptr.c:14-27, one iteration; [z] is the array iszero *)
Definition djb_step (V : list mzd) (ins : instr) (st : list mzd * list bool) : res (list mzd * list bool) :=
  let '(t, s, typ) := ins in
  let '(W, z) := st in
  zt <- lget z t ;;
  if zt : bool then
    wt <- lget W t ;;
    w <- (if typ then (v <- lget V s ;; mzd_copy wt v) else (v <- lget W s ;; mzd_copy wt v)) ;;
    W <- lset W t w ;;
    z <- lset z t false ;;
    Ok (W, z)
  else
    wt <- lget W t ;;
    w <- (if typ then (v <- lget V s ;; mzd_add wt wt v) else (v <- lget W s ;; mzd_add wt wt v)) ;;
    W <- lset W t w ;;
    Ok (W, z).
(** mzd_ptr.c:5-29 [djb_apply_mzd_ptr] *)
Definition djb_apply_mzd_ptr (m : djb) (W V : list mzd) : res (list mzd) :=
  st <- for_down 0 (length (dj_prog m)) (fun i st => ins <- lget (dj_prog m) i ;; djb_step V ins st) (W, repeat true (dj_nrows m)) ;;
  Ok (fst st).
