(** Client programs: the calls of HistSpec.v executed by the modelled functions.

    Models no function of /repo by itself: it is the dispatch a C client writes.  Every case names the public
    function of mzed.h, mzd_slice.h, newton_john.h, strassen.h, trsm.h, ple.h, echelonform.h, conversion.h and
    blm.h that is called, with the definition of that function from the model.  Calls that mix representations
    cannot be written in C (they do not type-check); here they are [UB], as is a matrix number that does not
    exist. *)
From Coq Require Import NArith ZArith List Bool Arith.
From Verif Require Import Base Spec Gf2eModel Gf2eProofs MzdModel MzedModel MzedSpec SliceSpec NjModel StrassenModel SliceModel KaraModel ConvModel.
From Verif Require Import MulModel TrsmModel PermModel PleModel BlmSpec BlmModel BlmOps BlmFin HistSpec.
Import ListNotations.
Local Open Scope nat_scope.

(** a matrix held by the client: mzed_t * or mzd_slice_t * *)
Inductive mval := Pk (A : mzed) | Sl (A : slice).
Definition kind_of (v : mval) : kind := match v with Pk _ => Packed | Sl _ => Sliced end.
Definition state := list mval.

(** what is fixed for a client: the field, the M4RI block sizes, the elimination parameter, M4RI itself *)
Record config := Config { cf_ff : gf2e; cf_mulbs : nat; cf_l2 : Z; cf_k0 : nat; cf_x : m4ri }.
Definition config_ok (f : N) (cf : config) : Prop :=
  gf2e_wf (cf_ff cf) /\ ff_minpoly (cf_ff cf) = f /\ 2 <= ff_degree (cf_ff cf) /\ irreducible f /\
  16 <= cf_mulbs cf /\ (4096 <= cf_l2 cf)%Z /\ cf_k0 cf <= 7 /\ m4ri_ok (cf_x cf).

Definition get (S : state) (x : nat) : res mval := match nth_error S x with Some v => Ok v | None => UB end.
Definition get_p (S : state) (t : option nat) : res (option mzed) :=
  match t with None => Ok None | Some x => match nth_error S x with Some (Pk A) => Ok (Some A) | _ => UB end end.
Definition get_s (S : state) (t : option nat) : res (option slice) :=
  match t with None => Ok None | Some x => match nth_error S x with Some (Sl A) => Ok (Some A) | _ => UB end end.
(** a search loop that does not end within the fuel counts as a failure *)
Definition ended {X} (o : option (res X)) : res X := match o with Some r => r | None => UB end.
Definition BLM_FUEL := 272.

(** calls that change matrix x *)
Definition in_place (S : state) (x : nat) (p : mzed -> res mzed) (s : slice -> res slice) : res (state * out) :=
  v <- get S x ;;
  match v with
  | Pk A => A' <- p A ;; Ok (put S x (Pk A'), Nothing)
  | Sl A => A' <- s A ;; Ok (put S x (Sl A'), Nothing)
  end.
(** calls that change matrix x and read matrix y *)
Definition in_place2 (S : state) (x y : nat) (p : mzed -> mzed -> res mzed) (s : slice -> slice -> res slice) : res (state * out) :=
  w <- get S y ;;
  match w with
  | Pk B => in_place S x (fun A => p A B) (fun _ => UB)
  | Sl B => in_place S x (fun _ => UB) (fun A => s A B)
  end.
(** calls with a target *)
Definition into (S : state) (t : option nat) (x : nat) (p : option mzed -> mzed -> res mzed) (s : option slice -> slice -> res slice) : res (state * out) :=
  v <- get S x ;;
  match v with
  | Pk A => T <- get_p S t ;; C <- p T A ;; Ok (store S t (Pk C), Nothing)
  | Sl A => T <- get_s S t ;; C <- s T A ;; Ok (store S t (Sl C), Nothing)
  end.
Definition into2 (S : state) (t : option nat) (x y : nat) (p : option mzed -> mzed -> mzed -> res mzed)
                 (s : option slice -> slice -> slice -> res slice) : res (state * out) :=
  w <- get S y ;;
  match w with
  | Pk B => into S t x (fun T A => p T A B) (fun _ _ => UB)
  | Sl B => into S t x (fun _ _ => UB) (fun T A => s T A B)
  end.

Section Run.
Variable cf : config.

(** products: mzed_mul, mzed_mul_naive, mzed_mul_newton_john, mzed_mul_strassen, mzed_mul_karatsuba, mzed_mul_blm *)
Definition p_mul (ch : choice) (C : option mzed) (A B : mzed) : res mzed :=
  match ch with
  | Default => mzed_mul (cf_mulbs cf) (cf_l2 cf) C A B
  | Naive => mzed_mul_naive C A B
  | NewtonJohn => mzed_mul_newton_john (cf_mulbs cf) C A B
  | Strassen cutoff => mzed_mul_strassen (cf_mulbs cf) C A B cutoff
  | Karatsuba => mzed_mul_karatsuba C A B
  | Bilinear => ended (mzed_mul_blm BLM_FUEL (cf_x cf) C A B)
  | _ => UB
  end.
Definition p_addmul (ch : choice) (C A B : mzed) : res mzed :=
  match ch with
  | Default => mzed_addmul (cf_mulbs cf) (cf_l2 cf) (Some C) A B
  | Naive => mzed_addmul_naive (Some C) A B
  | NewtonJohn => mzed_addmul_newton_john (cf_mulbs cf) (Some C) A B
  | Strassen cutoff => mzed_addmul_strassen (cf_mulbs cf) (Some C) A B cutoff
  | Karatsuba => mzed_addmul_karatsuba (Some C) A B
  | Bilinear => ended (mzed_addmul_blm BLM_FUEL (cf_x cf) (Some C) A B)
  | _ => UB
  end.
(** mzd_slice_mul, mzd_slice_mul_karatsuba, mzd_slice_mul_blm *)
Definition s_mul (ch : choice) (C : option slice) (A B : slice) : res slice :=
  match ch with
  | Default => mzd_slice_mul C A B
  | Karatsuba => mzd_slice_mul_karatsuba C A B
  | Bilinear => ended (mzd_slice_mul_blm BLM_FUEL (cf_x cf) C A B None)
  | _ => UB
  end.
Definition s_addmul (ch : choice) (C A B : slice) : res slice :=
  match ch with
  | Default => mzd_slice_addmul (Some C) A B
  | Karatsuba => mzd_slice_addmul_karatsuba (Some C) A B
  | Naive => mzd_slice_addmul_naive_ (Some C) A B
  | Bilinear => ended (mzd_slice_addmul_blm BLM_FUEL (cf_x cf) (Some C) A B None)
  | _ => UB
  end.
Definition p_lower (ch : choice) (L B : mzed) : res mzed :=
  match ch with
  | Default => mzed_trsm_lower_left (cf_mulbs cf) (cf_l2 cf) L B
  | Naive => mzed_trsm_lower_left_naive L B
  | NewtonJohn => mzed_trsm_lower_left_newton_john L B
  | _ => UB
  end.
Definition p_upper (ch : choice) (U B : mzed) : res mzed :=
  match ch with
  | Default => mzed_trsm_upper_left (cf_mulbs cf) (cf_l2 cf) U B
  | Naive => mzed_trsm_upper_left_naive U B
  | NewtonJohn => mzed_trsm_upper_left_newton_john U B
  | _ => UB
  end.
Definition s_lower (ch : choice) (L B : slice) : res slice :=
  match ch with
  | Default => mzd_slice_trsm_lower_left L B
  | Naive => mzd_slice_trsm_lower_left_naive L B
  | NewtonJohn => mzd_slice_trsm_lower_left_newton_john L B
  | _ => UB
  end.
Definition s_upper (ch : choice) (U B : slice) : res slice :=
  match ch with
  | Default => mzd_slice_trsm_upper_left U B
  | Naive => mzd_slice_trsm_upper_left_naive U B
  | NewtonJohn => mzd_slice_trsm_upper_left_newton_john U B
  | _ => UB
  end.
Definition p_echelon (ch : choice) (A : mzed) (full : bool) : res (mzed * nat) :=
  match ch with
  | Default => mzed_echelonize (cf_k0 cf) (cf_l2 cf) A full
  | Naive => mzed_echelonize_naive A full
  | NewtonJohn => mzed_echelonize_newton_john (cf_k0 cf) A full
  | ByPle => mzed_echelonize_ple (cf_l2 cf) A full
  | _ => UB
  end.
(** mzd_slice_echelonize is #defined to mzd_slice_echelonize_ple (echelonform.h) *)
Definition s_echelon (ch : choice) (A : slice) (full : bool) : res (slice * nat) :=
  match ch with
  | Default | ByPle => mzd_slice_echelonize_ple (cf_l2 cf) A full
  | _ => UB
  end.

(** mzed_ple, mzed_ple_naive, mzed_ple_newton_john; mzd_slice_ple, mzd_slice_pluq; the permutations come from mzp_init *)
Definition p_ple (ch : choice) (A : mzed) : res (mzed * mzp * mzp * nat) :=
  let P := seq 0 (mz_nrows A) in let Q := seq 0 (mz_ncols A) in
  match ch with
  | Default => mzed_ple (cf_l2 cf) A P Q
  | Naive => mzed_ple_naive A P Q
  | NewtonJohn => mzed_ple_newton_john A P Q
  | _ => UB
  end.
Definition s_ple (A : slice) : res (slice * mzp * mzp * nat) := mzd_slice_ple (cf_l2 cf) A (seq 0 (sl_nrows A)) (seq 0 (sl_ncols A)).
Definition s_pluq (A : slice) : res (slice * mzp * mzp * nat) := mzd_slice_pluq (cf_l2 cf) A (seq 0 (sl_nrows A)) (seq 0 (sl_ncols A)).

Definition run_cmd (S : state) (c : cmd) (ch : choice) : res (state * out) :=
  match c with
  | New m n =>
      match ch with
      | As Packed => A <- mzed_init (cf_ff cf) m n ;; Ok (S ++ [Pk A], Nothing)
      | As Sliced => Ok (S ++ [Sl (mzd_slice_init (cf_ff cf) m n)], Nothing)
      | _ => UB
      end
  | SetElem x i j v => in_place S x (fun A => mzed_write_elem A i j v) (fun A => mzd_slice_write_elem A i j v)
  | AddElem x i j v => in_place S x (fun A => mzed_add_elem A i j v) (fun A => mzd_slice_add_elem A i j v)
  | SetDiag x v => in_place S x (fun A => mzed_set_ui A v) (fun A => mzd_slice_set_ui A v)
  | RowSwap x a b => in_place S x (fun A => mzed_row_swap A a b) (fun A => mzd_slice_row_swap A a b)
  | ColSwap x a b => in_place S x (fun A => mzed_col_swap A a b) (fun A => mzd_slice_col_swap A a b)
  | RowAdd x s d => in_place S x (fun A => mzed_row_add A s d) (fun A => mzd_slice_row_add A s d)
  | RowAddMul x i y j v s => in_place2 S x y (fun A B => mzed_add_multiple_of_row A i B j v s) (fun _ _ => UB)
  | RowScale x i s v => in_place S x (fun A => mzed_rescale_row A i s v) (fun A => mzd_slice_rescale_row A i s v)
  | RowCopy x i y j => in_place2 S x y (fun A B => mzed_copy_row A i B j) (fun A B => mzd_slice_copy_row A i B j)
  | Copy t x =>
      match ch with
      | Convert =>
          v <- get S x ;;
          match v with
          | Pk A => T <- get_s S t ;; C <- mzed_slice T A ;; Ok (store S t (Sl C), Nothing)
          | Sl A => T <- get_p S t ;; C <- mzed_cling T A ;; Ok (store S t (Pk C), Nothing)
          end
      | _ => into S t x mzed_copy mzd_slice_copy
      end
  | Add t x y => into2 S t x y mzed_add mzd_slice_add
  | Scale t v x => into S t x (fun T A => mzed_mul_scalar T v A) (fun T A => mzd_slice_mul_scalar T v A)
  | Concat t x y => into2 S t x y mzed_concat mzd_slice_concat
  | Stack t x y => into2 S t x y mzed_stack mzd_slice_stack
  | Sub t x lr lc hr hc => into S t x (fun T A => mzed_submatrix T A lr lc hr hc) (fun T A => mzd_slice_submatrix T A lr lc hr hc)
  | Mul t x y => into2 S t x y (p_mul ch) (s_mul ch)
  | AddMul t x y =>
      v <- get S x ;;
      match v with
      | Pk A => in_place2 S t y (fun C B => p_addmul ch C A B) (fun _ _ => UB)
      | Sl A => in_place2 S t y (fun _ _ => UB) (fun C B => s_addmul ch C A B)
      end
  | Invert t x => into S t x (fun T A => mzed_invert_newton_john (cf_k0 cf) T A) (fun _ _ => UB)
  | SolveLower x b => in_place2 S b x (fun B L => p_lower ch L B) (fun B L => s_lower ch L B)
  | SolveUpper x b => in_place2 S b x (fun B U => p_upper ch U B) (fun B U => s_upper ch U B)
  | Echelon full x =>
      v <- get S x ;;
      match v with
      | Pk A => '(A', r) <- p_echelon ch A full ;; Ok (put S x (Pk A'), Rank r)
      | Sl A => '(A', r) <- s_echelon ch A full ;; Ok (put S x (Sl A'), Rank r)
      end
  | Ple x =>
      v <- get S x ;;
      match v with
      | Pk A => '(A', P, Q, r) <- p_ple ch A ;; Ok (put S x (Pk A'), Factors P Q r)
      | Sl A => '(A', P, Q, r) <- s_ple A ;; Ok (put S x (Sl A'), Factors P Q r)
      end
  | Pluq x =>
      v <- get S x ;;
      match v with
      | Pk A => UB
      | Sl A => '(A', P, Q, r) <- s_pluq A ;; Ok (put S x (Sl A'), Factors P Q r)
      end
  | PermRows trans x P => in_place S x (fun A => if trans then mzed_apply_p_left_trans A P else mzed_apply_p_left A P)
                                       (fun A => if trans then mzd_slice_apply_p_left_trans A P else mzd_slice_apply_p_left A P)
  | PermCols trans x P => in_place S x (fun A => if trans then mzed_apply_p_right_trans A P else mzed_apply_p_right A P)
                                       (fun A => if trans then mzd_slice_apply_p_right_trans A P else mzd_slice_apply_p_right A P)
  | Randomize x =>
      match ch with
      | Random rnd => in_place S x (fun A => mzed_randomize rnd A) (fun A => mzd_slice_randomize (fun k i j => N.testbit (rnd i j) (N.of_nat k)) A)
      | _ => UB
      end
  | FirstZeroRow x =>
      v <- get S x ;;
      match v with Pk A => Ok (S, Index (mzed_first_zero_row A)) | Sl _ => UB end
  | Read x i j =>
      v <- get S x ;;
      e <- match v with Pk A => mzed_read_elem A i j | Sl A => mzd_slice_read_elem A i j end ;; Ok (S, Elem e)
  | IsZero x =>
      v <- get S x ;;
      Ok (S, Answer (match v with Pk A => mzed_is_zero A | Sl A => mzd_slice_is_zero A end))
  | Equal x y =>
      v <- get S x ;; w <- get S y ;;
      match v, w with
      | Pk A, Pk B => Ok (S, Answer (match mzed_cmp A B with Eq => true | _ => false end))
      | Sl A, Sl B => r <- mzd_slice_cmp A B ;; Ok (S, Answer (Z.eqb r 0))
      | _, _ => UB
      end
  end.

Fixpoint run (S : state) (p : program) : res (state * list out) :=
  match p with
  | [] => Ok (S, [])
  | (c, ch) :: p => '(S1, o) <- run_cmd S c ch ;; '(S', os) <- run S1 p ;; Ok (S', o :: os)
  end.
(** a client that looks at the answers *)
Fixpoint serve (S : state) (t : client) : res (state * list (cmd * out)) :=
  match t with
  | Stop => Ok (S, [])
  | Call c ch next => '(S1, o) <- run_cmd S c ch ;; '(S', tr) <- serve S1 (next o) ;; Ok (S', (c, o) :: tr)
  end.
End Run.

(** ** the relation between the client's matrices and the tables *)
Definition stands (f : N) (v : mval) (A : amat) : Prop :=
  match v with
  | Pk M => holds M f (a_m A) (a_n A) (val A)
  | Sl M => sholds M f (a_m A) (a_n A) (val A)
  end.
Definition rel (f : N) (ks : list kind) (st : list amat) (S : state) : Prop :=
  ks = map kind_of S /\ Forall2 (stands f) S st.
