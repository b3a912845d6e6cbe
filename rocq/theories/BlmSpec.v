(** Specification vocabulary for bilinear maps over GF(2), and the contracts of the M4RI routines whose results are not
    determined by their specification.  Definitions only. *)
From Coq Require Import NArith List Bool Arith.
From Verif Require Import Base Spec PolyFacts MzdModel MzedSpec SliceModel SliceSpec PermModel PleSpec Gf2eModel IrrTable DjbModel DjbSpec BlmModel.
Import ListNotations.
Local Open Scope nat_scope.

(** ** linear algebra over GF(2), bits *)
(** rows 0 .. r-1 of M (n columns) are independent; x is a sum of some of them *)
Definition bindep (r n : nat) (M : nat -> nat -> bool) : Prop :=
  forall l : nat -> bool, (forall j, j < n -> bxsum r (fun k => l k && M k j) = false) -> forall k, k < r -> l k = false.
Definition bspan (r n : nat) (M : nat -> nat -> bool) (x : nat -> bool) : Prop :=
  exists l : nat -> bool, forall j, j < n -> x j = bxsum r (fun k => l k && M k j).

(** M4RI [mzd_ple]: the returned r is the rank, and P moves r independent rows to the top *)
Definition ple_contract (D : mzd) (P : mzp) (r : nat) : Prop :=
  let m := mzd_nrows D in
  let D' := fun i k => mbit D (swaps (at_ P) m i) k in
  length P = m /\ valid_perm m (at_ P) /\ r <= m /\
  bindep r (mzd_ncols D) D' /\ forall i, i < m -> bspan r (mzd_ncols D) D' (D' i).
(** M4RI [mzd_inv_m4ri], on a square matrix with independent rows *)
Definition inv_contract (C X : mzd) : Prop :=
  let m := mzd_nrows C in
  wf_mzd X /\ mzd_nrows X = m /\ mzd_ncols X = m /\
  (forall i j, i < m -> j < m -> bmul m (mbit C) (mbit X) i j = (i =? j)) /\
  (forall i j, i < m -> j < m -> bmul m (mbit X) (mbit C) i j = (i =? j)).
(** M4RI [djb_compile] *)
Definition compile_contract (M : mzd) (d : djb) : Prop :=
  dj_nrows d = mzd_nrows M /\ dj_ncols d = mzd_ncols M /\ computes (mzd_nrows M) (mzd_ncols M) (mbit M) (dj_prog d).
Definition m4ri_ok (x : m4ri) : Prop :=
  (forall D, wf_mzd D -> ple_contract D (fst (x_ple x D)) (snd (x_ple x D))) /\
  (forall C, wf_mzd C -> mzd_nrows C = mzd_ncols C -> bindep (mzd_nrows C) (mzd_ncols C) (mbit C) -> inv_contract C (x_inv x C)) /\
  (forall M, wf_mzd M -> compile_contract M (x_compile x M)).

(** ** bilinear maps *)
(** the linear functional given by row k of M on the coefficients of the polynomial a *)
Definition functional (M : mzd) (k : nat) (a : N) : bool := bxsum (mzd_ncols M) (fun j => mbit M k j && N.testbit a (N.of_nat j)).
(** H * ((F * a) x (G * b)): the polynomial whose coefficient i is the sum over k of H[i][k] (F a)[k] (G b)[k] *)
Definition bilinear (F G H : mzd) (a b : N) : N :=
  word_of_bits (mzd_nrows H) (fun i => bxsum (mzd_nrows F) (fun k => mbit H i k && (functional F k a && functional G k b))).
(** the map multiplies polynomials with nf and ng coefficients, modulo the minimal polynomial of ff if ff is given *)
Definition multiplies (ff : option gf2e) (nf ng : nat) (f : blm) : Prop :=
  wf_mzd (bl_F f) /\ wf_mzd (bl_G f) /\ wf_mzd (bl_H f) /\
  mzd_ncols (bl_F f) = nf /\ mzd_ncols (bl_G f) = ng /\ mzd_nrows (bl_G f) = mzd_nrows (bl_F f) /\ mzd_ncols (bl_H f) = mzd_nrows (bl_F f) /\
  mzd_nrows (bl_H f) = (match ff with Some k => ff_degree k | None => nf + ng - 1 end) /\
  forall a b, (a < 2 ^ N.of_nat nf)%N -> (b < 2 ^ N.of_nat ng)%N ->
    bilinear (bl_F f) (bl_G f) (bl_H f) a b = match ff with Some k => pmod (pmul a b) (ff_minpoly k) | None => pmul a b end.
(** the straight-line programs of the map compute its matrices *)
Definition compiled (f : blm) : Prop :=
  exists pf pg ph, bl_f f = Some pf /\ bl_g f = Some pg /\ bl_h f = Some ph /\
    compile_contract (bl_F f) pf /\ compile_contract (bl_G f) pg /\ compile_contract (bl_H f) ph.
(** the number of irreducible polynomials of degree d in the table *)
Definition n_irr (d : nat) : nat := length (tl (nth d irreducible_polynomials [])).
(** a multiplication scheme: p[0] for (x - infinity)^p[0], p[d] moduli of degree d *)
Definition scheme_degree (p : list nat) : nat := nth 0 p 0 + fold_right (fun d s => d * nth d p 0 + s) 0 (seq 1 16).
Definition scheme_cost (p : list nat) : nat := nth (nth 0 p 0) BlmTable.costs 0 + fold_right (fun d s => nth d BlmTable.costs 0 * nth d p 0 + s) 0 (seq 1 16).
(** schemes with as many moduli of every degree as there are irreducible polynomials, at most *)
Definition scheme (p : list nat) : Prop := length p = 17 /\ nth 0 p 0 <= 16 /\ forall d, 1 <= d <= 16 -> nth d p 0 <= n_irr d.
(** the scheme p suffices for factors with nf and ng coefficients: the moduli have enough degree together, or one of them is so
    large that neither factor is reduced *)
Definition covers (nf ng : nat) (p : list nat) : Prop :=
  nf + ng - 1 <= scheme_degree p \/ exists d, 1 <= d <= 16 /\ 1 <= nth d p 0 /\ nf <= d /\ ng <= d.
(** the field, if any, has a minimal polynomial of its degree *)
Definition ff_fits (ff : option gf2e) : Prop := match ff with None => True | Some k => 1 <= ff_degree k /\ pdeg (ff_minpoly k) = N.of_nat (ff_degree k) end.
(** a map that can be applied: with matrices, or with programs that belong to the matrices *)
Definition usable (f : blm) : Prop := bl_f f = None \/ compiled f.
(** the coefficients of v from d on *)
Definition high (d : nat) (v : N) : N := N.shiftl (N.shiftr v (N.of_nat d)) (N.of_nat d).
(** what remains of the old value v of the target when f is applied: with matrices the result is added to it, with programs it
    replaces the coefficients that the map has *)
Definition kept (f : blm) (v : N) : N := match bl_f f with Some _ => high (mzd_nrows (bl_H f)) v | None => v end.
(** ** crt_init followed by blm_init_crt, for polynomials with at most 16 coefficients *)
(** by number of coefficients of the shorter and longer factor: 0 the initialisation ends, 1 it does not, 3 the scheme is empty *)
Definition crt_class (nf ng : nat) : nat :=
  match nf with
  | 1 => 3
  | 2 => if ng <=? 5 then 0 else if (ng =? 13) || (ng =? 16) then 3 else 1
  | 3 => if ng <=? 10 then 0 else 1
  | 4 => if ng =? 4 then 1 else 0
  | _ => 0
  end.
