(** Model of src/gf2e.h and src/gf2e.c: the field handle [gf2e]. *)
From Coq Require Import NArith List Bool Arith.
From Verif Require Import Base Gf2xModel.
Import ListNotations.
Local Open Scope N_scope.

(** src/gf2e.h:62-72 [struct gf2e_struct].  The two function pointers [inv], [mul] are
    modelled by [gf2e_inv] and by the choice made in [ff_mul] on [ff_tab] being present:
    gf2e_init sets [mul = _gf2e_mul_table] exactly when it allocates [_mul]. *)
Record gf2e := {
  ff_degree : nat;
  ff_minpoly : N;
  ff_pow_gen : list N;
  ff_red : list N;
  ff_tab : option (list (list N))
}.

(** gf2e.c:7-9: the highest set bit of minpoly among bits 0..16 ([calloc]: 0 if none) *)
Fixpoint gf2e_init_degree (n : nat) (minpoly : N) : nat :=
  match n with
  | O => O
  | S i => if N.testbit minpoly (N.of_nat i) then i else gf2e_init_degree i minpoly
  end.

(** gf2e.c:19-21: tmp = sum of minpoly<<j over the bits j<degree of i *)
Fixpoint gf2e_init_red_tmp (n : nat) (i minpoly : N) : N :=
  match n with
  | O => 0
  | S j => N.lxor (gf2e_init_red_tmp j i minpoly)
                  (if N.land (twopow j) i =? 0 then 0 else wshl minpoly j)
  end.

(** gf2e.c:15-24 *)
Definition gf2e_init_red (degree : nat) (minpoly : N) : res (list N) :=
  let order := (2 ^ degree)%nat in
  for_ 1 order (fun i red =>
    let tmp := gf2e_init_red_tmp degree (N.of_nat i) minpoly in
    let idx := N.to_nat (wshr tmp degree) in
    old <- lget red idx ;;
    _ <- guard (old =? 0) ;;                    (* assert *)
    lset red idx tmp) (repeat 0 order).

(** gf2e.c:29-35: inner loop for (j=i; j>=degree; j--); n = j - degree + 1 *)
Fixpoint gf2e_init_pow_loop (n degree : nat) (minpoly p : N) : N :=
  match n with
  | O => p
  | S s =>
      gf2e_init_pow_loop s degree minpoly
        (if N.land p (twopow (degree + s)) =? 0 then p else N.lxor p (wshl minpoly s))
  end.
Definition gf2e_init_pow (degree : nat) (minpoly : N) : list N :=
  map (fun i => gf2e_init_pow_loop (S i - degree) degree minpoly (twopow i)) (seq 0 (2 * degree - 1)).

(** gf2e.c:38-48: one multiplication table row, the first row and column stay 0 *)
Definition gf2e_init_mul_row (degree : nat) (red : list N) (i : nat) : res (list N) :=
  let order := (2 ^ degree)%nat in
  for_ 1 order (fun j row =>
    r <- gf2x_mul (N.of_nat i) (N.of_nat j) degree ;;
    q <- lget red (N.to_nat (wshr r degree)) ;;
    lset row j (N.lxor r q)) (repeat 0 order).
Definition gf2e_init_mul (degree : nat) (red : list N) : res (list (list N)) :=
  let order := (2 ^ degree)%nat in
  for_ 1 order (fun i tab =>
    row <- gf2e_init_mul_row degree red i ;;
    Ok (tab ++ [row])) [repeat 0 order].

(** gf2e.c:4-54 [gf2e_init]. (degree 0 would make [n = -1] and malloc(-8); modelled as UB.) *)
Definition gf2e_init (minpoly : N) : res gf2e :=
  let degree := gf2e_init_degree 17 minpoly in
  _ <- guard (negb (degree =? 0)%nat) ;;
  red <- gf2e_init_red degree minpoly ;;
  let pow := gf2e_init_pow degree minpoly in
  if (degree <=? 8)%nat then
    tab <- gf2e_init_mul degree red ;;
    Ok {| ff_degree := degree; ff_minpoly := minpoly; ff_pow_gen := pow; ff_red := red;
          ff_tab := Some tab |}
  else
    Ok {| ff_degree := degree; ff_minpoly := minpoly; ff_pow_gen := pow; ff_red := red;
          ff_tab := None |}.

(** gf2e.h:94-96 [gf2e_inv] *)
Definition gf2e_inv (ff : gf2e) (a : N) : res N := gf2x_invmod a (ff_minpoly ff) (ff_degree ff).

(** gf2e.h:102-104 [_gf2e_mul_table] *)
Definition gf2e_mul_table (tab : list (list N)) (a b : N) : res N :=
  row <- lget tab (N.to_nat a) ;; lget row (N.to_nat b).

(** gf2e.h:110-113 [_gf2e_mul_arith] *)
Definition gf2e_mul_arith (ff : gf2e) (a b : N) : res N :=
  r <- gf2x_mul a b (ff_degree ff) ;;
  q <- lget (ff_red ff) (N.to_nat (wshr r (ff_degree ff))) ;;
  Ok (N.lxor r q).

(** gf2e.h:119-124 [gf2e_mul], and the function pointer [ff->mul] (gf2e.c:49-52) *)
Definition gf2e_mul (ff : gf2e) (a b : N) : res N :=
  match ff_tab ff with
  | Some tab => gf2e_mul_table tab a b
  | None => gf2e_mul_arith ff a b
  end.

(** gf2e.h:132-157 [gf2e_degree_to_w] *)
Definition gf2e_degree_to_w (ff : gf2e) : res nat :=
  match ff_degree ff with
  | 2 => Ok 2%nat
  | 3 | 4 => Ok 4%nat
  | 5 | 6 | 7 | 8 => Ok 8%nat
  | 9 | 10 | 11 | 12 | 13 | 14 | 15 | 16 => Ok 16%nat
  | _ => Die
  end%nat.

(** gf2e.h:166-193 [gf2e_t16_init], entry i: the OR over lanes k = 0, w, 2w, .. < 16 of
    [gf2e_mul(ff, a, (i>>k) & mask_w) << k]. *)
Definition gf2e_t16_lane (ff : gf2e) (a : N) (w : nat) (i : N) (k : nat) : res N :=
  v <- gf2e_mul ff a (N.land (wshr i (w * k)) (N.ones (N.of_nat w))) ;;
  Ok (wshl v (w * k)).
Definition gf2e_t16_entry (ff : gf2e) (a : N) (w : nat) (i : N) : res N :=
  for_ 0 (16 / w) (fun k acc =>
    v <- gf2e_t16_lane ff a w i k ;; Ok (N.lor acc v)) 0.
Definition gf2e_t16_init (ff : gf2e) (a : N) : res (list N) :=
  w <- gf2e_degree_to_w ff ;;
  for_ 0 (2 ^ 16) (fun i mul =>
    v <- gf2e_t16_entry ff a w (N.of_nat i) ;;
    lset mul i v) (repeat 0 (2 ^ 16)%nat).
