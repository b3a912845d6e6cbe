(** Model of src/gf2x.h: word-level arithmetic in GF(2)[X]. *)
From Coq Require Import NArith List Bool Arith.
From Verif Require Import Base.
Import ListNotations.
Local Open Scope N_scope.

(** ** C words: 64-bit unsigned integers, represented by their value in [N] *)
Definition ffff : N := 18446744073709551615.      (* m4ri_ffff = 2^64-1 *)
Definition wshl (a : N) (n : nat) : N := N.land (N.shiftl a (N.of_nat n)) ffff.
Definition wshr (a : N) (n : nat) : N := N.shiftr a (N.of_nat n).
Definition wnot (a : N) : N := N.lxor a ffff.
Definition wsub1 (a : N) : N := if a =? 0 then ffff else a - 1.
Definition twopow (n : nat) : N := wshl 1 n.      (* __M4RI_TWOPOW *)

(** src/gf2x.h:34 [__M4RIE_1tF(X) = ~((X)-1)] *)
Definition w1tF (x : N) : N := wnot (wsub1 x).

(** src/gf2x.h:43-84 [gf2x_mul]: the switch on d falls through cases d, d-1, ..., 1; each
    case k is [res ^= 1tF((a & 2^(k-1)) >> (k-1)) & (b << (k-1))]; other d: m4ri_die. *)
Fixpoint gf2x_mul_cases (k : nat) (a b r : N) : N :=
  match k with
  | O => r
  | S k' =>
      gf2x_mul_cases k' a b
        (N.lxor r (N.land (w1tF (wshr (N.land a (twopow k')) k')) (wshl b k')))
  end.
Definition gf2x_mul (a b : N) (d : nat) : res N :=
  if ((1 <=? d) && (d <=? 32))%nat then Ok (gf2x_mul_cases d a b 0) else Die.

(** src/gf2x.h:91-100 [gf2x_deg] *)
Definition gf2x_deg (a : N) : nat :=
  let step (mask : N) (s : nat) (st : nat * N) : nat * N :=
    let '(d, a) := st in
    if N.land a mask =? 0 then (d, a) else ((d + s)%nat, wshr a s) in
  fst (step 2 1%nat (step 12 2%nat (step 240 4%nat (step 65280 8%nat
        (step 4294901760 16%nat (step 18446744069414584320 32%nat (0%nat, a))))))).

(** src/gf2x.h:106-116, 122-128, 134-145 [gf2x_div], [gf2x_mod], [gf2x_divmod]: one loop
    [for (deg_a = deg(a); deg_a >= deg_b; deg_a--)]; here [n] is [deg_a - deg_b + 1]. *)
Fixpoint gf2x_divmod_loop (n : nat) (deg_b : nat) (b : N) (a r : N) : N * N :=
  match n with
  | O => (r, a)
  | S s =>                                        (* s = deg_a - deg_b *)
      let mask := w1tF (wshr a (deg_b + s)) in
      let r' := N.lor r (N.land mask (twopow s)) in
      let a' := N.lxor a (N.land mask (wshl b s)) in
      gf2x_divmod_loop s deg_b b a' r'
  end.
Definition gf2x_divmod (a b : N) : N * N :=       (* (quotient, *rem) *)
  let deg_b := gf2x_deg b in
  gf2x_divmod_loop (S (gf2x_deg a) - deg_b) deg_b b a 0.
Definition gf2x_div (a b : N) : N := fst (gf2x_divmod a b).
Fixpoint gf2x_mod_loop (n : nat) (deg_b : nat) (b : N) (a : N) : N :=
  match n with
  | O => a
  | S s => gf2x_mod_loop s deg_b b (N.lxor a (N.land (w1tF (wshr a (deg_b + s))) (wshl b s)))
  end.
Definition gf2x_mod (a b : N) : N :=
  let deg_b := gf2x_deg b in
  gf2x_mod_loop (S (gf2x_deg a) - deg_b) deg_b b a.

(** src/gf2x.h:152-169 [gf2x_invmod]: extended Euclid; [fuel] bounds the while loop (it is
    proved never to run out); y/lasty are computed by the C code but not returned. *)
Fixpoint gf2x_invmod_loop (fuel : nat) (a b x lastx y lasty : N) (d : nat) : res N :=
  if b =? 0 then Ok lastx else
  match fuel with
  | O => UB
  | S fuel' =>
      let '(quo, rem) := gf2x_divmod a b in
      qx <- gf2x_mul quo x d ;;
      qy <- gf2x_mul quo y d ;;
      gf2x_invmod_loop fuel' b rem (N.lxor lastx qx) x (N.lxor lasty qy) y d
  end.
Definition gf2x_invmod (a b : N) (d : nat) : res N :=
  gf2x_invmod_loop (N.to_nat (N.size b)) a b 0 1 1 0 d.
