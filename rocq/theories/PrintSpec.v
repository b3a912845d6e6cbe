(** Specification of the text that printing a matrix gives.  No reference to the model of the code.

    One line per row: an opening bracket, the elements separated by single blanks, a closing bracket, a newline.
    Every element is a hexadecimal number, right-justified in a field of fixed width. *)
From Coq Require Import NArith List Bool Arith Ascii String.
From Verif Require Import Spec.
Import ListNotations.
Local Open Scope nat_scope.

Definition text := list ascii.
Definition digit (d : N) : ascii := nth (N.to_nat d) (list_ascii_of_string "0123456789abcdef") " "%char.
(** character k (from the left) of v in a field of w characters: a digit, or a blank before the first digit *)
Definition numeral_char (w : nat) (v : N) (k : nat) : ascii :=
  let d := (v / 16 ^ N.of_nat (w - 1 - k))%N in
  if (d =? 0)%N && (k <? w - 1) then " "%char else digit (d mod 16)%N.
Definition numeral (w : nat) (v : N) : text := map (numeral_char w v) (seq 0 w).
Fixpoint separated (l : list text) : text :=
  match l with
  | [] => []
  | [x] => x
  | x :: l => x ++ " "%char :: separated l
  end.
Definition line (w n : nat) (r : nat -> N) : text :=
  "["%char :: separated (map (fun j => numeral w (r j)) (seq 0 n)) ++ ["]"%char; "010"%char].
Definition page (w m n : nat) (F : mat) : text := List.concat (map (fun i => line w n (F i)) (seq 0 m)).
(** the field width for elements of degree < d *)
Definition field_width (d : nat) : nat := if d <=? 4 then 1 else if d <=? 8 then 2 else 4.
