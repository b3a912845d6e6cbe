(** Model of the functions that print matrices.  [printf] and [sprintf] of the C library are modelled as far as
    they are used: literal text and the conversion %<width>x. *)
From Coq Require Import NArith List Bool Arith Ascii String.
From Verif Require Import Base Spec Gf2xModel Gf2eModel MzdModel MzedModel SliceModel PrintSpec.
Import ListNotations.
Local Open Scope nat_scope.

(** C library: digits that %x prints; fuel = digits of an unsigned int *)
Fixpoint hex (fuel : nat) (v : N) : text :=
  match fuel with
  | O => []
  | S fuel => (if (v / 16 =? 0)%N then [] else hex fuel (v / 16)) ++ [digit (v mod 16)]
  end.
(** C library: printf("%<width>x", (int)v): pads with blanks on the left, never cuts.  v is a word; the conversion
    to int keeps its low 32 bits, and %x prints these as unsigned. *)
Definition printf_x (width : nat) (v : N) (o : text) : text :=
  let s := hex 8 (N.land v (N.ones 32)) in o ++ repeat " "%char (width - List.length s) ++ s.
Definition printf_lit (s : string) (o : text) : text := o ++ list_ascii_of_string s.
Definition newline : string := String "010"%char EmptyString.

(** mzed.c:254-271 [mzed_print]; the text o printed before is extended *)
Definition mzed_print (A : mzed) (o : text) : res text :=
  let width := mz_w A / 4 in
  let width := if mz_w A mod 4 =? 0 then width else width + 1 in
  for_ 0 (mz_nrows A) (fun i o =>
    let o := printf_lit "[" o in
    o <- for_ 0 (mz_ncols A) (fun j o =>
           tmp <- mzed_read_elem A i j ;;
           let o := printf_x width tmp o in
           Ok (if j <? mz_ncols A - 1 then printf_lit " " o else o)) o ;;
    Ok (printf_lit newline (printf_lit "]" o))) o.

(** mzd_slice.c:63-80 [mzd_slice_print] *)
Definition mzd_slice_print (A : slice) (o : text) : res text :=
  w <- gf2e_degree_to_w (sl_ff A) ;;
  let width := w / 4 in
  let width := if w mod 4 =? 0 then width else width + 1 in
  for_ 0 (sl_nrows A) (fun i o =>
    let o := printf_lit "[" o in
    o <- for_ 0 (sl_ncols A) (fun j o =>
           tmp <- mzd_slice_read_elem A i j ;;
           let o := printf_x width tmp o in
           Ok (if j <? sl_ncols A - 1 then printf_lit " " o else o)) o ;;
    Ok (printf_lit newline (printf_lit "]" o))) o.
