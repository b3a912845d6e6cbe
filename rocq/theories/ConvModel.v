(** Model of the conversions packed <-> sliced (src/conversion.c, conversion_slice8.c,
    conversion_slice16.c, conversion_cling8.c, conversion_cling16.c) and of the packed-matrix
    operations defined by conversion (src/conversion.h).  The unrolled loop bodies are the tables of
    ConvTable.v, transcribed from the sources by gen/gen_conv.py. *)
From Coq Require Import NArith List Bool Arith.
From Verif Require Import Base Gf2xModel Gf2eModel MzdModel MzedModel SliceModel KaraModel ConvTable.
Import ListNotations.
Local Open Scope nat_scope.

(** ** conversion.h:303-316 *)
Definition x80008000 : N := 0x8000800080008000.
Definition x80808080 : N := 0x8080808080808080.
Definition x88888888 : N := 0x8888888888888888.
Definition xaaaaaaaa : N := 0xaaaaaaaaaaaaaaaa.
Definition xcccccccc : N := 0xcccccccccccccccc.
Definition xf0f0f0f0 : N := 0xf0f0f0f0f0f0f0f0.
Definition xff00ff00 : N := 0xff00ff00ff00ff00.
Definition xffff0000 : N := 0xffff0000ffff0000.
Definition xffffffff : N := 0xffffffff00000000.
Definition x__left04 : N := 0xf000000000000000.
Definition x__left08 : N := 0xff00000000000000.
Definition x__left16 : N := 0xffff000000000000.
Definition x__left32 : N := 0xffffffff00000000.

(** one line of word_slice: a = (a & m1) | (a & m2) << s *)
Definition gather1 (a : N) (st : N * N * nat) : N :=
  let '(m1, m2, s) := st in N.lor (N.land a m1) (wshl (N.land a m2) s).
(** one line of word_cling: a = (a & m1) | (a & m2) >> s *)
Definition spread1 (a : N) (st : N * N * nat) : N :=
  let '(m1, m2, s) := st in N.lor (N.land a m1) (wshr (N.land a m2) s).
(** conversion.c:22-29 [word_slice_64_02], 33-39 [_04], conversion_slice8.c:22-27 [_08], conversion_slice16.c:22-26 [_16] *)
Definition slice_steps (w : nat) : list (N * N * nat) :=
  match w with
  | 2 => [(xcccccccc, wshr xcccccccc 2, 1); (xf0f0f0f0, wshr xf0f0f0f0 4, 2); (xff00ff00, wshr xff00ff00 8, 4);
          (xffff0000, wshr xffff0000 16, 8); (xffffffff, wshr xffffffff 32, 16)]
  | 4 => [(xf0f0f0f0, wshr xf0f0f0f0 4, 3); (xff00ff00, wshr xff00ff00 8, 6); (xffff0000, wshr xffff0000 16, 12);
          (xffffffff, wshr xffffffff 32, 24)]
  | 8 => [(xff00ff00, wshr xff00ff00 8, 7); (xffff0000, wshr xffff0000 16, 14); (xffffffff, wshr xffffffff 32, 28)]
  | _ => [(xffff0000, wshr xffff0000 16, 15); (xffffffff, wshr xffffffff 32, 30)]
  end.
(** conversion.c:39-46 [word_cling_64_02], 50-56 [_04], conversion_cling8.c:22-27 [_08], conversion_cling16.c:22-26 [_16] *)
Definition cling_steps (w : nat) : list (N * N * nat) :=
  match w with
  | 2 => [(N.land xffff0000 x__left32, N.land (wshr xffff0000 16) x__left32, 16); (xff00ff00, wshr xff00ff00 8, 8);
          (xf0f0f0f0, wshr xf0f0f0f0 4, 4); (xcccccccc, wshr xcccccccc 2, 2); (xaaaaaaaa, wshr xaaaaaaaa 1, 1)]
  | 4 => [(N.land xff00ff00 x__left16, N.land (wshr xff00ff00 8) x__left16, 24); (xf0f0f0f0, wshr xf0f0f0f0 4, 12);
          (xcccccccc, wshr xcccccccc 2, 6); (xaaaaaaaa, wshr xaaaaaaaa 1, 3)]
  | 8 => [(N.land xf0f0f0f0 x__left08, N.land (wshr xf0f0f0f0 4) x__left08, 28); (xcccccccc, wshr xcccccccc 2, 14);
          (xaaaaaaaa, wshr xaaaaaaaa 1, 7)]
  | _ => [(N.land xcccccccc x__left04, N.land (wshr xcccccccc 2) x__left04, 30); (xaaaaaaaa, wshr xaaaaaaaa 1, 15)]
  end.
Definition word_slice (w : nat) (a : N) : N := fold_left gather1 (slice_steps w) a.
Definition word_cling (w : nat) (a : N) : N := fold_left spread1 (cling_steps w) a.
(** the masks & x.. applied before word_slice: xaaaaaaaa, x88888888, x80808080, x80008000 *)
Definition topmask (w : nat) : N :=
  match w with 2 => xaaaaaaaa | 4 => x88888888 | 8 => x80808080 | _ => x80008000 end.

(** OR of the values of a list of terms *)
Fixpoint or_terms {A} (g : A -> res N) (l : list A) : res N :=
  match l with [] => Ok 0%N | t :: r => x <- g t ;; y <- or_terms g r ;; Ok (N.lor x y) end.

(** ** packed -> sliced *)
(** word_slice_64_w(f[j+k] << a & mask) >> b *)
Definition sterm (w : nat) (f : list N) (j : nat) (t : nat * nat * nat) : res N :=
  let '(k, a, b) := t in
  x <- lget f (j + k) ;; Ok (wshr (word_slice w (N.land (wshl x a) (topmask w))) b).
(** word q of row i of slice t becomes g of its old value *)
Definition upd_word (X : list mzd) (t i q : nat) (g : N -> res N) : res (list mzd) :=
  x <- lget X t ;; row <- lget (mzd_rows x) i ;; v <- lget row q ;;
  v' <- g v ;;
  row' <- lset row q v' ;; rows' <- lset (mzd_rows x) i row' ;;
  lset X t (Mzd (mzd_nrows x) (mzd_ncols x) rows').
(** the statements executed for switch label n: the contributions of labels n, n-1, .., 1 to r_t *)
Definition rest_terms (p : spass) (n t : nat) : list (nat * nat * nat) :=
  map snd (filter (fun e => fst e =? t) (concat (rev (firstn n (sp_rest p))))).
Definition slice_row (w : nat) (p : spass) (F : mzd) (me : N) (i : nat) (X : list mzd) : res (list mzd) :=
  f <- lget (mzd_rows F) i ;;
  let wid := mzd_width F in
  (** for(j=0, j2=0; j+w < width; j+=w, j2++) runs for j2 < (width-1)/w, with j = w*j2 *)
  let nb := (wid - 1) / w in
  X <- for_ 0 nb (fun j2 X =>
    fold_left (fun (acc : res (list mzd)) '(t, terms) =>
      X <- acc ;; upd_word X t i j2 (fun v => e <- or_terms (sterm w f (w * j2)) terms ;; Ok (if sp_set p then e else N.lor v e)))
      (sp_bulk p) (Ok X)) X ;;
  let n := wid - w * nb in
  _ <- check ((1 <=? n) && (n <=? w)) ;;
  fold_left (fun (acc : res (list mzd)) '(t, _) =>
      X <- acc ;; r <- or_terms (sterm w f (w * nb)) (rest_terms p n t) ;;
      upd_word X t i nb (fun v => Ok (N.lor (if sp_clear p then N.land v (wnot me) else v) (N.land r me))))
    (sp_bulk p) (Ok X).
Definition slice_pass (w : nat) (F : mzd) (me : N) (nrows : nat) (p : spass) (X : list mzd) : res (list mzd) :=
  for_ 0 nrows (slice_row w p F me) X.
Fixpoint slice_passes (w : nat) (F : mzd) (me : N) (nrows : nat) (ps : list spass) (X : list mzd) : res (list mzd) :=
  match ps with [] => Ok X | p :: r => X <- slice_pass w F me nrows p X ;; slice_passes w F me nrows r X end.
(** the passes run for a given depth: conversion.c:121-179 [_mzed_slice2], 214-318 [_mzed_slice4],
    conversion_slice8.c:29-530 [_mzed_slice8], conversion_slice16.c:50-433 [_mzed_slice16]; [None]: the assert on the depth fails *)
Definition slice_prog (w depth : nat) : option (list spass) :=
  match w, depth with
  | 2, 2 => Some [slice2_d2]
  | 4, 3 => Some [slice4_d3]
  | 4, 4 => Some [slice4_d4]
  | 8, 8 => Some [slice8_d8]
  | 8, 7 => Some [slice8_d7]
  | 8, 6 => Some [slice8_d6]
  | 8, 5 => Some [slice8_d5]
  | 16, 9 => Some [slice16_0_7; slice16_8_8]
  | 16, 10 => Some [slice16_0_7; slice16_8_9]
  | 16, 11 => Some [slice16_0_7; slice16_8_10]
  | 16, 12 => Some [slice16_0_7; slice16_8_11]
  | 16, 13 => Some [slice16_0_7; slice16_8_11; slice16_12_12]
  | 16, 14 => Some [slice16_0_7; slice16_8_11; slice16_12_13]
  | 16, 15 => Some [slice16_0_7; slice16_8_11; slice16_12_14]
  | 16, 16 => Some [slice16_0_7; slice16_8_11; slice16_12_15]
  | _, _ => None
  end.
Definition mzed_slice_w (w : nat) (T : slice) (F : mzed) : res slice :=
  match slice_prog w (sl_depth T) with
  | None => UB
  | Some ps =>
      if mzed_is_zero F then Ok T
      else
        x0 <- lget (sl_x T) 0 ;;
        X <- slice_passes w (mz_x F) (high_bitmask x0) (sl_nrows T) ps (sl_x T) ;; Ok (sl_set_x T X)
  end.
(** the switch on the degree: conversion.c:63-84, 96-117 *)
Definition conv_width (degree : nat) : res nat :=
  if degree =? 2 then Ok 2
  else if (3 <=? degree) && (degree <=? 4) then Ok 4
  else if (5 <=? degree) && (degree <=? 8) then Ok 8
  else if (9 <=? degree) && (degree <=? 16) then Ok 16
  else Die.
(** conversion.c:56-86 [mzed_slice] *)
Definition mzed_slice (A : option slice) (Z : mzed) : res slice :=
  A <- (match A with None => Ok (mzd_slice_init (mz_ff Z) (mz_nrows Z) (mz_ncols Z)) | Some A => mzd_slice_set_ui A 0 end) ;;
  w <- conv_width (ff_degree (mz_ff Z)) ;;
  mzed_slice_w w A Z.

(** ** sliced -> packed *)
(** word_cling_64_w(f_t[j2] << a) >> b *)
Definition cterm (w : nat) (F : list mzd) (i j2 : nat) (t : nat * nat * nat) : res N :=
  let '(t, a, b) := t in
  x <- lget F t ;; row <- lget (mzd_rows x) i ;; v <- lget row j2 ;; Ok (wshr (word_cling w (wshl v a)) b).
Definition cwrite (w : nat) (set : bool) (F : list mzd) (i j2 : nat) (row : list N) (e : nat * list (nat * nat * nat)) : res (list N) :=
  let '(k, terms) := e in
  v <- or_terms (cterm w F i j2) terms ;;
  old <- lget row (w * j2 + k) ;;
  lset row (w * j2 + k) (if set then v else N.lor old v).
(** [save]: cling8 and cling16 save the last word, write all words and then restore its padding;
    cling2 and cling4 compute the last word in tmp and merge it *)
Definition cling_row (w : nat) (save : bool) (p : cpass) (F : list mzd) (me : N) (wid i : nat) (row : list N) : res (list N) :=
  let nb := (wid - 1) / w in
  row <- for_ 0 nb (fun j2 row => fold_left (fun (acc : res (list N)) e => row <- acc ;; cwrite w (cp_set p) F i j2 row e) (cp_bulk p) (Ok row)) row ;;
  let n := wid - w * nb in
  _ <- check ((1 <=? n) && (n <=? w)) ;;
  if save then
    tmp <- lget row (wid - 1) ;;
    row <- fold_left (fun (acc : res (list N)) e => row <- acc ;; cwrite w (cp_set p) F i nb row e) (rev (firstn n (cp_rest p))) (Ok row) ;;
    last <- lget row (wid - 1) ;;
    lset row (wid - 1) (N.lor (N.land last me) (N.land tmp (wnot me)))
  else
    row <- fold_left (fun (acc : res (list N)) e => row <- acc ;; cwrite w (cp_set p) F i nb row e) (firstn (n - 1) (cp_rest p)) (Ok row) ;;
    e <- lget (cp_rest p) (n - 1) ;;
    tmp <- or_terms (cterm w F i nb) (snd e) ;;
    old <- lget row (w * nb + fst e) ;;
    lset row (w * nb + fst e) (N.lor (N.land old (wnot me)) (N.land tmp me)).
(** one pass over the rows; [after] is run at the end of every iteration (cling16 nests a loop there) *)
Definition cling_pass (w : nat) (save : bool) (p : cpass) (F : list mzd) (after : mzd -> res mzd) (T : mzd) : res mzd :=
  for_ 0 (mzd_nrows T) (fun i T =>
    row <- lget (mzd_rows T) i ;;
    row <- cling_row w save p F (high_bitmask T) (mzd_width T) i row ;;
    rows <- lset (mzd_rows T) i row ;;
    after (Mzd (mzd_nrows T) (mzd_ncols T) rows)) T.
(** conversion.c:181-212 [_mzed_cling2], 320-415 [_mzed_cling4]; conversion_cling8.c:29-275; conversion_cling16.c:28-541.
    For degree >= 13 the loop for the slices 12.. sits inside the row loop for the slices 8-11. *)
Definition cling_prog (w degree : nat) (F : list mzd) (T : mzd) : res mzd :=
  let one save p := cling_pass w save p F Ok in
  let nest p := cling_pass w true cling16_8_11 F (cling_pass w true p F Ok) in
  match w, degree with
  | 2, 2 => one false cling2_d2 T
  | 4, 4 => one false cling4_d4 T
  | 4, 3 => one false cling4_d3 T
  | 8, 8 => one true cling8_d8 T
  | 8, 7 => one true cling8_d7 T
  | 8, 6 => one true cling8_d6 T
  | 8, 5 => one true cling8_d5 T
  | 16, 9 => T <- one true cling16_0_7 T ;; one true cling16_8_8 T
  | 16, 10 => T <- one true cling16_0_7 T ;; one true cling16_8_9 T
  | 16, 11 => T <- one true cling16_0_7 T ;; one true cling16_8_10 T
  | 16, 12 => T <- one true cling16_0_7 T ;; one true cling16_8_11 T
  | 16, 13 => T <- one true cling16_0_7 T ;; nest cling16_12_12 T
  | 16, 14 => T <- one true cling16_0_7 T ;; nest cling16_12_13 T
  | 16, 15 => T <- one true cling16_0_7 T ;; nest cling16_12_14 T
  | 16, 16 => T <- one true cling16_0_7 T ;; nest cling16_12_15 T
  | _, _ => UB
  end.
(** conversion.c:88-119 [mzed_cling] *)
Definition mzed_cling (A : option mzed) (Z : slice) : res mzed :=
  A <- (match A with None => mzed_init (sl_ff Z) (sl_nrows Z) (sl_ncols Z) | Some A => mzed_set_ui A 0 end) ;;
  w <- conv_width (ff_degree (sl_ff Z)) ;;
  if mzd_slice_is_zero Z then Ok A
  else x <- cling_prog w (ff_degree (sl_ff Z)) (sl_x Z) (mz_x A) ;; Ok (mz_set_x A x).

(** ** conversion.h: products of packed matrices through the sliced representation *)
(** conversion.h:148-165 [_mzed_addmul_karatsuba] *)
Definition mzed_addmul_karatsuba_ (C : option mzed) (A B : mzed) : res mzed :=
  Cs <- (match C with Some C => Cs <- mzed_slice None C ;; Ok (Some Cs) | None => Ok None end) ;;
  As <- mzed_slice None A ;;
  Bs <- mzed_slice None B ;;
  Cs <- mzd_slice_addmul_karatsuba_ Cs As Bs ;;
  mzed_cling C Cs.
(** conversion.h:177-186 [mzed_mul_karatsuba] *)
Definition mzed_mul_karatsuba (C : option mzed) (A B : mzed) : res mzed :=
  _ <- check ((mz_ncols A =? mz_nrows B) && same_ff A B) ;;
  match C with
  | None => mzed_addmul_karatsuba_ None A B
  | Some C =>
      _ <- check (same_ff C A && (mz_nrows C =? mz_nrows A) && (mz_ncols C =? mz_ncols B)) ;;
      C <- mzed_set_ui C 0 ;;
      mzed_addmul_karatsuba_ (Some C) A B
  end.
(** conversion.h:196-203 [mzed_addmul_karatsuba] *)
Definition mzed_addmul_karatsuba (C : option mzed) (A B : mzed) : res mzed :=
  match C with
  | None => UB
  | Some C =>
      _ <- check ((mz_ncols A =? mz_nrows B) && same_ff A B) ;;
      _ <- check (same_ff C A && (mz_nrows C =? mz_nrows A) && (mz_ncols C =? mz_ncols B)) ;;
      mzed_addmul_karatsuba_ (Some C) A B
  end.
(** conversion.h:286-295 [mzd_slice_rescale_row]: the copy of row r has one row, but row r of it is rescaled *)
Definition mzd_slice_rescale_row (A : slice) (r c : nat) (x : N) : res slice :=
  on_swin A r 0 (r + 1) (sl_ncols A) (fun W =>
    We <- mzed_cling None W ;;
    We <- mzed_rescale_row We r c x ;;
    mzed_slice (Some W) We).
