(** Model of src/blm.c: bilinear maps for the multiplication of polynomials over GF(2). *)
From Coq Require Import NArith List Bool Arith.
From Verif Require Import Base PolyFacts Gf2xModel Gf2eModel IrrTable MzdModel SliceModel PermModel DjbModel BlmTable.
Import ListNotations.
Local Open Scope nat_scope.

(** ** More of M4RI *)
(** [mzd_transpose(NULL, A)], [mzd_equal] *)
Definition mzd_transpose (A : mzd) : mzd := mzd_build (mzd_init (mzd_ncols A) (mzd_nrows A)) (fun i k => mbit A k i).
Definition mzd_equal (A B : mzd) : bool := match mzd_cmp A B with Eq => true | _ => false end.
(** M4RI routines whose result is not determined by what they are specified to do: [mzd_ple(D, P, Q, 0)] (the returned P and
    the rank; D is discarded by the caller), [mzd_inv_m4ri(NULL, C, 0)], [djb_compile].  Their contracts are in BlmSpec.v. *)
Record m4ri := M4ri { x_ple : mzd -> mzp * nat; x_inv : mzd -> mzd; x_compile : mzd -> djb }.

(** blm.h:49-59 [blm_t] *)
Record blm := Blm { bl_F : mzd; bl_G : mzd; bl_H : mzd; bl_f : option djb; bl_g : option djb; bl_h : option djb }.

(** ** Applying a map *)
(** blm.c:16-21, 23-28: t := sum of the X[j] with M[i][j] = 1 *)
Definition blm_row (M : mzd) (i : nat) (X : list mzd) (t : mzd) : res mzd :=
  for_ 0 (mzd_ncols M) (fun j t => b <- mzd_read_bit M i j ;; if b : bool then (x <- lget X j ;; mzd_add t t x) else Ok t) (mzd_set_ui t 0).
(** blm.c:6-41 [_mzd_ptr_apply_blm_mzd] *)
Definition ptr_apply_blm_mzd (X A B : list mzd) (f : blm) : res (list mzd) :=
  _ <- guard ((mzd_ncols (bl_H f) =? mzd_nrows (bl_F f)) && (mzd_nrows (bl_F f) =? mzd_nrows (bl_G f))) ;;
  A0 <- lget A 0 ;; B0 <- lget B 0 ;;
  let t0 := mzd_init (mzd_nrows A0) (mzd_ncols B0) in
  let t1 := mzd_init (mzd_nrows A0) (mzd_ncols A0) in
  let t2 := mzd_init (mzd_nrows B0) (mzd_ncols B0) in
  st <- for_ 0 (mzd_nrows (bl_F f)) (fun i st =>
          let '(X, t0, t1, t2) := st in
          t1 <- blm_row (bl_F f) i A t1 ;;
          t2 <- blm_row (bl_G f) i B t2 ;;
          t0 <- mzd_mul t0 t1 t2 ;;
          X <- for_ 0 (mzd_nrows (bl_H f)) (fun j X => b <- mzd_read_bit (bl_H f) j i ;; if b : bool then ptr_add_modred None t0 X j else Ok X) X ;;
          Ok (X, t0, t1, t2)) (X, t0, t1, t2) ;;
  let '(X, _, _, _) := st in Ok X.
(** blm.c:65-101 [_mzd_ptr_apply_blm_djb]; f->f, f->g, f->h are dereferenced *)
Definition ptr_apply_blm_djb (X A B : list mzd) (f : blm) : res (list mzd) :=
  _ <- guard ((mzd_ncols (bl_H f) =? mzd_nrows (bl_F f)) && (mzd_nrows (bl_F f) =? mzd_nrows (bl_G f))) ;;
  match bl_f f, bl_g f, bl_h f with
  | Some pf, Some pg, Some ph =>
      let m := mzd_nrows (bl_F f) in
      A0 <- lget A 0 ;; B0 <- lget B 0 ;;
      t1 <- djb_apply_mzd_ptr pf (repeat (mzd_init (mzd_nrows A0) (mzd_ncols A0)) m) A ;;
      t2 <- djb_apply_mzd_ptr pg (repeat (mzd_init (mzd_nrows B0) (mzd_ncols B0)) m) B ;;
      t0 <- for_ 0 m (fun i t0 =>
              x <- lget t1 i ;; y <- lget t2 i ;; z <- mzd_mul (mzd_init (mzd_nrows A0) (mzd_ncols B0)) x y ;; Ok (t0 ++ [z])) [] ;;
      djb_apply_mzd_ptr ph X t0
  | _, _, _ => UB
  end.
(** blm.h:153-158 [_mzd_ptr_apply_blm] *)
Definition ptr_apply_blm (X A B : list mzd) (f : blm) : res (list mzd) :=
  match bl_f f with Some _ => ptr_apply_blm_djb X A B f | None => ptr_apply_blm_mzd X A B f end.
(** blm.c:43-63 [_blm_djb_compile] *)
Definition blm_djb_compile (x : m4ri) (f : blm) : res blm :=
  match bl_f f, bl_g f, bl_h f with
  | None, None, None =>
      let pf := x_compile x (bl_F f) in
      let pg := if mzd_equal (bl_F f) (bl_G f) then pf else x_compile x (bl_G f) in
      Ok (Blm (bl_F f) (bl_G f) (bl_H f) (Some pf) (Some pg) (Some (x_compile x (bl_H f))))
  | _, _, _ => UB
  end.

(** ** Building a map *)
(** blm.c:153-334 [_small_multiplication_map] *)
Definition small_multiplication_map (d : nat) : res mzd :=
  match d with
  | O => Die
  | S k => match nth_error small_maps k with
           | Some rows => Ok (mzd_build (mzd_init (length rows) d) (fun i j => N.testbit (nth i rows 0%N) (N.of_nat j)))
           | None => Die
           end
  end.
(** blm.c:357-375, the loop of [_crt_modred_mat]: f is the 1 x length matrix, as a polynomial.  When the degree of poly is
    not d the loop of the C code need not end: this is UB here. *)
Fixpoint modred_while (fuel : nat) (poly : N) (d : nat) (f : N) (ii : nat) : res (N * nat) :=
  if ii <? d then Ok (f, ii) else
  match fuel with
  | O => UB
  | S fuel => let f := N.lxor f (N.shiftl poly (N.of_nat (ii - d))) in modred_while fuel poly d f (N.to_nat (N.log2 f))
  end.
(** blm.c:342-379 [_crt_modred_mat] *)
Definition crt_modred_mat (len : nat) (poly : N) (d : nat) : res mzd :=
  let A := mzd_init d len in
  if (poly =? 0)%N then
    for_ 0 d (fun i A => _ <- guard (i + 1 <=? len) ;; mzd_write_bit A i (len - i - 1) true) A
  else
    for_ 0 len (fun i A =>
      fi <- modred_while (S i) poly d (2 ^ N.of_nat i)%N i ;;
      for_ 0 (snd fi + 1) (fun j A => mzd_write_bit A j i (N.testbit (fst fi) (N.of_nat j))) A) A.

(** the rows of the matrix pivots, as pairs (v, w), after the row swaps of P *)
Definition apply_p_left_pairs (l : list (nat * nat)) (P : mzp) : res (list (nat * nat)) :=
  for_ 0 (Nat.min (length P) (length l)) (fun i l => p <- lget P i ;; a <- lget l i ;; b <- lget l p ;; l <- lset l i b ;; lset l p a) l.
(** blm.c:408-409: row r of C is row v of F_T and row w of G_T, bitwise *)
Definition set_and_row (C F_T G_T : mzd) (r v w : nat) : res mzd :=
  _ <- guard ((r <? mzd_nrows C) && (v <? mzd_nrows F_T) && (w <? mzd_nrows G_T)) ;;
  Ok (mzd_build C (fun i k => if i =? r then mbit F_T v k && mbit G_T w k else mbit C i k)).
Record fin_state := Fin { fs_C : mzd; fs_piv : list (nat * nat); fs_v : nat; fs_w : nat; fs_r : nat; fs_rank : nat }.
(** blm.c:407-431, one iteration *)
Definition finish_step (x : m4ri) (m nf ng : nat) (F_T G_T : mzd) (s : fin_state) : res fin_state :=
  C <- set_and_row (fs_C s) F_T G_T (fs_r s) (fs_v s) (fs_w s) ;;
  piv <- lset (fs_piv s) (fs_r s) (fs_v s, fs_w s) ;;
  let w := fs_w s + 1 in
  let vw := if w =? ng then (let v := fs_v s + 1 in let v := if v =? nf then 0 else v in (v, v)) else (fs_v s, w) in
  let r := fs_r s + 1 in
  if r =? m then
    let '(P, rank) := x_ple x C in
    piv <- apply_p_left_pairs piv P ;;
    C <- mzd_apply_p_left C P ;;
    Ok (Fin C piv (fst vw) (snd vw) (if rank <? m then rank else r) rank)
  else Ok (Fin C piv (fst vw) (snd vw) r (fs_rank s)).
(** blm.c:406-432, the loop; [None]: not finished after [fuel] iterations *)
Fixpoint finish_loop (fuel : nat) (x : m4ri) (m nf ng : nat) (F_T G_T : mzd) (s : fin_state) : option (res fin_state) :=
  if fs_rank s <? m then
    match fuel with
    | O => None
    | S fuel => match finish_step x m nf ng F_T G_T s with
                | Ok s => finish_loop fuel x m nf ng F_T G_T s
                | Die => Some Die
                | UB => Some UB
                end
    end
  else Some (Ok s).
(** blm.c:436-481, after the loop *)
Definition finish_rest (x : m4ri) (ff : option gf2e) (f : blm) (m : nat) (F_T G_T : mzd) (s : fin_state) : res blm :=
  let H := mzd_init (mzd_ncols (bl_F f) + mzd_ncols (bl_G f) - 1) m in
  C <- for_ 0 m (fun r C => vw <- lget (fs_piv s) r ;; set_and_row C F_T G_T r (fst vw) (snd vw)) (fs_C s) ;;
  let D := x_inv x C in
  let DT := mzd_transpose D in
  let a := mzd_init 1 m in
  let b := mzd_init 1 (mzd_ncols H) in
  st <- for_ 0 (mzd_nrows H) (fun i st =>
      let '(H, a, b) := st in
      a <- for_ 0 m (fun j a => vw <- lget (fs_piv s) j ;; if fst vw + snd vw =? i then mzd_write_bit a 0 j true else Ok a) (mzd_set_ui a 0) ;;
      b <- mzd_mul b a DT ;;
      H <- for_ 0 (mzd_ncols H) (fun j H => bit <- mzd_read_bit b 0 j ;; mzd_write_bit H i j bit) H ;;
      Ok (H, a, b)) (H, a, b) ;;
  let '(H, _, _) := st in
  H <- match ff with
       | None => Ok H
       | Some k => N <- crt_modred_mat (mzd_nrows H) (ff_minpoly k) (ff_degree k) ;; mzd_mul (mzd_init (mzd_nrows N) (mzd_ncols H)) N H
       end ;;
  Ok (Blm (bl_F f) (bl_G f) H (bl_f f) (bl_g f) (bl_h f)).
(** blm.c:381-482 [_blm_finish_polymult] *)
Definition blm_finish_polymult (fuel : nat) (x : m4ri) (ff : option gf2e) (f : blm) : option (res blm) :=
  let m := mzd_nrows (bl_F f) in
  let F_T := mzd_transpose (bl_F f) in
  let G_T := mzd_transpose (bl_G f) in
  match finish_loop fuel x m (mzd_ncols (bl_F f)) (mzd_ncols (bl_G f)) F_T G_T (Fin (mzd_init m m) (repeat (0, 0) m) 0 0 0 0) with
  | None => None
  | Some Die => Some Die
  | Some UB => Some UB
  | Some (Ok s) => Some (finish_rest x ff f m F_T G_T s)
  end.

(** irreducible_polynomials[d][i] *)
Definition irr_read (d i : nat) : res N := l <- lget irreducible_polynomials d ;; lget l i.
(** blm.c:549-572: the next modulus of degree d, and the iterators *)
Definition next_poly (d : nat) (it : list nat) : res (N * list nat) :=
  let try (k : nat) (use : N -> res N) (else_ : res (N * list nat)) : res (N * list nat) :=
    if k =? 0 then else_ else
    i <- lget it k ;; n <- irr_read k 0 ;;
    if i <? N.to_nat n then (q <- irr_read k (1 + i) ;; it <- lset it k (i + 1) ;; q <- use q ;; Ok (q, it)) else else_ in
  try d (fun q => Ok q)
   (try (d / 2) (fun q => gf2x_mul q q (d / 2 + 1))
     (try (d / 4) (fun q => q <- gf2x_mul q q (d / 4 + 1) ;; gf2x_mul q q (d / 2 + 1))
       (try (d / 8) (fun q => q <- gf2x_mul q q (d / 8 + 1) ;; q <- gf2x_mul q q (d / 4 + 1) ;; gf2x_mul q q (d / 2 + 1)) Die))).
(** blm.c:521-528: N * M into the rows r .. r+costs[d]-1 of F *)
Definition put_block (S F : mzd) (r d len : nat) (poly : N) : res mzd :=
  M <- crt_modred_mat len poly d ;;
  c <- lget costs d ;;
  T <- mzd_window F r 0 (r + c) len ;;
  T <- mzd_mul T S M ;;
  Ok (mzd_unwindow F r 0 T).
(** blm.c:487-592 [blm_init_crt], the maps F and G *)
Definition crt_rows (p : list nat) : res nat :=
  p0 <- lget p 0 ;; c0 <- lget costs p0 ;;
  for_ 1 17 (fun d m => c <- lget costs d ;; k <- lget p d ;; Ok (m + c * k)) c0.
Definition crt_FG (nf ng : nat) (p : list nat) : res (mzd * mzd) :=
  m <- crt_rows p ;;
  p0 <- lget p 0 ;;
  st <- (if p0 =? 0 then Ok (mzd_init m nf, mzd_init m ng, 0) else
           Sm <- small_multiplication_map p0 ;;
           F <- put_block Sm (mzd_init m nf) 0 p0 nf 0%N ;;
           G <- put_block Sm (mzd_init m ng) 0 p0 ng 0%N ;;
           c <- lget costs p0 ;; Ok (F, G, c)) ;;
  st <- for_ 1 17 (fun d st =>
          k <- lget p d ;;
          if k =? 0 then Ok st else
          Sm <- small_multiplication_map d ;;
          for_ 0 k (fun _ st =>
            let '(F, G, r, it) := st in
            pi <- next_poly d it ;;
            F <- put_block Sm F r d nf (fst pi) ;;
            G <- put_block Sm G r d ng (fst pi) ;;
            c <- lget costs d ;;
            Ok (F, G, r + c, snd pi)) st) (st, repeat 0 17) ;;
  let '(F, G, _, _) := st in Ok (F, G).
(** blm.c:487-608 [blm_init_crt].  The H of the intermediate structure is not initialised in C and not read. *)
Definition blm_init_crt (fuel : nat) (x : m4ri) (ff : option gf2e) (nf ng : nat) (p : list nat) (djb : bool) : option (res blm) :=
  match crt_FG nf ng p with
  | Die => Some Die
  | UB => Some UB
  | Ok (F, G) =>
      match blm_finish_polymult fuel x ff (Blm F G (mzd_init 0 0) None None None) with
      | None => None
      | Some r => Some (f <- r ;; if djb then blm_djb_compile x f else Ok f)
      end
  end.

(** ** crt_init *)
(** blm.c:121-131, the while loop *)
Fixpoint crt_while (fuel : nat) (need have deg_poly : nat) (p : list nat) : res (list nat * nat) :=
  if need <=? have then Ok (p, have) else
  match fuel with
  | O => UB
  | S fuel =>
      n <- irr_read deg_poly 0 ;;
      let n := N.to_nat n in
      if have + deg_poly * n <? need then
        p <- lset p deg_poly n ;; crt_while fuel need (have + deg_poly * n) (deg_poly + 1) p
      else
        let k := (need - have + deg_poly - 1) / deg_poly in
        p <- lset p deg_poly k ;; crt_while fuel need (have + deg_poly * k) (deg_poly + 1) p
  end.
(** blm.c:141-143, also blm.h:72-77 [blm_cost_crt] *)
Definition blm_cost_crt (p : list nat) : res nat := crt_rows p.
(** blm.c:111-148, one omega; need = f_len+g_len-1-omega may be negative, then the loop is not entered and
    deg_diff = omega - (f_len+g_len-1) *)
Definition crt_try (f_len g_len omega : nat) (best : list nat * nat) : res (list nat * nat) :=
  let L := f_len + g_len - 1 in
  ph <- crt_while 17 (L - omega) 0 1 (omega :: repeat 0 16) ;;
  let '(p, have) := ph in
  let diff := (have + omega) - L in
  pd <- (if diff =? 0 then Ok 0 else lget p diff) ;;
  p <- (if pd =? 0 then Ok p else lset p diff (pd - 1)) ;;
  c <- blm_cost_crt p ;;
  Ok (if c <? snd best then (p, c) else best).
(** blm.c:105-151 [crt_init] *)
Definition crt_init (f_len g_len : nat) : res (list nat) :=
  best <- for_ 0 8 (crt_try f_len g_len) (repeat 0 17, f_len * g_len) ;;
  Ok (fst best).
