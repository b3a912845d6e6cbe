(** Model of the products through bilinear maps: src/mzd_slice.h:693-779, src/conversion.h:205-272, src/mzd_poly.h:206-232.
    [None]: the initialisation of the map has not ended after [fuel] iterations of its loop. *)
From Coq Require Import NArith List Bool Arith.
From Verif Require Import Base PolyFacts Gf2xModel Gf2eModel IrrTable MzdModel MzedModel SliceModel ConvModel PolyMatModel DjbModel BlmTable BlmModel.
Import ListNotations.
Local Open Scope nat_scope.

Definition omap {T U} (o : option (res T)) (k : T -> res U) : option (res U) := match o with None => None | Some r => Some (bind r k) end.
Definition orun {T U} (r : res T) (k : T -> option (res U)) : option (res U) := match r with Ok a => k a | Die => Some Die | UB => Some UB end.

(** mzd_slice.h:706-729 [_mzd_slice_mul_blm] (C is a different object from A and B; M4RIE_MAX_DEGREE = 16) *)
Definition mzd_slice_mul_blm_ (fuel : nat) (x : m4ri) (C : option slice) (A B : slice) (f : option blm) : option (res slice) :=
  let C := sl_or_init C (sl_ff A) (sl_nrows A) (sl_ncols B) in
  omap (match f with
        | Some f => Some (Ok f)
        | None => let d := ff_degree (sl_ff C) in
                  if 16 <? d then Some Die else blm_init_crt fuel x (Some (sl_ff C)) d d (upd (repeat 0 17) d 1) true
        end)
       (fun f => X <- ptr_apply_blm (sl_x C) (sl_x A) (sl_x B) f ;; Ok (sl_set_x C X)).
(** mzd_slice.h:744-753 [mzd_slice_mul_blm] *)
Definition mzd_slice_mul_blm (fuel : nat) (x : m4ri) (C : option slice) (A B : slice) (f : option blm) : option (res slice) :=
  orun (_ <- check ((sl_ncols A =? sl_nrows B) && sl_same_ff A B) ;;
        match C with
        | None => Ok None
        | Some C => _ <- check (sl_same_ff C A && (sl_nrows C =? sl_nrows A) && (sl_ncols C =? sl_ncols B)) ;;
                    C <- mzd_slice_set_ui C 0 ;; Ok (Some C)
        end)
       (fun C => mzd_slice_mul_blm_ fuel x C A B f).
(** mzd_slice.h:768-778 [mzd_slice_addmul_blm] *)
Definition mzd_slice_addmul_blm (fuel : nat) (x : m4ri) (C : option slice) (A B : slice) (f : option blm) : option (res slice) :=
  match C with
  | None => Some UB
  | Some C =>
      orun (_ <- check ((sl_ncols A =? sl_nrows B) && sl_same_ff A B) ;;
            check (sl_same_ff C A && (sl_nrows C =? sl_nrows A) && (sl_ncols C =? sl_ncols B)))
           (fun _ => omap (mzd_slice_mul_blm_ fuel x None A B f) (fun T => mzd_slice_add (Some C) C T))
  end.
(** conversion.h:215-234 [_mzed_addmul_blm] *)
Definition mzed_addmul_blm_ (fuel : nat) (x : m4ri) (C : option mzed) (A B : mzed) : option (res mzed) :=
  orun (As <- mzed_slice None A ;; Bs <- mzed_slice None B ;; Ok (As, Bs))
       (fun AB => omap (mzd_slice_mul_blm_ fuel x None (fst AB) (snd AB) None)
          (fun Ts => T <- mzed_cling None Ts ;; match C with Some C => mzed_add (Some C) C T | None => Ok T end)).
(** conversion.h:246-255 [mzed_mul_blm] *)
Definition mzed_mul_blm (fuel : nat) (x : m4ri) (C : option mzed) (A B : mzed) : option (res mzed) :=
  orun (_ <- check ((mz_ncols A =? mz_nrows B) && same_ff A B) ;;
        match C with
        | None => Ok None
        | Some C => _ <- check (same_ff C A && (mz_nrows C =? mz_nrows A) && (mz_ncols C =? mz_ncols B)) ;; C <- mzed_set_ui C 0 ;; Ok (Some C)
        end)
       (fun C => mzed_addmul_blm_ fuel x C A B).
(** conversion.h:265-272 [mzed_addmul_blm] *)
Definition mzed_addmul_blm (fuel : nat) (x : m4ri) (C : option mzed) (A B : mzed) : option (res mzed) :=
  match C with
  | None => Some UB
  | Some C =>
      orun (_ <- check ((mz_ncols A =? mz_nrows B) && same_ff A B) ;;
            check (same_ff C A && (mz_nrows C =? mz_nrows A) && (mz_ncols C =? mz_ncols B)))
           (fun _ => mzed_addmul_blm_ fuel x (Some C) A B)
  end.
(** mzd_poly.h:209-218 [_mzd_poly_addmul_blm] *)
Definition mzd_poly_addmul_blm (C : option mpoly) (A B : mpoly) (f : blm) : res mpoly :=
  _ <- guard ((mzd_ncols (bl_F f) =? mp_depth A) && (mzd_ncols (bl_G f) =? mp_depth B)) ;;
  let C := mp_or_init C A B in
  X <- ptr_apply_blm (mp_x C) (mp_x A) (mp_x B) f ;; Ok (mp_set_x C X).
(** mzd_poly.h:225-232 [_mzd_poly_addmul_crt]: the result of _mzd_poly_addmul_blm is not assigned to C, so that NULL is
    returned for NULL *)
Definition mzd_poly_addmul_crt (fuel : nat) (x : m4ri) (C : option mpoly) (A B : mpoly) : option (res (option mpoly)) :=
  orun (crt_init (mp_depth A) (mp_depth B))
       (fun p => omap (blm_init_crt fuel x None (mp_depth A) (mp_depth B) p true)
          (fun f => C' <- mzd_poly_addmul_blm C A B f ;; Ok (match C with Some _ => Some C' | None => None end))).
