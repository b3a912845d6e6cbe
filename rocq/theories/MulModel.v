(** Model of the multiplication dispatchers of src/mzed.c and the cutoff of src/strassen.c. *)
From Coq Require Import NArith ZArith List Bool Arith.
From Verif Require Import Base Gf2xModel Gf2eModel MzdModel MzedModel NjModel StrassenModel SliceModel KaraModel ConvModel.
Local Open Scope nat_scope.

(** strassen.c:328-370 [_mzed_strassen_cutoff]; [l2] is __M4RI_CPU_L2_CACHE in bytes. (int)sqrt((double)x)
    is the integer square root (exact for the sizes of caches). *)
Definition mzed_strassen_cutoff (l2 : Z) (A : mzed) : Z :=
  let e := ff_degree (mz_ff A) in
  let cutoff :=
    (if (e =? 2)%nat then Z.min (Z.sqrt (4 * l2) / 2) 4096
     else if ((3 <=? e) && (e <=? 8))%nat then Z.min (Z.sqrt (4 * l2 / Z.of_nat (mz_w A))) 4096
     else if (e =? 9)%nat then 2048
     else if ((10 <=? e) && (e <=? 16))%nat then 4096
     else 1024)%Z in
  let two := (2 * 2 ^ Z.of_nat e)%Z in
  if (cutoff <? two)%Z then two else cutoff.

(** mzed.c:103, 111: the size test *)
Definition mul_big (A B : mzed) : bool :=
  (512 <=? mz_nrows A) && (512 <=? mz_ncols A) && (512 <=? mz_ncols B).
(** mzed.c:102-108 [_mzed_mul], 110-116 [_mzed_addmul] (C distinct from A and B) *)
Definition mzed_mul_ (mulbs : nat) (l2 : Z) (C A B : mzed) : res mzed :=
  if mul_big A B then mzed_addmul_karatsuba_ (Some C) A B
  else mzed_mul_strassen_ mulbs C A B (mzed_strassen_cutoff l2 A).
Definition mzed_addmul_ (mulbs : nat) (l2 : Z) (C A B : mzed) : res mzed :=
  if mul_big A B then mzed_addmul_karatsuba_ (Some C) A B
  else mzed_addmul_strassen_ mulbs C A B (mzed_strassen_cutoff l2 A).
(** mzed.c:90-94 [mzed_mul], 96-100 [mzed_addmul] *)
Definition mzed_mul (mulbs : nat) (l2 : Z) (C : option mzed) (A B : mzed) : res mzed :=
  C <- mzed_mul_init C A B true ;; mzed_mul_ mulbs l2 C A B.
Definition mzed_addmul (mulbs : nat) (l2 : Z) (C : option mzed) (A B : mzed) : res mzed :=
  C <- mzed_mul_init C A B false ;; mzed_addmul_ mulbs l2 C A B.

(** mzed.c:90-94 with the same object passed for C and A. After _mzed_mul_init has cleared it, the
    Karatsuba path slices copies and the Strassen base case works in a temporary, so the call sees
    A = C = the cleared matrix; the recursive Strassen case, whose windows of A and C would overlap,
    is not modelled ([None]). *)
Definition mzed_mul_alias (mulbs : nat) (l2 : Z) (A B : mzed) : option (res mzed) :=
  match mzed_mul_init (Some A) A B true with
  | Ok A0 =>
      if mul_big A0 B then Some (mzed_addmul_karatsuba_ (Some A0) A0 B)
      else if ((mz_nrows A0 =? 0) && (mz_ncols A0 =? 0)) then Some (Ok A0)
      else if strassen_small A0 B (mzed_strassen_cutoff l2 A0) then
        Some (D <- mzed_init (mz_ff A0) (mz_nrows A0) (mz_ncols A0) ;;
              D <- mzed_mul_newton_john_ mulbs D A0 B ;;
              mzed_copy (Some A0) D)
      else None
  | Die => Some Die
  | UB => Some UB
  end.
