(** What the functions of MemLib.v do to the heap: for each function its contracts (see MemLang.v), one for each combination of
    arguments that may be NULL.  Definitions only. *)
From Coq Require Import String List Bool.
From Verif Require Import MemLang MemLib.
Import ListNotations.
Local Open Scope string_scope.

(** the arguments are used; nothing is returned, nothing is left behind *)
Definition uses (n : nat) : list contract := [Contract (repeat MBor n) [RVoid] false].
(** the first argument is used and returned *)
Definition writes (n : nat) : list contract := [Contract (repeat MBor n) [RArg 0] false].
(** the same, but if the first argument is NULL a new object is returned *)
Definition writes_or_makes (k : kind) (n : nat) : list contract :=
  [Contract (MNull :: repeat MBor (n - 1)) [RNew k []] false; Contract (repeat MBor n) [RArg 0] false].
Definition makes (k : kind) (n : nat) : list contract := [Contract (repeat MBor n) [RNew k []] false].
Definition makes_window (k : kind) : list contract := [Contract [MBor] [RNew k [0]] false].
Definition drops (ks : list kind) : list contract := map (fun k => Contract [MOwn k None] [RVoid] false) ks.
(** the first argument is a field or NULL *)
Definition karatsuba : list contract := [Contract [MBor; MBor; MBor; MBor] [RVoid] false; Contract [MNull; MBor; MBor; MBor] [RVoid] false].

(** the contracts of the functions that leave nothing behind *)
Definition tidy_functions : list (string * list contract) :=
  [("gf2e_t16_init", makes KRaw 1); ("gf2e_t16_free", drops [KRaw]);
   ("gf2e_init", makes KField 0); ("gf2e_free", drops [KField]);
   ("mzed_init", makes KMzed 1); ("mzed_free", drops [KMzed; KMzedWin]);
   ("mzed_init_window", makes_window KMzedWin); ("mzed_free_window", drops [KMzedWin; KMzed]);
   ("mzed_concat", writes_or_makes KMzed 3); ("mzed_stack", writes_or_makes KMzed 3); ("mzed_submatrix", writes_or_makes KMzed 2);
   ("mzed_add", writes_or_makes KMzed 3); ("mzed_copy", writes_or_makes KMzed 2); ("mzed_mul_scalar", writes_or_makes KMzed 2);
   ("_mzed_mul_init", writes_or_makes KMzed 3);
   ("mzed_mul", writes_or_makes KMzed 3); ("mzed_addmul", writes_or_makes KMzed 3);
   ("_mzed_mul", writes 3); ("_mzed_addmul", writes 3);
   ("mzed_mul_naive", writes_or_makes KMzed 3); ("mzed_addmul_naive", writes_or_makes KMzed 3);
   ("mzed_mul_strassen", writes_or_makes KMzed 3); ("mzed_addmul_strassen", writes_or_makes KMzed 3);
   ("_mzed_mul_strassen", writes 3); ("_mzed_addmul_strassen", writes 3);
   ("mzed_mul_newton_john", writes_or_makes KMzed 3); ("mzed_addmul_newton_john", writes_or_makes KMzed 3);
   ("_mzed_mul_newton_john", writes 3); ("_mzed_mul_newton_john0", writes 3);
   ("mzed_mul_karatsuba", writes_or_makes KMzed 3); ("mzed_addmul_karatsuba", writes 3); ("_mzed_addmul_karatsuba", writes_or_makes KMzed 3);
   ("njt_mzed_init", makes KNjt 1); ("njt_mzed_free", drops [KNjt]); ("mzed_make_table", writes_or_makes KNjt 2);
   ("mzed_echelonize", uses 1); ("mzed_echelonize_newton_john", uses 1); ("mzed_echelonize_ple", uses 1); ("mzd_slice_echelonize_ple", uses 1);
   ("mzed_invert_newton_john", writes_or_makes KMzed 2);
   ("mzed_ple", uses 3); ("_mzed_ple", uses 3); ("mzed_ple_newton_john", uses 3);
   ("mzd_slice_ple", uses 3); ("_mzd_slice_ple", uses 3); ("mzd_slice_pluq", uses 3); ("_mzd_slice_pluq", uses 3);
   ("mzed_trsm_upper_left", uses 2); ("_mzed_trsm_upper_left", uses 2); ("mzed_trsm_upper_left_newton_john", uses 2);
   ("mzed_trsm_lower_left", uses 2); ("_mzed_trsm_lower_left", uses 2); ("mzed_trsm_lower_left_newton_john", uses 2);
   ("mzd_slice_trsm_upper_left", uses 2); ("_mzd_slice_trsm_upper_left", uses 2); ("mzd_slice_trsm_upper_left_newton_john", uses 2);
   ("mzd_slice_trsm_upper_left_naive", uses 2);
   ("mzd_slice_trsm_lower_left", uses 2); ("_mzd_slice_trsm_lower_left", uses 2); ("mzd_slice_trsm_lower_left_newton_john", uses 2);
   ("mzd_slice_trsm_lower_left_naive", uses 2);
   ("mzd_slice_init", makes KSlice 1); ("mzd_slice_free", drops [KSlice; KSliceWin]);
   ("mzd_slice_init_window", makes_window KSliceWin); ("mzd_slice_free_window", drops [KSliceWin; KSlice]);
   ("mzd_slice_copy", writes_or_makes KSlice 2); ("mzd_slice_concat", writes_or_makes KSlice 3); ("mzd_slice_stack", writes_or_makes KSlice 3);
   ("mzd_slice_submatrix", writes_or_makes KSlice 2); ("mzd_slice_add", writes_or_makes KSlice 3); ("mzd_slice_mul_scalar", writes_or_makes KSlice 2);
   ("_mzd_slice_addmul_naive", writes_or_makes KSlice 3); ("_mzd_slice_addmul_karatsuba", writes_or_makes KSlice 3);
   ("mzd_slice_mul_karatsuba", writes_or_makes KSlice 3); ("mzd_slice_addmul_karatsuba", writes 3);
   ("mzd_slice_mul", writes_or_makes KSlice 3); ("mzd_slice_addmul", writes 3);
   ("mzd_slice_rescale_row", uses 1); ("mzed_slice", writes_or_makes KSlice 2); ("mzed_cling", writes_or_makes KMzed 2);
   ("mzd_poly_init", makes KPoly 0); ("mzd_poly_free", drops [KPoly]);
   ("_mzd_poly_addmul_naive", writes_or_makes KPoly 3); ("_mzd_poly_addmul_karatsubs_balanced", writes_or_makes KPoly 3);
   ("_mzd_poly_addmul_blm", [Contract [MNull; MBor; MBor; MBor] [RNew KPoly []] false; Contract [MBor; MBor; MBor; MBor] [RArg 0] false]);
   ("_mzd_poly_addmul_ext1", writes 3);
   ("djb_apply_mzd_ptr", uses 3); ("_mzd_ptr_apply_blm", uses 4); ("_mzd_ptr_apply_blm_mzd", uses 4); ("_mzd_ptr_apply_blm_djb", uses 4);
   ("_mzd_ptr_addmul_karatsuba2", karatsuba); ("_mzd_ptr_addmul_karatsuba3", karatsuba); ("_mzd_ptr_addmul_karatsuba4", karatsuba);
   ("_mzd_ptr_addmul_karatsuba5", karatsuba); ("_mzd_ptr_addmul_karatsuba6", karatsuba); ("_mzd_ptr_addmul_karatsuba7", karatsuba);
   ("_mzd_ptr_addmul_karatsuba8", karatsuba); ("_mzd_ptr_addmul_karatsuba9", karatsuba); ("_mzd_ptr_addmul_karatsuba10", karatsuba);
   ("_mzd_ptr_addmul_karatsuba11", karatsuba); ("_mzd_ptr_addmul_karatsuba12", karatsuba); ("_mzd_ptr_addmul_karatsuba13", karatsuba);
   ("_mzd_ptr_addmul_karatsuba14", karatsuba); ("_mzd_ptr_addmul_karatsuba15", karatsuba); ("_mzd_ptr_addmul_karatsuba16", karatsuba);
   ("crt_init", makes KRaw 0); ("_small_multiplication_map", makes KMzd 0);
   ("_blm_djb_compile", [Contract [MOwn KBlmM (Some KBlmC)] [RArg 0] false]); ("blm_free", drops [KBlmC]);
   (** with a bilinear map given *)
   ("_mzd_slice_mul_blm", [Contract [MNull; MBor; MBor; MBor] [RNew KSlice []] false; Contract [MBor; MBor; MBor; MBor] [RArg 0] false]);
   ("mzd_slice_mul_blm", [Contract [MNull; MBor; MBor; MBor] [RNew KSlice []] false; Contract [MBor; MBor; MBor; MBor] [RArg 0] false]);
   ("mzd_slice_addmul_blm", [Contract [MBor; MBor; MBor; MBor] [RArg 0] false])].
(** the contracts of the functions that may leave objects behind (and otherwise do what they should) *)
Definition leaky_functions : list (string * list contract) :=
  [("_crt_modred_mat", [Contract [] [RNew KMzd []] true]);
   ("_blm_finish_polymult", [Contract [MBor; MOwn KBlm0 (Some KBlm1)] [RArg 1] true; Contract [MNull; MOwn KBlm0 (Some KBlm1)] [RArg 1] true]);
   ("blm_init_crt", [Contract [MBor; MBor; MFlag true] [RNew KBlmC []] true; Contract [MNull; MBor; MFlag true] [RNew KBlmC []] true;
                     Contract [MBor; MBor; MFlag false] [RNew KBlmM []] true; Contract [MNull; MBor; MFlag false] [RNew KBlmM []] true]);
   (** without a bilinear map *)
   ("_mzd_slice_mul_blm", [Contract [MNull; MBor; MBor; MNull] [RNew KSlice []] true; Contract [MBor; MBor; MBor; MNull] [RArg 0] true]);
   ("mzd_slice_mul_blm", [Contract [MNull; MBor; MBor; MNull] [RNew KSlice []] true; Contract [MBor; MBor; MBor; MNull] [RArg 0] true]);
   ("mzd_slice_addmul_blm", [Contract [MBor; MBor; MBor; MNull] [RArg 0] true]);
   ("_mzed_addmul_blm", [Contract [MNull; MBor; MBor] [RNew KMzed []] true; Contract [MBor; MBor; MBor] [RArg 0] true]);
   ("mzed_mul_blm", [Contract [MNull; MBor; MBor] [RNew KMzed []] true; Contract [MBor; MBor; MBor] [RArg 0] true]);
   ("mzed_addmul_blm", [Contract [MBor; MBor; MBor] [RArg 0] true]);
   ("_mzd_poly_addmul_crt", [Contract [MNull; MBor; MBor] [RNull] true; Contract [MBor; MBor; MBor] [RArg 0] true])].
Definition of_function (f : string) (l : list (string * list contract)) : list contract :=
  concat (map snd (filter (fun q => String.eqb f (fst q)) l)).
Definition spec (f : string) : list contract := of_function f tidy_functions ++ of_function f leaky_functions.
