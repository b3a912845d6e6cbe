(** The functions of the library that allocate or release memory, in the language of MemLang.v.  Generated by gen/gen_mem.py from the
    sources (functions marked "by hand" are transcribed by hand, in that script).

    Conventions.  Only pointer variables occur.  A read or write of a member (A->x, A->x[i], A[i]) is a [Use] of A, and the pointer read
    from it counts as a pointer into A, that is as A itself; so does A->finite_field: the lifetime of the field of a matrix, which the
    matrix does not own, is not tracked.  A call of a function that does not allocate is a [Use] of its pointer arguments, and if it
    returns a pointer, that is its first argument.  The functions of M4RI are such functions, except: mzd_init, mzp_init, mzd_init_window,
    mzp_init_window, djb_compile, m4ri_mm_malloc, m4ri_mm_calloc, calloc and functions with the literal NULL as destination allocate;
    mzd_free, mzd_free_window, mzp_free, mzp_free_window, djb_free, m4ri_mm_free, free release.  m4ri_die ends the program.  assert is
    ignored.  A condition on data is [If] (either branch); a loop is [Loop] (any number of rounds; the reads of its condition come once
    before the loop and in each round).  A use that repeats an earlier one, with
    nothing but uses in between, is left out.  switch is a choice between its cases; a case that falls through contains the statements of the
    next ones.  Definitions only. *)
From Coq Require Import String List.
From Verif Require Import MemLang.
Import ListNotations.
Local Open Scope string_scope.
Infix ";;" := Seq (at level 60, right associativity).

(** gf2e_t16_init, gf2e.h:166-193, transcribed by gen_mem.py *)
Definition p_gf2e_t16_init := Fn ["ff"] (
  Malloc (V "mul") KRaw ;;
  Use [V "ff"] ;;
  Loop (If (Use [V "ff"; V "mul"])
       (Skip)) ;;
  Ret (Some (V "mul"))).

(** gf2e_t16_free, gf2e.h:201-203, transcribed by gen_mem.py *)
Definition p_gf2e_t16_free := Fn ["mul"] (
  Free (V "mul") KRaw).

(** gf2e_init, gf2e.c:4-54, transcribed by hand: the members of ff are variables until the structure is complete; the entry 0 of _mul is filled in the loop; ff comes from calloc, so _mul is NULL if it is not set *)
Definition p_gf2e_init := Fn [] (
  Malloc (V "ff") KRaw ;;
  Use [V "ff"] ;;
  Malloc (V "red") KRaw ;;
  Loop (Use [V "ff"; V "red"]) ;;
  Malloc (V "pow_gen") KRaw ;;
  Loop (Use [V "ff"; V "pow_gen"]) ;;
  If (Malloc (V "_mul") KRaw ;;
      For "order" (Malloc (El "_mul") KRaw ;; Loop (Use [El "_mul"; V "red"])) ;;
      Pack "ff" KField [FV "red"; FV "pow_gen"; FV "_mul"; FA "_mul" "order"])
     (SetNull (V "_mul") ;;
      Pack "ff" KField [FV "red"; FV "pow_gen"; FV "_mul"; FE]) ;;
  Ret (Some (V "ff"))).

(** gf2e_free, gf2e.c:56-66, transcribed by hand *)
Definition p_gf2e_free := Fn ["ff"] (
  Unpack "ff" [FV "red"; FV "pow_gen"; FV "_mul"; FA "_mul" "order"] ;;
  IfNull (V "_mul") Skip
    (For "order" (Free (El "_mul") KRaw) ;;
     Free (V "_mul") KRaw) ;;
  Free (V "pow_gen") KRaw ;;
  Free (V "red") KRaw ;;
  Free (V "ff") KRaw).

(** mzed_concat, mzed.h:111-116, transcribed by gen_mem.py *)
Definition p_mzed_concat := Fn ["C"; "A"; "B"] (
  IfNull (V "C") (Use [V "A"; V "B"] ;;
      Call (Some (V "C")) "mzed_init" [AP (V "A")])
     (Skip) ;;
  Use [V "C"; V "A"; V "B"] ;;
  Ret (Some (V "C"))).

(** mzed_stack, mzed.h:135-140, transcribed by gen_mem.py *)
Definition p_mzed_stack := Fn ["C"; "A"; "B"] (
  IfNull (V "C") (Use [V "A"; V "B"] ;;
      Call (Some (V "C")) "mzed_init" [AP (V "A")])
     (Skip) ;;
  Use [V "C"; V "A"; V "B"] ;;
  Ret (Some (V "C"))).

(** mzed_submatrix, mzed.h:157-163, transcribed by gen_mem.py *)
Definition p_mzed_submatrix := Fn ["S"; "M"] (
  IfNull (V "S") (Use [V "M"] ;;
      Call (Some (V "S")) "mzed_init" [AP (V "M")])
     (Skip) ;;
  Use [V "S"; V "M"] ;;
  Ret (Some (V "S"))).

(** mzed_init_window, mzed.h:187-195, transcribed by hand: a window into A->x is a window into A *)
Definition p_mzed_init_window := Fn ["A"] (
  Malloc (V "B") KRaw ;;
  Use [V "A"; V "B"] ;;
  Window (V "B.x") KMzdWin (V "A") ;;
  Pack "B" KMzedWin [FV "B.x"] ;;
  Ret (Some (V "B"))).

(** mzed_free_window, mzed.h:205-208, transcribed by hand *)
Definition p_mzed_free_window := Fn ["A"] (
  Unpack "A" [FV "A.x"] ;;
  Free (V "A.x") KMzd ;;
  Free (V "A") KRaw).

(** mzed_init, mzed.c:28-37, transcribed by hand *)
Definition p_mzed_init := Fn ["k"] (
  Malloc (V "A") KRaw ;;
  Use [V "k"; V "A"] ;;
  Malloc (V "A.x") KMzd ;;
  Pack "A" KMzed [FV "A.x"] ;;
  Ret (Some (V "A"))).

(** mzed_free, mzed.c:39-42, transcribed by hand *)
Definition p_mzed_free := Fn ["A"] (
  Unpack "A" [FV "A.x"] ;;
  Free (V "A.x") KMzd ;;
  Free (V "A") KRaw).

(** mzed_add, mzed.c:53-66, transcribed by gen_mem.py *)
Definition p_mzed_add := Fn ["C"; "A"; "B"] (
  Use [V "A"; V "B"] ;;
  If (Use [V "A"; V "B"] ;;
      If (Use [V "A"; V "B"] ;;
          If (Skip)
             (Abort))
         (Abort))
     (Abort) ;;
  IfNull (V "C") (Use [V "A"] ;;
      Call (Some (V "C")) "mzed_init" [AP (V "A")])
     (IfSame (V "C") (V "A") (Skip)
         (Use [V "C"; V "A"] ;;
          If (Use [V "C"; V "A"] ;;
              If (Use [V "C"; V "A"] ;;
                  If (Skip)
                     (Abort))
                 (Abort))
             (Abort))) ;;
  Use [V "C"; V "A"; V "B"] ;;
  Ret (Some (V "C"))).

(** _mzed_mul_init, mzed.c:74-88, transcribed by gen_mem.py *)
Definition p__mzed_mul_init := Fn ["C"; "A"; "B"] (
  Use [V "A"; V "B"] ;;
  If (Use [V "A"; V "B"] ;;
      If (Skip)
         (Abort))
     (Abort) ;;
  IfNull (V "C") (Use [V "A"; V "B"] ;;
      Call (Some (V "C")) "mzed_init" [AP (V "A")])
     (Use [V "C"; V "A"] ;;
      If (Use [V "C"; V "A"] ;;
          If (Use [V "C"; V "B"] ;;
              If (Skip)
                 (Abort))
             (Abort))
         (Abort) ;;
      If (Use [V "C"])
         (Skip)) ;;
  Ret (Some (V "C"))).

(** mzed_mul, mzed.c:90-94, transcribed by gen_mem.py *)
Definition p_mzed_mul := Fn ["C"; "A"; "B"] (
  Call (Some (V "C")) "_mzed_mul_init" [AP (V "C"); AP (V "A"); AP (V "B")] ;;
  Call None "_mzed_mul" [AP (V "C"); AP (V "A"); AP (V "B")] ;;
  Ret (Some (V "C"))).

(** mzed_addmul, mzed.c:96-100, transcribed by gen_mem.py *)
Definition p_mzed_addmul := Fn ["C"; "A"; "B"] (
  Call (Some (V "C")) "_mzed_mul_init" [AP (V "C"); AP (V "A"); AP (V "B")] ;;
  Call None "_mzed_addmul" [AP (V "C"); AP (V "A"); AP (V "B")] ;;
  Ret (Some (V "C"))).

(** _mzed_mul, mzed.c:102-108, transcribed by gen_mem.py *)
Definition p__mzed_mul := Fn ["C"; "A"; "B"] (
  Use [V "A"] ;;
  If (Use [V "A"] ;;
      If (Use [V "B"] ;;
          If (Call (Some (V "_1")) "_mzed_addmul_karatsuba" [AP (V "C"); AP (V "A"); AP (V "B")] ;;
              Ret (Some (V "_1")))
             (Skip))
         (Skip))
     (Skip) ;;
  Use [V "C"; V "A"; V "B"] ;;
  Call (Some (V "_3")) "_mzed_mul_strassen" [AP (V "C"); AP (V "A"); AP (V "B")] ;;
  Ret (Some (V "_3"))).

(** _mzed_addmul, mzed.c:110-116, transcribed by gen_mem.py *)
Definition p__mzed_addmul := Fn ["C"; "A"; "B"] (
  Use [V "A"] ;;
  If (Use [V "A"] ;;
      If (Use [V "B"] ;;
          If (Call (Some (V "_1")) "_mzed_addmul_karatsuba" [AP (V "C"); AP (V "A"); AP (V "B")] ;;
              Ret (Some (V "_1")))
             (Skip))
         (Skip))
     (Skip) ;;
  Use [V "C"; V "A"; V "B"] ;;
  Call (Some (V "_3")) "_mzed_addmul_strassen" [AP (V "C"); AP (V "A"); AP (V "B")] ;;
  Ret (Some (V "_3"))).

(** mzed_mul_naive, mzed.c:118-121, transcribed by gen_mem.py *)
Definition p_mzed_mul_naive := Fn ["C"; "A"; "B"] (
  Call (Some (V "C")) "_mzed_mul_init" [AP (V "C"); AP (V "A"); AP (V "B")] ;;
  Use [V "C"; V "A"; V "B"] ;;
  Ret (Some (V "C"))).

(** mzed_addmul_naive, mzed.c:123-126, transcribed by gen_mem.py *)
Definition p_mzed_addmul_naive := Fn ["C"; "A"; "B"] (
  Call (Some (V "C")) "_mzed_mul_init" [AP (V "C"); AP (V "A"); AP (V "B")] ;;
  Use [V "C"; V "A"; V "B"] ;;
  Ret (Some (V "C"))).

(** mzed_mul_scalar, mzed.c:141-193, transcribed by gen_mem.py *)
Definition p_mzed_mul_scalar := Fn ["C"; "B"] (
  IfNull (V "C") (Use [V "B"] ;;
      Call (Some (V "C")) "mzed_init" [AP (V "B")])
     (Skip) ;;
  Use [V "B"] ;;
  Set_ (V "ff") (V "B") ;;
  Use [V "ff"] ;;
  If (Call None "mzed_copy" [AP (V "C"); AP (V "B")] ;;
      Use [V "B"] ;;
      Loop (Use [V "B"; V "C"]) ;;
      Ret (Some (V "C")))
     (Use [V "B"] ;;
      If (Call None "mzed_copy" [AP (V "C"); AP (V "B")] ;;
          Use [V "B"] ;;
          Loop (Use [V "B"; V "C"]) ;;
          Ret (Some (V "C")))
         (Skip)) ;;
  Use [V "B"] ;;
  Call (Some (V "mul")) "gf2e_t16_init" [AP (V "B")] ;;
  Use [V "C"] ;;
  Loop (Use [V "C"] ;;
    Set_ (V "c_row") (V "C") ;;
    Use [V "B"] ;;
    Set_ (V "b_row") (V "B") ;;
    Use [V "C"] ;;
    Loop (Use [V "C"; V "b_row"; V "mul"; V "c_row"]) ;;
    Use [V "B"; V "b_row"; V "C"; V "c_row"; V "mul"]) ;;
  Call None "gf2e_t16_free" [AP (V "mul")] ;;
  Ret (Some (V "C"))).

(** mzed_copy, mzed.c:196-206, transcribed by gen_mem.py *)
Definition p_mzed_copy := Fn ["A"; "B"] (
  IfSame (V "A") (V "B") (Ret (Some (V "A")))
     (Skip) ;;
  IfNull (V "A") (Use [V "B"] ;;
      Call (Some (V "A")) "mzed_init" [AP (V "B")])
     (Skip) ;;
  Use [V "A"; V "B"] ;;
  If (Use [V "A"; V "B"] ;;
      If (Use [V "A"; V "B"] ;;
          If (Skip)
             (Abort))
         (Abort))
     (Abort) ;;
  Use [V "A"; V "B"] ;;
  Ret (Some (V "A"))).

(** mzd_slice_init, mzd_slice.h:78-89, transcribed by hand *)
Definition p_mzd_slice_init := Fn ["ff"] (
  Malloc (V "A") KRaw ;;
  Use [V "ff"; V "A"] ;;
  For "depth" (Malloc (El "A.x") KMzd) ;;
  Pack "A" KSlice [FA "A.x" "depth"] ;;
  Ret (Some (V "A"))).

(** mzd_slice_free, mzd_slice.h:145-153, transcribed by hand: _mm_free and free count as m4ri_mm_free *)
Definition p_mzd_slice_free := Fn ["A"] (
  Unpack "A" [FA "A.x" "depth"] ;;
  For "depth" (Free (El "A.x") KMzd) ;;
  Free (V "A") KRaw).

(** mzd_slice_copy, mzd_slice.h:164-172, transcribed by gen_mem.py *)
Definition p_mzd_slice_copy := Fn ["B"; "A"] (
  IfNull (V "B") (Use [V "A"] ;;
      Call (Some (V "B")) "mzd_slice_init" [AP (V "A")])
     (Skip) ;;
  Use [V "A"] ;;
  Loop (Use [V "A"; V "B"]) ;;
  Ret (Some (V "B"))).

(** mzd_slice_concat, mzd_slice.h:397-405, transcribed by gen_mem.py *)
Definition p_mzd_slice_concat := Fn ["C"; "A"; "B"] (
  IfNull (V "C") (Use [V "A"; V "B"] ;;
      Call (Some (V "C")) "mzd_slice_init" [AP (V "A")])
     (Skip) ;;
  Use [V "A"] ;;
  Loop (Use [V "A"; V "C"; V "B"]) ;;
  Ret (Some (V "C"))).

(** mzd_slice_stack, mzd_slice.h:424-432, transcribed by gen_mem.py *)
Definition p_mzd_slice_stack := Fn ["C"; "A"; "B"] (
  IfNull (V "C") (Use [V "A"; V "B"] ;;
      Call (Some (V "C")) "mzd_slice_init" [AP (V "A")])
     (Skip) ;;
  Use [V "A"] ;;
  Loop (Use [V "A"; V "C"; V "B"]) ;;
  Ret (Some (V "C"))).

(** mzd_slice_submatrix, mzd_slice.h:447-456, transcribed by gen_mem.py *)
Definition p_mzd_slice_submatrix := Fn ["S"; "A"] (
  IfNull (V "S") (Use [V "A"] ;;
      Call (Some (V "S")) "mzd_slice_init" [AP (V "A")])
     (Skip) ;;
  Use [V "A"] ;;
  Loop (Use [V "A"; V "S"]) ;;
  Ret (Some (V "S"))).

(** mzd_slice_init_window, mzd_slice.h:480-492, transcribed by hand: a window into A->x[i] is a window into A *)
Definition p_mzd_slice_init_window := Fn ["A"] (
  Malloc (V "B") KRaw ;;
  Use [V "A"; V "B"] ;;
  For "depth" (Window (El "B.x") KMzdWin (V "A")) ;;
  Pack "B" KSliceWin [FA "B.x" "depth"] ;;
  Ret (Some (V "B"))).

(** mzd_slice_free_window, mzd_slice.h:502-507, transcribed by hand *)
Definition p_mzd_slice_free_window := Fn ["A"] (
  Unpack "A" [FA "A.x" "depth"] ;;
  For "depth" (Free (El "A.x") KMzd) ;;
  Free (V "A") KRaw).

(** mzd_slice_add, mzd_slice.h:537-547, transcribed by gen_mem.py *)
Definition p_mzd_slice_add := Fn ["C"; "A"; "B"] (
  Use [V "A"; V "B"] ;;
  If (Abort)
     (Skip) ;;
  IfNull (V "C") (Use [V "A"] ;;
      Call (Some (V "C")) "mzd_slice_init" [AP (V "A")])
     (Use [V "A"; V "C"] ;;
      If (Abort)
         (Skip)) ;;
  Use [V "C"; V "A"; V "B"] ;;
  Ret (Some (V "C"))).

(** _mzd_slice_addmul_karatsuba, mzd_slice.h:624-647, transcribed by gen_mem.py *)
Definition p__mzd_slice_addmul_karatsuba := Fn ["C"; "A"; "B"] (
  IfNull (V "C") (Use [V "A"; V "B"] ;;
      Call (Some (V "C")) "mzd_slice_init" [AP (V "A")])
     (Skip) ;;
  Use [V "A"] ;;
  If (Use [V "A"; V "C"; V "B"] ;;
      Call None "_mzd_ptr_addmul_karatsuba2" [AP (V "A"); AP (V "C"); AP (V "A"); AP (V "B")])
     (If (Use [V "A"; V "C"; V "B"] ;;
          Call None "_mzd_ptr_addmul_karatsuba3" [AP (V "A"); AP (V "C"); AP (V "A"); AP (V "B")])
         (If (Use [V "A"; V "C"; V "B"] ;;
              Call None "_mzd_ptr_addmul_karatsuba4" [AP (V "A"); AP (V "C"); AP (V "A"); AP (V "B")])
             (If (Use [V "A"; V "C"; V "B"] ;;
                  Call None "_mzd_ptr_addmul_karatsuba5" [AP (V "A"); AP (V "C"); AP (V "A"); AP (V "B")])
                 (If (Use [V "A"; V "C"; V "B"] ;;
                      Call None "_mzd_ptr_addmul_karatsuba6" [AP (V "A"); AP (V "C"); AP (V "A"); AP (V "B")])
                     (If (Use [V "A"; V "C"; V "B"] ;;
                          Call None "_mzd_ptr_addmul_karatsuba7" [AP (V "A"); AP (V "C"); AP (V "A"); AP (V "B")])
                         (If (Use [V "A"; V "C"; V "B"] ;;
                              Call None "_mzd_ptr_addmul_karatsuba8" [AP (V "A"); AP (V "C"); AP (V "A"); AP (V "B")])
                             (If (Use [V "A"; V "C"; V "B"] ;;
                                  Call None "_mzd_ptr_addmul_karatsuba9" [AP (V "A"); AP (V "C"); AP (V "A"); AP (V "B")])
                                 (If (Use [V "A"; V "C"; V "B"] ;;
                                      Call None "_mzd_ptr_addmul_karatsuba10" [AP (V "A"); AP (V "C"); AP (V "A"); AP (V "B")])
                                     (If (Use [V "A"; V "C"; V "B"] ;;
                                          Call None "_mzd_ptr_addmul_karatsuba11" [AP (V "A"); AP (V "C"); AP (V "A"); AP (V "B")])
                                         (If (Use [V "A"; V "C"; V "B"] ;;
                                              Call None "_mzd_ptr_addmul_karatsuba12" [AP (V "A"); AP (V "C"); AP (V "A"); AP (V "B")])
                                             (If (Use [V "A"; V "C"; V "B"] ;;
                                                  Call None "_mzd_ptr_addmul_karatsuba13" [AP (V "A"); AP (V "C"); AP (V "A"); AP (V "B")])
                                                 (If (Use [V "A"; V "C"; V "B"] ;;
                                                      Call None "_mzd_ptr_addmul_karatsuba14" [AP (V "A"); AP (V "C"); AP (V "A"); AP (V "B")])
                                                     (If (Use [V "A"; V "C"; V "B"] ;;
                                                          Call None "_mzd_ptr_addmul_karatsuba15" [AP (V "A"); AP (V "C"); AP (V "A"); AP (V "B")])
                                                         (If (Use [V "A"; V "C"; V "B"] ;;
                                                              Call None "_mzd_ptr_addmul_karatsuba16" [AP (V "A"); AP (V "C"); AP (V "A"); AP (V "B")])
                                                             (Call (Some (V "C")) "_mzd_slice_addmul_naive" [AP (V "C"); AP (V "A"); AP (V "B")]))))))))))))))) ;;
  Ret (Some (V "C"))).

(** mzd_slice_mul_karatsuba, mzd_slice.h:661-670, transcribed by gen_mem.py *)
Definition p_mzd_slice_mul_karatsuba := Fn ["C"; "A"; "B"] (
  Use [V "A"; V "B"] ;;
  If (Use [V "A"; V "B"] ;;
      If (Skip)
         (Abort))
     (Abort) ;;
  IfNull (V "C") (Skip)
     (Use [V "C"; V "A"] ;;
      If (Use [V "C"; V "A"] ;;
          If (Use [V "C"; V "B"] ;;
              If (Skip)
                 (Abort))
             (Abort))
         (Abort) ;;
      Use [V "C"]) ;;
  Call (Some (V "_2")) "_mzd_slice_addmul_karatsuba" [AP (V "C"); AP (V "A"); AP (V "B")] ;;
  Ret (Some (V "_2"))).

(** mzd_slice_addmul_karatsuba, mzd_slice.h:684-691, transcribed by gen_mem.py *)
Definition p_mzd_slice_addmul_karatsuba := Fn ["C"; "A"; "B"] (
  Use [V "A"; V "B"] ;;
  If (Use [V "A"; V "B"] ;;
      If (Skip)
         (Abort))
     (Abort) ;;
  Use [V "C"; V "A"] ;;
  If (Use [V "C"; V "A"] ;;
      If (Use [V "C"; V "B"] ;;
          If (Skip)
             (Abort))
         (Abort))
     (Abort) ;;
  Call (Some (V "_1")) "_mzd_slice_addmul_karatsuba" [AP (V "C"); AP (V "A"); AP (V "B")] ;;
  Ret (Some (V "_1"))).

(** _mzd_slice_mul_blm, mzd_slice.h:706-729, transcribed by gen_mem.py *)
Definition p__mzd_slice_mul_blm := Fn ["C"; "A"; "B"; "f"] (
  IfNull (V "C") (Use [V "A"; V "B"] ;;
      Call (Some (V "C")) "mzd_slice_init" [AP (V "A")])
     (Skip) ;;
  SetFlag "free_f" false ;;
  IfNull (V "f") (Use [V "C"] ;;
      If (Abort)
         (Skip) ;;
      Malloc (V "p") KRaw ;;
      Use [V "p"] ;;
      SetFlag "free_f" true ;;
      Use [V "C"] ;;
      Call (Some (V "f")) "blm_init_crt" [AP (V "C"); AP (V "p"); AFLAG true] ;;
      Free (V "p") KRaw)
     (Skip) ;;
  Use [V "C"; V "A"; V "B"] ;;
  Call None "_mzd_ptr_apply_blm" [AP (V "C"); AP (V "A"); AP (V "B"); AP (V "f")] ;;
  IfFlag "free_f" (Call None "blm_free" [AP (V "f")])
     (Skip) ;;
  Ret (Some (V "C"))).

(** mzd_slice_mul_blm, mzd_slice.h:744-753, transcribed by gen_mem.py *)
Definition p_mzd_slice_mul_blm := Fn ["C"; "A"; "B"; "f"] (
  Use [V "A"; V "B"] ;;
  If (Use [V "A"; V "B"] ;;
      If (Skip)
         (Abort))
     (Abort) ;;
  IfNull (V "C") (Skip)
     (Use [V "C"; V "A"] ;;
      If (Use [V "C"; V "A"] ;;
          If (Use [V "C"; V "B"] ;;
              If (Skip)
                 (Abort))
             (Abort))
         (Abort) ;;
      Use [V "C"]) ;;
  Call (Some (V "_2")) "_mzd_slice_mul_blm" [AP (V "C"); AP (V "A"); AP (V "B"); AP (V "f")] ;;
  Ret (Some (V "_2"))).

(** mzd_slice_addmul_blm, mzd_slice.h:768-778, transcribed by gen_mem.py *)
Definition p_mzd_slice_addmul_blm := Fn ["C"; "A"; "B"; "f"] (
  Use [V "A"; V "B"] ;;
  If (Use [V "A"; V "B"] ;;
      If (Skip)
         (Abort))
     (Abort) ;;
  Use [V "C"; V "A"] ;;
  If (Use [V "C"; V "A"] ;;
      If (Use [V "C"; V "B"] ;;
          If (Skip)
             (Abort))
         (Abort))
     (Abort) ;;
  Call (Some (V "T")) "_mzd_slice_mul_blm" [ANULL; AP (V "A"); AP (V "B"); AP (V "f")] ;;
  Call None "mzd_slice_add" [AP (V "C"); AP (V "C"); AP (V "T")] ;;
  Call None "mzd_slice_free" [AP (V "T")] ;;
  Ret (Some (V "C"))).

(** mzd_slice_mul, mzd_slice.h:818-820, transcribed by gen_mem.py *)
Definition p_mzd_slice_mul := Fn ["C"; "A"; "B"] (
  Call (Some (V "_1")) "mzd_slice_mul_karatsuba" [AP (V "C"); AP (V "A"); AP (V "B")] ;;
  Ret (Some (V "_1"))).

(** mzd_slice_addmul, mzd_slice.h:834-836, transcribed by gen_mem.py *)
Definition p_mzd_slice_addmul := Fn ["C"; "A"; "B"] (
  Call (Some (V "_1")) "mzd_slice_addmul_karatsuba" [AP (V "C"); AP (V "A"); AP (V "B")] ;;
  Ret (Some (V "_1"))).

(** mzd_slice_mul_scalar, mzd_slice.c:25-41, transcribed by gen_mem.py *)
Definition p_mzd_slice_mul_scalar := Fn ["C"; "B"] (
  IfNull (V "C") (Use [V "B"] ;;
      Call (Some (V "C")) "mzd_slice_init" [AP (V "B")])
     (Use [V "C"]) ;;
  Use [V "B"] ;;
  Set_ (V "ff") (V "B") ;;
  Use [V "ff"] ;;
  Loop (Use [V "ff"] ;;
    If (Use [V "B"] ;;
        Loop (Use [V "B"; V "C"] ;;
          IfNull (V "ff") (Skip)
             (Use [V "ff"])))
       (Skip)) ;;
  Ret (Some (V "C"))).

(** _mzd_slice_addmul_naive, mzd_slice.c:82-98, transcribed by gen_mem.py *)
Definition p__mzd_slice_addmul_naive := Fn ["C"; "A"; "B"] (
  IfNull (V "C") (Use [V "A"; V "B"] ;;
      Call (Some (V "C")) "mzd_slice_init" [AP (V "A")])
     (Skip) ;;
  Use [V "A"; V "B"] ;;
  Malloc (V "t0") KMzd ;;
  Loop (Loop (Use [V "A"; V "B"; V "t0"; V "C"] ;;
      IfNull (V "A") (Skip)
         (Use [V "A"]))) ;;
  Free (V "t0") KMzd ;;
  Ret (Some (V "C"))).

(** mzd_poly_init, mzd_poly.h:90-101, transcribed by hand *)
Definition p_mzd_poly_init := Fn [] (
  Malloc (V "A") KRaw ;;
  Use [V "A"] ;;
  Malloc (V "A.x") KRaw ;;
  For "depth" (Malloc (El "A.x") KMzd) ;;
  Pack "A" KPoly [FV "A.x"; FA "A.x" "depth"] ;;
  Ret (Some (V "A"))).

(** mzd_poly_free, mzd_poly.h:111-116, transcribed by hand *)
Definition p_mzd_poly_free := Fn ["A"] (
  Unpack "A" [FV "A.x"; FA "A.x" "depth"] ;;
  For "depth" (Free (El "A.x") KMzd) ;;
  Free (V "A.x") KRaw ;;
  Free (V "A") KRaw).

(** _mzd_poly_addmul_naive, mzd_poly.h:152-162, transcribed by gen_mem.py *)
Definition p__mzd_poly_addmul_naive := Fn ["C"; "A"; "B"] (
  IfNull (V "C") (Use [V "A"; V "B"] ;;
      Call (Some (V "C")) "mzd_poly_init" [])
     (Skip) ;;
  Use [V "A"] ;;
  Loop (Use [V "A"; V "B"] ;;
    Loop (Use [V "B"; V "C"; V "A"])) ;;
  Ret (Some (V "C"))).

(** _mzd_poly_addmul_karatsubs_balanced, mzd_poly.h:175-203, transcribed by gen_mem.py *)
Definition p__mzd_poly_addmul_karatsubs_balanced := Fn ["C"; "A"; "B"] (
  IfNull (V "C") (Use [V "A"; V "B"] ;;
      Call (Some (V "C")) "mzd_poly_init" [])
     (Skip) ;;
  Use [V "A"] ;;
  If (Abort)
     (If (Use [V "C"; V "A"; V "B"])
         (If (Use [V "C"; V "A"; V "B"] ;;
              Call None "_mzd_ptr_addmul_karatsuba2" [ANULL; AP (V "C"); AP (V "A"); AP (V "B")])
             (If (Use [V "C"; V "A"; V "B"] ;;
                  Call None "_mzd_ptr_addmul_karatsuba3" [ANULL; AP (V "C"); AP (V "A"); AP (V "B")])
                 (If (Use [V "C"; V "A"; V "B"] ;;
                      Call None "_mzd_ptr_addmul_karatsuba4" [ANULL; AP (V "C"); AP (V "A"); AP (V "B")])
                     (If (Use [V "C"; V "A"; V "B"] ;;
                          Call None "_mzd_ptr_addmul_karatsuba5" [ANULL; AP (V "C"); AP (V "A"); AP (V "B")])
                         (If (Use [V "C"; V "A"; V "B"] ;;
                              Call None "_mzd_ptr_addmul_karatsuba6" [ANULL; AP (V "C"); AP (V "A"); AP (V "B")])
                             (If (Use [V "C"; V "A"; V "B"] ;;
                                  Call None "_mzd_ptr_addmul_karatsuba7" [ANULL; AP (V "C"); AP (V "A"); AP (V "B")])
                                 (If (Use [V "C"; V "A"; V "B"] ;;
                                      Call None "_mzd_ptr_addmul_karatsuba8" [ANULL; AP (V "C"); AP (V "A"); AP (V "B")])
                                     (If (Use [V "C"; V "A"; V "B"] ;;
                                          Call None "_mzd_ptr_addmul_karatsuba9" [ANULL; AP (V "C"); AP (V "A"); AP (V "B")])
                                         (If (Use [V "C"; V "A"; V "B"] ;;
                                              Call None "_mzd_ptr_addmul_karatsuba10" [ANULL; AP (V "C"); AP (V "A"); AP (V "B")])
                                             (If (Use [V "C"; V "A"; V "B"] ;;
                                                  Call None "_mzd_ptr_addmul_karatsuba11" [ANULL; AP (V "C"); AP (V "A"); AP (V "B")])
                                                 (If (Use [V "C"; V "A"; V "B"] ;;
                                                      Call None "_mzd_ptr_addmul_karatsuba12" [ANULL; AP (V "C"); AP (V "A"); AP (V "B")])
                                                     (If (Use [V "C"; V "A"; V "B"] ;;
                                                          Call None "_mzd_ptr_addmul_karatsuba13" [ANULL; AP (V "C"); AP (V "A"); AP (V "B")])
                                                         (If (Use [V "C"; V "A"; V "B"] ;;
                                                              Call None "_mzd_ptr_addmul_karatsuba14" [ANULL; AP (V "C"); AP (V "A"); AP (V "B")])
                                                             (If (Use [V "C"; V "A"; V "B"] ;;
                                                                  Call None "_mzd_ptr_addmul_karatsuba15" [ANULL; AP (V "C"); AP (V "A"); AP (V "B")])
                                                                 (Use [V "C"; V "A"; V "B"] ;;
                                                                  Call None "_mzd_ptr_addmul_karatsuba16" [ANULL; AP (V "C"); AP (V "A"); AP (V "B")])))))))))))))))) ;;
  Ret (Some (V "C"))).

(** _mzd_poly_addmul_blm, mzd_poly.h:209-218, transcribed by gen_mem.py *)
Definition p__mzd_poly_addmul_blm := Fn ["C"; "A"; "B"; "f"] (
  IfNull (V "C") (Use [V "A"; V "B"] ;;
      Call (Some (V "C")) "mzd_poly_init" [])
     (Skip) ;;
  Use [V "C"; V "A"; V "B"] ;;
  Call None "_mzd_ptr_apply_blm" [AP (V "C"); AP (V "A"); AP (V "B"); AP (V "f")] ;;
  Ret (Some (V "C"))).

(** _mzd_poly_addmul_crt, mzd_poly.h:225-232, transcribed by gen_mem.py *)
Definition p__mzd_poly_addmul_crt := Fn ["C"; "A"; "B"] (
  Use [V "A"; V "B"] ;;
  Call (Some (V "p")) "crt_init" [] ;;
  Use [V "A"; V "B"] ;;
  Call (Some (V "f")) "blm_init_crt" [ANULL; AP (V "p"); AFLAG true] ;;
  Call None "_mzd_poly_addmul_blm" [AP (V "C"); AP (V "A"); AP (V "B"); AP (V "f")] ;;
  Call None "blm_free" [AP (V "f")] ;;
  Free (V "p") KRaw ;;
  Ret (Some (V "C"))).

(** _mzd_poly_addmul_ext1, mzd_poly.c:12-79, transcribed by hand: c[0] and c[1] are the variables c0 and c1, c is the array of the others (so d is at least 2) *)
Definition p__mzd_poly_addmul_ext1 := Fn ["C"; "A"; "B"] (
  Use [V "A"; V "B"] ;;
  Call (Some (V "ff")) "gf2e_init" [] ;;
  Call (Some (V "a")) "mzd_slice_init" [AP (V "ff")] ;;
  Call (Some (V "b")) "mzd_slice_init" [AP (V "ff")] ;;
  Malloc (V "c") KRaw ;;
  Call (Some (V "Phi")) "mzed_init" [AP (V "ff")] ;;
  Call (Some (V "Rho")) "mzed_init" [AP (V "ff")] ;;
  Use [V "Phi"] ;;
  Call (Some (V "c0")) "mzd_slice_init" [AP (V "ff")] ;;
  Use [V "c0"; V "A"; V "B"] ;;
  Loop (Use [V "Phi"]) ;;
  Loop (Use [V "a"; V "A"]) ;;
  Loop (Use [V "b"; V "B"]) ;;
  Call (Some (V "c1")) "mzd_slice_init" [AP (V "ff")] ;;
  Use [V "c1"; V "a"; V "b"] ;;
  For "d-2" (Use [V "a"; V "b"] ;;
             Loop (Use [V "Phi"; V "ff"] ;; If (Use [V "a"; V "A"]) Skip ;; If (Use [V "b"; V "B"]) Skip) ;;
             Call (Some (El "c")) "mzd_slice_mul" [ANULL; AP (V "a"); AP (V "b")]) ;;
  Call None "mzd_slice_free" [AP (V "a")] ;;
  Call None "mzd_slice_free" [AP (V "b")] ;;
  Call None "mzed_invert_newton_john" [AP (V "Rho"); AP (V "Phi")] ;;
  Call (Some (V "tmp")) "mzd_slice_init" [AP (V "ff")] ;;
  Loop (Use [V "Rho"; V "c"] ;;
        Call None "mzd_slice_mul_scalar" [AP (V "tmp"); AP (V "c0")] ;;
        Use [V "C"; V "tmp"] ;;
        Call None "mzd_slice_mul_scalar" [AP (V "tmp"); AP (V "c1")] ;;
        Use [V "C"; V "tmp"] ;;
        For "d-2" (Call None "mzd_slice_mul_scalar" [AP (V "tmp"); AP (El "c")] ;;
                   Use [V "C"; V "tmp"])) ;;
  Call None "mzd_slice_free" [AP (V "tmp")] ;;
  Call None "mzd_slice_free" [AP (V "c0")] ;;
  Call None "mzd_slice_free" [AP (V "c1")] ;;
  For "d-2" (Call None "mzd_slice_free" [AP (El "c")]) ;;
  Free (V "c") KRaw ;;
  Call None "mzed_free" [AP (V "Phi")] ;;
  Call None "mzed_free" [AP (V "Rho")] ;;
  Call None "gf2e_free" [AP (V "ff")] ;;
  Ret (Some (V "C"))).

(** djb_apply_mzd_ptr, mzd_ptr.c:5-29, transcribed by gen_mem.py *)
Definition p_djb_apply_mzd_ptr := Fn ["m"; "W"; "V"] (
  Use [V "m"] ;;
  Malloc (V "iszero") KRaw ;;
  Use [V "m"] ;;
  Loop (Use [V "m"; V "iszero"]) ;;
  Use [V "m"] ;;
  Loop (Use [V "m"; V "iszero"] ;;
    If (Use [V "m"] ;;
        If (Use [V "m"; V "W"; V "V"])
           (Use [V "m"; V "W"]) ;;
        Use [V "m"; V "iszero"])
       (Use [V "m"] ;;
        If (Use [V "m"; V "W"; V "V"])
           (Use [V "m"; V "W"]))) ;;
  Free (V "iszero") KRaw).

(** njt_mzed_init, newton_john.c:32-38, transcribed by hand *)
Definition p_njt_mzed_init := Fn ["ff"] (
  Malloc (V "T") KRaw ;;
  Use [V "ff"; V "T"] ;;
  Malloc (V "T.L") KRaw ;;
  Call (Some (V "T.T")) "mzed_init" [AP (V "ff")] ;;
  Call (Some (V "T.M")) "mzed_init" [AP (V "ff")] ;;
  Pack "T" KNjt [FV "T.L"; FV "T.T"; FV "T.M"] ;;
  Ret (Some (V "T"))).

(** njt_mzed_free, newton_john.c:40-45, transcribed by hand *)
Definition p_njt_mzed_free := Fn ["T"] (
  Unpack "T" [FV "T.L"; FV "T.T"; FV "T.M"] ;;
  Call None "mzed_free" [AP (V "T.M")] ;;
  Call None "mzed_free" [AP (V "T.T")] ;;
  Free (V "T.L") KRaw ;;
  Free (V "T") KRaw).

(** mzed_make_table, newton_john.c:156-233, transcribed by gen_mem.py *)
Definition p_mzed_make_table := Fn ["T"; "A"] (
  IfNull (V "T") (Use [V "A"] ;;
      Call (Some (V "T")) "njt_mzed_init" [AP (V "A")])
     (Skip) ;;
  Use [V "T"; V "A"] ;;
  Loop (Use [V "T"; V "A"]) ;;
  Use [V "T"] ;;
  Loop (Use [V "T"] ;;
    Set_ (V "ti") (V "T") ;;
    Use [V "T"] ;;
    Set_ (V "ti1") (V "T") ;;
    Use [V "T"] ;;
    Set_ (V "m") (V "T") ;;
    If (Skip)
       (Use [V "ti"]) ;;
    Loop (Use [V "m"; V "ti1"; V "ti"]) ;;
    If (Use [V "m"; V "ti1"; V "ti"])
       (Skip)) ;;
  Ret (Some (V "T"))).

(** mzed_echelonize_newton_john, newton_john.c:235-347, transcribed by gen_mem.py *)
Definition p_mzed_echelonize_newton_john := Fn ["A"] (
  Use [V "A"] ;;
  Set_ (V "ff") (V "A") ;;
  Use [V "ff"; V "A"] ;;
  Call (Some (V "T0")) "njt_mzed_init" [AP (V "ff")] ;;
  Use [V "A"] ;;
  Call (Some (V "T1")) "njt_mzed_init" [AP (V "ff")] ;;
  Use [V "A"] ;;
  Call (Some (V "T2")) "njt_mzed_init" [AP (V "ff")] ;;
  Use [V "A"] ;;
  Call (Some (V "T3")) "njt_mzed_init" [AP (V "ff")] ;;
  Use [V "A"] ;;
  Call (Some (V "T4")) "njt_mzed_init" [AP (V "ff")] ;;
  Use [V "A"] ;;
  Call (Some (V "T5")) "njt_mzed_init" [AP (V "ff")] ;;
  Use [V "A"] ;;
  Loop (Use [V "A"] ;;
    If (Use [V "A"])
       (Skip) ;;
    Use [V "A"] ;;
    If (Call None "mzed_make_table" [AP (V "T0"); AP (V "A")] ;;
        Call None "mzed_make_table" [AP (V "T1"); AP (V "A")] ;;
        Call None "mzed_make_table" [AP (V "T2"); AP (V "A")] ;;
        Call None "mzed_make_table" [AP (V "T3"); AP (V "A")] ;;
        Call None "mzed_make_table" [AP (V "T4"); AP (V "A")] ;;
        Call None "mzed_make_table" [AP (V "T5"); AP (V "A")] ;;
        If (Use [V "A"; V "T0"; V "T1"; V "T2"; V "T3"; V "T4"; V "T5"])
           (Skip) ;;
        If (Use [V "A"; V "T0"; V "T1"; V "T2"; V "T3"; V "T4"; V "T5"])
           (Skip))
       (If (Call None "mzed_make_table" [AP (V "T0"); AP (V "A")] ;;
            Call None "mzed_make_table" [AP (V "T1"); AP (V "A")] ;;
            Call None "mzed_make_table" [AP (V "T2"); AP (V "A")] ;;
            Call None "mzed_make_table" [AP (V "T3"); AP (V "A")] ;;
            Call None "mzed_make_table" [AP (V "T4"); AP (V "A")] ;;
            If (Use [V "A"; V "T0"; V "T1"; V "T2"; V "T3"; V "T4"])
               (Skip) ;;
            If (Use [V "A"; V "T0"; V "T1"; V "T2"; V "T3"; V "T4"])
               (Skip))
           (If (Call None "mzed_make_table" [AP (V "T0"); AP (V "A")] ;;
                Call None "mzed_make_table" [AP (V "T1"); AP (V "A")] ;;
                Call None "mzed_make_table" [AP (V "T2"); AP (V "A")] ;;
                Call None "mzed_make_table" [AP (V "T3"); AP (V "A")] ;;
                If (Use [V "A"; V "T0"; V "T1"; V "T2"; V "T3"])
                   (Skip) ;;
                If (Use [V "A"; V "T0"; V "T1"; V "T2"; V "T3"])
                   (Skip))
               (If (Call None "mzed_make_table" [AP (V "T0"); AP (V "A")] ;;
                    Call None "mzed_make_table" [AP (V "T1"); AP (V "A")] ;;
                    Call None "mzed_make_table" [AP (V "T2"); AP (V "A")] ;;
                    If (Use [V "A"; V "T0"; V "T1"; V "T2"])
                       (Skip) ;;
                    If (Use [V "A"; V "T0"; V "T1"; V "T2"])
                       (Skip))
                   (If (Call None "mzed_make_table" [AP (V "T0"); AP (V "A")] ;;
                        Call None "mzed_make_table" [AP (V "T1"); AP (V "A")] ;;
                        If (Use [V "A"; V "T0"; V "T1"])
                           (Skip) ;;
                        If (Use [V "A"; V "T0"; V "T1"])
                           (Skip))
                       (If (Call None "mzed_make_table" [AP (V "T0"); AP (V "A")] ;;
                            If (Use [V "A"; V "T0"])
                               (Skip) ;;
                            If (Use [V "A"; V "T0"])
                               (Skip))
                           (Skip))))))) ;;
  Call None "njt_mzed_free" [AP (V "T0")] ;;
  Call None "njt_mzed_free" [AP (V "T1")] ;;
  Call None "njt_mzed_free" [AP (V "T2")] ;;
  Call None "njt_mzed_free" [AP (V "T3")] ;;
  Call None "njt_mzed_free" [AP (V "T4")] ;;
  Call None "njt_mzed_free" [AP (V "T5")] ;;
  Ret None).

(** mzed_ple_newton_john, newton_john.c:349-397, transcribed by gen_mem.py *)
Definition p_mzed_ple_newton_john := Fn ["A"; "P"; "Q"] (
  Use [V "A"] ;;
  Set_ (V "ff") (V "A") ;;
  Use [V "A"] ;;
  Call (Some (V "T0")) "njt_mzed_init" [AP (V "A")] ;;
  Use [V "A"] ;;
  If (Use [V "A"])
     (Skip) ;;
  Loop (Use [V "A"] ;;
    If (Use [V "A"])
       (Skip) ;;
    Use [V "A"] ;;
    Loop (Use [V "A"] ;;
      Loop (Use [V "A"] ;;
        If (Skip)
           (Break)) ;;
      If (Break)
         (Skip)) ;;
    If (Use [V "P"; V "Q"; V "A"] ;;
        If (Use [V "ff"; V "A"] ;;
            Call None "mzed_make_table" [AP (V "T0"); AP (V "A")] ;;
            Use [V "A"; V "T0"])
           (Skip))
       (Break)) ;;
  Use [V "A"] ;;
  Loop (Use [V "A"; V "P"]) ;;
  Use [V "A"] ;;
  Loop (Use [V "A"; V "Q"]) ;;
  Loop (Use [V "Q"; V "A"]) ;;
  Call None "njt_mzed_free" [AP (V "T0")] ;;
  Ret None).

(** _mzed_mul_newton_john0, newton_john.c:399-410, transcribed by gen_mem.py *)
Definition p__mzed_mul_newton_john0 := Fn ["C"; "A"; "B"] (
  Use [V "B"] ;;
  Call (Some (V "T0")) "njt_mzed_init" [AP (V "B")] ;;
  Use [V "A"] ;;
  Loop (Use [V "A"] ;;
    Call None "mzed_make_table" [AP (V "T0"); AP (V "B")] ;;
    Use [V "A"] ;;
    Loop (Use [V "A"; V "C"; V "T0"])) ;;
  Call None "njt_mzed_free" [AP (V "T0")] ;;
  Ret (Some (V "C"))).

(** _mzed_mul_newton_john, newton_john.c:412-495, transcribed by gen_mem.py *)
Definition p__mzed_mul_newton_john := Fn ["C"; "A"; "B"] (
  Use [V "A"] ;;
  If (Use [V "C"; V "A"; V "B"] ;;
      Ret (Some (V "C")))
     (Skip) ;;
  Use [V "B"] ;;
  Call (Some (V "T0")) "njt_mzed_init" [AP (V "B")] ;;
  Use [V "B"] ;;
  Call (Some (V "T1")) "njt_mzed_init" [AP (V "B")] ;;
  Use [V "B"] ;;
  Call (Some (V "T2")) "njt_mzed_init" [AP (V "B")] ;;
  Use [V "B"] ;;
  Call (Some (V "T3")) "njt_mzed_init" [AP (V "B")] ;;
  Use [V "B"] ;;
  Call (Some (V "T4")) "njt_mzed_init" [AP (V "B")] ;;
  Use [V "B"] ;;
  Call (Some (V "T5")) "njt_mzed_init" [AP (V "B")] ;;
  Use [V "B"] ;;
  Call (Some (V "T6")) "njt_mzed_init" [AP (V "B")] ;;
  Use [V "B"] ;;
  Call (Some (V "T7")) "njt_mzed_init" [AP (V "B")] ;;
  Use [V "A"] ;;
  If (Use [V "A"])
     (Skip) ;;
  Use [V "A"] ;;
  Loop (Use [V "A"] ;;
    Loop (Call None "mzed_make_table" [AP (V "T0"); AP (V "B")] ;;
      Call None "mzed_make_table" [AP (V "T1"); AP (V "B")] ;;
      Call None "mzed_make_table" [AP (V "T2"); AP (V "B")] ;;
      Call None "mzed_make_table" [AP (V "T3"); AP (V "B")] ;;
      Call None "mzed_make_table" [AP (V "T4"); AP (V "B")] ;;
      Call None "mzed_make_table" [AP (V "T5"); AP (V "B")] ;;
      Call None "mzed_make_table" [AP (V "T6"); AP (V "B")] ;;
      Call None "mzed_make_table" [AP (V "T7"); AP (V "B")] ;;
      Loop (Use [V "T0"; V "A"; V "T1"; V "T2"; V "T3"; V "T4"; V "T5"; V "T6"; V "T7"; V "C"]))) ;;
  Loop (Call None "mzed_make_table" [AP (V "T0"); AP (V "B")] ;;
    Call None "mzed_make_table" [AP (V "T1"); AP (V "B")] ;;
    Call None "mzed_make_table" [AP (V "T2"); AP (V "B")] ;;
    Call None "mzed_make_table" [AP (V "T3"); AP (V "B")] ;;
    Call None "mzed_make_table" [AP (V "T4"); AP (V "B")] ;;
    Call None "mzed_make_table" [AP (V "T5"); AP (V "B")] ;;
    Call None "mzed_make_table" [AP (V "T6"); AP (V "B")] ;;
    Call None "mzed_make_table" [AP (V "T7"); AP (V "B")] ;;
    Use [V "A"] ;;
    Loop (Use [V "A"; V "T0"; V "T1"; V "T2"; V "T3"; V "T4"; V "T5"; V "T6"; V "T7"; V "C"])) ;;
  Use [V "A"] ;;
  If (Use [V "A"] ;;
      Loop (Use [V "A"] ;;
        Call None "mzed_make_table" [AP (V "T0"); AP (V "B")] ;;
        Use [V "A"] ;;
        Loop (Use [V "A"; V "C"; V "T0"])))
     (Skip) ;;
  Call None "njt_mzed_free" [AP (V "T0")] ;;
  Call None "njt_mzed_free" [AP (V "T1")] ;;
  Call None "njt_mzed_free" [AP (V "T2")] ;;
  Call None "njt_mzed_free" [AP (V "T3")] ;;
  Call None "njt_mzed_free" [AP (V "T4")] ;;
  Call None "njt_mzed_free" [AP (V "T5")] ;;
  Call None "njt_mzed_free" [AP (V "T6")] ;;
  Call None "njt_mzed_free" [AP (V "T7")] ;;
  Ret (Some (V "C"))).

(** mzed_mul_newton_john, newton_john.c:498-501, transcribed by gen_mem.py *)
Definition p_mzed_mul_newton_john := Fn ["C"; "A"; "B"] (
  Call (Some (V "C")) "_mzed_mul_init" [AP (V "C"); AP (V "A"); AP (V "B")] ;;
  Call (Some (V "_1")) "_mzed_mul_newton_john" [AP (V "C"); AP (V "A"); AP (V "B")] ;;
  Ret (Some (V "_1"))).

(** mzed_addmul_newton_john, newton_john.c:503-506, transcribed by gen_mem.py *)
Definition p_mzed_addmul_newton_john := Fn ["C"; "A"; "B"] (
  Call (Some (V "C")) "_mzed_mul_init" [AP (V "C"); AP (V "A"); AP (V "B")] ;;
  Call (Some (V "_1")) "_mzed_mul_newton_john" [AP (V "C"); AP (V "A"); AP (V "B")] ;;
  Ret (Some (V "_1"))).

(** mzed_invert_newton_john, newton_john.c:508-530, transcribed by gen_mem.py *)
Definition p_mzed_invert_newton_john := Fn ["B"; "A"] (
  Use [V "A"] ;;
  Call (Some (V "I")) "mzed_init" [AP (V "A")] ;;
  Use [V "I"] ;;
  Call (Some (V "T")) "mzed_concat" [ANULL; AP (V "A"); AP (V "I")] ;;
  Call None "mzed_echelonize_newton_john" [AP (V "T")] ;;
  Use [V "A"] ;;
  Call (Some (V "J")) "mzed_init_window" [AP (V "T")] ;;
  Use [V "I"; V "J"] ;;
  Call None "mzed_free" [AP (V "J")] ;;
  Call None "mzed_free" [AP (V "I")] ;;
  If (Use [V "A"; V "T"] ;;
      Call (Some (V "B")) "mzed_submatrix" [AP (V "B"); AP (V "T")] ;;
      Call None "mzed_free" [AP (V "T")])
     (Call None "mzed_free" [AP (V "T")] ;;
      Abort) ;;
  Ret (Some (V "B"))).

(** mzed_trsm_lower_left_newton_john, newton_john.c:532-552, transcribed by gen_mem.py *)
Definition p_mzed_trsm_lower_left_newton_john := Fn ["L"; "B"] (
  Use [V "L"] ;;
  Set_ (V "ff") (V "L") ;;
  Use [V "ff"; V "L"] ;;
  If (Use [V "L"; V "B"] ;;
      Ret None)
     (Skip) ;;
  Use [V "B"] ;;
  Call (Some (V "T0")) "njt_mzed_init" [AP (V "B")] ;;
  Use [V "B"] ;;
  Loop (Use [V "B"; V "L"; V "ff"] ;;
    Call None "mzed_make_table" [AP (V "T0"); AP (V "B")] ;;
    Use [V "B"] ;;
    Loop (Use [V "B"; V "T0"; V "L"])) ;;
  Call None "njt_mzed_free" [AP (V "T0")]).

(** mzed_trsm_upper_left_newton_john, newton_john.c:554-574, transcribed by gen_mem.py *)
Definition p_mzed_trsm_upper_left_newton_john := Fn ["U"; "B"] (
  Use [V "U"] ;;
  Set_ (V "ff") (V "U") ;;
  Use [V "ff"; V "U"] ;;
  If (Use [V "U"; V "B"] ;;
      Ret None)
     (Skip) ;;
  Use [V "B"] ;;
  Call (Some (V "T0")) "njt_mzed_init" [AP (V "B")] ;;
  Use [V "B"] ;;
  Loop (Use [V "U"; V "ff"; V "B"] ;;
    Call None "mzed_make_table" [AP (V "T0"); AP (V "B")] ;;
    Loop (Use [V "B"; V "T0"; V "U"])) ;;
  Call None "njt_mzed_free" [AP (V "T0")]).

(** mzd_slice_trsm_lower_left_newton_john, newton_john.c:576-599, transcribed by gen_mem.py *)
Definition p_mzd_slice_trsm_lower_left_newton_john := Fn ["L"; "B"] (
  Use [V "L"] ;;
  Set_ (V "ff") (V "L") ;;
  Use [V "ff"; V "L"] ;;
  If (Call None "mzd_slice_trsm_lower_left_naive" [AP (V "L"); AP (V "B")] ;;
      Ret None)
     (Skip) ;;
  Call (Some (V "Be")) "mzed_cling" [ANULL; AP (V "B")] ;;
  Use [V "B"] ;;
  Call (Some (V "T0")) "njt_mzed_init" [AP (V "B")] ;;
  Use [V "B"] ;;
  Loop (Use [V "B"; V "L"; V "ff"; V "Be"] ;;
    Call None "mzed_make_table" [AP (V "T0"); AP (V "Be")] ;;
    Use [V "Be"] ;;
    Loop (Use [V "Be"; V "T0"; V "L"])) ;;
  Call None "mzed_slice" [AP (V "B"); AP (V "Be")] ;;
  Call None "mzed_free" [AP (V "Be")] ;;
  Call None "njt_mzed_free" [AP (V "T0")]).

(** mzd_slice_trsm_upper_left_newton_john, newton_john.c:601-624, transcribed by gen_mem.py *)
Definition p_mzd_slice_trsm_upper_left_newton_john := Fn ["U"; "B"] (
  Use [V "U"] ;;
  Set_ (V "ff") (V "U") ;;
  Use [V "ff"; V "U"] ;;
  If (Call None "mzd_slice_trsm_upper_left_naive" [AP (V "U"); AP (V "B")] ;;
      Ret None)
     (Skip) ;;
  Call (Some (V "Be")) "mzed_cling" [ANULL; AP (V "B")] ;;
  Use [V "Be"] ;;
  Call (Some (V "T0")) "njt_mzed_init" [AP (V "Be")] ;;
  Use [V "B"] ;;
  Loop (Use [V "U"; V "ff"; V "Be"] ;;
    Call None "mzed_make_table" [AP (V "T0"); AP (V "Be")] ;;
    Loop (Use [V "Be"; V "T0"; V "U"])) ;;
  Call None "mzed_slice" [AP (V "B"); AP (V "Be")] ;;
  Call None "mzed_free" [AP (V "Be")] ;;
  Call None "njt_mzed_free" [AP (V "T0")]).

(** mzd_slice_ple, ple.h:104-108, transcribed by gen_mem.py *)
Definition p_mzd_slice_ple := Fn ["A"; "P"; "Q"] (
  Call None "_mzd_slice_ple" [AP (V "A"); AP (V "P"); AP (V "Q")] ;;
  Ret None).

(** mzd_slice_pluq, ple.h:141-145, transcribed by gen_mem.py *)
Definition p_mzd_slice_pluq := Fn ["A"; "P"; "Q"] (
  Call None "_mzd_slice_pluq" [AP (V "A"); AP (V "P"); AP (V "Q")] ;;
  Ret None).

(** mzed_ple, ple.h:203-205, transcribed by gen_mem.py *)
Definition p_mzed_ple := Fn ["A"; "P"; "Q"] (
  Call None "_mzed_ple" [AP (V "A"); AP (V "P"); AP (V "Q")] ;;
  Ret None).

(** _mzed_ple, ple.c:74-87, transcribed by gen_mem.py *)
Definition p__mzed_ple := Fn ["A"; "P"; "Q"] (
  Use [V "A"] ;;
  If (Use [V "A"] ;;
      If (Call (Some (V "a")) "mzed_slice" [ANULL; AP (V "A")] ;;
          Call None "_mzd_slice_ple" [AP (V "a"); AP (V "P"); AP (V "Q")] ;;
          Call None "mzed_cling" [AP (V "A"); AP (V "a")] ;;
          Call None "mzd_slice_free" [AP (V "a")] ;;
          Ret None)
         (Call None "mzed_ple_newton_john" [AP (V "A"); AP (V "P"); AP (V "Q")] ;;
          Ret None))
     (Call None "mzed_ple_newton_john" [AP (V "A"); AP (V "P"); AP (V "Q")] ;;
      Ret None)).

(** _mzd_slice_ple, ple.c:89-180, transcribed by gen_mem.py *)
Definition p__mzd_slice_ple := Fn ["A"; "P"; "Q"] (
  Use [V "A"] ;;
  If (Call (Some (V "Abar")) "mzed_cling" [ANULL; AP (V "A")] ;;
      Call None "mzed_ple_newton_john" [AP (V "Abar"); AP (V "P"); AP (V "Q")] ;;
      Call None "mzed_slice" [AP (V "A"); AP (V "Abar")] ;;
      Call None "mzed_free" [AP (V "Abar")] ;;
      Ret None)
     (Use [V "A"] ;;
      If (Call (Some (V "Abar")) "mzed_cling" [ANULL; AP (V "A")] ;;
          Call None "mzed_ple_newton_john" [AP (V "Abar"); AP (V "P"); AP (V "Q")] ;;
          Call None "mzed_slice" [AP (V "A"); AP (V "Abar")] ;;
          Call None "mzed_free" [AP (V "Abar")] ;;
          Ret None)
         (Skip)) ;;
  Call (Some (V "A0")) "mzd_slice_init_window" [AP (V "A")] ;;
  Call (Some (V "A1")) "mzd_slice_init_window" [AP (V "A")] ;;
  Window (V "P1") KMzpWin (V "P") ;;
  Use [V "A0"] ;;
  Window (V "Q1") KMzpWin (V "Q") ;;
  Call None "_mzd_slice_ple" [AP (V "A0"); AP (V "P1"); AP (V "Q1")] ;;
  Call (Some (V "A00")) "mzd_slice_init_window" [AP (V "A")] ;;
  Call (Some (V "A10")) "mzd_slice_init_window" [AP (V "A")] ;;
  Call (Some (V "A01")) "mzd_slice_init_window" [AP (V "A")] ;;
  Call (Some (V "A11")) "mzd_slice_init_window" [AP (V "A")] ;;
  If (Use [V "A1"; V "P1"] ;;
      Call None "mzd_slice_trsm_lower_left" [AP (V "A00"); AP (V "A01")] ;;
      Call None "mzd_slice_addmul" [AP (V "A11"); AP (V "A10"); AP (V "A01")])
     (Skip) ;;
  Free (V "P1") KMzpWin ;;
  Free (V "Q1") KMzpWin ;;
  Window (V "P2") KMzpWin (V "P") ;;
  Window (V "Q2") KMzpWin (V "Q") ;;
  Call None "_mzd_slice_ple" [AP (V "A11"); AP (V "P2"); AP (V "Q2")] ;;
  Use [V "A10"; V "P2"] ;;
  Loop (Use [V "P2"]) ;;
  Loop (Use [V "Q2"]) ;;
  Loop (Use [V "Q"]) ;;
  Use [V "A"] ;;
  Free (V "Q2") KMzpWin ;;
  Free (V "P2") KMzpWin ;;
  Call None "mzd_slice_free_window" [AP (V "A0")] ;;
  Call None "mzd_slice_free_window" [AP (V "A1")] ;;
  Call None "mzd_slice_free_window" [AP (V "A00")] ;;
  Call None "mzd_slice_free_window" [AP (V "A01")] ;;
  Call None "mzd_slice_free_window" [AP (V "A10")] ;;
  Call None "mzd_slice_free_window" [AP (V "A11")] ;;
  Ret None).

(** _mzd_slice_pluq, ple.c:183-193, transcribed by gen_mem.py *)
Definition p__mzd_slice_pluq := Fn ["A"; "P"; "Q"] (
  Call None "_mzd_slice_ple" [AP (V "A"); AP (V "P"); AP (V "Q")] ;;
  If (Use [V "A"] ;;
      If (Use [V "A"] ;;
          Call (Some (V "A0")) "mzd_slice_init_window" [AP (V "A")] ;;
          Use [V "A0"; V "Q"] ;;
          Call None "mzd_slice_free_window" [AP (V "A0")])
         (Use [V "A"; V "Q"]))
     (Use [V "A"; V "Q"]) ;;
  Ret None).

(** mzed_mul_strassen, strassen.c:33-36, transcribed by gen_mem.py *)
Definition p_mzed_mul_strassen := Fn ["C"; "A"; "B"] (
  Call (Some (V "C")) "_mzed_mul_init" [AP (V "C"); AP (V "A"); AP (V "B")] ;;
  Call (Some (V "_1")) "_mzed_mul_strassen" [AP (V "C"); AP (V "A"); AP (V "B")] ;;
  Ret (Some (V "_1"))).

(** mzed_addmul_strassen, strassen.c:38-41, transcribed by gen_mem.py *)
Definition p_mzed_addmul_strassen := Fn ["C"; "A"; "B"] (
  Call (Some (V "C")) "_mzed_mul_init" [AP (V "C"); AP (V "A"); AP (V "B")] ;;
  Call (Some (V "_1")) "_mzed_addmul_strassen" [AP (V "C"); AP (V "A"); AP (V "B")] ;;
  Ret (Some (V "_1"))).

(** _mzed_mul_strassen, strassen.c:43-185, transcribed by gen_mem.py *)
Definition p__mzed_mul_strassen := Fn ["C"; "A"; "B"] (
  Use [V "C"] ;;
  If (Ret (Some (V "C")))
     (Skip) ;;
  Use [V "A"; V "B"] ;;
  If (Use [V "C"] ;;
      Call (Some (V "Cbar")) "mzed_init" [AP (V "C")] ;;
      Call None "_mzed_mul_newton_john" [AP (V "Cbar"); AP (V "A"); AP (V "B")] ;;
      Call None "mzed_copy" [AP (V "C"); AP (V "Cbar")] ;;
      Call None "mzed_free" [AP (V "Cbar")] ;;
      Ret (Some (V "C")))
     (If (Use [V "C"] ;;
          Call (Some (V "Cbar")) "mzed_init" [AP (V "C")] ;;
          Call None "_mzed_mul_newton_john" [AP (V "Cbar"); AP (V "A"); AP (V "B")] ;;
          Call None "mzed_copy" [AP (V "C"); AP (V "Cbar")] ;;
          Call None "mzed_free" [AP (V "Cbar")] ;;
          Ret (Some (V "C")))
         (If (Use [V "C"] ;;
              Call (Some (V "Cbar")) "mzed_init" [AP (V "C")] ;;
              Call None "_mzed_mul_newton_john" [AP (V "Cbar"); AP (V "A"); AP (V "B")] ;;
              Call None "mzed_copy" [AP (V "C"); AP (V "Cbar")] ;;
              Call None "mzed_free" [AP (V "Cbar")] ;;
              Ret (Some (V "C")))
             (Skip))) ;;
  Use [V "A"] ;;
  Call (Some (V "A11")) "mzed_init_window" [AP (V "A")] ;;
  Call (Some (V "A12")) "mzed_init_window" [AP (V "A")] ;;
  Call (Some (V "A21")) "mzed_init_window" [AP (V "A")] ;;
  Call (Some (V "A22")) "mzed_init_window" [AP (V "A")] ;;
  Call (Some (V "B11")) "mzed_init_window" [AP (V "B")] ;;
  Call (Some (V "B12")) "mzed_init_window" [AP (V "B")] ;;
  Call (Some (V "B21")) "mzed_init_window" [AP (V "B")] ;;
  Call (Some (V "B22")) "mzed_init_window" [AP (V "B")] ;;
  Call (Some (V "C11")) "mzed_init_window" [AP (V "C")] ;;
  Call (Some (V "C12")) "mzed_init_window" [AP (V "C")] ;;
  Call (Some (V "C21")) "mzed_init_window" [AP (V "C")] ;;
  Call (Some (V "C22")) "mzed_init_window" [AP (V "C")] ;;
  Use [V "A"] ;;
  Call (Some (V "Wmk")) "mzed_init" [AP (V "A")] ;;
  Use [V "A"] ;;
  Call (Some (V "Wkn")) "mzed_init" [AP (V "A")] ;;
  Use [V "Wkn"; V "B22"; V "B12"; V "Wmk"; V "A22"; V "A12"] ;;
  Call None "_mzed_mul_strassen" [AP (V "C21"); AP (V "Wmk"); AP (V "Wkn")] ;;
  Use [V "Wmk"; V "A22"; V "A21"; V "Wkn"; V "B22"; V "B21"] ;;
  Call None "_mzed_mul_strassen" [AP (V "C22"); AP (V "Wmk"); AP (V "Wkn")] ;;
  Use [V "Wkn"; V "B12"; V "Wmk"; V "A12"] ;;
  Call None "_mzed_mul_strassen" [AP (V "C11"); AP (V "Wmk"); AP (V "Wkn")] ;;
  Use [V "Wmk"; V "A11"] ;;
  Call None "_mzed_mul_strassen" [AP (V "C12"); AP (V "Wmk"); AP (V "B12")] ;;
  Use [V "C12"; V "C22"] ;;
  Call None "mzed_free" [AP (V "Wmk")] ;;
  Call (Some (V "Wmk")) "mzed_mul_strassen" [ANULL; AP (V "A12"); AP (V "B21")] ;;
  Use [V "C11"; V "Wmk"; V "C12"; V "C21"; V "Wkn"; V "B11"] ;;
  Call None "_mzed_mul_strassen" [AP (V "C21"); AP (V "A21"); AP (V "Wkn")] ;;
  Call None "mzed_free" [AP (V "Wkn")] ;;
  Use [V "C21"; V "C11"; V "C22"] ;;
  Call None "_mzed_mul_strassen" [AP (V "C11"); AP (V "A11"); AP (V "B11")] ;;
  Use [V "C11"; V "Wmk"] ;;
  Call None "mzed_free_window" [AP (V "A11")] ;;
  Call None "mzed_free_window" [AP (V "A12")] ;;
  Call None "mzed_free_window" [AP (V "A21")] ;;
  Call None "mzed_free_window" [AP (V "A22")] ;;
  Call None "mzed_free_window" [AP (V "B11")] ;;
  Call None "mzed_free_window" [AP (V "B12")] ;;
  Call None "mzed_free_window" [AP (V "B21")] ;;
  Call None "mzed_free_window" [AP (V "B22")] ;;
  Call None "mzed_free_window" [AP (V "C11")] ;;
  Call None "mzed_free_window" [AP (V "C12")] ;;
  Call None "mzed_free_window" [AP (V "C21")] ;;
  Call None "mzed_free_window" [AP (V "C22")] ;;
  Call None "mzed_free" [AP (V "Wmk")] ;;
  If (Call (Some (V "B_last_col")) "mzed_init_window" [AP (V "B")] ;;
      Call (Some (V "C_last_col")) "mzed_init_window" [AP (V "C")] ;;
      Use [V "C_last_col"] ;;
      Call None "_mzed_mul_newton_john" [AP (V "C_last_col"); AP (V "A"); AP (V "B_last_col")] ;;
      Call None "mzed_free_window" [AP (V "B_last_col")] ;;
      Call None "mzed_free_window" [AP (V "C_last_col")])
     (Skip) ;;
  If (Call (Some (V "A_last_row")) "mzed_init_window" [AP (V "A")] ;;
      Call (Some (V "B_first_col")) "mzed_init_window" [AP (V "B")] ;;
      Call (Some (V "C_last_row")) "mzed_init_window" [AP (V "C")] ;;
      Use [V "C_last_row"] ;;
      Call None "_mzed_mul_newton_john" [AP (V "C_last_row"); AP (V "A_last_row"); AP (V "B_first_col")] ;;
      Call None "mzed_free_window" [AP (V "A_last_row")] ;;
      Call None "mzed_free_window" [AP (V "B_first_col")] ;;
      Call None "mzed_free_window" [AP (V "C_last_row")])
     (Skip) ;;
  If (Call (Some (V "A_last_col")) "mzed_init_window" [AP (V "A")] ;;
      Call (Some (V "B_last_row")) "mzed_init_window" [AP (V "B")] ;;
      Call (Some (V "C_bulk")) "mzed_init_window" [AP (V "C")] ;;
      Call None "_mzed_mul_newton_john" [AP (V "C_bulk"); AP (V "A_last_col"); AP (V "B_last_row")] ;;
      Call None "mzed_free_window" [AP (V "A_last_col")] ;;
      Call None "mzed_free_window" [AP (V "B_last_row")] ;;
      Call None "mzed_free_window" [AP (V "C_bulk")])
     (Skip) ;;
  Ret (Some (V "C"))).

(** _mzed_addmul_strassen, strassen.c:187-326, transcribed by gen_mem.py *)
Definition p__mzed_addmul_strassen := Fn ["C"; "A"; "B"] (
  Use [V "C"] ;;
  If (Ret (Some (V "C")))
     (Skip) ;;
  Use [V "A"; V "B"] ;;
  If (Call (Some (V "Cbar")) "mzed_copy" [ANULL; AP (V "C")] ;;
      Call None "_mzed_mul_newton_john" [AP (V "Cbar"); AP (V "A"); AP (V "B")] ;;
      Call None "mzed_copy" [AP (V "C"); AP (V "Cbar")] ;;
      Call None "mzed_free" [AP (V "Cbar")] ;;
      Ret (Some (V "C")))
     (If (Call (Some (V "Cbar")) "mzed_copy" [ANULL; AP (V "C")] ;;
          Call None "_mzed_mul_newton_john" [AP (V "Cbar"); AP (V "A"); AP (V "B")] ;;
          Call None "mzed_copy" [AP (V "C"); AP (V "Cbar")] ;;
          Call None "mzed_free" [AP (V "Cbar")] ;;
          Ret (Some (V "C")))
         (If (Call (Some (V "Cbar")) "mzed_copy" [ANULL; AP (V "C")] ;;
              Call None "_mzed_mul_newton_john" [AP (V "Cbar"); AP (V "A"); AP (V "B")] ;;
              Call None "mzed_copy" [AP (V "C"); AP (V "Cbar")] ;;
              Call None "mzed_free" [AP (V "Cbar")] ;;
              Ret (Some (V "C")))
             (Skip))) ;;
  Use [V "A"] ;;
  Call (Some (V "A11")) "mzed_init_window" [AP (V "A")] ;;
  Call (Some (V "A12")) "mzed_init_window" [AP (V "A")] ;;
  Call (Some (V "A21")) "mzed_init_window" [AP (V "A")] ;;
  Call (Some (V "A22")) "mzed_init_window" [AP (V "A")] ;;
  Call (Some (V "B11")) "mzed_init_window" [AP (V "B")] ;;
  Call (Some (V "B12")) "mzed_init_window" [AP (V "B")] ;;
  Call (Some (V "B21")) "mzed_init_window" [AP (V "B")] ;;
  Call (Some (V "B22")) "mzed_init_window" [AP (V "B")] ;;
  Call (Some (V "C11")) "mzed_init_window" [AP (V "C")] ;;
  Call (Some (V "C12")) "mzed_init_window" [AP (V "C")] ;;
  Call (Some (V "C21")) "mzed_init_window" [AP (V "C")] ;;
  Call (Some (V "C22")) "mzed_init_window" [AP (V "C")] ;;
  Use [V "A"] ;;
  Call (Some (V "S")) "mzed_init" [AP (V "A")] ;;
  Use [V "A"] ;;
  Call (Some (V "T")) "mzed_init" [AP (V "A")] ;;
  Use [V "A"] ;;
  Call (Some (V "U")) "mzed_init" [AP (V "A")] ;;
  Use [V "S"; V "A22"; V "A21"; V "T"; V "B22"; V "B21"] ;;
  Call None "_mzed_mul_strassen" [AP (V "U"); AP (V "S"); AP (V "T")] ;;
  Use [V "C22"; V "U"; V "C12"] ;;
  Call None "_mzed_mul_strassen" [AP (V "U"); AP (V "A12"); AP (V "B21")] ;;
  Use [V "C11"; V "U"] ;;
  Call None "_mzed_addmul_strassen" [AP (V "C11"); AP (V "A11"); AP (V "B11")] ;;
  Use [V "S"; V "A12"; V "T"; V "B12"] ;;
  Call None "_mzed_addmul_strassen" [AP (V "U"); AP (V "S"); AP (V "T")] ;;
  Use [V "C12"; V "U"; V "S"; V "A11"] ;;
  Call None "_mzed_addmul_strassen" [AP (V "C12"); AP (V "S"); AP (V "B12")] ;;
  Use [V "T"; V "B11"] ;;
  Call None "_mzed_addmul_strassen" [AP (V "C21"); AP (V "A21"); AP (V "T")] ;;
  Use [V "S"; V "A22"; V "A12"; V "T"; V "B22"; V "B12"] ;;
  Call None "_mzed_addmul_strassen" [AP (V "U"); AP (V "S"); AP (V "T")] ;;
  Use [V "C21"; V "U"; V "C22"] ;;
  Call None "mzed_free_window" [AP (V "A11")] ;;
  Call None "mzed_free_window" [AP (V "A12")] ;;
  Call None "mzed_free_window" [AP (V "A21")] ;;
  Call None "mzed_free_window" [AP (V "A22")] ;;
  Call None "mzed_free_window" [AP (V "B11")] ;;
  Call None "mzed_free_window" [AP (V "B12")] ;;
  Call None "mzed_free_window" [AP (V "B21")] ;;
  Call None "mzed_free_window" [AP (V "B22")] ;;
  Call None "mzed_free_window" [AP (V "C11")] ;;
  Call None "mzed_free_window" [AP (V "C12")] ;;
  Call None "mzed_free_window" [AP (V "C21")] ;;
  Call None "mzed_free_window" [AP (V "C22")] ;;
  Call None "mzed_free" [AP (V "S")] ;;
  Call None "mzed_free" [AP (V "T")] ;;
  Call None "mzed_free" [AP (V "U")] ;;
  If (Call (Some (V "B_last_col")) "mzed_init_window" [AP (V "B")] ;;
      Call (Some (V "C_last_col")) "mzed_init_window" [AP (V "C")] ;;
      Call None "_mzed_mul_newton_john" [AP (V "C_last_col"); AP (V "A"); AP (V "B_last_col")] ;;
      Call None "mzed_free_window" [AP (V "B_last_col")] ;;
      Call None "mzed_free_window" [AP (V "C_last_col")])
     (Skip) ;;
  If (Call (Some (V "A_last_row")) "mzed_init_window" [AP (V "A")] ;;
      Call (Some (V "B_first_col")) "mzed_init_window" [AP (V "B")] ;;
      Call (Some (V "C_last_row")) "mzed_init_window" [AP (V "C")] ;;
      Call None "_mzed_mul_newton_john" [AP (V "C_last_row"); AP (V "A_last_row"); AP (V "B_first_col")] ;;
      Call None "mzed_free_window" [AP (V "A_last_row")] ;;
      Call None "mzed_free_window" [AP (V "B_first_col")] ;;
      Call None "mzed_free_window" [AP (V "C_last_row")])
     (Skip) ;;
  If (Call (Some (V "A_last_col")) "mzed_init_window" [AP (V "A")] ;;
      Call (Some (V "B_last_row")) "mzed_init_window" [AP (V "B")] ;;
      Call (Some (V "C_bulk")) "mzed_init_window" [AP (V "C")] ;;
      Call None "_mzed_mul_newton_john" [AP (V "C_bulk"); AP (V "A_last_col"); AP (V "B_last_row")] ;;
      Call None "mzed_free_window" [AP (V "A_last_col")] ;;
      Call None "mzed_free_window" [AP (V "B_last_row")] ;;
      Call None "mzed_free_window" [AP (V "C_bulk")])
     (Skip) ;;
  Ret (Some (V "C"))).

(** mzed_trsm_upper_left, trsm.h:67-69, transcribed by gen_mem.py *)
Definition p_mzed_trsm_upper_left := Fn ["U"; "B"] (
  Call None "_mzed_trsm_upper_left" [AP (V "U"); AP (V "B")]).

(** mzd_slice_trsm_upper_left, trsm.h:103-105, transcribed by gen_mem.py *)
Definition p_mzd_slice_trsm_upper_left := Fn ["U"; "B"] (
  Call None "_mzd_slice_trsm_upper_left" [AP (V "U"); AP (V "B")]).

(** mzed_trsm_lower_left, trsm.h:139-141, transcribed by gen_mem.py *)
Definition p_mzed_trsm_lower_left := Fn ["L"; "B"] (
  Call None "_mzed_trsm_lower_left" [AP (V "L"); AP (V "B")]).

(** mzd_slice_trsm_lower_left, trsm.h:175-177, transcribed by gen_mem.py *)
Definition p_mzd_slice_trsm_lower_left := Fn ["L"; "B"] (
  Call None "_mzd_slice_trsm_lower_left" [AP (V "L"); AP (V "B")]).

(** mzd_slice_trsm_upper_left_naive, trsm.c:33-45, transcribed by gen_mem.py *)
Definition p_mzd_slice_trsm_upper_left_naive := Fn ["U"; "B"] (
  Call (Some (V "Ue")) "mzed_cling" [ANULL; AP (V "U")] ;;
  Call (Some (V "Be")) "mzed_cling" [ANULL; AP (V "B")] ;;
  Use [V "Ue"; V "Be"] ;;
  Call None "mzed_slice" [AP (V "B"); AP (V "Be")] ;;
  Call None "mzed_free" [AP (V "Ue")] ;;
  Call None "mzed_free" [AP (V "Be")]).

(** mzd_slice_trsm_lower_left_naive, trsm.c:47-60, transcribed by gen_mem.py *)
Definition p_mzd_slice_trsm_lower_left_naive := Fn ["L"; "B"] (
  Call (Some (V "Le")) "mzed_cling" [ANULL; AP (V "L")] ;;
  Call (Some (V "Be")) "mzed_cling" [ANULL; AP (V "B")] ;;
  Use [V "Le"; V "Be"] ;;
  Call None "mzed_slice" [AP (V "B"); AP (V "Be")] ;;
  Call None "mzed_free" [AP (V "Le")] ;;
  Call None "mzed_free" [AP (V "Be")]).

(** mzed_echelonize_ple, echelonform.h:67-73, transcribed by gen_mem.py *)
Definition p_mzed_echelonize_ple := Fn ["A"] (
  Call (Some (V "a")) "mzed_slice" [ANULL; AP (V "A")] ;;
  Call None "mzd_slice_echelonize_ple" [AP (V "a")] ;;
  Call None "mzed_cling" [AP (V "A"); AP (V "a")] ;;
  Call None "mzd_slice_free" [AP (V "a")] ;;
  Ret None).

(** mzed_echelonize, echelonform.c:26-34, transcribed by gen_mem.py *)
Definition p_mzed_echelonize := Fn ["A"] (
  Use [V "A"] ;;
  If (Use [V "A"] ;;
      Ret None)
     (Use [V "A"] ;;
      If (Call None "mzed_echelonize_newton_john" [AP (V "A")] ;;
          Ret None)
         (Call None "mzed_echelonize_ple" [AP (V "A")] ;;
          Ret None))).

(** mzd_slice_echelonize_ple, echelonform.c:36-121, transcribed by gen_mem.py *)
Definition p_mzd_slice_echelonize_ple := Fn ["A"] (
  Use [V "A"] ;;
  Malloc (V "P") KMzp ;;
  Use [V "A"] ;;
  Malloc (V "Q") KMzp ;;
  If (Call None "mzd_slice_pluq" [AP (V "A"); AP (V "P"); AP (V "Q")] ;;
      Call (Some (V "U")) "mzd_slice_init_window" [AP (V "A")] ;;
      If (Use [V "A"] ;;
          If (If (Skip)
                 (Use [V "A"] ;;
                  If (Skip)
                     (Use [V "A"] ;;
                      If (Call (Some (V "B0")) "mzd_slice_submatrix" [ANULL; AP (V "A")] ;;
                          Call (Some (V "B0w")) "mzd_slice_init_window" [AP (V "A")] ;;
                          Use [V "A"] ;;
                          Call (Some (V "B1")) "mzd_slice_init_window" [AP (V "A")] ;;
                          Loop (Use [V "U"]) ;;
                          Call None "mzd_slice_trsm_upper_left" [AP (V "U"); AP (V "B0")] ;;
                          Call None "mzd_slice_trsm_upper_left" [AP (V "U"); AP (V "B1")] ;;
                          Call None "mzd_slice_copy" [AP (V "B0w"); AP (V "B0")] ;;
                          Call None "mzd_slice_free" [AP (V "B0")] ;;
                          Call None "mzd_slice_free_window" [AP (V "B0w")] ;;
                          Call None "mzd_slice_free_window" [AP (V "B1")])
                         (Use [V "A"] ;;
                          Call (Some (V "B")) "mzd_slice_submatrix" [ANULL; AP (V "A")] ;;
                          Use [V "A"] ;;
                          Call (Some (V "Bw")) "mzd_slice_init_window" [AP (V "A")] ;;
                          Loop (Use [V "U"]) ;;
                          Call None "mzd_slice_trsm_upper_left" [AP (V "U"); AP (V "B")] ;;
                          Call None "mzd_slice_copy" [AP (V "Bw"); AP (V "B")] ;;
                          Call None "mzd_slice_free_window" [AP (V "Bw")] ;;
                          Call None "mzd_slice_free" [AP (V "B")]))))
             (Use [V "A"] ;;
              Call (Some (V "B")) "mzd_slice_init_window" [AP (V "A")] ;;
              Loop (Use [V "U"]) ;;
              Call None "mzd_slice_trsm_upper_left" [AP (V "U"); AP (V "B")] ;;
              Call None "mzd_slice_free_window" [AP (V "B")]))
         (If (Skip)
             (Use [V "A"] ;;
              If (Skip)
                 (Use [V "A"] ;;
                  If (Call (Some (V "B0")) "mzd_slice_submatrix" [ANULL; AP (V "A")] ;;
                      Call (Some (V "B0w")) "mzd_slice_init_window" [AP (V "A")] ;;
                      Use [V "A"] ;;
                      Call (Some (V "B1")) "mzd_slice_init_window" [AP (V "A")] ;;
                      Loop (Use [V "U"]) ;;
                      Call None "mzd_slice_trsm_upper_left" [AP (V "U"); AP (V "B0")] ;;
                      Call None "mzd_slice_trsm_upper_left" [AP (V "U"); AP (V "B1")] ;;
                      Call None "mzd_slice_copy" [AP (V "B0w"); AP (V "B0")] ;;
                      Call None "mzd_slice_free" [AP (V "B0")] ;;
                      Call None "mzd_slice_free_window" [AP (V "B0w")] ;;
                      Call None "mzd_slice_free_window" [AP (V "B1")])
                     (Use [V "A"] ;;
                      Call (Some (V "B")) "mzd_slice_submatrix" [ANULL; AP (V "A")] ;;
                      Use [V "A"] ;;
                      Call (Some (V "Bw")) "mzd_slice_init_window" [AP (V "A")] ;;
                      Loop (Use [V "U"]) ;;
                      Call None "mzd_slice_trsm_upper_left" [AP (V "U"); AP (V "B")] ;;
                      Call None "mzd_slice_copy" [AP (V "Bw"); AP (V "B")] ;;
                      Call None "mzd_slice_free_window" [AP (V "Bw")] ;;
                      Call None "mzd_slice_free" [AP (V "B")])))) ;;
      Use [V "U"] ;;
      Call None "mzd_slice_free_window" [AP (V "U")] ;;
      If (Use [V "A"] ;;
          Call (Some (V "A0")) "mzd_slice_init_window" [AP (V "A")] ;;
          Use [V "A0"; V "Q"] ;;
          Call None "mzd_slice_free_window" [AP (V "A0")])
         (Skip))
     (Call None "mzd_slice_ple" [AP (V "A"); AP (V "P"); AP (V "Q")] ;;
      Loop (Use [V "A"] ;;
        Loop (Use [V "A"] ;;
          Loop (Use [V "A"])) ;;
        Use [V "Q"; V "A"])) ;;
  Use [V "A"] ;;
  If (Skip)
     (Use [V "A"] ;;
      Call (Some (V "R")) "mzd_slice_init_window" [AP (V "A")] ;;
      Use [V "R"] ;;
      Call None "mzd_slice_free_window" [AP (V "R")]) ;;
  Free (V "P") KMzp ;;
  Free (V "Q") KMzp ;;
  Ret None).

(** _mzed_addmul_karatsuba, conversion.h:148-165, transcribed by gen_mem.py *)
Definition p__mzed_addmul_karatsuba := Fn ["C"; "A"; "B"] (
  IfNull (V "C") (SetNull (V "Cs"))
     (Call (Some (V "Cs")) "mzed_slice" [ANULL; AP (V "C")]) ;;
  Call (Some (V "As")) "mzed_slice" [ANULL; AP (V "A")] ;;
  Call (Some (V "Bs")) "mzed_slice" [ANULL; AP (V "B")] ;;
  Call (Some (V "Cs")) "_mzd_slice_addmul_karatsuba" [AP (V "Cs"); AP (V "As"); AP (V "Bs")] ;;
  Call (Some (V "C")) "mzed_cling" [AP (V "C"); AP (V "Cs")] ;;
  Call None "mzd_slice_free" [AP (V "As")] ;;
  Call None "mzd_slice_free" [AP (V "Bs")] ;;
  Call None "mzd_slice_free" [AP (V "Cs")] ;;
  Ret (Some (V "C"))).

(** mzed_mul_karatsuba, conversion.h:177-186, transcribed by gen_mem.py *)
Definition p_mzed_mul_karatsuba := Fn ["C"; "A"; "B"] (
  Use [V "A"; V "B"] ;;
  If (Use [V "A"; V "B"] ;;
      If (Skip)
         (Abort))
     (Abort) ;;
  IfNull (V "C") (Skip)
     (Use [V "C"; V "A"] ;;
      If (Use [V "C"; V "A"] ;;
          If (Use [V "C"; V "B"] ;;
              If (Skip)
                 (Abort))
             (Abort))
         (Abort) ;;
      Use [V "C"]) ;;
  Call (Some (V "_2")) "_mzed_addmul_karatsuba" [AP (V "C"); AP (V "A"); AP (V "B")] ;;
  Ret (Some (V "_2"))).

(** mzed_addmul_karatsuba, conversion.h:196-203, transcribed by gen_mem.py *)
Definition p_mzed_addmul_karatsuba := Fn ["C"; "A"; "B"] (
  Use [V "A"; V "B"] ;;
  If (Use [V "A"; V "B"] ;;
      If (Skip)
         (Abort))
     (Abort) ;;
  Use [V "C"; V "A"] ;;
  If (Use [V "C"; V "A"] ;;
      If (Use [V "C"; V "B"] ;;
          If (Skip)
             (Abort))
         (Abort))
     (Abort) ;;
  Call (Some (V "_1")) "_mzed_addmul_karatsuba" [AP (V "C"); AP (V "A"); AP (V "B")] ;;
  Ret (Some (V "_1"))).

(** _mzed_addmul_blm, conversion.h:215-234, transcribed by gen_mem.py *)
Definition p__mzed_addmul_blm := Fn ["C"; "A"; "B"] (
  Call (Some (V "As")) "mzed_slice" [ANULL; AP (V "A")] ;;
  Call (Some (V "Bs")) "mzed_slice" [ANULL; AP (V "B")] ;;
  Call (Some (V "Ts")) "_mzd_slice_mul_blm" [ANULL; AP (V "As"); AP (V "Bs"); ANULL] ;;
  Call (Some (V "T")) "mzed_cling" [ANULL; AP (V "Ts")] ;;
  Call None "mzd_slice_free" [AP (V "Ts")] ;;
  IfNull (V "C") (Set_ (V "C") (V "T"))
     (Call (Some (V "C")) "mzed_add" [AP (V "C"); AP (V "C"); AP (V "T")] ;;
      Call None "mzed_free" [AP (V "T")]) ;;
  Call None "mzd_slice_free" [AP (V "As")] ;;
  Call None "mzd_slice_free" [AP (V "Bs")] ;;
  Ret (Some (V "C"))).

(** mzed_mul_blm, conversion.h:246-255, transcribed by gen_mem.py *)
Definition p_mzed_mul_blm := Fn ["C"; "A"; "B"] (
  Use [V "A"; V "B"] ;;
  If (Use [V "A"; V "B"] ;;
      If (Skip)
         (Abort))
     (Abort) ;;
  IfNull (V "C") (Skip)
     (Use [V "C"; V "A"] ;;
      If (Use [V "C"; V "A"] ;;
          If (Use [V "C"; V "B"] ;;
              If (Skip)
                 (Abort))
             (Abort))
         (Abort) ;;
      Use [V "C"]) ;;
  Call (Some (V "_2")) "_mzed_addmul_blm" [AP (V "C"); AP (V "A"); AP (V "B")] ;;
  Ret (Some (V "_2"))).

(** mzed_addmul_blm, conversion.h:265-272, transcribed by gen_mem.py *)
Definition p_mzed_addmul_blm := Fn ["C"; "A"; "B"] (
  Use [V "A"; V "B"] ;;
  If (Use [V "A"; V "B"] ;;
      If (Skip)
         (Abort))
     (Abort) ;;
  Use [V "C"; V "A"] ;;
  If (Use [V "C"; V "A"] ;;
      If (Use [V "C"; V "B"] ;;
          If (Skip)
             (Abort))
         (Abort))
     (Abort) ;;
  Call (Some (V "_1")) "_mzed_addmul_blm" [AP (V "C"); AP (V "A"); AP (V "B")] ;;
  Ret (Some (V "_1"))).

(** mzd_slice_rescale_row, conversion.h:286-295, transcribed by gen_mem.py *)
Definition p_mzd_slice_rescale_row := Fn ["A"] (
  Use [V "A"] ;;
  Call (Some (V "A_w")) "mzd_slice_init_window" [AP (V "A")] ;;
  Call (Some (V "A_we")) "mzed_cling" [ANULL; AP (V "A_w")] ;;
  Use [V "A_we"] ;;
  Call None "mzed_slice" [AP (V "A_w"); AP (V "A_we")] ;;
  Call None "mzed_free" [AP (V "A_we")] ;;
  Call None "mzd_slice_free_window" [AP (V "A_w")]).

(** mzed_slice, conversion.c:56-86, transcribed by gen_mem.py *)
Definition p_mzed_slice := Fn ["A"; "Z"] (
  IfNull (V "A") (Use [V "Z"] ;;
      Call (Some (V "A")) "mzd_slice_init" [AP (V "Z")])
     (Use [V "A"]) ;;
  Use [V "Z"] ;;
  If (Use [V "A"; V "Z"] ;;
      Ret (Some (V "A")))
     (Abort) ;;
  Ret (Some (V "A"))).

(** mzed_cling, conversion.c:88-119, transcribed by gen_mem.py *)
Definition p_mzed_cling := Fn ["A"; "Z"] (
  IfNull (V "A") (Use [V "Z"] ;;
      Call (Some (V "A")) "mzed_init" [AP (V "Z")])
     (Use [V "A"]) ;;
  Use [V "Z"] ;;
  If (Use [V "A"; V "Z"] ;;
      Ret (Some (V "A")))
     (Abort) ;;
  Ret (Some (V "A"))).

(** _mzd_ptr_addmul_karatsuba2, karatsuba.c:4-23, transcribed by gen_mem.py *)
Definition p__mzd_ptr_addmul_karatsuba2 := Fn ["ff"; "X"; "A"; "B"] (
  Use [V "A"] ;;
  Set_ (V "a0") (V "A") ;;
  Use [V "A"] ;;
  Set_ (V "a1") (V "A") ;;
  Use [V "B"] ;;
  Set_ (V "b0") (V "B") ;;
  Use [V "B"] ;;
  Set_ (V "b1") (V "B") ;;
  Use [V "a0"] ;;
  Malloc (V "t0") KMzd ;;
  Use [V "b0"] ;;
  Malloc (V "t1") KMzd ;;
  Use [V "X"; V "t0"; V "a0"; V "a1"; V "t1"; V "b0"; V "b1"] ;;
  Free (V "t0") KMzd ;;
  Free (V "t1") KMzd ;;
  Use [V "a0"; V "b0"] ;;
  Malloc (V "t0") KMzd ;;
  Use [V "t0"; V "a0"; V "b0"; V "X"] ;;
  IfNull (V "ff") (Skip)
     (Use [V "ff"]) ;;
  Use [V "t0"; V "a1"; V "b1"; V "X"] ;;
  Free (V "t0") KMzd).

(** _mzd_ptr_addmul_karatsuba3, karatsuba.c:25-48, transcribed by gen_mem.py *)
Definition p__mzd_ptr_addmul_karatsuba3 := Fn ["ff"; "X"; "A"; "B"] (
  Use [V "A"] ;;
  Set_ (V "a0") (V "A") ;;
  Use [V "A"] ;;
  Set_ (V "a1") (V "A") ;;
  Use [V "A"] ;;
  Set_ (V "a2") (V "A") ;;
  Use [V "B"] ;;
  Set_ (V "b0") (V "B") ;;
  Use [V "B"] ;;
  Set_ (V "b1") (V "B") ;;
  Use [V "B"] ;;
  Set_ (V "b2") (V "B") ;;
  Use [V "a0"; V "b0"] ;;
  Malloc (V "t0") KMzd ;;
  Use [V "a0"] ;;
  Malloc (V "t1") KMzd ;;
  Use [V "b0"] ;;
  Malloc (V "t2") KMzd ;;
  Use [V "t1"; V "a0"; V "a1"; V "t2"; V "b0"; V "b1"; V "t0"; V "X"] ;;
  IfNull (V "ff") (Skip)
     (Use [V "ff"]) ;;
  Use [V "t1"; V "a0"; V "a2"; V "t2"; V "b0"; V "b2"; V "t0"; V "X"; V "a1"; V "b1"] ;;
  Free (V "t0") KMzd ;;
  Free (V "t1") KMzd ;;
  Free (V "t2") KMzd).

(** _mzd_ptr_addmul_karatsuba4, karatsuba.c:50-92, transcribed by gen_mem.py *)
Definition p__mzd_ptr_addmul_karatsuba4 := Fn ["ff"; "X"; "A"; "B"] (
  Use [V "A"] ;;
  Set_ (V "a0") (V "A") ;;
  Use [V "A"] ;;
  Set_ (V "a1") (V "A") ;;
  Use [V "A"] ;;
  Set_ (V "a2") (V "A") ;;
  Use [V "A"] ;;
  Set_ (V "a3") (V "A") ;;
  Use [V "B"] ;;
  Set_ (V "b0") (V "B") ;;
  Use [V "B"] ;;
  Set_ (V "b1") (V "B") ;;
  Use [V "B"] ;;
  Set_ (V "b2") (V "B") ;;
  Use [V "B"] ;;
  Set_ (V "b3") (V "B") ;;
  Use [V "a0"; V "b0"] ;;
  Malloc (V "t0") KMzd ;;
  Use [V "a0"] ;;
  Malloc (V "t1") KMzd ;;
  Use [V "b0"] ;;
  Malloc (V "t2") KMzd ;;
  Use [V "t1"; V "a0"; V "a1"; V "a2"; V "a3"; V "t2"; V "b0"; V "b1"; V "b2"; V "b3"; V "t0"; V "X"] ;;
  IfNull (V "ff") (Skip)
     (Use [V "ff"]) ;;
  Free (V "t0") KMzd ;;
  Free (V "t1") KMzd ;;
  Free (V "t2") KMzd).

(** _mzd_ptr_addmul_karatsuba5, karatsuba.c:94-160, transcribed by gen_mem.py *)
Definition p__mzd_ptr_addmul_karatsuba5 := Fn ["ff"; "X"; "A"; "B"] (
  Use [V "A"] ;;
  Set_ (V "a0") (V "A") ;;
  Use [V "A"] ;;
  Set_ (V "a1") (V "A") ;;
  Use [V "A"] ;;
  Set_ (V "a2") (V "A") ;;
  Use [V "A"] ;;
  Set_ (V "a3") (V "A") ;;
  Use [V "A"] ;;
  Set_ (V "a4") (V "A") ;;
  Use [V "B"] ;;
  Set_ (V "b0") (V "B") ;;
  Use [V "B"] ;;
  Set_ (V "b1") (V "B") ;;
  Use [V "B"] ;;
  Set_ (V "b2") (V "B") ;;
  Use [V "B"] ;;
  Set_ (V "b3") (V "B") ;;
  Use [V "B"] ;;
  Set_ (V "b4") (V "B") ;;
  Use [V "a0"; V "b0"] ;;
  Malloc (V "t0") KMzd ;;
  Use [V "t0"; V "a0"; V "b0"; V "X"] ;;
  IfNull (V "ff") (Skip)
     (Use [V "ff"]) ;;
  Use [V "t0"; V "a1"; V "b1"; V "X"; V "a3"; V "b3"; V "a4"; V "b4"; V "a0"] ;;
  Malloc (V "t1") KMzd ;;
  Use [V "b0"; V "b1"] ;;
  Malloc (V "t2") KMzd ;;
  Use [V "t1"; V "a0"; V "a4"; V "t2"; V "b0"; V "b4"; V "t0"; V "X"] ;;
  IfNull (V "ff") (Skip)
     (Use [V "ff"]) ;;
  Use [V "t1"; V "a0"; V "a1"; V "t2"; V "b0"; V "b1"; V "t0"; V "X"; V "a3"; V "a4"; V "b3"; V "b4"; V "a2"; V "b2"] ;;
  Free (V "t0") KMzd ;;
  Free (V "t1") KMzd ;;
  Free (V "t2") KMzd).

(** _mzd_ptr_addmul_karatsuba6, karatsuba.c:162-233, transcribed by gen_mem.py *)
Definition p__mzd_ptr_addmul_karatsuba6 := Fn ["ff"; "X"; "A"; "B"] (
  Use [V "A"] ;;
  Set_ (V "a0") (V "A") ;;
  Use [V "A"] ;;
  Set_ (V "a1") (V "A") ;;
  Use [V "A"] ;;
  Set_ (V "a2") (V "A") ;;
  Use [V "A"] ;;
  Set_ (V "a3") (V "A") ;;
  Use [V "A"] ;;
  Set_ (V "a4") (V "A") ;;
  Use [V "A"] ;;
  Set_ (V "a5") (V "A") ;;
  Use [V "B"] ;;
  Set_ (V "b0") (V "B") ;;
  Use [V "B"] ;;
  Set_ (V "b1") (V "B") ;;
  Use [V "B"] ;;
  Set_ (V "b2") (V "B") ;;
  Use [V "B"] ;;
  Set_ (V "b3") (V "B") ;;
  Use [V "B"] ;;
  Set_ (V "b4") (V "B") ;;
  Use [V "B"] ;;
  Set_ (V "b5") (V "B") ;;
  Use [V "a0"; V "b0"] ;;
  Malloc (V "t0") KMzd ;;
  Use [V "a0"; V "a1"] ;;
  Malloc (V "t1") KMzd ;;
  Use [V "b0"; V "b1"] ;;
  Malloc (V "t2") KMzd ;;
  Use [V "t0"; V "a0"; V "b0"; V "X"] ;;
  IfNull (V "ff") (Skip)
     (Use [V "ff"]) ;;
  Use [V "t0"; V "a1"; V "b1"; V "X"; V "a4"; V "b4"; V "a5"; V "b5"; V "t1"; V "t2"; V "a0"; V "b0"; V "a3"; V "b3"; V "a2"; V "b2"] ;;
  Free (V "t0") KMzd ;;
  Free (V "t1") KMzd ;;
  Free (V "t2") KMzd).

(** _mzd_ptr_addmul_karatsuba7, karatsuba.c:235-351, transcribed by gen_mem.py *)
Definition p__mzd_ptr_addmul_karatsuba7 := Fn ["ff"; "X"; "A"; "B"] (
  Use [V "A"] ;;
  Set_ (V "a0") (V "A") ;;
  Use [V "A"] ;;
  Set_ (V "a1") (V "A") ;;
  Use [V "A"] ;;
  Set_ (V "a2") (V "A") ;;
  Use [V "A"] ;;
  Set_ (V "a3") (V "A") ;;
  Use [V "A"] ;;
  Set_ (V "a4") (V "A") ;;
  Use [V "A"] ;;
  Set_ (V "a5") (V "A") ;;
  Use [V "A"] ;;
  Set_ (V "a6") (V "A") ;;
  Use [V "B"] ;;
  Set_ (V "b0") (V "B") ;;
  Use [V "B"] ;;
  Set_ (V "b1") (V "B") ;;
  Use [V "B"] ;;
  Set_ (V "b2") (V "B") ;;
  Use [V "B"] ;;
  Set_ (V "b3") (V "B") ;;
  Use [V "B"] ;;
  Set_ (V "b4") (V "B") ;;
  Use [V "B"] ;;
  Set_ (V "b5") (V "B") ;;
  Use [V "B"] ;;
  Set_ (V "b6") (V "B") ;;
  Use [V "a0"; V "b0"] ;;
  Malloc (V "t0") KMzd ;;
  Use [V "a0"; V "a1"] ;;
  Malloc (V "t1") KMzd ;;
  Use [V "b0"; V "b1"] ;;
  Malloc (V "t2") KMzd ;;
  Use [V "t1"; V "a0"; V "a1"; V "a2"; V "a3"; V "a4"; V "a5"; V "a6"; V "t2"; V "b0"; V "b1"; V "b2"; V "b3"; V "b4"; V "b5"; V "b6"; V "t0"; V "X"] ;;
  IfNull (V "ff") (Skip)
     (Use [V "ff"]) ;;
  Free (V "t0") KMzd ;;
  Free (V "t1") KMzd ;;
  Free (V "t2") KMzd).

(** _mzd_ptr_addmul_karatsuba8, karatsuba.c:353-455, transcribed by gen_mem.py *)
Definition p__mzd_ptr_addmul_karatsuba8 := Fn ["ff"; "X"; "A"; "B"] (
  Use [V "A"] ;;
  Set_ (V "a0") (V "A") ;;
  Use [V "A"] ;;
  Set_ (V "a1") (V "A") ;;
  Use [V "A"] ;;
  Set_ (V "a2") (V "A") ;;
  Use [V "A"] ;;
  Set_ (V "a3") (V "A") ;;
  Use [V "A"] ;;
  Set_ (V "a4") (V "A") ;;
  Use [V "A"] ;;
  Set_ (V "a5") (V "A") ;;
  Use [V "A"] ;;
  Set_ (V "a6") (V "A") ;;
  Use [V "A"] ;;
  Set_ (V "a7") (V "A") ;;
  Use [V "B"] ;;
  Set_ (V "b0") (V "B") ;;
  Use [V "B"] ;;
  Set_ (V "b1") (V "B") ;;
  Use [V "B"] ;;
  Set_ (V "b2") (V "B") ;;
  Use [V "B"] ;;
  Set_ (V "b3") (V "B") ;;
  Use [V "B"] ;;
  Set_ (V "b4") (V "B") ;;
  Use [V "B"] ;;
  Set_ (V "b5") (V "B") ;;
  Use [V "B"] ;;
  Set_ (V "b6") (V "B") ;;
  Use [V "B"] ;;
  Set_ (V "b7") (V "B") ;;
  Use [V "a0"; V "b0"] ;;
  Malloc (V "t0") KMzd ;;
  Use [V "a0"] ;;
  Malloc (V "t1") KMzd ;;
  Use [V "b0"] ;;
  Malloc (V "t2") KMzd ;;
  Use [V "t0"; V "a0"; V "b0"; V "X"] ;;
  IfNull (V "ff") (Skip)
     (Use [V "ff"]) ;;
  Use [V "t0"; V "a1"; V "b1"; V "X"; V "a2"; V "b2"; V "a3"; V "b3"; V "a4"; V "b4"; V "a5"; V "b5"; V "a6"; V "b6"; V "a7"; V "b7"; V "t1"; V "a0"; V "t2"; V "b0"] ;;
  Free (V "t0") KMzd ;;
  Free (V "t1") KMzd ;;
  Free (V "t2") KMzd).

(** _mzd_ptr_addmul_karatsuba9, karatsuba.c:457-578, transcribed by gen_mem.py *)
Definition p__mzd_ptr_addmul_karatsuba9 := Fn ["ff"; "X"; "A"; "B"] (
  Use [V "A"] ;;
  Set_ (V "a0") (V "A") ;;
  Use [V "A"] ;;
  Set_ (V "a1") (V "A") ;;
  Use [V "A"] ;;
  Set_ (V "a2") (V "A") ;;
  Use [V "A"] ;;
  Set_ (V "a3") (V "A") ;;
  Use [V "A"] ;;
  Set_ (V "a4") (V "A") ;;
  Use [V "A"] ;;
  Set_ (V "a5") (V "A") ;;
  Use [V "A"] ;;
  Set_ (V "a6") (V "A") ;;
  Use [V "A"] ;;
  Set_ (V "a7") (V "A") ;;
  Use [V "A"] ;;
  Set_ (V "a8") (V "A") ;;
  Use [V "B"] ;;
  Set_ (V "b0") (V "B") ;;
  Use [V "B"] ;;
  Set_ (V "b1") (V "B") ;;
  Use [V "B"] ;;
  Set_ (V "b2") (V "B") ;;
  Use [V "B"] ;;
  Set_ (V "b3") (V "B") ;;
  Use [V "B"] ;;
  Set_ (V "b4") (V "B") ;;
  Use [V "B"] ;;
  Set_ (V "b5") (V "B") ;;
  Use [V "B"] ;;
  Set_ (V "b6") (V "B") ;;
  Use [V "B"] ;;
  Set_ (V "b7") (V "B") ;;
  Use [V "B"] ;;
  Set_ (V "b8") (V "B") ;;
  Use [V "a0"; V "b0"] ;;
  Malloc (V "t0") KMzd ;;
  Use [V "a0"] ;;
  Malloc (V "t1") KMzd ;;
  Use [V "b0"] ;;
  Malloc (V "t2") KMzd ;;
  Use [V "t0"; V "a8"; V "b8"; V "X"] ;;
  IfNull (V "ff") (Skip)
     (Use [V "ff"]) ;;
  Use [V "t0"; V "a0"; V "b0"; V "X"; V "a1"; V "b1"; V "t1"; V "t2"; V "a2"; V "a4"; V "a6"; V "a8"; V "b2"; V "b4"; V "b6"; V "b8"; V "a3"; V "a5"; V "a7"; V "b3"; V "b5"; V "b7"] ;;
  Free (V "t0") KMzd ;;
  Free (V "t1") KMzd ;;
  Free (V "t2") KMzd).

(** _mzd_ptr_addmul_karatsuba10, karatsuba.c:580-718, transcribed by gen_mem.py *)
Definition p__mzd_ptr_addmul_karatsuba10 := Fn ["ff"; "X"; "A"; "B"] (
  Use [V "A"] ;;
  Set_ (V "a0") (V "A") ;;
  Use [V "A"] ;;
  Set_ (V "a1") (V "A") ;;
  Use [V "A"] ;;
  Set_ (V "a2") (V "A") ;;
  Use [V "A"] ;;
  Set_ (V "a3") (V "A") ;;
  Use [V "A"] ;;
  Set_ (V "a4") (V "A") ;;
  Use [V "A"] ;;
  Set_ (V "a5") (V "A") ;;
  Use [V "A"] ;;
  Set_ (V "a6") (V "A") ;;
  Use [V "A"] ;;
  Set_ (V "a7") (V "A") ;;
  Use [V "A"] ;;
  Set_ (V "a8") (V "A") ;;
  Use [V "A"] ;;
  Set_ (V "a9") (V "A") ;;
  Use [V "B"] ;;
  Set_ (V "b0") (V "B") ;;
  Use [V "B"] ;;
  Set_ (V "b1") (V "B") ;;
  Use [V "B"] ;;
  Set_ (V "b2") (V "B") ;;
  Use [V "B"] ;;
  Set_ (V "b3") (V "B") ;;
  Use [V "B"] ;;
  Set_ (V "b4") (V "B") ;;
  Use [V "B"] ;;
  Set_ (V "b5") (V "B") ;;
  Use [V "B"] ;;
  Set_ (V "b6") (V "B") ;;
  Use [V "B"] ;;
  Set_ (V "b7") (V "B") ;;
  Use [V "B"] ;;
  Set_ (V "b8") (V "B") ;;
  Use [V "B"] ;;
  Set_ (V "b9") (V "B") ;;
  Use [V "a0"; V "b0"] ;;
  Malloc (V "t0") KMzd ;;
  Use [V "a0"] ;;
  Malloc (V "t1") KMzd ;;
  Use [V "b0"] ;;
  Malloc (V "t2") KMzd ;;
  Use [V "t0"; V "a9"; V "b9"; V "X"] ;;
  IfNull (V "ff") (Skip)
     (Use [V "ff"]) ;;
  Use [V "t0"; V "a0"; V "b0"; V "X"; V "t1"; V "a1"; V "a2"; V "a3"; V "a4"; V "a5"; V "a6"; V "a7"; V "a8"; V "a9"; V "t2"; V "b1"; V "b2"; V "b3"; V "b4"; V "b5"; V "b6"; V "b7"; V "b8"; V "b9"] ;;
  Free (V "t0") KMzd ;;
  Free (V "t1") KMzd ;;
  Free (V "t2") KMzd).

(** _mzd_ptr_addmul_karatsuba11, karatsuba.c:720-871, transcribed by gen_mem.py *)
Definition p__mzd_ptr_addmul_karatsuba11 := Fn ["ff"; "X"; "A"; "B"] (
  Use [V "A"] ;;
  Set_ (V "a0") (V "A") ;;
  Use [V "A"] ;;
  Set_ (V "a1") (V "A") ;;
  Use [V "A"] ;;
  Set_ (V "a2") (V "A") ;;
  Use [V "A"] ;;
  Set_ (V "a3") (V "A") ;;
  Use [V "A"] ;;
  Set_ (V "a4") (V "A") ;;
  Use [V "A"] ;;
  Set_ (V "a5") (V "A") ;;
  Use [V "A"] ;;
  Set_ (V "a6") (V "A") ;;
  Use [V "A"] ;;
  Set_ (V "a7") (V "A") ;;
  Use [V "A"] ;;
  Set_ (V "a8") (V "A") ;;
  Use [V "A"] ;;
  Set_ (V "a9") (V "A") ;;
  Use [V "A"] ;;
  Set_ (V "a10") (V "A") ;;
  Use [V "B"] ;;
  Set_ (V "b0") (V "B") ;;
  Use [V "B"] ;;
  Set_ (V "b1") (V "B") ;;
  Use [V "B"] ;;
  Set_ (V "b2") (V "B") ;;
  Use [V "B"] ;;
  Set_ (V "b3") (V "B") ;;
  Use [V "B"] ;;
  Set_ (V "b4") (V "B") ;;
  Use [V "B"] ;;
  Set_ (V "b5") (V "B") ;;
  Use [V "B"] ;;
  Set_ (V "b6") (V "B") ;;
  Use [V "B"] ;;
  Set_ (V "b7") (V "B") ;;
  Use [V "B"] ;;
  Set_ (V "b8") (V "B") ;;
  Use [V "B"] ;;
  Set_ (V "b9") (V "B") ;;
  Use [V "B"] ;;
  Set_ (V "b10") (V "B") ;;
  Use [V "a0"; V "b0"] ;;
  Malloc (V "t0") KMzd ;;
  Use [V "a0"] ;;
  Malloc (V "t1") KMzd ;;
  Use [V "b0"] ;;
  Malloc (V "t2") KMzd ;;
  Use [V "t0"; V "a10"; V "b10"; V "X"] ;;
  IfNull (V "ff") (Skip)
     (Use [V "ff"]) ;;
  Use [V "t1"; V "a0"; V "a2"; V "a3"; V "a5"; V "a6"; V "a8"; V "a9"; V "t2"; V "b0"; V "b2"; V "b3"; V "b5"; V "b6"; V "b8"; V "b9"; V "t0"; V "X"; V "a1"; V "a4"; V "a7"; V "a10"; V "b1"; V "b4"; V "b7"; V "b10"] ;;
  Free (V "t0") KMzd ;;
  Free (V "t1") KMzd ;;
  Free (V "t2") KMzd).

(** _mzd_ptr_addmul_karatsuba12, karatsuba.c:874-1043, transcribed by gen_mem.py *)
Definition p__mzd_ptr_addmul_karatsuba12 := Fn ["ff"; "X"; "A"; "B"] (
  Use [V "A"] ;;
  Set_ (V "a0") (V "A") ;;
  Use [V "A"] ;;
  Set_ (V "a1") (V "A") ;;
  Use [V "A"] ;;
  Set_ (V "a2") (V "A") ;;
  Use [V "A"] ;;
  Set_ (V "a3") (V "A") ;;
  Use [V "A"] ;;
  Set_ (V "a4") (V "A") ;;
  Use [V "A"] ;;
  Set_ (V "a5") (V "A") ;;
  Use [V "A"] ;;
  Set_ (V "a6") (V "A") ;;
  Use [V "A"] ;;
  Set_ (V "a7") (V "A") ;;
  Use [V "A"] ;;
  Set_ (V "a8") (V "A") ;;
  Use [V "A"] ;;
  Set_ (V "a9") (V "A") ;;
  Use [V "A"] ;;
  Set_ (V "a10") (V "A") ;;
  Use [V "A"] ;;
  Set_ (V "a11") (V "A") ;;
  Use [V "B"] ;;
  Set_ (V "b0") (V "B") ;;
  Use [V "B"] ;;
  Set_ (V "b1") (V "B") ;;
  Use [V "B"] ;;
  Set_ (V "b2") (V "B") ;;
  Use [V "B"] ;;
  Set_ (V "b3") (V "B") ;;
  Use [V "B"] ;;
  Set_ (V "b4") (V "B") ;;
  Use [V "B"] ;;
  Set_ (V "b5") (V "B") ;;
  Use [V "B"] ;;
  Set_ (V "b6") (V "B") ;;
  Use [V "B"] ;;
  Set_ (V "b7") (V "B") ;;
  Use [V "B"] ;;
  Set_ (V "b8") (V "B") ;;
  Use [V "B"] ;;
  Set_ (V "b9") (V "B") ;;
  Use [V "B"] ;;
  Set_ (V "b10") (V "B") ;;
  Use [V "B"] ;;
  Set_ (V "b11") (V "B") ;;
  Use [V "a0"; V "b0"] ;;
  Malloc (V "t0") KMzd ;;
  Use [V "a0"] ;;
  Malloc (V "t1") KMzd ;;
  Use [V "b0"] ;;
  Malloc (V "t2") KMzd ;;
  Use [V "t0"; V "a11"; V "b11"; V "X"] ;;
  IfNull (V "ff") (Skip)
     (Use [V "ff"]) ;;
  Use [V "t0"; V "a0"; V "b0"; V "X"; V "t1"; V "a1"; V "a2"; V "a3"; V "a4"; V "a5"; V "a6"; V "a7"; V "a8"; V "a9"; V "a10"; V "a11"; V "t2"; V "b1"; V "b2"; V "b3"; V "b4"; V "b5"; V "b6"; V "b7"; V "b8"; V "b9"; V "b10"; V "b11"] ;;
  Free (V "t0") KMzd ;;
  Free (V "t1") KMzd ;;
  Free (V "t2") KMzd).

(** _mzd_ptr_addmul_karatsuba13, karatsuba.c:1045-1227, transcribed by gen_mem.py *)
Definition p__mzd_ptr_addmul_karatsuba13 := Fn ["ff"; "X"; "A"; "B"] (
  Use [V "A"] ;;
  Set_ (V "a0") (V "A") ;;
  Use [V "A"] ;;
  Set_ (V "a1") (V "A") ;;
  Use [V "A"] ;;
  Set_ (V "a2") (V "A") ;;
  Use [V "A"] ;;
  Set_ (V "a3") (V "A") ;;
  Use [V "A"] ;;
  Set_ (V "a4") (V "A") ;;
  Use [V "A"] ;;
  Set_ (V "a5") (V "A") ;;
  Use [V "A"] ;;
  Set_ (V "a6") (V "A") ;;
  Use [V "A"] ;;
  Set_ (V "a7") (V "A") ;;
  Use [V "A"] ;;
  Set_ (V "a8") (V "A") ;;
  Use [V "A"] ;;
  Set_ (V "a9") (V "A") ;;
  Use [V "A"] ;;
  Set_ (V "a10") (V "A") ;;
  Use [V "A"] ;;
  Set_ (V "a11") (V "A") ;;
  Use [V "A"] ;;
  Set_ (V "a12") (V "A") ;;
  Use [V "B"] ;;
  Set_ (V "b0") (V "B") ;;
  Use [V "B"] ;;
  Set_ (V "b1") (V "B") ;;
  Use [V "B"] ;;
  Set_ (V "b2") (V "B") ;;
  Use [V "B"] ;;
  Set_ (V "b3") (V "B") ;;
  Use [V "B"] ;;
  Set_ (V "b4") (V "B") ;;
  Use [V "B"] ;;
  Set_ (V "b5") (V "B") ;;
  Use [V "B"] ;;
  Set_ (V "b6") (V "B") ;;
  Use [V "B"] ;;
  Set_ (V "b7") (V "B") ;;
  Use [V "B"] ;;
  Set_ (V "b8") (V "B") ;;
  Use [V "B"] ;;
  Set_ (V "b9") (V "B") ;;
  Use [V "B"] ;;
  Set_ (V "b10") (V "B") ;;
  Use [V "B"] ;;
  Set_ (V "b11") (V "B") ;;
  Use [V "B"] ;;
  Set_ (V "b12") (V "B") ;;
  Use [V "a0"; V "b0"] ;;
  Malloc (V "t0") KMzd ;;
  Use [V "a0"] ;;
  Malloc (V "t1") KMzd ;;
  Use [V "b0"] ;;
  Malloc (V "t2") KMzd ;;
  Use [V "t0"; V "a12"; V "b12"; V "X"] ;;
  IfNull (V "ff") (Skip)
     (Use [V "ff"]) ;;
  Use [V "t1"; V "a0"; V "a2"; V "a3"; V "a5"; V "a6"; V "a8"; V "a9"; V "a11"; V "a12"; V "t2"; V "b0"; V "b2"; V "b3"; V "b5"; V "b6"; V "b8"; V "b9"; V "b11"; V "b12"; V "t0"; V "X"; V "a1"; V "a4"; V "a7"; V "a10"; V "b1"; V "b4"; V "b7"; V "b10"] ;;
  Free (V "t0") KMzd ;;
  Free (V "t1") KMzd ;;
  Free (V "t2") KMzd).

(** _mzd_ptr_addmul_karatsuba14, karatsuba.c:1228-1430, transcribed by gen_mem.py *)
Definition p__mzd_ptr_addmul_karatsuba14 := Fn ["ff"; "X"; "A"; "B"] (
  Use [V "A"] ;;
  Set_ (V "a0") (V "A") ;;
  Use [V "A"] ;;
  Set_ (V "a1") (V "A") ;;
  Use [V "A"] ;;
  Set_ (V "a2") (V "A") ;;
  Use [V "A"] ;;
  Set_ (V "a3") (V "A") ;;
  Use [V "A"] ;;
  Set_ (V "a4") (V "A") ;;
  Use [V "A"] ;;
  Set_ (V "a5") (V "A") ;;
  Use [V "A"] ;;
  Set_ (V "a6") (V "A") ;;
  Use [V "A"] ;;
  Set_ (V "a7") (V "A") ;;
  Use [V "A"] ;;
  Set_ (V "a8") (V "A") ;;
  Use [V "A"] ;;
  Set_ (V "a9") (V "A") ;;
  Use [V "A"] ;;
  Set_ (V "a10") (V "A") ;;
  Use [V "A"] ;;
  Set_ (V "a11") (V "A") ;;
  Use [V "A"] ;;
  Set_ (V "a12") (V "A") ;;
  Use [V "A"] ;;
  Set_ (V "a13") (V "A") ;;
  Use [V "B"] ;;
  Set_ (V "b0") (V "B") ;;
  Use [V "B"] ;;
  Set_ (V "b1") (V "B") ;;
  Use [V "B"] ;;
  Set_ (V "b2") (V "B") ;;
  Use [V "B"] ;;
  Set_ (V "b3") (V "B") ;;
  Use [V "B"] ;;
  Set_ (V "b4") (V "B") ;;
  Use [V "B"] ;;
  Set_ (V "b5") (V "B") ;;
  Use [V "B"] ;;
  Set_ (V "b6") (V "B") ;;
  Use [V "B"] ;;
  Set_ (V "b7") (V "B") ;;
  Use [V "B"] ;;
  Set_ (V "b8") (V "B") ;;
  Use [V "B"] ;;
  Set_ (V "b9") (V "B") ;;
  Use [V "B"] ;;
  Set_ (V "b10") (V "B") ;;
  Use [V "B"] ;;
  Set_ (V "b11") (V "B") ;;
  Use [V "B"] ;;
  Set_ (V "b12") (V "B") ;;
  Use [V "B"] ;;
  Set_ (V "b13") (V "B") ;;
  Use [V "a0"; V "b0"] ;;
  Malloc (V "t0") KMzd ;;
  Use [V "a0"] ;;
  Malloc (V "t1") KMzd ;;
  Use [V "b0"] ;;
  Malloc (V "t2") KMzd ;;
  Use [V "t0"; V "a13"; V "b13"; V "X"] ;;
  IfNull (V "ff") (Skip)
     (Use [V "ff"]) ;;
  Use [V "t1"; V "a0"; V "a2"; V "a3"; V "a5"; V "a6"; V "a8"; V "a9"; V "a11"; V "a12"; V "t2"; V "b0"; V "b2"; V "b3"; V "b5"; V "b6"; V "b8"; V "b9"; V "b11"; V "b12"; V "t0"; V "X"; V "a1"; V "a4"; V "a7"; V "a10"; V "a13"; V "b1"; V "b4"; V "b7"; V "b10"; V "b13"] ;;
  Free (V "t0") KMzd ;;
  Free (V "t1") KMzd ;;
  Free (V "t2") KMzd).

(** _mzd_ptr_addmul_karatsuba15, karatsuba.c:1432-1652, transcribed by gen_mem.py *)
Definition p__mzd_ptr_addmul_karatsuba15 := Fn ["ff"; "X"; "A"; "B"] (
  Use [V "A"] ;;
  Set_ (V "a0") (V "A") ;;
  Use [V "A"] ;;
  Set_ (V "a1") (V "A") ;;
  Use [V "A"] ;;
  Set_ (V "a2") (V "A") ;;
  Use [V "A"] ;;
  Set_ (V "a3") (V "A") ;;
  Use [V "A"] ;;
  Set_ (V "a4") (V "A") ;;
  Use [V "A"] ;;
  Set_ (V "a5") (V "A") ;;
  Use [V "A"] ;;
  Set_ (V "a6") (V "A") ;;
  Use [V "A"] ;;
  Set_ (V "a7") (V "A") ;;
  Use [V "A"] ;;
  Set_ (V "a8") (V "A") ;;
  Use [V "A"] ;;
  Set_ (V "a9") (V "A") ;;
  Use [V "A"] ;;
  Set_ (V "a10") (V "A") ;;
  Use [V "A"] ;;
  Set_ (V "a11") (V "A") ;;
  Use [V "A"] ;;
  Set_ (V "a12") (V "A") ;;
  Use [V "A"] ;;
  Set_ (V "a13") (V "A") ;;
  Use [V "A"] ;;
  Set_ (V "a14") (V "A") ;;
  Use [V "B"] ;;
  Set_ (V "b0") (V "B") ;;
  Use [V "B"] ;;
  Set_ (V "b1") (V "B") ;;
  Use [V "B"] ;;
  Set_ (V "b2") (V "B") ;;
  Use [V "B"] ;;
  Set_ (V "b3") (V "B") ;;
  Use [V "B"] ;;
  Set_ (V "b4") (V "B") ;;
  Use [V "B"] ;;
  Set_ (V "b5") (V "B") ;;
  Use [V "B"] ;;
  Set_ (V "b6") (V "B") ;;
  Use [V "B"] ;;
  Set_ (V "b7") (V "B") ;;
  Use [V "B"] ;;
  Set_ (V "b8") (V "B") ;;
  Use [V "B"] ;;
  Set_ (V "b9") (V "B") ;;
  Use [V "B"] ;;
  Set_ (V "b10") (V "B") ;;
  Use [V "B"] ;;
  Set_ (V "b11") (V "B") ;;
  Use [V "B"] ;;
  Set_ (V "b12") (V "B") ;;
  Use [V "B"] ;;
  Set_ (V "b13") (V "B") ;;
  Use [V "B"] ;;
  Set_ (V "b14") (V "B") ;;
  Use [V "a0"; V "b0"] ;;
  Malloc (V "t0") KMzd ;;
  Use [V "a0"] ;;
  Malloc (V "t1") KMzd ;;
  Use [V "b0"] ;;
  Malloc (V "t2") KMzd ;;
  Use [V "t0"; V "a14"; V "b14"; V "X"] ;;
  IfNull (V "ff") (Skip)
     (Use [V "ff"]) ;;
  Use [V "t0"; V "a0"; V "b0"; V "X"; V "t1"; V "a2"; V "a3"; V "a5"; V "a6"; V "a8"; V "a9"; V "a11"; V "a12"; V "a14"; V "t2"; V "b2"; V "b3"; V "b5"; V "b6"; V "b8"; V "b9"; V "b11"; V "b12"; V "b14"; V "a1"; V "a4"; V "a7"; V "a10"; V "a13"; V "b1"; V "b4"; V "b7"; V "b10"; V "b13"] ;;
  Free (V "t0") KMzd ;;
  Free (V "t1") KMzd ;;
  Free (V "t2") KMzd).

(** _mzd_ptr_addmul_karatsuba16, karatsuba.c:1654-1886, transcribed by gen_mem.py *)
Definition p__mzd_ptr_addmul_karatsuba16 := Fn ["ff"; "X"; "A"; "B"] (
  Use [V "A"] ;;
  Set_ (V "a0") (V "A") ;;
  Use [V "A"] ;;
  Set_ (V "a1") (V "A") ;;
  Use [V "A"] ;;
  Set_ (V "a2") (V "A") ;;
  Use [V "A"] ;;
  Set_ (V "a3") (V "A") ;;
  Use [V "A"] ;;
  Set_ (V "a4") (V "A") ;;
  Use [V "A"] ;;
  Set_ (V "a5") (V "A") ;;
  Use [V "A"] ;;
  Set_ (V "a6") (V "A") ;;
  Use [V "A"] ;;
  Set_ (V "a7") (V "A") ;;
  Use [V "A"] ;;
  Set_ (V "a8") (V "A") ;;
  Use [V "A"] ;;
  Set_ (V "a9") (V "A") ;;
  Use [V "A"] ;;
  Set_ (V "a10") (V "A") ;;
  Use [V "A"] ;;
  Set_ (V "a11") (V "A") ;;
  Use [V "A"] ;;
  Set_ (V "a12") (V "A") ;;
  Use [V "A"] ;;
  Set_ (V "a13") (V "A") ;;
  Use [V "A"] ;;
  Set_ (V "a14") (V "A") ;;
  Use [V "A"] ;;
  Set_ (V "a15") (V "A") ;;
  Use [V "B"] ;;
  Set_ (V "b0") (V "B") ;;
  Use [V "B"] ;;
  Set_ (V "b1") (V "B") ;;
  Use [V "B"] ;;
  Set_ (V "b2") (V "B") ;;
  Use [V "B"] ;;
  Set_ (V "b3") (V "B") ;;
  Use [V "B"] ;;
  Set_ (V "b4") (V "B") ;;
  Use [V "B"] ;;
  Set_ (V "b5") (V "B") ;;
  Use [V "B"] ;;
  Set_ (V "b6") (V "B") ;;
  Use [V "B"] ;;
  Set_ (V "b7") (V "B") ;;
  Use [V "B"] ;;
  Set_ (V "b8") (V "B") ;;
  Use [V "B"] ;;
  Set_ (V "b9") (V "B") ;;
  Use [V "B"] ;;
  Set_ (V "b10") (V "B") ;;
  Use [V "B"] ;;
  Set_ (V "b11") (V "B") ;;
  Use [V "B"] ;;
  Set_ (V "b12") (V "B") ;;
  Use [V "B"] ;;
  Set_ (V "b13") (V "B") ;;
  Use [V "B"] ;;
  Set_ (V "b14") (V "B") ;;
  Use [V "B"] ;;
  Set_ (V "b15") (V "B") ;;
  Use [V "a0"; V "b0"] ;;
  Malloc (V "t0") KMzd ;;
  Use [V "a0"] ;;
  Malloc (V "t1") KMzd ;;
  Use [V "b0"] ;;
  Malloc (V "t2") KMzd ;;
  Use [V "t1"; V "a0"; V "a2"; V "a3"; V "a5"; V "a6"; V "a8"; V "a9"; V "a11"; V "a12"; V "a14"; V "a15"; V "t2"; V "b0"; V "b2"; V "b3"; V "b5"; V "b6"; V "b8"; V "b9"; V "b11"; V "b12"; V "b14"; V "b15"; V "t0"; V "X"] ;;
  IfNull (V "ff") (Skip)
     (Use [V "ff"]) ;;
  Use [V "t1"; V "a1"; V "a2"; V "a4"; V "a5"; V "a7"; V "a8"; V "a10"; V "a11"; V "a13"; V "a14"; V "t2"; V "b1"; V "b2"; V "b4"; V "b5"; V "b7"; V "b8"; V "b10"; V "b11"; V "b13"; V "b14"; V "t0"; V "X"; V "a0"; V "a3"; V "a6"; V "a9"; V "a12"; V "a15"; V "b0"; V "b3"; V "b6"; V "b9"; V "b12"; V "b15"] ;;
  Free (V "t0") KMzd ;;
  Free (V "t1") KMzd ;;
  Free (V "t2") KMzd).

(** _mzd_ptr_apply_blm, blm.h:153-158, transcribed by gen_mem.py *)
Definition p__mzd_ptr_apply_blm := Fn ["X"; "A"; "B"; "f"] (
  Use [V "f"] ;;
  If (Call None "_mzd_ptr_apply_blm_mzd" [AP (V "X"); AP (V "A"); AP (V "B"); AP (V "f")])
     (Call None "_mzd_ptr_apply_blm_djb" [AP (V "X"); AP (V "A"); AP (V "B"); AP (V "f")])).

(** _mzd_ptr_apply_blm_mzd, blm.c:6-41, transcribed by gen_mem.py *)
Definition p__mzd_ptr_apply_blm_mzd := Fn ["X"; "A"; "B"; "f"] (
  Use [V "A"; V "B"] ;;
  Malloc (V "t0") KMzd ;;
  Use [V "A"] ;;
  Malloc (V "t1") KMzd ;;
  Use [V "B"] ;;
  Malloc (V "t2") KMzd ;;
  Use [V "f"] ;;
  Loop (Use [V "f"; V "t1"] ;;
    Loop (Use [V "f"] ;;
      If (Use [V "A"; V "t1"])
         (Skip)) ;;
    Use [V "t2"; V "f"] ;;
    Loop (Use [V "f"] ;;
      If (Use [V "B"; V "t2"])
         (Skip)) ;;
    Use [V "t0"; V "t1"; V "t2"; V "f"] ;;
    Loop (Use [V "f"] ;;
      If (Use [V "t0"; V "X"])
         (Skip))) ;;
  Free (V "t0") KMzd ;;
  Free (V "t1") KMzd ;;
  Free (V "t2") KMzd).

(** _blm_djb_compile, blm.c:43-63, transcribed by hand: the members of f are variables while the function runs *)
Definition p__blm_djb_compile := Fn ["f"] (
  Unpack "f" [FV "f.F"; FV "f.G"; FV "f.H"; FV "f.f"; FV "f.g"; FV "f.h"] ;;
  Use [V "f.F"] ;; Malloc (V "F") KMzd ;;
  Use [V "F"] ;; Malloc (V "f.f") KDjb ;;
  Free (V "F") KMzd ;;
  Use [V "f.F"; V "f.G"] ;;
  If (Set_ (V "f.g") (V "f.f"))
     (Use [V "f.G"] ;; Malloc (V "G") KMzd ;;
      Use [V "G"] ;; Malloc (V "f.g") KDjb ;;
      Free (V "G") KMzd) ;;
  Use [V "f.H"] ;; Malloc (V "H") KMzd ;;
  Use [V "H"] ;; Malloc (V "f.h") KDjb ;;
  Free (V "H") KMzd ;;
  Pack "f" KBlmC [FV "f.F"; FV "f.G"; FV "f.H"; FV "f.f"; FV "f.g"; FV "f.h"] ;;
  Ret (Some (V "f"))).

(** _mzd_ptr_apply_blm_djb, blm.c:65-101, transcribed by hand: the use of the entries of an array by djb_apply_mzd_ptr follows the call *)
Definition p__mzd_ptr_apply_blm_djb := Fn ["X"; "A"; "B"; "f"] (
  Use [V "f"] ;;
  Malloc (V "t0") KRaw ;;
  Malloc (V "t1") KRaw ;;
  Malloc (V "t2") KRaw ;;
  For "m" (Use [V "A"; V "B"; V "t1"; V "t2"] ;; Malloc (El "t1") KMzd ;; Malloc (El "t2") KMzd) ;;
  Call None "djb_apply_mzd_ptr" [AP (V "f"); AP (V "t1"); AP (V "A")] ;;
  For "m" (Use [El "t1"]) ;;
  Call None "djb_apply_mzd_ptr" [AP (V "f"); AP (V "t2"); AP (V "B")] ;;
  For "m" (Use [El "t2"]) ;;
  For "m" (Use [V "A"; V "B"; V "t0"; V "t1"; V "t2"] ;;
           Malloc (El "t0") KMzd ;;
           Use [El "t0"; El "t1"; El "t2"] ;;
           Free (El "t1") KMzd ;;
           Free (El "t2") KMzd) ;;
  Call None "djb_apply_mzd_ptr" [AP (V "f"); AP (V "X"); AP (V "t0")] ;;
  For "m" (Use [El "t0"]) ;;
  For "m" (Use [V "t0"] ;; Free (El "t0") KMzd) ;;
  Free (V "t0") KRaw ;;
  Free (V "t1") KRaw ;;
  Free (V "t2") KRaw).

(** crt_init, blm.c:105-151, transcribed by gen_mem.py *)
Definition p_crt_init := Fn [] (
  Malloc (V "p_best") KRaw ;;
  Malloc (V "p") KRaw ;;
  Loop (Use [V "p"] ;;
    Loop (Use [V "p"]) ;;
    Loop (Use [V "p"]) ;;
    If (Use [V "p"] ;;
        If (Use [V "p"])
           (Skip))
       (Skip) ;;
    Use [V "p"] ;;
    Loop (Use [V "p"]) ;;
    If (Loop (Use [V "p"; V "p_best"]))
       (Skip)) ;;
  Free (V "p") KRaw ;;
  Ret (Some (V "p_best"))).

(** _small_multiplication_map, blm.c:153-334, transcribed by gen_mem.py *)
Definition p__small_multiplication_map := Fn [] (
  If (Malloc (V "A") KMzd ;;
      Use [V "A"] ;;
      Ret (Some (V "A")))
     (Abort) ;;
  RetNull).

(** _crt_modred_mat, blm.c:342-379, transcribed by gen_mem.py *)
Definition p__crt_modred_mat := Fn [] (
  Malloc (V "A") KMzd ;;
  If (Loop (Use [V "A"]) ;;
      Ret (Some (V "A")))
     (Skip) ;;
  Malloc (V "f") KMzd ;;
  Malloc (V "t") KMzd ;;
  Loop (Use [V "f"] ;;
    Loop (Use [V "t"; V "f"] ;;
      Loop (Use [V "f"] ;;
        If (Use [V "f"] ;;
            Break)
           (Skip))) ;;
    Loop (Use [V "f"; V "A"])) ;;
  Ret (Some (V "A"))).

(** _blm_finish_polymult, blm.c:381-482, transcribed by hand: the members of f are variables while the function runs *)
Definition p__blm_finish_polymult := Fn ["ff"; "f"] (
  Unpack "f" [FV "f.F"; FV "f.G"; FE; FV "f.f"; FV "f.g"; FE] ;;
  Use [V "f"; V "f.F"; V "f.G"] ;;
  Malloc (V "H") KMzd ;;
  Malloc (V "F_T") KMzd ;;
  Malloc (V "G_T") KMzd ;;
  Malloc (V "C") KMzd ;;
  Malloc (V "pivots") KMzd ;;
  Malloc (V "P") KMzp ;;
  Malloc (V "Q") KMzp ;;
  Loop (Loop (Use [V "C"; V "F_T"; V "G_T"]) ;;
        Use [V "pivots"; V "f.F"; V "f.G"; V "C"] ;;
        If (Use [V "C"] ;; Malloc (V "D") KMzd ;;
            Use [V "D"; V "P"; V "Q"] ;;
            Use [V "pivots"; V "P"; V "C"] ;;
            Free (V "D") KMzd) Skip) ;;
  Free (V "P") KMzp ;;
  Free (V "Q") KMzp ;;
  Loop (Use [V "pivots"] ;; Loop (Use [V "C"; V "F_T"; V "G_T"])) ;;
  Free (V "F_T") KMzd ;;
  Free (V "G_T") KMzd ;;
  Use [V "C"] ;; Malloc (V "D") KMzd ;;
  Free (V "C") KMzd ;;
  Use [V "D"] ;; Malloc (V "DT") KMzd ;;
  Free (V "D") KMzd ;;
  Malloc (V "a") KMzd ;;
  Use [V "H"] ;; Malloc (V "b") KMzd ;;
  Loop (Use [V "H"; V "a"] ;;
        Loop (Use [V "pivots"; V "a"]) ;;
        Use [V "b"; V "a"; V "DT"] ;;
        Loop (Use [V "H"; V "b"])) ;;
  Free (V "a") KMzd ;;
  Free (V "b") KMzd ;;
  Free (V "pivots") KMzd ;;
  IfNull (V "ff") (Set_ (V "f.H") (V "H"))
    (Use [V "H"; V "ff"] ;;
     Call (Some (V "N")) "_crt_modred_mat" [] ;;
     Use [V "N"; V "H"] ;; Malloc (V "f.H") KMzd ;;
     Free (V "N") KMzd ;;
     Free (V "H") KMzd) ;;
  Pack "f" KBlm1 [FV "f.F"; FV "f.G"; FV "f.H"; FV "f.f"; FV "f.g"; FE] ;;
  Ret (Some (V "f"))).

(** blm_init_crt, blm.c:487-608, transcribed by hand: the members of f are variables until it is passed on *)
Definition p_blm_init_crt := Fn ["ff"; "p"; "djb"] (
  Malloc (V "f") KRaw ;;
  Malloc (V "p_it") KRaw ;;
  Use [V "p"] ;;
  Malloc (V "f.F") KMzd ;;
  SetNull (V "f.f") ;;
  Malloc (V "f.G") KMzd ;;
  SetNull (V "f.g") ;;
  Use [V "p"] ;;
  If (Use [V "p"] ;;
      Call (Some (V "N")) "_small_multiplication_map" [] ;;
      Call (Some (V "M")) "_crt_modred_mat" [] ;;
      Window (V "T") KMzdWin (V "f.F") ;;
      Use [V "T"; V "N"; V "M"] ;;
      Free (V "T") KMzd ;;
      Free (V "M") KMzd ;;
      Call (Some (V "M")) "_crt_modred_mat" [] ;;
      Window (V "T") KMzdWin (V "f.G") ;;
      Use [V "T"; V "N"; V "M"] ;;
      Free (V "T") KMzd ;;
      Free (V "M") KMzd ;;
      Free (V "N") KMzd) Skip ;;
  Loop (Use [V "p"] ;;
        If Continue Skip ;;
        Call (Some (V "N")) "_small_multiplication_map" [] ;;
        Loop (Use [V "p"; V "p_it"] ;;
              If Skip Abort ;;
              Call (Some (V "M")) "_crt_modred_mat" [] ;;
              Window (V "T") KMzdWin (V "f.F") ;;
              Use [V "T"; V "N"; V "M"] ;;
              Free (V "T") KMzd ;;
              Free (V "M") KMzd ;;
              Call (Some (V "M")) "_crt_modred_mat" [] ;;
              Window (V "T") KMzdWin (V "f.G") ;;
              Use [V "T"; V "N"; V "M"] ;;
              Free (V "T") KMzd ;;
              Free (V "M") KMzd) ;;
        Free (V "N") KMzd) ;;
  Free (V "p_it") KRaw ;;
  Pack "f" KBlm0 [FV "f.F"; FV "f.G"; FE; FV "f.f"; FV "f.g"; FE] ;;
  Call None "_blm_finish_polymult" [AP (V "ff"); AP (V "f")] ;;
  Unpack "f" [FV "f.F"; FV "f.G"; FV "f.H"; FV "f.f"; FV "f.g"; FE] ;;
  SetNull (V "f.h") ;;
  Pack "f" KBlmM [FV "f.F"; FV "f.G"; FV "f.H"; FV "f.f"; FV "f.g"; FV "f.h"] ;;
  IfFlag "djb" (Call None "_blm_djb_compile" [AP (V "f")]) Skip ;;
  Ret (Some (V "f"))).

(** blm_free, blm.c:611-621, transcribed by hand *)
Definition p_blm_free := Fn ["f"] (
  Unpack "f" [FV "f.F"; FV "f.G"; FV "f.H"; FV "f.f"; FV "f.g"; FV "f.h"] ;;
  Free (V "f.F") KMzd ;;
  Free (V "f.G") KMzd ;;
  Free (V "f.H") KMzd ;;
  IfSame (V "f.f") (V "f.g") Skip (Free (V "f.g") KDjb) ;;
  Free (V "f.f") KDjb ;;
  Free (V "f.h") KDjb ;;
  Free (V "f") KRaw).

(** _mzd_slice_trsm_lower_left, trsm.inl:9-50, transcribed by gen_mem.py *)
Definition p__mzd_slice_trsm_lower_left := Fn ["L"; "B"] (
  Use [V "L"] ;;
  If (Call None "mzd_slice_trsm_lower_left_newton_john" [AP (V "L"); AP (V "B")] ;;
      Ret None)
     (Use [V "B"] ;;
      If (Call None "mzd_slice_trsm_lower_left_newton_john" [AP (V "L"); AP (V "B")] ;;
          Ret None)
         (Skip)) ;;
  Use [V "L"; V "B"] ;;
  Call (Some (V "B0")) "mzd_slice_init_window" [AP (V "B")] ;;
  Use [V "B"] ;;
  Call (Some (V "B1")) "mzd_slice_init_window" [AP (V "B")] ;;
  Call (Some (V "L00")) "mzd_slice_init_window" [AP (V "L")] ;;
  Use [V "B"] ;;
  Call (Some (V "L10")) "mzd_slice_init_window" [AP (V "L")] ;;
  Use [V "B"] ;;
  Call (Some (V "L11")) "mzd_slice_init_window" [AP (V "L")] ;;
  Call None "_mzd_slice_trsm_lower_left" [AP (V "L00"); AP (V "B0")] ;;
  Call None "mzd_slice_addmul" [AP (V "B1"); AP (V "L10"); AP (V "B0")] ;;
  Call None "_mzd_slice_trsm_lower_left" [AP (V "L11"); AP (V "B1")] ;;
  Call None "mzd_slice_free_window" [AP (V "B0")] ;;
  Call None "mzd_slice_free_window" [AP (V "B1")] ;;
  Call None "mzd_slice_free_window" [AP (V "L00")] ;;
  Call None "mzd_slice_free_window" [AP (V "L10")] ;;
  Call None "mzd_slice_free_window" [AP (V "L11")]).

(** _mzed_trsm_lower_left, trsm.inl:9-50, transcribed by gen_mem.py *)
Definition p__mzed_trsm_lower_left := Fn ["L"; "B"] (
  Use [V "L"] ;;
  If (Call None "mzed_trsm_lower_left_newton_john" [AP (V "L"); AP (V "B")] ;;
      Ret None)
     (Use [V "B"] ;;
      If (Call None "mzed_trsm_lower_left_newton_john" [AP (V "L"); AP (V "B")] ;;
          Ret None)
         (Skip)) ;;
  Use [V "L"; V "B"] ;;
  Call (Some (V "B0")) "mzed_init_window" [AP (V "B")] ;;
  Use [V "B"] ;;
  Call (Some (V "B1")) "mzed_init_window" [AP (V "B")] ;;
  Call (Some (V "L00")) "mzed_init_window" [AP (V "L")] ;;
  Use [V "B"] ;;
  Call (Some (V "L10")) "mzed_init_window" [AP (V "L")] ;;
  Use [V "B"] ;;
  Call (Some (V "L11")) "mzed_init_window" [AP (V "L")] ;;
  Call None "_mzed_trsm_lower_left" [AP (V "L00"); AP (V "B0")] ;;
  Call None "mzed_addmul" [AP (V "B1"); AP (V "L10"); AP (V "B0")] ;;
  Call None "_mzed_trsm_lower_left" [AP (V "L11"); AP (V "B1")] ;;
  Call None "mzed_free_window" [AP (V "B0")] ;;
  Call None "mzed_free_window" [AP (V "B1")] ;;
  Call None "mzed_free_window" [AP (V "L00")] ;;
  Call None "mzed_free_window" [AP (V "L10")] ;;
  Call None "mzed_free_window" [AP (V "L11")]).

(** _mzd_slice_trsm_upper_left, trsm.inl:53-94, transcribed by gen_mem.py *)
Definition p__mzd_slice_trsm_upper_left := Fn ["U"; "B"] (
  Use [V "U"] ;;
  If (Call None "mzd_slice_trsm_upper_left_newton_john" [AP (V "U"); AP (V "B")] ;;
      Ret None)
     (Use [V "B"] ;;
      If (Call None "mzd_slice_trsm_upper_left_newton_john" [AP (V "U"); AP (V "B")] ;;
          Ret None)
         (Skip)) ;;
  Use [V "U"; V "B"] ;;
  Call (Some (V "B0")) "mzd_slice_init_window" [AP (V "B")] ;;
  Use [V "B"] ;;
  Call (Some (V "B1")) "mzd_slice_init_window" [AP (V "B")] ;;
  Call (Some (V "U00")) "mzd_slice_init_window" [AP (V "U")] ;;
  Use [V "B"] ;;
  Call (Some (V "U01")) "mzd_slice_init_window" [AP (V "U")] ;;
  Use [V "B"] ;;
  Call (Some (V "U11")) "mzd_slice_init_window" [AP (V "U")] ;;
  Call None "_mzd_slice_trsm_upper_left" [AP (V "U11"); AP (V "B1")] ;;
  Call None "mzd_slice_addmul" [AP (V "B0"); AP (V "U01"); AP (V "B1")] ;;
  Call None "_mzd_slice_trsm_upper_left" [AP (V "U00"); AP (V "B0")] ;;
  Call None "mzd_slice_free_window" [AP (V "B0")] ;;
  Call None "mzd_slice_free_window" [AP (V "B1")] ;;
  Call None "mzd_slice_free_window" [AP (V "U00")] ;;
  Call None "mzd_slice_free_window" [AP (V "U01")] ;;
  Call None "mzd_slice_free_window" [AP (V "U11")]).

(** _mzed_trsm_upper_left, trsm.inl:53-94, transcribed by gen_mem.py *)
Definition p__mzed_trsm_upper_left := Fn ["U"; "B"] (
  Use [V "U"] ;;
  If (Call None "mzed_trsm_upper_left_newton_john" [AP (V "U"); AP (V "B")] ;;
      Ret None)
     (Use [V "B"] ;;
      If (Call None "mzed_trsm_upper_left_newton_john" [AP (V "U"); AP (V "B")] ;;
          Ret None)
         (Skip)) ;;
  Use [V "U"; V "B"] ;;
  Call (Some (V "B0")) "mzed_init_window" [AP (V "B")] ;;
  Use [V "B"] ;;
  Call (Some (V "B1")) "mzed_init_window" [AP (V "B")] ;;
  Call (Some (V "U00")) "mzed_init_window" [AP (V "U")] ;;
  Use [V "B"] ;;
  Call (Some (V "U01")) "mzed_init_window" [AP (V "U")] ;;
  Use [V "B"] ;;
  Call (Some (V "U11")) "mzed_init_window" [AP (V "U")] ;;
  Call None "_mzed_trsm_upper_left" [AP (V "U11"); AP (V "B1")] ;;
  Call None "mzed_addmul" [AP (V "B0"); AP (V "U01"); AP (V "B1")] ;;
  Call None "_mzed_trsm_upper_left" [AP (V "U00"); AP (V "B0")] ;;
  Call None "mzed_free_window" [AP (V "B0")] ;;
  Call None "mzed_free_window" [AP (V "B1")] ;;
  Call None "mzed_free_window" [AP (V "U00")] ;;
  Call None "mzed_free_window" [AP (V "U01")] ;;
  Call None "mzed_free_window" [AP (V "U11")]).

Definition library : list (string * fn) :=
  [("gf2e_t16_init", p_gf2e_t16_init);
   ("gf2e_t16_free", p_gf2e_t16_free);
   ("gf2e_init", p_gf2e_init);
   ("gf2e_free", p_gf2e_free);
   ("mzed_concat", p_mzed_concat);
   ("mzed_stack", p_mzed_stack);
   ("mzed_submatrix", p_mzed_submatrix);
   ("mzed_init_window", p_mzed_init_window);
   ("mzed_free_window", p_mzed_free_window);
   ("mzed_init", p_mzed_init);
   ("mzed_free", p_mzed_free);
   ("mzed_add", p_mzed_add);
   ("_mzed_mul_init", p__mzed_mul_init);
   ("mzed_mul", p_mzed_mul);
   ("mzed_addmul", p_mzed_addmul);
   ("_mzed_mul", p__mzed_mul);
   ("_mzed_addmul", p__mzed_addmul);
   ("mzed_mul_naive", p_mzed_mul_naive);
   ("mzed_addmul_naive", p_mzed_addmul_naive);
   ("mzed_mul_scalar", p_mzed_mul_scalar);
   ("mzed_copy", p_mzed_copy);
   ("mzd_slice_init", p_mzd_slice_init);
   ("mzd_slice_free", p_mzd_slice_free);
   ("mzd_slice_copy", p_mzd_slice_copy);
   ("mzd_slice_concat", p_mzd_slice_concat);
   ("mzd_slice_stack", p_mzd_slice_stack);
   ("mzd_slice_submatrix", p_mzd_slice_submatrix);
   ("mzd_slice_init_window", p_mzd_slice_init_window);
   ("mzd_slice_free_window", p_mzd_slice_free_window);
   ("mzd_slice_add", p_mzd_slice_add);
   ("_mzd_slice_addmul_karatsuba", p__mzd_slice_addmul_karatsuba);
   ("mzd_slice_mul_karatsuba", p_mzd_slice_mul_karatsuba);
   ("mzd_slice_addmul_karatsuba", p_mzd_slice_addmul_karatsuba);
   ("_mzd_slice_mul_blm", p__mzd_slice_mul_blm);
   ("mzd_slice_mul_blm", p_mzd_slice_mul_blm);
   ("mzd_slice_addmul_blm", p_mzd_slice_addmul_blm);
   ("mzd_slice_mul", p_mzd_slice_mul);
   ("mzd_slice_addmul", p_mzd_slice_addmul);
   ("mzd_slice_mul_scalar", p_mzd_slice_mul_scalar);
   ("_mzd_slice_addmul_naive", p__mzd_slice_addmul_naive);
   ("mzd_poly_init", p_mzd_poly_init);
   ("mzd_poly_free", p_mzd_poly_free);
   ("_mzd_poly_addmul_naive", p__mzd_poly_addmul_naive);
   ("_mzd_poly_addmul_karatsubs_balanced", p__mzd_poly_addmul_karatsubs_balanced);
   ("_mzd_poly_addmul_blm", p__mzd_poly_addmul_blm);
   ("_mzd_poly_addmul_crt", p__mzd_poly_addmul_crt);
   ("_mzd_poly_addmul_ext1", p__mzd_poly_addmul_ext1);
   ("djb_apply_mzd_ptr", p_djb_apply_mzd_ptr);
   ("njt_mzed_init", p_njt_mzed_init);
   ("njt_mzed_free", p_njt_mzed_free);
   ("mzed_make_table", p_mzed_make_table);
   ("mzed_echelonize_newton_john", p_mzed_echelonize_newton_john);
   ("mzed_ple_newton_john", p_mzed_ple_newton_john);
   ("_mzed_mul_newton_john0", p__mzed_mul_newton_john0);
   ("_mzed_mul_newton_john", p__mzed_mul_newton_john);
   ("mzed_mul_newton_john", p_mzed_mul_newton_john);
   ("mzed_addmul_newton_john", p_mzed_addmul_newton_john);
   ("mzed_invert_newton_john", p_mzed_invert_newton_john);
   ("mzed_trsm_lower_left_newton_john", p_mzed_trsm_lower_left_newton_john);
   ("mzed_trsm_upper_left_newton_john", p_mzed_trsm_upper_left_newton_john);
   ("mzd_slice_trsm_lower_left_newton_john", p_mzd_slice_trsm_lower_left_newton_john);
   ("mzd_slice_trsm_upper_left_newton_john", p_mzd_slice_trsm_upper_left_newton_john);
   ("mzd_slice_ple", p_mzd_slice_ple);
   ("mzd_slice_pluq", p_mzd_slice_pluq);
   ("mzed_ple", p_mzed_ple);
   ("_mzed_ple", p__mzed_ple);
   ("_mzd_slice_ple", p__mzd_slice_ple);
   ("_mzd_slice_pluq", p__mzd_slice_pluq);
   ("mzed_mul_strassen", p_mzed_mul_strassen);
   ("mzed_addmul_strassen", p_mzed_addmul_strassen);
   ("_mzed_mul_strassen", p__mzed_mul_strassen);
   ("_mzed_addmul_strassen", p__mzed_addmul_strassen);
   ("mzed_trsm_upper_left", p_mzed_trsm_upper_left);
   ("mzd_slice_trsm_upper_left", p_mzd_slice_trsm_upper_left);
   ("mzed_trsm_lower_left", p_mzed_trsm_lower_left);
   ("mzd_slice_trsm_lower_left", p_mzd_slice_trsm_lower_left);
   ("mzd_slice_trsm_upper_left_naive", p_mzd_slice_trsm_upper_left_naive);
   ("mzd_slice_trsm_lower_left_naive", p_mzd_slice_trsm_lower_left_naive);
   ("mzed_echelonize_ple", p_mzed_echelonize_ple);
   ("mzed_echelonize", p_mzed_echelonize);
   ("mzd_slice_echelonize_ple", p_mzd_slice_echelonize_ple);
   ("_mzed_addmul_karatsuba", p__mzed_addmul_karatsuba);
   ("mzed_mul_karatsuba", p_mzed_mul_karatsuba);
   ("mzed_addmul_karatsuba", p_mzed_addmul_karatsuba);
   ("_mzed_addmul_blm", p__mzed_addmul_blm);
   ("mzed_mul_blm", p_mzed_mul_blm);
   ("mzed_addmul_blm", p_mzed_addmul_blm);
   ("mzd_slice_rescale_row", p_mzd_slice_rescale_row);
   ("mzed_slice", p_mzed_slice);
   ("mzed_cling", p_mzed_cling);
   ("_mzd_ptr_addmul_karatsuba2", p__mzd_ptr_addmul_karatsuba2);
   ("_mzd_ptr_addmul_karatsuba3", p__mzd_ptr_addmul_karatsuba3);
   ("_mzd_ptr_addmul_karatsuba4", p__mzd_ptr_addmul_karatsuba4);
   ("_mzd_ptr_addmul_karatsuba5", p__mzd_ptr_addmul_karatsuba5);
   ("_mzd_ptr_addmul_karatsuba6", p__mzd_ptr_addmul_karatsuba6);
   ("_mzd_ptr_addmul_karatsuba7", p__mzd_ptr_addmul_karatsuba7);
   ("_mzd_ptr_addmul_karatsuba8", p__mzd_ptr_addmul_karatsuba8);
   ("_mzd_ptr_addmul_karatsuba9", p__mzd_ptr_addmul_karatsuba9);
   ("_mzd_ptr_addmul_karatsuba10", p__mzd_ptr_addmul_karatsuba10);
   ("_mzd_ptr_addmul_karatsuba11", p__mzd_ptr_addmul_karatsuba11);
   ("_mzd_ptr_addmul_karatsuba12", p__mzd_ptr_addmul_karatsuba12);
   ("_mzd_ptr_addmul_karatsuba13", p__mzd_ptr_addmul_karatsuba13);
   ("_mzd_ptr_addmul_karatsuba14", p__mzd_ptr_addmul_karatsuba14);
   ("_mzd_ptr_addmul_karatsuba15", p__mzd_ptr_addmul_karatsuba15);
   ("_mzd_ptr_addmul_karatsuba16", p__mzd_ptr_addmul_karatsuba16);
   ("_mzd_ptr_apply_blm", p__mzd_ptr_apply_blm);
   ("_mzd_ptr_apply_blm_mzd", p__mzd_ptr_apply_blm_mzd);
   ("_blm_djb_compile", p__blm_djb_compile);
   ("_mzd_ptr_apply_blm_djb", p__mzd_ptr_apply_blm_djb);
   ("crt_init", p_crt_init);
   ("_small_multiplication_map", p__small_multiplication_map);
   ("_crt_modred_mat", p__crt_modred_mat);
   ("_blm_finish_polymult", p__blm_finish_polymult);
   ("blm_init_crt", p_blm_init_crt);
   ("blm_free", p_blm_free);
   ("_mzd_slice_trsm_lower_left", p__mzd_slice_trsm_lower_left);
   ("_mzed_trsm_lower_left", p__mzed_trsm_lower_left);
   ("_mzd_slice_trsm_upper_left", p__mzd_slice_trsm_upper_left);
   ("_mzed_trsm_upper_left", p__mzed_trsm_upper_left)].
Fixpoint lookup {A} (f : string) (l : list (string * A)) : option A := match l with [] => None | (g, b) :: l => if String.eqb f g then Some b else lookup f l end.
Definition m4rie (f : string) : option fn := lookup f library.
