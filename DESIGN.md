# Formal model of malb/m4rie in Rocq (Coq 8.16.1)

`rocq/theories` holds an executable model of the C library, the specifications, the proofs, and the
property theorems (`Prop*.v`).  The C code was read as text; it was neither built nor run.

## Approach

* **Words.**  A C `word` is an `N` below 2^64 (`Gf2xModel.wshl`, `wshr`, `wnot` wrap).
* **Effects.**  C functions run in a result monad (`Base.v`): `Ok v`, `Die` (`m4ri_die`: the process
  ends with a message) and `UB` (undefined behaviour: access outside an array, a shift count out of range, a failed
  `assert`, a NULL dereference, and signed overflow in the two size tests where it can happen for matrices that fit into memory).
  A theorem `exists A', op A = Ok A' /\ ...` therefore also says that the call stays in bounds and terminates.
* **Bit matrices** (`mzd_t`) are a list of rows, each a list of 64-bit words, with row and column counts.  Bits beyond
  `ncols` in the last word (padding, or the neighbouring columns of the parent of a window) are *not* assumed to be zero, and
  every mutator is proved to leave them unchanged (`becomes`, `sbecomes`).
* **Packed matrices** (`mzed_t`) carry field, element width and dimensions on top of an `mzd`; **sliced matrices**
  (`mzd_slice_t`) and **matrix polynomials** (`mzd_poly_t`) are lists of `mzd`.
* **Windows** share memory with their parent.  An in-place operation on a window takes the window's words out of the
  *current* parent, runs, and writes the words back (`on_win`, `on_swin`); reading a window reads the current parent.
* **Loops** with a fixed range are `for_`, other loops are structural recursions on a fuel argument that returns `UB` (or
  `None` where the C loop may really not end) when exhausted; fuel is proved sufficient.
* **Specifications** are separate and small: `Spec.v` (polynomials over GF(2) as `N`, carry-less product, remainder,
  irreducibility), `MzedSpec.v`/`SliceSpec.v` (well-formedness, `entry`, `holds`, `becomes`), `LinSpec.v` (matrices as functions,
  XOR sums, products, row equivalence, echelon forms), `TrsmSpec.v`, `PleSpec.v`, `PolyMatSpec.v`, `DjbSpec.v`, `BlmSpec.v`.
  The property files use only these and the model.
* **Files.**  `*Model.v` (and `BlmOps.v`): model, every definition with the file and lines it models.
  `*Table.v`: literal data extracted from the sources by the scripts in `gen/` (irreducible polynomials, Karatsuba formulas,
  word conversions, small multiplication maps).  `Prop*.v`: statements, non-vacuity witnesses (`C.._witness`, evaluated on concrete
  matrices, or `.._reachable`) and `Print Assumptions`.  Everything else: proofs.
* **Refuted properties.**  Where the documented or expected behaviour is false of the code, the theorem `C.._refuted` proves so, for
  a whole class of inputs where possible, and a companion theorem proves what the code does.

## Per-property table

| id | status | what is modelled and how it is proved | theorems |
|---|---|---|---|
| C01 gf2x_mul is carry-less multiplication | proved | gf2x_mul word for word (shift/xor switch); the unrolled terms are summed and compared with the carry-less product of Spec.v. | PropField.v: `C01_gf2x_mul` |
| C02 gf2x_deg is the degree | proved | the binary search of gf2x_deg; case analysis on the mask tests, invariant "the degree lies in the current window". | PropField.v: `C02_gf2x_deg` |
| C03 gf2x_divmod, gf2x_div and gf2x_mod are Euclidean division | proved | the division loop with its shift counter; loop invariant a = q*b + r; uniqueness from degrees. | PropField.v: `C03_gf2x_divmod` |
| C04 gf2x_invmod inverts modulo an irreducible polynomial | proved | the extended Euclidean loop with fuel (proved sufficient); invariant: the Bezout relation and coprimality. | PropField.v: `C04_gf2x_invmod` |
| C05 gf2e_init builds correct tables | proved | gf2e_init with its three tables; injectivity of the index map of red, induction over the loops. | PropField.v: `C05_gf2e_init_tables` |
| C06 ff->mul is multiplication modulo the minimal polynomial | proved | both multiplication functions; from the table lemmas of C05. | PropField.v: `C06_ff_mul` |
| C07 The handle is a field exactly when the polynomial is irreducible | proved | field laws derived from C06 in GF(2)[X]/(f); zero divisors for reducible f. | PropField.v: `C07_field_laws`, `C07_reducible_not_field` |
| C08 The table of irreducible polynomials is sound and complete | proved | the literal table of gf2e.c (extracted by gen/gen_irr.py); soundness and completeness by a verified trial division, evaluated by vm_compute over all polynomials of degree up to 16 (a complete finite domain). | PropField.v: `C08_irreducible_table` |
| C09 gf2e_degree_to_w picks the smallest admissible width | proved | the switch; case analysis. | PropField.v: `C09_degree_to_w` |
| C10 gf2e_t16_init tabulates scalar multiplication on packed elements | proved | gf2e_t16_init; per-lane invariant; out-of-bounds index exhibited for the other degrees. Proved for degrees 2, 4, 8; refuted (out-of-bounds read of the multiplication table) for degrees 3, 5, 6, 7. | PropField.v: `C10_t16_init`, `C10_t16_init_refuted` |
| C11 Element access is a faithful array | proved | bit-field access in words; word-level frame lemmas. | PropMzed.v: `C11_element_access` |
| C12 mzed_add_multiple_of_row is a row axpy from the start column | proved | the unrolled lanes as a lane loop, checked against the source by gen/check_unrolled.py; lane-wise invariant with frame. | PropMzed.v: `C12_add_multiple_of_row` |
| C13 mzed_add_row adds rows | proved | start mask, bulk loop, end mask; bit-wise proof. | PropMzed.v: `C13_add_row` |
| C14 mzed_rescale_row multiplies a row tail by a scalar | proved | as C12. | PropMzed.v: `C14_rescale_row` |
| C15 Addition, copy, identity and structural operations are elementwise | proved | each function; element-wise from the bit-level contracts of M4RI. | PropMzed.v: `C15_init`, `C15_add`, `C15_copy`, `C15_set_ui`, `C15_concat`, `C15_stack`, `C15_submatrix`, `C15_row_col_swap`, `C15_row_copy_add` |
| C16 mzed_cmp is zero exactly on equal matrices and mzed_is_zero exactly on the zero matrix | proved | comparison of words with the padding masked; equality of elements. | PropMzed.v: `C16_cmp_is_zero`, `C16_first_zero_row` |
| C17 mzed_randomize stays inside the field | proved | element writes of an arbitrary random source; element-wise. | PropMzed.v, PropSlice2.v: `C17_randomize`, `C17_slice_randomize` |
| C18 mzed_mul_scalar is elementwise scalar multiplication on both code paths | proved | both code paths and the int arithmetic of the size test; table path from C10. Proved wherever the property is true; the cases left out are proved to be undefined behaviour. | PropMzed.v: `C18_mul_scalar`, `C18_mul_scalar_refuted`, `C18_refuted_reachable`, `C18_overflow_refuted`, `C18_overflow_reachable`, `C18_no_columns_refuted` |
| C19 mzed_mul_naive computes the matrix product | proved | triple loop, invariant: partial sums. | PropMzed.v: `C19_mul_naive` |
| C20 mzed_make_table tabulates all multiples of a row | proved | mzed_make_table including the Gray-code order of M4RI (any code book that enumerates the field); induction over the table rows. | PropNj.v: `C20_make_table` |
| C21 A reused Newton-John table leaks stale words | proved | the same function on an arbitrary old table; frame of the words cleared by the switch. | PropNj.v: `C21_reused_table_right_part`, `C21_stale_refuted` |
| C22 mzed_mul_newton_john computes the matrix product | proved | block loops and remainder; invariant over column blocks, any block size and cache size. | PropNj.v: `C22_mul_newton_john`, `C22_mul_newton_john0`, `C22_no_columns_refuted` |
| C23 mzed_mul_strassen computes the matrix product | proved | Bodrato's sequence with windows on shared memory; induction on the recursion depth, block-matrix identities in characteristic 2; fuel proved sufficient. | PropStrassen.v: `C23_mul_strassen`, `C23_strassen_kernels`, `C23_small_cutoff_refuted` |
| C24 mzed_mul and mzed_addmul dispatch correctly | proved | dispatcher over Strassen and Karatsuba kernels; from C23, C37. | PropMul.v: `C24_mul`, `C24_addmul`, `C24_mismatch_dies` |
| C25 _mzed_mul overwrites its target | proved | as C24, with arbitrary old contents. The property as stated is false from 512 on: proved that the kernel accumulates there, and that it overwrites below. | PropMul.v: `C25_mul_kernel_small`, `C25_mul_kernel_big_accumulates`, `C25_mul_kernel_refuted` |
| C26 mzed_echelonize_naive yields a (reduced) row echelon form | proved | pivot search, row operations; invariant: row equivalence (explicit invertible transformation) and echelon shape of the processed part; rank from the echelon form. | PropNj.v: `C26_echelonize_naive` |
| C27 mzed_echelonize_newton_john yields the same echelon form | proved | six tables and the block of pivots; invariant as C26 plus "table T_k holds multiples of pivot row k"; any table parameter from M4RI; uniqueness of the reduced form gives agreement with C26. | PropNj.v: `C27_echelonize_newton_john`, `C27_agrees_with_naive` |
| C28 mzed_invert_newton_john inverts or dies | proved | [A|1] is reduced; from C27. | PropNj.v: `C28_invert` |
| C29 Triangular solving, naive | proved | substitution loops; uniqueness of the solution. | PropTrsm.v: `C29_trsm_naive` |
| C30 Triangular solving, Newton-John and recursive variants | proved | table-driven and recursive solvers; induction on the size, windows on word boundaries; any cutoff >= 64. | PropTrsm.v: `C30_trsm_lower`, `C30_trsm_upper`, `C30_slice_trsm_lower`, `C30_slice_trsm_upper` |
| C31 Recursive triangular solve with a small cutoff stays in bounds | proved | the split point exceeds the matrix: characterisation of the failing calls. The property as stated is false: for every cutoff below 64 the failing calls are characterised and proved to leave the operands. | PropTrsm.v: `C31_small_cutoff_refuted` |
| C32 mzed_ple_naive is a PLE decomposition | proved | main loop with pivot search; invariant: the processed part is L and E of the permuted input. | PropPle.v: `C32_ple_naive` |
| C33 mzed_ple_newton_john equals mzed_ple_naive | proved | same loop with tables; step-by-step equality with C32. | PropPle.v: `C33_ple_newton_john`, `C33_ple_newton_john_decomposes` |
| C34 Recursive mzd_slice PLE and PLUQ | proved | recursive PLE on slices with permutation windows, compression of L, echelon form with 64-column copies; induction, gluing lemma for two decompositions; int and size_t arithmetic of the size tests. | PropEch.v: `C34_slice_ple`, `C34_slice_pluq`, `C34_slice_wrappers`, `C34_slice_echelonize_ple`, `C34_mzed_ple`, `C34_mzed_echelonize_ple`, `C34_mzed_echelonize`, `C34_overflow_refuted`, `C34_mzed_echelonize_independent` |
| C35 mzed_slice and mzed_cling are elementwise and inverse | proved | unrolled word expressions extracted to data (gen/gen_conv.py), evaluated symbolically bit by bit (reflection), then loops over words and rows. | PropSlice.v: `C35_slice`, `C35_slice_frame`, `C35_cling`, `C35_roundtrip_packed`, `C35_roundtrip_sliced` |
| C36 mzd_slice element operations | proved | each function of mzd_slice.h; element-wise. | PropSlice.v: `C36_elements`, `C36_set_ui_copy_add`, `C36_is_zero_cmp`, `C36_rows_columns`, `C36_copy_row`, `C36_concat_stack_submatrix`, `C36_window` |
| C37 Karatsuba slice multiplication | proved | unrolled Karatsuba formulas extracted to data (gen/gen_karatsuba.py); the bilinear identity is checked by vm_compute on the coefficient table and lifted to matrices by bilinearity. | PropSlice.v: `C37_addmul_karatsuba`, `C37_mul`, `C37_addmul`, `C37_packed_mul`, `C37_packed_addmul` |
| C38 Naive slice multiplication | proved | double loop with reduction; bilinearity. | PropSlice.v: `C38_addmul_naive` |
| C39 mzd_slice scalar operations | proved | reduction of shifted slices; aliasing modelled explicitly. Correct for distinct operands; the aliased call returns zero and that is what is proved. | PropSlice.v: `C39_scalar`, `C39_mul_scalar_alias_refuted` |
| C40 mzd_slice_rescale_row rescales row r | proved | window of one row and conversions. True for row 0; for every other row the call is proved to access memory out of bounds. | PropSlice.v: `C40_rescale_row`, `C40_rescale_row_refuted` |
| C41 Matrix polynomial multiplication | proved | double loop and Karatsuba tables over plain polynomials. the bits outside the result matrix are kept if those of B are zero (naive; depth 1) or always (balanced, depth >= 2): M4RI's mzd_addmul is not canary safe | PropPoly.v: `C41_addmul_naive`, `C41_addmul_balanced`, `C41_balanced_unsupported`, `C41_algorithm_independent` |
| C42 Bilinear maps from CRT compute polynomial products | proved | crt rows, small multiplication maps, evaluation at infinity, the search for independent rows (loop with fuel; non-termination proved as an invariant), solving for H; correctness from CRT and linear algebra over GF(2). Total correctness of every returned map; termination proved for the default scheme and decided for all schemes of crt_init up to 16 coefficients. | PropBlm.v: `C42_init_crt_correct`, `C42_init_crt_one_modulus`, `C42_init_crt_ends`, `C42_init_crt_hangs`, `C42_init_crt_total_refuted` |
| C43 crt_init chooses enough interpolation points | proved | the search loop of crt_init; invariants of the scheme, counterexamples evaluated. The documented degree bound is refuted; proved what holds instead. | PropBlm.v: `C43_crt_init`, `C43_crt_init_refuted`, `C43_crt_infinity_refuted` |
| C44 _mzd_poly_addmul_crt | proved | composition of crt_init, blm_init_crt, application; decided for all depths up to 16 by verified evaluation of crt_init and the span criterion. The property as documented is false: proved what the function computes and when it hangs. | PropBlm.v: `C44_poly_crt`, `C44_poly_crt_hangs`, `C44_poly_crt_null_refuted`, `C44_poly_crt_total_refuted`, `C44_poly_crt_product_refuted`, `C44_poly_crt_bounds_refuted` |
| C45 Permutation application | proved | transposition sequences; involution. | PropPle.v: `C45_mzed_apply`, `C45_slice_apply`, `C45_mzed_inverse`, `C45_slice_inverse` |
| C46 Straight-line program application (djb) computes the linear map | proved | straight-line programs of M4RI (djb) as data; invariant of the interpreter. djb_compile itself is M4RI code: its result is any program that computes the matrix. | PropDjb.v: `C46_apply`, `C46_apply_fresh`, `C46_any_program`, `naive_compile_computes` |
| C47 Dimension mismatches are rejected | proved | the checks of every function, before any write; case analysis. Fields are compared by minimal polynomial (pointers in C). Field checks of concat and stack are refuted. | PropGuard.v: `C47_mzed_add`, `C47_mzed_mul_naive`, `C47_mzed_mul_newton_john`, `C47_mzed_mul_strassen`, `C47_mzed_mul`, `C47_mzed_mul_karatsuba`, `C47_mzed_mul_blm`, `C47_mzed_copy`, `C47_mzed_concat`, `C47_mzed_stack`, `C47_mzed_submatrix`, `C47_slice_add`, `C47_slice_mul`, `C47_slice_mul_blm`, `C47_slice_concat`, `C47_slice_stack`, `C47_slice_submatrix`, `C47_mzed_trsm`, `C47_slice_trsm`, `C47_mzed_invert`, `C47_concat_fields_refuted`, `C47_stack_fields_refuted` |
| C48 mzed_mul with an aliased target | proved | AliasStrassenModel.v: operands are windows of objects of a store, read when the C code reads them; AliasStrassen.v: induction over the recursion: a product into a zero object with a zero factor leaves the store as it is (words and padding), through every overlapping window of the schedule. The property that a user may expect is false: proved that every aliased call returns zero, including the recursive Strassen case, whose windows of the target and of the factor overlap. C48_mul_alias_refuted is the earlier statement, about a model without a store. | PropAlias2.v, PropMul.v: `C48_mul_at_refuted`, `C48_mul_strassen_at_refuted`, `C48_mul_newton_john_at_refuted`, `C48_mul_alias_refuted` |
| C49 Sum of matrix polynomials | proved | coefficient loop; element-wise. The property as documented is false: proved what the function computes instead. | PropPoly.v: `C49_add`, `C49_add_depths`, `C49_documented_sum_refuted` |
| C50 Changing the number of coefficients of a matrix polynomial | proved | reallocation loop with the allocated capacity as part of the state. Proved up to the allocated depth; false beyond (refuted). | PropPoly.v: `C50_adapt_depth`, `C50_adapt_depth_overflows`, `C50_adapt_depth_refuted` |
| C51 Comparison and random filling of matrix polynomials | proved | coefficient loops; comparison contract of M4RI. | PropPoly.v: `C51_cmp`, `C51_cmp_no_order_refuted`, `C51_randomize` |
| C52 Products through bilinear maps | proved | composition of C42 and C46 with reduction modulo the minimal polynomial. The kernel clause is false for uncompiled maps: refuted for all inputs. The M4RI routines mzd_ple, mzd_inv_m4ri, djb_compile enter through contracts; x0_ok shows they can be met. | PropBlm.v, PropBlm2.v: `C52_slice_mul`, `C52_slice_addmul`, `C52_mzed_mul`, `C52_mzed_addmul`, `C52_mul_kernel`, `C52_mul_kernel_refuted`, `C52_uncompiled_reachable`, `x0_ok` |
| C53 Products of matrix polynomials through a given bilinear map | proved | application of maps given as matrices or as programs. Holds for maps stored as matrices, refuted for compiled ones. | PropBlm.v: `C53_poly_blm`, `C53_poly_blm_matrices`, `C53_poly_blm_refuted` |
| C54 Products of matrix polynomials by evaluation in an extension field | proved | evaluation, Vandermonde matrix, inversion (C28) and interpolation. Holds for 3 and more coefficients with a given C; the other cases are proved to fail. | PropExt1.v: `C54_addmul_ext1`, `C54_one_coefficient`, `C54_two_coefficients`, `C54_null_result`, `C54_total_refuted` |
| C55 Constructors and destructors are inverse | proved | constructors and destructors transcribed statement by statement (MemLib.v) into a language with an explicit heap (MemLang.v); a symbolic checker for contracts (MemCheck.v) is proved sound by induction on executions (MemSound.v .. MemChecked.v: chunks of separated objects, loop invariants, arrays), and evaluated. Allocation structure transcribed into a small language (gen/gen_mem.py); conditions on data are forgotten, so the theorems cover every path. | PropMem.v: `C55_restored`, `C55_window_parent` |
| C56 Memory discipline of the library | proved | as C55, 120 functions generated from the C text by gen/gen_mem.py; the contracts of all of them together justify recursive calls (induction on executions). The table of functions and their contracts is MemSpec.v. The lifetime of fields is not tracked (matrices keep a pointer to theirs). | PropMem.v: `C56_no_misuse`, `C56_void`, `C56_in_place`, `C56_new`, `C56_release` |
| C57 Bilinear maps are released completely | proved | executions computed by an interpreter proved sound (MemRun.v); the failing release for all executions by inversion. The property is false of the code; refuted. | PropMem.v: `C57_modred_leak_refuted`, `C57_blm_leak_refuted`, `C57_slice_mul_leak_refuted`, `C57_uncompiled_refuted`, `C57_poly_crt_refuted`, `C57_poly_crt_leak_refuted` |
| C58 Client programs: representation and algorithm choices are invisible | proved | HistSpec.v: commands, their mathematical meaning on tables of field elements, contracts (no reference to the model); HistModel.v: the dispatch to the modelled functions; HistProofs.v: one refinement lemma per command from the theorems C11 .. C52, induction over the program. One field per client; the target of a call is not one of its operands; the size side conditions found in C18, C23, C34 are part of the contracts (HistSpec.allowed). | PropHist.v: `C58_history`, `C58_step`, `C58_choices_invisible`, `C58_configs_exist`, `C58_legal1`, `C58_legal2` |
| C59 Printing | proved | PrintSpec.v: the text, character by character; PrintModel.v: the two functions over a text that grows; induction over rows and columns, and unique parsing for the injectivity (PrintProofs.v). printf and sprintf are modelled for the formats used (literal text, %<width>x). | PropPrint.v: `C59_print`, `C59_slice_print`, `C59_text_tells`, `C59_print_injective`, `C59_same_text` |
| C60 Windows in client programs | proved | WinSpec.v: windows as rectangles of the tables of HistSpec.v; WinModel.v: windows of the modelled matrices copied out before and back after a call, padding included; frame lemmas (FrameProofs.v: no bit outside the columns of the target changes) for every algorithm, then the refinement of C58 (WinProofs.v). The target of a call shares no memory with its other operands. Windows are operands of all calls, and targets of all calls except concat, stack, submatrix and inversion (M4RI copies whole words there). Windows are copied out and back by whole words, so damage behind the last column of a window is visible in the model. | PropWin.v: `C60_history`, `C60_step`, `C60_nothing_else_changes`, `C60_choices_invisible`, `C60_window_of_window`, `C60_legal` |
| C61 Linear systems: factorisations, permutations and triangular solvers fit together | proved | SolveModel.v: the calls of the two clients; SolveMath.v: why L*(U*X) with permuted rows is A*X, that a system has a solution iff the rows below the rank leave no residual; then composition of the theorems C30, C34, C37, C45. The two clients (slice_solve, mzed_solve in SolveModel.v) are sequences of library calls after the pattern of M4RI's mzd_solve_left. | PropSolve.v: `C61_solve`, `C61_solve_square` |
| C62 The same matrix passed twice | proved | AliasModel.v: the functions over a store, every read goes through the store at the point where the C code reads; AliasRows.v, AliasProofs.v, AliasSlice.v: the pointer version gives what the value version gives, word by word and lane by lane where source and target are the same row; for the refuted cases invariants of the loops (the target stays zero) and computed counterexamples. AliasStrassen2.v, AliasStrassen3.v: Newton-John on windows through a store runs side by side with the value version (a write into the target does not change what the other views read, and reading a written window gives what was written, literally); Strassen by induction on the recursion with the content of the target window, of the temporary matrices and of all other objects as state, so that the two factors may overlap in any way; AliasAddmulModel.v, AliasAddmul.v: the same for the routine that adds the product to its target, whose base case works in a copy, so that there the target may be a factor. Objects coincide or are disjoint; windows of one matrix that overlap are covered as the factors of a product (the theorems C62_..._windows), not as target and operand. M4RI's mzd_add is trusted to accept a target that is an operand. | PropAlias.v, PropAlias3.v, PropAlias4.v: `C62_add_multiple_of_row`, `C62_add_row`, `C62_add`, `C62_copy`, `C62_mul_scalar`, `C62_invert`, `C62_mul_naive`, `C62_mul_naive_alias_refuted`, `C62_addmul_naive_alias_refuted`, `C62_slice_add`, `C62_slice_mul`, `C62_slice_mul_alias_refuted`, `C62_slice_addmul_alias_refuted`, `C62_mul_at`, `C62_mul_strassen_at`, `C62_mul_newton_john_at`, `C62_strassen_windows`, `C62_newton_john_windows`, `C62_addmul_at`, `C62_addmul_strassen_at`, `C62_addmul_newton_john_at`, `C62_addmul_strassen_windows`, `C62_addmul_strassen_small_into_factor`, `C62_addmul_into_factor`, `C62_addmul_strassen_into_factor_refuted` |
| C63 Threads | proved | ThreadModel.v: threads with their own names for shared matrices, calls that begin, look, disturb their target and end, any interleaving; ThreadProofs.v: a call depends on its operands and changes its target only (all calls of C58), an invariant of all reachable worlds (each thread is where it would be alone), induction over the schedule; then C58. Not in the model: single loads and stores (a call looks at each operand as a whole, at any moment, and its target holds anything until it ends), weak memory, and the allocator of M4RI with its cache, which the threads of a real program share and which is trusted to be thread safe. | PropThread.v: `C63_no_failure`, `C63_no_deadlock`, `C63_schedule_invisible`, `C63_untouched`, `C63_threads`, `C63_race_refuted` |
| C64 Sizes and positions in type int | proved | IntModel.v: the same functions with int operations that are undefined outside of -2^31 .. 2^31-1; PropInt.v: equality with the functions of MzedModel.v, NjModel.v under the bounds, then C27, C28; overflow shown for all sizes above the bounds. The functions with int arithmetic are in IntModel.v. m4ri_opt_k is only assumed to return at least 1; the cache size is arbitrary. The positions in the bodies of the other functions come from these accessors and windows. Not claimed: the int arithmetic inside M4RI, and in the Newton-John tables. | PropInt.v: `C64_init`, `C64_init_refuted`, `C64_init_smallest`, `C64_read_elem`, `C64_add_elem`, `C64_write_elem`, `C64_col_swap`, `C64_col_swap_in_rows`, `C64_window`, `C64_submatrix`, `C64_concat`, `C64_concat_refuted`, `C64_stack`, `C64_echelonize`, `C64_echelonize_refuted`, `C64_echelonize_smallest`, `C64_invert` |
| C65 Number of base multiplications | proved | CostModel.v: the functions again in a monad that logs every product of smaller matrices with its size; CostProofs.v: erasing the log gives the plain function (by structure), the logs have the stated length and entries (a Hoare-style logic on logs; induction on j for Strassen); success from C23, C37, C38, C41, C52. CostModel.v has the same functions with a log of the products; CostProofs.v proves that without the log they are the functions of the other files (erase_...). The products inside of blm_init_crt, which depend on the degree only, are not logged. Sizes that are not 2^j times a multiple of the word: C67. | PropCost.v: `C65_slice_mul`, `C65_slice_addmul`, `C65_packed_mul`, `C65_slice_naive`, `C65_poly_naive`, `C65_poly_balanced`, `C65_blm_rows`, `C65_slice_mul_blm`, `C65_strassen` |
| C66 Field multiplications of the Newton-John algorithms | proved | CostNjModel.v: the functions of NjModel.v with a log of the rows multiplied by a field element; CostNjProofs.v: erasing gives NjModel.v, exact logs of products; CostNjWorst.v: a family of matrices with zero columns in between, invariant over the stages, lower bound n^3/64; CostNjGeneric.v: the rows below the pivots are the given rows plus a combination of the rows above, so an invertible leading block gives a pivot in the first row tried; upper bound by induction over columns and blocks. Proved for products and for matrices with invertible leading blocks; the general claim of README.md:11 is false (C66_quadratic_refuted): in a block of several columns every row below the last pivot is reduced with multiplications until a pivot is found, and this work is repeated for every block when the columns have no pivot. | PropNjCost.v: `C66_mul`, `C66_mul_quadratic`, `C66_quadratic_generic`, `C66_invert_generic`, `C66_quadratic_refuted` |
| C67 Cost of Strassen's multiplication for all sizes | proved | CostStrassen.v: invariant mults + 8 p c^2 4^j <= 7^j (8 c^3 + 8 p c^2) on the logs of C65, induction on j; a product is small if one dimension is at most 2c, the borders are thinner than 2 p = 128/w. The logged versions are those of C65; the additions of matrices are not counted. | PropVolume.v: `C67_strassen_volume` |
| C68 Clients that react to answers | proved | HistSpec.v: clients as trees that branch on answers, their courses; HistModel.v: serve; HistProofs.v: the refinement lemma of C58 for every command (now with Ple, Pluq, PermRows, PermCols, Randomize, FirstZeroRow), induction over the tree. Clients are well-founded trees (every execution is finite). Permutations given to the decompositions come from mzp_init; mzed_ple_naive etc. accept any contents (C32). The random source is a function given with the call. | PropClient.v: `C68_clients`, `C68_choices_invisible`, `demo_client_careful`, `rank_client_careful`, `rank_client_determined`, `rank_client_alike` |
| C69 Triangular solving reduces to matrix products | proved | CostTrsm.v: the solvers of TrsmModel.v with a log of base cases and products, erased to the originals; inductive predicate plan on logs; induction on the plan for each clause. Bit-sliced matrices: degrees C30 covers. Systems with few right hand sides (n <= cutoff) are solved by Newton-John tables without recursion, which the theorem states too. | PropTrsmCost.v: `C69_trsm`, `C69_slice_trsm`, `C69_default`, `erase_trsm_lower`, `erase_trsm_upper`, `erase_strsm_lower`, `erase_strsm_upper` |
| C70 PLE decomposition and echelon forms reduce to matrix products | proved | CostPle.v: _mzd_slice_ple and the echelon forms with a log of base cases, systems and products, erased to the originals; inductive predicate pplan on logs (ranks bounded by the lengths of the permutations); induction on the plan for each clause. The cost of permuting rows and columns is not counted. The bound for products is a hypothesis on the cost function (strassen_like), met by Strassen-like costs; C67 proves such a bound for mzed_mul_strassen. | PropPleCost.v: `C70_slice_ple`, `C70_ple`, `C70_slice_echelonize_ple`, `C70_echelonize_ple`, `erase_ple`, `erase_mzed_ple`, `erase_slice_echelonize`, `erase_mzed_echelonize` |
| C71 The laws of matrix algebra hold for what the calls return | proved | PropLaws.v: from the entrywise theorems of the operations and C16, with the algebra of MatFacts.v and EchFacts.v (an independent family in the span of s vectors has at most s members). Products with at least one column (C22_no_columns_refuted); scalar multiples of matrices with fewer than 2^17 elements (C18 shows what happens beyond); l2 >= 4096, as in C24. | PropLaws.v: `C71_addition`, `C71_mul_assoc`, `C71_distributive`, `C71_identity`, `C71_scalar`, `C71_scalar_mul`, `C71_inverse`, `C71_inverse_exists`, `C71_inverse_mul`, `C71_rank_le`, `C71_rank_add`, `C71_rank_mul`, `C71_echelon_idempotent`, `C71_echelon_invariant` |
| C72 The PLE decomposition does not depend on the algorithm | proved | PleSame.v: induction over the pivots, comparing the tails of the products L*E row by row, shows that a decomposition with first pivots (PleSpec.first_pivots) is unique; PleProofs.v (loop invariant fp_inv), PleComb.v and PleRec.v show that every algorithm takes first pivots. C72_tail_of_Q_refuted: the entries of Q from the rank on depend on the algorithm. | PropPleSame.v: `C72_same_decomposition`, `C72_slice`, `C72_unique`, `C72_tail_of_Q_refuted` |
| C73 The library's own test programs pass on every input and see every wrong matrix, but not wrong ranks | proved | TestModel.v: the tests as programs over the model of C58 (arbitrary functions for random()); TestCanary.v: the masks, lane by lane; TestProofs.v, TestTrsm.v, TestPle.v (with C72 and the uniqueness of the rank), TestSliceModel.v, TestSlice.v, TestSmall.v, TestSTrsm.v, TestSPle.v (bit-sliced matrices): the checks from the theorems about the operations, including their frame on the padding; C73_rank_check_refuted from the exact meaning of the macro. Matrices with at least one column: the canary functions read word -1 otherwise. The tests of the solvers draw until a diagonal entry is not 0: the hypothesis says that random() gives one some time. test_scalar only passes for the sizes for which mzed_mul_scalar works (C18); C73_test_scalar_refuted says what happens for the others. | PropTest.v, PropTest2.v, PropTest3.v: `C73_test_equality`, `C73_test_ple`, `C73_random_rank`, `C73_test_mul`, `C73_test_addmul`, `C73_test_trsm`, `C73_canary`, `C73_check_cmp`, `C73_detects`, `C73_check_rank`, `C73_rank_check_refuted`, `C73_test_gf2e`, `C73_test_slice`, `C73_test_slice_known_answers`, `C73_test_add`, `C73_test_scalar`, `C73_test_scalar_refuted`, `C73_test_slice_trsm`, `C73_test_slice_ple`, `C73_slice_canary`, `C73_slice_clear_canary` |

## Trusted base

* Coq 8.16.1's kernel, with `vm_compute` (used for finite tables and witnesses).
* **Print Assumptions**: every theorem listed in MANIFEST.json prints "Closed under the global context": no axiom is used.
  (A checker that lists the axioms of every *loaded* library also shows the seven `Coq.ssr.ssrunder.Under_rel.*` declarations of the
  standard library; no theorem depends on them.)
* No axioms, no Admitted, no section-less variables, no functors or module types, no disabled checks, standard library only.
* The faithfulness of the transcription from C, in particular:
  * the executable contracts of M4RI (below);
  * the scripts in `gen/`, which extract the literal tables.  `gen/check_unrolled.py` additionally checks that the
    unrolled C code of `mzed_add_multiple_of_row` and `mzed_rescale_row` has the regular shape that the model writes as loops;
  * the specifications.

### M4RI

M4RI is a separate library and not in /repo.  What m4rie calls is modelled by

* executable contracts, exact on all bits including padding: `MzdModel.v` (init, set_ui, add, copy, row and column swaps,
  row_add, concat, stack, submatrix, is_zero, cmp, windows), head of `SliceModel.v` (mul, addmul, read/write_bit, compress_l,
  randomize, cmp), `PermModel.v` (apply_p_*), `PleModel.mzd_clear_bits`, `NjModel` (Gray codes, row combination), `BlmModel`
  (transpose), `DjbModel` (straight-line programs);
* The contracts of `mzd_mul` and `mzd_addmul` do not promise that the bits outside the result matrix (padding, or other windows of the same
  memory) survive: /repo/tests/test_trsm.c:255-257 says `mzd_addmul` is not "canary safe".  The model adds the products of the padding of B
  into the padding of C, and the proofs use only `MzdFacts.mul_ok`, `addmul_ok` (entries of the result) and `mul_clean`, `addmul_clean` (padding of C
  unchanged if the padding of B is zero).  The frame statements of this development (e.g. C16, C60) rest on the library multiplying only
  freshly initialised right factors into user memory, or adding a fresh product with `mzd_add`.
* universally quantified parameters where M4RI's result depends on the machine or is not determined: the cache sizes and
  block sizes (`l2`, `mulbs`), the table parameter of `m4ri_opt_k` (`k0`), the random source, and (`BlmModel.m4ri`) the results of
  `mzd_ple`, `mzd_inv_m4ri`, `djb_compile`, constrained only by their contracts (`BlmSpec.m4ri_ok`).  `BlmOracle.x0_ok` exhibits an
  implementation that meets the contracts, so they are consistent.
* `mzd` windows start at a multiple of 64 columns, as M4RI requires (`UB` otherwise).
* The contracts are assumed for matrices without columns too, except where a theorem says so (C18, C22, C23).  M4RI itself is less robust there: some of its
  permutation routines (`mzd_apply_p_right`, `mzd_apply_p_right_trans_tri`) divide by the number of words of a row, so decompositions of matrices without
  columns depend on the M4RI version.
* `_mzd_compress_l` (M4RI) is specified only for the matrices PLE calls it on (`SliceModel.compress_pre`: the rows from r1+r2 on are zero in the columns
  from n1+r2 on; anything else is `UB`); the theorems show that the calls meet this.
* `abs` in the macro CLOSER (strassen.c) is applied to an int; the model computes the distance exactly, which differs only if a cutoff is near the ends of
  the range of int.

### Simplifications

* **Types.**  Dimensions are `nat`.  `rci_t`/`int` overflow is modelled in the size tests of `mzed_mul_scalar` and
  `mzed_echelonize` (C18, C34) and `size_t` wrap-around in the PLE size tests; C64 (`IntModel.v`) models the accessors and constructors again with
  int arithmetic and proves the models equal for rows of less than 2^31 bits; elsewhere dimensions, and `w*ncols`, are assumed to fit into an int.
* **Fields.**  `finite_field` pointers are compared in C by address; the model compares minimal polynomials, so two handles for the same polynomial
  count as the same field.
* **Memory.**  There is no heap except in the properties on allocation: objects are values, and distinct arguments are distinct objects.
  Aliasing is modelled where a property is about it (C12, C39, and C48, C62 with models of their own, `Alias*.v`, where operands are read
  through a store; `mzd_add` and `_mzed_add` allow it by contract).
  Allocation never fails (M4RI's allocators die).
* **Lifetimes** (C55-C57, `Mem*.v`) are a second, separate model: `gen/gen_mem.py` transcribes the C functions into a language of pointer variables,
  allocations, releases, uses and calls (`MemLib.v`, a few functions by hand, marked so).  Conditions on data are forgotten (both branches, any number of
  rounds), which only adds executions; tests for NULL, pointer comparisons and 0/1 flags are kept.  M4RI functions are primitives: they use their
  arguments, and make or release one object.  Functions that only read or write elements (no pointer of theirs is stored, allocated or released) are
  transcribed as uses of their arguments.  A field must outlive the matrices over it: not tracked.  `_mzd_poly_adapt_depth` (changes the
  number of entries of a structure in place; see C50) is not in the table.  `m4ri_mm_free`, `_mm_free` and `free` are not distinguished, nor
  is `mzd_free_window` from `mzd_free` (a macro in M4RI).  Stack arrays of structures are variables or arrays of the language.
* **Clients** (C58, `Hist*.v`): `HistModel.v` is not code of the library but the dispatch a C client writes, from numbered matrices to calls;
  matrices are values, so a call changes its target only.
* **Windows** (C60, `Win*.v`): a window is copied out (whole words) before a call and copied back after it; that is what sharing does as long as the target of the call
  shares no memory with its other operands, and a call where it does is `UB` in this model.
* **Asserts** are taken as enabled: a failed assert is `UB`.  `configure` defines NDEBUG unless `--enable-debug` is given, and then
  mzed.c, newton_john.c and strassen.c (which include config.h) run on instead.  Theorems that end in `Ok` do not depend on this: they show that the
  asserts hold.  The refutations that rest on a failed assert are C18_no_columns_refuted, C22_no_columns_refuted and
  C23_small_cutoff_refuted (without the assert, M4RI matrices without columns have no rows to point to) and the assert-based
  rejections of C47 (solvers, inversion), which vanish in such builds.
* **Floating point**: `(int)sqrt`, `ceil(log2 d)`, `ceil(a/(double)b)` are modelled by their integer meaning, exact in the ranges used.
* **Unrolled code** with a regular shape is modelled as a loop; switch fall-through is modelled as the list of executed cases.

### Not modelled

`_mzd_combine4`-style helpers that nothing calls; `_mzd_slice_adapt_depth` (nothing calls it), the configuration, the benchmarks, and of the tests the drivers
(`main`, `test_batch`: C73 models the test functions) and `mzed_interval_clean`; wall-clock time (C66-C71 count operations), memory use.

## What the model refuted

The following documented or natural expectations are false of this commit, each proved for the stated class of inputs:

* C10, C18: `gf2e_t16_init`, and with it `mzed_mul_scalar` on matrices of 2^17 or more elements, reads the multiplication table out of bounds for
  fields of degree 3, 5, 6, 7.
* C18, C34: `mzed_mul_scalar` (degree up to 8, 2^31 or more elements) and `mzed_echelonize` (2^31 or more bits, e.g. 32768 x 32768 over GF(4)) overflow
  an int in their size tests.
* C18, C22, C23: operands without columns, and cutoffs so small that Strassen's recursion produces blocks without columns, trip an assertion.
* C21: `mzed_make_table` on a reused table keeps stale words (the switch repeats `ti-2`).
* C25: `_mzed_mul` adds to C instead of overwriting it from dimension 512 on.
* C31: the recursive triangular solvers leave their operands for cutoffs below 64.
* C39, C48, C62: `mzd_slice_mul_scalar(B, a, B)` and `mzed_mul(A, A, B)` return zero for all arguments, and so do the other products with an
  aliased target; of the accumulating ones `mzed_addmul_naive`,
  `mzd_slice_addmul` and `mzed_addmul_strassen` (where it cuts the matrices up) do not give C + A*B then.
* C40: `mzd_slice_rescale_row` accesses memory out of bounds for every row but the first.
* C42, C43, C44: `crt_init(1, n)` returns the empty scheme; more points at infinity than coefficients; `blm_init_crt` does not terminate for some
  schemes, reads out of bounds if B has fewer coefficients than A; `_mzd_poly_addmul_crt` returns NULL for NULL and overwrites C.
* C47: concat and stack accept matrices over different fields.
* C49: `mzd_poly_add` assigns although its documentation says it adds to C.
* C50: `_mzd_poly_adapt_depth` beyond the allocated depth writes out of bounds.
* C51: `mzd_slice_cmp`/`mzd_poly_cmp` signs are no order.
* C53: `_mzd_poly_addmul_blm` with compiled maps overwrites C.
* C57: `_crt_modred_mat` and `_blm_finish_polymult` leak matrices, hence `blm_init_crt` and the products that call it; `blm_free` on a map made with djb = 0
  dereferences NULL; `_mzd_poly_addmul_crt(NULL, ..)` also leaks the result.
* C64: `mzed_init` overflows an int for rows of 2^31 or more bits, `mzed_echelonize_newton_john` for 2796203 or more columns (any field, M4RI's table
  parameter at least 7).
* C63: a call that reads a matrix while another thread writes it may see either value (the calls take no locks).
* C66: Newton-John elimination does not use O(n^2) field multiplications (README.md:11): a family of n x n matrices needs more than K*n^2 for every K.
* C72: the entries of the permutation Q from the rank on differ between the PLE algorithms.
* C73: `m4rie_check( r0 == r1 )` of the test suite compares `!r0` with r1, so an elimination with wrong ranks passes every test; `test_scalar` reads out
  of bounds beyond the sizes the suite uses.
* C54: `_mzd_poly_addmul_ext1` fails for products of fewer than 3 coefficients and for C = NULL.

## Seeded bugs

`seeded/LOG.jsonl` records the realistic bugs that were put into a scratch copy of the model (one edited definition at a time), the claim each
breaks, and the theorems that stopped proving.
