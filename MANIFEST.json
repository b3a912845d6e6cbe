{
 "claims": [
  {
   "property": "C01",
   "status": "proved",
   "theorems": [
    "C01_gf2x_mul"
   ],
   "note": ""
  },
  {
   "property": "C02",
   "status": "proved",
   "theorems": [
    "C02_gf2x_deg"
   ],
   "note": ""
  },
  {
   "property": "C03",
   "status": "proved",
   "theorems": [
    "C03_gf2x_divmod"
   ],
   "note": ""
  },
  {
   "property": "C04",
   "status": "proved",
   "theorems": [
    "C04_gf2x_invmod"
   ],
   "note": ""
  },
  {
   "property": "C05",
   "status": "proved",
   "theorems": [
    "C05_gf2e_init_tables"
   ],
   "note": ""
  },
  {
   "property": "C06",
   "status": "proved",
   "theorems": [
    "C06_ff_mul"
   ],
   "note": ""
  },
  {
   "property": "C07",
   "status": "proved",
   "theorems": [
    "C07_field_laws",
    "C07_reducible_not_field"
   ],
   "note": ""
  },
  {
   "property": "C08",
   "status": "proved",
   "theorems": [
    "C08_irreducible_table"
   ],
   "note": ""
  },
  {
   "property": "C09",
   "status": "proved",
   "theorems": [
    "C09_degree_to_w"
   ],
   "note": ""
  },
  {
   "property": "C10",
   "status": "proved",
   "theorems": [
    "C10_t16_init",
    "C10_t16_init_refuted"
   ],
   "note": "Proved for degrees 2, 4, 8; refuted (out-of-bounds read of the multiplication table) for degrees 3, 5, 6, 7."
  },
  {
   "property": "C11",
   "status": "proved",
   "theorems": [
    "C11_element_access"
   ],
   "note": ""
  },
  {
   "property": "C12",
   "status": "proved",
   "theorems": [
    "C12_add_multiple_of_row"
   ],
   "note": ""
  },
  {
   "property": "C13",
   "status": "proved",
   "theorems": [
    "C13_add_row"
   ],
   "note": ""
  },
  {
   "property": "C14",
   "status": "proved",
   "theorems": [
    "C14_rescale_row"
   ],
   "note": ""
  },
  {
   "property": "C15",
   "status": "proved",
   "theorems": [
    "C15_init",
    "C15_add",
    "C15_copy",
    "C15_set_ui",
    "C15_concat",
    "C15_stack",
    "C15_submatrix",
    "C15_row_col_swap",
    "C15_row_copy_add"
   ],
   "note": ""
  },
  {
   "property": "C16",
   "status": "proved",
   "theorems": [
    "C16_cmp_is_zero",
    "C16_first_zero_row"
   ],
   "note": ""
  },
  {
   "property": "C17",
   "status": "proved",
   "theorems": [
    "C17_randomize",
    "C17_slice_randomize"
   ],
   "note": ""
  },
  {
   "property": "C18",
   "status": "proved",
   "theorems": [
    "C18_mul_scalar",
    "C18_mul_scalar_refuted",
    "C18_refuted_reachable",
    "C18_overflow_refuted",
    "C18_overflow_reachable",
    "C18_no_columns_refuted"
   ],
   "note": "Proved wherever the property is true; the cases left out are proved to be undefined behaviour."
  },
  {
   "property": "C19",
   "status": "proved",
   "theorems": [
    "C19_mul_naive"
   ],
   "note": ""
  },
  {
   "property": "C20",
   "status": "proved",
   "theorems": [
    "C20_make_table"
   ],
   "note": ""
  },
  {
   "property": "C21",
   "status": "proved",
   "theorems": [
    "C21_reused_table_right_part",
    "C21_stale_refuted"
   ],
   "note": ""
  },
  {
   "property": "C22",
   "status": "proved",
   "theorems": [
    "C22_mul_newton_john",
    "C22_mul_newton_john0",
    "C22_no_columns_refuted"
   ],
   "note": ""
  },
  {
   "property": "C23",
   "status": "proved",
   "theorems": [
    "C23_mul_strassen",
    "C23_strassen_kernels",
    "C23_small_cutoff_refuted"
   ],
   "note": ""
  },
  {
   "property": "C24",
   "status": "proved",
   "theorems": [
    "C24_mul",
    "C24_addmul",
    "C24_mismatch_dies"
   ],
   "note": ""
  },
  {
   "property": "C25",
   "status": "proved",
   "theorems": [
    "C25_mul_kernel_small",
    "C25_mul_kernel_big_accumulates",
    "C25_mul_kernel_refuted"
   ],
   "note": "The property as stated is false from 512 on: proved that the kernel accumulates there, and that it overwrites below."
  },
  {
   "property": "C26",
   "status": "proved",
   "theorems": [
    "C26_echelonize_naive"
   ],
   "note": ""
  },
  {
   "property": "C27",
   "status": "proved",
   "theorems": [
    "C27_echelonize_newton_john",
    "C27_agrees_with_naive"
   ],
   "note": ""
  },
  {
   "property": "C28",
   "status": "proved",
   "theorems": [
    "C28_invert"
   ],
   "note": ""
  },
  {
   "property": "C29",
   "status": "proved",
   "theorems": [
    "C29_trsm_naive"
   ],
   "note": ""
  },
  {
   "property": "C30",
   "status": "proved",
   "theorems": [
    "C30_trsm_lower",
    "C30_trsm_upper",
    "C30_slice_trsm_lower",
    "C30_slice_trsm_upper"
   ],
   "note": ""
  },
  {
   "property": "C31",
   "status": "proved",
   "theorems": [
    "C31_small_cutoff_refuted"
   ],
   "note": "The property as stated is false: for every cutoff below 64 the failing calls are characterised and proved to leave the operands."
  },
  {
   "property": "C32",
   "status": "proved",
   "theorems": [
    "C32_ple_naive"
   ],
   "note": ""
  },
  {
   "property": "C33",
   "status": "proved",
   "theorems": [
    "C33_ple_newton_john",
    "C33_ple_newton_john_decomposes"
   ],
   "note": ""
  },
  {
   "property": "C34",
   "status": "proved",
   "theorems": [
    "C34_slice_ple",
    "C34_slice_pluq",
    "C34_slice_wrappers",
    "C34_slice_echelonize_ple",
    "C34_mzed_ple",
    "C34_mzed_echelonize_ple",
    "C34_mzed_echelonize",
    "C34_overflow_refuted",
    "C34_mzed_echelonize_independent"
   ],
   "note": ""
  },
  {
   "property": "C35",
   "status": "proved",
   "theorems": [
    "C35_slice",
    "C35_slice_frame",
    "C35_cling",
    "C35_roundtrip_packed",
    "C35_roundtrip_sliced"
   ],
   "note": ""
  },
  {
   "property": "C36",
   "status": "proved",
   "theorems": [
    "C36_elements",
    "C36_set_ui_copy_add",
    "C36_is_zero_cmp",
    "C36_rows_columns",
    "C36_copy_row",
    "C36_concat_stack_submatrix",
    "C36_window"
   ],
   "note": ""
  },
  {
   "property": "C37",
   "status": "proved",
   "theorems": [
    "C37_addmul_karatsuba",
    "C37_mul",
    "C37_addmul",
    "C37_packed_mul",
    "C37_packed_addmul"
   ],
   "note": ""
  },
  {
   "property": "C38",
   "status": "proved",
   "theorems": [
    "C38_addmul_naive"
   ],
   "note": ""
  },
  {
   "property": "C39",
   "status": "proved",
   "theorems": [
    "C39_scalar",
    "C39_mul_scalar_alias_refuted"
   ],
   "note": "Correct for distinct operands; the aliased call returns zero and that is what is proved."
  },
  {
   "property": "C40",
   "status": "proved",
   "theorems": [
    "C40_rescale_row",
    "C40_rescale_row_refuted"
   ],
   "note": "True for row 0; for every other row the call is proved to access memory out of bounds."
  },
  {
   "property": "C41",
   "status": "proved",
   "theorems": [
    "C41_addmul_naive",
    "C41_addmul_balanced",
    "C41_balanced_unsupported",
    "C41_algorithm_independent"
   ],
   "note": "the bits outside the result matrix are kept if those of B are zero (naive; depth 1) or always (balanced, depth >= 2): M4RI's mzd_addmul is not canary safe"
  },
  {
   "property": "C42",
   "status": "proved",
   "theorems": [
    "C42_init_crt_correct",
    "C42_init_crt_one_modulus",
    "C42_init_crt_ends",
    "C42_init_crt_hangs",
    "C42_init_crt_total_refuted"
   ],
   "note": "Total correctness of every returned map; termination proved for the default scheme and decided for all schemes of crt_init up to 16 coefficients."
  },
  {
   "property": "C43",
   "status": "proved",
   "theorems": [
    "C43_crt_init",
    "C43_crt_init_refuted",
    "C43_crt_infinity_refuted"
   ],
   "note": "The documented degree bound is refuted; proved what holds instead."
  },
  {
   "property": "C44",
   "status": "proved",
   "theorems": [
    "C44_poly_crt",
    "C44_poly_crt_hangs",
    "C44_poly_crt_null_refuted",
    "C44_poly_crt_total_refuted",
    "C44_poly_crt_product_refuted",
    "C44_poly_crt_bounds_refuted"
   ],
   "note": "The property as documented is false: proved what the function computes and when it hangs."
  },
  {
   "property": "C45",
   "status": "proved",
   "theorems": [
    "C45_mzed_apply",
    "C45_slice_apply",
    "C45_mzed_inverse",
    "C45_slice_inverse"
   ],
   "note": ""
  },
  {
   "property": "C46",
   "status": "proved",
   "theorems": [
    "C46_apply",
    "C46_apply_fresh",
    "C46_any_program",
    "naive_compile_computes"
   ],
   "note": "djb_compile itself is M4RI code: its result is any program that computes the matrix."
  },
  {
   "property": "C47",
   "status": "proved",
   "theorems": [
    "C47_mzed_add",
    "C47_mzed_mul_naive",
    "C47_mzed_mul_newton_john",
    "C47_mzed_mul_strassen",
    "C47_mzed_mul",
    "C47_mzed_mul_karatsuba",
    "C47_mzed_mul_blm",
    "C47_mzed_copy",
    "C47_mzed_concat",
    "C47_mzed_stack",
    "C47_mzed_submatrix",
    "C47_slice_add",
    "C47_slice_mul",
    "C47_slice_mul_blm",
    "C47_slice_concat",
    "C47_slice_stack",
    "C47_slice_submatrix",
    "C47_mzed_trsm",
    "C47_slice_trsm",
    "C47_mzed_invert",
    "C47_concat_fields_refuted",
    "C47_stack_fields_refuted"
   ],
   "note": "Fields are compared by minimal polynomial (pointers in C). Field checks of concat and stack are refuted."
  },
  {
   "property": "C48",
   "status": "proved",
   "theorems": [
    "C48_mul_at_refuted",
    "C48_mul_strassen_at_refuted",
    "C48_mul_newton_john_at_refuted",
    "C48_mul_alias_refuted"
   ],
   "note": "The property that a user may expect is false: proved that every aliased call returns zero, including the recursive Strassen case, whose windows of the target and of the factor overlap. C48_mul_alias_refuted is the earlier statement, about a model without a store."
  },
  {
   "property": "C49",
   "status": "proved",
   "theorems": [
    "C49_add",
    "C49_add_depths",
    "C49_documented_sum_refuted"
   ],
   "note": "The property as documented is false: proved what the function computes instead."
  },
  {
   "property": "C50",
   "status": "proved",
   "theorems": [
    "C50_adapt_depth",
    "C50_adapt_depth_overflows",
    "C50_adapt_depth_refuted"
   ],
   "note": "Proved up to the allocated depth; false beyond (refuted)."
  },
  {
   "property": "C51",
   "status": "proved",
   "theorems": [
    "C51_cmp",
    "C51_cmp_no_order_refuted",
    "C51_randomize"
   ],
   "note": ""
  },
  {
   "property": "C52",
   "status": "proved",
   "theorems": [
    "C52_slice_mul",
    "C52_slice_addmul",
    "C52_mzed_mul",
    "C52_mzed_addmul",
    "C52_mul_kernel",
    "C52_mul_kernel_refuted",
    "C52_uncompiled_reachable",
    "x0_ok"
   ],
   "note": "The kernel clause is false for uncompiled maps: refuted for all inputs. The M4RI routines mzd_ple, mzd_inv_m4ri, djb_compile enter through contracts; x0_ok shows they can be met."
  },
  {
   "property": "C53",
   "status": "proved",
   "theorems": [
    "C53_poly_blm",
    "C53_poly_blm_matrices",
    "C53_poly_blm_refuted"
   ],
   "note": "Holds for maps stored as matrices, refuted for compiled ones."
  },
  {
   "property": "C54",
   "status": "proved",
   "theorems": [
    "C54_addmul_ext1",
    "C54_one_coefficient",
    "C54_two_coefficients",
    "C54_null_result",
    "C54_total_refuted"
   ],
   "note": "Holds for 3 and more coefficients with a given C; the other cases are proved to fail."
  },
  {
   "property": "C55",
   "status": "proved",
   "theorems": [
    "C55_restored",
    "C55_window_parent"
   ],
   "note": "Allocation structure transcribed into a small language (gen/gen_mem.py); conditions on data are forgotten, so the theorems cover every path."
  },
  {
   "property": "C56",
   "status": "proved",
   "theorems": [
    "C56_no_misuse",
    "C56_void",
    "C56_in_place",
    "C56_new",
    "C56_release"
   ],
   "note": "The table of functions and their contracts is MemSpec.v. The lifetime of fields is not tracked (matrices keep a pointer to theirs)."
  },
  {
   "property": "C57",
   "status": "proved",
   "theorems": [
    "C57_modred_leak_refuted",
    "C57_blm_leak_refuted",
    "C57_slice_mul_leak_refuted",
    "C57_uncompiled_refuted",
    "C57_poly_crt_refuted",
    "C57_poly_crt_leak_refuted"
   ],
   "note": "The property is false of the code; refuted."
  },
  {
   "property": "C58",
   "status": "proved",
   "theorems": [
    "C58_history",
    "C58_step",
    "C58_choices_invisible",
    "C58_configs_exist",
    "C58_legal1",
    "C58_legal2"
   ],
   "note": "One field per client; the target of a call is not one of its operands; the size side conditions found in C18, C23, C34 are part of the contracts (HistSpec.allowed)."
  },
  {
   "property": "C59",
   "status": "proved",
   "theorems": [
    "C59_print",
    "C59_slice_print",
    "C59_text_tells",
    "C59_print_injective",
    "C59_same_text"
   ],
   "note": "printf and sprintf are modelled for the formats used (literal text, %<width>x)."
  },
  {
   "property": "C60",
   "status": "proved",
   "theorems": [
    "C60_history",
    "C60_step",
    "C60_nothing_else_changes",
    "C60_choices_invisible",
    "C60_window_of_window",
    "C60_legal"
   ],
   "note": "The target of a call shares no memory with its other operands. Windows are operands of all calls, and targets of all calls except concat, stack, submatrix and inversion (M4RI copies whole words there). Windows are copied out and back by whole words, so damage behind the last column of a window is visible in the model."
  },
  {
   "property": "C61",
   "status": "proved",
   "theorems": [
    "C61_solve",
    "C61_solve_square"
   ],
   "note": "The two clients (slice_solve, mzed_solve in SolveModel.v) are sequences of library calls after the pattern of M4RI's mzd_solve_left."
  },
  {
   "property": "C62",
   "status": "proved",
   "theorems": [
    "C62_add_multiple_of_row",
    "C62_add_row",
    "C62_add",
    "C62_copy",
    "C62_mul_scalar",
    "C62_invert",
    "C62_mul_naive",
    "C62_mul_naive_alias_refuted",
    "C62_addmul_naive_alias_refuted",
    "C62_slice_add",
    "C62_slice_mul",
    "C62_slice_mul_alias_refuted",
    "C62_slice_addmul_alias_refuted",
    "C62_mul_at",
    "C62_mul_strassen_at",
    "C62_mul_newton_john_at",
    "C62_strassen_windows",
    "C62_newton_john_windows",
    "C62_addmul_at",
    "C62_addmul_strassen_at",
    "C62_addmul_newton_john_at",
    "C62_addmul_strassen_windows",
    "C62_addmul_strassen_small_into_factor",
    "C62_addmul_into_factor",
    "C62_addmul_strassen_into_factor_refuted"
   ],
   "note": "Objects coincide or are disjoint; windows of one matrix that overlap are covered as the factors of a product (the theorems C62_..._windows), not as target and operand. M4RI's mzd_add is trusted to accept a target that is an operand."
  },
  {
   "property": "C63",
   "status": "proved",
   "theorems": [
    "C63_no_failure",
    "C63_no_deadlock",
    "C63_schedule_invisible",
    "C63_untouched",
    "C63_threads",
    "C63_race_refuted"
   ],
   "note": "Not in the model: single loads and stores (a call looks at each operand as a whole, at any moment, and its target holds anything until it ends), weak memory, and the allocator of M4RI with its cache, which the threads of a real program share and which is trusted to be thread safe."
  },
  {
   "property": "C64",
   "status": "proved",
   "theorems": [
    "C64_init",
    "C64_init_refuted",
    "C64_init_smallest",
    "C64_read_elem",
    "C64_add_elem",
    "C64_write_elem",
    "C64_col_swap",
    "C64_col_swap_in_rows",
    "C64_window",
    "C64_submatrix",
    "C64_concat",
    "C64_concat_refuted",
    "C64_stack",
    "C64_echelonize",
    "C64_echelonize_refuted",
    "C64_echelonize_smallest",
    "C64_invert"
   ],
   "note": "The functions with int arithmetic are in IntModel.v. m4ri_opt_k is only assumed to return at least 1; the cache size is arbitrary. The positions in the bodies of the other functions come from these accessors and windows. Not claimed: the int arithmetic inside M4RI, and in the Newton-John tables."
  },
  {
   "property": "C65",
   "status": "proved",
   "theorems": [
    "C65_slice_mul",
    "C65_slice_addmul",
    "C65_packed_mul",
    "C65_slice_naive",
    "C65_poly_naive",
    "C65_poly_balanced",
    "C65_blm_rows",
    "C65_slice_mul_blm",
    "C65_strassen"
   ],
   "note": "CostModel.v has the same functions with a log of the products; CostProofs.v proves that without the log they are the functions of the other files (erase_...). The products inside of blm_init_crt, which depend on the degree only, are not logged. Sizes that are not 2^j times a multiple of the word: C67."
  },
  {
   "property": "C66",
   "status": "proved",
   "theorems": [
    "C66_mul",
    "C66_mul_quadratic",
    "C66_quadratic_generic",
    "C66_invert_generic",
    "C66_quadratic_refuted"
   ],
   "note": "Proved for products and for matrices with invertible leading blocks; the general claim of README.md:11 is false (C66_quadratic_refuted): in a block of several columns every row below the last pivot is reduced with multiplications until a pivot is found, and this work is repeated for every block when the columns have no pivot."
  },
  {
   "property": "C67",
   "status": "proved",
   "theorems": [
    "C67_strassen_volume"
   ],
   "note": "The logged versions are those of C65; the additions of matrices are not counted."
  },
  {
   "property": "C68",
   "status": "proved",
   "theorems": [
    "C68_clients",
    "C68_choices_invisible",
    "demo_client_careful",
    "rank_client_careful",
    "rank_client_determined",
    "rank_client_alike"
   ],
   "note": "Clients are well-founded trees (every execution is finite). Permutations given to the decompositions come from mzp_init; mzed_ple_naive etc. accept any contents (C32). The random source is a function given with the call."
  },
  {
   "property": "C69",
   "status": "proved",
   "theorems": [
    "C69_trsm",
    "C69_slice_trsm",
    "C69_default",
    "erase_trsm_lower",
    "erase_trsm_upper",
    "erase_strsm_lower",
    "erase_strsm_upper"
   ],
   "note": "Bit-sliced matrices: degrees C30 covers. Systems with few right hand sides (n <= cutoff) are solved by Newton-John tables without recursion, which the theorem states too."
  },
  {
   "property": "C70",
   "status": "proved",
   "theorems": [
    "C70_slice_ple",
    "C70_ple",
    "C70_slice_echelonize_ple",
    "C70_echelonize_ple",
    "erase_ple",
    "erase_mzed_ple",
    "erase_slice_echelonize",
    "erase_mzed_echelonize"
   ],
   "note": "The cost of permuting rows and columns is not counted. The bound for products is a hypothesis on the cost function (strassen_like), met by Strassen-like costs; C67 proves such a bound for mzed_mul_strassen."
  },
  {
   "property": "C71",
   "status": "proved",
   "theorems": [
    "C71_addition",
    "C71_mul_assoc",
    "C71_distributive",
    "C71_identity",
    "C71_scalar",
    "C71_scalar_mul",
    "C71_inverse",
    "C71_inverse_exists",
    "C71_inverse_mul",
    "C71_rank_le",
    "C71_rank_add",
    "C71_rank_mul",
    "C71_echelon_idempotent",
    "C71_echelon_invariant"
   ],
   "note": "Products with at least one column (C22_no_columns_refuted); scalar multiples of matrices with fewer than 2^17 elements (C18 shows what happens beyond); l2 >= 4096, as in C24."
  },
  {
   "property": "C72",
   "status": "proved",
   "theorems": [
    "C72_same_decomposition",
    "C72_slice",
    "C72_unique",
    "C72_tail_of_Q_refuted"
   ],
   "note": "C72_tail_of_Q_refuted: the entries of Q from the rank on depend on the algorithm."
  },
  {
   "property": "C73",
   "status": "proved",
   "theorems": [
    "C73_test_equality",
    "C73_test_ple",
    "C73_random_rank",
    "C73_test_mul",
    "C73_test_addmul",
    "C73_test_trsm",
    "C73_canary",
    "C73_check_cmp",
    "C73_detects",
    "C73_check_rank",
    "C73_rank_check_refuted",
    "C73_test_gf2e",
    "C73_test_slice",
    "C73_test_slice_known_answers",
    "C73_test_add",
    "C73_test_scalar",
    "C73_test_scalar_refuted",
    "C73_test_slice_trsm",
    "C73_test_slice_ple",
    "C73_slice_canary",
    "C73_slice_clear_canary"
   ],
   "note": "Matrices with at least one column: the canary functions read word -1 otherwise. The tests of the solvers draw until a diagonal entry is not 0: the hypothesis says that random() gives one some time. test_scalar only passes for the sizes for which mzed_mul_scalar works (C18); C73_test_scalar_refuted says what happens for the others."
  }
 ]
}