{"id": "C01", "title": "gf2x_mul is carry-less multiplication", "statement": "For every d in 1..32, every a of degree < d and every b such that the product fits in a word, gf2x_mul(a,b,d) is the product of a and b in GF(2)[X] (coefficient k is the XOR over i of a_i b_{k-i}); a d outside 1..32 kills the process.", "quantifier": "all words a,b and all d", "why_tests_cant": "2^64 x 2^32 operand pairs per d", "anchors": ["src/gf2x.h:gf2x_mul"]}
{"id": "C02", "title": "gf2x_deg is the degree", "statement": "gf2x_deg(a) is the index of the highest set bit of a for every 64-bit word a (0 for a=0).", "quantifier": "all 64-bit words", "why_tests_cant": "2^64 words; a binary search has 64 distinct paths and masks", "anchors": ["src/gf2x.h:gf2x_deg"]}
{"id": "C03", "title": "gf2x_divmod, gf2x_div and gf2x_mod are Euclidean division", "statement": "For all words a and all b<>0, divmod returns q and r with a = q*b + r in GF(2)[X] and deg r < deg b (r=0 when deg b = 0), gf2x_div returns that q and gf2x_mod that r; q and r are unique.", "quantifier": "all words a, b with b<>0", "why_tests_cant": "2^128 operand pairs", "anchors": ["src/gf2x.h:gf2x_divmod,gf2x_div,gf2x_mod"]}
{"id": "C04", "title": "gf2x_invmod inverts modulo an irreducible polynomial", "statement": "For every irreducible f of degree e in 2..16 and every nonzero a of degree < e, b = gf2x_invmod(a,f,e) has degree < e and a*b = 1 mod f.", "quantifier": "all irreducible f of degree 2..16 and all nonzero residues a", "why_tests_cant": "all pairs (f,a) and an unbounded number of Euclid steps", "anchors": ["src/gf2x.h:gf2x_invmod", "src/gf2e.h:gf2e_inv"]}
{"id": "C05", "title": "gf2e_init builds correct tables", "statement": "gf2e_init(f) for any f of degree e in 2..16 terminates with degree e, a reduction table red with red[h] the unique multiple of f whose quotient bits by X^e are h, pow_gen[i] = X^i mod f for all i < 2e-1, and (e<=8) a multiplication table with entry (a,b) = a*b mod f.", "quantifier": "all f of degree 2..16, all table indices", "why_tests_cant": "every polynomial and every table cell", "anchors": ["src/gf2e.c:gf2e_init", "src/gf2e.h:gf2e"]}
{"id": "C06", "title": "ff->mul is multiplication modulo the minimal polynomial", "statement": "For every field handle returned by gf2e_init(f) and all a,b < 2^e, ff->mul(ff,a,b) = a*b mod f whether table driven (e<=8) or arithmetic (e>8).", "quantifier": "all f of degree 2..16, all a,b < 2^e", "why_tests_cant": "2^32 operand pairs for each of tens of thousands of moduli", "anchors": ["src/gf2e.h:_gf2e_mul_table,_gf2e_mul_arith", "src/gf2e.c:gf2e_init"]}
{"id": "C07", "title": "The handle is a field exactly when the polynomial is irreducible", "statement": "With f irreducible of degree 2..16, xor and ff->mul make {0..2^e-1} a field: associativity, commutativity, distributivity, unit 1, ff->inv(a)*a = 1 for a<>0, no zero divisors; with f reducible there are zero divisors.", "quantifier": "all irreducible f and all elements", "why_tests_cant": "all triples of elements for each field", "anchors": ["src/gf2e.h:gf2e,gf2e_inv", "src/gf2e.c:gf2e_init"]}
{"id": "C08", "title": "The table of irreducible polynomials is sound and complete", "statement": "For each degree d in 1..16 the list irreducible_polynomials[d] holds exactly the irreducible polynomials of degree d over GF(2), each once, with its first entry the count.", "quantifier": "all degrees 1..16, all polynomials of that degree", "why_tests_cant": "soundness of each of >8000 entries needs a proof of irreducibility; completeness quantifies over all 2^17 polynomials", "anchors": ["src/gf2e.c:irreducible_polynomials"]}
{"id": "C09", "title": "gf2e_degree_to_w picks the smallest admissible width", "statement": "For degree 2..16 the element width is the least of 2,4,8,16 that holds an element; other degrees die.", "quantifier": "all degrees", "why_tests_cant": "error branch for all other degrees", "anchors": ["src/gf2e.h:gf2e_degree_to_w"]}
{"id": "C10", "title": "gf2e_t16_init tabulates scalar multiplication on packed elements", "statement": "For e<=8 fields, T=gf2e_t16_init(ff,a): T[x] holds, in every w-bit lane of the 16-bit index x, a times that lane. True for degrees 2, 4 and 8; false for degrees 3, 5, 6 and 7, where building the table reads out of bounds.", "quantifier": "all fields of degree <=8, all a, all x<2^16 whose lanes are elements", "why_tests_cant": "2^16 entries for every scalar of every field", "anchors": ["src/gf2e.h:gf2e_t16_init"]}
{"id": "C11", "title": "Element access is a faithful array", "statement": "mzed_read_elem after mzed_write_elem at (r,c) returns the written value and every other element (and every bit outside the matrix) is unchanged; mzed_add_elem xors; out-of-range access is undefined behaviour and never happens for r<nrows,c<ncols.", "quantifier": "all matrix sizes, all widths 2,4,8,16, all positions and values", "why_tests_cant": "unbounded sizes and all positions incl. word boundaries", "anchors": ["src/mzed.h:mzed_read_elem,mzed_write_elem,mzed_add_elem", "src/m4ri_functions.h:__mzd_read_bits,__mzd_xor_bits,__mzd_clear_bits"]}
{"id": "C12", "title": "mzed_add_multiple_of_row is a row axpy from the start column", "statement": "mzed_add_multiple_of_row(A,ar,B,br,x,start_col) sets A[ar,j] to A[ar,j]+x*B[br,j] for j>=start_col and changes nothing else: no other row, no element left of start_col, no padding bit; all reads are of B's row before the update when A=B and ar=br is excluded.", "quantifier": "all sizes, widths, start columns, scalars, including A=B", "why_tests_cant": "unrolled lane switches depend on start lane and ncols mod 64, bulk loops step by 2 or 4 words: every residue class of every size", "anchors": ["src/mzed.c:mzed_add_multiple_of_row", "src/mzed.h:mzed_add_row"]}
{"id": "C13", "title": "mzed_add_row adds rows", "statement": "mzed_add_row(A,ar,B,br,start_col) sets A[ar,j] ^= B[br,j] for j>=start_col and changes nothing else.", "quantifier": "all sizes, widths, start columns", "why_tests_cant": "mask handling at both ends for all sizes", "anchors": ["src/mzed.h:mzed_add_row"]}
{"id": "C14", "title": "mzed_rescale_row multiplies a row tail by a scalar", "statement": "mzed_rescale_row(A,r,start_col,x) sets A[r,j] to x*A[r,j] for j>=start_col and changes nothing else, padding included.", "quantifier": "all sizes, widths, start columns, scalars", "why_tests_cant": "unrolled lane code, all residues of start_col and ncols", "anchors": ["src/mzed.h:mzed_rescale_row"]}
{"id": "C15", "title": "Addition, copy, identity and structural operations are elementwise", "statement": "mzed_add, mzed_copy, mzed_set_ui, mzed_concat, mzed_stack, mzed_submatrix, row/column swaps produce exactly the elementwise described matrix and die on dimension mismatches (or on differing fields where checked).", "quantifier": "all sizes and fields", "why_tests_cant": "all sizes and alignments", "anchors": ["src/mzed.h:mzed_concat,mzed_stack,mzed_submatrix,mzed_row_swap,mzed_col_swap", "src/mzed.c:mzed_add,mzed_copy,mzed_set_ui"]}
{"id": "C16", "title": "mzed_cmp is zero exactly on equal matrices and mzed_is_zero exactly on the zero matrix", "statement": "mzed_cmp(A,B)=0 iff same dimensions and equal elements; mzed_is_zero iff every element is 0.", "quantifier": "all matrices", "why_tests_cant": "all matrices, incl. last partial word", "anchors": ["src/mzed.h:mzed_cmp,mzed_is_zero"]}
{"id": "C17", "title": "mzed_randomize stays inside the field", "statement": "mzed_randomize fills every element with a value < 2^e and leaves the dimensions and padding unchanged, whatever the random source returns; mzd_slice_randomize gives bit k of every element the value delivered for slice k.", "quantifier": "all random streams, sizes", "why_tests_cant": "all random streams", "anchors": ["src/mzed.c:mzed_randomize", "src/mzd_slice.h:mzd_slice_randomize"]}
{"id": "C18", "title": "mzed_mul_scalar is elementwise scalar multiplication on both code paths", "statement": "mzed_mul_scalar(C,a,B) returns a*B elementwise, both on the row-rescaling path and on the 16-bit table path used for large matrices. False for fields of degree 3, 5, 6, 7 from 2^17 elements on (out-of-bounds read), for degree up to 8 from 2^31 elements on (the size test overflows an int), and for rows without columns (failed assertion); proved for all other matrices.", "quantifier": "all sizes (both branches), all scalars, all fields", "why_tests_cant": "branch threshold 2^17 elements; table path has no coverage for small sizes", "anchors": ["src/mzed.c:mzed_mul_scalar"]}
{"id": "C19", "title": "mzed_mul_naive computes the matrix product", "statement": "C[i,j] = sum_k A[i,k]B[k,j] for the naive multiplication, addmul_naive adds that to C; incompatible dimensions die.", "quantifier": "all dimensions, all fields, all entries", "why_tests_cant": "unbounded dimensions", "anchors": ["src/mzed.c:mzed_mul_naive,mzed_addmul_naive,_mzed_mul_naive,_mzed_mul_init"]}
{"id": "C20", "title": "mzed_make_table tabulates all multiples of a row", "statement": "After mzed_make_table(T,A,r,c) on a fresh table, for every field element x row T->L[x] of T->T is x*A[r,.] from column c on, and 0 left of c.", "quantifier": "all fields, sizes, rows and start columns", "why_tests_cant": "all field elements for all 2..16 degree fields", "anchors": ["src/newton_john.c:mzed_make_table,njt_mzed_init"]}
{"id": "C21", "title": "A reused Newton-John table leaks stale words", "statement": "mzed_make_table(T,A,r,c) on a table T with any history of earlier calls makes row T->L[x] equal x*A[r,.] masked to columns >= c for every column from two words left of c's word on. Further left it can keep stale words (the clearing loop skips them), so the claim for all columns is false.", "quantifier": "all histories of a table", "why_tests_cant": "needs reuse with particular word offsets", "anchors": ["src/newton_john.c:mzed_make_table"]}
{"id": "C22", "title": "mzed_mul_newton_john computes the matrix product", "statement": "mzed_mul_newton_john and mzed_addmul_newton_john (and the variant 0) give the same result as the definition of the product for every shape, including the small-row fallback, the 8 column blocks, the block split and the remainder columns, provided B has at least one column (with none, the table construction trips an assertion).", "quantifier": "all dimensions, all fields, any cache/block size", "why_tests_cant": "all residues of dimensions against 8 and block size", "anchors": ["src/newton_john.c:_mzed_mul_newton_john,_mzed_mul_newton_john0,mzed_mul_newton_john,mzed_addmul_newton_john"]}
{"id": "C23", "title": "mzed_mul_strassen computes the matrix product", "statement": "mzed_mul_strassen/_mzed_mul_strassen and the addmul variants compute A*B (C+A*B) for every dimension triple with at least one column in B and every cutoff of at least 1.5 words worth of elements (48 always suffices), with splits at word boundaries and rest blocks. With smaller cutoffs the recursion can produce a block without columns and trip an assertion.", "quantifier": "all dimensions and all cutoffs >= 1.5 words of elements", "why_tests_cant": "recursion depth and split residues are unbounded", "anchors": ["src/strassen.c:mzed_mul_strassen,_mzed_mul_strassen,mzed_addmul_strassen,_mzed_addmul_strassen"]}
{"id": "C24", "title": "mzed_mul and mzed_addmul dispatch correctly", "statement": "mzed_mul(C,A,B) returns A*B and mzed_addmul returns C+A*B for all sizes when C is distinct from A and B; mismatching dimensions die.", "quantifier": "all dimensions and fields", "why_tests_cant": "the Karatsuba branch needs all dimensions >= 512", "anchors": ["src/mzed.c:mzed_mul,mzed_addmul,_mzed_mul,_mzed_addmul,_mzed_mul_init"]}
{"id": "C25", "title": "_mzed_mul overwrites its target", "statement": "_mzed_mul(C,A,B) leaves C = A*B independent of C's previous content. False: with all dimensions >= 512 it takes the Karatsuba path which accumulates into C.", "quantifier": "all previous contents of C", "why_tests_cant": "needs big matrices and non-zero C", "anchors": ["src/mzed.c:_mzed_mul", "src/conversion.h:_mzed_addmul_karatsuba"]}
{"id": "C26", "title": "mzed_echelonize_naive yields a (reduced) row echelon form", "statement": "The result is row equivalent to the input (same row space through an invertible transform), is in row echelon form with leading ones (reduced if full), and the return value is the rank (the number of non-zero rows).", "quantifier": "all matrices over all fields, both values of full", "why_tests_cant": "unbounded dimensions, all rank profiles", "anchors": ["src/mzed.c:mzed_echelonize_naive"]}
{"id": "C27", "title": "mzed_echelonize_newton_john yields the same echelon form", "statement": "With any admissible table parameter the Newton-John elimination returns the rank and a row echelon form (reduced when full) row equivalent to the input.", "quantifier": "all matrices, fields, table parameters", "why_tests_cant": "all rank profiles against block boundaries", "anchors": ["src/newton_john.c:mzed_echelonize_newton_john,_mzed_gauss_submatrix_full"]}
{"id": "C28", "title": "mzed_invert_newton_john inverts or dies", "statement": "For square A: if A is invertible the result B satisfies A*B = B*A = 1; if A is singular the process dies.", "quantifier": "all square matrices", "why_tests_cant": "all invertible and singular matrices of all sizes", "anchors": ["src/newton_john.c:mzed_invert_newton_john"]}
{"id": "C29", "title": "Triangular solving, naive", "statement": "mzed_trsm_lower_left_naive and the upper variant overwrite B by the unique X with L*X = B (U*X = B) for triangular L (U) with non-zero diagonal; entries of L above (below) the diagonal are ignored.", "quantifier": "all triangular systems", "why_tests_cant": "all sizes and coefficients", "anchors": ["src/trsm.c:mzed_trsm_lower_left_naive,mzed_trsm_upper_left_naive,mzd_slice_trsm_lower_left_naive,mzd_slice_trsm_upper_left_naive"]}
{"id": "C30", "title": "Triangular solving, Newton-John and recursive variants", "statement": "The Newton-John and the recursive mzed/mzd_slice variants compute the same X as the naive solver, for every cutoff >= 64.", "quantifier": "all systems, all cutoffs >= 64", "why_tests_cant": "recursion on size, split rounding to words", "anchors": ["src/newton_john.c:mzed_trsm_lower_left_newton_john", "src/trsm.inl", "src/trsm.h"]}
{"id": "C31", "title": "Recursive triangular solve with a small cutoff stays in bounds", "statement": "For every cutoff the recursive solver only touches memory of its operands. False for cutoff < 64 and at most 64 rows: the rounded split exceeds the matrix.", "quantifier": "all cutoffs and sizes", "why_tests_cant": "only particular cutoff/size pairs", "anchors": ["src/trsm.inl"]}
{"id": "C32", "title": "mzed_ple_naive is a PLE decomposition", "statement": "mzed_ple_naive(A,P,Q) returns the rank r and leaves L\\E in A with A_in = P*L*E in the documented packing (L unit-free lower part scaled, E echelon with pivots in columns Q[0..r)).", "quantifier": "all matrices", "why_tests_cant": "all rank profiles", "anchors": ["src/ple.c:mzed_ple_naive"]}
{"id": "C33", "title": "mzed_ple_newton_john equals mzed_ple_naive", "statement": "Both routines return the same rank, permutations and packed matrix on every input.", "quantifier": "all matrices", "why_tests_cant": "all rank profiles and sizes", "anchors": ["src/newton_john.c:mzed_ple_newton_john", "src/ple.c:mzed_ple_naive"]}
{"id": "C34", "title": "Recursive mzd_slice PLE and PLUQ", "statement": "_mzd_slice_ple and _mzd_slice_pluq decompose every matrix for every cutoff; the echelon forms built from them, and mzed_ple, mzed_echelonize_ple and mzed_echelonize with their choice of algorithm, are correct. False only for mzed_echelonize on matrices of 2^31 bits or more: its size test overflows an int.", "quantifier": "all matrices and cutoffs", "why_tests_cant": "recursion and permutation composition", "anchors": ["src/ple.c:_mzd_slice_ple,_mzd_slice_pluq", "src/echelonform.c:mzd_slice_echelonize_ple"]}
{"id": "C35", "title": "mzed_slice and mzed_cling are elementwise and inverse", "statement": "mzed_slice(A) has coefficient bit b of element (i,j) in slice b at (i,j), mzed_cling is its inverse; both for all degrees 2..16 and all column counts.", "quantifier": "all degrees, sizes, elements", "why_tests_cant": "mask constants for 16 degrees, all bit positions", "anchors": ["src/conversion.c,src/conversion_slice8.c,src/conversion_slice16.c,src/conversion_cling8.c,src/conversion_cling16.c"]}
{"id": "C36", "title": "mzd_slice element operations", "statement": "mzd_slice_read_elem/write_elem/add_elem, add, copy, concat, stack, submatrix, set_ui, is_zero, cmp, row and column operations agree with the matrix of field elements.", "quantifier": "all sizes, degrees", "why_tests_cant": "all sizes", "anchors": ["src/mzd_slice.h,src/mzd_slice.c"]}
{"id": "C37", "title": "Karatsuba slice multiplication", "statement": "_mzd_slice_addmul_karatsuba adds exactly A*B mod f to C for every degree 2..16, the unrolled bilinear formulas being exact polynomial products.", "quantifier": "all degrees 2..16, all matrices, all minimal polynomials", "why_tests_cant": "hundreds of unrolled products; correctness as a bilinear identity over all inputs", "anchors": ["src/karatsuba.c:_mzd_ptr_addmul_karatsuba2,_mzd_ptr_addmul_karatsuba3,_mzd_ptr_addmul_karatsuba4,_mzd_ptr_addmul_karatsuba5,_mzd_ptr_addmul_karatsuba6,_mzd_ptr_addmul_karatsuba7,_mzd_ptr_addmul_karatsuba8,_mzd_ptr_addmul_karatsuba9,_mzd_ptr_addmul_karatsuba10,_mzd_ptr_addmul_karatsuba11,_mzd_ptr_addmul_karatsuba12,_mzd_ptr_addmul_karatsuba13,_mzd_ptr_addmul_karatsuba14,_mzd_ptr_addmul_karatsuba15,_mzd_ptr_addmul_karatsuba16", "src/mzd_slice.h:_mzd_slice_addmul_karatsuba"]}
{"id": "C38", "title": "Naive slice multiplication", "statement": "_mzd_slice_addmul_naive adds A*B mod f to C for every degree.", "quantifier": "all degrees, matrices", "why_tests_cant": "all matrices", "anchors": ["src/mzd_slice.c:_mzd_slice_addmul_naive", "src/mzd_ptr.h:_mzd_ptr_add_modred"]}
{"id": "C39", "title": "mzd_slice scalar operations", "statement": "mzd_slice_addmul_scalar adds a*B to C and mzd_slice_mul_scalar returns a*B when C and B differ; with C=B it returns zero.", "quantifier": "all scalars, matrices", "why_tests_cant": "aliasing and all scalars", "anchors": ["src/mzd_slice.c:mzd_slice_mul_scalar,mzd_slice_addmul_scalar"]}
{"id": "C40", "title": "mzd_slice_rescale_row rescales row r", "statement": "mzd_slice_rescale_row(A,r,c,x) multiplies row r by x from column c and changes nothing else. True for r=0, false (out of bounds access) for every r>0.", "quantifier": "all rows", "why_tests_cant": "tests only check in-process success", "anchors": ["src/conversion.h:mzd_slice_rescale_row"]}
{"id": "C41", "title": "Matrix polynomial multiplication", "statement": "mzd_poly addmul (naive and Karatsuba-balanced) adds the product of matrix polynomials: coefficient k is sum of A_i*B_{k-i}.", "quantifier": "all lengths and matrices", "why_tests_cant": "all lengths", "anchors": ["src/mzd_poly.h:_mzd_poly_addmul_naive,_mzd_poly_addmul_karatsubs_balanced", "src/karatsuba.c"]}
{"id": "C42", "title": "Bilinear maps from CRT compute polynomial products", "statement": "For every multiplication scheme with enough moduli and all numbers of coefficients 1 <= f_ncols <= g_ncols, every map (F,G,H) that blm_init_crt returns (with or without compiled programs, over GF(2)[x] or modulo a minimal polynomial) satisfies H*(F a . G b) = a*b for all a, b; for one large enough modulus it does return one. It need not return: for some schemes of crt_init the search for an invertible matrix never ends.", "quantifier": "all schemes, lengths, coefficient vectors and fields, all conforming M4RI results", "why_tests_cant": "all coefficient vectors; non-termination", "anchors": ["src/blm.c:blm_init_crt,_blm_finish_polymult,_crt_modred_mat,_small_multiplication_map,_blm_djb_compile"]}
{"id": "C43", "title": "crt_init chooses enough interpolation points", "statement": "crt_init(f_len,g_len) returns the empty scheme or one that uses no more moduli of each degree than exist, has total degree at least f_len+g_len-1 and costs less than f_len*g_len products. The documented claim that the degree always suffices is false (f_len=1: empty scheme), and the number of points at infinity can exceed f_len.", "quantifier": "all length pairs", "why_tests_cant": "all length pairs", "anchors": ["src/blm.c:crt_init"]}
{"id": "C44", "title": "_mzd_poly_addmul_crt", "statement": "_mzd_poly_addmul_crt(C,A,B) adds A*B to C, as documented. False: C is overwritten, NULL is returned for NULL, for some depths the call does not return, for others nothing is computed, and if B has fewer coefficients than A it reads out of bounds. Proved: for which depths up to 16 it overwrites C by the product and for which it hangs.", "quantifier": "all operands, all depths up to 16", "why_tests_cant": "NULL path, non-termination, all contents", "anchors": ["src/mzd_poly.h:_mzd_poly_addmul_crt"]}
{"id": "C45", "title": "Permutation application", "statement": "mzed/mzd_slice apply_p_left, apply_p_right and their trans variants permute rows/columns as M4RI transpositions and are mutually inverse.", "quantifier": "all permutations and matrices", "why_tests_cant": "all permutations", "anchors": ["src/permutation.h"]}
{"id": "C46", "title": "Straight-line program application (djb) computes the linear map", "statement": "djb_compile/djb_apply of a GF(2) matrix M applied to a vector of matrices computes M times that vector.", "quantifier": "all matrices M, all straight line programs compiled", "why_tests_cant": "all matrices", "anchors": ["src/mzd_ptr.c:djb_apply_mzd_ptr"]}
{"id": "C47", "title": "Dimension mismatches are rejected", "statement": "Every public multiplication and addition (packed, sliced, any algorithm) and mzed_copy dies when dimensions or fields are incompatible; concat, stack and submatrix die on incompatible dimensions; the triangular solvers and the inversion return no result (assertions). False for concat and stack of matrices over different fields: these return.", "quantifier": "all matrices, all dimension and field combinations, all algorithm parameters", "why_tests_cant": "all combinations", "anchors": ["src/mzed.c:mzed_add,_mzed_mul_init,mzed_copy", "src/mzed.h:mzed_concat,mzed_stack,mzed_submatrix", "src/mzd_slice.h:mzd_slice_add,mzd_slice_mul_karatsuba,mzd_slice_concat,mzd_slice_stack,mzd_slice_submatrix", "src/conversion.h:mzed_mul_karatsuba,mzed_mul_blm", "src/trsm.c"]}
{"id": "C48", "title": "mzed_mul with an aliased target", "statement": "mzed_mul(A,A,B) and mzed_mul(B,A,B) return A*B. False: the target is cleared first, and the result is 0 for every A and B, of every size and over every field; the same holds for mzed_mul_strassen and mzed_mul_newton_john, and for squaring in place; no other matrix is written.", "quantifier": "all calls whose target is also a factor, all sizes (operands with columns), all cutoffs from 48 on", "why_tests_cant": "documented nowhere, tests never alias", "anchors": ["src/mzed.c:mzed_mul,mzed_mul_naive", "src/strassen.c:_mzed_mul_strassen", "src/newton_john.c:_mzed_mul_newton_john"]}
{"id": "C49", "title": "Sum of matrix polynomials", "statement": "mzd_poly_add(C,A,B) adds A+B to C, as documented (C += A+B). False: it assigns: the first A->depth coefficients of C become those of A+B, the others stay.", "quantifier": "all matrix polynomials C, A, B of equal sizes", "why_tests_cant": "all sizes, depths and old contents", "anchors": ["src/mzd_poly.h:mzd_poly_add,_mzd_poly_add"]}
{"id": "C50", "title": "Changing the number of coefficients of a matrix polynomial", "statement": "_mzd_poly_adapt_depth(A,d) truncates A or extends it by zero coefficients. False beyond the allocated number of coefficients: the array of coefficients is never reallocated, so growing writes out of bounds.", "quantifier": "all matrix polynomials and all new depths", "why_tests_cant": "the overflow is silent", "anchors": ["src/mzd_poly.h:_mzd_poly_adapt_depth,mzd_poly_init"]}
{"id": "C51", "title": "Comparison and random filling of matrix polynomials", "statement": "mzd_poly_cmp returns -1, 0 or 1, and 0 exactly for equal matrix polynomials; mzd_poly_randomize sets every coefficient of every entry to a random bit.", "quantifier": "all matrix polynomials, all random sources", "why_tests_cant": "all contents", "anchors": ["src/mzd_poly.h:mzd_poly_cmp,mzd_poly_randomize"]}
{"id": "C52", "title": "Products through bilinear maps", "statement": "mzd_slice_mul_blm, mzd_slice_addmul_blm (with NULL or with any map that multiplies modulo the minimal polynomial) and mzed_mul_blm, mzed_addmul_blm compute A*B and C+A*B over GF(2^e), e = 2..16. The kernel _mzd_slice_mul_blm with a preallocated target C overwrites C with A*B as documented. False for maps given by matrices only (blm_init_crt without compilation): the product is then added to C.", "quantifier": "all matrices, fields and maps, all conforming M4RI results", "why_tests_cant": "all contents and maps", "anchors": ["src/mzd_slice.h:_mzd_slice_mul_blm,mzd_slice_mul_blm,mzd_slice_addmul_blm", "src/conversion.h:_mzed_addmul_blm,mzed_mul_blm,mzed_addmul_blm", "src/blm.c:_mzd_ptr_apply_blm_mzd,_mzd_ptr_apply_blm_djb"]}
{"id": "C53", "title": "Products of matrix polynomials through a given bilinear map", "statement": "_mzd_poly_addmul_blm(C,A,B,f) adds A*B to C for every map that multiplies, as documented. False for maps with compiled programs: these overwrite C; proved for maps given by matrices, and what the others compute.", "quantifier": "all matrix polynomials and maps", "why_tests_cant": "all contents and maps", "anchors": ["src/mzd_poly.h:_mzd_poly_addmul_blm"]}
{"id": "C54", "title": "Products of matrix polynomials by evaluation in an extension field", "statement": "_mzd_poly_addmul_ext1(C,A,B) adds A*B to C for matrix polynomials of any depths whose product has 3 to 2^16 coefficients, for any table size of the inversion. It does not for smaller products (1 coefficient: NULL table read, 2: dies) or C = NULL.", "quantifier": "all matrix polynomials of compatible dimensions", "why_tests_cant": "all contents and depths", "anchors": ["src/mzd_poly.c:_mzd_poly_addmul_ext1,mzd_slice_addmul_mzd"]}
{"id": "C55", "title": "Constructors and destructors are inverse", "statement": "What gf2e_init, gf2e_t16_init, mzed_init, mzed_init_window, mzd_slice_init, mzd_slice_init_window, mzd_poly_init and njt_mzed_init allocate, the corresponding free function releases, all of it and nothing else: afterwards the heap is what it was before (so the matrix a window was taken from is intact and usable).", "quantifier": "all heaps, all allocation addresses, all array lengths (depth, table sizes), all data-dependent branches", "why_tests_cant": "unbounded numbers of allocations, every branch and address", "anchors": ["src/gf2e.c:gf2e_init,gf2e_free,gf2e_t16_init,gf2e_t16_free", "src/mzed.c:mzed_init,mzed_free", "src/mzed.h:mzed_init_window,mzed_free_window", "src/mzd_slice.h:mzd_slice_init,mzd_slice_free,mzd_slice_init_window,mzd_slice_free_window", "src/mzd_poly.h:mzd_poly_init,mzd_poly_free", "src/newton_john.c:njt_mzed_init,njt_mzed_free"]}
{"id": "C56", "title": "Memory discipline of the library", "statement": "No call of the listed functions (all of the library that allocates, with the arguments that may be NULL both NULL and given, and arguments that may alias) uses, passes on or releases a pointer that is not initialised, NULL or released, uses a window into released memory, releases twice or with the wrong function; and when it returns, all temporaries are released, the arguments are intact and just the result, if C was NULL, is new.", "quantifier": "all calls, all heaps, all paths through the functions (any number of loop rounds, any depth of recursion)", "why_tests_cant": "every path and recursion depth; leaks are invisible to functional tests", "anchors": ["src/mzed.c", "src/newton_john.c", "src/strassen.c", "src/trsm.c", "src/trsm.inl", "src/ple.c", "src/echelonform.c", "src/conversion.c", "src/conversion.h", "src/mzd_slice.c", "src/mzd_slice.h", "src/mzd_poly.c", "src/mzd_poly.h", "src/karatsuba.c", "src/blm.c"]}
{"id": "C57", "title": "Bilinear maps are released completely", "statement": "blm_init_crt followed by blm_free, and the products that make a bilinear map of their own, leave nothing behind, and every map can be released. False: _crt_modred_mat and _blm_finish_polymult leave matrices behind; blm_free on a map without compiled programs releases NULL; _mzd_poly_addmul_crt(NULL,A,B) loses the result and returns NULL. (No other misuse of memory: part of the previous property.)", "quantifier": "all heaps and executions", "why_tests_cant": "leaks and the path djb=0 are invisible to functional tests", "anchors": ["src/blm.c:_crt_modred_mat,_blm_finish_polymult,blm_init_crt,blm_free", "src/mzd_slice.h:_mzd_slice_mul_blm", "src/mzd_poly.h:_mzd_poly_addmul_crt"]}
{"id": "C58", "title": "Client programs: representation and algorithm choices are invisible", "statement": "A program of calls on matrices over one field (creation, element and row operations, copies, conversion between packed and sliced, sums, products, inversion, triangular solving, echelon forms, comparisons), each call within its contract, runs without error; its answers and the matrices it leaves behind are those of the mathematical meaning of the calls, no matrix but the target of a call changes, and two programs that differ only in the choice of representation and algorithm (and run on machines with different cache sizes) give the same answers and results (echelon forms: the reduced ones).", "quantifier": "all programs of any length, all fields of degree 2 to 16, all mixtures of representations and algorithms, all M4RI block sizes and conforming M4RI results", "why_tests_cant": "all histories of calls", "anchors": ["src/mzed.h", "src/mzd_slice.h", "src/newton_john.h", "src/strassen.h", "src/trsm.h", "src/ple.h", "src/echelonform.h", "src/conversion.h", "src/blm.h"]}
{"id": "C59", "title": "Printing", "statement": "mzed_print and mzd_slice_print write one line per row, the elements as hexadecimal numbers in fields of a width that depends on the degree of the field only, brackets around and single blanks between them; the packed and the sliced form of a matrix print the same text; and the text tells the matrix: matrices over fields of the same degree that print the same are equal (dimensions, unless there are no rows, and entries).", "quantifier": "all matrices", "why_tests_cant": "all contents", "anchors": ["src/mzed.c:mzed_print", "src/mzd_slice.c:mzd_slice_print"]}
{"id": "C60", "title": "Windows in client programs", "statement": "A program whose calls take matrices and windows (mzed_init_window, mzd_slice_init_window) as operands and targets, each call within its contract, runs without error; its answers and the matrices it leaves behind are those of the mathematical meaning, where a window stands for its rectangle of the matrix. A call that writes to a window changes no element outside of the window's rectangle, not of the same matrix (columns to the right of the window that share its words included) nor of any other; the choices of representation and algorithm are invisible; a window of a window is a window of the matrix.", "quantifier": "all programs of any length, all windows at word boundaries, all fields of degree 2 to 16, all mixtures of representations and algorithms", "why_tests_cant": "all histories, all window positions and widths (partial words)", "anchors": ["src/mzed.h:mzed_init_window", "src/mzd_slice.h:mzd_slice_init_window", "src/newton_john.c", "src/strassen.c", "src/trsm.c", "src/ple.c", "src/echelonform.c", "src/mzd_slice.c", "src/mzed.c"]}
{"id": "C61", "title": "Linear systems: factorisations, permutations and triangular solvers fit together", "statement": "The calls a user makes to solve A*X = B (mzd_slice_pluq, mzd_slice_apply_p_left, mzd_slice_trsm_lower_left on the factor as it is stored, product and zero test for the remaining rows, mzd_slice_trsm_upper_left with the ones of the diagonal filled in, mzd_slice_apply_p_left_trans) return a solution if there is one and tell if there is none, for A of any shape and rank; for square A the packed functions (mzed_ple, mzed_apply_p_left, mzed_trsm_lower_left, mzed_trsm_upper_left) return the only solution or tell that A has no inverse.", "quantifier": "all matrices A (any shape and rank) and right hand sides B, all fields of degree 2 to 16, all cache and block sizes", "why_tests_cant": "all contents and shapes; the conventions (order of transpositions, which factor has the unit diagonal, what is stored where) of five functions must match", "anchors": ["src/ple.c:mzd_slice_pluq,_mzd_slice_pluq,_mzed_ple", "src/permutation.h", "src/trsm.c", "src/trsm.inl", "src/mzd_slice.h"]}
{"id": "C62", "title": "The same matrix passed twice", "statement": "mzed_add_row and mzed_add_multiple_of_row give the result computed from the old contents when the two row arguments are rows of one matrix, the same row included (and whatever the start column); so do mzed_add, mzed_copy, mzed_mul_scalar, mzed_invert_newton_john and mzd_slice_add when the target is one or both of the operands. The products mzed_mul, mzed_addmul, their _naive, _newton_john and _strassen variants, mzd_slice_mul and mzd_slice_addmul accept one matrix for both factors (Strassen and Newton-John also windows of one matrix that overlap), but the target must be another object: mzed_mul_naive and mzd_slice_mul into a factor give the zero matrix whatever the factors are, and accumulating into a factor with mzed_addmul_naive or mzd_slice_addmul does not give C + A*B; mzed_addmul and mzed_addmul_strassen into a factor give C + A*B when one dimension d > 0 has 3d < 4*cutoff (and mzed_addmul when all dimensions are at least 512), but not in between. No other matrix is changed.", "quantifier": "all matrices, all rows and start columns, all coincidences of the arguments", "why_tests_cant": "all contents and coincidences; reads and writes of one word interleave", "anchors": ["src/mzed.h:mzed_add_row", "src/mzed.c:mzed_add_multiple_of_row,mzed_add,mzed_copy,mzed_mul_scalar,mzed_mul_naive,mzed_addmul_naive", "src/newton_john.c:mzed_invert_newton_john", "src/mzd_slice.h:mzd_slice_add,mzd_slice_mul,mzd_slice_addmul", "src/karatsuba.c"]}
{"id": "C63", "title": "Threads", "statement": "Several client threads that share matrices and the field, each making any sequence of library calls: if a matrix that one thread changes is not used by any other thread, then under every schedule no call fails, no thread blocks another, and when a thread has finished, its answers and its matrices are those it gets when it runs alone; matrices nobody changes stay as they are. (The calls are not atomic: operands are looked at at any time during the call, and until the call returns its target may hold anything.) Without this discipline the answers depend on the schedule.", "quantifier": "all numbers of threads, programs, contents, fields and interleavings", "why_tests_cant": "interleavings cannot be enumerated", "anchors": ["src/gf2e.h:gf2e", "src/blm.c:costs", "src/gf2e.c:irreducible_polynomials", "src/conversion.h", "src/mzed.h", "src/mzd_slice.h", "src/trsm.h", "src/echelonform.h", "src/newton_john.h", "src/strassen.h", "src/blm.h"]}
{"id": "C64", "title": "Sizes and positions in type int", "statement": "The library computes sizes and bit positions in C's type int. For a matrix whose rows have less than 2^31 bits (and with less than 2^31 rows) no such computation overflows in init, read/add/write of elements, windows, submatrix, concat, stack and column swaps, so that all results are the ones over unbounded integers; init with wider rows is undefined. The Newton-John elimination and inversion need a further bound, 6*2^7*ncols < 2^31, that init does not enforce: from 2796203 columns on (rows of less than 1 MB over GF(4)) they are undefined.", "quantifier": "all matrices, all positions in them, all numbers of columns M4RI may suggest, all cache sizes", "why_tests_cant": "An overflow needs matrices of gigabytes, and a wrapped product may go unnoticed.", "anchors": ["src/mzed.c: mzed_init", "src/mzed.h: mzed_read_elem, mzed_add_elem, mzed_write_elem, mzed_concat, mzed_stack, mzed_submatrix, mzed_init_window, mzed_col_swap, mzed_col_swap_in_rows", "src/newton_john.c: mzed_echelonize_newton_john, mzed_invert_newton_john"]}
{"id": "C65", "title": "Number of base multiplications", "statement": "The fast products call exactly as many products of smaller matrices as documented, all of them of the same size: a product of bit-sliced or (converted) packed matrices over GF(2^d) by Karatsuba calls M4RI's multiplication 1, 3, 6, 9, 13, 17, 22, 27, 31, 36, 40, 45, 49, 55, 60, 64 times for d = 1, ..., 16 on operands of the size of A and B, the same for matrices of polynomials with d coefficients; the schoolbook products d*d (depth A * depth B) times; a product through a bilinear map once for every row of the map, and a map made for a CRT scheme has as many rows as the scheme costs; Strassen's product of (2^j m) x (2^j k) by (2^j k) x (2^j n), with a cutoff that stops at m, k, n, multiplies 7^j pairs of m x k and k x n matrices.", "quantifier": "all sizes, contents, fields of degree up to 16, depths, schemes, recursion depths j, targets present or not", "why_tests_cant": "The number of products is not visible in the result, and j, sizes and schemes are unbounded.", "anchors": ["src/karatsuba.c", "src/mzd_slice.h: mzd_slice_mul, mzd_slice_addmul, _mzd_slice_addmul_naive, mzd_slice_mul_blm", "src/conversion.h: mzed_mul_karatsuba", "src/mzd_poly.h: _mzd_poly_addmul_naive, _mzd_poly_addmul_karatsubs_balanced", "src/blm.c: costs, blm_init_crt, _mzd_ptr_apply_blm_mzd, _mzd_ptr_apply_blm_djb", "src/strassen.c: mzed_mul_strassen, mzed_addmul_strassen"]}
{"id": "C66", "title": "Field multiplications of the Newton-John algorithms", "statement": "The product of an m x k and a k x n matrix with Newton-John tables multiplies exactly (e - 1) rows of n field elements by a field element for every row of B and pass over A (one pass for fewer rows than the block size times the word of an element), so that it needs at most (e - 1) k n field multiplications in one pass, whatever m is; with fewer rows than e it multiplies as the schoolbook does. Row echelon form and inverse of a matrix whose leading blocks are all invertible need at most (kk + e - 1) min(m, n) n and 2 (kk + e - 1) n^2 field multiplications, with kk <= 6. In general the claim of the README, 'using only O(n^2) field multiplications', is false: for every field and every constant K there is an n and an n x n matrix for which the row echelon form needs more than K n^2.", "quantifier": "all sizes, contents, fields of degree 2 to 16, targets present or not; all constants K", "why_tests_cant": "The number of multiplications is not visible in the result; the claim is asymptotic.", "anchors": ["README.md", "src/newton_john.c: mzed_make_table, _mzed_mul_newton_john, _mzed_gauss_submatrix_full, mzed_echelonize_newton_john, mzed_invert_newton_john", "src/mzed.c: mzed_add_multiple_of_row", "src/mzed.h: mzed_rescale_row"]}
{"id": "C67", "title": "Cost of Strassen's multiplication for all sizes", "statement": "For matrices A (m x k) and B (k x n) of any size, with m, k, n at most 2^j c for a cutoff c >= 3/2 words of elements, mzed_mul_strassen and mzed_addmul_strassen reduce the product to products of smaller matrices which together need at most 8 (c + 64/w) c^2 7^j multiplications of field elements by the schoolbook: O(d^(log2 7)) for the largest dimension d, as the README claims, including the borders that are left when sizes are not divisible.", "quantifier": "all sizes, contents, fields of degree 2 to 16, cutoffs, j, targets present or not", "why_tests_cant": "The number of multiplications is not visible in the result; the claim is asymptotic.", "anchors": ["README.md", "src/strassen.c: mzed_mul_strassen, mzed_addmul_strassen, _mzed_mul_strassen, _mzed_addmul_strassen"]}
{"id": "C68", "title": "Clients that react to answers", "statement": "A client may decide what to call next by what the calls before answered (rank, row and column permutations of a decomposition, an element, whether a matrix is zero, the first zero row): as long as every call keeps to its contract whatever was answered before, all calls succeed, and answers and matrices are those of a course the mathematical meaning of the calls allows; and if all calls have a unique result, two clients that ask for the same calls get the same answers and end with equal matrices whatever representations, algorithms and block sizes they use. Besides the calls of C58 this includes PLE and PLUQ decompositions, application of permutations and their inverses to rows and columns, random matrices and the search for the first zero row, also on windows (C60) and from several threads (C63).", "quantifier": "all adaptive clients (decision trees of any depth that branch on answers), all fields of degree 2 to 16, all mixtures of representations and algorithms", "why_tests_cant": "The next call depends on the results of earlier ones; tests run fixed scripts.", "anchors": ["src/mzed.h: mzed_init, mzed_first_zero_row", "src/ple.h: mzed_ple, mzed_ple_naive, mzd_slice_ple, mzd_slice_pluq", "src/permutation.h: mzed_apply_p_left, mzed_apply_p_left_trans, mzed_apply_p_right, mzed_apply_p_right_trans", "src/echelonform.h: mzed_echelonize", "src/mzed.c: mzed_randomize"]}
{"id": "C69", "title": "Triangular solving reduces to matrix products", "statement": "Solving an m x m triangular system with n right hand sides above the cutoff (m, n > cutoff >= 64, cutoff 512 for the public functions) is done by solving systems of at most cutoff rows, m rows in all, and products of almost square blocks (sides differing by at most 128) with n columns; the triangles and blocks together have exactly as many entries as the matrix's triangle. If products with two sides at most 2^i c + 128 and the third q times as long cost at most q K 7^i (the bound of Strassen's algorithm), all products together cost at most 2/3 of the bound for one m x m by m x n product: asymptotically fast TRSM, as the README claims.", "quantifier": "all triangular systems with invertible diagonal (packed and bit-sliced, upper and lower), all sizes, contents, fields of degree 2 to 16, cutoffs >= 64, cost functions", "why_tests_cant": "The recursion pattern depends on the size through the word-aligned splitting point; a test counts operations for the sizes it runs.", "anchors": ["src/trsm.inl: _mzed_trsm_lower_left, _mzed_trsm_upper_left, _mzd_slice_trsm_lower_left, _mzd_slice_trsm_upper_left", "README.md"]}
{"id": "C70", "title": "PLE decomposition and echelon forms reduce to matrix products", "statement": "_mzd_slice_ple and _mzed_ple with an m x n matrix of rank r above the cutoff decompose blocks that are small (at most 64 columns, or at most c bits) without recursion; the blocks partition the columns and their ranks sum to r, so that this takes (64 m + c/w) r operations; triangular systems (at most 576 rows each) have at most r n entries of right hand sides in all; and for every bound of Strassen's kind for products, all products together cost at most twice the bound for one product of an m x n by an n x n matrix (8/3 for the reduced echelon form by PLE): asymptotically fast, as the README claims.", "quantifier": "all matrices (packed and bit-sliced) of all sizes below 2^64 bits, contents and ranks, fields, cutoffs, cost functions", "why_tests_cant": "The recursion depends on the ranks of all blocks, hence on the contents; a test sees a few inputs and cannot bound the cost for all.", "anchors": ["src/ple.c: _mzd_slice_ple, _mzed_ple", "src/echelonform.c: mzd_slice_echelonize_ple", "README.md"]}
{"id": "C71", "title": "The laws of matrix algebra hold for what the calls return", "statement": "Comparing only results of calls with mzed_cmp: addition is associative and commutative and A + A is a zero matrix that is neutral; mzed_mul is associative, distributes over mzed_add on both sides, and has the matrices of mzed_set_ui(.,1) as identities; scalar multiples obey the module laws and move through products; mzed_invert_newton_john succeeds iff some matrix is an inverse on one side, iff elimination finds full rank, and its result is inverse on both sides, is the only one, inverts back to the matrix, and for a product is the product of the inverses in the other order; the rank found by mzed_echelonize is at most the number of rows and columns, is subadditive, and the rank of a product is at most that of each factor; the reduced echelon form is idempotent, and two matrices have the same one iff one is an invertible matrix times the other.", "quantifier": "all matrices of all compatible sizes over all fields of degree 2 to 16 (irreducible polynomial for inverses and ranks), all cache and table parameters", "why_tests_cant": "The laws relate several calls on arbitrary matrices; a test can only check them on the samples it draws.", "anchors": ["src/mzed.h: mzed_add, mzed_mul, mzed_mul_scalar, mzed_set_ui, mzed_cmp, mzed_is_zero", "src/newton_john.c: mzed_invert_newton_john, mzed_echelonize_newton_john", "src/echelonform.c: mzed_echelonize"]}
{"id": "C72", "title": "The PLE decomposition does not depend on the algorithm", "statement": "mzed_ple_naive, mzed_ple_newton_john, mzed_ple and _mzed_ple with any cutoff and cache size return, for the same matrix, the same rank, the same row permutation, the same pivot columns and exactly the same packed matrix (padding included), whatever the permutations contained before; mzd_slice_ple returns that decomposition for a bitsliced matrix with the same entries. The reason is that each takes as pivot the first row with a nonzero entry in the first possible column, and a decomposition with this property is unique. The entries of Q from the rank on do differ.", "quantifier": "all fields of degree 2..16 with irreducible polynomial, all matrices, all pairs of algorithms, all cutoffs and cache sizes, all prior contents of P and Q", "why_tests_cant": "tests/test_ple.c compares the packed matrices for a few sizes, none of which is large enough for a recursion at the default cutoff", "anchors": ["src/ple.c mzed_ple_naive", "src/ple.c _mzed_ple", "src/ple.c _mzd_slice_ple", "src/ple.h mzed_ple", "src/newton_john.c mzed_ple_newton_john", "tests/test_ple.c test_mzed_ple"]}
{"id": "C73", "title": "The library's own test programs pass on every input and see every wrong matrix, but not wrong ranks", "statement": "All test functions of tests/*.c (test_gf2e, test_slice, test_slice_known_answers, test_add, test_scalar, test_equality, test_mul, test_addmul, test_mzed_ple, test_mzd_slice_ple and the four tests of the triangular solvers) return no failure for any field, size, source of random numbers, cache size and M4RI that meets its contract. random_mzed_t_rank returns a matrix of rank exactly r whatever random() returns. The canaries they set leave the elements alone and are reported dead exactly if someone changed the slots behind the last column; the comparison of two results fails exactly if the matrices differ, so the test of the echelon forms finds every elimination function whose result is not the reduced echelon form of the matrix drawn. But m4rie_check(r0 == r1) expands to if (!r0 == r1) without parentheses and compares !r0 with r1: it fails only for (0,1) and for (nonzero,0), so an elimination function that returns rank+1 for every nonzero matrix passes. And test_scalar reads out of bounds over GF(8), GF(32), GF(64), GF(128) for matrices with 2^17 elements or more.", "quantifier": "all fields of degree 2 to 16 with irreducible polynomial, all sizes with at least one column, all random matrices, all elimination functions", "why_tests_cant": "A test draws a few matrices of a few sizes; that the checks would pass for all others, and what the checks are able to find, is a statement about all runs and about all wrong programs.", "anchors": ["tests/testing.h: m4rie_check, field_mask, mzed_set_canary, mzed_canary_is_alive, random_mzed_t, random_mzed_t_rank", "tests/test_ple.c: test_mzed_ple", "tests/test_elimination.c: test_equality", "tests/test_multiplication.c: test_mul, test_addmul, test_scalar", "tests/test_trsm.c: test_mzed_trsm_upper_left, test_mzed_trsm_lower_left, test_mzd_slice_trsm_upper_left, test_mzd_slice_trsm_lower_left", "tests/test_smallops.c: test_gf2e, test_slice, test_slice_known_answers, test_add", "tests/test_ple.c: test_mzd_slice_ple", "tests/testing.h: mzd_slice_set_canary, mzd_slice_clear_canary, mzd_slice_canary_is_alive"]}
