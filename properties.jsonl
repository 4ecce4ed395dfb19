{"id": "C01", "title": "Matrix creation accepts exactly the well-formed inputs", "statement": "aoclsparse_create_?csr / create_?csc return success only if the row (column) pointers start at the index base, never decrease, end at base+nnz, every index lies in [base, base+minor) and no row has two diagonal entries; for every input that violates this the documented error code is returned (invalid_size for negative sizes, invalid_value for pointer defects and duplicate diagonals, invalid_index_value for out-of-range indices), and the validation never reads outside the arrays the caller passed when they have the advertised lengths.", "quantifier": "every m, n, nnz, base and every content of the pointer and index arrays", "why_tests_cant": "inputs are unbounded arrays; a test can only sample defective and healthy patterns, and an out-of-bounds read is not observable by a passing test", "anchors": ["library/src/analysis/aoclsparse_csr_util.cpp:aoclsparse_mat_check_internal", "library/src/create/aoclsparse_create.cpp:aoclsparse_create_csr_t", "library/src/extra/aoclsparse_auxiliary.cpp:aoclsparse_create_csc_t"]}
{"id": "C02", "title": "Sortedness and full-diagonal classification is truthful", "statement": "The sortedness level recorded for an accepted matrix (fully / partially / unsorted) and its full-diagonal flag say exactly: fully sorted iff the columns of every row never decrease; partially sorted iff in every row all strictly lower entries precede the diagonal which precedes all strictly upper entries; full diagonal iff each of the first min(m,n) rows stores its diagonal.", "quantifier": "every valid CSR structure of every size and base", "why_tests_cant": "the classification is a property of all orderings of all rows", "anchors": ["library/src/analysis/aoclsparse_csr_util.cpp:aoclsparse_mat_check_internal", "library/src/analysis/aoclsparse_csr_util.cpp:aoclsparse_csr_csc_check_sort_diag"]}
{"id": "C03", "title": "L/D/U split positions partition each row", "statement": "For a row-sorted matrix, the per-row positions the library computes split each stored row into its strictly lower, diagonal and strictly upper entries, exactly and exhaustively.", "quantifier": "every valid sorted CSR matrix, every row", "why_tests_cant": "holds for all patterns including empty rows, missing diagonals, rectangular shapes", "anchors": ["library/src/analysis/aoclsparse_csr_util.cpp:aoclsparse_csr_csc_indices"]}
{"id": "C04", "title": "Ordering a matrix permutes entries inside rows and nothing else", "statement": "aoclsparse_order_mat on a CSR or CSC matrix leaves row pointers unchanged, and each row (column) afterwards holds the same (index,value) pairs in ascending index order.", "quantifier": "every valid matrix without duplicate column indices in a row, CSR and CSC, square and rectangular", "why_tests_cant": "permutation-and-sortedness over unbounded rows; CSC with m != n is a corner unit tests skip", "anchors": ["library/src/extra/aoclsparse_auxiliary.cpp:aoclsparse_sort_mat", "library/src/analysis/aoclsparse_csr_util.hpp:aoclsparse_sort_idx_val"]}
{"id": "C05", "title": "Filling the diagonal adds only explicit zeros", "statement": "Preparing a sorted matrix whose diagonal is incomplete adds exactly one zero-valued entry for each missing diagonal position, keeps every stored entry with its value and keeps rows sorted; the represented matrix does not change.", "quantifier": "every valid sorted CSR matrix", "why_tests_cant": "all patterns of missing diagonals over all sizes", "anchors": ["library/src/analysis/aoclsparse_csr_util.hpp:aoclsparse_csr_csc_fill_diag"]}
{"id": "C06", "title": "CSR to CSC conversion is an exact transposition", "statement": "aoclsparse_?csr2csc produces arrays of a valid matrix in which, for every (i,j), the values stored at (j,i) are exactly the values stored at (i,j) in the input in the same order (so duplicates survive), columns are ordered by row, and input and output index bases are honoured; no access is out of bounds.", "quantifier": "every valid CSR input, both input and output bases, any initial content of the output buffers", "why_tests_cant": "all patterns incl. empty rows/columns, duplicates; counting sort off-by-ones hide in untested shapes", "anchors": ["library/src/conversion/aoclsparse_convert.hpp:aoclsparse_csr2csc_template"]}
{"id": "C07", "title": "COO to CSR conversion preserves the entries", "statement": "Converting COO to CSR groups entries by row keeping, for each (i,j), the list of stored values in input order, and produces a valid row pointer array.", "quantifier": "every valid COO input in any order with duplicates, both bases", "why_tests_cant": "any permutation of entries is legal input", "anchors": ["library/src/conversion/aoclsparse_convert.hpp:aoclsparse_coo2csr_template"]}
{"id": "C08", "title": "ELL conversions preserve the matrix", "statement": "csr2ell with the width reported by csr2ell_width stores every CSR entry at its row, marks every other slot as padding, and never writes out of bounds; the transposed-ELL variant used internally has the same content with zero-valued padding.", "quantifier": "every valid CSR input and base", "why_tests_cant": "all row-length distributions", "anchors": ["library/src/conversion/aoclsparse_convert.hpp:aoclsparse_csr2ell_template", "library/src/conversion/aoclsparse_convert.cpp:aoclsparse_csr2ell_width"]}
{"id": "C09", "title": "DIA conversion preserves the matrix", "statement": "csr2dia with the number of diagonals reported by csr2dia_ndiag yields strictly increasing offsets, one per occupied diagonal, and on zero-initialised storage the value at (i, i+offset) is the CSR entry (zero when not stored).", "quantifier": "every valid CSR input without duplicate entries, both bases", "why_tests_cant": "all sparsity patterns, rectangular shapes", "anchors": ["library/src/conversion/aoclsparse_convert.hpp:aoclsparse_csr2dia_template", "library/src/conversion/aoclsparse_convert.cpp:aoclsparse_csr2dia_ndiag"]}
{"id": "C10", "title": "BSR conversion preserves the matrix", "statement": "csr2bsr_nnz followed by csr2bsr on a zero-initialised value array yields a valid block structure whose blocks, read in row or column order, contain exactly the CSR entries (the last of several stored at one place) and zero elsewhere; the reported number of blocks is the number of non-empty blocks.", "quantifier": "every valid CSR input with at least one row and one column whose sizes fit the index type, every positive block size including non-divisors, both orders and bases", "why_tests_cant": "unbounded sizes and block dimensions", "anchors": ["library/src/conversion/aoclsparse_convert.hpp:aoclsparse_csr2bsr_template", "library/src/conversion/aoclsparse_convert.cpp:aoclsparse_csr2bsr_nnz"]}
{"id": "C11", "title": "Dense conversion writes the matrix", "statement": "csr2dense writes into an m x n dense array (row or column order with leading dimension ld) exactly the matrix: A(i,j) at each position within the m x n window and leaves bytes outside the window untouched.", "quantifier": "every valid CSR input (square unless the descriptor is general), order, ld large enough, any initial content", "why_tests_cant": "all patterns and layouts", "anchors": ["library/src/conversion/aoclsparse_convert.hpp:aoclsparse_csr2dense_template"]}
{"id": "C12", "title": "Symmetric / Hermitian expansion is correct", "statement": "The full-storage copy created when a symmetric or Hermitian product is hinted represents T + T^T - D (resp. T + T^H - D, real diagonal) of the stored triangle and ignores the entries of the other triangle.", "quantifier": "every valid square CSR input, either triangle, unit/zero/non-unit diagonal", "why_tests_cant": "all patterns, with and without the diagonal, other triangle present or not", "anchors": ["library/src/analysis/aoclsparse_csr_util.hpp:aoclsparse_convert_mat_to_general"]}
{"id": "C13", "title": "Preparing a matrix for solves/products preserves it", "statement": "The prepared copy used by triangular products/solves (trsv, symgs, mv on non-general matrices) represents the same matrix as the user's, is sorted with a full diagonal, and the user's arrays are never modified.", "quantifier": "every valid CSR/CSC matrix", "why_tests_cant": "composition of copy, sort, fill and index phases over all inputs", "anchors": ["library/src/analysis/aoclsparse_csr_util.hpp:aoclsparse_csr_csc_optimize"]}
{"id": "C14", "title": "Operation bookkeeping computes the requested operation", "statement": "For every stored form (normal, transposed, conjugated, symmetric, Hermitian, triangular, lower/upper) and every requested form, the operation the library decides to apply to the stored data yields the requested operation applied to the user's matrix; when no such operation exists it says so.", "quantifier": "every stored/requested pair and every matrix over every commutative ring with involution", "why_tests_cant": "the semantic claim quantifies over all matrices, not just table entries", "anchors": ["library/src/include/aoclsparse_mtx_dispatcher.hpp:get_effective_doid", "library/src/include/aoclsparse_mtx_dispatcher.hpp:trans_doid", "library/src/include/aoclsparse_mtx_dispatcher.hpp:get_doid"]}
{"id": "C15", "title": "General sparse matrix-vector product is exact", "statement": "aoclsparse_?mv / ?csrmv on a general CSR (or, for mv, CSC) matrix computes y := alpha*op(A)*x + beta*y with op none/transpose/conjugate transpose (in exact arithmetic), reads only inside A, x, y, writes only y, and when beta is zero the result does not depend on the old content of y.", "quantifier": "every valid CSR matrix, vectors, scalars, both bases, all operations", "why_tests_cant": "universally quantified over data", "anchors": ["library/src/level2/aoclsparse_csrmv_kr.hpp:aoclsparse_ref_csrmv_gn", "library/src/level2/aoclsparse_csrmv_kr.hpp:aoclsparse_ref_csrmv_th"]}
{"id": "C16", "title": "Triangular matrix-vector product is exact", "statement": "mv on a triangular matrix (lower/upper; unit, zero, non-unit diagonal; none/transpose/conjugate transpose) computes y := alpha*op(T)*x + beta*y where T is the selected triangle of A with the requested diagonal.", "quantifier": "every valid square CSR matrix, vectors, scalars", "why_tests_cant": "kernel splits rows by position; all row shapes must be covered", "anchors": ["library/src/level2/aoclsparse_csrmv_kr.hpp:aoclsparse_ref_csrmv_tri", "library/src/level2/aoclsparse_csrmv_kr.hpp:aoclsparse_ref_csrmv_tri_th"]}
{"id": "C17", "title": "Symmetric / Hermitian matrix-vector product is exact", "statement": "mv on symmetric or Hermitian matrices (either triangle, every diagonal type, every op) computes y := alpha*op(S)*x + beta*y for the S represented by the selected triangle.", "quantifier": "every valid square CSR or CSC matrix whose rows repeat no column or are already grouped lower|diagonal|upper, real diagonal for Hermitian matrices, every consistent handle history, vectors, scalars", "why_tests_cant": "scatter updates to y from every row", "anchors": ["library/src/level2/aoclsparse_csrmv_kr.hpp:aoclsparse_csrmv_symm_internal"]}
{"id": "C18", "title": "Vectorised product kernels agree with the reference kernels", "statement": "In exact arithmetic, the 4- and 8-lane AVX2 product kernels return the same vector as the reference kernels for every input the dispatcher hands them.", "quantifier": "every row length (incl. remainders), every matrix and vector", "why_tests_cant": "lane/remainder boundaries are many; a wrong reduction shows only for certain row shapes", "anchors": ["library/src/level2/aoclsparse_csrmv_kr.hpp:aoclsparse_csrmv_vectorized_avx2", "library/src/level2/aoclsparse_csrmv_kr.hpp:aoclsparse_csrmv_vectorized_avx2ptr"]}
{"id": "C19", "title": "Blocked 4-row product equals the CSR product", "statement": "After optimize selects the 4-row interleaved storage for products, mv computes the same vector as on the original CSR matrix.", "quantifier": "every valid CSR matrix, both bases, every row-length mix", "why_tests_cant": "padding and interleaving depend on the lengths of 4 neighbouring rows", "anchors": ["library/src/analysis/aoclsparse_analysis.cpp:aoclsparse_optimize_mv", "library/src/level2/aoclsparse_csrmv_kr.hpp:aoclsparse_dcsr_mat_br4"]}
{"id": "C20", "title": "ELL, ELL-transposed and DIA products are exact", "statement": "?ellmv, ?elltmv, ?diamv and the hybrid ELL/CSR product compute y := alpha*A*x + beta*y for the matrix stored in that format.", "quantifier": "every well-formed ELL/ELLT/DIA data, scalars, vectors", "why_tests_cant": "universally quantified data; degenerate widths are the corner", "anchors": ["library/src/level2/aoclsparse_ellmv.hpp", "library/src/level2/aoclsparse_diamv.hpp"]}
{"id": "C21", "title": "Triangular solve returns a solution", "statement": "?trsv (lower/upper, none/transpose/conjugate transpose, unit/non-unit, any positive strides) returns x with op(T)*x = alpha*b in exact arithmetic, touching only the strided entries of x.", "quantifier": "every prepared square matrix with invertible diagonal (or unit), every b, alpha, strides", "why_tests_cant": "correctness is by induction over all rows", "anchors": ["library/src/level2/aoclsparse_trsv_kr.hpp"]}
{"id": "C22", "title": "Legacy triangular solve", "statement": "?csrsv returns y with T*y = alpha*x for the selected triangle of a row-sorted matrix with present diagonal.", "quantifier": "every row-sorted square CSR with stored diagonal (or unit)", "why_tests_cant": "induction over rows; unsorted or missing-diagonal inputs are the corner", "anchors": ["library/src/level2/aoclsparse_csrsv.hpp"]}
{"id": "C23", "title": "Sparse addition is exact", "statement": "?add returns C with C(i,j) = alpha*op(A)(i,j) + B(i,j), a valid CSR structure in A's base, the same result for the one-pass and two-pass (count then fill) strategies and any number of threads.", "quantifier": "all valid CSR/CSC A and B, all ops, any number of threads", "why_tests_cant": "depends on pattern overlaps and row partition among threads", "anchors": ["library/src/level3/aoclsparse_csradd.hpp"]}
{"id": "C24", "title": "Sparse-sparse product is exact and stages agree", "statement": "csr2m/sp2m/spmm return C with C = op(A)*op(B); the nnz-count stage predicts exactly the space the finalize stage fills, and finalize can be repeated after values change.", "quantifier": "all valid A, B with matching dimensions, base combinations, op combinations, any row partition among threads", "why_tests_cant": "pattern of C depends on all column collisions", "anchors": ["library/src/level3/aoclsparse_csr2m.cpp"]}
{"id": "C25", "title": "Sparse-sparse to dense product is exact", "statement": "sp2md/spmmd compute C := alpha*op(A)*op(B) + beta*C in row or column order and do not touch dense entries outside the window.", "quantifier": "all valid A, B, layouts, ldc >= minimum", "why_tests_cant": "data-dependent scatter updates", "anchors": ["library/src/level3/aoclsparse_sp2md.hpp"]}
{"id": "C26", "title": "Sparse-dense product is exact", "statement": "?csrmm computes C := alpha*op(A)*B + beta*C for row and column order dense B and C.", "quantifier": "all valid A, dense B, C, layouts, leading dimensions", "why_tests_cant": "universally quantified", "anchors": ["library/src/level3/aoclsparse_csrmm.hpp"]}
{"id": "C27", "title": "ILU(0) reproduces A on its pattern", "statement": "After ?ilu_smoother returns success on a row-sorted CSR matrix, the factors satisfy (L*U)(i,j) = A(i,j) for every stored (i,j), have no fill outside the pattern, and x solves L*U*x = b.", "quantifier": "every square fully sorted CSR matrix with full diagonal whose pivots are non-zero, every b", "why_tests_cant": "induction over elimination steps for all patterns", "anchors": ["library/src/solvers/aoclsparse_ilu0.hpp"]}
{"id": "C28", "title": "ILU outcome does not depend on previous failed calls", "statement": "If ?ilu_smoother reports failure for a matrix, calling it again with the same arguments reports failure again (never success with different factors).", "quantifier": "every call history on a matrix handle", "why_tests_cant": "history property", "anchors": ["library/src/solvers/aoclsparse_ilu.hpp:aoclsparse_ilu_template", "library/src/solvers/aoclsparse_ilu0.hpp"]}
{"id": "C29", "title": "SOR sweep is the mathematical sweep", "statement": "?sorv performs exactly one forward SOR sweep x_i := (1-w)*a*x_i + w*(b_i - sum_{j<i} A_ij x_j^new - sum_{j>i} A_ij a x_j)/A_ii.", "quantifier": "every square matrix with non-zero diagonal, any row ordering, both bases", "why_tests_cant": "universally quantified", "anchors": ["library/src/solvers/aoclsparse_sorv.hpp"]}
{"id": "C30", "title": "Symmetric Gauss-Seidel step", "statement": "?symgs computes x with (L+D)x1 = b - alpha*U*x0 and (U+D)x = b - L*x1, and ?symgs_mv additionally y = A*x.", "quantifier": "every prepared matrix with invertible diagonal, every b, x0, alpha", "why_tests_cant": "composition of products and solves", "anchors": ["library/src/solvers/aoclsparse_symgs.hpp"]}
{"id": "C31", "title": "Level-1 gather/scatter/axpy/dot/rotation laws", "statement": "?axpyi, ?doti/?dotui/?dotci, ?gthr, ?gthrz, ?gthrs, ?sctr, ?sctrs, ?roti compute their definitions (for distinct indices where they store), leave all other positions unchanged, whichever kernel is chosen; invalid sizes and null pointers are reported without writing anything.", "quantifier": "every length, index vector and data", "why_tests_cant": "universally quantified, incl. error position", "anchors": ["library/src/level1"]}
{"id": "C32", "title": "Value updates are never served stale data", "statement": "After a successful set_value or update_values, every later product on that handle behaves as on a matrix freshly created with the new values, whatever sequence of hint/optimize/set/update calls happened before.", "quantifier": "every finite history of API calls on a handle", "why_tests_cant": "history property over unbounded call sequences", "anchors": ["library/src/extra/aoclsparse_auxiliary.hpp:aoclsparse_update_values_t", "library/src/extra/aoclsparse_auxiliary.hpp:aoclsparse_set_value_t", "library/src/include/aoclsparse_magic_box.hpp:get_best_matrix"]}
{"id": "C33", "title": "Concurrent first use is safe", "statement": "When several threads use the same unprepared handle at once, exactly one prepared copy is created, all threads get the same complete copy, no thread sees a half-built one and no deadlock occurs.", "quantifier": "every number of threads and every interleaving", "why_tests_cant": "schedules are unbounded", "anchors": ["library/src/analysis/aoclsparse_csr_util.hpp:aoclsparse_csr_csc_optimize"]}
{"id": "C34", "title": "Parallel row loops are schedule independent", "statement": "The OpenMP row loops of the product kernels give the same y for every assignment of rows to threads and every interleaving of the threads.", "quantifier": "every schedule", "why_tests_cant": "schedules are unbounded", "anchors": ["library/src/level2/aoclsparse_csrmv_kr.hpp:aoclsparse_ref_csrmv_gn"]}
{"id": "C35", "title": "Kernel selection is sound", "statement": "A kernel is chosen only if the CPU supports the instruction set it needs; an out-of-range or unsupported requested kernel id is rejected; with automatic choice, a kernel is always found when the table has a generic entry, and an instruction-set hint is honoured when a supported kernel for it exists.", "quantifier": "every kernel table, CPU capability set, hint, requested id", "why_tests_cant": "tables x CPUs x hints", "anchors": ["library/src/include/aoclsparse_cntx_dispatcher.hpp:Oracle"]}
{"id": "C36", "title": "Instruction-set hints", "statement": "aoclsparse_enable_instructions accepts exactly the documented names, never sets a hint the hardware lacks and leaves the previous hint on rejection; number of threads reported is at least 1 and never above the limits.", "quantifier": "every string, hardware capability, environment, previous state", "why_tests_cant": "state x string space", "anchors": ["library/src/extra/aoclsparse_auxiliary.cpp:aoclsparse_enable_instructions", "library/src/include/aoclsparse_context.hpp"]}
{"id": "C37", "title": "Overflow guard is exact", "statement": "The integer-product overflow guard used before stride/leading-dimension address computations never misses a product that does not fit the integer type, and for non-negative factors reports overflow exactly when the product does not fit.", "quantifier": "all pairs of integers of 32 or 64 bit width", "why_tests_cant": "2^64 or more pairs", "anchors": ["library/src/extra/aoclsparse_utils.hpp:aoclsparse_int_product_overflow"]}
{"id": "C38", "title": "Solver options registry", "statement": "Setting an iterative-solver option succeeds only for known names and in-range values and then reads back exactly that value; any failing set (unknown, out of range, NaN, locked) leaves all options unchanged; names are matched ignoring case and blank runs.", "quantifier": "every sequence of set/lock/unlock calls", "why_tests_cant": "history property", "anchors": ["library/src/include/aoclsparse_itsol_options.hpp"]}
{"id": "C39", "title": "Descriptors", "statement": "Descriptor setters accept exactly the defined enum values; a rejected call leaves the descriptor unchanged; getters return the last accepted value and documented defaults for null.", "quantifier": "every sequence of setter calls with arbitrary integers", "why_tests_cant": "history property", "anchors": ["library/src/extra/aoclsparse_auxiliary.cpp:aoclsparse_set_mat_index_base"]}
{"id": "C40", "title": "Copy and export", "statement": "aoclsparse_copy produces an independent matrix with identical content; export returns the user's matrix.", "quantifier": "every matrix state (after any hints/optimize)", "why_tests_cant": "history property", "anchors": ["library/src/extra/aoclsparse_auxiliary.cpp:aoclsparse_copy", "library/src/extra/aoclsparse_auxiliary.cpp:aoclsparse_export_csr_t"]}
{"id": "C41", "title": "Hints", "statement": "set hint functions accept exactly valid arguments, record the newest hint first and never change the matrix; destroy releases every hint and every internal copy once and no user array.", "quantifier": "every sequence of hint calls", "why_tests_cant": "history property", "anchors": ["library/src/analysis/aoclsparse_analysis.cpp", "library/src/analysis/aoclsparse_csr_util.cpp:aoclsparse_add_hint"]}
{"id": "C42", "title": "TCSR storage", "statement": "A matrix created as TCSR (separate lower and upper triangles) yields products and solves of the corresponding CSR matrix and creation validates both halves.", "quantifier": "every pair of triangle arrays", "why_tests_cant": "universally quantified", "anchors": ["library/src/extra/aoclsparse_auxiliary.hpp:aoclsparse_create_tcsr_t", "library/src/level2/aoclsparse_tcsr.hpp"]}
{"id": "C43", "title": "Conjugate gradient bookkeeping", "statement": "In the CG solver (reverse communication and forward interface), at every monitoring step and every regular stop the vector handed out equals A*x - b for the current x and rinfo holds its norm, as long as product requests are answered correctly; success is returned exactly when a tolerance is met; the iteration counter never exceeds the limit; the number of calls is bounded; in exact arithmetic a symmetric system of order n is finished within n iterations; the monitor receives x and the residual; an interrupt stops the solver with x untouched.", "quantifier": "every symmetric matrix, right-hand side, start vector, preconditioner, user answer and number of iterations", "why_tests_cant": "history of unbounded length x all systems", "anchors": ["library/src/solvers/aoclsparse_itsol_functions.hpp"]}
{"id": "C44", "title": "Negative indices in level-1 operations", "statement": "On a negative index ?axpyi, ?gthr, ?gthrz, ?sctr and ?roti return invalid_index_value, having processed exactly the elements before it.", "quantifier": "every index vector, position of the negative index, data and kernel choice", "why_tests_cant": "error position x data x CPU", "anchors": ["library/src/level1"]}
{"id": "C45", "title": "Handle conversion to CSR", "statement": "aoclsparse_convert_csr on a CSR, CSC or COO handle yields a new CSR handle with the dimensions of op(A) whose stored elements at each place are exactly those of op(A), conjugated for the conjugate transpose; null arguments are rejected.", "quantifier": "every handle, operation and content of fresh memory", "why_tests_cant": "universally quantified over matrices and storage forms", "anchors": ["library/src/conversion/aoclsparse_convert.cpp:aoclsparse_convert_csr_t", "library/src/conversion/aoclsparse_convert.cpp:aoclsparse_convert_csr"]}
{"id": "C46", "title": "Triangular solve with several right-hand sides", "statement": "aoclsparse_?trsm on a valid handle computes X with op(T)*X = alpha*B, T the triangle selected by the descriptor, for row and column order and any admissible leading dimensions, whatever the order in which threads process the columns; elements of the X array outside the m x n window keep their value; any status other than success leaves X untouched; inadmissible arguments, including leading dimensions below the documented minimum, are rejected.", "quantifier": "every handle, descriptor, operation, scalar, right-hand sides, layout, leading dimensions, kernel and schedule", "why_tests_cant": "universally quantified over matrices, layouts and schedules", "anchors": ["library/src/level3/aoclsparse_trsm.hpp:aoclsparse_trsm"]}
{"id": "C47", "title": "Product with dot product", "statement": "aoclsparse_?dotmv leaves y = alpha*op(A)*x + beta*y and d = sum of conj(x_i)*y_i over i < min(m,n) with the new y; on any other status neither y nor d is written; null arguments are rejected.", "quantifier": "every handle, descriptor, operation, scalars and vectors", "why_tests_cant": "universally quantified over matrices and vectors", "anchors": ["library/src/level2/aoclsparse_dotmv.hpp:aoclsparse_dotmv_t", "library/src/level1/aoclsparse_dense_dot.hpp:dense_dot"]}
{"id": "C48", "title": "Product with block matrices", "statement": "aoclsparse_?bsrmv on valid BSR arrays with column-ordered blocks leaves y = alpha*A*x + beta*y for every block dimension, value type and selected kernel, blocks in any order within a row; converting a CSR matrix with csr2bsr and multiplying gives the CSR product; inadmissible arguments are rejected before y is written.", "quantifier": "every block structure, block dimension, values, scalars, vectors, value type and CPU", "why_tests_cant": "universally quantified over matrices, block sizes and kernels", "anchors": ["library/src/level2/aoclsparse_bsrmv.cpp:bsrmv", "library/src/level2/aoclsparse_bsrmv_kr.hpp", "library/src/level2/aoclsparse_bsrmv_kt.cpp", "library/src/level2/aoclsparse_bsrmv_bldr.hpp"]}
{"id": "C49", "title": "Product of a matrix with its own conjugate transpose", "statement": "aoclsparse_?syrkd on a CSR or CSC matrix leaves beta*C + alpha*op(A)*op(A)^H in the upper triangle of C, for row and column order and any admissible leading dimension, and changes no other element of the array; with beta zero the old content is not used; inadmissible arguments, including unsorted rows where sorted ones are needed, are rejected with C unchanged.", "quantifier": "every matrix handle, operation, scalars, dense matrix, layout and leading dimension", "why_tests_cant": "universally quantified over sparsity structures and layouts", "anchors": ["library/src/level3/aoclsparse_syrkd.hpp:aoclsparse_syrkd_t", "library/src/level3/aoclsparse_sypr.hpp:oftrans"]}
{"id": "C50", "title": "Symmetric triple product with a dense matrix", "statement": "aoclsparse_?syprd leaves beta*C + alpha*op(A)*B*op(A)^H in the upper triangle of C, B being the Hermitian (symmetric) matrix given by its upper triangle, for CSR and CSC matrices, row and column order and any admissible leading dimensions, and changes no other element of C; with beta zero the old content is not used; inadmissible arguments are rejected with C unchanged.", "quantifier": "every matrix handle, operation, scalars, dense matrices, layout and leading dimensions", "why_tests_cant": "universally quantified over sparsity structures and layouts", "anchors": ["library/src/level3/aoclsparse_syprd.hpp:aoclsparse_syprd", "library/src/level3/aoclsparse_syprd.hpp:aoclsparse_syprd_row_ref", "library/src/level3/aoclsparse_syprd.hpp:aoclsparse_syprd_col_ref"]}
{"id": "C51", "title": "Sparse product of a matrix with its own conjugate transpose", "statement": "aoclsparse_syrk on a CSR or CSC matrix returns a new CSR handle in the base of A that holds exactly the upper triangle of op(A)*op(A)^H, with no position stored twice and nothing below the diagonal; the size it allocates is large enough for every matrix; a result that may not fit the index type, unsorted rows where sorted ones are needed and other inadmissible arguments are rejected without a handle. The returned handle can be used as any other.", "quantifier": "every matrix handle, operation, value type, index width and content of fresh memory", "why_tests_cant": "universally quantified over sparsity structures: the allocation relies on an overestimate that holds by a counting argument", "anchors": ["library/src/level3/aoclsparse_syrk.hpp:aoclsparse_syrk_t", "library/src/level3/aoclsparse_syrk.hpp:aoclsparse_aat_dense_row", "library/src/level3/aoclsparse_syrk.cpp:estimate_nnz", "library/src/level3/aoclsparse_sypr.hpp:aoclsparse_sp2m_online_atb"]}
{"id": "C52", "title": "Symmetric triple product into a sparse matrix", "statement": "aoclsparse_sypr on a CSR or CSC matrix A and a square CSR matrix B described as symmetric (real) or Hermitian (complex) by one of its triangles returns a new zero-based CSR handle that holds exactly the upper triangle of op(A)*B*op(A)^H, with no position stored twice and nothing below the diagonal; a result or an intermediate product that does not fit the index type is rejected with invalid_size and no handle. The two-stage use gives the same: the first stage sizes the handle, the second one fills it, and it can be filled again any number of times with matrices that have elements at the same positions. B keeps the user's matrix. Inadmissible arguments are rejected and leave B alone. The returned handle can be used as any other.", "quantifier": "every pair of matrix handles, operation, descriptor, request, value type, index width, content of fresh memory and sequence of second stages", "why_tests_cant": "universally quantified over sparsity structures and over histories of calls: the second stage relies on sizes computed by an earlier call", "anchors": ["library/src/level3/aoclsparse_sypr.hpp:aoclsparse_sypr_t", "library/src/level3/aoclsparse_sypr.hpp:aoclsparse_sp2m_online_symab", "library/src/level3/aoclsparse_sypr.hpp:aoclsparse_sp2m_online_atb", "library/src/analysis/aoclsparse_csr_util.hpp:aoclsparse_csr_csc_optimize"]}
{"id": "C53", "title": "Blocked CSR conversion and product agree with the CSR matrix", "statement": "Counting blocks (aoclsparse_opt_blksize), converting a CSR matrix with aoclsparse_csr2blkcsr and multiplying with aoclsparse_dblkcsrmv: the number of blocks is at most the number of stored entries and is exactly what the conversion writes, so the conversion stays inside arrays sized from it for every block height, and the product on the converted arrays is y := alpha*A*x + beta*y. Calls with other arguments are refused and write nothing.", "quantifier": "every matrix with at least eight columns, any number of rows (also not a multiple of the block height), both bases, block heights 1, 2 and 4, all scalars and vectors", "why_tests_cant": "blocks depend on how the columns of several rows interleave and on the distance to the right edge, where masks are shifted; a test sees a few patterns, a wrong mask or count shifts every later value or writes past an array", "anchors": ["library/src/conversion/aoclsparse_convert.cpp:aoclsparse_opt_blksize", "library/src/conversion/aoclsparse_convert.cpp:aoclsparse_csr2blkcsr", "library/src/level2/aoclsparse_blkcsrmv.hpp:aoclsparse_blkcsrmv_t", "library/src/level2/aoclsparse_blkcsrmv_avx512.cpp:aoclsparse_blkcsrmv_4x8_vectorized_avx512"]}
{"id": "C54", "title": "GMRES reports the residual of the x it returns", "statement": "Solving A x = b with the GMRES solver by reverse communication, with or without preconditioner: whenever the solver asks to be monitored, rinfo[0] is the 2-norm of b - A x for the x shown, and that x has the smallest residual among the start of the cycle plus all combinations of the cycle's directions, so no restart makes the residual larger. Success means the norm meets the absolute or the relative tolerance; maxit means the limit is reached and no tolerance is met. The iteration counter does not exceed the limit and the number of calls is bounded, convergence or not. A request to stop is obeyed at once and leaves x alone. rinfo[1] is the norm of b. Every call of a run is defined whatever the caller stores in the vectors, and a new solve with the same handle behaves like the first one.", "quantifier": "every real or complex matrix, size, right-hand side, start vector, restart length, tolerances, limit, answers of the preconditioner, and every history of answered requests", "why_tests_cant": "the reported norm is never computed from x but carried through plane rotations; that it is the norm of the residual is an invariant over any number of iterations and restarts, and the sizes of the work arrays are related to it", "anchors": ["library/src/solvers/aoclsparse_itsol_functions.hpp:aoclsparse_gmres_rci_solve", "library/src/solvers/aoclsparse_itsol_functions.hpp:aoclsparse_backward_solve", "library/src/solvers/aoclsparse_itsol_functions.hpp:aoclsparse_gmres_data_init", "library/src/solvers/aoclsparse_itsol_functions.hpp:aoclsparse_itsol_rci_solve"]}
{"id": "C55", "title": "The GMRES solver on a matrix handle", "statement": "Solving A x = b with GMRES through the direct interface on a matrix handle gives what the reverse communication interface gives when every product is the product with the described matrix and every preconditioning step is the chosen preconditioner: none, the user's function, or ILU(0) of the matrix, L U z = r. The call always returns, the handle keeps the user's data, success means that x meets a tolerance and maxit that it meets none. A matrix of another size gives invalid_size and a user's preconditioner that was chosen but not passed gives invalid_pointer, x left alone. A preconditioner that cannot be applied is reported. The monitor is given x and its residual.", "quantifier": "every matrix handle, descriptor supported by the product, size, right-hand side, start vector, restart length, limit, tolerances, preconditioner, user function, number of threads", "why_tests_cant": "the loop couples the solver with the product, the lazily built optimised copy and the factors kept in the handle; that they serve every request for any number of rounds is an invariant of the pair of states", "anchors": ["library/src/solvers/aoclsparse_itsol_functions.hpp:aoclsparse_itsol_solve", "library/src/solvers/aoclsparse_itsol_functions.hpp:aoclsparse_gmres_solve", "library/src/analysis/aoclsparse_csr_util.hpp:aoclsparse_csr_csc_optimize"]}
{"id": "C56", "title": "Matrix handles made from BSR arrays", "statement": "Creating a handle from BSR arrays of the advertised lengths reads nothing out of bounds, succeeds exactly for a positive block dimension and a valid block structure, and otherwise reports the code of the first defect and leaves no handle. The product with such a handle and a general descriptor computes alpha * A * x + beta * y, A being the matrix the blocks denote, also when there are no block rows, no block columns or no blocks; a handle converted from CSR or CSC multiplies with the (transposed) matrix it was converted from. Every request that is not supported is refused with a status and y is not written.", "quantifier": "every block size, block dimension, block structure, index base, block order, value type, instruction set, operation, descriptor, alpha, beta, x and y", "why_tests_cant": "creation inspects every block row and multiplies sizes given by the caller; a test covers a few structures, and none whose expanded sizes come near the integer range", "anchors": ["library/src/create/aoclsparse_create.cpp:create_bsr", "library/src/include/aoclsparse_mat_structures.hpp:bsr", "library/src/level2/aoclsparse_mv.cpp:mv", "library/src/include/aoclsparse_magic_box.hpp:get_arch_score", "library/src/conversion/aoclsparse_convert.cpp:convert_bsr_t"]}
{"id": "C57", "title": "Preparing a matrix for products changes no result", "statement": "After aoclsparse_set_mv_hint and aoclsparse_optimize on a double precision CSR handle, whatever storage format the library decides to keep next to the user's arrays (blocked CSR, ELL-CSR hybrid, 4-row interleaved, or none), optimize succeeds without reading or writing outside its arrays, and every later product with the handle, whichever stored copy it picks, computes alpha * op(A) * x + beta * y as it would without preparation, also after other calls have added optimised copies. Requests the copy is not made for behave as on the unprepared handle, and exporting the handle still returns the user's matrix.", "quantifier": "every consistent CSR handle with double precision values and any stored row lengths, both index bases, every outcome of the floating-point heuristics, instruction set, number of threads, later consistent state of the handle, descriptor, operation, scalars and vectors", "why_tests_cant": "which format is built depends on the distribution of row lengths through floating-point thresholds, and which object a product uses depends on scores and on earlier calls; a test fixes one combination", "anchors": ["library/src/analysis/aoclsparse_analysis.cpp:aoclsparse_optimize_mv", "library/src/include/aoclsparse_magic_box.hpp:get_best_matrix", "library/src/level2/aoclsparse_mv.cpp:mv", "library/src/extra/aoclsparse_auxiliary.cpp:aoclsparse_export_csr_t"]}
{"id": "C58", "title": "Hinted products equal unhinted ones", "statement": "After aoclsparse_set_mv_hint and aoclsparse_optimize with any list of product hints (any matrix type, fill mode and operation), aoclsparse_?mv on the handle returns alpha*op(A)*x + beta*y for the matrix the descriptor describes, for any request - the hinted one or another, with any diagonal rule, in any order and number - and leaves the user's arrays alone. Hints therefore never change a result: two handles of the same data give the same vector whenever both succeed. A hinted symmetric or Hermitian product is delivered even when the rows are in an order the library cannot sort.", "quantifier": "every matrix (CSR or CSC, either base, any row order), every list of hints, every later sequence of requests, every choice among the stored copies the scores lead to, every value type and team size", "why_tests_cant": "the copy used depends on all earlier hints and calls, and the copies' diagonals are overwritten in place by each product; tests cover a few sequences", "anchors": ["library/src/analysis/aoclsparse_analysis.cpp:aoclsparse_optimize", "library/src/include/aoclsparse_mtx_dispatcher.hpp:get_effective_doid", "library/src/level2/aoclsparse_mv.cpp:aoclsparse_mv", "library/src/analysis/aoclsparse_csr_util.hpp:aoclsparse_set_mat_diag"]}
{"id": "C59", "title": "Hints for products do not disturb solves", "statement": "On a handle that aoclsparse_optimize prepared for any list of product hints, aoclsparse_?trsv, aoclsparse_?trsm, aoclsparse_?symgs and aoclsparse_?symgs_mv return what they return without the hints: the solves give the same status and the same vector bit for bit as on the handle without the copies, x solves op(T)*x = alpha*b, and symmetric Gauss-Seidel performs the same sweep although its inner products may be served by the copies. The calls keep the user's arrays, the copies and the hints, so products and solves can be mixed in any order.", "quantifier": "every matrix (CSR or CSC, either base), every set of copies made for hints, every earlier sequence of products and solves, every right-hand side, stride, leading dimension and order of the parallel columns", "why_tests_cant": "the stored copies and their position in the handle depend on the whole history of hints and calls, and the copies' diagonals are overwritten by products in between; a test fixes one history", "anchors": ["library/src/level2/aoclsparse_trsv.cpp:aoclsparse_trsv", "library/src/level3/aoclsparse_trsm.hpp:aoclsparse_trsm", "library/src/solvers/aoclsparse_symgs.hpp:aoclsparse_symgs", "library/src/analysis/aoclsparse_csr_util.hpp:aoclsparse_csr_csc_optimize"]}
{"id": "C60", "title": "Any program of hints, products and solves on one handle", "statement": "For every finite sequence of calls on one matrix handle - preparation for hinted products, aoclsparse_?mv, aoclsparse_?trsv, aoclsparse_?trsm, aoclsparse_?symgs_mv, in any order, with any descriptors and operations - every call is defined and returns the mathematical result for the matrix the user supplied (or the documented refusal with the outputs untouched), independent of which copies, optimisations and in-place diagonal changes the earlier calls left in the handle; the user's arrays are the same at the end.", "quantifier": "every matrix, every program (list of calls) of any length with any valid arguments, every state of the handle earlier calls can lead to", "why_tests_cant": "the space of programs is infinite and the internal state (copies, their order, their diagonal rule, the optimised form) depends on the whole history", "anchors": ["library/src/level2/aoclsparse_mv.cpp:aoclsparse_mv", "library/src/level2/aoclsparse_trsv.cpp:aoclsparse_trsv", "library/src/level3/aoclsparse_trsm.hpp:aoclsparse_trsm", "library/src/solvers/aoclsparse_symgs.hpp:aoclsparse_symgs", "library/src/analysis/aoclsparse_csr_util.hpp:aoclsparse_matrix_transform"]}
{"id": "C61", "title": "The result of a call does not depend on the history of the handle or on the environment", "statement": "Take two copies of one matrix handle. Run any program of valid preparations, products, triangular solves and symmetric Gauss-Seidel sweeps on the first and any other such program on the second, on machines that may differ in number of threads, schedule, instruction sets, chosen kernels, sorting algorithm and contents of freshly allocated memory. Then make the same product, solve (one or several right-hand sides, any kernel id) or sweep on both. If both report success, both return the same values (in exact arithmetic).", "quantifier": "all matrices whose rows can be sorted, all pairs of programs of any length, all environments, all valid final calls whose triangle is invertible", "why_tests_cant": "tests compare a few histories on one machine; the claim is about every pair of histories and every pair of environments", "anchors": ["library/src/level2/aoclsparse_mv.cpp:aoclsparse_mv", "library/src/level2/aoclsparse_trsv.cpp:aoclsparse_trsv", "library/src/level3/aoclsparse_trsm.hpp:aoclsparse_trsm", "library/src/solvers/aoclsparse_symgs.hpp:aoclsparse_symgs", "library/src/analysis/aoclsparse_csr_util.hpp:aoclsparse_matrix_transform"]}
{"id": "C62", "title": "Concurrent products on one prepared handle", "statement": "Any number of threads call aoclsparse_?mv at the same time on one handle that was prepared (hinted and optimised) for a symmetric or Hermitian product, each with its own alpha, x, beta and y and with any diagonal rule in its descriptor. Every call returns what it would return alone: the right y, without out-of-bounds accesses, data races or waiting for the others.", "quantifier": "every matrix, every number of threads, every argument of every call, every interleaving of the calls' memory accesses", "why_tests_cant": "the outcome depends on the interleaving; a test sees a few schedules and rarely the short window between switching the diagonal and reading it", "anchors": ["library/src/level2/aoclsparse_mv.cpp:aoclsparse_mv", "library/src/analysis/aoclsparse_csr_util.hpp:aoclsparse_set_mat_diag", "library/src/level2/aoclsparse_csrmv_kr.hpp:ref_csrmv_gn"]}
{"id": "C63", "title": "Starting a GMRES solve provides exactly the work memory it needs or refuses cleanly", "statement": "The first step of a GMRES solve of size n with the restart length m set in the options is defined whichever memory allocations fail. If the array lengths fit aoclsparse_int and memory suffices it succeeds, and no later call of that solve accesses its work memory out of bounds; lengths that do not fit give invalid_size; a failed allocation gives memory_error; after a refusal no memory is left allocated and none is released twice.", "quantifier": "every restart length the option accepts, every size n, every pattern of failing allocations, both integer widths, every heap before the call", "why_tests_cant": "needs every allocation to fail in turn and lengths near the integer limit, where the arrays no longer fit a test machine", "anchors": ["library/src/solvers/aoclsparse_itsol_functions.hpp:aoclsparse_gmres_data_init", "library/src/solvers/aoclsparse_itsol_functions.hpp:aoclsparse_gmres_data_free", "library/src/solvers/aoclsparse_itsol_list_options.hpp:gmres restart iterations", "library/src/extra/aoclsparse_utils.hpp:aoclsparse_int_product_overflow"]}
