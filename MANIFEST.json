{
 "claims": [
  {
   "property": "C01",
   "status": "proved",
   "theorems": [
    "C01_create_csr_validates",
    "C01_create_csc_validates",
    "C01_create_null_pointers",
    "C01_create_coo_validates"
   ],
   "note": "Creation returns success exactly when the structure is valid, and records the classification."
  },
  {
   "property": "C02",
   "status": "proved",
   "theorems": [
    "C02_check_sort_diag_exact"
   ],
   "note": "Sort classification and full-diagonal flag are exact; the rows' layout is characterised for every valid structure."
  },
  {
   "property": "C03",
   "status": "proved",
   "theorems": [
    "C03_triangle_positions"
   ],
   "note": "Split positions of lower part, diagonal and upper part are exact for rows the classification accepts."
  },
  {
   "property": "C04",
   "status": "partial",
   "theorems": [
    "C04_order_mat_partial",
    "C04_order_duplicate_columns_refuted",
    "C04_order_csc_wide_refuted",
    "C04_order_csc_tall_refuted"
   ],
   "note": "CSR and square CSC matrices without repeated columns in a row. Repeated columns (undefined comparator) and rectangular CSC matrices are refuted with witnesses."
  },
  {
   "property": "C05",
   "status": "proved",
   "theorems": [
    "C05_fill_diag_correct"
   ],
   "note": "For every structure grouped lower|diagonal|upper; the order inside rows is kept."
  },
  {
   "property": "C06",
   "status": "proved",
   "theorems": [
    "C06_csr2csc_correct",
    "C06_csr2csc_twice_is_identity",
    "C06_csr2csc_null_rejected",
    "C06_csr2csc_bad_size_rejected",
    "C06_null_check_on_empty_matrix_refuted"
   ],
   "note": "Correct for every well-formed input, any base pair, any prior buffer content. Finding: null csc_col_ptr with an empty matrix is dereferenced."
  },
  {
   "property": "C07",
   "status": "proved",
   "theorems": [
    "C07_coo2csr_correct"
   ],
   "note": "Correct and stable for every valid coordinate list."
  },
  {
   "property": "C08",
   "status": "partial",
   "theorems": [
    "C08_csr2ell",
    "C08_csr2ellt_partial",
    "C08_csr2ellthybrid_partial",
    "C08_hybrid_width",
    "C08_rejections",
    "C08_empty_first_row_refuted",
    "C08_null_descriptor_refuted"
   ],
   "note": "C08_csr2ell (with the width reported by csr2ell_width), C08_csr2ellt_partial, C08_csr2ellthybrid_partial and C08_hybrid_width; C08_empty_first_row_refuted: the slot-major variants read csr_col_ind[-1] when the first row is empty; C08_null_descriptor_refuted."
  },
  {
   "property": "C09",
   "status": "proved",
   "theorems": [
    "C09_csr2dia",
    "C09_rejections",
    "C09_preserves_every_matrix_refuted"
   ],
   "note": "C09_csr2dia with the count reported by csr2dia_ndiag; C09_preserves_every_matrix_refuted shows why zeroed storage and absence of duplicates are required."
  },
  {
   "property": "C10",
   "status": "proved",
   "theorems": [
    "C10_csr2bsr_nnz",
    "C10_csr2bsr",
    "C10_csr2bsr_buffer",
    "C10_same_matrix",
    "C10_rejected",
    "C10_convert_bsr",
    "C10_unzeroed_buffer_refuted",
    "C10_duplicates_refuted",
    "C10_empty_matrix_refuted",
    "C10_csc_refuted",
    "C10_csc_overrun_refuted",
    "C10_offset_overflow_refuted",
    "C10_null_descriptor_refuted"
   ],
   "note": "Block structure, count and values for every valid matrix whose sizes fit. Beyond the property, refuted with witnesses: buffer not cleared, duplicates not added, empty matrices, CSC handles, offset overflow, null descriptor."
  },
  {
   "property": "C11",
   "status": "proved",
   "theorems": [
    "C11_csr2dense",
    "C11_rejections",
    "C11_tall_unit_diagonal_refuted"
   ],
   "note": "C11_csr2dense covers every matrix type, fill mode, diagonal type, order and base (square for non-general types); at most the last of several stored duplicates survives; C11_rejections gives the cause of every error; C11_tall_unit_diagonal_refuted: unit/zero diagonal of a non-square matrix is written outside the window."
  },
  {
   "property": "C12",
   "status": "proved",
   "theorems": [
    "C12_expand",
    "C12_hinted_copies",
    "C12_rectangular_rejected"
   ],
   "note": "aoclsparse_convert_mat_to_general and aoclsparse_matrix_transform for every doid, CSR and CSC user matrices, arbitrary initial content of allocated arrays; rectangular matrices rejected. Duplicate diagonal entries are excluded (creation rejects them)."
  },
  {
   "property": "C13",
   "status": "proved",
   "theorems": [
    "C13_prepare_correct",
    "C13_prepare_idempotent",
    "C13_prepare_in_place"
   ],
   "note": "For consistent handles whose rows are grouped or repeat no column; the other rows fall under the C04 refutation. Allocation failure not modelled."
  },
  {
   "property": "C14",
   "status": "proved",
   "theorems": [
    "C14_effective_operation_correct",
    "C14_general_data_serves_all",
    "C14_refusal_is_necessary",
    "C14_transposed_storage",
    "C14_conjugated_operation",
    "C14_request_encoding",
    "C14_bad_operation_rejected"
   ],
   "note": "Operation-id algebra agrees with the mathematical operations. Necessity of a refusal is shown for the symmetric and Hermitian families, the only ones refused."
  },
  {
   "property": "C15",
   "status": "proved",
   "theorems": [
    "C15_mv_general_correct",
    "C15_csrmv_general_correct",
    "C15_beta_zero_ignores_y",
    "C15_beta_zero_ignores_y_scale",
    "C15_general_unit_descriptor_refuted"
   ],
   "note": "General matrices in CSR and CSC, real and complex, through the handle interface and the public csrmv (real types). A descriptor of general type must have diag type non_unit: C15_general_unit_descriptor_refuted shows the library refuses otherwise."
  },
  {
   "property": "C16",
   "status": "partial",
   "theorems": [
    "C16_mv_triangular_correct_partial",
    "C16_unit_upper_refuted",
    "C16_tall_unit_refuted"
   ],
   "note": "Proved except: double unit upper triangles with >= 4 entries right of the diagonal in a row (refuted), unit/zero diagonals with more stored rows than columns (refuted), rows repeating a column while ungrouped (C04)."
  },
  {
   "property": "C17",
   "status": "proved",
   "theorems": [
    "C17_mv_symmetric_correct",
    "C17_csrmv_symmetric_partial",
    "C17_csrmv_empty_first_row_refuted",
    "C17_csrmv_upper_refuted"
   ],
   "note": "mv on handles. The public csrmv is a separate _partial theorem: lower triangle, diagonal last, non-empty first row; both exceptions are refuted with witnesses."
  },
  {
   "property": "C18",
   "status": "partial",
   "theorems": [
    "C18_general_kernels_agree",
    "C18_transposed_kernels_agree",
    "C18_symmetric_kernels_agree",
    "C18_triangular_kernels_agree_partial",
    "C18_smaller_team_refuted"
   ],
   "note": "All vector kernels equal the reference kernels as result lists, except (C18_triangular_kernels_agree_partial) unit upper triangles of the avx2ptr kernel, refuted in C16_unit_upper_refuted; an OpenMP team smaller than requested is refuted in C18_smaller_team_refuted."
  },
  {
   "property": "C19",
   "status": "partial",
   "theorems": [
    "C19_br4_product_partial",
    "C19_same_as_csr_partial",
    "C19_empty_leading_row_refuted",
    "C19_infinite_x_refuted"
   ],
   "note": "Proved for base zero and for base-one matrices where no row has to be padded before an entry was stored; the remaining base-one matrices are refuted (x[-1]). The choice of this storage by optimize and the scores by which mv selects a copy are in C57."
  },
  {
   "property": "C20",
   "status": "partial",
   "theorems": [
    "C20_ellmv_partial",
    "C20_elltmv_partial",
    "C20_ellthybmv",
    "C20_diamv_partial",
    "C20_csr2ell_then_ellmv_partial",
    "C20_csr2dia_then_diamv_partial",
    "C20_ell_invalid_rejected",
    "C20_dia_invalid_rejected",
    "C20_zero_width_refuted",
    "C20_no_columns_refuted",
    "C20_null_scalar_refuted"
   ],
   "note": "Reference, AVX2-style and AVX-512-style kernels of ?ellmv, ?elltmv, ?ellthybmv and ?diamv (both loop orders) proved equal to alpha*A*x+beta*y for all shapes with at least one column (and, for ELL, positive width); csr2ell/csr2dia chained with the product. Refuted corner cases: zero ELL width or zero columns return success without scaling y; null alpha/beta is dereferenced by ?ellmv/?elltmv."
  },
  {
   "property": "C21",
   "status": "partial",
   "theorems": [
    "C21_trsv_solves_partial",
    "C21_failure_writes_nothing",
    "C21_invalid_rejected",
    "C21_alpha_zero_refuted",
    "C21_duplicate_columns_refuted"
   ],
   "note": "trsv on CSR/CSC handles, all operations, kernels, strides; missing (refuted by witnesses): alpha = 0 and repeated columns with the column-oriented vector kernels"
  },
  {
   "property": "C22",
   "status": "proved",
   "theorems": [
    "C22_csrsv_solves",
    "C22_invalid_rejected",
    "C22_unsorted_rows_refuted",
    "C22_missing_diagonal_refuted"
   ],
   "note": "Solved for every well-formed matrix; two refutations show that grouped rows (lower) and a stored diagonal are needed, which the routine does not check"
  },
  {
   "property": "C23",
   "status": "partial",
   "theorems": [
    "C23_add_partial",
    "C23_same_result_partial",
    "C23_rejects",
    "C23_duplicate_refuted",
    "C23_small_team_refuted"
   ],
   "note": "for every handle pair and thread schedule with B's rows free of duplicate columns; the two remaining cases (duplicate columns in B, OpenMP team smaller than requested) are refuted with witnesses"
  },
  {
   "property": "C24",
   "status": "proved",
   "theorems": [
    "C24_full",
    "C24_count",
    "C24_finalize",
    "C24_spmm",
    "C24_rejects",
    "C24_other_structure_refuted"
   ],
   "note": "Full computation, counting stage, repeated finalisation over any history, spmm and the rejections; C24_other_structure_refuted shows an out-of-bounds write when C was counted for another structure. Allocation failure and the 32-bit overflow of m*thread_num are not modelled."
  },
  {
   "property": "C25",
   "status": "proved",
   "theorems": [
    "C25_sp2md",
    "C25_beta_zero_ignores_C",
    "C25_spmmd",
    "C25_rejects"
   ],
   "note": "sp2md and spmmd for all operations, layouts, bases, CSR/CSC operands; address arithmetic checked against the width of aoclsparse_int"
  },
  {
   "property": "C26",
   "status": "partial",
   "theorems": [
    "C26_csrmm_partial",
    "C26_optimized_handles",
    "C26_failure_keeps_C",
    "C26_rejects",
    "C26_empty_inner_refuted",
    "C26_base_one_extent_refuted",
    "C26_beta_zero_nan_refuted"
   ],
   "note": "All ops, both orders, general/symmetric/Hermitian, CSR/CSC, bases, hinted copies incl. diagonal rewriting, every kernel and thread order. Refuted at the edges: empty inner dimension leaves C unscaled; one-based row-order offset overflow; beta=0 keeps NaN for general matrices."
  },
  {
   "property": "C27",
   "status": "proved",
   "theorems": [
    "C27_ilu0",
    "C27_reuse",
    "C27_csc_refuted",
    "C27_partially_sorted_refuted"
   ],
   "note": "Every CSR handle with sorted rows, full diagonal, both bases, off-diagonal duplicates allowed; success gives L*U=A on the pattern, pivots non-zero, L*U*x=b; otherwise numerical_error with x untouched; later calls reuse the factors. Refuted outside that: CSC handles (accepted, factor A^T) and rows that are only grouped (accepted as partially sorted)."
  },
  {
   "property": "C28",
   "status": "partial",
   "theorems": [
    "C28_outcome_stable_partial",
    "C28_failure_not_repeated_refuted"
   ],
   "note": "Proved: a call that succeeds or is rejected on a fresh handle has the same outcome after any history of calls. The remaining case (numerical failure) is refuted: the second call succeeds with wrong factors."
  },
  {
   "property": "C29",
   "status": "partial",
   "theorems": [
    "C29_sor_sweep_partial",
    "C29_failure_keeps_x",
    "C29_zero_diagonal_refuted",
    "C29_csc_refuted"
   ],
   "note": "Every square CSR handle, rows in any order, both bases, every omega/alpha. Refuted outside that: CSC handles (accepted, sweep uses A^T) and a zero diagonal on an already optimised handle (test skipped)."
  },
  {
   "property": "C30",
   "status": "partial",
   "theorems": [
    "C30_symgs_partial",
    "C30_symgs_mv_partial",
    "C30_missing_diagonal",
    "C30_hermitian_csc_refuted",
    "C30_hermitian_transpose_refuted",
    "C30_symmetric_conjugate_refuted"
   ],
   "note": "symgs/symgs_mv through the modelled mv and trsv on CSR and CSC handles; refuted: Hermitian CSC, Hermitian with transpose, complex symmetric with conjugate transpose"
  },
  {
   "property": "C31",
   "status": "proved",
   "theorems": [
    "C31_axpyi",
    "C31_roti",
    "C31_scatter",
    "C31_gather",
    "C31_dot",
    "C31_dense_dot",
    "C31_bad_arguments"
   ],
   "note": "All eight operations through the dispatcher, any CPU, kernel id and vector width; dense dot as well. Exact arithmetic over a ring with involution."
  },
  {
   "property": "C32",
   "status": "partial",
   "theorems": [
    "C32_set_value",
    "C32_set_coo_value",
    "C32_update_values",
    "C32_history_solves",
    "C32_history_partial",
    "C32_product_after_update_refuted",
    "C32_duplicate_refuted",
    "C32_ilu_stale_refuted"
   ],
   "note": "set_value (CSR/CSC/COO) and update_values proved; histories of updates, preparation and triangular solves of any length proved; with products proved for matrices used in place (rows grouped, complete diagonal). Refuted: products after a value change on a handle that has an internal copy (finding B1), duplicates, ILU factors kept after an update."
  },
  {
   "property": "C33",
   "status": "partial",
   "theorems": [
    "C33_as_if_alone",
    "C33_one_complete_copy",
    "C33_race_free_partial",
    "C33_no_deadlock",
    "C33_everybody_returns",
    "C33_mv_race_refuted",
    "C33_ilu_race_refuted",
    "C33_sor_race_refuted"
   ],
   "note": "Every schedule of any number of threads that prepare one handle: same answer as a lone call, one complete copy, no data race, no deadlock, termination under fair schedules. The race freedom fails once mv, ILU or SOR touch the handle without the lock (refuted)."
  },
  {
   "property": "C34",
   "status": "partial",
   "theorems": [
    "C34_csrmv_reference",
    "C34_csrmv_vectorised",
    "C34_csrmv_triangular",
    "C34_csrmv_templated",
    "C34_ellmv",
    "C34_elltmv",
    "C34_ellthybmv_csr_rows",
    "C34_br4",
    "C34_transposed_scaling",
    "C34_transposed_exact",
    "C34_transposed_order_refuted"
   ],
   "note": "Every parallel row or block loop of the product kernels is proved schedule independent for any arithmetic (bit by bit). The transposed product adds private sums in a critical section: independent of the order in exact arithmetic, refuted for IEEE double. Level-3 loops are modelled at thread granularity (C23-C26) and not at access granularity."
  },
  {
   "property": "C35",
   "status": "proved",
   "theorems": [
    "C35_requested_kernel",
    "C35_automatic_choice",
    "C35_csrmv_tables"
   ],
   "note": "Oracle and the csrmv tables; CPU flags, local architecture and hint are inputs."
  },
  {
   "property": "C36",
   "status": "proved",
   "theorems": [
    "C36_enable_instructions",
    "C36_any_history",
    "C36_thread_count",
    "C36_env_reread_refuted"
   ],
   "note": "\"ENV\" is treated as the code behaves: it resets the preference. The documented re-read of the environment is refuted by C36_env_reread_refuted."
  },
  {
   "property": "C37",
   "status": "proved",
   "theorems": [
    "C37_product_guard_never_misses",
    "C37_product_guard_exact_nonneg",
    "C37_product_guard_exact_refuted"
   ],
   "note": "Never misses an overflow and exact for non-negative factors. For a product equal to INT_MIN there is a false alarm (C37_product_guard_exact_refuted)."
  },
  {
   "property": "C38",
   "status": "proved",
   "theorems": [
    "C38_names",
    "C38_set",
    "C38_set_only",
    "C38_get",
    "C38_in_range",
    "C38_history",
    "C38_default",
    "C38_lock",
    "C38_text_refuted",
    "C38_trailing_text_refuted",
    "C38_lock_refuted",
    "C38_restart_refuted"
   ],
   "note": "option_set on the registered options: succeeds exactly for known names (words compared ignoring case and blanks), unlocked registry and text that reads as an allowed value; every other outcome leaves all options unchanged; histories of settings, RCI steps and solves. Refuted: non-numeric text throws out of the C API; trailing text accepted; options stay locked after a new right-hand side in mid-solve; GMRES restart length ignored between RCI solves."
  },
  {
   "property": "C39",
   "status": "proved",
   "theorems": [
    "C39_setters",
    "C39_history",
    "C39_getters_defined"
   ],
   "note": "Several descriptors, arbitrary integer arguments, any history of setters and copies."
  },
  {
   "property": "C40",
   "status": "partial",
   "theorems": [
    "C40_copy",
    "C40_copy_independent",
    "C40_copy_handle",
    "C40_export_partial",
    "C40_export_after_prepare_refuted",
    "C40_export_hinted_refuted",
    "C40_copy_ilu_refuted"
   ],
   "note": "Copy and independence proved for every history; export proved for handles without hinted copies. Exporting after preparation gives another base/pattern, after hinted copies another matrix, and a copy loses the sort classification (three refuted statements)."
  },
  {
   "property": "C41",
   "status": "partial",
   "theorems": [
    "C41_hint",
    "C41_hint_sequence",
    "C41_life_partial",
    "C41_keeps_matrix",
    "C41_ilu_memory_refuted"
   ],
   "note": "Hint acceptance, order and matrix preservation proved for every call sequence; destruction proved for every history in which the ILU preparation does not run out of memory (that case is refuted: double free)."
  },
  {
   "property": "C42",
   "status": "partial",
   "theorems": [
    "C42_create_validates",
    "C42_create_null",
    "C42_product_partial",
    "C42_trsv_partial",
    "C42_diagonals_unchecked_refuted",
    "C42_unit_upper_refuted"
   ],
   "note": "Creation validation and null arguments are full. Products and solves on TCSR handles are proved for real types; missing, because refuted: upper triangles when the two stored diagonals differ (creation does not compare them), the unit upper product in double for rows with four or more off-diagonal entries; as in C21 zero alpha and repeated columns for transposed vector solves."
  },
  {
   "property": "C43",
   "status": "partial",
   "theorems": [
    "C43_residual",
    "C43_converged",
    "C43_limit_partial",
    "C43_defined",
    "C43_interrupt",
    "C43_finite",
    "C43_solve",
    "C43_limit_refuted",
    "C43_monitor_refuted",
    "C43_small_refuted",
    "C43_gauss_seidel_base_refuted"
   ],
   "note": "Reverse communication: residual and norms at monitoring steps and regular stops, success = tolerance met, interrupt, definedness, bound on calls, at most n iterations in exact arithmetic; forward interface on symmetric lower handles with none, user and Gauss-Seidel preconditioner. Refuted: the limit itself (one iteration too many), monitor arguments, numerical_error for small right-hand sides, Gauss-Seidel preconditioner on one-based matrices. Missing: rounding; the CG limit in the proved form is maxit+1."
  },
  {
   "property": "C44",
   "status": "partial",
   "theorems": [
    "C44_negative_index_partial",
    "C44_negative_index_refuted"
   ],
   "note": "Proved when the reference kernel is selected; refuted for the vector kernels chosen by default on AVX2 hardware (C44_negative_index_refuted)."
  },
  {
   "property": "C45",
   "status": "proved",
   "theorems": [
    "C45_convert_csr",
    "C45_convert_coo",
    "C45_rejected"
   ],
   "note": "CSR, CSC and COO handles, all operations. Allocation failure not modelled."
  },
  {
   "property": "C46",
   "status": "partial",
   "theorems": [
    "C46_trsm_solves_partial",
    "C46_failure_writes_nothing",
    "C46_invalid_rejected",
    "C46_leading_dimension_refuted",
    "C46_no_elements_refuted"
   ],
   "note": "Proved for every handle, layout, admissible leading dimension and schedule; missing, because refuted: leading dimensions below the documented minimum are accepted (columns overlap), a matrix without stored elements returns success with X untouched even for unit diagonals; as in C21 zero alpha and repeated columns for transposed vector solves. TCSR handles are not covered here."
  },
  {
   "property": "C47",
   "status": "partial",
   "theorems": [
    "C47_dotmv_partial",
    "C47_null_rejected",
    "C47_result_iff_success"
   ],
   "note": "Missing: the requests excluded from C16 (unit upper triangles in double with four or more entries right of the diagonal, unit or zero diagonals on tall matrices). Null rejection and \"d is written exactly on success\" are full."
  },
  {
   "property": "C48",
   "status": "partial",
   "theorems": [
    "C48_bsrmv_partial",
    "C48_convert_then_multiply",
    "C48_invalid_rejected",
    "C48_no_columns_refuted"
   ],
   "note": "Full statement refuted for matrices with block rows and no block column: y is not scaled (C48_no_columns_refuted). Proved for all others whose index products fit the integer type."
  },
  {
   "property": "C49",
   "status": "partial",
   "theorems": [
    "C49_syrkd_partial",
    "C49_beta_zero_ignores_C",
    "C49_rejects",
    "C49_repeated_columns_refuted"
   ],
   "note": "Full statement refuted for matrices that store a position more than once (C49_repeated_columns_refuted): the rest of such a row is lost. Proved for all others."
  },
  {
   "property": "C50",
   "status": "partial",
   "theorems": [
    "C50_syprd_partial",
    "C50_beta_zero_ignores_C",
    "C50_rejects",
    "C50_no_rows_refuted"
   ],
   "note": "Full statement refuted for matrices without rows and op other than none: C is not scaled (C50_no_rows_refuted). Proved for all others."
  },
  {
   "property": "C51",
   "status": "partial",
   "theorems": [
    "C51_syrk_partial",
    "C51_rejects",
    "C51_infinite_values_refuted",
    "C51_repeated_columns_refuted",
    "C51_convert_refuted"
   ],
   "note": "Full statement refuted for matrices that store a position more than once (C51_repeated_columns_refuted), for infinite values (C51_infinite_values_refuted: writes past the arrays) and for the use of the returned handle in aoclsparse_convert_csr (C51_convert_refuted). Proved for all others."
  },
  {
   "property": "C52",
   "status": "partial",
   "theorems": [
    "C52_sypr_partial",
    "C52_count_partial",
    "C52_refill_partial",
    "C52_rejects",
    "C52_repeated_columns_refuted",
    "C52_use_refuted",
    "C52_convert_refuted"
   ],
   "note": "Full statement refuted for matrices that store a position more than once (C52_repeated_columns_refuted) and for the use of the returned handle: its matrix object keeps -1 as number of elements, so the analysis of its unsorted rows writes through null pointers (C52_use_refuted) and aoclsparse_convert_csr copies minus one elements (C52_convert_refuted). Proved for all other matrices, for one stage, two stages and any number of refills."
  },
  {
   "property": "C53",
   "status": "partial",
   "theorems": [
    "C53_blocked_product_partial",
    "C53_optimize_partial",
    "C53_rejects",
    "C53_empty_refuted",
    "C53_symmetric_refuted",
    "C53_repeated_positions_refuted",
    "C53_unsorted_refuted",
    "C53_null_scalars_refuted",
    "C53_infinite_x_refuted"
   ],
   "note": "Full statement refuted for matrices without stored entries (y is not scaled, C53_empty_refuted), symmetric descriptors (C53_symmetric_refuted), repeated positions (C53_repeated_positions_refuted), unsorted rows (undefined shift, C53_unsorted_refuted), null scalars (C53_null_scalars_refuted) and infinite elements of x (C53_infinite_x_refuted). Proved for all other calls."
  },
  {
   "property": "C54",
   "status": "partial",
   "theorems": [
    "C54_defined",
    "C54_limit_partial",
    "C54_statuses",
    "C54_no_tolerance",
    "C54_residual_partial",
    "C54_converged_partial",
    "C54_maxit_partial",
    "C54_minimal_partial",
    "C54_breakdown_refuted",
    "C54_exact_start_refuted",
    "C54_limit_refuted",
    "C54_rhs_norm_refuted",
    "C54_again_refuted",
    "C54_complex_refuted"
   ],
   "note": "Real arithmetic, any preconditioner: reported norm = norm of b - A x at every monitoring step and regular stop, minimality, success and maxit; any arithmetic: definedness, bounds on calls and counter, statuses, interrupt. Refuted: success with a small new direction (x unchanged, C54_breakdown_refuted), exact start vectors (NaN, C54_exact_start_refuted), the limit itself (C54_limit_refuted), rinfo[1] (C54_rhs_norm_refuted), complex types (C54_complex_refuted), a second solve after a stop inside a cycle (C54_again_refuted). Missing: effects of rounding on the reported norm."
  },
  {
   "property": "C55",
   "status": "partial",
   "theorems": [
    "C55_solve_partial",
    "C55_result_partial",
    "C55_checks",
    "C55_ilu_refuted",
    "C55_ilu_exact_refuted",
    "C55_monitor_refuted"
   ],
   "note": "Every handle, descriptor and preconditioner that can be applied: the call returns within the proved bound, keeps the handle, ends as the reverse communication interface served with true products and preconditioner; real arithmetic: success and maxit say what they should except for breakdown. Refuted: an ILU preconditioner that fails is not reported (success, residual 0, x unchanged, C55_ilu_refuted), an exact ILU factorisation ends the same way (C55_ilu_exact_refuted), the monitor gets basis vectors (C55_monitor_refuted)."
  },
  {
   "property": "C56",
   "status": "partial",
   "theorems": [
    "C56_create_partial",
    "C56_mv",
    "C56_mv_refuses",
    "C56_convert_mv",
    "C56_null",
    "C56_size_refuted"
   ],
   "note": "Proved: C56_create_partial (verdict and stored handle for all arrays whose expanded sizes fit the integer type), C56_mv (product of any created handle), C56_convert_mv (conversion then product), C56_mv_refuses, C56_null. Missing: expanded sizes beyond the integer type, where creation overflows (refuted in C56_size_refuted); creation with fast_chck = true is modelled but not covered by a theorem."
  },
  {
   "property": "C57",
   "status": "partial",
   "theorems": [
    "C57_product_partial",
    "C57_other_requests",
    "C57_refuses",
    "C57_export_partial",
    "C57_empty_first_row_refuted",
    "C57_export_refuted"
   ],
   "note": "Every choice of format and every later consistent state of the handle, for general descriptors; other requests are shown to be the unprepared call. Refuted: an empty first row (conversion to the hybrid reads before the array, B67) and export after the 4-row format was chosen (B68). Not covered: matrices recorded as sorted that repeat a position (C53), overflow of element counts, failed allocations."
  },
  {
   "property": "C58",
   "status": "partial",
   "theorems": [
    "C58_hinted_product_partial",
    "C58_hinted_general",
    "C58_prepared",
    "C58_hint_then_product",
    "C58_hints_neutral"
   ],
   "note": "proved for every handle with any mixture of optimised and hinted copies; general requests and hinted symmetric / Hermitian requests without restriction; _partial because the triangular corner cases refuted under C16 and general descriptors with another diagonal rule remain excluded; the extra formats of aoclsparse_optimize for double precision are C57"
  },
  {
   "property": "C59",
   "status": "partial",
   "theorems": [
    "C59_trsv_partial",
    "C59_trsm_partial",
    "C59_hints_irrelevant",
    "C59_symgs_partial",
    "C59_symgs_mv_partial"
   ],
   "note": "proved for every handle with any mixture of optimised and hinted copies; the irrelevance of the copies for trsv and trsm needs no law of arithmetic; _partial because the requests refuted under C21, C46 and C30 remain excluded"
  },
  {
   "property": "C60",
   "status": "partial",
   "theorems": [
    "C60_any_program_partial"
   ],
   "note": "induction over the program; each call is covered by C58, C59; _partial because the calls refuted under C16, C21, C30 and C46 and rows the library cannot sort remain excluded, and value updates and destruction are not among the calls"
  },
  {
   "property": "C61",
   "status": "partial",
   "theorems": [
    "C61_same_result_partial"
   ],
   "note": "uniqueness of products, triangular solves and sweeps on top of C60; _partial because the calls C60 excludes remain excluded, and arithmetic is exact (with rounding, kernels may differ in the last bits)"
  },
  {
   "property": "C62",
   "status": "partial",
   "theorems": [
    "C62_same_rule_partial",
    "C62_as_if_alone_partial",
    "C62_afterwards_partial",
    "C62_recorded_rule_partial",
    "C62_different_rules_refuted",
    "C62_switch_race_refuted"
   ],
   "note": "proved for calls with the same diagonal rule (any interleaving, sequentially consistent memory), race freedom when the copy already has that rule; refuted: different rules give a wrong y with success (C62_different_rules_refuted), switching the rule is a data race (C62_switch_race_refuted)"
  },
  {
   "property": "C63",
   "status": "partial",
   "theorems": [
    "C63_start_partial",
    "C63_solve_defined_partial",
    "C63_cg_start",
    "C63_largest_restart_refuted"
   ],
   "note": "proved for restart lengths below the largest integer; refuted: restart length INT_MAX is accepted by the option and overflows m + 1 in the guard (C63_largest_restart_refuted)"
  }
 ]
}