# Formal model of amd/aocl-sparse in Rocq (Coq 8.16.1)

## Method

* Every modelled C++ function is a total Gallina function over lists, `Z` and a
  value type `T`. Its comment cites the file and lines it models and names every
  simplification.
* Array accesses go through checked accessors (`rd`, `wr`, `vload`, `vgather`,
  `vstore`). `None` means *undefined behaviour*: an access outside the array, use of
  a null pointer, a signed overflow where overflow is modelled. A theorem that says
  `f … = Some r /\ …` therefore also says the call is memory safe.
* A null pointer argument is `None` of the argument's option type, so that the
  library's own null checks are modelled and tested.
* Loops are `for_ lo hi body state` and its relatives (Base.v), by structural
  recursion on the trip count. `while`-style loops carry fuel and return `None` when
  it runs out; the theorems show it never does.
* Integers are unbounded `Z`. Where a property is about machine integers (C10, C11,
  C21, C24-C26, C37) the width is a parameter and the limits are explicit.
* Values: functions that only move values are polymorphic with no laws, so their
  theorems hold for every bit pattern. Kernels that compute are parametric in a
  record of operations (`ops`), and their theorems assume the laws of a commutative
  ring with involution (`laws`), plus division by non-zero values for solves
  (`div_law`). Instances: integers, Gaussian integers, rationals. Schedule
  independence (C34) assumes no laws. Rounding is covered only there and by the
  witnesses over `Float64.v`, which is built on the standard library's SpecFloat (no primitive floats).
* SIMD registers are lists of lanes; a vector kernel is modelled lane by lane with
  its main loop, remainder and reduction.
* Output buffers, freshly allocated arrays and uninitialised memory are arguments
  with arbitrary content.
* Threads: thread partitions of the level-3 routines are modelled with an arbitrary
  order of threads; the level-2 loops as programs of atomic reads and writes under
  every interleaving (C34); first use of a shared handle as a small-step system with
  the library's locks (C33).

## Files (rocq/theories)

* `Base.v`, `BaseFacts.v`, `Algebra.v`, `Vec.v`, `Float64.v`, `Decide.v`: accessors,
  loops, algebra, lanes, binary64, decision procedures for examples.
* `*Model.v`: definitions only, each with the file and lines it models.
* `*Spec.v`: small specifications that do not mention the code's helpers. `Csr.v`
  (well-formed CSR data and the matrix it denotes), `MvSpec.v`, `TrsvSpec.v`,
  `DoidSpec.v`, `HandleSpec.v` are the ones most statements rest on.
* `*Proof.v` and others: lemmas.
* `Props_*.v`: the property theorems, each followed by `Print Assumptions`, examples
  that meet the hypotheses, and the refutations.


## Properties

For each property: what is modelled, how it is proved, the theorems, and what is left out.
Theorem names ending in `_refuted` are findings: the stated property is false of the
modelled code at that place, with a machine-checked witness.

### C01 Matrix creation accepts exactly the well-formed inputs — proved

* Modelled (CheckModel.v): mat_check_internal, create_?csr/csc/coo argument checks (extra/aoclsparse_auxiliary, conversion/…).
* Proof: loop invariants over rows; soundness and completeness; every error code traced to its cause.
* Theorems: `C01_create_csr_validates`, `C01_create_csc_validates`, `C01_create_null_pointers`, `C01_create_coo_validates`.
* Creation returns success exactly when the structure is valid, and records the classification.

### C02 Sortedness and full-diagonal classification is truthful — proved

* Modelled (CheckModel.v): mat_check_internal (sort and diagonal tracking), check_sort_diag.
* Proof: loop invariants over rows and entries.
* Theorems: `C02_check_sort_diag_exact`.
* Sort classification and full-diagonal flag are exact; the rows' layout is characterised for every valid structure.

### C03 L/D/U split positions partition each row — proved

* Modelled (CheckModel.v): csr_csc_indices (idiag, iurow).
* Proof: invariant per row.
* Theorems: `C03_triangle_positions`.
* Split positions of lower part, diagonal and upper part are exact for rows the classification accepts.

### C04 Ordering a matrix permutes entries inside rows and nothing else — partial

* Modelled (SortModel.v): sort_idx_val (std::sort is an arbitrary function meeting its contract), sort_mat, order_mat.
* Proof: permutation and sortedness; refutations by witness.
* Theorems: `C04_order_mat_partial`, `C04_order_duplicate_columns_refuted`, `C04_order_csc_wide_refuted`, `C04_order_csc_tall_refuted`.
* CSR and square CSC matrices without repeated columns in a row. Repeated columns (undefined comparator) and rectangular CSC matrices are refuted with witnesses.

### C05 Filling the diagonal adds only explicit zeros — proved

* Modelled (CheckModel.v, FillProof.v): fill_diag.
* Proof: invariant on entry lists of every row.
* Theorems: `C05_fill_diag_correct`.
* For every structure grouped lower|diagonal|upper; the order inside rows is kept.

### C06 CSR to CSC conversion is an exact transposition — proved

* Modelled (Csr2CscModel.v): aoclsparse_?csr2csc and its template.
* Proof: counting-sort invariant (CountSort).
* Theorems: `C06_csr2csc_correct`, `C06_csr2csc_twice_is_identity`, `C06_csr2csc_null_rejected`, `C06_csr2csc_bad_size_rejected`, `C06_null_check_on_empty_matrix_refuted`.
* Correct for every well-formed input, any base pair, any prior buffer content. Finding: null csc_col_ptr with an empty matrix is dereferenced.

### C07 COO to CSR conversion preserves the entries — proved

* Modelled (Csr2CscModel.v): coo2csr.
* Proof: counting-sort invariant, stability.
* Theorems: `C07_coo2csr_correct`.
* Correct and stable for every valid coordinate list.

### C08 ELL conversions preserve the matrix — partial

* Modelled (EllModel.v): csr2ell_width, csr2ell, csr2ellt, csr2ellthybrid, hybrid width.
* Proof: loop invariants on slots.
* Theorems: `C08_csr2ell`, `C08_csr2ellt_partial`, `C08_csr2ellthybrid_partial`, `C08_hybrid_width`, `C08_rejections`, `C08_empty_first_row_refuted`, `C08_null_descriptor_refuted`.
* C08_csr2ell (with the width reported by csr2ell_width), C08_csr2ellt_partial, C08_csr2ellthybrid_partial and C08_hybrid_width; C08_empty_first_row_refuted: the slot-major variants read csr_col_ind[-1] when the first row is empty; C08_null_descriptor_refuted.

### C09 DIA conversion preserves the matrix — proved

* Modelled (DiaModel.v): csr2dia_ndiag, csr2dia.
* Proof: marker array invariant, counting.
* Theorems: `C09_csr2dia`, `C09_rejections`, `C09_preserves_every_matrix_refuted`.
* C09_csr2dia with the count reported by csr2dia_ndiag; C09_preserves_every_matrix_refuted shows why zeroed storage and absence of duplicates are required.

### C10 BSR conversion preserves the matrix — proved

* Modelled (BsrModel.v): csr2bsr_nnz, csr2bsr, convert_bsr on handles.
* Proof: marker array invariant, offsets in machine integers.
* Theorems: `C10_csr2bsr_nnz`, `C10_csr2bsr`, `C10_csr2bsr_buffer`, `C10_same_matrix`, `C10_rejected`, `C10_convert_bsr`, `C10_unzeroed_buffer_refuted`, `C10_duplicates_refuted`, `C10_empty_matrix_refuted`, `C10_csc_refuted`, `C10_csc_overrun_refuted`, `C10_offset_overflow_refuted`, `C10_null_descriptor_refuted`.
* Block structure, count and values for every valid matrix whose sizes fit. Beyond the property, refuted with witnesses: buffer not cleared, duplicates not added, empty matrices, CSC handles, offset overflow, null descriptor.

### C11 Dense conversion writes the matrix — proved

* Modelled (DenseModel.v): csr2dense template, all descriptor types.
* Proof: window invariant.
* Theorems: `C11_csr2dense`, `C11_rejections`, `C11_tall_unit_diagonal_refuted`.
* C11_csr2dense covers every matrix type, fill mode, diagonal type, order and base (square for non-general types); at most the last of several stored duplicates survives; C11_rejections gives the cause of every error; C11_tall_unit_diagonal_refuted: unit/zero diagonal of a non-square matrix is written outside the window.

### C12 Symmetric / Hermitian expansion is correct — proved

* Modelled (ExpandModel.v): convert_mat_to_general, matrix_transform, set_mat_diag.
* Proof: entry lists, invariants.
* Theorems: `C12_expand`, `C12_hinted_copies`, `C12_rectangular_rejected`.
* aoclsparse_convert_mat_to_general and aoclsparse_matrix_transform for every doid, CSR and CSC user matrices, arbitrary initial content of allocated arrays; rectangular matrices rejected. Duplicate diagonal entries are excluded (creation rejects them).

### C13 Preparing a matrix for solves/products preserves it — proved

* Modelled (HandleModel.v): csr_csc_optimize (sequential), csr copy creation.
* Proof: composition of C02-C05.
* Theorems: `C13_prepare_correct`, `C13_prepare_idempotent`, `C13_prepare_in_place`.
* For consistent handles whose rows are grouped or repeat no column; the other rows fall under the C04 refutation. Allocation failure not modelled.

### C14 Operation bookkeeping computes the requested operation — proved

* Modelled (DoidModel.v): get_doid, trans_doid, conj_doid, get_effective_doid.
* Proof: denotation of operation ids into matrices over any commutative ring with involution.
* Theorems: `C14_effective_operation_correct`, `C14_general_data_serves_all`, `C14_refusal_is_necessary`, `C14_transposed_storage`, `C14_conjugated_operation`, `C14_request_encoding`, `C14_bad_operation_rejected`.
* Operation-id algebra agrees with the mathematical operations. Necessity of a refusal is shown for the symmetric and Hermitian families, the only ones refused.

### C15 General sparse matrix-vector product is exact — proved

* Modelled (MvModel.v, CsrmvModel.v, HandleModel.v): ref_csrmv_gn/th/gh, vector kernels, mv, csrmv.
* Proof: ring sums, loop invariants.
* Theorems: `C15_mv_general_correct`, `C15_csrmv_general_correct`, `C15_beta_zero_ignores_y`, `C15_beta_zero_ignores_y_scale`, `C15_general_unit_descriptor_refuted`.
* General matrices in CSR and CSC, real and complex, through the handle interface and the public csrmv (real types). A descriptor of general type must have diag type non_unit: C15_general_unit_descriptor_refuted shows the library refuses otherwise.

### C16 Triangular matrix-vector product is exact — partial

* Modelled (MvModel.v, CsrmvModel.v): ref_csrmv_tri, tri_th, avx2ptr kernel, mv.
* Proof: ring sums.
* Theorems: `C16_mv_triangular_correct_partial`, `C16_unit_upper_refuted`, `C16_tall_unit_refuted`.
* Proved except: double unit upper triangles with >= 4 entries right of the diagonal in a row (refuted), unit/zero diagonals with more stored rows than columns (refuted), rows repeating a column while ungrouped (C04).

### C17 Symmetric / Hermitian matrix-vector product is exact — proved

* Modelled (MvModel.v, CsrmvModel.v): csrmv_symm*, Hermitian variants, mv.
* Proof: ring sums.
* Theorems: `C17_mv_symmetric_correct`, `C17_csrmv_symmetric_partial`, `C17_csrmv_empty_first_row_refuted`, `C17_csrmv_upper_refuted`.
* mv on handles. The public csrmv is a separate _partial theorem: lower triangle, diagonal last, non-empty first row; both exceptions are refuted with witnesses.

### C18 Vectorised product kernels agree with the reference kernels — partial

* Modelled (CsrmvModel.v, Vec.v): 4- and 8-lane kernels, AVX-512 templates, threaded transposed kernels.
* Proof: lane sums against the reference result.
* Theorems: `C18_general_kernels_agree`, `C18_transposed_kernels_agree`, `C18_symmetric_kernels_agree`, `C18_triangular_kernels_agree_partial`, `C18_smaller_team_refuted`.
* All vector kernels equal the reference kernels as result lists, except (C18_triangular_kernels_agree_partial) unit upper triangles of the avx2ptr kernel, refuted in C16_unit_upper_refuted; an OpenMP team smaller than requested is refuted in C18_smaller_team_refuted.

### C19 Blocked 4-row product equals the CSR product — partial

* Modelled (Br4Model.v): br4 construction in optimize_mv, dcsr_mat_br4.
* Proof: storage invariant, lane sums; IEEE witness.
* Theorems: `C19_br4_product_partial`, `C19_same_as_csr_partial`, `C19_empty_leading_row_refuted`, `C19_infinite_x_refuted`.
* Proved for base zero and for base-one matrices where no row has to be padded before an entry was stored; the remaining base-one matrices are refuted (x[-1]). The choice of this storage by optimize and the scores by which mv selects a copy are in C57.

### C20 ELL, ELL-transposed and DIA products are exact — partial

* Modelled (FmtMvModel.v): ellmv, elltmv, ellthybmv, diamv: reference, AVX2 and AVX-512 forms.
* Proof: ring sums.
* Theorems: `C20_ellmv_partial`, `C20_elltmv_partial`, `C20_ellthybmv`, `C20_diamv_partial`, `C20_csr2ell_then_ellmv_partial`, `C20_csr2dia_then_diamv_partial`, `C20_ell_invalid_rejected`, `C20_dia_invalid_rejected`, `C20_zero_width_refuted`, `C20_no_columns_refuted`, `C20_null_scalar_refuted`.
* Reference, AVX2-style and AVX-512-style kernels of ?ellmv, ?elltmv, ?ellthybmv and ?diamv (both loop orders) proved equal to alpha*A*x+beta*y for all shapes with at least one column (and, for ELL, positive width); csr2ell/csr2dia chained with the product. Refuted corner cases: zero ELL width or zero columns return success without scaling y; null alpha/beta is dereferenced by ?ellmv/?elltmv.

### C21 Triangular solve returns a solution — partial

* Modelled (TrsvModel.v): trsv_kr l, lth, u, uth, vector kernels kt_*, trsv dispatcher.
* Proof: induction over solved rows, division law.
* Theorems: `C21_trsv_solves_partial`, `C21_failure_writes_nothing`, `C21_invalid_rejected`, `C21_alpha_zero_refuted`, `C21_duplicate_columns_refuted`.
* trsv on CSR/CSC handles, all operations, kernels, strides; missing (refuted by witnesses): alpha = 0 and repeated columns with the column-oriented vector kernels

### C22 Legacy triangular solve — proved

* Modelled (CsrsvModel.v): csrsv lsolve/usolve.
* Proof: induction over rows.
* Theorems: `C22_csrsv_solves`, `C22_invalid_rejected`, `C22_unsorted_rows_refuted`, `C22_missing_diagonal_refuted`.
* Solved for every well-formed matrix; two refutations show that grouped rows (lower) and a stored diagonal are needed, which the routine does not check

### C23 Sparse addition is exact — partial

* Modelled (AddModel.v): add_csr_count_nnz, add_csr_ref, aoclsparse_add_t with thread partitions.
* Proof: marker invariants, any order of threads.
* Theorems: `C23_add_partial`, `C23_same_result_partial`, `C23_rejects`, `C23_duplicate_refuted`, `C23_small_team_refuted`.
* for every handle pair and thread schedule with B's rows free of duplicate columns; the two remaining cases (duplicate columns in B, OpenMP team smaller than requested) are refuted with witnesses

### C24 Sparse-sparse product is exact and stages agree — proved

* Modelled (Csr2mModel.v): csr2m nnz_count, finalize, sp2m, spmm with row partitions.
* Proof: marker invariants, histories of finalize.
* Theorems: `C24_full`, `C24_count`, `C24_finalize`, `C24_spmm`, `C24_rejects`, `C24_other_structure_refuted`.
* Full computation, counting stage, repeated finalisation over any history, spmm and the rejections; C24_other_structure_refuted shows an out-of-bounds write when C was counted for another structure. Allocation failure and the 32-bit overflow of m*thread_num are not modelled.

### C25 Sparse-sparse to dense product is exact — proved

* Modelled (Sp2mdModel.v): sp2md_ref_row/col, sp2md_t, spmmd.
* Proof: ring sums, window.
* Theorems: `C25_sp2md`, `C25_beta_zero_ignores_C`, `C25_spmmd`, `C25_rejects`.
* sp2md and spmmd for all operations, layouts, bases, CSR/CSC operands; address arithmetic checked against the width of aoclsparse_int

### C26 Sparse-dense product is exact — partial

* Modelled (CsrmmModel.v): csrmm kernels reference and templated, dispatcher, hinted copies.
* Proof: ring sums over tiles, any thread order.
* Theorems: `C26_csrmm_partial`, `C26_optimized_handles`, `C26_failure_keeps_C`, `C26_rejects`, `C26_empty_inner_refuted`, `C26_base_one_extent_refuted`, `C26_beta_zero_nan_refuted`.
* All ops, both orders, general/symmetric/Hermitian, CSR/CSC, bases, hinted copies incl. diagonal rewriting, every kernel and thread order. Refuted at the edges: empty inner dimension leaves C unscaled; one-based row-order offset overflow; beta=0 keeps NaN for general matrices.

### C27 ILU(0) reproduces A on its pattern — proved

* Modelled (IluModel.v): ilu0_factorization, ilu_solve, ilu_template.
* Proof: induction over elimination.
* Theorems: `C27_ilu0`, `C27_reuse`, `C27_csc_refuted`, `C27_partially_sorted_refuted`.
* Every CSR handle with sorted rows, full diagonal, both bases, off-diagonal duplicates allowed; success gives L*U=A on the pattern, pivots non-zero, L*U*x=b; otherwise numerical_error with x untouched; later calls reuse the factors. Refuted outside that: CSC handles (accepted, factor A^T) and rows that are only grouped (accepted as partially sorted).

### C28 ILU outcome does not depend on previous failed calls — partial

* Modelled (IluModel.v): ilu_template on histories.
* Proof: invariant over histories; witness.
* Theorems: `C28_outcome_stable_partial`, `C28_failure_not_repeated_refuted`.
* Proved: a call that succeeds or is rejected on a fresh handle has the same outcome after any history of calls. The remaining case (numerical failure) is refuted: the second call succeeds with wrong factors.

### C29 SOR sweep is the mathematical sweep — partial

* Modelled (SorModel.v): check_full_diag, sor forward, sorv_t.
* Proof: induction over rows.
* Theorems: `C29_sor_sweep_partial`, `C29_failure_keeps_x`, `C29_zero_diagonal_refuted`, `C29_csc_refuted`.
* Every square CSR handle, rows in any order, both bases, every omega/alpha. Refuted outside that: CSC handles (accepted, sweep uses A^T) and a zero diagonal on an already optimised handle (test skipped).

### C30 Symmetric Gauss-Seidel step — partial

* Modelled (SymgsModel.v): symgs_ref, symgs dispatcher, built from the modelled mv and trsv.
* Proof: composition.
* Theorems: `C30_symgs_partial`, `C30_symgs_mv_partial`, `C30_missing_diagonal`, `C30_hermitian_csc_refuted`, `C30_hermitian_transpose_refuted`, `C30_symmetric_conjugate_refuted`.
* symgs/symgs_mv through the modelled mv and trsv on CSR and CSC handles; refuted: Hermitian CSC, Hermitian with transpose, complex symmetric with conjugate transpose

### C31 Level-1 gather/scatter/axpy/dot/rotation laws — proved

* Modelled (L1Model.v): axpyi, doti/dotui/dotci, gthr/gthrz/gthrs, sctr/sctrs, roti, dense dot: reference, AVX2, AVX-512 forms, dispatcher.
* Proof: loop invariants.
* Theorems: `C31_axpyi`, `C31_roti`, `C31_scatter`, `C31_gather`, `C31_dot`, `C31_dense_dot`, `C31_bad_arguments`.
* All eight operations through the dispatcher, any CPU, kernel id and vector width; dense dot as well. Exact arithmetic over a ring with involution.

### C32 Value updates are never served stale data — partial

* Modelled (ValueModel.v): set_value, update_values, optimize/hint/mv/trsv as operations on a handle.
* Proof: invariant over histories of any length.
* Theorems: `C32_set_value`, `C32_set_coo_value`, `C32_update_values`, `C32_history_solves`, `C32_history_partial`, `C32_product_after_update_refuted`, `C32_duplicate_refuted`, `C32_ilu_stale_refuted`.
* set_value (CSR/CSC/COO) and update_values proved; histories of updates, preparation and triangular solves of any length proved; with products proved for matrices used in place (rows grouped, complete diagonal). Refuted: products after a value change on a handle that has an internal copy (finding B1), duplicates, ILU factors kept after an update.

### C33 Concurrent first use is safe — partial

* Modelled (ConcModel.v): csr_csc_optimize as threads with its reader/writer lock, ILU/SOR/mv unlocked accesses.
* Proof: small-step relation, inductive invariant for any number of threads.
* Theorems: `C33_as_if_alone`, `C33_one_complete_copy`, `C33_race_free_partial`, `C33_no_deadlock`, `C33_everybody_returns`, `C33_mv_race_refuted`, `C33_ilu_race_refuted`, `C33_sor_race_refuted`.
* Every schedule of any number of threads that prepare one handle: same answer as a lone call, one complete copy, no data race, no deadlock, termination under fair schedules. The race freedom fails once mv, ILU or SOR touch the handle without the lock (refuted).

### C34 Parallel row loops are schedule independent — partial

* Modelled (ParModel.v): OpenMP loops as programs of atomic array accesses, critical sections.
* Proof: commutation of disjoint accesses; IEEE witness.
* Theorems: `C34_csrmv_reference`, `C34_csrmv_vectorised`, `C34_csrmv_triangular`, `C34_csrmv_templated`, `C34_ellmv`, `C34_elltmv`, `C34_ellthybmv_csr_rows`, `C34_br4`, `C34_transposed_scaling`, `C34_transposed_exact`, `C34_transposed_order_refuted`.
* Every parallel row or block loop of the product kernels is proved schedule independent for any arithmetic (bit by bit). The transposed product adds private sums in a critical section: independent of the order in exact arithmetic, refuted for IEEE double. Level-3 loops are modelled at thread granularity (C23-C26) and not at access granularity.

### C35 Kernel selection is sound — proved

* Modelled (DispatchModel.v): Oracle, csrmv kernel tables.
* Proof: induction over the table.
* Theorems: `C35_requested_kernel`, `C35_automatic_choice`, `C35_csrmv_tables`.
* Oracle and the csrmv tables; CPU flags, local architecture and hint are inputs.

### C36 Instruction-set hints — proved

* Modelled (DispatchModel.v): enable_instructions, get_num_threads, environment.
* Proof: histories.
* Theorems: `C36_enable_instructions`, `C36_any_history`, `C36_thread_count`, `C36_env_reread_refuted`.
* "ENV" is treated as the code behaves: it resets the preference. The documented re-read of the environment is refuted by C36_env_reread_refuted.

### C37 Overflow guard is exact — proved

* Modelled (UtilModel.v): int_product_overflow, parametric in the width.
* Proof: integer arithmetic.
* Theorems: `C37_product_guard_never_misses`, `C37_product_guard_exact_nonneg`, `C37_product_guard_exact_refuted`.
* Never misses an overflow and exact for non-negative factors. For a product equal to INT_MIN there is a false alarm (C37_product_guard_exact_refuted).

### C38 Solver options registry — proved

* Modelled (RegModel.v): option registry: names, parse_option, set/get of all kinds, locking by solves.
* Proof: invariant over histories.
* Theorems: `C38_names`, `C38_set`, `C38_set_only`, `C38_get`, `C38_in_range`, `C38_history`, `C38_default`, `C38_lock`, `C38_text_refuted`, `C38_trailing_text_refuted`, `C38_lock_refuted`, `C38_restart_refuted`.
* option_set on the registered options: succeeds exactly for known names (words compared ignoring case and blanks), unlocked registry and text that reads as an allowed value; every other outcome leaves all options unchanged; histories of settings, RCI steps and solves. Refuted: non-numeric text throws out of the C API; trailing text accepted; options stay locked after a new right-hand side in mid-solve; GMRES restart length ignored between RCI solves.

### C39 Descriptors — proved

* Modelled (DescrModel.v): descriptor setters, getters, copy.
* Proof: histories.
* Theorems: `C39_setters`, `C39_history`, `C39_getters_defined`.
* Several descriptors, arbitrary integer arguments, any history of setters and copies.

### C40 Copy and export — partial

* Modelled (MemModel.v, ExportModel.v): copy, export_csr/csc/coo with explicit memory blocks.
* Proof: invariants on blocks.
* Theorems: `C40_copy`, `C40_copy_independent`, `C40_copy_handle`, `C40_export_partial`, `C40_export_after_prepare_refuted`, `C40_export_hinted_refuted`, `C40_copy_ilu_refuted`.
* Copy and independence proved for every history; export proved for handles without hinted copies. Exporting after preparation gives another base/pattern, after hinted copies another matrix, and a copy loses the sort classification (three refuted statements).

### C41 Hints — partial

* Modelled (HintModel.v, MemModel.v): set_*_hint, add_hint, optimize, destroy with ownership of blocks.
* Proof: invariants over histories.
* Theorems: `C41_hint`, `C41_hint_sequence`, `C41_life_partial`, `C41_keeps_matrix`, `C41_ilu_memory_refuted`.
* Hint acceptance, order and matrix preservation proved for every call sequence; destruction proved for every history in which the ILU preparation does not run out of memory (that case is refuted: double free).

### C42 TCSR storage — partial

* Modelled (TcsrModel.v): create_tcsr, tcsrmv and dtcsrmv_avx2, mv and trsv on TCSR handles.
* Proof: loop invariants, reuse of the kernels of C16, C17, C21.
* Theorems: `C42_create_validates`, `C42_create_null`, `C42_product_partial`, `C42_trsv_partial`, `C42_diagonals_unchecked_refuted`, `C42_unit_upper_refuted`.
* Creation validation and null arguments are full. Products and solves on TCSR handles are proved for real types; missing, because refuted: upper triangles when the two stored diagonals differ (creation does not compare them), the unit upper product in double for rows with four or more off-diagonal entries; as in C21 zero alpha and repeated columns for transposed vector solves.

### C43 Conjugate gradient bookkeeping — partial

* Modelled (CgModel.v, CgSolveModel.v): cg_rci_solve, cg_solve, itsol_symgs preconditioner.
* Proof: invariant over reverse-communication histories, Krylov argument.
* Theorems: `C43_residual`, `C43_converged`, `C43_limit_partial`, `C43_defined`, `C43_interrupt`, `C43_finite`, `C43_solve`, `C43_limit_refuted`, `C43_monitor_refuted`, `C43_small_refuted`, `C43_gauss_seidel_base_refuted`.
* Reverse communication: residual and norms at monitoring steps and regular stops, success = tolerance met, interrupt, definedness, bound on calls, at most n iterations in exact arithmetic; forward interface on symmetric lower handles with none, user and Gauss-Seidel preconditioner. Refuted: the limit itself (one iteration too many), monitor arguments, numerical_error for small right-hand sides, Gauss-Seidel preconditioner on one-based matrices. Missing: rounding; the CG limit in the proved form is maxit+1.

### C44 Negative indices in level-1 operations — partial

* Modelled (L1Model.v): as C31, negative indices.
* Proof: loop invariants; witness.
* Theorems: `C44_negative_index_partial`, `C44_negative_index_refuted`.
* Proved when the reference kernel is selected; refuted for the vector kernels chosen by default on AVX2 hardware (C44_negative_index_refuted).

### C45 Handle conversion to CSR — proved

* Modelled (ConvertModel.v): convert_csr on CSR, CSC and COO handles.
* Proof: composition of C06 and C07.
* Theorems: `C45_convert_csr`, `C45_convert_coo`, `C45_rejected`.
* CSR, CSC and COO handles, all operations. Allocation failure not modelled.

### C46 Triangular solve with several right-hand sides — partial

* Modelled (TrsmModel.v): aoclsparse_trsm: argument checks, optimisation, parallel loop over columns as any permutation of atomic column solves (trsv model).
* Proof: status and handle of a column solve do not depend on the column; invariant over processed columns, disjointness of columns from the leading dimensions.
* Theorems: `C46_trsm_solves_partial`, `C46_failure_writes_nothing`, `C46_invalid_rejected`, `C46_leading_dimension_refuted`, `C46_no_elements_refuted`.
* Proved for every handle, layout, admissible leading dimension and schedule; missing, because refuted: leading dimensions below the documented minimum are accepted (columns overlap), a matrix without stored elements returns success with X untouched even for unit diagonals; as in C21 zero alpha and repeated columns for transposed vector solves. TCSR handles are not covered here.

### C47 Product with dot product — partial

* Modelled (DotmvModel.v): aoclsparse_dotmv_t on top of the mv and dense_dot models.
* Proof: composition of C15-C17 and the dense dot product of C31.
* Theorems: `C47_dotmv_partial`, `C47_null_rejected`, `C47_result_iff_success`.
* Missing: the requests excluded from C16 (unit upper triangles in double with four or more entries right of the diagonal, unit or zero diagonals on tall matrices). Null rejection and "d is written exactly on success" are full.

### C48 Product with block matrices — partial

* Modelled (BsrmvModel.v): bsrmv: argument checks, kernel table, the general kernel, the compile-time kernels and the vector kernels (index products in the library's integer type are checked for overflow).
* Proof: loop invariants over block rows, blocks and columns; product over blocks rearranged into a product over columns; composed with C10.
* Theorems: `C48_bsrmv_partial`, `C48_convert_then_multiply`, `C48_invalid_rejected`, `C48_no_columns_refuted`.
* Full statement refuted for matrices with block rows and no block column: y is not scaled (C48_no_columns_refuted). Proved for all others whose index products fit the integer type.

### C49 Product of a matrix with its own conjugate transpose — partial

* Modelled (SyrkdModel.v): the class that walks the columns of a row-stored matrix (linked lists of rows, OftModel), the product kernel, the scaling and the entry point syrkd.
* Proof: invariant of the linked lists: each column list holds exactly the rows whose next element lies in that column (OftProof); terms of every cell collected, then summed row by row; the transposed path through the theorem for csr2csc.
* Theorems: `C49_syrkd_partial`, `C49_beta_zero_ignores_C`, `C49_rejects`, `C49_repeated_columns_refuted`.
* Full statement refuted for matrices that store a position more than once (C49_repeated_columns_refuted): the rest of such a row is lost. Proved for all others.

### C50 Symmetric triple product with a dense matrix — partial

* Modelled (SyprdModel.v): both kernels of syprd (rows, columns), the scaling and the entry point.
* Proof: work vector of a row as a sum over the Hermitian completion of B, terms of each cell collected over the loops and summed; the transposed path through the theorem for csr2csc.
* Theorems: `C50_syprd_partial`, `C50_beta_zero_ignores_C`, `C50_rejects`, `C50_no_rows_refuted`.
* Full statement refuted for matrices without rows and op other than none: C is not scaled (C50_no_rows_refuted). Proved for all others.

### C51 Sparse product of a matrix with its own conjugate transpose — partial

* Modelled (SyrkModel.v): the size estimate with index arithmetic of the given width, both product kernels (transposed traversal with a sparse accumulator, dense row), the entry point syrk, the new handle.
* Proof: abstract counting argument for the estimate: with a symmetric relation, twice the upper triangle is at most the diagonal plus the off-diagonal positions, each row of which is bounded by the estimate (EstProof); the rows built by the kernels as lists (AtbProof, RowProg); values through sums over the visited elements.
* Theorems: `C51_syrk_partial`, `C51_rejects`, `C51_infinite_values_refuted`, `C51_repeated_columns_refuted`, `C51_convert_refuted`.
* Full statement refuted for matrices that store a position more than once (C51_repeated_columns_refuted), for infinite values (C51_infinite_values_refuted: writes past the arrays) and for the use of the returned handle in aoclsparse_convert_csr (C51_convert_refuted). Proved for all others.

### C52 Symmetric triple product into a sparse matrix — partial

* Modelled (SyprModel.v): both products (symmetrised B times A or A^H, then the transposed traversal), each in its counting and its filling stage, the transposition of A, the optimised copy of B, the sizes tests, the entry point sypr with its three requests, the new handle.
* Proof: rows as lists of visited elements as in C51 (SymabProof, AtbProof), the symmetrised matrix as the sum of a window of its row and of the visited elements of other rows; the sizes are the numbers of positions of two relations on the stored positions (counts), so they depend on the positions only; induction over the sequence of refills (SyprStages).
* Theorems: `C52_sypr_partial`, `C52_count_partial`, `C52_refill_partial`, `C52_rejects`, `C52_repeated_columns_refuted`, `C52_use_refuted`, `C52_convert_refuted`.
* Full statement refuted for matrices that store a position more than once (C52_repeated_columns_refuted) and for the use of the returned handle: its matrix object keeps -1 as number of elements, so the analysis of its unsorted rows writes through null pointers (C52_use_refuted) and aoclsparse_convert_csr copies minus one elements (C52_convert_refuted). Proved for all other matrices, for one stage, two stages and any number of refills.

### C53 Blocked CSR conversion and product agree with the CSR matrix — partial

* Modelled (BlkModel.v): opt_blksize (its block counting; the floating-point ratios are parameters), csr2blkcsr with its local arrays and the copies into the caller's arrays, masks as bytes with undefined shifts, masked expanding loads, the three AVX512 kernels and the entry point.
* Proof: the loops compute a pure function from the rows of a group to blocks (BlkPure: smallest head, entries within eight columns), shown by induction on the entries left (BlkConv, BlkGroups); the same function for counting and conversion, so the sizes agree; bits of a mask are the columns of its segment, also after the shift at the right edge; induction over lanes, blocks and groups for the product (BlkMv, BlkProof).
* Theorems: `C53_blocked_product_partial`, `C53_optimize_partial`, `C53_rejects`, `C53_empty_refuted`, `C53_symmetric_refuted`, `C53_repeated_positions_refuted`, `C53_unsorted_refuted`, `C53_null_scalars_refuted`, `C53_infinite_x_refuted`.
* Full statement refuted for matrices without stored entries (y is not scaled, C53_empty_refuted), symmetric descriptors (C53_symmetric_refuted), repeated positions (C53_repeated_positions_refuted), unsorted rows (undefined shift, C53_unsorted_refuted), null scalars (C53_null_scalars_refuted) and infinite elements of x (C53_infinite_x_refuted). Proved for all other calls.

### C54 GMRES reports the residual of the x it returns — partial

* Modelled (GmresModel.v): aoclsparse_gmres_rci_solve with its task loop, the work arrays v, z, h, g, c, s with checked accesses, backward solve, the stop handling of itsol_rci_solve; nrm2, lartg, abs and comparisons are parameters.
* Proof: loop lemmas for each kernel (GmresLoops); algebra of products of plane rotations (GmresAlg); invariant of a cycle: the basis is orthonormal, A Z = V H up to the rotations, r0 = V Q g (GmresCycle); run-level invariant per pending request with counters, for any arithmetic, with the algebraic part under exactness (GmresProof, GmresRun); real numbers as instance (GmresReal).
* Theorems: `C54_defined`, `C54_limit_partial`, `C54_statuses`, `C54_no_tolerance`, `C54_residual_partial`, `C54_converged_partial`, `C54_maxit_partial`, `C54_minimal_partial`, `C54_breakdown_refuted`, `C54_exact_start_refuted`, `C54_limit_refuted`, `C54_rhs_norm_refuted`, `C54_again_refuted`, `C54_complex_refuted`.
* Real arithmetic, any preconditioner: reported norm = norm of b - A x at every monitoring step and regular stop, minimality, success and maxit; any arithmetic: definedness, bounds on calls and counter, statuses, interrupt. Refuted: success with a small new direction (x unchanged, C54_breakdown_refuted), exact start vectors (NaN, C54_exact_start_refuted), the limit itself (C54_limit_refuted), rinfo[1] (C54_rhs_norm_refuted), complex types (C54_complex_refuted), a second solve after a stop inside a cycle (C54_again_refuted). Missing: effects of rounding on the reported norm.

### C55 The GMRES solver on a matrix handle — partial

* Modelled (GmresSolveModel.v): aoclsparse_itsol_solve for GMRES and aoclsparse_gmres_solve: optimisation, checks, the request loop with mv, the ILU smoother (status dropped as in the code), user preconditioner and monitor with user data.
* Proof: invariant of the loop: the handle is consistent and holds the same data, its ILU data is absent or a factorisation of the matrix; each request is served (C17, C27 results); fuel from the bound of C54; combined with C54 in real arithmetic.
* Theorems: `C55_solve_partial`, `C55_result_partial`, `C55_checks`, `C55_ilu_refuted`, `C55_ilu_exact_refuted`, `C55_monitor_refuted`.
* Every handle, descriptor and preconditioner that can be applied: the call returns within the proved bound, keeps the handle, ends as the reverse communication interface served with true products and preconditioner; real arithmetic: success and maxit say what they should except for breakdown. Refuted: an ILU preconditioner that fails is not reported (success, residual 0, x unchanged, C55_ilu_refuted), an exact ILU factorisation ends the same way (C55_ilu_exact_refuted), the monitor gets basis vectors (C55_monitor_refuted).

### C56 Matrix handles made from BSR arrays — partial

* Modelled (BsrHandleModel.v): create_bsr with its size products in checked arithmetic and the validation of C01; mv on a handle holding one BSR matrix: argument tests, quick return, choice by effective doid and architecture score, dispatch to the BSR kernel of C48..
* Proof: Creation by the specification of the validation routine (C01); the product by C48 for non-empty matrices and by the scaling lemma for empty ones; refusals by cases on descriptor and operation..
* Theorems: `C56_create_partial`, `C56_mv`, `C56_mv_refuses`, `C56_convert_mv`, `C56_null`, `C56_size_refuted`.
* Proved: C56_create_partial (verdict and stored handle for all arrays whose expanded sizes fit the integer type), C56_mv (product of any created handle), C56_convert_mv (conversion then product), C56_mv_refuses, C56_null. Missing: expanded sizes beyond the integer type, where creation overflows (refuted in C56_size_refuted); creation with fast_chck = true is modelled but not covered by a theorem.

### C57 Preparing a matrix for products changes no result — partial

* Modelled (OptMvModel.v): the choice and construction of the second storage format, the scores by which mv selects an object, the kernels it calls, and what export sees of the copy.
* Proof: each format's conversion and kernel theorems (C08, C19, C20, C53) are composed; the decision is a case split in which the floating-point comparisons are universally quantified; the selection loop is defined on every consistent handle.
* Theorems: `C57_product_partial`, `C57_other_requests`, `C57_refuses`, `C57_export_partial`, `C57_empty_first_row_refuted`, `C57_export_refuted`.
* Every choice of format and every later consistent state of the handle, for general descriptors; other requests are shown to be the unprepared call. Refuted: an empty first row (conversion to the hybrid reads before the array, B67) and export after the 4-row format was chosen (B68). Not covered: matrices recorded as sorted that repeat a position (C53), overflow of element counts, failed allocations.

### C58 Hinted products equal unhinted ones — partial

* Modelled (HandleModel.v, ExpandModel.v, HintMvSpec.v): mv with the choice among the user's matrix, optimised copies and hinted copies (with in-place diagonal switching), matrix_transform.
* Proof: case analysis on the operation ids for the choice (an exact copy outscores every other form), the kernel theorem for the chosen form, set_mat_diag restores or replaces the diagonal, and the handle invariant is kept by every call.
* Theorems: `C58_hinted_product_partial`, `C58_hinted_general`, `C58_prepared`, `C58_hint_then_product`, `C58_hints_neutral`.
* proved for every handle with any mixture of optimised and hinted copies; general requests and hinted symmetric / Hermitian requests without restriction; _partial because the triangular corner cases refuted under C16 and general descriptors with another diagonal rule remain excluded; the extra formats of aoclsparse_optimize for double precision are C57

### C59 Hints for products do not disturb solves — partial

* Modelled (TrsvModel.v, TrsmModel.v, SymgsModel.v, HintMvSpec.v): the solves and symmetric Gauss-Seidel on handles with copies made for hints.
* Proof: simulation: the choice of the optimised matrix gives the same matrix with and without the hinted copies, so every outcome of the solves carries over; for symgs the products are those of C58 and the record of the full diagonal is shown to survive them.
* Theorems: `C59_trsv_partial`, `C59_trsm_partial`, `C59_hints_irrelevant`, `C59_symgs_partial`, `C59_symgs_mv_partial`.
* proved for every handle with any mixture of optimised and hinted copies; the irrelevance of the copies for trsv and trsm needs no law of arithmetic; _partial because the requests refuted under C21, C46 and C30 remain excluded

### C60 Any program of hints, products and solves on one handle — partial

* Modelled (HistSpec.v): programs: lists of calls on one handle, executed by the modelled functions, with the outcome each call has to have.
* Proof: invariant of the handle (user matrix, optimised copies, hinted copies, record of the diagonal) kept by every call; induction over the program.
* Theorems: `C60_any_program_partial`.
* induction over the program; each call is covered by C58, C59; _partial because the calls refuted under C16, C21, C30 and C46 and rows the library cannot sort remain excluded, and value updates and destruction are not among the calls

### C61 The result of a call does not depend on the history of the handle or on the environment — partial

* Modelled (HistSpec.v, UniqueProof.v): two programs followed by the same call, in two environments (threads, team order, instruction sets, kernel choosers, sort, new memory).
* Proof: C60 gives a right outcome for both; triangular systems with non-zero diagonal, products and sweeps have one solution (UniqueProof).
* Theorems: `C61_same_result_partial`.
* uniqueness of products, triangular solves and sweeps on top of C60; _partial because the calls C60 excludes remain excluded, and arithmetic is exact (with rounding, kernels may differ in the last bits)

### C62 Concurrent products on one prepared handle — partial

* Modelled (ConcMvModel.v, ConcMvProof.v): calls on one shared hinted copy cut into single accesses to its values and to mtx_diag; a schedule is any list of thread numbers; sequentially consistent memory.
* Proof: invariant over steps: values written are the final ones, calls past the switch see the complete diagonal; a decreasing measure per call; different rules and the race of the switch refuted by concrete schedules.
* Theorems: `C62_same_rule_partial`, `C62_as_if_alone_partial`, `C62_afterwards_partial`, `C62_recorded_rule_partial`, `C62_different_rules_refuted`, `C62_switch_race_refuted`.
* proved for calls with the same diagonal rule (any interleaving, sequentially consistent memory), race freedom when the copy already has that rule; refuted: different rules give a wrong y with success (C62_different_rules_refuted), switching the rule is a data race (C62_switch_race_refuted)

### C63 Starting a GMRES solve provides exactly the work memory it needs or refuses cleanly — partial

* Modelled (GmresInitModel.v): the allocation of the work arrays with an oracle for each allocation, the live heap blocks as a list, deleting a block that is not live is undefined; checked integer arithmetic.
* Proof: the blocks made before a failure are a prefix and are released one by one; the sizes give the hypothesis of C54_defined; INT_MAX refuted for all systems.
* Theorems: `C63_start_partial`, `C63_solve_defined_partial`, `C63_cg_start`, `C63_largest_restart_refuted`.
* proved for restart lengths below the largest integer; refuted: restart length INT_MAX is accepted by the option and overflows m + 1 in the guard (C63_largest_restart_refuted)

## Findings

Each is a theorem ending in `_refuted` unless marked "unproved".

* C04: std::sort comparator is `<=`, undefined for repeated columns; order_mat on
  rectangular CSC matrices sorts by the wrong dimension.
* C06: the null check of csr2csc comes after a write for empty matrices.
* C08, C20: slot-major ELL conversion reads `col_ind[-1]` when the first rows are
  empty; ELL width zero and DIA with no columns return success without scaling y;
  null alpha or beta is dereferenced.
* C10: csr2bsr does not clear its buffer, loses duplicates, converts CSC handles
  transposed or out of bounds, overflows offsets.
* C11: unit diagonal of non-square matrices is written outside the window.
* C15: a general descriptor with unit diagonal is refused.
* C16, C42: the double AVX2 kernel loses the unit diagonal of upper rows with four or
  more further entries; unit diagonals of tall matrices read x out of bounds.
* C17: csrmv on symmetric matrices reads `col_ind[-1]` when row 0 is empty.
* C18, C23: rows are lost when OpenMP delivers fewer threads than requested.
* C19: padding of 4-row blocks reads `x[-1]` (base one, empty leading row); padding
  multiplies 0 by x, so an infinite x gives NaN where the CSR product is finite.
* C21: alpha = 0 and repeated columns in the column-oriented vector solves.
* C22: csrsv stops a row at the first entry right of the diagonal and reuses an
  earlier diagonal when one is missing.
* C23: a repeated column in B is written outside the result.
* C24: finalize with a C counted for another structure writes out of bounds before
  its own check.
* C26: empty inner dimension leaves C unscaled; one-based row-order offsets overflow;
  beta = 0 keeps NaN for general matrices.
* C27, C29: CSC handles are accepted and treated as CSR; partially sorted rows give
  wrong ILU factors; a zero diagonal is accepted by SOR after optimize.
* C28: a failed ILU factorisation succeeds when repeated, with wrong factors.
* C30: Hermitian CSC, Hermitian with transposition, complex symmetric with
  conjugate transposition.
* C32: after a value change, products on a handle with internal copies dereference
  null; ILU factors stay stale.
* C33: mv, ILU and SOR read or write handle fields outside the lock.
* C34: the transposed threaded product depends on the order of threads in IEEE double.
* C36: "ENV" does not re-read the environment.
* C37: a product equal to the smallest integer is a false alarm.
* C38: non-numeric text throws out of the C interface; trailing text is accepted;
  options stay locked after a new right-hand side; the GMRES restart length is
  ignored between solves.
* C40: export returns the internal copy after preparation or hints; a copy loses the
  sort classification.
* C41: a failed allocation in the ILU preparation leads to a double free.
* C42: creation does not compare the diagonals of the two triangles.
* C43: one iteration beyond the limit; monitor arguments; numerical_error for small
  right-hand sides; Gauss-Seidel preconditioner on one-based data.
* C44: vector level-1 kernels do not test for negative indices.
* C46: trsm accepts leading dimensions below the number of rows, so columns overlap and
  the result depends on the schedule; with no stored elements and a unit diagonal it
  reports success without setting X; the documentation promises not_implemented for
  general matrices, the code returns invalid_value.
* Unproved: mv and csrmm rewrite the diagonal of a shared copy without an exclusive
  lock; order_mat does not refresh the recorded sort state; handles made by add, sp2m
  and copy leave the matrix type uninitialised; GMRES overflows `restart + 1`.
* C48: with block rows and no block column bsrmv reports success without scaling y.
* C49: syrkd loses the rest of a row after a position that is stored twice (accepted as
  sorted by creation, off the diagonal).
* C50: syprd leaves C unscaled when A has no rows and op is not none.
* C51: syrk on a small wide matrix with infinite values writes past the arrays it
  allocated (0 * infinity compares different from zero); positions stored twice lose the
  rest of their row; the object of the returned handle keeps the estimated number of
  elements, and aoclsparse_convert_csr of that handle overflows its destination.
* C52: the handle returned by sypr records -1 elements in its matrix object: a later
  analysis of its unsorted rows (product with a symmetric matrix, solve, optimize) writes
  through null pointers, aoclsparse_convert_csr copies minus one elements.
* C53: aoclsparse_dblkcsrmv does not scale y when nnz = 0, accepts symmetric descriptors
  but multiplies the stored triangle only, reads alpha and beta without a null check;
  aoclsparse_csr2blkcsr shifts by a negative count on unsorted rows and loses values on
  repeated positions; lanes without an entry turn infinite x into NaN.
* C54: GMRES reports success with residual 0 and an unchanged x when a new direction is
  small, as it always is for systems not larger than the restart length (2 x = 1 with
  default options); an exact start vector gives NaN; the limit is tested at restarts only;
  rinfo[1] is not the norm of b; complex types conjugate the wrong factor, so x and its
  reported norm are wrong; a solve after one that stopped inside a cycle starts from the
  old position.
* C55: the direct interface of GMRES does not look at the status of its ILU smoother, so a
  matrix without factorisation (or a symmetric descriptor) gives success with residual 0
  and an unchanged x, and so does an exact factorisation (any triangular matrix); the
  monitor is given basis vectors instead of x and the residual.
* C56: creating a BSR handle multiplies the block sizes without a range test; valid and
  tiny arrays overflow a 32-bit integer (B66).  A bad row pointer gives invalid_value,
  the header announces invalid_index_value.
* C57: optimize with a product hint reads before the column array when the first row is
  empty and the hybrid format is chosen (4 rows of 0, 2, 2, 2 elements, B67); when the
  4-row format is chosen, aoclsparse_export_dcsr returns its padded, interleaved arrays
  as if they were CSR, so the exported matrix is another one (rows of 1, 1, 1, 2
  elements, B68).

## Trusted base

* Coq's kernel (8.16.1). `vm_compute` is used in examples and witnesses; `native_compute`
  is not used.
* `Print Assumptions` says "Closed under the global context" for every theorem listed
  in MANIFEST.json except C54_residual_partial, C54_converged_partial, C54_maxit_partial,
  C54_minimal_partial and C55_result_partial. These five are about real numbers (Coq.Reals) and list the
  standard library's axioms `ClassicalDedekindReals.sig_not_dec`,
  `ClassicalDedekindReals.sig_forall_dec` and
  `FunctionalExtensionality.functional_extensionality_dep`. No other axiom is used. The
  checker's list of library axioms (`Coq.ssr.ssrunder.*`) comes from loaded library
  files, not from any theorem here.
* The correspondence between the C++ text and the Gallina definitions, argued by the
  citation on each definition. It is not machine checked.
* Assumptions that appear as hypotheses of theorems, not as axioms: std::sort returns a
  sorted permutation for a strict weak order (`sort_contract`); allocated arrays have the
  requested length (`env_ok`, `solve_env`); for real types conjugation is the identity;
  the OpenMP runtime delivers the requested team where stated; CPU flags, hints and
  environment variables are arbitrary inputs.
* Interleavings (C33, C34) are sequentially consistent. Race freedom is proved for
  the same systems, which justifies that reading for C++ programs without races.

## Not modelled

* Rounding, except in the IEEE witnesses; performance heuristics; printing; version
  strings; the C++ type checks on value types of handles where a comment says so.
* Allocation failure, except in C41 (MemModel, HintModel).
* Memory order weaker than sequential consistency.
* Selection of the 4-row storage and of block sizes by optimize (floating-point
  ratios); scores by which mv prefers one of several hinted copies, except as stated in
  C26 and C42.
* BLAS-like helpers outside the library, the Fortran interface, tests and benchmarks.

## How to read seeded/LOG.jsonl

* `broken_proofs` is what was observed: the file and lemma at which the build of the edited
  model first stopped. An empty list means that everything built.
* `theorems_failed` is derived, not observed. The build stops at the first broken proof, so
  the theorems behind it were not tried. The list holds the theorems that mention the broken
  lemma, directly or through other lemmas, found by a text search of the current files and
  then restricted to the property named in `breaks` when it has any. A theorem added after
  the test can therefore appear in it.
* A proof script that stops does not show that the theorem is false of the edited model. It
  may only need another script. No counterexample was built for the edits in general.
* Most tests compiled only the files between the edited definition and the theorems of the
  property named, not the whole development. Some were stopped by a time limit; their
  `note` says so.
