{"id": "C01", "title": "Last assignment of an option wins", "statement": "For every command line, the value the run uses for any option is the value of the last assignment to that option in the sequence of assignments the command line stands for (option=value arguments, and the assignments of input .txt files at their position), and the built-in default when there is none; assignments to other options never influence it. The only exception is that the P123 thread count is capped by Nq_WP.", "quantifier": "every command line, every file system content, every option", "why_tests_cant": "there are unboundedly many argument sequences and interleavings of options; a test fixes one sequence", "anchors": ["CPP/set_run_parameters.cpp: read_and_set_parameter, set_run_parameters, set_default_values"]}
{"id": "C02", "title": "An input file means the same as its assignments in line order", "statement": "Passing an input .txt file has the same effect on the run configuration as passing, at that position of the command line, each of its key=value lines in order with all white space removed from the value; lines without '=', blank values and unknown keys change nothing, and a missing file changes nothing (or stops the run) but never sets a parameter.", "quantifier": "every file content, every prior configuration", "why_tests_cant": "file contents are arbitrary; equivalence of two readers must hold for all of them", "anchors": ["CPP/set_run_parameters.cpp: read_input_file / set_run_parameters"]}
{"id": "C03", "title": "Unknown options and blank values are inert", "statement": "An assignment whose option name is not one of the documented options leaves the whole configuration untouched and the run continues.", "quantifier": "every string that is not a documented option name, every value, every configuration", "why_tests_cant": "the space of unknown names is infinite", "anchors": ["CPP/set_run_parameters.cpp: read_and_set_parameter"]}
{"id": "C04", "title": "A run that starts has a legal configuration", "statement": "If option processing finishes without an error then two_J_3N_max is odd and positive, the number of P123 threads does not exceed Nq_WP, and parallel_run implies that a channel index was given.", "quantifier": "every command line and every file system content", "why_tests_cant": "a test cannot enumerate all argument lists leading into the validation code", "anchors": ["CPP/set_run_parameters.cpp: set_run_parameters"]}
{"id": "C05", "title": "Integer options accept only integers", "statement": "README: a value that is not an integer given to an integer option stops the run. Desired: an integer option is changed only when the complete value text is an integer.", "quantifier": "every value string, every integer option", "why_tests_cant": "the set of malformed value strings is infinite", "anchors": ["CPP/set_run_parameters.cpp: read_and_set_parameter", "README.md"]}
{"id": "C06", "title": "Every option can be set from the command line, and no argument crashes the parser", "statement": "Every documented option given as option=value on the command line takes effect whatever the (well-formed) value is, and an argument that is not understood is reported and skipped rather than aborting the program.", "quantifier": "every documented option, every value, every argument string", "why_tests_cant": "argument strings are unbounded; the failing shapes (short strings, values ending in .txt) are easily missed by sampling", "anchors": ["CPP/set_run_parameters.cpp: set_run_parameters"]}
{"id": "C07", "title": "Generated partial waves obey all selection rules", "statement": "Every three-nucleon partial-wave state produced for (J_2N_max, two_J_3N_max, isospin breaking) satisfies the angular-momentum triangle rules for (L,S,J), (l,1/2,j) and (J,j,J_3N), Pauli antisymmetry L+S+T odd, parity (-1)^(L+l) equal to the parity recorded for it, isospin coupling T with 1/2 to T_3N, and the truncation J<=J_2N_max, 2J_3N<=two_J_3N_max; T_3N=3/2 occurs only in 1S0 states and only with isospin breaking.", "quantifier": "every J_2N_max, every two_J_3N_max, both isospin settings, every produced state", "why_tests_cant": "the state list grows without bound with the truncation parameters", "anchors": ["CPP/make_pw_symm_states.cpp: construct_symmetric_pw_states"]}
{"id": "C08", "title": "The partial-wave list is complete", "statement": "Conversely every combination of quantum numbers that obeys the selection rules and the truncation appears in the produced list.", "quantifier": "every J_2N_max, every two_J_3N_max, both isospin settings, every tuple of quantum numbers", "why_tests_cant": "completeness is a statement about an unbounded set of tuples", "anchors": ["CPP/make_pw_symm_states.cpp: construct_symmetric_pw_states"]}
{"id": "C09", "title": "No partial wave is listed twice", "statement": "The produced list of states contains no duplicates.", "quantifier": "every truncation and isospin setting", "why_tests_cant": "needs all sizes", "anchors": ["CPP/make_pw_symm_states.cpp: construct_symmetric_pw_states"]}
{"id": "C10", "title": "Channel table partitions the states", "statement": "The three-nucleon channel table is a strictly increasing sequence starting at 0 and ending at the number of states; all states of one channel have the same 2J and parity, different channels differ in 2J or parity, and there is exactly one (non-empty) channel for every odd 2J up to the maximum and every parity.", "quantifier": "every J_2N_max>=0, every positive odd two_J_3N_max, both isospin settings", "why_tests_cant": "number and lengths of channels are unbounded", "anchors": ["CPP/make_pw_symm_states.cpp: construct_symmetric_pw_states", "CPP/main.cpp: channel loop"]}
{"id": "C11", "title": "Enumerating partial waves is memory safe", "statement": "Constructing the state list never reads memory outside the containers it has filled.", "quantifier": "every truncation", "why_tests_cant": "an out-of-range read by one element is usually silent in a test", "anchors": ["CPP/make_pw_symm_states.cpp: construct_symmetric_pw_states l.236-249"]}
{"id": "C12", "title": "Deuteron channels are found correctly", "statement": "In every three-nucleon channel the set of deuteron states reported is exactly the set of states with L in {0}, S=1, J=1, T=0, in order; with J_2N_max>=1 there are 2 of them when 2J=1 and 3 otherwise.", "quantifier": "every channel of every truncation", "why_tests_cant": "unbounded number of channels", "anchors": ["CPP/run_organizer.cpp: find_deuteron_channels"]}
{"id": "C13", "title": "Two-nucleon channel numbering is injective and within the allocated tables", "statement": "Two states are given the same two-nucleon matrix if and only if they belong to the same physical two-nucleon (possibly coupled) channel, and the number is always smaller than the number of matrices allocated.", "quantifier": "every pair of admissible two-nucleon states, every J_2N_max, tensor force and isospin-breaking settings", "why_tests_cant": "must hold for all pairs and all truncations; a collision silently mixes channels", "anchors": ["CPP/make_pw_symm_states.cpp: unique_2N_idx", "CPP/main.cpp l.275-301"]}
{"id": "C14", "title": "Chebyshev momentum grid is a strictly increasing partition from zero", "statement": "For N>=1 bins, positive scale and sparseness, the generated bin boundaries start at 0, are strictly increasing and positive afterwards, so bins are non-empty, disjoint and contiguous; every bin midpoint lies strictly inside its bin and every bin norm is positive.", "quantifier": "every N, every positive real scale and sparseness degree", "why_tests_cant": "real parameters and all sizes", "anchors": ["CPP/make_wp_states.cpp: make_chebyshev_distribution, make_p_bin_grid, make_q_bin_grid"]}
{"id": "C15", "title": "The q grid follows the q grid options", "statement": "The q-momentum grid is chebyshev or read from q_grid_filename according to q_grid_type, independently of p_grid_type.", "quantifier": "every pair of grid-type settings", "why_tests_cant": "combination of options; bug only visible for mixed settings", "anchors": ["CPP/make_wp_states.cpp: make_q_bin_grid"]}
{"id": "C16", "title": "Quadrature points stay inside their bin", "statement": "Mapping a quadrature rule on [-1,1] to a bin [a,b] puts every node inside the bin, preserves the node order, and scales the total weight to exactly (b-a)/2 times the rule's total weight.", "quantifier": "every rule, every bin", "why_tests_cant": "real quantification", "anchors": ["CPP/General_functions/gauss_legendre.cpp: updateRange_a_b", "CPP/make_wp_states.cpp"]}
{"id": "C17", "title": "Reading a grid file is memory safe and exact", "statement": "A boundary file is accepted exactly when it has N+1 lines and then yields these numbers in order; any other file is rejected without touching memory outside the array.", "quantifier": "every file content and every N", "why_tests_cant": "heap overflow is usually silent", "anchors": ["CPP/disk_io_routines.cpp: read_WP_boundaries_from_txt l.977-994"]}
{"id": "C18", "title": "Lab/centre-of-mass conversions are mutually inverse", "statement": "Converting a nucleon laboratory energy to a centre-of-mass momentum and back returns the energy (and conversely) for all non-negative energies; likewise for centre-of-mass energy and Jacobi q/p momentum; all conversions are strictly increasing.", "quantifier": "every non-negative real energy / momentum", "why_tests_cant": "continuum of inputs", "anchors": ["CPP/General_functions/kinetic_conversion.cpp"]}
{"id": "C19", "title": "Permutation kinematics conserve energy and stay in range", "statement": "For all momenta and cosines the recoupled Jacobi momenta satisfy pi1^2+3/4 pi2^2 = p^2+3/4 q^2 with non-negative radicands, and the recoupled angle cosines lie in [-1,1], so the code's clamping never changes a value in exact arithmetic.", "quantifier": "every p,q>=0 and x in [-1,1]", "why_tests_cant": "continuum of inputs", "anchors": ["CPP/auxiliary.cpp: pi1_tilde, pi2_tilde, Gtilde_subarray_new"]}
{"id": "C20", "title": "Skipped permutation elements are really zero", "statement": "Whenever the momentum-overlap table says that two wave-packet cells do not overlap (so that the element of the permutation matrix is never computed), the element formula gives exactly zero; and each cell pair has its own table entry.", "quantifier": "every grid, every quadrature mesh, every pair of cells", "why_tests_cant": "all grids and cells", "anchors": ["CPP/make_permutation_matrix.cpp: calculate_WP_overlap", "CPP/auxiliary.cpp: calculate_P123_element_in_WP_basis_mod"]}
{"id": "C21", "title": "The permutation matrix does not depend on the thread schedule or buffer size", "statement": "However matrix rows are distributed over threads and wherever thread buffers overflow into intermediate files, the merged permutation matrix consists of exactly the computed non-zero elements, once each, in row-major order.", "quantifier": "every number of threads, every assignment of work to threads, every buffer size, every matrix", "why_tests_cant": "schedules and flush points are exponentially many", "anchors": ["CPP/make_permutation_matrix.cpp: calculate_permutation_elements_for_3N_channel l.733-940, read_and_merge_thread_files_to_single_file l.945-1142"]}
{"id": "C22", "title": "Recovery mode rebuilds the same matrix", "statement": "Restarting with P123_recovery=true after all intermediate files were written gives the same permutation matrix as the run that wrote them.", "quantifier": "every matrix size and thread count", "why_tests_cant": "depends on size in a way tests on large runs never see", "anchors": ["CPP/make_permutation_matrix.cpp l.1209-1231"]}
{"id": "C23", "title": "Stored permutation matrices are only reused for the model space they were computed in", "statement": "Storing a permutation matrix and reading it back for the same grids and partial waves returns exactly the stored triples; reading it for any other grid size, bin boundary or partial-wave table stops with an error.", "quantifier": "every matrix, every pair of model spaces", "why_tests_cant": "must hold for every pair of model spaces", "anchors": ["CPP/disk_io_routines.cpp: store_sparse_permutation_matrix_for_3N_channel_h5, read_sparse_permutation_matrix_for_3N_channel_h5"]}
{"id": "C24", "title": "Merged elements are inside the matrix", "statement": "When merging succeeds all row and column indices are smaller than the matrix dimension.", "quantifier": "every intermediate file content", "why_tests_cant": "off-by-one in a check", "anchors": ["CPP/make_permutation_matrix.cpp: index check in merge"]}
{"id": "C25", "title": "Sparse conversions preserve the matrix", "statement": "Converting a coordinate-format sparse matrix to compressed column (row) format keeps every element: the entries listed for a column are exactly the stored entries of that column; the offsets start at 0, are non-decreasing and end at the number of entries.", "quantifier": "every sorted coordinate matrix of every size", "why_tests_cant": "all sizes", "anchors": ["CPP/General_functions/matrix_routines.cpp: coo_col_to_csc_array, coo_row_to_csr_array"]}
{"id": "C26", "title": "Sorting a sparse matrix permutes whole elements", "statement": "Sorting to row-major (column-major) order yields the same multiset of (row,column,value) triples, ordered by row then column (column then row), whatever (unstable) sort order is chosen for equal keys.", "quantifier": "every matrix; every order consistent with std::sort's contract", "why_tests_cant": "std::sort is unspecified on ties", "anchors": ["CPP/General_functions/matrix_routines.cpp: coo_row_major_sort / coo_col_major_sort"]}
{"id": "C27", "title": "Dense/sparse round trip", "statement": "Extracting the non-zero elements of a dense matrix and expanding them again returns the original dense matrix.", "quantifier": "every square matrix", "why_tests_cant": "all sizes and values", "anchors": ["CPP/General_functions/matrix_routines.cpp: square_dense_to_sparse_COO_format_converter, square_sparse_COO_to_dense_format_converter"]}
{"id": "C28", "title": "Matrix transposition is exact and involutive", "statement": "In-place transposition of an n x n array gives the transpose, and twice gives back the array.", "quantifier": "every n and every array", "why_tests_cant": "all sizes", "anchors": ["CPP/General_functions/matrix_routines.cpp: simple_transpose_matrix_routine"]}
{"id": "C29", "title": "Two-nucleon Hamiltonian storage is faithful", "statement": "The packed array handed to the eigensolver stores element (r,c), r<=c, of kinetic+potential matrix at a unique position inside the buffer and covers the buffer completely.", "quantifier": "every matrix dimension", "why_tests_cant": "all sizes", "anchors": ["CPP/make_swp_states.cpp: construct_full_hamiltonian"]}
{"id": "C30", "title": "Coupled eigenstates are split without loss", "statement": "Re-ordering the spectrum of a coupled channel sends eigenvalue 2i to slot i of the first block and 2i+1 to slot i of the second block together with its eigenvector, losing none.", "quantifier": "every even dimension", "why_tests_cant": "all sizes", "anchors": ["CPP/make_swp_states.cpp: reorder_coupled_eigenspectrum"]}
{"id": "C31", "title": "Bound states are accepted only as the deuteron", "statement": "Bin construction continues iff there is no negative eigenvalue outside 3S1-3D1 and exactly one inside; then the recorded binding energy is that eigenvalue and every other case stops the run.", "quantifier": "every spectrum", "why_tests_cant": "all spectra", "anchors": ["CPP/make_swp_states.cpp: look_for_unphysical_bound_states"]}
{"id": "C32", "title": "Scattering wave-packet bins are ordered and disjoint", "statement": "From a strictly increasing positive spectrum (preceded by the one deuteron eigenvalue in 3S1-3D1) the energy bin boundaries are strictly increasing, begin at 0 (at the deuteron energy followed by 0), and the i-th eigenvalue lies strictly inside bin i.", "quantifier": "every such spectrum with at least two bins", "why_tests_cant": "all spectra and sizes", "anchors": ["CPP/make_swp_states.cpp: make_swp_bin_boundaries"]}
{"id": "C33", "title": "Resolvent matrix has the right analytic structure", "statement": "The imaginary part of every diagonal resolvent element is never positive, and is non-zero only for cells that can hold the on-shell energy; every (channel state, q, p, energy) has its own slot inside the array.", "quantifier": "every grid, energy and state", "why_tests_cant": "continuum of energies", "anchors": ["CPP/make_resolvent.cpp"]}
{"id": "C34", "title": "On-shell bins bracket the requested energies", "statement": "For every requested lab energy inside the grid range both neighbouring momentum bins are selected, no bin is selected twice, bins come in increasing order, and a bin is selected only when a requested energy lies between its midpoint and an adjacent midpoint.", "quantifier": "every increasing grid and every list of energies", "why_tests_cant": "continuum of inputs and all sizes", "anchors": ["CPP/run_organizer.cpp: find_on_shell_bins"]}
{"id": "C35", "title": "Breakup neighbour cells are inside the grid", "statement": "All breakup cells that are stored for interpolation have valid p and q bin indices.", "quantifier": "every grid and energy", "why_tests_cant": "boundary cells only", "anchors": ["CPP/run_organizer.cpp: breakup part"]}
{"id": "C36", "title": "Potential elements are picked by quantum numbers", "statement": "For the two-nucleon state pair (L,L',S,J) the potential value used is the spin-singlet, triplet uncoupled, J-1/J-1, J+1/J+1 or (sign-flipped) mixed element of the model according to L,L',S,J and any pair violating the triangle rule stops the run.", "quantifier": "every (L,L',S,J)", "why_tests_cant": "infinite table", "anchors": ["CPP/make_potential_matrix.cpp: extract_potential_element_from_array"]}
{"id": "C37", "title": "The internal potentials are Hermitian and parity/spin diagonal", "statement": "For the LO_internal and Malfliet-Tjon models the element from (L,q) to (L',q') equals the one from (L',q') to (L,q) for all momenta; Malfliet-Tjon acts only in S waves.", "quantifier": "every J and all positive momenta", "why_tests_cant": "continuum of momenta", "anchors": ["CPP/Interactions/OPEP.cpp", "CPP/Interactions/chiral_LO_internal.cpp", "CPP/Interactions/malfliet_tjon.cpp"]}
{"id": "C38", "title": "Each two-nucleon matrix is assigned to the blocks it belongs to", "statement": "In the three-nucleon operator the block between two partial waves is the matching block of the two-nucleon matrix of their common channel when the spectator and conserved quantum numbers agree, and zero otherwise; the operator built from the transposed matrices is exactly the transpose of the one built from the matrices.", "quantifier": "every partial-wave table and every set of two-nucleon matrices", "why_tests_cant": "all tables and sizes", "anchors": ["CPP/solve_faddeev.cpp: create_CT_row_maj_3N_pointer_array, create_VC_col_maj_3N_pointer_array, restructure_coupled_VC_product"]}
{"id": "C39", "title": "Kernel columns are the matrix product", "statement": "Each computed kernel column equals the column of the operator product C^T (2 P123) (V C) over the full three-nucleon space, whatever the sparsity pattern; rows computed for on-shell states equal the same product.", "quantifier": "every channel size, every sparse P123, every V and C", "why_tests_cant": "all sizes and values", "anchors": ["CPP/solve_faddeev.cpp: calculate_PVC_col, calculate_CPVC_col, calculate_all_CPVC_rows"]}
{"id": "C40", "title": "Chunked columns cover the kernel exactly once", "statement": "Splitting the kernel into column chunks processes every column exactly once and no chunk exceeds the allocated chunk buffer.", "quantifier": "every channel dimension up to 2^28", "why_tests_cant": "size-dependent arithmetic", "anchors": ["CPP/solve_faddeev.cpp l.522-530, l.1005-1020"]}
{"id": "C41", "title": "Neumann terms are the powers of the kernel", "statement": "For every on-shell element that is not yet converged, the n-th coefficient stored is the (row,column) element of A (G A)^n with A the kernel and G the resolvent at that energy, regardless of which other elements have already converged and been dropped, and of the chunking.", "quantifier": "every n, every system, every convergence history", "why_tests_cant": "convergence histories are exponentially many", "anchors": ["CPP/solve_faddeev.cpp: pade_method_solve"]}
{"id": "C42", "title": "The Pade resummation is exact for rational series", "statement": "If the Neumann series of an element is that of a rational function with numerator and denominator degree at most M, then the [M/M] approximant the code computes equals the function's value whenever the code's denominator determinant is non-zero; the coefficients it uses are only those already computed.", "quantifier": "every M, every rational series", "why_tests_cant": "all orders", "anchors": ["CPP/solve_faddeev.cpp: pade_approximant"]}
{"id": "C43", "title": "Iterative and direct solver agree", "statement": "On-shell transition elements obtained from the Pade approximant of order at least the matrix dimension equal those of the direct dense solver whenever the linear system is non-singular (exact arithmetic).", "quantifier": "every system size", "why_tests_cant": "all systems", "anchors": ["CPP/solve_faddeev.cpp: faddeev_dense_solver, pade_method_solve"]}
{"id": "C44", "title": "Every reported elastic element is a computed approximant", "statement": "When the iterative solver ends, each elastic amplitude it reports is one of the approximants computed for that element from its own Neumann terms, and it depends on nothing else.", "quantifier": "every system and convergence history", "why_tests_cant": "dependence on uninitialised memory does not show in a test", "anchors": ["CPP/solve_faddeev.cpp: pade_method_solve l.1225-1420"]}
{"id": "C45", "title": "Breakup run reports only computed approximants", "statement": "With breakup channels included, all reported elastic and breakup amplitudes are computed approximants and every write lands inside the output arrays.", "quantifier": "every number of deuteron and breakup channels", "why_tests_cant": "needs particular convergence histories", "anchors": ["CPP/solve_faddeev.cpp: pade_method_solve", "CPP/main.cpp l.418"]}
{"id": "C46", "title": "Output columns carry the right labels", "statement": "In the result file the value under header Uij in the row of an energy is the (i,j) element for that energy.", "quantifier": "every number of deuteron states and energies", "why_tests_cant": "number of columns depends on the channel", "anchors": ["CPP/disk_io_routines.cpp: store_U_matrix_elements_txt"]}
{"id": "C47", "title": "Different calculations write to different files", "statement": "Two channels / grid sizes / J_2N_max / parameter sample indices never share an output file identification.", "quantifier": "every pair of configurations", "why_tests_cant": "string concatenation could collide for some pair", "anchors": ["CPP/main.cpp: file_identification", "CPP/make_permutation_matrix.cpp: generate_subarray_file_name"]}
{"id": "C48", "title": "Parameter-walk runs only read existing parameter sets", "statement": "If a parameter walk over sets PSI_start..PSI_end is accepted, every set used lies inside the parameter file.", "quantifier": "every file and range", "why_tests_cant": "silent out-of-range read", "anchors": ["CPP/main.cpp l.120-140", "CPP/disk_io_routines.cpp: read_parameter_sample_list"]}
{"id": "C49", "title": "Parallel runs partition the channels", "statement": "Runs with parallel_run=true and channel_idx=0..N-1 together solve each channel exactly once, and each computes the same as the serial run does for that channel; an index outside the range does nothing.", "quantifier": "every number of channels", "why_tests_cant": "all sizes", "anchors": ["CPP/main.cpp: channel loop l.160-175"]}
{"id": "C50", "title": "Errors are visible in the exit status", "statement": "A run stopped by an input or consistency error terminates with a non-zero exit status.", "quantifier": "every error", "why_tests_cant": "the status is never looked at in unit tests of functions", "anchors": ["CPP/error_management.cpp: raise_error"]}
{"id": "C51", "title": "Each two-nucleon channel is diagonalised exactly once", "statement": "For every model space (tensor force on) the wave-packet construction diagonalises the Hamiltonian of every two-nucleon channel that occurs among the three-nucleon states exactly once, never addresses a channel outside the allocated tables, and demands a bound state exactly in the channel that contains the deuteron.", "quantifier": "all truncations J_2N_max, two_J_3N_max and isospin-breaking settings, all pairs of states", "why_tests_cant": "the number and order of states grows with the truncation; a test fixes one truncation", "anchors": ["CPP/make_swp_states.cpp:make_swp_states", "CPP/make_pw_symm_states.cpp:unique_2N_idx"]}
{"id": "C52", "title": "The on-shell bin recorded for an energy is the bin that was selected", "statement": "For every selected on-shell bin the index recorded for the solver is the index of that bin, whose mid-point energy is the one reported.", "quantifier": "every increasing momentum grid, binding energy and list of energies", "why_tests_cant": "depends on the continuum of bin widths", "anchors": ["CPP/run_organizer.cpp: find_on_shell_bins l.40-129", "CPP/General_functions/kinetic_conversion.cpp"]}
{"id": "C53", "title": "Breakup cells are chosen at the energy of the resolvent", "statement": "Every cell recorded for breakup lies within one step of a cell whose energy range contains the total energy at which the resolvent is evaluated.", "quantifier": "every grid, spectrum and energy", "why_tests_cant": "continuum of energies and grids", "anchors": ["CPP/run_organizer.cpp l.144-226", "CPP/main.cpp l.381-392"]}
{"id": "C54", "title": "Breakup cells are complete and delimited per energy", "statement": "For every on-shell energy above threshold the recorded cells are exactly the 2x2 squares around the cells whose energy range contains the c.m. energy; the index array delimits the cells of each energy; energies below threshold record none; the run stops exactly when an energy above threshold has no such cell.", "quantifier": "every grid, spectrum, state list and energy list", "why_tests_cant": "all sizes and a continuum of boundaries", "anchors": ["CPP/run_organizer.cpp l.131-338"]}
{"id": "C55", "title": "A parameter walk uses the parameters of each set", "statement": "In a parameter walk, the result reported for a set is computed with the numbers of that set's row in the parameter file, for the interaction selected.", "quantifier": "every table file, range, channel and interaction", "why_tests_cant": "holds for every file content and range; a test sees one file", "anchors": ["CPP/main.cpp l.250-275", "CPP/Interactions/*: update_parameters"]}
{"id": "C56", "title": "Breakup amplitudes are stored in their own, labelled place", "statement": "In the breakup result table every amplitude (deuteron channel, breakup cell) has a place of its own, in the row of its energy and in the column labelled with its quantum numbers, next to the boundaries of its momentum bins; different final states are distinguishable by their labels.", "quantifier": "every table of breakup cells, every number of deuteron channels and energies", "why_tests_cant": "the row/column assignment depends on how many cells each energy and partial wave has; a test fixes one such pattern", "anchors": ["CPP/disk_io_routines.cpp: restructure_breakup_data, store_U_BU_matrix_elements_txt"]}
{"id": "C57", "title": "Every two-nucleon potential matrix holds the right interaction in the right place", "statement": "After the potential matrices are constructed, the element of each two-nucleon channel between two momentum bins is the wave-packet average (mid-point or quadrature, as requested) of the interaction between those partial waves, in the isospin combination of the pair, stored where the resolvent and kernel routines look it up; nothing outside the tables is touched and the result does not depend on uninitialised memory.", "quantifier": "every channel, momentum cut, interaction model, grid, pair of partial waves and pair of bins", "why_tests_cant": "a test compares a few elements of one table; placement errors are specific to a channel/isospin/bin combination", "anchors": ["CPP/make_potential_matrix.cpp: calculate_potential_matrices_array_in_WP_basis"]}
{"id": "C58", "title": "Potential matrices of the built-in interactions are symmetric", "statement": "For LO_internal and malfliet_tjon the potential matrix element between (partial wave r, bin i) and (c, j) equals that between (c, j) and (r, i), so the eigenvalue routine, which looks at one triangle only, sees the whole matrix.", "quantifier": "every channel, grid and pair of elements", "why_tests_cant": "ranges over all grids and momenta", "anchors": ["CPP/make_potential_matrix.cpp", "CPP/Interactions/chiral_LO_internal.cpp", "CPP/Interactions/malfliet_tjon.cpp"]}
{"id": "C59", "title": "Partial-wave projection uses Legendre polynomials and the Pauli-allowed isospin factor", "statement": "The table used for projecting the one-pion exchange holds the Legendre polynomial of each degree at each angular node, and the isospin factor is <tau1.tau2>=4T-3 with the isospin T allowed by antisymmetry.", "quantifier": "every degree, node list and partial wave", "why_tests_cant": "holds for all degrees by induction on the recurrence; a test checks some", "anchors": ["CPP/General_functions/legendre.cpp: findRoots, fetchRoot", "CPP/Interactions/OPEP.cpp: isoFac"]}
{"id": "C60", "title": "The direct solver solves the Faddeev equation", "statement": "With the direct (dense) solver, each reported elastic amplitude from deuteron channel i to deuteron channel j at energy q is the corresponding on-shell element of the unique solution of X = A + A G(q) X, whenever that equation is uniquely solvable at that energy.", "quantifier": "every channel, potential, energy list and number of deuteron channels", "why_tests_cant": "all systems; index maps of three nested loops", "anchors": ["CPP/solve_faddeev.cpp: faddeev_dense_solver", "CPP/General_functions/matrix_routines.cpp: solve_MM"]}
{"id": "C61", "title": "Reported amplitudes satisfy the convergence rule", "statement": "Every amplitude the iterative solver reports is an approximant whose change from the preceding order is the smallest above 1e-15 among the orders computed, and is below 1e-7 or 1e-6 relative, unless five further orders did not improve it or the last order was reached.", "quantifier": "every system and convergence history", "why_tests_cant": "convergence histories are exponentially many", "anchors": ["CPP/solve_faddeev.cpp: pade_method_solve l.1246-1385"]}
{"id": "C62", "title": "determinant and Pade approximant formulas", "statement": "The determinant routine returns the determinant of any square complex matrix (also when rows are interchanged during factorisation), and the Pade routine the ratio of the two determinants that defines the [M/M] approximant.", "quantifier": "every size and matrix, every order, every pivot sequence", "why_tests_cant": "pivot sequences are exponentially many", "anchors": ["CPP/General_functions/matrix_routines.cpp: determinant", "CPP/solve_faddeev.cpp: pade_approximant"]}
{"id": "C63", "title": "A malformed option value stops the run", "statement": "For every documented option and every value text, either the text denotes a value of the option kind (a boolean exactly when it is the word true or false, an integer/double when the library reader accepts it, any text for the others), the option takes that value and no other parameter changes, or the run stops: no malformed value is skipped or replaced.", "quantifier": "every documented option, every value text, every prior configuration", "why_tests_cant": "value texts are unbounded", "anchors": ["CPP/set_run_parameters.cpp: read_and_set_parameter", "README.md"]}
{"id": "C64", "title": "A legal command line starts the run, an illegal one stops with a message", "statement": "For every command line without help flags whose arguments have at least four characters (shorter ones abort, see C06) and whose assignments to documented options all read as values of their kind, the run starts if the parameters the last assignments determine are legal (two_J_3N_max odd and positive, a channel index given when parallel_run is set) and stops with an error message otherwise; it never aborts.", "quantifier": "every command line, every file system content, every thread count", "why_tests_cant": "command lines and input files are unbounded", "anchors": ["CPP/set_run_parameters.cpp: set_run_parameters"]}
{"id": "C65", "title": "Help flags never influence a run", "statement": "A command line consisting only of -h or --help prints the usage and does not run; on every longer command line the help flags have no effect on the run configuration or its acceptance.", "quantifier": "every command line, every file system content", "why_tests_cant": "command lines are unbounded", "anchors": ["CPP/set_run_parameters.cpp: set_run_parameters, show_usage"]}
{"id": "C66", "title": "A permutation element is the direction sum of exact overlap integrals", "statement": "Every computed permutation-matrix element equals, divided by the product of the four bin norms, the weighted sum over all mesh directions (angle phi and cosine x) of the geometric function times the exact integral of p q/(pi1 pi2) along that direction over the momenta that lie in the bra bins and are recoupled into the ket bins; the angular nodes and weights are the Gauss rule mapped to the angle range of the bra cell.", "quantifier": "every grid starting at zero, every mesh, every geometric function, every pair of cells", "why_tests_cant": "continuum of grids, meshes and cells; which cells overlap depends on all boundaries", "anchors": ["CPP/auxiliary.cpp: calculate_P123_element_in_WP_basis_mod, calc_gauss_points", "CPP/make_permutation_matrix.cpp: calculate_WP_overlap"]}
{"id": "C67", "title": "A parameter file with the wrong number of columns is refused", "statement": "If parameter walking is on and the rows of the parameter file hold fewer numbers than the selected interaction uses, the run stops with an error; extra columns are ignored.", "quantifier": "every parameter file, every interaction, every range of sets, every channel list", "why_tests_cant": "files, ranges and models form an unbounded product; a run with too few columns often completes with plausible numbers", "anchors": ["CPP/main.cpp: main (parameter walk)", "CPP/disk_io_routines.cpp: read_parameter_sample_list", "CPP/Interactions/chiral_twobody.cpp: update_parameters"]}
{"id": "C68", "title": "The built-in interactions are the documented ones", "statement": "For every pair of positive momenta the Malfliet-Tjon model returns, in the singlet and triplet S wave, 2 pi times the angular integral of the documented difference of two Yukawa potentials with the documented strengths and ranges, and zero in every other wave. The LO_internal model returns, in every partial wave with J <= 100, the angular-quadrature projection of one-pion exchange with the documented constants and the isospin factor of that wave, plus the contact term in 1S0 and 3S1, times the cut-off and minimal-relativity factors of both legs, and zero for waves that do not exist.", "quantifier": "every pair of momenta, every partial wave, every angular mesh", "why_tests_cant": "continuum of momenta and unboundedly many waves; a sign or factor error changes every number smoothly and no reference values ship with the program", "anchors": ["CPP/Interactions/malfliet_tjon.cpp: V", "CPP/Interactions/OPEP.cpp: potential, angIntegral, potOPEPmom", "CPP/Interactions/chiral_LO_internal.cpp: V", "CPP/constants.h"]}
{"id": "C69", "title": "The geometric function is the full recoupling formula", "statement": "For every channel, every pair of states of it and every direction of the mesh, the geometric value that enters the permutation element equals the complete recoupling formula (sum over all total orbital momenta and all projections of recoupling coefficients, Clebsch-Gordan coefficients and spherical functions at the exact cosines of the recoupled Jacobi momenta). No term is lost through the truncated sums, the skipped zero terms, the prestored tables or their layouts, and no table is read or written outside its bounds.", "quantifier": "every model space that fits the 6j table, every channel, pair of states, grid and mesh, and all special functions obeying their selection rules", "why_tests_cant": "the sums and tables grow with the model space without bound and the directions form a continuum; a truncation by one changes only high partial waves", "anchors": ["CPP/make_permutation_matrix.cpp: calculate_Gtilde_subarray_polar, calculate_permutation_elements_for_3N_channel", "CPP/auxiliary.cpp: Gtilde_subarray_new, Atilde, ClebschGordan, SixJSymbol"]}
{"id": "C70", "title": "A model space too large for the 6j table is refused", "statement": "If the table of 6j symbols of a channel is larger than the program can index, the run stops with an error before the table is filled; otherwise the table has exactly the needed size.", "quantifier": "every model space", "why_tests_cant": "the failure depends on integer wrap-around at particular sizes; tests of a few sizes miss those where the wrapped size is positive", "anchors": ["CPP/make_permutation_matrix.cpp: SixJ_size"]}
{"id": "C71", "title": "The permutation operator conserves total isospin", "statement": "Between any two states of a channel with different total isospin every permutation-matrix element is exactly zero, for every pair of momentum cells.", "quantifier": "every model space, channel, pair of states, grid, mesh and pair of cells", "why_tests_cant": "unboundedly many state and cell pairs; a leak between isospins is small and cancels in most observables", "anchors": ["CPP/make_permutation_matrix.cpp: Atilde_store, calculate_permutation_elements_for_3N_channel", "CPP/auxiliary.cpp: Gtilde_subarray_new"]}
{"id": "C72", "title": "The assembled permutation matrix is the permutation operator between wave packets", "statement": "Building the permutation matrix of a channel succeeds and returns a list sorted by row and column, with at most one element per position, no stored zeros and no index out of range; its entry for every pair of cells and states is the quadrature of the geometric formula times the exact overlap integral along each direction, divided by the wave-packet norms, and positions not stored are exactly those where this value is 0. The result does not depend on the number of threads, their buffer size, the schedule, or what files existed before.", "quantifier": "every model space, channel, grid, quadrature mesh, pair of cells, number of threads, buffer size and interleaving", "why_tests_cant": "unboundedly many configurations and schedules; a missed or doubled element is invisible in totals", "anchors": ["CPP/make_permutation_matrix.cpp: calculate_permutation_elements_for_3N_channel, calculate_permutation_matrix_for_3N_channel", "CPP/auxiliary.cpp: Gtilde_subarray_new, calculate_P123_element_in_WP_basis"]}
{"id": "C73", "title": "The angular quadrature rule is Gauss-Legendre", "statement": "Given the N zeros of the Legendre polynomial P_N (which exist for every N >= 1), the routine that places the quadrature points of an interval writes exactly N nodes and N weights into its cells and nowhere else; the nodes are strictly inside the interval, the weights are positive, and the rule integrates every polynomial of degree up to 2N-1 over the interval exactly.", "quantifier": "every N >= 1, every interval, every offset into arrays of any length, every polynomial of degree below 2N", "why_tests_cant": "a statement about all N, intervals and polynomials; exactness of an integral is not an executable check", "anchors": ["CPP/auxiliary.cpp:calc_gauss_points", "CPP/auxiliary.cpp:dLegendre"]}
{"id": "C74", "title": "Accuracy of the computed quadrature nodes", "statement": "Whenever the Gauss-Legendre routine used for the wave-packet and angular grids returns, it has filled exactly the first N cells with nodes antisymmetric about 0 (0 itself for odd N), each within (N+1)*3e-16 of a zero of P_N, and symmetric weights 2/((1-x^2)P_N'(s)^2) with |x-s|<3e-16; for N <= 1000 all nodes are strictly inside (-1,1) and all weights positive, so the quadrature points of every wave-packet bin lie inside the bin; if the nodes are separated by more than twice the accuracy every zero is found. The GSL based routine returns for each zero a Newton iterate after at most 100 steps, within (N+1)*1e-9 relative distance of a zero unless all 100 steps were used.", "quantifier": "every N >= 1 and every finishing run (number of Newton iterations)", "why_tests_cant": "quantifies over all N and all iteration histories, and compares with exact zeros that cannot be computed", "anchors": ["CPP/General_functions/gauss_legendre.cpp:gauss", "CPP/auxiliary.cpp:roots"]}
{"id": "C75", "title": "The wave-packet construction diagonalises every channel", "statement": "With the tensor force on and at least three momentum bins, one run of the wave-packet construction over the whole model space either stops with its error message, exactly when some two-nucleon channel has the wrong bound states (the deuteron's channel must have one negative eigenvalue, every other channel none), or returns; then for every channel of the model space the stored vectors are an orthonormal eigenbasis of (bin-averaged kinetic energy + potential), ordered by the even/odd rule in coupled channels, the stored bin boundaries enclose the eigenvalues one by one in the same order, the bound-state energy is the negative eigenvalue of the deuteron's channel (and keeps its old value without one), and the cells of channels that do not occur are untouched.", "quantifier": "every model space, grid of at least three bins, potential, prior content of the output arrays", "why_tests_cant": "ranges over all potentials and model spaces; absence of cross-talk between channels in flat arrays for every size", "anchors": ["CPP/make_swp_states.cpp:make_swp_states", "CPP/make_swp_states.cpp:construct_full_hamiltonian", "CPP/make_swp_states.cpp:reorder_coupled_eigenspectrum"]}
{"id": "C76", "title": "The resolvent is evaluated on the spectrum of the wave-packet basis it multiplies", "statement": "After the wave-packet states of a model space have been built from a symmetric potential, in every three-nucleon channel the change-of-basis operator used by the kernel is orthogonal and diagonalises the pair Hamiltonian (bin-averaged kinetic energy plus potential), and the resolvent array computed for the channel has, for every energy and every basis state, the cell value of exactly that eigenvector's energy bin: the deuteron's own cell uses the bound-state energy, every other cell a bin above threshold containing the eigenvalue.", "quantifier": "all model spaces, channels, grids, symmetric potentials, energies, basis states, initial array contents", "why_tests_cant": "Eigenvectors, boundaries and resolvent are addressed by three different index formulas in different files (coupled/uncoupled tables, two halves, reordering); a mismatch in one channel only changes numbers, and all model spaces, channels and potentials have to agree.", "anchors": ["CPP/make_swp_states.cpp:make_swp_states", "CPP/make_resolvent.cpp:calculate_resolvent_array_in_SWP_basis", "CPP/solve_faddeev.cpp:create_CT_row_maj_3N_pointer_array", "CPP/main.cpp"]}
{"id": "C77", "title": "The amplitudes solve the scattering equation of the run's own Hamiltonian and permutation matrix", "statement": "Within one run on one three-nucleon channel (wave packets built from a symmetric potential, permutation matrix as a list of elements in any order, resolvent at the run's energies), every stage from the wave packets to the amplitudes succeeds, and with K = (2 P) V in the free wave-packet basis, C the wave packets and R_j the operator whose eigenvectors are the wave packets and whose eigenvalues are the resolvent cell values of each packet's own energy bin at energy j: the n-th term of the iterated equation is, for every elastic and breakup element, the matrix element of K (R_j K)^n between wave packets; and when T = K + K R_j T is uniquely solvable the direct solver writes, for each pair of deuteron states and each energy, the matrix element of T between the on-shell deuteron wave packets.", "quantifier": "all model spaces, channels, grids, symmetric potentials, permutation-matrix element lists and orders, energies, elements, orders n", "why_tests_cant": "Six separately addressed arrays in six files have to agree on one basis order and one transposition convention for every size; a mismatch only changes numbers, and no reference solution exists to compare with.", "anchors": ["CPP/main.cpp", "CPP/solve_faddeev.cpp:faddeev_dense_solver", "CPP/solve_faddeev.cpp:pade_method_solve", "CPP/make_swp_states.cpp:make_swp_states", "CPP/make_resolvent.cpp:calculate_resolvent_array_in_SWP_basis", "CPP/General_functions/matrix_routines.cpp"]}
{"id": "C78", "title": "Stored permutation matrices survive concurrent and killed runs", "statement": "After any history of computing runs in one folder (runs for different keys at the same time with their file accesses interleaved in any order, any of them killed at any file access, even halfway through a file, over any earlier contents of the folder): every computing run that ends hands over exactly its own matrix; a later solving-only run gets the matrix of the last completed run with its key (2J, parity, Np, Nq, J_2N_max) if that run's model space (states and both grids) is its own, stops with an error if it is not, and if a later run with its key was killed it either gets that same last completed matrix or stops, never anything else.", "quantifier": "all histories: sets of runs, interleavings of their file accesses, kill points, earlier folder contents, model spaces, thread counts, buffer sizes, event orders", "why_tests_cant": "Interleavings, kill points and histories cannot be enumerated; a test sees one schedule.", "anchors": ["CPP/make_permutation_matrix.cpp:fill_P123_arrays", "CPP/make_permutation_matrix.cpp:calculate_permutation_elements_for_3N_channel", "CPP/make_permutation_matrix.cpp:read_and_merge_thread_files_to_single_array", "CPP/disk_io_routines.cpp:store_sparse_permutation_matrix_for_3N_channel_h5", "CPP/disk_io_routines.cpp:read_sparse_permutation_matrix_for_3N_channel_h5"]}
{"id": "C79", "title": "A stored permutation matrix is only reused for the quadrature it was computed with", "statement": "A run that reads a stored permutation matrix instead of computing it gets a matrix only if that matrix was computed with the quadrature orders (Nphi, Nx) the run was configured with; otherwise it stops.", "quantifier": "all histories of runs in one folder, all quadrature orders", "why_tests_cant": "Ranges over all histories of differently configured runs.", "anchors": ["CPP/make_permutation_matrix.cpp:fill_P123_arrays", "CPP/disk_io_routines.cpp:store_sparse_permutation_matrix_for_3N_channel_h5"]}
{"id": "C80", "title": "Results do not depend on the threads", "statement": "For any number of OpenMP threads (at most 100 in the Faddeev solver), any distribution of the loop iterations over the threads, any order in which a thread does its share and any interleaving of the threads' memory accesses, every parallel region of the program ends and leaves the same arrays and files as one thread would: the on-shell rows and the columns of the kernel are those of the kernel matrix, the 6j- and Clebsch-Gordan tables hold the coupling coefficients, the overlap table is the one computed sequentially, the buffers and files of the permutation-matrix loop merge to the matrix of the computed elements, and the merged arrays are the sorted ones.", "quantifier": "all thread numbers, distributions of iterations, private buffer contents and schedules of single memory accesses, for all model spaces and grids", "why_tests_cant": "The number of schedules is exponential in the number of memory accesses; a test sees one of them and a lost update needs a rare interleaving.", "anchors": ["CPP/solve_faddeev.cpp:calculate_all_CPVC_rows", "CPP/solve_faddeev.cpp:pade_method_solve", "CPP/make_permutation_matrix.cpp:calculate_permutation_elements_for_3N_channel", "CPP/make_permutation_matrix.cpp:read_and_merge_thread_files_to_single_array"]}
{"id": "C81", "title": "The parallel regions have no data races and stay inside their arrays", "statement": "In no parallel region do two threads access the same memory location or file without synchronisation, one of them writing, and no thread leaves its arrays, for any number of threads and any schedule.", "quantifier": "all thread numbers, distributions of iterations and schedules of single memory accesses", "why_tests_cant": "Races and out-of-bounds accesses that depend on the number of threads or on the schedule do not show in a test run.", "anchors": ["CPP/solve_faddeev.cpp:pade_method_solve", "CPP/solve_faddeev.cpp:calculate_all_CPVC_rows", "CPP/make_permutation_matrix.cpp:calculate_permutation_elements_for_3N_channel"]}
{"id": "C82", "title": "Kinematics file", "statement": "q_kinematics_Nq_<Nq>.txt lists for every q-bin boundary and every q-bin mid-point its index, momentum, centre-of-mass energy and laboratory energy; the three quantities of a line belong to each other, Ecm of a mid-point is the mid-point of the Ecm boundaries as the file's header says, and every number can be read back to nine significant digits.", "quantifier": "all numbers of bins, all non-negative momentum grids, all binding energies, all finite doubles", "why_tests_cant": "Ranges over all grids and all doubles; the discrepancy between the two mass conventions is 7e-5 and invisible to a tolerance check.", "anchors": ["CPP/make_swp_states.cpp:store_swp_kinematics", "CPP/disk_io_routines.cpp:store_q_WP_kinematics_txt"]}
{"id": "C83", "title": "The elastic result file can be read back without loss", "statement": "A reader that skips comment and blank lines, splits lines at blanks and reads real and complex numbers in the usual notation recovers from the elastic result file every amplitude label with its quantum numbers and, per energy, Tlab, Ecm, the bin index and every U-matrix element, bit for bit.", "quantifier": "all numbers of deuteron channels and energies, all amplitudes (doubles)", "why_tests_cant": "There are 2^128 amplitudes; fields of neighbouring columns may run together or lose digits only for particular values.", "anchors": ["CPP/disk_io_routines.cpp:store_U_matrix_elements_txt", "CPP/disk_io_routines.cpp:to_string_with_precision_and_sign"]}
{"id": "C84", "title": "run_parameters.txt documents the run", "statement": "run_parameters.txt shows every setting of the run under its own label, so that two runs with the same file had the same settings.", "quantifier": "all settings the option reader can produce", "why_tests_cant": "Ranges over all settings; the losses are in the fourth decimal of real settings and in settings that are not written.", "anchors": ["CPP/set_run_parameters.cpp:create_input_printout_string", "CPP/set_run_parameters.cpp:type_to_string", "CPP/disk_io_routines.cpp:store_run_parameters"]}
{"id": "C85", "title": "The boundaries csv file can be used as a custom grid", "statement": "q_boundaries_Nq_<Nq>.csv, which the program writes, has one line per bin boundary and can be given back to the program as a custom momentum grid with the same number of bins, giving the same grid up to 1e-8.", "quantifier": "all numbers of bins and all finite boundaries", "why_tests_cant": "Ranges over all grids; a test of the writer or of the reader alone does not see that they disagree on the trailing line.", "anchors": ["CPP/disk_io_routines.cpp:store_q_WP_boundaries_csv", "CPP/disk_io_routines.cpp:read_WP_boundaries_from_txt"]}
{"id": "C86", "title": "The breakup result file can be read back without loss", "statement": "The same reader recovers from the breakup result file every breakup amplitude, bit for bit, in the line of its energy and in a column titled with its quantum numbers, followed by the boundaries of its momentum bins; all lines have as many fields as the header has columns and different amplitudes are in different fields.", "quantifier": "all channels, breakup cells and energies, all amplitudes (doubles)", "why_tests_cant": "Ranges over all cell lists and all doubles; fields may run together only for particular values.", "anchors": ["CPP/disk_io_routines.cpp:store_U_BU_matrix_elements_txt", "CPP/disk_io_routines.cpp:restructure_breakup_data"]}
{"id": "C87", "title": "The energies of a run are the numbers in the energy file", "statement": "The laboratory energies used are exactly the numbers in the energy file, whatever their layout, so the selected bins depend only on the set of numbers; a file with anything else in it stops the run.", "quantifier": "every energy file (any text), every grid and binding energy", "why_tests_cant": "ranges over all texts; loss of energies behind an unexpected word is silent", "anchors": ["CPP/disk_io_routines.cpp:read_input_energies", "CPP/run_organizer.cpp:find_on_shell_bins"]}
{"id": "C88", "title": "The name of the energy file", "statement": "energy_input_file=<name> reads <name>.txt as the help text says (or <name> if it ends in .txt); a file that cannot be opened stops the run with a message, no name crashes it.", "quantifier": "every file name and file system", "why_tests_cant": "ranges over all names", "anchors": ["CPP/disk_io_routines.cpp:read_input_energies", "CPP/disk_io_routines.cpp:open_readfile", "CPP/set_run_parameters.cpp:show_usage"]}
{"id": "C89", "title": "The layout of the parameter file", "statement": "A parameter file is read as a table of numbers, row by row, independently of the white space between and around the numbers; no layout crashes the program or loses columns.", "quantifier": "every parameter file (any text)", "why_tests_cant": "ranges over all texts", "anchors": ["CPP/disk_io_routines.cpp:read_parameter_sample_list"]}
{"id": "C90", "title": "A custom momentum grid is checked", "statement": "A custom grid file is accepted only if its numbers start at zero and increase strictly.", "quantifier": "every grid file (any text) and number of bins", "why_tests_cant": "ranges over all texts; an unordered grid yields results without a message", "anchors": ["CPP/disk_io_routines.cpp:read_WP_boundaries_from_txt", "CPP/make_wp_states.cpp:make_p_bin_grid"]}
{"id": "C91", "title": "A run on one channel returns the amplitudes of the interaction it was given", "statement": "For one three-nucleon channel, the program either stops with an error for one of two named reasons (a two-nucleon channel has the wrong number of bound states; an on-shell momentum lies in no bin), or its amplitudes are, for every pair of deuteron waves of the channel and every energy, the matrix elements of the solution of T = 2PV + 2PV G T between the deuteron wave packets with the spectator in the bin that contains the on-shell momentum, where V is the wave-packet average of the selected interaction, P the discretised permutation operator and G the resolvent of the pair Hamiltonian averaged over the cells, at the energy of spectator plus bound state.", "quantifier": "every Hermitian interaction (without degenerate pair spectra), momentum grid, model space, channel, list of energies, content of uninitialised memory, number of threads, schedule and content of the disk", "why_tests_cant": "ranges over interactions, grids, memory contents and schedules; no independent value of the amplitudes exists to test against", "anchors": ["CPP/main.cpp", "CPP/make_permutation_matrix.cpp:calculate_permutation_elements_for_3N_channel", "CPP/make_potential_matrix.cpp:calculate_potential_matrices_array_in_WP_basis", "CPP/make_swp_states.cpp:make_swp_states", "CPP/make_resolvent.cpp:calculate_resolvent_array_in_SWP_basis", "CPP/run_organizer.cpp:find_on_shell_bins", "CPP/solve_faddeev.cpp:faddeev_dense_solver"]}
{"id": "C92", "title": "The result is reproducible: it depends on the input only", "statement": "Two runs on the same three-nucleon channel with the same input either both stop with an error or both return, with the same partial waves, potential matrices, bound-state energy, energies and bins, deuteron waves, and the same scattering amplitude at every energy at which the scattering equation has at most one solution - although the runs may differ in the eigenvectors their eigensolver chooses (signs), the linear solver, the sorting algorithm, the contents of uninitialised memory, the number of threads and their schedule, the output folder and the files already on disk.", "quantifier": "every interaction that is Hermitian, every model space and channel, every grid, every list of energies, and every pair of environments (library routines satisfying their contracts, memory contents, thread numbers, schedules, folders, files)", "why_tests_cant": "the eigenvectors' signs, memory contents and schedules a library or machine may choose cannot be enumerated; a dependence shows only on another machine", "anchors": ["CPP/main.cpp (main)", "CPP/make_swp_states.cpp (make_swp_states, diagonalize_real_symm_matrix)", "CPP/make_permutation_matrix.cpp (fill_P123_arrays)", "CPP/solve_faddeev.cpp (faddeev_dense_solver)"]}
{"id": "C93", "title": "The default (iterative) solver reports accepted resummations of the Born series of the true equation, end to end", "statement": "With the default solver, a run on one three-nucleon channel either stops with an error, because a pair channel has the wrong number of bound states, an on-shell momentum has no bin, or (with breakup) an energy above threshold has no cell; or it returns, and every number it reports - elastic, and with breakup for every stored cell of the grid - is an accepted Pade approximant of the Born series K + K Res K + ... of the scattering equation T = K + K Res T whose kernel and resolvent are those of the interaction and the permutation operator on the grids, between the deuteron packet and the final packet at that energy.", "quantifier": "every Hermitian interaction, model space, channel, grid, list of energies, permutation-matrix element list (or any schedule that computes it), every choice of the library routines within their contracts and every content of uninitialised memory", "why_tests_cant": "it composes all stages of the program; the memory contents, library routines, interactions and grids cannot be enumerated, and no reference value of the amplitudes exists", "anchors": ["CPP/main.cpp (main)", "CPP/solve_faddeev.cpp (solve_faddeev_equations, pade_method_solve, pade_approximant)", "CPP/run_organizer.cpp (find_on_shell_bins)", "CPP/make_resolvent.cpp (calculate_resolvent_array_in_SWP_basis)"]}
{"id": "C94", "title": "The whole program: command line and input files to correct result files", "statement": "With the settings of the direct solver (solve_dense and tensor_force on, permutation matrix calculated, no breakup), a run of the program on given command-line arguments and input files writes exactly one result file for every channel it works on (all, or the one selected by channel_idx in a parallel run) and every parameter set of the requested range, in that order; or it stops with an error at one of them, because there a pair channel has the wrong number of bound states or an on-shell momentum has no bin, after writing exactly the files of those before it. Each file carries the name of its run, channel and set; the energies in it are those of the on-shell bins that belong to the requested energies, and the amplitudes in it are the solutions, in the deuteron waves of that channel, of the Alt-Grassberger-Sandhas equation with the interaction at the parameters in that set's row of the parameter file, on the grids the grid settings or grid files stand for.", "quantifier": "every argument list, option file, grid, energy and parameter file (text), every model space, interaction (as a function of its parameters, Hermitian), every library routine within its contract, every content of uninitialised memory and every schedule of the threads", "why_tests_cant": "it composes the whole program over all inputs; mistakes such as using another set's parameters, another channel's permutation matrix or a swapped pair of arguments produce plausible numbers for which no reference exists", "anchors": ["CPP/main.cpp (main)", "CPP/set_run_parameters.cpp (set_run_parameters)", "CPP/disk_io_routines.cpp (read_input_energies, read_parameter_sample_list, store_U_matrix_elements_txt)", "CPP/make_permutation_matrix.cpp (fill_P123_arrays)", "CPP/solve_faddeev.cpp (solve_faddeev_equations)"]}
{"id": "C95", "title": "The result files do not depend on the machine", "statement": "Two runs of the whole program with the same arguments and input files (settings of C94) on two machines - with different numbers of processors and threads, schedules, memory contents, scratch files left on disk, and library routines that may return other eigenvectors or orderings within their contracts - use the same settings except the number of threads, end the same way, and write files of the same names in the same order (so if they stop they stop at the same channel and parameter set); the text is identical for every channel and parameter set whose scattering equation has at most one solution at the energies of the run. If that holds for all of them the two runs produce identical output.", "quantifier": "every pair of machines, argument list, input files, model space and Hermitian interaction", "why_tests_cant": "schedules, memory contents and the freedom of library routines cannot be enumerated, and one machine shows only one of each", "anchors": ["CPP/main.cpp (main)", "CPP/set_run_parameters.cpp (set_run_parameters, set_default_values)", "CPP/make_permutation_matrix.cpp (fill_P123_arrays)", "CPP/make_swp_states.cpp (diagonalize_real_symm_matrix)"]}
{"id": "C96", "title": "The whole program with the default solver", "statement": "With the default (iterative) solver and otherwise the settings of C94, a run of the program writes exactly one result file for every channel it works on and every parameter set, in that order, or stops with an error at one of them for the reasons of C94 after writing the files of those before it. Name, energies, bins and columns of each file are those of C94; each amplitude is an accepted resummation of the Neumann series of the scattering equation of that channel at that set's parameters.", "quantifier": "for all command lines, option, grid, energy and parameter files, grids, model spaces, Hermitian interactions, channels, parameter sets, thread schedules and memory contents", "why_tests_cant": "Concerns every input and every machine state at once: a test runs one configuration, with one memory layout, and cannot show that the file of every channel and set is the right one, nor that the stray read of the solver is defined.", "anchors": ["CPP/main.cpp:main", "CPP/solve_faddeev.cpp:solve_faddeev_equations", "CPP/solve_faddeev.cpp:pade_method_solve", "CPP/set_run_parameters.cpp:set_run_parameters", "CPP/disk_io_routines.cpp:store_U_matrix_elements_txt"]}
{"id": "C97", "title": "The whole program with breakup writes an elastic and a breakup file per task, both right", "statement": "With the default solver and include_breakup_channels, a run of the program writes two result files for every channel it works on and every parameter set, in that order: the elastic file of C96, then a breakup file in which every amplitude of the same run of the solver stands once, with its on-shell energy and bin, the boundaries of the bins of its spectator momentum and of the pair's momentum, and its final and deuteron states; or it stops with an error at one task, because the spectrum or the position of an on-shell energy in the grids is not as required, after writing the files of the tasks before it. No run has undefined behaviour; in particular none in which no on-shell energy reaches the breakup threshold.", "quantifier": "all command lines, option files, grid, energy and parameter files, interactions, machines (memory contents, schedules, eigenvectors, LU factorisations) and all channels and parameter sets of a run", "why_tests_cant": "a run takes hours and any test sees one set of inputs on one machine; which cells are stored, whether a cell is off the grid and when the iteration stops depends on the spectrum of the interaction", "anchors": ["CPP/main.cpp:main", "CPP/run_organizer.cpp:find_on_shell_bins", "CPP/solve_faddeev.cpp:pade_method_solve", "CPP/disk_io_routines.cpp:store_U_BU_matrix_elements_txt"]}
{"id": "C98", "title": "The reported amplitudes can be recomputed from the file of Neumann terms", "statement": "With the iterative solver, the file neumann_terms*.txt written for a channel consists of blocks numbered n = 0, 1, ..., 2L without gap (L <= 14), each with one row for every pair of deuteron channels and energy, naming the partial waves and the momentum bin it belongs to and giving a complex number from which the two doubles in memory can be recovered. For every one of these elements the amplitude the solver reports is the approximant, of an order accepted by the stopping rule, of the numbers the file gives for that element; writing the file does not change any amplitude, any old file of that name or any other file.", "quantifier": "all channels, kernels, resolvents, deuteron channels, energies, orders at which the elements converge, and doubles in memory (with or without breakup channels)", "why_tests_cant": "the number of blocks and which elements still change in a block depend on when each of them converges, which depends on every number of the calculation; a test checks one run", "anchors": ["CPP/solve_faddeev.cpp:pade_method_solve", "CPP/disk_io_routines.cpp:store_complex_vector_with_comments", "CPP/disk_io_routines.cpp:open_file"]}
{"id": "C99", "title": "The block labelled n of the Neumann file holds the n-th term of every element, for every parameter set", "statement": "In the file of Neumann terms, the block labelled n holds, for every on-shell element and every parameter set of the run, the n-th term of its Neumann series.", "quantifier": "all channels, kernels, elements, parameter sets and numbers n of blocks in the file", "why_tests_cant": "elements stop being computed when they are accepted, which is a matter of the numbers of the whole series; a test with one element, or where all are accepted together, shows nothing", "anchors": ["CPP/solve_faddeev.cpp:pade_method_solve", "CPP/disk_io_routines.cpp:store_complex_vector_with_comments", "CPP/main.cpp:main"]}
{"id": "C100", "title": "The file of cell boundaries lists every cell of the basis in order, also when the search for cells fails", "statement": "When breakup amplitudes are requested and an on-shell energy reaches the breakup threshold, the program leaves alpha_pq_boundaries.txt in its working directory with four lines for each cell of the three-nucleon basis, in the order of the basis: the lower and upper spectator energy and the lower and upper pair energy of the cell, to eight decimals, whatever was in the memory the numbers are collected in, and also when the program then stops because an energy is outside of the grid. No other file is touched by the search, without an energy above threshold neither is this one, and only the last search that wrote is kept.", "quantifier": "all state spaces, grids, bin boundaries, lists of energies (above or below threshold, inside or outside of the grid), contents of memory and files already there", "why_tests_cant": "each cell's place in the file follows from a flat index over three loops in an uninitialised array; a test looks at a few cells of one grid, and not at what is left behind by a failed run", "anchors": ["CPP/run_organizer.cpp:find_on_shell_bins", "CPP/disk_io_routines.cpp:store_array"]}
{"id": "C101", "title": "The iterative solver is reproducible on another machine", "statement": "Two runs of the whole program with the default (iterative) solver, the same arguments and input files, on two machines - with different numbers of processors and threads, schedules, memory contents, scratch files left on disk, and library routines that may return other eigenvectors, LU factors or orderings within their contracts - end the same way and write the same files with the same text, whether or not the scattering equation has a unique solution.", "quantifier": "every pair of machines, argument list, input files, model space and Hermitian interaction (elastic amplitudes)", "why_tests_cant": "schedules, memory contents and the freedom of library routines cannot be enumerated, and one machine shows only one of each", "anchors": ["CPP/main.cpp (main)", "CPP/solve_faddeev.cpp (pade_method_solve, pade_approximant, solve_faddeev_equations)", "CPP/make_permutation_matrix.cpp (fill_P123_arrays)", "CPP/make_swp_states.cpp (diagonalize_real_symm_matrix)"]}
{"id": "C102", "title": "Array sizes and indices are computed without overflow", "statement": "For every configuration the program accepts, each size and each index it computes for the arrays of the potential, Hamiltonian, resolvent, breakup boundaries, permutation matrix and its tables of angles, Legendre functions and overlaps, eigenvector blocks and amplitudes evaluates, with 32-bit int and 64-bit size_t arithmetic, without overflow to the intended position (channel, row, column, state, bin), inside the array.", "quantifier": "every accepted model space (Np_WP, Nq_WP, number of states, J_2N_max), every channel, state, bin and energy", "why_tests_cant": "an overflow only shows up in model spaces too big to test, and there it is silent undefined behaviour", "anchors": ["CPP/main.cpp (main)", "CPP/make_potential_matrix.cpp (calculate_potential_matrices_array_in_WP_basis)", "CPP/make_swp_states.cpp (construct_full_hamiltonian, make_swp_states)", "CPP/make_resolvent.cpp (calculate_resolvent_array_in_SWP_basis)", "CPP/run_organizer.cpp (find_on_shell_bins)", "CPP/make_permutation_matrix.cpp (calculate_permutation_elements_for_3N_channel)", "CPP/solve_faddeev.cpp (create_CT_row_maj_3N_pointer_array, pade_method_solve)"]}
