{
 "claims": [
  {
   "property": "C01",
   "status": "proved",
   "theorems": [
    "C01_last_assignment_wins",
    "C01_vocabulary",
    "C01_readme_default_differs"
   ],
   "note": "Finding: the README calls 30 the default of Np_WP, the program uses 50."
  },
  {
   "property": "C02",
   "status": "partial",
   "theorems": [
    "C02_lines",
    "C02_partial",
    "C02_missing_file",
    "C02_refuted"
   ],
   "note": "Equivalence proved when values are non-empty after white-space removal, do not end in .txt and unknown keys are not shorter than the parser tolerates; refuted otherwise (a tab-only value is not skipped and sets the option to the empty string)."
  },
  {
   "property": "C03",
   "status": "partial",
   "theorems": [
    "C03_partial",
    "C03_blank",
    "C03_refuted"
   ],
   "note": "Holds in input files and for command-line arguments of at least four characters not ending in .txt; a shorter argument such as a=1 aborts the program."
  },
  {
   "property": "C04",
   "status": "proved",
   "theorems": [
    "C04_legal_configuration"
   ],
   "note": ""
  },
  {
   "property": "C05",
   "status": "partial",
   "theorems": [
    "C05_partial",
    "C05_refuted"
   ],
   "note": "std::stoi ignores trailing text: Np_WP=3.5 is accepted as 3. Proved: exactly which texts are accepted and with which value."
  },
  {
   "property": "C06",
   "status": "partial",
   "theorems": [
    "C06_partial",
    "C06_refuted",
    "C06_refuted_crash"
   ],
   "note": "Values ending in .txt given on the command line are taken as input-file names and ignored; arguments shorter than four characters crash."
  },
  {
   "property": "C07",
   "status": "proved",
   "theorems": [
    "C07_selection_rules"
   ],
   "note": ""
  },
  {
   "property": "C08",
   "status": "proved",
   "theorems": [
    "C08_complete"
   ],
   "note": ""
  },
  {
   "property": "C09",
   "status": "proved",
   "theorems": [
    "C09_no_duplicates"
   ],
   "note": ""
  },
  {
   "property": "C10",
   "status": "proved",
   "theorems": [
    "C10_channel_table"
   ],
   "note": ""
  },
  {
   "property": "C100",
   "status": "proved",
   "theorems": [
    "C100_boundaries_file",
    "C100_last_search"
   ],
   "note": "Filling of the array and the search in one run (the search is OnShellModel's of C33-C36), text with the decimal printer of C83. Opening the file is taken to succeed, int overflow of 4 times the number of a cell is left out. tensor_force=true, as in C33. Examples: C100_example (grid and states of C33_example, first energy above threshold), C100_example_text."
  },
  {
   "property": "C101",
   "status": "partial",
   "theorems": [
    "C101_partial",
    "C101_refuted"
   ],
   "note": "True when the two machines agree on the memory cell in front of the array of elastic approximants, which the convergence test reads out of bounds (solve_faddeev.cpp l.1250-1290); C101_refuted: that cell changes the amplitudes. Default settings with elastic output only."
  },
  {
   "property": "C102",
   "status": "partial",
   "theorems": [
    "C102_sizes_partial",
    "C102_potential_partial",
    "C102_states_partial",
    "C102_cells_partial",
    "C102_solver_partial",
    "C102_tables_partial",
    "C102_pairs_partial",
    "C102_supported_partial",
    "C102_refuted"
   ],
   "note": "True when twice the Hamiltonian arrays and four numbers per cell of the channel stay below 2^31 (sizes_fit; the default model space is far inside); the program has no such check: Np_WP=12000 is accepted and overflows (C102_refuted). The tables of angles and Legendre functions need only 64 bits (C102_tables_partial). The factorial and 6j table sizes of make_permutation_matrix.cpp are C70."
  },
  {
   "property": "C11",
   "status": "partial",
   "theorems": [
    "C11_refuted",
    "C11_partial"
   ],
   "note": "False of the code: the scan for the largest channel reads chn_idx one past its end for every legal input (make_pw_symm_states.cpp l.234-244). Proved: the value read never influences the result."
  },
  {
   "property": "C12",
   "status": "proved",
   "theorems": [
    "C12_deuteron_channels"
   ],
   "note": ""
  },
  {
   "property": "C13",
   "status": "partial",
   "theorems": [
    "C13_partial",
    "C13_notensor_partial",
    "C13_refuted",
    "C13_refuted_iso"
   ],
   "note": "Holds in full with tensor_force=true (default). False with tensor_force=false: numbers leave the allocated table for every J_2N_max>=2, and with isospin breaking every 1S0 lookup stops the run."
  },
  {
   "property": "C14",
   "status": "proved",
   "theorems": [
    "C14_chebyshev_grids"
   ],
   "note": ""
  },
  {
   "property": "C15",
   "status": "partial",
   "theorems": [
    "C15_partial",
    "C15_refuted"
   ],
   "note": "make_q_bin_grid tests p_grid_type for custom: mixed settings are rejected or accepted wrongly. Proved exact for the settings where the tests agree."
  },
  {
   "property": "C16",
   "status": "proved",
   "theorems": [
    "C16_quadrature"
   ],
   "note": ""
  },
  {
   "property": "C17",
   "status": "partial",
   "theorems": [
    "C17_partial",
    "C17_refuted",
    "C17_text",
    "C17_bad_line"
   ],
   "note": "Accepting exactly N+1 numbers is proved, also from the characters of the file; files with more than N+1 numbers overflow the array before the count check (characterised exactly)."
  },
  {
   "property": "C18",
   "status": "proved",
   "theorems": [
    "C18_lab_com",
    "C18_energy_momentum",
    "C18_kinetic_energies"
   ],
   "note": ""
  },
  {
   "property": "C19",
   "status": "proved",
   "theorems": [
    "C19_recoupling_kinematics"
   ],
   "note": ""
  },
  {
   "property": "C20",
   "status": "proved",
   "theorems": [
    "C20_overlap_table",
    "C20_own_entry"
   ],
   "note": ""
  },
  {
   "property": "C21",
   "status": "proved",
   "theorems": [
    "C21_merged_matrix",
    "C21_schedule_independent"
   ],
   "note": ""
  },
  {
   "property": "C22",
   "status": "partial",
   "theorems": [
    "C22_refuted",
    "C22_partial"
   ],
   "note": "False of the code: recovery estimates the number of intermediate files per thread by an integer division that gives 0 below 1 GB per thread, and then merges nothing. Proved: recovery is exact when the estimate is at least the number of files and no stale files lie beyond."
  },
  {
   "property": "C23",
   "status": "proved",
   "theorems": [
    "C23_store_then_read",
    "C23_file_names"
   ],
   "note": ""
  },
  {
   "property": "C24",
   "status": "partial",
   "theorems": [
    "C24_refuted",
    "C24_partial",
    "C24_computed_inside"
   ],
   "note": "The merge checks use > instead of >=: a file with an index equal to the dimension is accepted. Proved: indices are in 0..dim for arbitrary files, and strictly inside for the files the program computes."
  },
  {
   "property": "C25",
   "status": "proved",
   "theorems": [
    "C25_offsets",
    "C25_p123_pipeline"
   ],
   "note": ""
  },
  {
   "property": "C26",
   "status": "proved",
   "theorems": [
    "C26_row_major",
    "C26_col_major"
   ],
   "note": ""
  },
  {
   "property": "C27",
   "status": "partial",
   "theorems": [
    "C27_partial",
    "C27_refuted"
   ],
   "note": "Extraction proved exact; expansion with a correctly zero-filled array gives back the matrix. The code's own expansion routine (unused by main) nulls the pointer instead of zero-filling: UB for every dimension>=2."
  },
  {
   "property": "C28",
   "status": "proved",
   "theorems": [
    "C28_transpose",
    "C28_involutive"
   ],
   "note": ""
  },
  {
   "property": "C29",
   "status": "proved",
   "theorems": [
    "C29_packed_hamiltonian",
    "C29_kinetic_average",
    "C29_pair_energy"
   ],
   "note": ""
  },
  {
   "property": "C30",
   "status": "proved",
   "theorems": [
    "C30_reorder"
   ],
   "note": ""
  },
  {
   "property": "C31",
   "status": "proved",
   "theorems": [
    "C31_bound_states"
   ],
   "note": ""
  },
  {
   "property": "C32",
   "status": "partial",
   "theorems": [
    "C32_uncoupled_partial",
    "C32_coupled_partial",
    "C32_deuteron_uncoupled_partial",
    "C32_deuteron_coupled_partial",
    "C32_refuted",
    "C32_refuted_two_bins"
   ],
   "note": "Proved for all spectra with Np_WP>=2 (>=3 in the deuteron channel). Np_WP=1 reads before the array; Np_WP=2 in the deuteron channel can place the last boundary below the eigenvalue."
  },
  {
   "property": "C33",
   "status": "proved",
   "theorems": [
    "C33_slots",
    "C33_sign",
    "C33_bound_cell",
    "C33_continuum_cell"
   ],
   "note": ""
  },
  {
   "property": "C34",
   "status": "proved",
   "theorems": [
    "C34_bins_bracket"
   ],
   "note": ""
  },
  {
   "property": "C35",
   "status": "partial",
   "theorems": [
    "C35_partial",
    "C35_refuted"
   ],
   "note": "False of the code: neighbour indices are not checked against the grid; witness stores p=-1. Proved: at most one step outside, only from rim cells."
  },
  {
   "property": "C36",
   "status": "proved",
   "theorems": [
    "C36_element"
   ],
   "note": ""
  },
  {
   "property": "C37",
   "status": "proved",
   "theorems": [
    "C37_lo_hermitian",
    "C37_mt_hermitian",
    "C37_beyond_limit"
   ],
   "note": "LO_internal is proved for J <= 100, the limit its table documents; beyond it the read is out of bounds (C37_beyond_limit)."
  },
  {
   "property": "C38",
   "status": "partial",
   "theorems": [
    "C38_partial",
    "C38_refuted"
   ],
   "note": "Proved for every channel of every table with the tensor force on (any isospin option) and with it off for J_2N_max<=1; with it off and J_2N_max=2 a block pointer leads outside the matrices (C38_refuted)."
  },
  {
   "property": "C39",
   "status": "partial",
   "theorems": [
    "C39_partial",
    "C39_p123",
    "C39_refuted"
   ],
   "note": "Same configurations as C38; C39_refuted: with the tensor force off and J_2N_max=2 the column routine has undefined behaviour for every P. P is any compressed matrix; C39_p123 connects it to main's sorted element list."
  },
  {
   "property": "C40",
   "status": "proved",
   "theorems": [
    "C40",
    "C40_beyond"
   ],
   "note": "For dimensions above 2^28 (and 0) the program divides by zero: C40_beyond."
  },
  {
   "property": "C41",
   "status": "proved",
   "theorems": [
    "C41"
   ],
   "note": ""
  },
  {
   "property": "C42",
   "status": "proved",
   "theorems": [
    "C42"
   ],
   "note": "LAPACKE_zgetrf by contract (shown satisfiable)."
  },
  {
   "property": "C43",
   "status": "partial",
   "theorems": [
    "C43_partial",
    "C43_breakup_partial",
    "C43_refuted"
   ],
   "note": "Equality for every order M >= D for which the denominator determinant is not zero; for every M > D both determinants are zero and the program computes 0/0 (C43_refuted), so the claim holds only at M = D."
  },
  {
   "property": "C44",
   "status": "partial",
   "theorems": [
    "C44_partial",
    "C44_refuted",
    "C44_refuted_memory"
   ],
   "note": "Every reported elastic element is an approximant of its own series, if the out-of-bounds read of the first element's first difference returns some value; by the language it is undefined behaviour (C44_refuted), and the value read decides the result (C44_refuted_memory)."
  },
  {
   "property": "C45",
   "status": "partial",
   "theorems": [
    "C45_partial",
    "C45_refuted",
    "C45_refuted_break"
   ],
   "note": "Holds when the output array is large enough and the loop did not stop early; main's array is too small when there are fewer energies than deuteron channels (C45_refuted), and the loop can stop early because accepted breakup elements are counted against the number of elastic ones (C45_refuted_break)."
  },
  {
   "property": "C46",
   "status": "partial",
   "theorems": [
    "C46_partial",
    "C46_two_channels",
    "C46_refuted"
   ],
   "note": "False of the code for two deuteron channels (all J=1/2 channels): the header of the value table is always that of a 3x3 matrix. Proved: order of values and first table for any number of channels, headers for one or three."
  },
  {
   "property": "C47",
   "status": "proved",
   "theorems": [
    "C47_file_names"
   ],
   "note": "Result, P123 and subarray file names; the folder is fixed. The interaction and the isospin/tensor settings are not part of the names (and not of the claim)."
  },
  {
   "property": "C48",
   "status": "partial",
   "theorems": [
    "C48_partial",
    "C48_no_walk",
    "C48_refuted"
   ],
   "note": "False of the code: only the length of the range is compared with the file. Proved: ranges inside the file use exactly their rows; accepted ranges sticking out read outside the table; too long ranges are refused; without a walk there is one pass per channel with the built-in constants."
  },
  {
   "property": "C49",
   "status": "proved",
   "theorems": [
    "C49_parallel_partition"
   ],
   "note": ""
  },
  {
   "property": "C50",
   "status": "partial",
   "theorems": [
    "C50_partial",
    "C50_refuted"
   ],
   "note": "False of the code: raise_error exits with status 0. Proved: uncaught exceptions and unknown interactions give a non-zero status."
  },
  {
   "property": "C51",
   "status": "proved",
   "theorems": [
    "C51_each_channel_once"
   ],
   "note": ""
  },
  {
   "property": "C52",
   "status": "partial",
   "theorems": [
    "C52_partial",
    "C52_refuted"
   ],
   "note": "Bin mid-point energies use the reduced mass, momenta 2/3 of the average nucleon mass; for very narrow bins the recorded bin is another one. Exact condition proved."
  },
  {
   "property": "C53",
   "status": "partial",
   "theorems": [
    "C53_partial",
    "C53_refuted"
   ],
   "note": "False of the code: cells are chosen at E_com, the resolvent is evaluated at E_com+E_bound."
  },
  {
   "property": "C54",
   "status": "proved",
   "theorems": [
    "C54_breakup_cells",
    "C54_whole_run"
   ],
   "note": ""
  },
  {
   "property": "C55",
   "status": "partial",
   "theorems": [
    "C55_partial",
    "C55_models",
    "C55_refuted"
   ],
   "note": "False of the code for LO_internal, malfliet_tjon and nijmegen (update_parameters does nothing). Proved for the other models; which name selects which model and how many numbers each uses."
  },
  {
   "property": "C56",
   "status": "partial",
   "theorems": [
    "C56_breakup_table",
    "C56_layout",
    "C56_partial",
    "C56_refuted"
   ],
   "note": "Placement of every breakup amplitude is proved in full; the labels are ambiguous with isospin breaking (1S0 with T=1/2 and T=3/2 share one label)."
  },
  {
   "property": "C57",
   "status": "partial",
   "theorems": [
    "C57_partial",
    "C57_refuted"
   ],
   "note": "False of the code for the 1S0 channel with the mid-point rule and isospin breaking (C57_refuted); every other channel is covered. Also excluded: tensor force off with J_2N_max>=2 or isospin breaking (C13_refuted)."
  },
  {
   "property": "C58",
   "status": "partial",
   "theorems": [
    "C58_partial",
    "C58_refuted"
   ],
   "note": "Every matrix, including mid-point rule with isospin breaking. Excluded: tensor force off with J_2N_max>=2 (C58_refuted: the construction leaves its arrays) or isospin breaking (C13_refuted)."
  },
  {
   "property": "C59",
   "status": "proved",
   "theorems": [
    "C59_legendre",
    "C59_isospin"
   ],
   "note": ""
  },
  {
   "property": "C60",
   "status": "proved",
   "theorems": [
    "C60"
   ],
   "note": "solve_MM by contract (shown satisfiable)."
  },
  {
   "property": "C61",
   "status": "partial",
   "theorems": [
    "C61_partial",
    "C61_born",
    "C61_refuted"
   ],
   "note": "Holds for every reported approximant of order >= 1; the Born term of an element is accepted against a neighbouring cell instead of a preceding approximant (C61_born), and can be wrong by a factor of two (C61_refuted)."
  },
  {
   "property": "C62",
   "status": "proved",
   "theorems": [
    "C62",
    "C62_pade"
   ],
   "note": ""
  },
  {
   "property": "C63",
   "status": "proved",
   "theorems": [
    "C63_bad_values_refused",
    "C63_booleans"
   ],
   "note": ""
  },
  {
   "property": "C64",
   "status": "proved",
   "theorems": [
    "C64_accepts_legal"
   ],
   "note": ""
  },
  {
   "property": "C65",
   "status": "proved",
   "theorems": [
    "C65_help"
   ],
   "note": ""
  },
  {
   "property": "C66",
   "status": "proved",
   "theorems": [
    "C66_element_value",
    "C66_angle_rule"
   ],
   "note": "Roots of the Legendre polynomial and its derivative values are arbitrary inputs of the theorem."
  },
  {
   "property": "C67",
   "status": "partial",
   "theorems": [
    "C67_partial",
    "C67_refuted"
   ],
   "note": "False of the code: the number of columns is never compared with what the model uses. Proved: exactly which numbers are used instead, and that the last row reads outside the table."
  },
  {
   "property": "C68",
   "status": "proved",
   "theorems": [
    "C68_malfliet_tjon",
    "C68_leading_order"
   ],
   "note": "LO_internal relative to the angular quadrature (z, wz) supplied by gauss(), which is not modelled here; real arithmetic."
  },
  {
   "property": "C69",
   "status": "proved",
   "theorems": [
    "C69_geometric_function",
    "C69_permutation_element"
   ],
   "note": "GSL's 3j, 6j, 9j and Legendre routines are parameters constrained only by their selection rules and array layout; real arithmetic; int array indices do not wrap."
  },
  {
   "property": "C70",
   "status": "partial",
   "theorems": [
    "C70_refuted",
    "C70_partial",
    "C70_too_large_partial"
   ],
   "note": "False of the code: for highest orbital momentum 20 the wrapped size is positive and the fill loop leaves the array. Proved: correct for J_2N_max + (2J+1)/2 <= 14, error for 18 and 19, never a usable table beyond 17."
  },
  {
   "property": "C71",
   "status": "proved",
   "theorems": [
    "C71_isospin_conserved"
   ],
   "note": ""
  },
  {
   "property": "C72",
   "status": "proved",
   "theorems": [
    "C72_whole_matrix"
   ],
   "note": "GSL's special functions are parameters constrained by selection rules and array layout; Legendre roots/derivatives and the angular mesh are arbitrary inputs; real arithmetic; 32-bit indices do not wrap."
  },
  {
   "property": "C73",
   "status": "proved",
   "theorems": [
    "C73_gauss_points",
    "C73_roots_exist"
   ],
   "note": "gsl_sf_legendre_Pl is the Legendre polynomial (trusted); exact zeros are the hypothesis; real arithmetic."
  },
  {
   "property": "C74",
   "status": "proved",
   "theorems": [
    "C74_gauss",
    "C74_points_in_bins",
    "C74_gsl_roots"
   ],
   "note": "Statement is about runs that finish; termination of the unbounded Newton loop is not claimed. Real arithmetic."
  },
  {
   "property": "C75",
   "status": "proved",
   "theorems": [
    "C75_scattering_states"
   ],
   "note": "Tensor force on. LAPACKE_dspevd enters through its contract (ascending eigenvalues, orthonormal eigenvectors) on the matrices of the run; real arithmetic; bins are claimed for non-degenerate spectra without eigenvalue 0; the text file written at the end is not modelled."
  },
  {
   "property": "C76",
   "status": "proved",
   "theorems": [
    "C76_resolvent_spectrum"
   ],
   "note": "Tensor force on; LAPACKE_dspevd by contract; symmetric potential matrices; bins for non-degenerate spectra without eigenvalue 0; real arithmetic. Meaning of a cell value: C33."
  },
  {
   "property": "C77",
   "status": "proved",
   "theorems": [
    "C77_amplitudes"
   ],
   "note": "Tensor force on; LAPACKE_dspevd, std::sort and LAPACKE_zgesv by contract; symmetric potential; non-degenerate spectra without eigenvalue 0; real arithmetic; the on-shell bins are inputs (C34, C52)."
  },
  {
   "property": "C78",
   "status": "proved",
   "theorems": [
    "C78_history"
   ],
   "note": "Simultaneous runs have different keys (two simultaneous runs with one key share their thread files; not claimed). A file access is one step, storing a file is two (truncation by H5Fcreate, completion); HDF5 reports a truncated file as an error; P123_recovery off; file names fit char[300]."
  },
  {
   "property": "C79",
   "status": "partial",
   "theorems": [
    "C79_refuted",
    "C79_partial"
   ],
   "note": "False of the code: Nphi and Nx are neither in the file name nor in the file, so a matrix of another quadrature is read without complaint. Proved when all completed runs of the folder for that model space used one quadrature."
  },
  {
   "property": "C80",
   "status": "proved",
   "theorems": [
    "C80_kernel_rows",
    "C80_kernel_columns",
    "C80_sixj_table",
    "C80_clebsch_table",
    "C80_overlap_table",
    "C80_permutation_elements",
    "C80_merge_indices",
    "C80_merge_reorder"
   ],
   "note": "Interleaving semantics at the level of single memory accesses of shared, written arrays; storing a file is one access. The regions with a data race (C81) are formally undefined in C++; here the racing accesses are taken as atomic."
  },
  {
   "property": "C81",
   "status": "partial",
   "theorems": [
    "C81_refuted_progress",
    "C81_refuted_merge",
    "C81_refuted_threads",
    "C81_kernel_partial",
    "C81_tables_partial",
    "C81_overlap_partial",
    "C81_elements_partial"
   ],
   "note": "False of the code: thread 0 reads the progress counters of the other threads, the merge loops lack `for` so that all threads write every element, and counter_array[100] is overrun by the 101st thread. Proved: the other regions are race-free, and the element loop races on the progress counters only."
  },
  {
   "property": "C82",
   "status": "partial",
   "theorems": [
    "C82_partial",
    "C82_refuted",
    "C82_text"
   ],
   "note": "The header's statement on Ecm of the mid-points is false of the code in every bin for binding energies between -2.5 and 0 MeV (boundary energies use 2/3 of the nucleon mass, mid-point energies the reduced mass). Proved: the exact relation, consistency of q, Ecm, Tlab on every line (real arithmetic), and that the text is readable to nine digits (exact decimal conversion of doubles)."
  },
  {
   "property": "C83",
   "status": "partial",
   "theorems": [
    "C83_partial",
    "C83_refuted"
   ],
   "note": "False for amplitudes with a part equal to -0.0 (printed '+-0.00...') or NaN. Proved for all other amplitudes, with non-negative energies, at most 10000 deuteron channels and quantum numbers and indices below 10^8 (column widths), model and binding-energy texts without line break."
  },
  {
   "property": "C84",
   "status": "partial",
   "theorems": [
    "C84_entries",
    "C84_partial",
    "C84_refuted"
   ],
   "note": "The file omits output_folder, subfolder and (without parallel_run) channel_idx and prints real settings with three decimals. Everything else is determined. Strings without line break, finite real settings."
  },
  {
   "property": "C85",
   "status": "partial",
   "theorems": [
    "C85_partial",
    "C85_refuted"
   ],
   "note": "The file ends with an empty line that the reader rejects, for every grid. Proved: without that line it is accepted with values rounded to 8 decimals."
  },
  {
   "property": "C86",
   "status": "partial",
   "theorems": [
    "C86_partial",
    "C86_refuted"
   ],
   "note": "As C83: unreadable for -0.0; proved otherwise, with non-negative energies and momenta, on top of C56."
  },
  {
   "property": "C87",
   "status": "partial",
   "theorems": [
    "C87_partial",
    "C87_bins",
    "C87_refuted"
   ],
   "note": "False of the code: everything behind the first word that is not a number (a comment, say) is dropped silently. Proved: files of decimal numbers give exactly these (rounded to double), what is dropped otherwise, and that the bins depend only on the set of numbers."
  },
  {
   "property": "C88",
   "status": "partial",
   "theorems": [
    "C88_partial",
    "C88_refuted"
   ],
   "note": "False of the code: no .txt is appended, the documented example is refused; names of fewer than four characters throw. Exact behaviour for every name proved."
  },
  {
   "property": "C89",
   "status": "partial",
   "theorems": [
    "C89_partial",
    "C89_refuted"
   ],
   "note": "False of the code: a tab between columns loses the columns behind it, a doubled or trailing blank or an empty line aborts. Proved: single blanks are read exactly, every stray blank throws."
  },
  {
   "property": "C90",
   "status": "partial",
   "theorems": [
    "C90_partial",
    "C90_refuted"
   ],
   "note": "False of the code: nothing about the order or the first boundary is checked. Proved: the grid is exactly the numbers of the file, accepted exactly for the right number of lines."
  },
  {
   "property": "C91",
   "status": "proved",
   "theorems": [
    "C91_channel",
    "C91_whole_channel"
   ],
   "note": "Composition of every stage of one channel (direct solver, tensor force on). Library routines by contract; exact arithmetic; spectra nondegenerate and nonzero. Examples: C91_example (all hypotheses, a run that succeeds, uniquely solvable equation), C91_whole_example."
  },
  {
   "property": "C92",
   "status": "proved",
   "theorems": [
    "C92_reproducible",
    "C92_channel",
    "C92_wave_packets",
    "C92_determined"
   ],
   "note": "Whole program of one channel (direct solver, tensor force on, exact arithmetic), two arbitrary environments. Wave packets unique up to sign, permutation operator unique, signs cancel in resolvent and amplitudes (all deuteron waves share one sign). Spectra without degeneracy or zero. Examples: C92_example (two different environments, both runs succeed), C92_channel_example (opposite eigenvectors, uniquely solvable equation, nonzero kernel)."
  },
  {
   "property": "C93",
   "status": "partial",
   "theorems": [
    "C93_partial",
    "C93_breakup_partial",
    "C93_series",
    "C93_whole_channel_partial",
    "C93_refuted"
   ],
   "note": "Composition of every stage of one channel with the default solver. Without breakup: every run returns accepted approximants (C93_partial; with the computed permutation matrix C93_whole_channel_partial). With breakup: the run returns except in three ways, each a defect of the code (cell off the grid C35, too small array and premature end of the loop C45). In the language's semantics the solver's read before its array makes every run undefined: C93_refuted; the partial theorems let that cell hold anything. Example: C93_example."
  },
  {
   "property": "C94",
   "status": "proved",
   "theorems": [
    "C94_program"
   ],
   "note": "Composition of C01-C05, C15, C53, C72, C78, C82-C85, C91 along main's own loops: argument and option-file parsing, grid files, parameter and energy files, channel filter, permutation matrix with threads and scratch files, the stages of C91, file names and text. Limited to the settings named in the statement (direct solver). Exact arithmetic, library routines by contract, spectra nondegenerate and nonzero; interactions are functions of their parameters. Example: C94_example (option file, custom grids, energy file and a table of two parameter sets as literal texts; the run succeeds and writes two files)."
  },
  {
   "property": "C95",
   "status": "proved",
   "theorems": [
    "C95_settings",
    "C95_reproducible",
    "C95_identical"
   ],
   "note": "C94's specification is shown to determine the files: potential, spectra, binding energy, bins, permutation operator and amplitudes are unique (C92). Exact arithmetic with the same rounding and printing functions on both machines; settings of C94. Example: C95_example (two machines that differ in everything, all hypotheses, both write the same two files; there with vanishing quadrature weights so that unique solvability is provable, a non-zero kernel is in C92_channel_example)."
  },
  {
   "property": "C96",
   "status": "partial",
   "theorems": [
    "C96_partial",
    "C96_refuted"
   ],
   "note": "The program of C94 with the default solver. C96_partial: every run that the machine's memory lets read the cell before the solver's arrays writes one file per channel and set, or stops for the reasons of C94; amplitudes are accepted approximants of the series of the equation (C93), breakup off. C96_refuted: in the language's semantics a run reaches its end only if none of its tasks has an amplitude to compute. Example: C96_example (the run of C94_example with the default solver: succeeds for any contents of that cell, does not end normally in the strict semantics)."
  },
  {
   "property": "C97",
   "status": "partial",
   "theorems": [
    "C97_partial",
    "C97_below_threshold",
    "C97_refuted"
   ],
   "note": "The program of C96 with breakup. C97_partial: two right files per task, or the same up to a task where the run stops with an error or meets one of the defects of C35 (cell off the grid) and C45 (fewer energies than deuteron waves; iteration ended early). C97_below_threshold: without an on-shell energy at or above the breakup threshold no defect is possible. C97_refuted: in the language's semantics a run ends normally only if no task has an amplitude to compute. Amplitudes are accepted resummations (C93). Example: C97_example (the run of C96_example with breakup on: all hypotheses, four files for any contents of the cell before the arrays, undefined in the strict semantics; below the threshold)."
  },
  {
   "property": "C98",
   "status": "proved",
   "theorems": [
    "C98_terms",
    "C98_same",
    "C98_file"
   ],
   "note": "The run of FaddeevModel with neumann_store_array and the list of blocks carried along (C98_same: same amplitudes); LU contract; the cell before the arrays as in C44 (any value). C98_file: the characters of the file read back as in C83; opening the file is taken to succeed. Numbers NaN or infinite are printed but not claimed to be readable. Examples: C98_example (a run with more than one block), C98_example_text."
  },
  {
   "property": "C99",
   "status": "partial",
   "theorems": [
    "C99_partial",
    "C99_refuted",
    "C99_refuted_sets"
   ],
   "note": "False of the code: an accepted element is skipped from then on and the file repeats its last value under the later labels (C99_refuted: 1 where the term is 1e-8), and the file name does not contain the parameter set, so each set overwrites the file of the one before (C99_refuted_sets). C99_partial: up to twice the order of acceptance the blocks hold the element's terms, behind that the last one."
  }
 ]
}