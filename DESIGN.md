# Formal model of Tic-tac in Rocq (Coq 8.16.1)

Source: `/repo/CPP` (read as text, never built or run). Model and proofs: `rocq/theories`.

## Method

* `*Model.v`  – executable Gallina transcription of the C++ functions; every definition cites file and lines.
* `*Spec.v` (or the first section of a `*Props.v`) – small specifications written without reference to the model's helpers.
* `*Proofs.v`, `*PropsLemmas.v`, `*Link.v` … – lemmas.
* `*Props.v` – only property theorems (`exact lemma`), each followed by `Print Assumptions`, with an `Example`
  showing that a concrete non-trivial case meets the hypotheses.
* Outcomes: `Ok v`, `Err` (the code calls `raise_error`, or `exit(-1)`), `Exc` (uncaught C++ exception), `UB` (out-of-range access,
  use of an uninitialised value, division by zero …). UB is never assumed away: theorems prove `Ok`, or a
  `_refuted` theorem exhibits an input that reaches `UB`/a wrong value.
* A property that the unchanged code violates gets a `…_refuted` theorem (a witness) and a `…_partial` theorem stating
  exactly the conditions under which it does hold. In MANIFEST.json it has status `partial`.
* `seeded/LOG.jsonl` – wrong programs the theorems were tested against, and what was tightened because of them.

## Simplifications common to all models

* `double` is idealised: exact real numbers (`R`) for kinematics/grids/resolvent/permutation operator, an arbitrary commutative
  ring or field (or Coquelicot's `C`) for the linear algebra. Rounding, NaN, infinities and overflow of doubles are not modelled.
* `int`/`size_t` are `Z`/`nat` without wrap-around, except where a property is about wrap-around or range
  (C05 stoi, C22 recovery estimate, C40 chunking, C70 size of the 6j table); there it is written into the model.
* Division by zero is `UB` in the model where the result is used (the program would go on with inf/NaN).
* Printing to the terminal, timing, memory exhaustion and performance are not modelled.
* External libraries (LAPACK/BLAS/MKL, GSL, HDF5, Fortran potentials) are function arguments of the model with their
  documented behaviour as explicit hypotheses of the theorems that need it (each shown satisfiable by an `Example`).
* OpenMP loops: where the result could depend on the schedule, the schedule is an explicit, universally quantified argument
  (C21, C72: any interleaving of pushes; C49: any split of the channels). Loops whose iterations write disjoint cells are
  transcribed as sequential loops.

## Plan per property

See `properties.jsonl` for the full statements, `MANIFEST.json` for the theorem names.

| id | model | proof |
|----|-------|-------|
| C01–C06, C63–C65 | option reader: strings, `std::stoi`, file reader, command-line loop (set_run_parameters.cpp) | induction over the argument list; frame lemmas per option; witnesses for the refuted claims |
| C07–C12 | nested loops of `construct_symmetric_pw_states`, `find_deuteron_channels` as lists | membership characterisation of the loops; NoDup; channel-table invariant |
| C13 | `unique_2N_idx` and table sizes of main.cpp | arithmetic case analysis (lia); witness for tensor_force=false |
| C14–C16 | grid generation over `R` | monotonicity of tan and power; real arithmetic |
| C15 | selection logic of make_{p,q}_bin_grid | case analysis + witness |
| C17 | line-by-line reader with array bounds | induction on lines; witness for overflow |
| C18 | kinetic_conversion.cpp over `R` | algebra, sqrt lemmas |
| C19–C20, C66 | Jacobi recoupling, overlap table, element formula, angle quadrature over `R` | nra/sqrt lemmas; loop induction; Coquelicot integrals |
| C21–C24 | thread buffers, TFC files (a map from names to contents), merge, recovery, HDF5 store/read | invariant over arbitrary schedules (interleavings); permutation reasoning; witnesses |
| C25–C28 | matrix_routines.cpp on lists | loop invariants |
| C29–C32, C51 | make_swp_states.cpp | index arithmetic; induction over spectra |
| C33 | make_resolvent.cpp over `R` | sign analysis, index arithmetic |
| C34–C35, C52–C54 | run_organizer.cpp | induction over bins; witnesses |
| C36–C37, C57–C59, C68 | potential element selection, matrix fill, OPEP, LO_internal, Malfliet–Tjon over `R` | case analysis; symmetry of finite sums; Coquelicot integral for the Yukawa projection |
| C38–C43, C60–C62 | kernel assembly, chunking, Neumann/Padé iteration, dense solver over arbitrary rings/fields (mathcomp) | big-sum identities; Cramer/Cayley–Hamilton; Laplace expansion |
| C44–C45, C61 | Padé convergence bookkeeping with memory contents explicit | invariant of the NM loop; witnesses |
| C46–C50, C55, C56, C67 | text output, file names, parameter walk, channel loop, exit status | list/strings reasoning; witnesses |
| C69–C71 | coupling tables and geometric function (make_permutation_matrix.cpp l.340–606, auxiliary.cpp Atilde, Gtilde_subarray_new) | scatter lemmas for the tables; finite-sum restriction by selection rules |
| C72 | the row loop of the permutation matrix; composition of C20, C66, C69, C21 | composition; lookup in a sorted list |
| C73–C74 | quadrature: calc_gauss_points, gauss() (gauss_legendre.cpp l.36–67), roots() (auxiliary.cpp l.35–75) | Legendre polynomials: recurrences, Christoffel–Darboux, N roots by sign changes, orthogonality, bound by the Legendre equation; inverse of a square matrix; Newton-step estimate; induction over iterations |
| C75 | make_swp_states as a whole (make_swp_states.cpp l.218–459): zero-filling, Hamiltonians, eigensolver contract, reordering, storing | loop invariant over the list of channels (C51): finished channels hold their result, unfinished blocks are still 0; each step reduced to C29–C32; decision of the error by the bound-state count |
| C76 | composition of C75 (basis and bins), the operator of C38/C39 and the resolvent array of C33 | sum over the partial waves of one two-nucleon channel = sum over the rows of its matrix; orthogonality and eigenvalue equation carried over; rows from columns by mathcomp's left/right inverse; bin offsets matched state by state |
| C77 | composition of C76 (wave packets and resolvent), C72's element list, the column sort/compression, the kernel C38/C39, C41's terms and C60's direct solver into one run | kernel = C^T K C entry by entry; change of basis with an orthogonal C turns T = K + K R T into X = A + A G X and back (mathcomp matrices over the complex numbers); uniqueness carried over |
| C78 | runs as processes whose every file access is a step (PRunModel: fill_P123_arrays with thread files, merge, final store; storing = truncation, then completion), sessions of interleaved processes, killing = getting no more turns | simulation with the sequential model of C21-C23; frame argument: a process touches only names of its own key, names of different keys differ, so every process of an interleaving runs as if alone; induction over the history |
| C79 | same history model; [value Q] the matrix of quadrature Q | witness: the run that reads gets the matrix of the run that computed; partial: one quadrature per folder and model space |
| C80 | every parallel region as threads of single memory accesses (OmpModel), an arbitrary schedule, an arbitrary distribution of the iterations | footprints of iterations/threads are disjoint, so each thread runs as if alone (OmpProofs, OmpSerial); merge loops: all threads write the same value (OmpMerge); linked to the kernel matrix, coupling tables, C20 and C21 |
| C81 | same machine with a log of accesses | refuted by progress counters, merge loops, counter_array[100]; partial: race_free for the other regions |
| C82 | the numbers over R (RecordModel.swp_kinematics) and, separately, the text as a function of doubles (kin_file) | loop invariants; mid-point relation by field; refuted because mass_ratio < 1 for -2.5 <= Eb <= 0; text: general lemmas on lines, fields and numbers (TextLines) |
| C83 | doubles as sign/mantissa/exponent, exact decimal conversion with round-half-even as in glibc (TextModel), the whole file as a string; reader in TextSpec | digit arithmetic (TextNum), 17 digits identify a double (gap argument with Flocq), fields stay separated because every cell is shorter than its width |
| C84 | run_parameters.txt as a string | each label occurs once, fixed-notation numbers read back to 3 decimals; witness: 1.0 and 1.0001 |
| C85 | csv writer as a string fed to the reader of C17 | the trailing empty line is no number |
| C86 | breakup file as a string on top of C56 | every field fits its column: entries are amplitudes, bins, energies or zero |
| C87 | C++ stream extraction character by character (InputModel: libstdc++ num_get + strtod, correctly rounded with Flocq), read_input_energies and its composition with the bin selection | induction over the text: blanks, word, rest; decimal grammar given independently (InputSpec.decimal_text); bins: only membership in the list of energies enters |
| C88 | same model, file system as a map from names to contents | case analysis on the suffix |
| C89 | std::stod as prefix parse; line splitting at single blanks (DriverModel.pieces) | reduction to C48's table reader; an empty piece always throws |
| C90 | GridModel.read_boundaries fed by the character-level line parser | C17's characterisation plus the line parser |
| C91 | main.cpp l.167-445 as one function (ChainModel.channel_run) that calls the models of every stage with main's arguments and uninitialised arrays; C72's element list in front | the potential stage delivers matrices whose entries are the wave-packet averages and that are symmetric (every matrix position belongs to some partial wave: rep_ok); then C75-C77, C31, C61's deuteron list are composed; the equation is restated in terms of interaction and permutation operator only |
| C92 | ReproModel.channel_program: C91's stages with everything that is not input collected in a record environment (routines, memory, threads, schedule, files) | two ascending orthonormal eigenbases agree up to signs (UniqueProofs, by induction on the eigenvalue order: degenerate spectra excluded); the sign cancels in the resolvent and is common to all deuteron waves because the wave packets of the pair do not depend on the spectator; the integral along a direction is unique; C91 for both runs |
| C93 | ChainModel.channel_iterate: the stages of C91 (breakup cells included) followed by the model of pade_method_solve | one lemma (ChainFinal.stages) for everything before the solver, shared with C91; the coefficients of the solver are the Born terms in the basis of free packets (change of basis, AgsMatrix); then C44, C45, C61; C93_series: T is the sum of the first terms and a remainder |
| C94 | main.cpp l.82-500 as one function (ProgramModel.main_program) from the argument list and a file system (name -> text) to the files written (kept also when the run stops: a writer over outcomes), calling the models of set_run_parameters, read_parameter_sample_list, construct_symmetric_pw_states, make_fwp_statespace, fill_P123_arrays, C91's channel stages and the text writer | the two loops by induction with the parameters in force as loop state (DriverProofs.in_force); each stage by its own theorem (grids_ok, permutation_ok, set_ok); the result is stated without the model's stages: boundaries_of, parameter_table, energy_file, permutation_operator, amplitudes_of |
| C95 | main_program of C94 on two machines; omp_get_max_threads enters the settings | settings: simulation of option parsing from two default tables; files: the specification result_file has at most one solution (uniqueness lemmas of C92), and excludes set_stops on another machine; no second induction over the loops is needed |
| C96 | the same main_program with solve_dense = false: solve_stage calls the model of pade_method_solve (C93) | the same induction (program_went, stated for any reason to stop and any notion of a good file); one task by C93's lemmas; the refutation runs the same program with the strict memory (no value before an array) |
| C97 | main_program with include_breakup_channels: set_stage stores two files, the breakup table from the solver's cells and the pair boundaries of the same wave packets | one task by C93_breakup's lemmas plus the table and text lemmas of C56, C84 (the solver's cells are per energy and in the grid unless a defect is met); the loop by program_went with "defect" as an extra way a task may go, cut at the first defect; below the threshold there are no cells, and without breakup elements the premature break of C45 cannot happen (FaddeevComplete) |
| C98 | pade_method_solve with the store array and the blocks it writes; store_complex_vector_with_comments character by character | invariant of the loop over orders (each element's value in a block is its term up to 2k, k the order of its acceptance); reading back by the line and number lemmas of C83 |
| C99 | the same | false: stale values of accepted elements, and sets overwrite each other; witness from the run of C44_refuted_memory; exact contents from the invariant of C98 |
| C100 | filling of alphapq_boundaries inside the search for breakup cells, store_array, the order file-then-error | induction over the energies: after the first that reaches the threshold the array is completely written, text depends on nothing else; cell order by the flat-index invariant |
| C101 | the whole program with the iterative solver on two machines (same models as C95, C96) | step-by-step simulation of the two loops of the solver: same Neumann terms up to the sign changes of the eigenvectors that cancel, equal determinants for any pivoting, hence equal approximants, counters and stopping points; refuted through the cell read in front of the array |
| C102 | size and index expressions of main, make_potential_matrix, make_swp_states, make_resolvent, run_organizer, make_permutation_matrix, solve_faddeev as syntax trees with C++ types | an evaluator with int overflow as UB and size_t modulo 2^64; each expression evaluated symbolically under size bounds; refuted by a configuration that is accepted and overflows |

## Trusted base

* Coq 8.16.1's kernel (and `vm_compute`, used in witnesses and examples).
* The transcription of the C++ text into Gallina, definition by definition (cited file and lines), and the simplifications above.
* For C82–C86: C++ stream formatting is modelled as glibc does it (correctly rounded decimal conversion, at least two exponent digits, `setw` pads on the left and never truncates, `showpos`).
* The specifications in the `*Spec.v` files and statements.
* Axioms: none of our own. `Print Assumptions` lists, per theorem, only the standard-library axioms in the table below.
  D1 = `ClassicalDedekindReals.sig_forall_dec`, D2 = `ClassicalDedekindReals.sig_not_dec` (the real numbers),
  FE = `FunctionalExtensionality.functional_extensionality_dep`, CL = `Classical_Prop.classic`,
  ID = `ClassicalEpsilon.constructive_indefinite_description` (mathcomp/Coquelicot structures on `C`; stdlib axiom).
* coqchk's list for the whole development also shows constants such as `mathcomp…BigOp.bigopE`, `PermDef.permE`,
  `Coq.Reals.Rdefinitions.RbaseSymbolsImpl.*`, `ssrunder.Under_rel.*`: these are fields of opaque-sealed library
  modules, which have bodies in the library and do not appear in `Print Assumptions`. We define no functor or module type.

| axioms | theorems |
|--------|----------|
| none (closed) | `C01_last_assignment_wins`, `C01_readme_default_differs`, `C01_vocabulary`, `C02_lines`, `C02_missing_file`, `C02_partial`, `C02_refuted`, `C03_blank`, `C03_partial`, `C03_refuted`, `C04_legal_configuration`, `C05_partial`, `C05_refuted`, `C06_partial`, `C06_refuted`, `C06_refuted_crash`, `C07_selection_rules`, `C08_complete`, `C09_no_duplicates`, `C102_cells_partial`, `C102_pairs_partial`, `C102_potential_partial`, `C102_refuted`, `C102_sizes_partial`, `C102_solver_partial`, `C102_states_partial`, `C102_supported_partial`, `C102_tables_partial`, `C10_channel_table`, `C11_partial`, `C11_refuted`, `C12_deuteron_channels`, `C13_notensor_partial`, `C13_partial`, `C13_refuted`, `C13_refuted_iso`, `C17_partial`, `C17_refuted`, `C20_own_entry`, `C21_merged_matrix`, `C21_schedule_independent`, `C22_partial`, `C22_refuted`, `C23_file_names`, `C23_store_then_read`, `C24_computed_inside`, `C24_partial`, `C24_refuted`, `C25_offsets`, `C25_p123_pipeline`, `C26_col_major`, `C26_row_major`, `C27_partial`, `C27_refuted`, `C28_involutive`, `C28_transpose`, `C30_reorder`, `C40`, `C40_beyond`, `C46_partial`, `C46_refuted`, `C46_two_channels`, `C47_file_names`, `C48_no_walk`, `C48_partial`, `C48_refuted`, `C49_parallel_partition`, `C50_partial`, `C50_refuted`, `C51_each_channel_once`, `C55_models`, `C55_partial`, `C55_refuted`, `C56_breakup_table`, `C56_partial`, `C56_refuted`, `C63_bad_values_refused`, `C63_booleans`, `C64_accepts_legal`, `C65_help`, `C67_partial`, `C67_refuted`, `C70_partial`, `C70_too_large_partial`, `C80_merge_indices`, `C80_merge_reorder`, `C80_sixj_table`, `C81_refuted_merge`, `C81_refuted_progress`, `C84_refuted`, `C85_refuted`, `C95_settings`, `C99_refuted_sets` |
| D1 | `C38_refuted`, `C59_isospin` |
| FE | `C78_history`, `C79_partial`, `C79_refuted` |
| CL | `C80_permutation_elements`, `C81_elements_partial` |
| D1, FE | `C100_boundaries_file`, `C100_last_search`, `C16_quadrature`, `C18_kinetic_energies`, `C29_packed_hamiltonian`, `C29_pair_energy`, `C31_bound_states`, `C32_coupled_partial`, `C32_deuteron_coupled_partial`, `C32_deuteron_uncoupled_partial`, `C32_refuted`, `C32_refuted_two_bins`, `C32_uncoupled_partial`, `C35_partial`, `C36_element`, `C38_partial`, `C39_p123`, `C39_partial`, `C39_refuted`, `C41`, `C53_partial`, `C54_breakup_cells`, `C56_layout`, `C59_legendre`, `C75_scattering_states`, `C80_kernel_columns`, `C80_kernel_rows`, `C81_kernel_partial`, `C81_refuted_threads`, `C82_text`, `C83_partial`, `C83_refuted`, `C84_entries`, `C84_partial`, `C85_partial`, `C86_partial`, `C86_refuted`, `C98_file` |
| D1, D2, FE | `C18_energy_momentum`, `C18_lab_com`, `C19_recoupling_kinematics`, `C34_bins_bracket`, `C35_refuted`, `C37_beyond_limit`, `C37_lo_hermitian`, `C44_refuted`, `C45_refuted`, `C52_partial`, `C52_refuted`, `C53_refuted`, `C54_whole_run`, `C57_partial`, `C57_refuted`, `C68_leading_order`, `C69_geometric_function`, `C70_refuted`, `C80_clebsch_table`, `C81_tables_partial`, `C82_partial`, `C82_refuted`, `C98_same` |
| D1, D2, FE, CL | `C14_chebyshev_grids`, `C15_partial`, `C15_refuted`, `C17_bad_line`, `C17_text`, `C20_overlap_table`, `C29_kinetic_average`, `C33_bound_cell`, `C33_continuum_cell`, `C33_sign`, `C33_slots`, `C37_mt_hermitian`, `C58_partial`, `C58_refuted`, `C66_angle_rule`, `C66_element_value`, `C68_malfliet_tjon`, `C69_permutation_element`, `C71_isospin_conserved`, `C72_whole_matrix`, `C73_roots_exist`, `C74_gauss`, `C74_gsl_roots`, `C74_points_in_bins`, `C80_overlap_table`, `C81_overlap_partial`, `C87_bins`, `C87_partial`, `C87_refuted`, `C88_partial`, `C88_refuted`, `C89_partial`, `C89_refuted`, `C90_partial`, `C90_refuted` |
| D1, FE, CL, ID | `C42`, `C43_breakup_partial`, `C43_partial`, `C43_refuted`, `C60`, `C62`, `C62_pade`, `C92_wave_packets`, `C93_series` |
| D1, D2, FE, CL, ID | `C101_partial`, `C101_refuted`, `C44_partial`, `C44_refuted_memory`, `C45_partial`, `C45_refuted_break`, `C61_born`, `C61_partial`, `C61_refuted`, `C73_gauss_points`, `C76_resolvent_spectrum`, `C77_amplitudes`, `C91_channel`, `C91_whole_channel`, `C92_channel`, `C92_determined`, `C92_reproducible`, `C93_breakup_partial`, `C93_partial`, `C93_refuted`, `C93_whole_channel_partial`, `C94_program`, `C95_identical`, `C95_reproducible`, `C96_partial`, `C96_refuted`, `C97_below_threshold`, `C97_partial`, `C97_refuted`, `C98_terms`, `C99_partial`, `C99_refuted` |

## What is modelled

| file | modelled | not modelled |
|------|----------|--------------|
| set_run_parameters.cpp | all option handling, input file, command line, defaults, checks | the text printed by show_usage |
| make_pw_symm_states.cpp | all | – |
| make_wp_states.cpp | all double-precision grid code | storing grids in files of the run (see disk_io) |
| make_swp_states.cpp | the whole of make_swp_states: Hamiltonian packing, reordering, bound states, bin boundaries, channel loop, storage of C and e | `diagonalize_real_symm_matrix` (LAPACK dspevd by contract: it returns ascending eigenvalues and an orthonormal eigenbasis) |
| make_resolvent.cpp | all | – |
| run_organizer.cpp | all reachable code | breakup quadrant 4 (dead code) |
| make_potential_matrix.cpp | all (end points, mid points, quadrature) | float overload |
| Interactions/ | LO_internal, OPEP, malfliet_tjon, the dispatch and the parameter bookkeeping of every model | the Fortran potentials behind Idaho_N3LO, N2LOopt, nijmegen, chiral_twobody: arbitrary pure functions |
| make_permutation_matrix.cpp | production path: overlap table, coupling tables, geometric sub-array, element, buffers, files, merge, recovery, driver (fill_P123_arrays) | `calculate_Gtilde_array` and the dense format (`use_dense_format` and `production_run=false` are never selected) |
| auxiliary.cpp | calc_gauss_points, dLegendre, roots (GSL's Newton solver by contract: one Newton step, relative-change test), coupling arrays, Atilde, Gtilde_subarray_new, pi tilde functions, calculate_P123_element_in_WP_basis_mod | unused functions (S_spline, Floc_l, Gtilde, Gtilde_new, generate_Ptilde_new, interpolation, calculate_P123_element_in_WP_basis) |
| solve_faddeev.cpp | pointer tables, PVC/CPVC columns, chunking, Padé and dense solver, solve_faddeev_equations | brute-force test routines, dead branch keep_CPVC_in_mem |
| General_functions/matrix_routines.cpp | sparse conversions, sorting, transposition, resizing, determinant, dot_MM / solve_MM by contract | float overloads |
| General_functions/gauss_legendre.cpp | gauss, updateRange_a_b (double) | rangeChange_0_inf and float overloads (unused); termination of the Newton loop |
| General_functions/{kinetic_conversion,coupling_coefficients,legendre}.cpp | double versions | float overloads; GSL inside |
| disk_io_routines.cpp | parameter lists, energies, boundary files (all three character by character, decimal notation only: hexadecimal, inf and nan, which stod accepts, are left out), permutation-matrix HDF5 files, U tables and breakup tables (txt, character by character), q_kinematics txt, q_boundaries csv, neumann_terms txt, alpha_pq_boundaries txt, run_parameters.txt | HDF5 library itself (a file is a map from names to typed contents; not thread-safe calls and partial writes are outside the model), store_sep_complex_matrix (behind a switch that is never on) |
| main.cpp | table sizes, channel loop, the work on one channel as a whole (ChainModel; both solvers), the whole of main for both solvers (ProgramModel), parameter walk, which files are written, exit status | printing |
| error_management.cpp | all | – |

Integers: most models use unbounded integers for indices. C102 shows for the main arrays (potential, Hamiltonian, resolvent, breakup
boundaries, permutation matrix, tables of angles, Legendre functions and overlaps, eigenvector blocks, amplitudes) that the program's int and size_t arithmetic gives those same values
when the sizes stay below 2^31, and that nothing checks this. Not covered: the coupling-coefficient tables, the work arrays of the
iterative solver (all size_t) and map keys. HDF5 thread safety is not modelled (the element loop
calls the library from several threads; C80 takes each such store as one access). C21–C24 treat a file write as atomic; C78 models
processes killed between the truncation and the completion of a file. The OpenMP machine of C80/C81 is sequentially consistent; what
a compiler does with a racing access is outside the model, races are reported by the access log instead.

## Findings (claims that are false of the code)

Each has a `_refuted` theorem.

* C02/C03/C06: arguments shorter than four characters abort; values ending in `.txt` are taken as input files; tab-only values.
* C05: `Np_WP=3.5` is accepted as 3. C01: README's default of Np_WP differs from the program's.
* C11: chn_idx is read one past its end for every input (harmless value).
* C13/C38: tensor_force=false with J_2N_max>=2 or isospin breaking leaves the two-nucleon tables.
* C15: the q grid is selected by p_grid_type. C17: long grid files overflow the array.
* C22: recovery merges nothing below 1 GB per thread. C24: merge checks `>` instead of `>=`. C27: unused expansion routine nulls its array.
* C32: Np_WP=1 (and 2 in the deuteron channel). C35: breakup neighbours outside the grid. C52: recorded on-shell bin. C53: breakup cells at another energy than the resolvent.
* C43: Padé orders above the dimension give 0/0. C44/C61: first difference read outside the array; Born term compared with a neighbouring cell.
* C45: breakup output array too small when there are fewer energies than deuteron channels; early stop.
* C46/C56: ambiguous or fixed headers. C48/C67: parameter ranges and columns not checked. C50: raise_error exits with status 0. C55: models that ignore parameters.
* C57: the 1S0 channel, mid-point rule with isospin breaking. C58: tensor force off with J_2N_max >= 2 leaves the potential arrays. C39: the same configuration, undefined behaviour in the column routine. C70: overflow of the 6j table size passes the check.
* C79: the quadrature orders Nphi, Nx of the permutation matrix are neither in its file name nor in the file; a matrix of another quadrature is reused silently.
* C81: thread 0 reads the progress counters the other threads write; the merge loops lack `for` in `#pragma omp parallel`, so every thread writes every element; more than 100 threads overrun counter_array[100]. Results are unaffected in the first two cases (C80). Also seen, not modelled: `omp_set_num_threads(omp_get_max_threads())` (make_permutation_matrix.cpp l.888) does not restore the thread number.
* C82: the kinematics file's header claims that Ecm of a mid-point is the mid-point of the Ecm boundaries; they are computed with different masses.
* C83/C86: `to_string_with_precision_and_sign` prints -0.0 as `+-0.0...` and NaN without a sign, which no reader of complex numbers accepts.
* C84: run_parameters.txt omits output_folder, subfolder and channel_idx and rounds real settings to three decimals.
* C85: the boundaries csv ends with an empty line, which the custom-grid reader rejects.
* C87: an energy file is read up to the first word that is not a number; the rest is dropped silently. C88: the help text's example `energy_input_file=Tlabs` is refused, names shorter than four characters throw.
* C89: a tab, doubled or trailing blank or empty line in the parameter file loses columns or aborts. C90: custom grids are not checked for order.
