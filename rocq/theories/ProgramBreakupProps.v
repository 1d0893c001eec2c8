(* C97: the whole program with the default solver and breakup. *)
From Coq Require Import Reals Lra Lia String Permutation Sorted.
From Verif Require Import Common ArrayLib NameModel ParamsModel ParamsSpec DriverModel DriverSpec InputModel InputSpec PWModel PWSpec SwpModel SwpSpec SparseModel GridModel GridSpec
  PermModel PermSpec GeoModel GeoSpec PioModel PioSpec PotentialModel PotentialSpec KernelSpec ResolventModel SwpWholeModel SwpWholeSpec SpectralSpec OnShellModel OnShellSpec
  FaddeevModel FaddeevSpec DetModel DenseModel PadeSpec AgsSpec IterSpec ChainModel ChainSpec ReproModel ReproSpec OutputModel TextModel TextSpec ProgramModel ProgramSpec.
From Verif Require ProgramBreakup.
Open Scope nat_scope.

(* Settings of the default solver with breakup.  Either the program writes two files for each channel and parameter set, in this
   order, and every file is right: the first holds the elastic, the second the breakup amplitudes of the same run of the solver,
   each with its energy, its cell's boundaries and its states; or it does so up to one task, where it stops with an error
   because the spectrum or the position of the on-shell energies in the grids is not as required, or where its results may be
   undefined because of one of three defects ([breakup_defect]: a cell off the grid, more deuteron waves than energies, an
   iteration ended too early).  Partial: these defects, and the amplitudes are resummations (C93), not solutions. *)
Theorem C97_partial lb sphP mc fs args cfg m ss p q rows energies :
  let iso := cflag cfg F_isospin_breaking_1S0 in let J := cint cfg F_J_2N_max in let mid := cflag cfg F_midpoint_approx in
  let Np := cnat cfg F_Np_WP in let Nq := cnat cfg F_Nq_WP in
  let s := vdbl (cfg F_chebyshev_s) in let t := vdbl (cfg F_chebyshev_t) in
  let vg := packet_points mid (lb_gx lb) (lb_gw lb) Np (cnat cfg F_Np_per_WP) p in
  let pot psi := lb_interaction lb m (parameters_of lb cfg m rows psi) in
  let todo := tasks (walk_of cfg) (channels_of cfg ss) in
  library_ok lb sphP -> (forall n, length (mc_grid mc n) = n) ->
  (* inputs *)
  set_run_parameters R stod fs (mc_omp mc) 1%R 100%R args = Ok cfg -> settings_ok false true cfg -> fetch_potential_ptr (cstr cfg F_potential_model) = Some m ->
  boundaries_of fs (cstr cfg F_p_grid_type) (cstr cfg F_p_grid_filename) Np s t p ->
  boundaries_of fs (cstr cfg F_q_grid_type) (cstr cfg F_q_grid_filename) Nq s t q ->
  (cstr cfg F_q_grid_type = "custom"%string -> cstr cfg F_p_grid_type = "custom"%string) ->
  parameter_table fs cfg m rows -> energy_file fs cfg energies ->
  (* the model space (it exists, C08, C11) *)
  construct_symmetric_pw_states_g (mc_g mc) J (cint cfg F_two_J_3N_max) iso = Ok ss ->
  (* memory, schedules, library routines, interaction *)
  (forall c states, In c (channels_of cfg ss) -> channel_slice ss (Z.of_nat c) = Ok states ->
     (Z.of_nat (length states * Nq * Np) <= 2 ^ 28)%Z /\ building_ok lb cfg (Z.of_nat c) states (mc_penv mc c) (mc_sched mc c)) ->
  (forall c psi, In (c, psi) todo -> hermitian_model (pot psi) (ss_states ss) /\ 
     iterating_ok cfg vg ss (pot psi) (mc_env mc c psi) (mc_getrf mc c psi) (mc_strays mc c psi)) ->
  files_until (fun task out => breakup_files lb sphP mc cfg vg q ss (pot (snd task)) energies (fst task) (snd task) out)
    (fun task => breakup_stops cfg vg q ss (pot (snd task)) (mc_env mc (fst task) (snd task)) energies (fst task))
    (fun task => breakup_defect lb sphP cfg vg q ss (pot (snd task)) (mc_env mc (fst task) (snd task)) (mc_getrf mc (fst task) (snd task)) (mc_strays mc (fst task) (snd task)) energies (fst task))
    todo (main_program lb mc fs args).
Proof.
  intros iso J mid Np Nq s t vg pot todo H1 H2 H3 H4 H5 H6 H7 H8 H9 H10 H11 H12 H13.
  exact (ProgramBreakup.program_breakup lb sphP mc fs args cfg m ss p q rows energies H1 H3 H4 H5 H11 H6 H7 H8 H9 H10 H2 H12 H13).
Qed.
Print Assumptions C97_partial.

(* If no on-shell energy reaches the breakup threshold, none of these defects is met: the run is right, or stops with an error. *)
Theorem C97_below_threshold lb sphP mc fs args cfg m ss p q rows energies :
  let iso := cflag cfg F_isospin_breaking_1S0 in let J := cint cfg F_J_2N_max in let mid := cflag cfg F_midpoint_approx in
  let Np := cnat cfg F_Np_WP in let Nq := cnat cfg F_Nq_WP in
  let s := vdbl (cfg F_chebyshev_s) in let t := vdbl (cfg F_chebyshev_t) in
  let vg := packet_points mid (lb_gx lb) (lb_gw lb) Np (cnat cfg F_Np_per_WP) p in
  let pot psi := lb_interaction lb m (parameters_of lb cfg m rows psi) in
  let todo := tasks (walk_of cfg) (channels_of cfg ss) in
  library_ok lb sphP -> (forall n, length (mc_grid mc n) = n) ->
  (* inputs *)
  set_run_parameters R stod fs (mc_omp mc) 1%R 100%R args = Ok cfg -> settings_ok false true cfg -> fetch_potential_ptr (cstr cfg F_potential_model) = Some m ->
  boundaries_of fs (cstr cfg F_p_grid_type) (cstr cfg F_p_grid_filename) Np s t p ->
  boundaries_of fs (cstr cfg F_q_grid_type) (cstr cfg F_q_grid_filename) Nq s t q ->
  (cstr cfg F_q_grid_type = "custom"%string -> cstr cfg F_p_grid_type = "custom"%string) ->
  parameter_table fs cfg m rows -> energy_file fs cfg energies ->
  (* the model space (it exists, C08, C11) *)
  construct_symmetric_pw_states_g (mc_g mc) J (cint cfg F_two_J_3N_max) iso = Ok ss ->
  (* memory, schedules, library routines, interaction *)
  (forall c states, In c (channels_of cfg ss) -> channel_slice ss (Z.of_nat c) = Ok states ->
     (Z.of_nat (length states * Nq * Np) <= 2 ^ 28)%Z /\ building_ok lb cfg (Z.of_nat c) states (mc_penv mc c) (mc_sched mc c)) ->
  (forall c psi, In (c, psi) todo -> hermitian_model (pot psi) (ss_states ss) /\ 
     iterating_ok cfg vg ss (pot psi) (mc_env mc c psi) (mc_getrf mc c psi) (mc_strays mc c psi)) ->
  (forall c psi, In (c, psi) todo -> ~ reaches_breakup cfg vg q ss (pot psi) (mc_env mc c psi) energies) ->
  files_until (fun task out => breakup_files lb sphP mc cfg vg q ss (pot (snd task)) energies (fst task) (snd task) out)
    (fun task => breakup_stops cfg vg q ss (pot (snd task)) (mc_env mc (fst task) (snd task)) energies (fst task))
    (fun _ => False) todo (main_program lb mc fs args).
Proof.
  intros iso J mid Np Nq s t vg pot todo H1 H2 H3 H4 H5 H6 H7 H8 H9 H10 H11 H12 H13 H14.
  exact (ProgramBreakup.program_below lb sphP mc fs args cfg m ss p q rows energies H1 H3 H4 H5 H11 H6 H7 H8 H9 H10 H2 H12 H13 H14).
Qed.
Print Assumptions C97_below_threshold.

(* Where reading outside an array is undefined, as in the language, no run with breakup is defined to its end unless it has
   nothing to compute. *)
Theorem C97_refuted lb sphP mc fs args cfg m ss p q rows energies :
  let iso := cflag cfg F_isospin_breaking_1S0 in let J := cint cfg F_J_2N_max in let mid := cflag cfg F_midpoint_approx in
  let Np := cnat cfg F_Np_WP in let Nq := cnat cfg F_Nq_WP in
  let s := vdbl (cfg F_chebyshev_s) in let t := vdbl (cfg F_chebyshev_t) in
  let vg := packet_points mid (lb_gx lb) (lb_gw lb) Np (cnat cfg F_Np_per_WP) p in
  let pot psi := lb_interaction lb m (parameters_of lb cfg m rows psi) in
  let todo := tasks (walk_of cfg) (channels_of cfg ss) in
  library_ok lb sphP -> (forall n, length (mc_grid mc n) = n) ->
  (* inputs *)
  set_run_parameters R stod fs (mc_omp mc) 1%R 100%R args = Ok cfg -> settings_ok false true cfg -> fetch_potential_ptr (cstr cfg F_potential_model) = Some m ->
  boundaries_of fs (cstr cfg F_p_grid_type) (cstr cfg F_p_grid_filename) Np s t p ->
  boundaries_of fs (cstr cfg F_q_grid_type) (cstr cfg F_q_grid_filename) Nq s t q ->
  (cstr cfg F_q_grid_type = "custom"%string -> cstr cfg F_p_grid_type = "custom"%string) ->
  parameter_table fs cfg m rows -> energy_file fs cfg energies ->
  (* the model space (it exists, C08, C11) *)
  construct_symmetric_pw_states_g (mc_g mc) J (cint cfg F_two_J_3N_max) iso = Ok ss ->
  (* memory, schedules, library routines, interaction *)
  (forall c states, In c (channels_of cfg ss) -> channel_slice ss (Z.of_nat c) = Ok states ->
     (Z.of_nat (length states * Nq * Np) <= 2 ^ 28)%Z /\ building_ok lb cfg (Z.of_nat c) states (mc_penv mc c) (mc_sched mc c)) ->
  (forall c psi, In (c, psi) todo -> hermitian_model (pot psi) (ss_states ss) /\ 
     (exists memory, iterating_ok cfg vg ss (pot psi) (mc_env mc c psi) (mc_getrf mc c psi) memory) /\ fst (mc_strays mc c psi) = None) ->
  snd (main_program lb mc fs args) = Ok tt -> forall c psi, In (c, psi) todo ->
  exists states Eb os ds P, channel_facts lb sphP (mc_env mc c psi) cfg vg q ss (pot psi) energies c states Eb os ds P /\ (ds = [] \/ os_T os = []).
Proof.
  intros iso J mid Np Nq s t vg pot todo H1 H2 H3 H4 H5 H6 H7 H8 H9 H10 H11 H12 H13.
  exact (ProgramBreakup.program_breakup_strict lb sphP mc fs args cfg m ss p q rows energies H1 H3 H4 H5 H11 H6 H7 H8 H9 H10 H2 H12 H13).
Qed.
Print Assumptions C97_refuted.
