(* C94, C96: the whole program, from the command line and the input files to the result files. *)
From Coq Require Import Reals Lra Lia String Permutation Sorted.
From Verif Require Import Common ArrayLib NameModel ParamsModel ParamsSpec DriverModel DriverSpec InputModel InputSpec PWModel PWSpec SwpModel SwpSpec SparseModel GridModel GridSpec
  PermModel PermSpec GeoModel GeoSpec PioModel PioSpec PotentialModel PotentialSpec KernelSpec ResolventModel SwpWholeModel SwpWholeSpec SpectralSpec OnShellModel OnShellSpec
  FaddeevModel FaddeevSpec DetModel DenseModel PadeSpec AgsSpec IterSpec ChainModel ChainSpec ReproModel ReproSpec OutputModel TextModel TextSpec ProgramModel ProgramSpec.
From Verif Require ProgramFinal.
Open Scope nat_scope.

(* Settings of the direct solver without breakup.  If the library and the machine do what they promise, the grid, energy and
   parameter files hold what they should and the interaction is Hermitian, then the program writes exactly one file for each
   channel it works on and each parameter set, in this order; or it stops at one of them because its two-nucleon spectrum, or the
   position of its on-shell momenta in the grid, is not as required, with one file written for each before it and none for it.
   Every file is right: its name says which run, channel and set it belongs to, and the numbers in it are the solutions of the
   Alt-Grassberger-Sandhas equation of this channel with the interaction at this set's parameters, at the energies and in the
   order the file states. *)
Theorem C94_program lb sphP mc fs args cfg m ss p q rows energies :
  let iso := cflag cfg F_isospin_breaking_1S0 in let J := cint cfg F_J_2N_max in let mid := cflag cfg F_midpoint_approx in
  let Np := cnat cfg F_Np_WP in let Nq := cnat cfg F_Nq_WP in
  let s := vdbl (cfg F_chebyshev_s) in let t := vdbl (cfg F_chebyshev_t) in
  let vg := packet_points mid (lb_gx lb) (lb_gw lb) Np (cnat cfg F_Np_per_WP) p in
  let pot psi := lb_interaction lb m (parameters_of lb cfg m rows psi) in
  let todo := tasks (walk_of cfg) (channels_of cfg ss) in
  library_ok lb sphP -> (forall n, length (mc_grid mc n) = n) ->
  (* inputs *)
  set_run_parameters R stod fs (mc_omp mc) 1%R 100%R args = Ok cfg -> settings_ok true false cfg -> fetch_potential_ptr (cstr cfg F_potential_model) = Some m ->
  boundaries_of fs (cstr cfg F_p_grid_type) (cstr cfg F_p_grid_filename) Np s t p ->
  boundaries_of fs (cstr cfg F_q_grid_type) (cstr cfg F_q_grid_filename) Nq s t q ->
  (cstr cfg F_q_grid_type = "custom"%string -> cstr cfg F_p_grid_type = "custom"%string) ->
  parameter_table fs cfg m rows -> energy_file fs cfg energies ->
  (* the model space (it exists, C08, C11) *)
  construct_symmetric_pw_states_g (mc_g mc) J (cint cfg F_two_J_3N_max) iso = Ok ss ->
  (* memory, schedules, library routines, interaction *)
  (forall c states, In c (channels_of cfg ss) -> channel_slice ss (Z.of_nat c) = Ok states ->
     (Z.of_nat (length states * Nq * Np) < 2 ^ 31)%Z /\ building_ok lb cfg (Z.of_nat c) states (mc_penv mc c) (mc_sched mc c)) ->
  (forall c psi, In (c, psi) todo -> hermitian_model (pot psi) (ss_states ss) /\ solving_ok cfg vg ss (pot psi) (mc_env mc c psi)) ->
  one_file_each (fun task file => result_file lb sphP mc cfg vg q ss (pot (snd task)) energies (fst task) (snd task) file)
    (fun task => set_stops cfg vg q ss (pot (snd task)) (mc_env mc (fst task) (snd task)) energies) todo (main_program lb mc fs args).
Proof.
  intros iso J mid Np Nq s t vg pot todo H1 H2 H3 H4 H5 H6 H7 H8 H9 H10 H11 H12 H13.
  exact (ProgramFinal.program_correct lb sphP mc fs args cfg m ss p q rows energies H1 H3 H5 H11 H6 H7 H8 H9 H10 H2 H4 H12 H13).
Qed.
Print Assumptions C94_program.

(* The same program with the iterative solver, which is the default.  Partial: the cell before its arrays is taken to hold any
   number (the solver reads it), breakup is off (C97), and the amplitudes are resummations of as many terms of the series of the
   equation as the solver took (C93), not solutions of it. *)
Theorem C96_partial lb sphP mc fs args cfg m ss p q rows energies :
  let iso := cflag cfg F_isospin_breaking_1S0 in let J := cint cfg F_J_2N_max in let mid := cflag cfg F_midpoint_approx in
  let Np := cnat cfg F_Np_WP in let Nq := cnat cfg F_Nq_WP in
  let s := vdbl (cfg F_chebyshev_s) in let t := vdbl (cfg F_chebyshev_t) in
  let vg := packet_points mid (lb_gx lb) (lb_gw lb) Np (cnat cfg F_Np_per_WP) p in
  let pot psi := lb_interaction lb m (parameters_of lb cfg m rows psi) in
  let todo := tasks (walk_of cfg) (channels_of cfg ss) in
  library_ok lb sphP -> (forall n, length (mc_grid mc n) = n) ->
  (* inputs *)
  set_run_parameters R stod fs (mc_omp mc) 1%R 100%R args = Ok cfg -> settings_ok false false cfg -> fetch_potential_ptr (cstr cfg F_potential_model) = Some m ->
  boundaries_of fs (cstr cfg F_p_grid_type) (cstr cfg F_p_grid_filename) Np s t p ->
  boundaries_of fs (cstr cfg F_q_grid_type) (cstr cfg F_q_grid_filename) Nq s t q ->
  (cstr cfg F_q_grid_type = "custom"%string -> cstr cfg F_p_grid_type = "custom"%string) ->
  parameter_table fs cfg m rows -> energy_file fs cfg energies ->
  (* the model space (it exists, C08, C11) *)
  construct_symmetric_pw_states_g (mc_g mc) J (cint cfg F_two_J_3N_max) iso = Ok ss ->
  (* memory, schedules, library routines, interaction *)
  (forall c states, In c (channels_of cfg ss) -> channel_slice ss (Z.of_nat c) = Ok states ->
     (Z.of_nat (length states * Nq * Np) <= 2 ^ 28)%Z /\ building_ok lb cfg (Z.of_nat c) states (mc_penv mc c) (mc_sched mc c)) ->
  (forall c psi, In (c, psi) todo -> hermitian_model (pot psi) (ss_states ss) /\ 
     iterating_ok cfg vg ss (pot psi) (mc_env mc c psi) (mc_getrf mc c psi) (mc_strays mc c psi)) ->
  one_file_each (fun task file => iterated_file lb sphP mc cfg vg q ss (pot (snd task)) energies (fst task) (snd task) file)
    (fun task => set_stops cfg vg q ss (pot (snd task)) (mc_env mc (fst task) (snd task)) energies) todo (main_program lb mc fs args).
Proof.
  intros iso J mid Np Nq s t vg pot todo H1 H2 H3 H4 H5 H6 H7 H8 H9 H10 H11 H12 H13.
  exact (ProgramFinal.program_iterated lb sphP mc fs args cfg m ss p q rows energies H1 H3 H5 H11 H6 H7 H8 H9 H10 H2 H4 H12 H13).
Qed.
Print Assumptions C96_partial.

(* Where reading outside an array is undefined, as in the language, no run with the default solver is defined to its end unless it
   has nothing to compute: every one of its tasks is without energies or without deuteron waves. *)
Theorem C96_refuted lb sphP mc fs args cfg m ss p q rows energies :
  let iso := cflag cfg F_isospin_breaking_1S0 in let J := cint cfg F_J_2N_max in let mid := cflag cfg F_midpoint_approx in
  let Np := cnat cfg F_Np_WP in let Nq := cnat cfg F_Nq_WP in
  let s := vdbl (cfg F_chebyshev_s) in let t := vdbl (cfg F_chebyshev_t) in
  let vg := packet_points mid (lb_gx lb) (lb_gw lb) Np (cnat cfg F_Np_per_WP) p in
  let pot psi := lb_interaction lb m (parameters_of lb cfg m rows psi) in
  let todo := tasks (walk_of cfg) (channels_of cfg ss) in
  library_ok lb sphP -> (forall n, length (mc_grid mc n) = n) ->
  (* inputs *)
  set_run_parameters R stod fs (mc_omp mc) 1%R 100%R args = Ok cfg -> settings_ok false false cfg -> fetch_potential_ptr (cstr cfg F_potential_model) = Some m ->
  boundaries_of fs (cstr cfg F_p_grid_type) (cstr cfg F_p_grid_filename) Np s t p ->
  boundaries_of fs (cstr cfg F_q_grid_type) (cstr cfg F_q_grid_filename) Nq s t q ->
  (cstr cfg F_q_grid_type = "custom"%string -> cstr cfg F_p_grid_type = "custom"%string) ->
  parameter_table fs cfg m rows -> energy_file fs cfg energies ->
  (* the model space (it exists, C08, C11) *)
  construct_symmetric_pw_states_g (mc_g mc) J (cint cfg F_two_J_3N_max) iso = Ok ss ->
  (* memory, schedules, library routines, interaction *)
  (forall c states, In c (channels_of cfg ss) -> channel_slice ss (Z.of_nat c) = Ok states ->
     (Z.of_nat (length states * Nq * Np) <= 2 ^ 28)%Z /\ building_ok lb cfg (Z.of_nat c) states (mc_penv mc c) (mc_sched mc c)) ->
  (forall c psi, In (c, psi) todo -> hermitian_model (pot psi) (ss_states ss) /\ 
     (exists memory, iterating_ok cfg vg ss (pot psi) (mc_env mc c psi) (mc_getrf mc c psi) memory) /\ fst (mc_strays mc c psi) = None) ->
  snd (main_program lb mc fs args) = Ok tt -> forall c psi, In (c, psi) todo ->
  exists states Eb os ds P, channel_facts lb sphP (mc_env mc c psi) cfg vg q ss (pot psi) energies c states Eb os ds P /\ (ds = [] \/ os_T os = []).
Proof.
  intros iso J mid Np Nq s t vg pot todo H1 H2 H3 H4 H5 H6 H7 H8 H9 H10 H11 H12 H13.
  exact (ProgramFinal.program_strict lb sphP mc fs args cfg m ss p q rows energies H1 H3 H5 H11 H6 H7 H8 H9 H10 H2 H4 H12 H13).
Qed.
Print Assumptions C96_refuted.
