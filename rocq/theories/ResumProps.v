(* C101: with the iterative solver, what the program writes does not depend on the machine it runs on - except through the memory
   cell in front of an array that the solver reads. *)
From Coq Require Import Reals Lra Lia String Permutation Sorted.
From Verif Require Import Common ArrayLib NameModel ParamsModel ParamsSpec DriverModel DriverSpec InputModel InputSpec PWModel PWSpec SwpModel SwpSpec SparseModel GridModel GridSpec
  PermModel PermSpec GeoModel GeoSpec PioModel PioSpec PotentialModel PotentialSpec KernelSpec ResolventModel SwpWholeModel SwpWholeSpec SpectralSpec OnShellModel OnShellSpec
  FaddeevModel FaddeevSpec DetModel DenseModel PadeSpec AgsSpec ChainModel ChainSpec ReproModel ReproSpec OutputModel TextModel TextSpec ProgramModel ProgramSpec RerunSpec ResumSpec.
From Verif Require ResumMain FaddeevProps.
Open Scope nat_scope.

(* Two runs of the whole program with the same arguments and input files (settings of C96: default solver, no breakup), on two
   machines that may differ in processors, threads and their schedule, memory contents, files left on disk, and in the
   eigenvectors, LU factors and orderings the library routines choose, do exactly the same: they end the same way and write the
   same files with the same text.  Nothing is asked of the equations (compare C95).  What is missing (see C101_refuted): the
   machines must agree on the cell in front of the solver's array of approximants. *)
Theorem C101_partial lb sphP mc1 mc2 fs args cfg1 cfg2 m ss p q rows energies :
  let iso := cflag cfg1 F_isospin_breaking_1S0 in let J := cint cfg1 F_J_2N_max in let mid := cflag cfg1 F_midpoint_approx in
  let Np := cnat cfg1 F_Np_WP in let Nq := cnat cfg1 F_Nq_WP in
  let s := vdbl (cfg1 F_chebyshev_s) in let t := vdbl (cfg1 F_chebyshev_t) in
  let vg := packet_points mid (lb_gx lb) (lb_gw lb) Np (cnat cfg1 F_Np_per_WP) p in
  let pot psi := lb_interaction lb m (parameters_of lb cfg1 m rows psi) in
  let todo := tasks (walk_of cfg1) (channels_of cfg1 ss) in
  library_ok lb sphP ->
  mc_re mc1 = mc_re mc2 -> mc_im mc1 = mc_im mc2 -> mc_Eb mc1 = mc_Eb mc2 ->
  set_run_parameters R stod fs (mc_omp mc1) 1%R 100%R args = Ok cfg1 -> set_run_parameters R stod fs (mc_omp mc2) 1%R 100%R args = Ok cfg2 ->
  settings_ok false false cfg1 -> fetch_potential_ptr (cstr cfg1 F_potential_model) = Some m ->
  boundaries_of fs (cstr cfg1 F_p_grid_type) (cstr cfg1 F_p_grid_filename) Np s t p ->
  boundaries_of fs (cstr cfg1 F_q_grid_type) (cstr cfg1 F_q_grid_filename) Nq s t q ->
  (cstr cfg1 F_q_grid_type = "custom"%string -> cstr cfg1 F_p_grid_type = "custom"%string) ->
  parameter_table fs cfg1 m rows -> energy_file fs cfg1 energies ->
  construct_symmetric_pw_states_g (mc_g mc1) J (cint cfg1 F_two_J_3N_max) iso = Ok ss ->
  (forall c psi, In (c, psi) todo -> hermitian_model (pot psi) (ss_states ss)) ->
  supports_iteration lb cfg1 vg ss pot mc1 -> supports_iteration lb cfg2 vg ss pot mc2 ->
  same_cell_in_front cfg1 ss mc1 mc2 ->
  main_program lb mc1 fs args = main_program lb mc2 fs args.
Proof.
  intros iso J mid Np Nq s t vg pot todo H1 R1 R2 R3 H3 H3' H4 H5 H6 H7 H8 H9 H10 H11 H12 H13 H14 H15.
  exact (ResumMain.identical lb sphP mc1 mc2 fs args cfg1 cfg2 m ss p q rows energies H1 R1 R2 R3 H3 H3' H4 H5 H6 H7 H8 H9 H10 H11 H12 H13 H14 H15).
Qed.
Print Assumptions C101_partial.

(* That condition cannot be dropped: there is a channel whose solver returns different amplitudes for two contents of the cell, all
   else being equal. *)
Theorem C101_refuted getrf fb : getrf_contract getrf -> exists s V C before1 before2 U1 U2,
  channel_system s true false 1 1 0 (FaddeevExample.states_of 1) V C /\
  pade_method_solve (determinant getrf) (Some before1, Some fb) s (repeat c0 4) [] = Ok (U1, []) /\
  pade_method_solve (determinant getrf) (Some before2, Some fb) s (repeat c0 4) [] = Ok (U2, []) /\ U1 <> U2.
Proof.
  intros H. destruct (FaddeevProps.C44_refuted_memory getrf fb H) as (CT & VC & U1 & U2 & A & B & C & E1 & E2).
  do 5 eexists. exists U1, U2. split; [ exact A | ]. split; [ exact B | ]. split; [ exact C | ]. intros E. rewrite E, E2 in E1. injection E1 as E1. lra.
Qed.
Print Assumptions C101_refuted.
