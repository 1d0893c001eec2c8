(* C95: what the program writes does not depend on the machine it runs on. *)
From Coq Require Import Reals Lra Lia String Permutation Sorted.
From Verif Require Import Common ArrayLib NameModel ParamsModel ParamsSpec DriverModel DriverSpec InputModel InputSpec PWModel PWSpec SwpModel SwpSpec SparseModel GridModel GridSpec
  PermModel PermSpec GeoModel GeoSpec PioModel PioSpec PotentialModel PotentialSpec KernelSpec ResolventModel SwpWholeModel SwpWholeSpec SpectralSpec OnShellModel OnShellSpec
  FaddeevModel FaddeevSpec DetModel DenseModel PadeSpec AgsSpec ChainModel ChainSpec ReproModel ReproSpec OutputModel TextModel TextSpec ProgramModel ProgramSpec RerunSpec.
From Verif Require RerunProofs RerunFinal ProgramFinal.
Open Scope nat_scope.

(* Two machines with any numbers of processors: the same arguments and files are accepted by both or refused by both, and every
   setting is the same except the number of threads. *)
Theorem C95_settings (dbl : Type) (stod : string -> option dbl) fs omp1 omp2 d1 d100 args :
  let run omp := set_run_parameters dbl stod fs omp d1 d100 args in
  (forall cfg1, run omp1 = Ok cfg1 -> exists cfg2, run omp2 = Ok cfg2 /\ forall f, f <> F_P123_omp_num_threads -> cfg1 f = cfg2 f) /\
  (run omp1 = Err <-> run omp2 = Err) /\ (run omp1 = Exc <-> run omp2 = Exc) /\ (run omp1 = UB <-> run omp2 = UB).
Proof. exact (RerunFinal.settings_same dbl stod fs omp1 omp2 d1 d100 args). Qed.
Print Assumptions C95_settings.

(* Two runs of the whole program with the same arguments and input files (settings of C94), on two machines that may differ in
   everything but the rounding and printing of numbers - processors, threads and their schedule, memory contents, files left on
   disk, and the eigenvectors, solutions and orderings the library routines choose - end the same way and write files of the same
   names in the same order (so a run that stops stops at the same channel and parameter set), and the same text for every channel
   and parameter set whose equation has at most one solution. *)
Theorem C95_reproducible lb sphP mc1 mc2 fs args cfg1 cfg2 m ss p q rows energies :
  let iso := cflag cfg1 F_isospin_breaking_1S0 in let J := cint cfg1 F_J_2N_max in let mid := cflag cfg1 F_midpoint_approx in
  let Np := cnat cfg1 F_Np_WP in let Nq := cnat cfg1 F_Nq_WP in
  let s := vdbl (cfg1 F_chebyshev_s) in let t := vdbl (cfg1 F_chebyshev_t) in
  let vg := packet_points mid (lb_gx lb) (lb_gw lb) Np (cnat cfg1 F_Np_per_WP) p in
  let pot psi := lb_interaction lb m (parameters_of lb cfg1 m rows psi) in
  let todo := tasks (walk_of cfg1) (channels_of cfg1 ss) in
  library_ok lb sphP ->
  mc_re mc1 = mc_re mc2 -> mc_im mc1 = mc_im mc2 -> mc_Eb mc1 = mc_Eb mc2 ->
  (* inputs, as in C94 *)
  set_run_parameters R stod fs (mc_omp mc1) 1%R 100%R args = Ok cfg1 -> set_run_parameters R stod fs (mc_omp mc2) 1%R 100%R args = Ok cfg2 ->
  settings_ok true false cfg1 -> fetch_potential_ptr (cstr cfg1 F_potential_model) = Some m ->
  boundaries_of fs (cstr cfg1 F_p_grid_type) (cstr cfg1 F_p_grid_filename) Np s t p ->
  boundaries_of fs (cstr cfg1 F_q_grid_type) (cstr cfg1 F_q_grid_filename) Nq s t q ->
  (cstr cfg1 F_q_grid_type = "custom"%string -> cstr cfg1 F_p_grid_type = "custom"%string) ->
  parameter_table fs cfg1 m rows -> energy_file fs cfg1 energies ->
  construct_symmetric_pw_states_g (mc_g mc1) J (cint cfg1 F_two_J_3N_max) iso = Ok ss ->
  (forall c psi, In (c, psi) todo -> hermitian_model (pot psi) (ss_states ss)) ->
  supported lb cfg1 vg ss pot mc1 -> supported lb cfg2 vg ss pot mc2 ->
  let run1 := main_program lb mc1 fs args in let run2 := main_program lb mc2 fs args in
  snd run1 = snd run2 /\ map fst (fst run1) = map fst (fst run2) /\
  forall n c psi, nth_error todo n = Some (c, psi) -> uniquely_solvable lb sphP cfg1 vg q ss (pot psi) energies c ->
    nth_error (fst run1) n = nth_error (fst run2) n.
Proof.
  intros iso J mid Np Nq s t vg pot todo H1 R1 R2 R3 H3 H3' H4 H5 H6 H7 H8 H9 H10 H11 H12 H13 H14.
  exact (RerunFinal.reproducible lb sphP mc1 mc2 fs args cfg1 cfg2 m ss p q rows energies H1 R1 R2 R3 H3 H3' H4 H5 H6 H7 H8 H9 H10 H11 H12 H13 H14).
Qed.
Print Assumptions C95_reproducible.

(* In particular, if every equation of the run has at most one solution, the two runs do exactly the same. *)
Theorem C95_identical lb sphP mc1 mc2 fs args cfg1 cfg2 m ss p q rows energies :
  let iso := cflag cfg1 F_isospin_breaking_1S0 in let J := cint cfg1 F_J_2N_max in let mid := cflag cfg1 F_midpoint_approx in
  let Np := cnat cfg1 F_Np_WP in let Nq := cnat cfg1 F_Nq_WP in
  let s := vdbl (cfg1 F_chebyshev_s) in let t := vdbl (cfg1 F_chebyshev_t) in
  let vg := packet_points mid (lb_gx lb) (lb_gw lb) Np (cnat cfg1 F_Np_per_WP) p in
  let pot psi := lb_interaction lb m (parameters_of lb cfg1 m rows psi) in
  let todo := tasks (walk_of cfg1) (channels_of cfg1 ss) in
  library_ok lb sphP ->
  mc_re mc1 = mc_re mc2 -> mc_im mc1 = mc_im mc2 -> mc_Eb mc1 = mc_Eb mc2 ->
  set_run_parameters R stod fs (mc_omp mc1) 1%R 100%R args = Ok cfg1 -> set_run_parameters R stod fs (mc_omp mc2) 1%R 100%R args = Ok cfg2 ->
  settings_ok true false cfg1 -> fetch_potential_ptr (cstr cfg1 F_potential_model) = Some m ->
  boundaries_of fs (cstr cfg1 F_p_grid_type) (cstr cfg1 F_p_grid_filename) Np s t p ->
  boundaries_of fs (cstr cfg1 F_q_grid_type) (cstr cfg1 F_q_grid_filename) Nq s t q ->
  (cstr cfg1 F_q_grid_type = "custom"%string -> cstr cfg1 F_p_grid_type = "custom"%string) ->
  parameter_table fs cfg1 m rows -> energy_file fs cfg1 energies ->
  construct_symmetric_pw_states_g (mc_g mc1) J (cint cfg1 F_two_J_3N_max) iso = Ok ss ->
  (forall c psi, In (c, psi) todo -> hermitian_model (pot psi) (ss_states ss)) ->
  supported lb cfg1 vg ss pot mc1 -> supported lb cfg2 vg ss pot mc2 ->
  (forall c psi, In (c, psi) todo -> uniquely_solvable lb sphP cfg1 vg q ss (pot psi) energies c) ->
  main_program lb mc1 fs args = main_program lb mc2 fs args.
Proof.
  intros iso J mid Np Nq s t vg pot todo H1 R1 R2 R3 H3 H3' H4 H5 H6 H7 H8 H9 H10 H11 H12 H13 H14 HQ.
  destruct (RerunFinal.reproducible lb sphP mc1 mc2 fs args cfg1 cfg2 m ss p q rows energies H1 R1 R2 R3 H3 H3' H4 H5 H6 H7 H8 H9 H10 H11 H12 H13 H14)
    as (E & N & H).
  apply injective_projections; [ | exact E ].
  apply RerunProofs.nth_ext_all. intros n. destruct (nth_error todo n) as [[c psi]|] eqn:En.
  - exact (H n c psi En (HQ c psi (nth_error_In _ _ En))).
  - apply nth_error_None in En.
    assert (L := ProgramFinal.program_correct lb sphP mc1 fs args cfg1 m ss p q rows energies H1 H3 H5 H11 H6 H7 H8 H9 H10 (proj1 H13) H4 (proj1 (proj2 H13))
      (fun c psi Ht => conj (H12 c psi Ht) (proj2 (proj2 H13) c psi Ht))). apply RerunFinal.trace_short in L. fold pot todo in L.
    apply (f_equal (@List.length string)) in N. rewrite !map_length in N.
    rewrite (proj2 (nth_error_None (fst (main_program lb mc1 fs args)) n)), (proj2 (nth_error_None (fst (main_program lb mc2 fs args)) n)) by lia. reflexivity.
Qed.
Print Assumptions C95_identical.
