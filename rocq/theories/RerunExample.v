(* Two machines for C95. *)
From Coq Require Import Reals Lra Lia String Permutation Sorted.
From Verif Require Import Common ArrayLib NameModel ParamsModel ParamsSpec DriverModel DriverSpec InputModel InputSpec PWModel PWSpec SwpModel SwpSpec SparseModel GridModel GridSpec
  PermModel PermSpec GeoModel GeoSpec PioModel PioSpec PotentialModel PotentialSpec KernelSpec ResolventModel SwpWholeModel SwpWholeSpec SpectralSpec OnShellModel OnShellSpec
  FaddeevModel FaddeevSpec DetModel DenseModel PadeSpec AgsSpec ChainModel ChainSpec ChainProofs ChainExample ReproModel ReproSpec ReproExample OutputModel TextModel TextSpec ProgramModel ProgramSpec ProgramProps ProgramExample
  RerunSpec RerunProps.
From Verif Require SpectralProps GeoProps PioPropsLemmas DetExists ReproProofs PermPropsLemmas.
Open Scope nat_scope.

(* the second machine: one processor instead of eight, other garbage everywhere, opposite eigenvectors, elements emitted in the
   opposite order, longer buffers, a scratch file left on disk *)
Definition ex12_machine (solve : solve_t) (getrf : getrf_t) (memory : strays) (round_re round_im : cdouble -> double) (print : R -> string) : machine :=
  mkmachine 1 5 (fun n => repeat 9%R n) (fun _ => ex10_env2 solve []) (fun _ l => map (fun e => (0, e)) (rev l)) (fun _ _ => ex10_env2 solve []) round_re round_im print (fun _ _ => getrf) (fun _ _ => memory) rc.
Definition ex12_cfg : config R := match set_run_parameters R stod (ex11_fs Direct) 1 1%R 100%R ex11_args with Ok c => c | _ => fun _ => VInt R 0 end.
Lemma ex12_same f : f <> F_P123_omp_num_threads -> (ex11_cfg Direct) f = ex12_cfg f.
Proof.
  destruct (proj1 (C95_settings R stod (ex11_fs Direct) 8 1 1%R 100%R ex11_args) _ (ex11_run Direct)) as (c & E & H). unfold ex12_cfg. rewrite E. exact (H f).
Qed.
Lemma ex12_run : set_run_parameters R stod (ex11_fs Direct) 1 1%R 100%R ex11_args = Ok ex12_cfg.
Proof. destruct (proj1 (C95_settings R stod (ex11_fs Direct) 8 1 1%R 100%R ex11_args) _ (ex11_run Direct)) as (c & E & H). unfold ex12_cfg. rewrite E. reflexivity. Qed.
Lemma ex12_numbers : cflag ex12_cfg F_isospin_breaking_1S0 = false /\ cflag ex12_cfg F_midpoint_approx = true /\ cint ex12_cfg F_J_2N_max = 1%Z /\ cint ex12_cfg F_two_J_3N_max = 1%Z /\
  cnat ex12_cfg F_Np_WP = 3 /\ cnat ex12_cfg F_Nq_WP = 2 /\ cnat ex12_cfg F_Np_per_WP = 8 /\ cnat ex12_cfg F_Nphi = 1 /\ cnat ex12_cfg F_Nx = 1 /\
  cnat ex12_cfg F_P123_omp_num_threads = 1 /\ cstr ex12_cfg F_P123_folder = "Output/run"%string.
Proof. vm_compute. repeat split. Qed.
Lemma ex12_building wt solve : building_ok (ex11_lib wt) ex12_cfg 0 GeoProps.ex_states (ex10_env2 solve []) (fun l => map (fun e => (0, e)) (rev l)).
Proof.
  destruct ex12_numbers as (N1 & N2 & N3 & N4 & N5 & N6 & N7 & N8 & N9 & N10 & N11). destruct C91_whole_example as (ss & _ & _ & _ & _ & _ & _ & Hal).
  constructor; rewrite ?N1, ?N2, ?N3, ?N4, ?N5, ?N6, ?N7, ?N8, ?N9, ?N10, ?N11;
    cbn [ex10_env2 ex11_lib lb_legsize en_diag en_sort en_solve en_mem en_cmem en_pmem en_junk en_phi en_wphi en_tab en_geo en_G en_veqb en_srt en_folder en_B en_T en_buf en_fs en_evs].
  - split; [ reflexivity | ]. split; [ reflexivity | ]. split; [ reflexivity | ]. split; [ exact Hal | reflexivity ].
  - intros a b. unfold ex10_eqb. destruct (Req_EM_T a b); split; congruence.
  - exact PioPropsLemmas.isort_sorts.
  - split; [ lia | reflexivity ].
  - intros l. split; [ rewrite map_map; cbn [snd]; rewrite map_id; apply Permutation_sym, Permutation_rev | ]. intros ev Hi. apply in_map_iff in Hi. destruct Hi as (e & <- & _). cbn. lia.
  - cbv zeta. intros t0 k Ht Hk. assert (Ls : length GeoProps.ex_states = 10) by reflexivity. rewrite Ls in Hk. apply (ex10_names "Output/run"%string t0 k); [ left; reflexivity | lia | exact Hk ].
Qed.
Lemma ex12_solving solve ss : solve_contract solve -> construct_symmetric_pw_states_g 0 1 1 false = Ok ss -> solving_ok ex12_cfg ex11_vg ss ex11_pot (ex10_env2 solve []).
Proof.
  intros Hs Ess. destruct ex12_numbers as (N1 & N2 & N3 & _). constructor; rewrite ?N1, ?N2, ?N3; cbn [ex10_env2 en_diag en_sort en_solve en_mem en_cmem en_pmem en_junk].
  - exact isort_ok.
  - exact Hs.
  - intros k n. apply repeat_length.
  - intros k n. apply repeat_length.
  - intros k n. apply repeat_length.
  - cbv zeta. intros V EV.
    destruct (potential_all 0 1 1 false true ss ex11_pot (0, 0)%R ex11_vg ltac:(lia) Ess (or_intror eq_refl) (ex11_hermitian _) ex11_grid
      (ex9_mem 0 (3 * 3 * Z.to_nat (num_2N_unco_states true false 1))) (ex9_mem 1 (3 * 3 * 4 * Z.to_nat (num_2N_coup_states true false 1))))
      as (V' & E & _); [ apply repeat_length | apply repeat_length | ].
    assert (V' = V) as -> by (refine (ReproProofs.potential_unique 0 1 1 false true ss 1 ex11_pot ex11_vg ltac:(lia) Ess (or_intror eq_refl) (ex11_hermitian _) ex11_grid
      (le_n 3) (le_n 1) (0, 0)%R (5, 6)%R _ _ _ _ V' V _ _ _ _ E EV); apply repeat_length).
    destruct (ex11_spectra ss V Ess E) as [S1 S2]. split; [ exact (ex10_solves V S1) | ]. intros cm i Hch. assert (X := S2 cm i Hch). rewrite <- ex10_spec in X. exact X.
Qed.

(* With all quadrature weights 0 the permutation operator vanishes and every equation has one solution.  (A non-zero kernel with a
   uniquely solvable equation is in C92_channel_example.) *)
Lemma ex12_solvable ss c : uniquely_solvable (ex11_lib 0) GeoProps.ex_sphP (ex11_cfg Direct) ex11_vg ex11_q ss ex11_pot [1%R] c.
Proof.
  destruct (ex11_numbers Direct) as (N1 & N2 & N3 & N4 & N5 & N6 & N7 & N8 & N9 & N10 & N11).
  unfold uniquely_solvable. rewrite N2, N6, N8, N9. intros states Eb os P C lam edge Hsl Hos HP HW j Hj.
  change (vg_Np ex11_vg) with 3 in *.
  assert (P0 : forall x y, x < length states * 2 * 3 -> y < length states * 2 * 3 -> P x y = 0%R).
  { intros x y Hx Hy. destruct (FaddeevLink.state_of_valid (length states) 2 3 x ltac:(lia) ltac:(lia) Hx) as [Vx Ex]. destruct (FaddeevLink.state_of_valid (length states) 2 3 y ltac:(lia) ltac:(lia) Hy) as [Vy Ey].
    rewrite <- Ex, <- Ey. destruct (state_of 2 3 x) as [[a iq] i], (state_of 2 3 y) as [[a' iq'] i'].
    destruct (HP _ _ _ _ _ _ Vx Vy) as (v & _ & ->). cbn [lb_roots lb_dleg lb_gx lb_gw ex11_lib repeat length].
    match goal with |- (?S / _)%R = _ => replace S with 0%R; [ unfold Rdiv; ring | symmetry ] end.
    apply PermPropsLemmas.sum_zero. intros k Hk. apply PermPropsLemmas.sum_zero. intros l Hl.
    assert (k = 0) as -> by lia. cbn [nth]. ring. }
  intros y Hy x Hx. rewrite (Hy x Hx). apply AgsProps.ctotal_zero. intros z Hz.
  replace (kernel_2PV states 2 3 P (potential3 true ex11_pot ex11_vg states) x z) with 0%R; [ apply AgsProps.cmul_0_l' | ].
  symmetry. unfold kernel_2PV, two_PV. apply PermPropsLemmas.sum_zero. intros t Ht. rewrite (P0 x t Hx Ht). ring.
Qed.

(* Non-vacuity of C95: two different machines, all hypotheses; both runs write the same two files. *)
Example C95_example getrf memory1 memory2 round_re round_im print : exists solve ss files,
  let mc1 := ex11_machine solve getrf memory1 round_re round_im print in let mc2 := ex12_machine solve getrf memory2 round_re round_im print in
  let lb := ex11_lib 0 in
  library_ok lb GeoProps.ex_sphP /\ mc_re mc1 = mc_re mc2 /\ mc_im mc1 = mc_im mc2 /\ mc_Eb mc1 = mc_Eb mc2 /\
  set_run_parameters R stod (ex11_fs Direct) (mc_omp mc1) 1%R 100%R ex11_args = Ok (ex11_cfg Direct) /\ set_run_parameters R stod (ex11_fs Direct) (mc_omp mc2) 1%R 100%R ex11_args = Ok ex12_cfg /\
  construct_symmetric_pw_states_g (mc_g mc1) (cint (ex11_cfg Direct) F_J_2N_max) (cint (ex11_cfg Direct) F_two_J_3N_max) (cflag (ex11_cfg Direct) F_isospin_breaking_1S0) = Ok ss /\
  (let vg := packet_points (cflag (ex11_cfg Direct) F_midpoint_approx) (lb_gx lb) (lb_gw lb) (cnat (ex11_cfg Direct) F_Np_WP) (cnat (ex11_cfg Direct) F_Np_per_WP) ex11_p in
   let pot psi := lb_interaction lb IS_LO (parameters_of lb (ex11_cfg Direct) IS_LO ex11_rows psi) in
   supported lb (ex11_cfg Direct) vg ss pot mc1 /\ supported lb ex12_cfg vg ss pot mc2 /\
   forall c psi, In (c, psi) (tasks (walk_of (ex11_cfg Direct)) (channels_of (ex11_cfg Direct) ss)) ->
     hermitian_model (pot psi) (ss_states ss) /\ uniquely_solvable lb GeoProps.ex_sphP (ex11_cfg Direct) vg ex11_q ss (pot psi) [1%R] c) /\
  main_program lb mc1 (ex11_fs Direct) ex11_args = (files, Ok tt) /\ main_program lb mc2 (ex11_fs Direct) ex11_args = (files, Ok tt) /\ length files = 2 /\
  mc_omp mc1 <> mc_omp mc2 /\ mc_grid mc1 1 <> mc_grid mc2 1.
Proof.
  destruct DetExists.solve_exists as (solve & Hsolve). destruct ex9_tables as (ss & states & Ess & Esl & Ls & Lc & Hd & H4).
  destruct (ex11_numbers Direct) as (N1 & N2 & N3 & N4 & N5 & N6 & N7 & N8 & N9 & N10 & N11). destruct ex12_numbers as (M1 & M2 & M3 & M4 & M5 & M6 & M7 & M8 & M9 & M10 & M11).
  set (mc1 := ex11_machine solve getrf memory1 round_re round_im print). set (mc2 := ex12_machine solve getrf memory2 round_re round_im print). set (lb := ex11_lib 0).
  assert (A1 := ex11_library 0). fold lb in A1.
  assert (A11 : construct_symmetric_pw_states_g (mc_g mc1) (cint (ex11_cfg Direct) F_J_2N_max) (cint (ex11_cfg Direct) F_two_J_3N_max) (cflag (ex11_cfg Direct) F_isospin_breaking_1S0) = Ok ss) by (rewrite N1, N3, N4; exact Ess).
  assert (C0 : channels_of (ex11_cfg Direct) ss = [0]).
  { unfold channels_of. rewrite Lc. replace (cflag (ex11_cfg Direct) F_parallel_run) with true by (vm_compute; reflexivity). replace (cint (ex11_cfg Direct) F_channel_idx) with 0%Z by (vm_compute; reflexivity). reflexivity. }
  assert (C0' : channels_of ex12_cfg ss = [0]).
  { unfold channels_of. rewrite Lc. replace (cflag ex12_cfg F_parallel_run) with true by (vm_compute; reflexivity). replace (cint ex12_cfg F_channel_idx) with 0%Z by (vm_compute; reflexivity). reflexivity. }
  assert (C1 : tasks (walk_of (ex11_cfg Direct)) (channels_of (ex11_cfg Direct) ss) = [(0, 0%Z); (0, 1%Z)]).
  { rewrite C0. replace (walk_of (ex11_cfg Direct)) with (mkwalk true 0 2) by (vm_compute; reflexivity). reflexivity. }
  assert (Est : GeoProps.ex_states = states).
  { destruct C91_whole_example as (ss' & E1 & E2 & _). assert (ss' = ss) as -> by congruence. congruence. }
  assert (Vg : packet_points (cflag (ex11_cfg Direct) F_midpoint_approx) (lb_gx lb) (lb_gw lb) (cnat (ex11_cfg Direct) F_Np_WP) (cnat (ex11_cfg Direct) F_Np_per_WP) ex11_p = ex11_vg)
    by (rewrite N2, N5, N7; reflexivity).
  set (pot := fun psi => lb_interaction lb IS_LO (parameters_of lb (ex11_cfg Direct) IS_LO ex11_rows psi)).
  assert (S1 : supported lb (ex11_cfg Direct) ex11_vg ss pot mc1).
  { split; [ intros n; apply repeat_length | ]. split.
    - rewrite C0. intros c st [<-|[]] Hst. change (Z.of_nat 0) with 0%Z in *. assert (st = states) as -> by congruence. rewrite N5, N6, Ls. split; [ reflexivity | ].
      rewrite <- Est. exact (ex11_building Direct 0 solve).
    - intros c psi _. exact (ex11_solving Direct solve ss Hsolve Ess). }
  assert (S2 : supported lb ex12_cfg ex11_vg ss pot mc2).
  { split; [ intros n; apply repeat_length | ]. split.
    - rewrite C0'. intros c st [<-|[]] Hst. change (Z.of_nat 0) with 0%Z in *. assert (st = states) as -> by congruence. rewrite M5, M6, Ls. split; [ reflexivity | ].
      rewrite <- Est. exact (ex12_building 0 solve).
    - intros c psi _. exact (ex12_solving solve ss Hsolve Ess). }
  assert (A5 : fetch_potential_ptr (cstr (ex11_cfg Direct) F_potential_model) = Some IS_LO) by (vm_compute; reflexivity).
  assert (A8 : cstr (ex11_cfg Direct) F_q_grid_type = "custom"%string -> cstr (ex11_cfg Direct) F_p_grid_type = "custom"%string) by (intros _; vm_compute; reflexivity).
  assert (T1 := C95_identical lb GeoProps.ex_sphP mc1 mc2 (ex11_fs Direct) ex11_args (ex11_cfg Direct) ex12_cfg IS_LO ss ex11_p ex11_q ex11_rows [1%R] A1 eq_refl eq_refl eq_refl (ex11_run Direct) ex12_run
    (ex11_settings Direct) A5 (ex11_bp Direct) (ex11_bq Direct) A8 (ex11_table Direct) (ex11_energies Direct) A11). cbv zeta in T1. rewrite Vg in T1.
  specialize (T1 (fun c psi _ => ex11_hermitian _) S1 S2 (fun c psi _ => ex12_solvable ss c)).
  assert (T2 := C94_program lb GeoProps.ex_sphP mc1 (ex11_fs Direct) ex11_args (ex11_cfg Direct) IS_LO ss ex11_p ex11_q ex11_rows [1%R] A1 (proj1 S1) (ex11_run Direct) (ex11_settings Direct) A5 (ex11_bp Direct) (ex11_bq Direct) A8 (ex11_table Direct) (ex11_energies Direct) A11
    (proj1 (proj2 S1))). cbv zeta in T2. rewrite Vg in T2.
  specialize (T2 (fun c psi _ => conj (ex11_hermitian _) (ex11_solving Direct solve ss Hsolve Ess))).
  assert (Hns : ~ set_stops (ex11_cfg Direct) ex11_vg ex11_q ss ex11_pot (ex10_env1 solve []) [1%R]).
  { apply ex11_no_stop; [ exact Ess | intros cm i Hch; exact (ex9_bound ss cm i Ess Hd Hch) | intros Eb HB; exact (ex9_Eb ss Eb Hd HB) ]. }
  destruct (two_files _ _ _ _ (f_equal (@length (nat * Z)) C1) (fun t _ HS => Hns HS) T2) as (Eo & L2 & _).
  assert (Ef : main_program lb mc1 (ex11_fs Direct) ex11_args = (fst (main_program lb mc1 (ex11_fs Direct) ex11_args), Ok tt)) by (rewrite <- Eo; apply surjective_pairing).
  remember (fst (main_program lb mc1 (ex11_fs Direct) ex11_args)) as files eqn:Efiles.
  exists solve, ss, files. cbv zeta. fold mc1 mc2 lb. fold pot. rewrite Vg.
    split; [ exact A1 | ]. split; [ reflexivity | ]. split; [ reflexivity | ]. split; [ reflexivity | ]. split; [ exact (ex11_run Direct) | ]. split; [ exact ex12_run | ]. split; [ exact A11 | ].
    split. { split; [ exact S1 | ]. split; [ exact S2 | ]. intros c psi _. split; [ apply ex11_hermitian | apply ex12_solvable ]. }
    split; [ exact Ef | ]. split; [ rewrite <- T1; exact Ef | ]. split; [ exact L2 | ].
    split; [ discriminate | ]. cbn [mc_grid mc1 mc2 ex11_machine ex12_machine repeat]. intros X. injection X as X. lra.
Qed.
