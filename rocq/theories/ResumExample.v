(* Two machines for C101. *)
From Coq Require Import Reals Lra Lia String Permutation Sorted.
From Verif Require Import Common ArrayLib NameModel ParamsModel ParamsSpec DriverModel DriverSpec InputModel InputSpec PWModel PWSpec SwpModel SwpSpec SparseModel GridModel GridSpec
  PermModel PermSpec GeoModel GeoSpec PioModel PioSpec PotentialModel PotentialSpec KernelSpec ResolventModel SwpWholeModel SwpWholeSpec SpectralSpec OnShellModel OnShellSpec
  FaddeevModel FaddeevSpec DetModel DenseModel PadeSpec AgsSpec ChainModel ChainSpec ChainProofs ChainExample ReproModel ReproSpec ReproExample OutputModel TextModel TextSpec ProgramModel ProgramSpec ProgramProps ProgramExample
  RerunSpec RerunProps RerunExample ResumSpec ResumProps.
From Verif Require SpectralProps GeoProps PioPropsLemmas DetExists ReproProofs PermPropsLemmas.
Open Scope nat_scope.

Definition ex13_cfg : config R := match set_run_parameters R stod (ex11_fs Default) 1 1%R 100%R ex11_args with Ok c => c | _ => fun _ => VInt R 0 end.
Lemma ex13_run : set_run_parameters R stod (ex11_fs Default) 1 1%R 100%R ex11_args = Ok ex13_cfg.
Proof. destruct (proj1 (C95_settings R stod (ex11_fs Default) 8 1 1%R 100%R ex11_args) _ (ex11_run Default)) as (c & E & H). unfold ex13_cfg. rewrite E. reflexivity. Qed.
Lemma ex13_numbers : cflag ex13_cfg F_isospin_breaking_1S0 = false /\ cflag ex13_cfg F_midpoint_approx = true /\ cint ex13_cfg F_J_2N_max = 1%Z /\ cint ex13_cfg F_two_J_3N_max = 1%Z /\
  cnat ex13_cfg F_Np_WP = 3 /\ cnat ex13_cfg F_Nq_WP = 2 /\ cnat ex13_cfg F_Np_per_WP = 8 /\ cnat ex13_cfg F_Nphi = 1 /\ cnat ex13_cfg F_Nx = 1 /\
  cnat ex13_cfg F_P123_omp_num_threads = 1 /\ cstr ex13_cfg F_P123_folder = "Output/run"%string.
Proof. vm_compute. repeat split. Qed.
Lemma ex13_building wt solve : building_ok (ex11_lib wt) ex13_cfg 0 GeoProps.ex_states (ex10_env2 solve []) (fun l => map (fun e => (0, e)) (rev l)).
Proof.
  destruct ex13_numbers as (N1 & N2 & N3 & N4 & N5 & N6 & N7 & N8 & N9 & N10 & N11). destruct C91_whole_example as (ss & _ & _ & _ & _ & _ & _ & Hal).
  constructor; rewrite ?N1, ?N2, ?N3, ?N4, ?N5, ?N6, ?N7, ?N8, ?N9, ?N10, ?N11;
    cbn [ex10_env2 ex11_lib lb_legsize en_diag en_sort en_solve en_mem en_cmem en_pmem en_junk en_phi en_wphi en_tab en_geo en_G en_veqb en_srt en_folder en_B en_T en_buf en_fs en_evs].
  - split; [ reflexivity | ]. split; [ reflexivity | ]. split; [ reflexivity | ]. split; [ exact Hal | reflexivity ].
  - intros a b. unfold ex10_eqb. destruct (Req_EM_T a b); split; congruence.
  - exact PioPropsLemmas.isort_sorts.
  - split; [ lia | reflexivity ].
  - intros l. split; [ rewrite map_map; cbn [snd]; rewrite map_id; apply Permutation_sym, Permutation_rev | ]. intros ev Hi. apply in_map_iff in Hi. destruct Hi as (e & <- & _). cbn. lia.
  - cbv zeta. intros t0 k Ht Hk. assert (Ls : length GeoProps.ex_states = 10) by reflexivity. rewrite Ls in Hk. apply (ex10_names "Output/run"%string t0 k); [ left; reflexivity | lia | exact Hk ].
Qed.
Lemma ex13_iterating solve getrf f fb ss : getrf_contract getrf -> construct_symmetric_pw_states_g 0 1 1 false = Ok ss ->
  iterating_ok ex13_cfg ex11_vg ss ex11_pot (ex10_env2 solve []) getrf (Some f, Some fb).
Proof.
  intros Hs Ess. destruct ex13_numbers as (N1 & N2 & N3 & _). constructor; [ exact isort_ok | exact Hs | eauto | | | | ]; try (intros k n; apply repeat_length).
  unfold spectra_ok. rewrite ?N1, ?N2, ?N3; cbn [ex10_env2 en_diag en_sort en_solve en_mem en_cmem en_pmem en_junk].
  cbv zeta. intros V EV.
  destruct (potential_all 0 1 1 false true ss ex11_pot (0, 0)%R ex11_vg ltac:(lia) Ess (or_intror eq_refl) (ex11_hermitian _) ex11_grid
      (ex9_mem 0 (3 * 3 * Z.to_nat (num_2N_unco_states true false 1))) (ex9_mem 1 (3 * 3 * 4 * Z.to_nat (num_2N_coup_states true false 1))))
      as (V' & E & _); [ apply repeat_length | apply repeat_length | ].
  assert (V' = V) as -> by (refine (ReproProofs.potential_unique 0 1 1 false true ss 1 ex11_pot ex11_vg ltac:(lia) Ess (or_intror eq_refl) (ex11_hermitian _) ex11_grid
      (le_n 3) (le_n 1) (0, 0)%R (5, 6)%R _ _ _ _ V' V _ _ _ _ E EV); apply repeat_length).
  destruct (ex11_spectra ss V Ess E) as [S1 S2]. split; [ exact (ex10_solves V S1) | ]. intros cm i Hch. assert (X := S2 cm i Hch). rewrite <- ex10_spec in X. exact X.
Qed.

(* Non-vacuity of C101: eight processors and one, other memory contents (also in front of the array of breakup approximants),
   opposite eigenvectors, elements emitted in the opposite order, a scratch file left on disk - all hypotheses hold, both runs end
   properly and write the same two files. *)
Example C101_example round_re round_im print f fb fb' : exists solve getrf ss files, let lb := ex11_lib 2 in let fs := ex11_fs Default in
  let mc1 := ex11_machine solve getrf (Some f, Some fb) round_re round_im print in let mc2 := ex12_machine solve getrf (Some f, Some fb') round_re round_im print in
  let pot psi := lb_interaction lb IS_LO (parameters_of lb (ex11_cfg Default) IS_LO ex11_rows psi) in
  ex11_hypotheses Default lb mc1 ss /\ set_run_parameters R stod fs (mc_omp mc2) 1%R 100%R ex11_args = Ok ex13_cfg /\
  supports_iteration lb (ex11_cfg Default) ex11_vg ss pot mc1 /\ supports_iteration lb ex13_cfg ex11_vg ss pot mc2 /\ same_cell_in_front (ex11_cfg Default) ss mc1 mc2 /\
  main_program lb mc1 fs ex11_args = (files, Ok tt) /\ main_program lb mc2 fs ex11_args = (files, Ok tt) /\ length files = 2 /\
  mc_omp mc1 <> mc_omp mc2 /\ mc_grid mc1 1 <> mc_grid mc2 1.
Proof.
  destruct DetExists.solve_exists as (solve & Hsolve). destruct DetExists.getrf_exists as (getrf & Hgetrf).
  destruct (ex11_all Default 2 solve getrf (Some f, Some fb) round_re round_im print) as (ss & Ess & H & Hns & states & Esl & Ls & H4).
  destruct (ex11_numbers Default) as (N1 & N2 & N3 & N4 & N5 & N6 & N7 & N8 & N9 & N10 & N11). destruct ex13_numbers as (M1 & M2 & M3 & M4 & M5 & M6 & M7 & M8 & M9 & M10 & M11).
  assert (H0 := H). destruct H as (A1 & A2 & A3 & A4 & A5 & A6 & A7 & A8 & A9 & A10 & A11 & A12 & A13 & Vg & C1 & _).
  set (mc1 := ex11_machine solve getrf (Some f, Some fb) round_re round_im print) in *. set (mc2 := ex12_machine solve getrf (Some f, Some fb') round_re round_im print). set (lb := ex11_lib 2) in *.
  set (pot := fun psi => lb_interaction lb IS_LO (parameters_of lb (ex11_cfg Default) IS_LO ex11_rows psi)).
  assert (C0' : channels_of ex13_cfg ss = channels_of (ex11_cfg Default) ss).
  { unfold channels_of. replace (cflag ex13_cfg F_parallel_run) with (cflag (ex11_cfg Default) F_parallel_run) by (vm_compute; reflexivity).
    replace (cint ex13_cfg F_channel_idx) with (cint (ex11_cfg Default) F_channel_idx) by (vm_compute; reflexivity). reflexivity. }
  assert (Est : GeoProps.ex_states = states).
  { destruct C91_whole_example as (ss' & E1 & E2 & _). assert (ss' = ss) as -> by congruence. congruence. }
  assert (C0 : channels_of (ex11_cfg Default) ss = [0]).
  { destruct (ex11_walk Default) as (W1 & W2 & _). destruct ex9_tables as (ss' & st' & Ess' & _ & _ & Lc' & _). assert (ss' = ss) as -> by congruence.
    unfold channels_of; rewrite Lc', W1, W2; reflexivity. }
  assert (S : forall mem c psi, mem = (Some f, Some fb) -> iterating_ok (ex11_cfg Default) ex11_vg ss (pot psi) (mc_env (ex11_machine solve getrf mem round_re round_im print) c psi) getrf (Some f, Some fb))
    by (intros mem c psi ->; exact (ex11_iterating Default solve getrf f fb ss Hgetrf Ess)).
  assert (S1 : supports_iteration lb (ex11_cfg Default) ex11_vg ss pot mc1).
  { split; [ intros n; apply repeat_length | ]. split; [ exact A12 | ]. intros c psi _. exact (S _ c psi eq_refl). }
  assert (S2 : supports_iteration lb ex13_cfg ex11_vg ss pot mc2).
  { split; [ intros n; apply repeat_length | ]. split.
    - rewrite C0', C0. intros c st [<-|[]] Hst. change (Z.of_nat 0) with 0%Z in *. assert (st = states) as -> by congruence. rewrite M5, M6, Ls. split; [ vm_compute; discriminate | ].
      rewrite <- Est. exact (ex13_building 2 solve).
    - intros c psi _. exact (ex13_iterating solve getrf f fb' ss Hgetrf Ess). }
  assert (S3 : same_cell_in_front (ex11_cfg Default) ss mc1 mc2) by (intros c psi _; reflexivity).
  assert (T1 := C101_partial lb GeoProps.ex_sphP mc1 mc2 (ex11_fs Default) ex11_args (ex11_cfg Default) ex13_cfg IS_LO ss ex11_p ex11_q ex11_rows [1%R] A1 eq_refl eq_refl eq_refl (ex11_run Default) ex13_run
    A4 A5 A6 A7 A8 A9 A10 A11). cbv zeta in T1. rewrite Vg in T1. specialize (T1 (fun c psi _ => A13 psi) S1 S2 S3).
  assert (T := C96_partial lb GeoProps.ex_sphP _ (ex11_fs Default) ex11_args (ex11_cfg Default) IS_LO ss ex11_p ex11_q ex11_rows [1%R] A1 A2 A3 A4 A5 A6 A7 A8 A9 A10 A11 A12).
  cbv zeta in T. rewrite Vg in T.
  destruct (two_files _ _ _ _ (f_equal (@length (nat * Z)) C1) (fun t _ HS => Hns HS) (T (fun c psi _ => conj (A13 psi) (S _ c psi eq_refl)))) as (Eo & L2 & _).
  assert (Ef : main_program lb mc1 (ex11_fs Default) ex11_args = (fst (main_program lb mc1 (ex11_fs Default) ex11_args), Ok tt)) by (rewrite <- Eo; apply surjective_pairing).
  remember (fst (main_program lb mc1 (ex11_fs Default) ex11_args)) as files eqn:Efiles.
  exists solve, getrf, ss, files. cbv zeta. fold mc1 mc2 lb. fold pot.
  split; [ exact H0 | ]. split; [ exact ex13_run | ]. split; [ exact S1 | ]. split; [ exact S2 | ]. split; [ exact S3 | ]. split; [ exact Ef | ]. split; [ rewrite <- T1; exact Ef | ]. split; [ exact L2 | ].
  split; [ discriminate | ]. cbn [mc_grid mc1 mc2 ex11_machine ex12_machine repeat]. intros X. injection X as X. lra.
Qed.
