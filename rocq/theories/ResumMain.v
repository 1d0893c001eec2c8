(* C101: two runs of the whole program with the iterative solver. *)
From Coq Require Import Reals Lra Lia String Permutation Sorted.
From Verif Require Import Common ArrayLib NameModel ParamsModel ParamsSpec DriverModel DriverSpec InputModel InputSpec PWModel PWSpec PWPropsLemmas SwpModel SwpSpec SparseModel GridModel GridSpec
  PermModel PermSpec PermWholeModel PermWholeSpec GeoModel GeoSpec
  PioModel PioSpec PotentialModel PotentialSpec KernelModel KernelSpec ResolventModel SwpWholeModel SwpWholeSpec SpectralSpec OnShellModel OnShellSpec
  FaddeevModel FaddeevSpec DetModel DenseModel PadeSpec AgsSpec ChainModel ChainSpec IterSpec ReproModel ReproSpec OutputModel OutputSpec TextModel TextSpec ProgramModel ProgramSpec RerunSpec ResumSpec.
From Verif Require Import ProgramProofs ProgramFinal RerunProofs RerunFinal.
From Verif Require OmpCols ParamsProofs2 ResumFinal ReproFinal IterFinal.
Open Scope nat_scope.

(* a result file together with the run of the channel that it shows *)
Definition iterated_run (lb : library) (sphP : Z -> Z -> R -> R) (mc : machine) (cfg : config R) (vg : vgrid) (q : list R) (ss : statespace)
    (pot : potmodel) (energies : list R) (c : nat) (psi : Z) (file : string * string) : Prop :=
  let E := mc_env mc c psi in
  exists states res r, channel_facts lb sphP E cfg vg q ss pot energies c states (sw_Eb (cr_swp r)) (cr_os r) (cr_ds r) (fun i j => PermWholeSpec.entry res (Z.of_nat i) (Z.of_nat j)) /\
    (Z.of_nat (length states * cnat cfg F_Nq_WP * vg_Np vg) <= 2 ^ 28)%Z /\
    (forall row col v, In (row, col, v) res -> (0 <= row < Z.of_nat (length states * cnat cfg F_Nq_WP * vg_Np vg))%Z /\ (0 <= col < Z.of_nat (length states * cnat cfg F_Nq_WP * vg_Np vg))%Z) /\
    channel_iterate (en_diag E) (en_sort E) (en_mem E) (en_cmem E) (en_pmem E) (determinant (mc_getrf mc c psi)) (mc_strays mc c psi) false
      (cflag cfg F_isospin_breaking_1S0) (cflag cfg F_midpoint_approx) (cint cfg F_J_2N_max) (cnat cfg F_Nq_WP) q pot (en_junk E) vg ss (Z.of_nat c) energies res = Ok r /\
    elastic_text mc cfg c psi states (sw_Eb (cr_swp r)) (cr_os r) (cr_ds r) (cr_U r) file.

Section OneSet.
Variables (lb : library) (sphP : Z -> Z -> R -> R) (mc : machine) (fs : file_system) (cfg : config R) (f : fwp) (ss : statespace) (g J mx : Z) (iso : bool) (m : potential)
  (c : nat) (psi : Z) (params : list R) (res : list (Z * Z * R)) (states : list pw) (energies : list R).
Let Np := cnat cfg F_Np_WP. Let Nq := cnat cfg F_Nq_WP. Let p := f_pWP f. Let q := f_qWP f.
Let Nphi := cnat cfg F_Nphi. Let Nx := cnat cfg F_Nx. Let D := length states * Nq * Np.
Let vg := vgrid_of (grid_settings cfg) f. Let E := mc_env mc c psi. Let pot := lb_interaction lb m params.
Let stage := set_stage lb mc fs cfg f ss m c psi params res.
Hypothesis EJ : J = cint cfg F_J_2N_max.
Hypothesis Emx : mx = cint cfg F_two_J_3N_max.
Hypothesis Ei : iso = cflag cfg F_isospin_breaking_1S0.
Hypothesis Hmx : (1 <= mx)%Z.
Hypothesis Hodd : Z.Odd mx.
Hypothesis Hss : construct_symmetric_pw_states_g g J mx iso = Ok ss.
Hypothesis Hc : (0 <= Z.of_nat c < ss_N_chn ss)%Z.
Hypothesis Hsl : channel_slice ss (Z.of_nat c) = Ok states.
Hypothesis Hg : vgrid_ok (cflag cfg F_midpoint_approx) vg.
Hypothesis Pq : partition_from_zero Nq q.
Hypothesis Hpot : hermitian_model pot (ss_states ss).
Hypothesis Hen : energy_file fs cfg energies.
Hypothesis Hin : forall row col v, In (row, col, v) res -> (0 <= row < Z.of_nat D)%Z /\ (0 <= col < Z.of_nat D)%Z.
Let P := fun i j => PermWholeSpec.entry res (Z.of_nat i) (Z.of_nat j).
Hypothesis Hop : permutation_operator (lb_sixj lb) (lb_ninej lb) (lb_threej lb) sphP (lb_roots lb Nphi) (lb_dleg lb Nphi) (lb_gx lb Nx) (lb_gw lb Nx) p q states Nq Np P.

Lemma set_run : settings_ok false false cfg -> (Z.of_nat D <= 2 ^ 28)%Z -> iterating_ok cfg vg ss pot E (mc_getrf mc c psi) (mc_strays mc c psi) ->
  (stage = ([], Err) /\ set_stops cfg vg q ss pot E energies) \/
  exists file, stage = ([file], Ok tt) /\ iterated_run lb sphP mc cfg vg q ss pot energies c psi file.
Proof.
  intros [_ _ Sd _ _ _ Sb HJ HNp HNq Hmid] HD [Msort Mgetrf (fe & fb & Estr) Mm Mc Mpt Hdiag].
  unfold spectra_ok in Hdiag. cbv zeta in Hdiag. rewrite <- EJ, <- Ei in *.
  destruct (IterFinal.elastic_run (en_diag E) (en_sort E) (en_mem E) (en_cmem E) (en_pmem E) (mc_getrf mc c psi) fe fb g J mx iso (cflag cfg F_midpoint_approx) ss (Z.of_nat c) states Nq q pot (en_junk E) vg energies res)
    as [[HE1 HR]|(r & Er & HR)]; try assumption.
  { change (vg_Np vg) with Np. unfold Np, cnat, cint in *. lia. } { unfold Nq, cnat, cint in *. lia. }
  - left. split.
    + unfold stage, set_stage. rewrite (solve_stage_iterate lb mc fs cfg f ss J iso m c psi params res energies EJ Ei Hen), Sb, Estr by assumption. fold Nq q vg E pot. rewrite HE1. reflexivity.
    + unfold set_stops. rewrite <- EJ, <- Ei. destruct HR as [(V & cm & i & HV & A & B)|(V & Eb & HV & A & [B|(B & _)])]; [ | | discriminate B ]; exists V; (split; [ exact HV | ]).
      * left. exists cm, i. split; assumption.
      * right. exists Eb. split; assumption.
  - right. destruct HR as (Es & HR). cbv zeta in HR. destruct HR as (Q1 & Q2 & Q3 & Q4 & Q5 & Q6 & Q7 & Q8 & _ & Q9 & Q10 & Q11 & Q12).
    destruct (elastic_stored mc cfg ss g J mx iso c psi states r) as (file & Ef & Tf); try assumption; [ unfold cint in *; lia | unfold cint in *; lia | intros i Hi; apply Q11 in Hi; apply Hi | ].
    exists file. split.
    + unfold stage, set_stage. rewrite (solve_stage_iterate lb mc fs cfg f ss J iso m c psi params res energies EJ Ei Hen), Sb, Estr by assumption. fold Nq q vg E pot. rewrite Er.
      cbn [quiet rbind app]. fold Np Nq in Ef. fold Np Nq. rewrite Ef. reflexivity.
    + exists states, res, r.
      split; [ eapply (facts lb sphP mc cfg f ss g J mx iso m c psi params res states energies EJ Emx Ei); eassumption | ].
      split; [ exact HD | ]. split; [ exact Hin | ]. split; [ | exact Tf ]. rewrite Estr, <- EJ, <- Ei. exact Er.
Qed.
End OneSet.

Section Rerun.
Variables (lb : library) (sphP : Z -> Z -> R -> R) (mc1 mc2 : machine) (fs : file_system) (args : list string) (cfg cfg2 : config R) (m : potential) (ss : statespace)
  (p q : list R) (rows : list (list R)) (energies : list R).
Let iso := cflag cfg F_isospin_breaking_1S0. Let J := cint cfg F_J_2N_max. Let mid := cflag cfg F_midpoint_approx.
Let Np := cnat cfg F_Np_WP. Let Nq := cnat cfg F_Nq_WP.
Let vg := packet_points mid (lb_gx lb) (lb_gw lb) Np (cnat cfg F_Np_per_WP) p.
Let pot psi := lb_interaction lb m (parameters_of lb cfg m rows psi).
Let todo := tasks (walk_of cfg) (channels_of cfg ss).
Hypothesis Hlib : library_ok lb sphP.
Hypothesis R1 : mc_re mc1 = mc_re mc2.
Hypothesis R2 : mc_im mc1 = mc_im mc2.
Hypothesis R3 : mc_Eb mc1 = mc_Eb mc2.
Hypothesis Hcfg : set_run_parameters R stod fs (mc_omp mc1) 1%R 100%R args = Ok cfg.
Hypothesis Hcfg2 : set_run_parameters R stod fs (mc_omp mc2) 1%R 100%R args = Ok cfg2.
Hypothesis Hset : settings_ok false false cfg.
Hypothesis Hm : fetch_potential_ptr (cstr cfg F_potential_model) = Some m.
Hypothesis Bp : boundaries_of fs (cstr cfg F_p_grid_type) (cstr cfg F_p_grid_filename) Np (vdbl (cfg F_chebyshev_s)) (vdbl (cfg F_chebyshev_t)) p.
Hypothesis Bq : boundaries_of fs (cstr cfg F_q_grid_type) (cstr cfg F_q_grid_filename) Nq (vdbl (cfg F_chebyshev_s)) (vdbl (cfg F_chebyshev_t)) q.
Hypothesis Hpq : cstr cfg F_q_grid_type = "custom"%string -> cstr cfg F_p_grid_type = "custom"%string.
Hypothesis Htab : parameter_table fs cfg m rows.
Hypothesis Hen : energy_file fs cfg energies.
Hypothesis Hss : construct_symmetric_pw_states_g (mc_g mc1) J (cint cfg F_two_J_3N_max) iso = Ok ss.
Hypothesis Hherm : forall c psi, In (c, psi) todo -> hermitian_model (pot psi) (ss_states ss).
Hypothesis Sup1 : supports_iteration lb cfg vg ss pot mc1.
Hypothesis Sup2 : supports_iteration lb cfg2 vg ss pot mc2.
Hypothesis Hcell : same_cell_in_front cfg ss mc1 mc2.

Lemma went mc c0 : settings_ok false false c0 -> set_run_parameters R stod fs (mc_omp mc) 1%R 100%R args = Ok c0 ->
  fetch_potential_ptr (cstr c0 F_potential_model) = Some m ->
  let vg0 := packet_points (cflag c0 F_midpoint_approx) (lb_gx lb) (lb_gw lb) (cnat c0 F_Np_WP) (cnat c0 F_Np_per_WP) p in
  let pot0 psi := lb_interaction lb m (parameters_of lb c0 m rows psi) in
  let todo0 := tasks (walk_of c0) (channels_of c0 ss) in
  boundaries_of fs (cstr c0 F_p_grid_type) (cstr c0 F_p_grid_filename) (cnat c0 F_Np_WP) (vdbl (c0 F_chebyshev_s)) (vdbl (c0 F_chebyshev_t)) p ->
  boundaries_of fs (cstr c0 F_q_grid_type) (cstr c0 F_q_grid_filename) (cnat c0 F_Nq_WP) (vdbl (c0 F_chebyshev_s)) (vdbl (c0 F_chebyshev_t)) q ->
  (cstr c0 F_q_grid_type = "custom"%string -> cstr c0 F_p_grid_type = "custom"%string) -> parameter_table fs c0 m rows -> energy_file fs c0 energies ->
  construct_symmetric_pw_states_g (mc_g mc) (cint c0 F_J_2N_max) (cint c0 F_two_J_3N_max) (cflag c0 F_isospin_breaking_1S0) = Ok ss ->
  (forall c psi, In (c, psi) todo0 -> hermitian_model (pot0 psi) (ss_states ss)) -> supports_iteration lb c0 vg0 ss pot0 mc ->
  one_file_each (fun t file => iterated_run lb sphP mc c0 vg0 q ss (pot0 (snd t)) energies (fst t) (snd t) file)
    (fun t => set_stops c0 vg0 q ss (pot0 (snd t)) (mc_env mc (fst t) (snd t)) energies) todo0 (main_program lb mc fs args).
Proof.
  intros Hset0 Hcfg0 Hm0 vg0 pot0 todo0 Bp0 Bq0 Hpq0 Htab0 Hen0 Hss0 Hh0 (Hgrid & Hbuild & Hsolve).
  assert (Hbuild' : forall c states, In c (channels_of c0 ss) -> channel_slice ss (Z.of_nat c) = Ok states ->
    (Z.of_nat (length states * cnat c0 F_Nq_WP * cnat c0 F_Np_WP) < 2 ^ 31)%Z /\ building_ok lb c0 (Z.of_nat c) states (mc_penv mc c) (mc_sched mc c)).
  { intros c states Hc Hsl. destruct (Hbuild c states Hc Hsl) as [A B]. split; [ lia | exact B ]. }
  destruct (program_went lb sphP mc fs args c0 m ss p q rows Hlib Hcfg0 Hm0 Hss0 Bp0 Bq0 Hpq0 Htab0 Hgrid Hbuild'
    (fun c psi last o => last = [] /\ o = Err /\ set_stops c0 vg0 q ss (pot0 psi) (mc_env mc c psi) energies)
    (fun c psi out => exists file, out = [file] /\ iterated_run lb sphP mc c0 vg0 q ss (pot0 psi) energies c psi file)) as [(outs & A & E)|(n & t & outs & last & o & A & B & E & _ & -> & -> & Hs)].
  { intros c psi f res states Ht Hc Efp Efq Evg Hvg Hmx Hodd Hc' Hsl HD Hr Ho. pose proof (Hh0 c psi Ht) as Hh. pose proof (Hsolve c psi Ht) as Hs. cbv zeta.
    pose proof (set_run lb sphP mc fs c0 f ss (mc_g mc) (cint c0 F_J_2N_max) (cint c0 F_two_J_3N_max) (cflag c0 F_isospin_breaking_1S0) m c psi (parameters_of lb c0 m rows psi) res states energies) as S.
    cbv zeta in S. rewrite Efp, Efq, Evg in S.
    destruct S as [[E1 E2]|(file & E1 & E2)]; auto.
    { apply boundaries_partition in Bq0. exact Bq0. }
    { apply (Hbuild c states Hc Hsl). }
    { left. exists [], Err. split; [ exact E1 | ]. split; [ discriminate | ]. auto. }
    { right. exists [file]. split; [ exact E1 | ]. exists file. auto. } }
  - left. rewrite E. split; [ reflexivity | ]. exact (singles _ _ _ A).
  - right. rewrite E. split; [ reflexivity | ]. exists n, t. split; [ exact A | ]. split; [ exact Hs | ]. cbn [fst]. rewrite app_nil_r. exact (singles _ _ _ B).
Qed.

(* the second run has the settings of the first, up to the number of threads; written as an update, all of its members reduce *)
Let th := cfg2 F_P123_omp_num_threads.
Let cfg' := upd R cfg F_P123_omp_num_threads th.
Lemma second_settings' : cfg2 = cfg'.
Proof.
  destruct (proj1 (settings_same R stod fs (mc_omp mc2) (mc_omp mc1) 1%R 100%R args) cfg2 Hcfg2) as (c & E & L).
  assert (c = cfg) as -> by congruence. exact (like_eq cfg2 cfg L).
Qed.

Theorem identical : main_program lb mc1 fs args = main_program lb mc2 fs args.
Proof.
  set (run1 := main_program lb mc1 fs args). set (run2 := main_program lb mc2 fs args).
  destruct (ParamsProofs2.run_legal R stod fs (mc_omp mc1) 1%R 100%R args cfg Hcfg) as (tJ & nthr & nq & ch & par & EtJ & Hodd & Hpos & _).
  assert (Emx : cint cfg F_two_J_3N_max = tJ) by (unfold cint; rewrite EtJ; reflexivity).
  assert (Hmx : (1 <= cint cfg F_two_J_3N_max)%Z) by lia. assert (Hodd' : Z.Odd (cint cfg F_two_J_3N_max)) by (rewrite Emx; exact Hodd).
  assert (Sup2' := Sup2). rewrite second_settings' in Sup2'. assert (Hcfg' := Hcfg2). rewrite second_settings' in Hcfg'.
  destruct Sup1 as (G1 & B1 & S1). 
  destruct (ProgramProofs.grids_ok fs (lb_gx lb) (lb_gw lb) (mc_grid mc1) (grid_settings cfg) p q G1) as (f & Ef & Efq & Evg & Hvg);
    [ intros n; apply Hlib | intros n; apply Hlib | exact Bp | exact Bq | exact Hpq | ].
  rewrite Evg in Hvg. change (vgrid_ok mid vg) in Hvg.
  assert (ENp : vg_Np vg = Np) by (unfold vg, packet_points; destruct mid; reflexivity).
  assert (HNp : 3 <= vg_Np vg). { destruct Hset. rewrite ENp. unfold Np, cnat. unfold cint in so_Np. lia. }
  assert (HNq : 1 <= Nq). { destruct Hset. unfold Nq, cnat. unfold cint in so_Nq. lia. }
  assert (Hchan : forall c psi, In (c, psi) todo -> (0 <= Z.of_nat c < ss_N_chn ss)%Z).
  { intros c psi Ht. unfold todo, tasks in Ht. apply in_flat_map in Ht. destruct Ht as (c' & Hc & Hi). apply in_map_iff in Hi. destruct Hi as (psi' & Hi & _). injection Hi as -> _.
    unfold channels_of in Hc. assert (In c (seq 0 (Z.to_nat (ss_N_chn ss)))) as Hs by (destruct (cflag cfg F_parallel_run); [ apply filter_In in Hc; apply Hc | exact Hc ]).
    apply in_seq in Hs. lia. }
  assert (X1 := went mc1 cfg Hset Hcfg Hm Bp Bq Hpq Htab Hen Hss Hherm Sup1).
  assert (Hset' : settings_ok false false cfg') by (destruct Hset; constructor; assumption).
  assert (Hss' : construct_symmetric_pw_states_g (mc_g mc2) (cint cfg' F_J_2N_max) (cint cfg' F_two_J_3N_max) (cflag cfg' F_isospin_breaking_1S0) = Ok ss).
  { destruct Hset. exact (states_machine (mc_g mc1) (mc_g mc2) J (cint cfg F_two_J_3N_max) iso ss so_J Hss). }
  assert (X2 := went mc2 cfg' Hset' Hcfg' Hm Bp Bq Hpq Htab Hen Hss' Hherm Sup2').
  cbv zeta in X1, X2.
  change (one_file_each (fun t file => iterated_run lb sphP mc2 cfg vg q ss (pot (snd t)) energies (fst t) (snd t) file)
    (fun t => set_stops cfg vg q ss (pot (snd t)) (mc_env mc2 (fst t) (snd t)) energies) todo run2) in X2.
  fold vg in X1. fold pot in X1. fold todo in X1. fold run1 in X1.
  destruct Sup2' as (_ & _ & S2).
  assert (S3 : forall c psi, In (c, psi) todo -> iterating_ok cfg vg ss (pot psi) (mc_env mc2 c psi) (mc_getrf mc2 c psi) (mc_strays mc2 c psi)) by (intros c psi Ht; destruct (S2 c psi Ht); constructor; assumption).
  assert (Pq := boundaries_partition _ _ _ _ _ _ _ Bq).
  destruct (same_trace _ _ _ _ (fun t => True) todo run1 run2 X1 X2) as (Y1 & Y2 & Y3).
  - intros [c psi] file Ht HS (states & res & r & HF & _). cbn [fst snd] in *.
    exact (no_stop lb sphP cfg vg q ss (mc_g mc1) (pot psi) energies c false Hset Hmx Hss Hvg HNp (Hherm c psi Ht) _ _ _ _ _ _ _
      (io_mem _ _ _ _ _ _ _ (S1 c psi Ht)) (io_mem _ _ _ _ _ _ _ (S3 c psi Ht)) (io_diag _ _ _ _ _ _ _ (S1 c psi Ht)) (io_diag _ _ _ _ _ _ _ (S3 c psi Ht)) HS HF).
  - intros [c psi] file Ht HS (states & res & r & HF & _). cbn [fst snd] in *.
    exact (no_stop lb sphP cfg vg q ss (mc_g mc1) (pot psi) energies c false Hset Hmx Hss Hvg HNp (Hherm c psi Ht) _ _ _ _ _ _ _
      (io_mem _ _ _ _ _ _ _ (S3 c psi Ht)) (io_mem _ _ _ _ _ _ _ (S1 c psi Ht)) (io_diag _ _ _ _ _ _ _ (S3 c psi Ht)) (io_diag _ _ _ _ _ _ _ (S1 c psi Ht)) HS HF).
  - intros [c psi] f1 f2 Ht (states & res & r & HF & HD & Hin & Hr & HT) (states' & res' & r' & HF' & HD' & Hin' & Hr' & HT'). cbn [fst snd] in *.
    split; [ exact (text_name cfg c psi _ _ _ _ _ _ _ _ _ _ _ _ _ _ HT HT') | ]. intros _.
    destruct (facts_unique lb sphP cfg vg q ss (mc_g mc1) (pot psi) energies c false Hset Hmx Hss Hvg HNp (Hherm c psi Ht) _ _ _ _ _ _ _ _ _ _ _ _
      (io_mem _ _ _ _ _ _ _ (S1 c psi Ht)) (io_mem _ _ _ _ _ _ _ (S3 c psi Ht)) (io_diag _ _ _ _ _ _ _ (S1 c psi Ht)) (io_diag _ _ _ _ _ _ _ (S3 c psi Ht)) HF HF') as (-> & EEb & Eos & Eds).
    assert (HF0 := HF). destruct HF0 as (Hsl & _ & _ & _ & Hos & _ & _ & _ & _ & _ & _ & HP). destruct HF' as (_ & _ & _ & _ & _ & _ & _ & _ & _ & _ & _ & HP').
    assert (OU := ReproFinal.operator_unique _ _ _ _ _ _ _ _ _ _ _ _ _ _ _ HNq (Nat.le_trans 1 3 _ ltac:(lia) HNp) HP HP').
    destruct (S1 c psi Ht) as [A1 A2 (fe & fb & A3) A4 A5 A6 A7]. destruct (S3 c psi Ht) as [C1 C2 (fe' & fb' & C3) C4 C5 C6 C7].
    assert (fe = fe') as <- by (assert (X := Hcell c psi Ht); rewrite A3, C3 in X; cbn in X; congruence). rewrite A3 in Hr. rewrite C3 in Hr'.
    destruct (ResumFinal.two_iterations (mc_g mc1) J (cint cfg F_two_J_3N_max) iso mid ss (Z.of_nat c) states Nq q (pot psi) vg energies Hmx Hodd' Hss (Hchan c psi Ht) Hsl (so_mid _ _ _ Hset) (Hherm c psi Ht)
      Hvg HNp HNq Pq HD _ _ _ _ _ _ _ _ _ _ _ _ _ _ _ _ fe fb fb' (conj A1 (conj A2 (conj A4 (conj A5 (conj A6 (conj Hin A7)))))) (conj C1 (conj C2 (conj C4 (conj C5 (conj C6 (conj Hin' C7)))))) OU)
      as [[Z1 _]|(r1 & r2 & Z1 & Z2 & (_ & _ & _ & _ & _ & EU))].
    { discriminate (eq_trans (eq_sym Hr) Z1). }
    assert (W1 := eq_trans (eq_sym Hr) Z1). assert (W2 := eq_trans (eq_sym Hr') Z2). injection W1 as <-. injection W2 as <-.
    rewrite EEb, Eos, Eds, <- EU in HT'.
    exact (text_unique sphP cfg vg c psi HNp mc1 mc2 states _ _ _ (cr_U r) (cr_U r) f1 f2 R1 R2 R3 (fun _ _ _ _ _ _ => eq_refl) HT HT').
  - apply injective_projections; [ | exact Y1 ].
    apply RerunProofs.nth_ext_all. intros n. destruct (nth_error todo n) as [t|] eqn:En; [ exact (Y3 n t En I) | ].
    apply nth_error_None in En. apply RerunFinal.trace_short in X1. apply RerunFinal.trace_short in X2.
    rewrite (proj2 (nth_error_None (fst run1) n)), (proj2 (nth_error_None (fst run2) n)) by lia. reflexivity.
Qed.
End Rerun.
