(* A concrete run for C94: the toy interaction of C91_example on the grids of the program, two parameter sets, one channel. *)
From Coq Require Import Reals Lra Lia String Ascii Permutation Sorted.
From Verif Require Import Common ArrayLib NameModel ParamsModel ParamsSpec DriverModel DriverSpec InputModel InputSpec PWModel PWSpec SwpModel SwpSpec SparseModel GridModel GridSpec
  PermModel PermSpec GeoModel GeoSpec PioModel PioSpec PotentialModel PotentialSpec KernelSpec ResolventModel SwpWholeModel SwpWholeSpec SpectralSpec OnShellModel OnShellSpec
  FaddeevModel FaddeevSpec DetModel DenseModel PadeSpec AgsSpec ChainModel ChainSpec ChainProofs ChainExample ReproModel ReproSpec ReproExample OutputModel TextModel TextSpec ProgramModel ProgramSpec ProgramProps.
From Verif Require SpectralProps GeoProps TextProofs PioPropsLemmas DetExists OnShellProofs OnShellPropsLemmas InputProps GridPropsLemmas.
Open Scope nat_scope.
Notation nl := InputProps.nl.

(* with the direct solver, with the default one, and with the default one and breakup *)
Inductive ex11_mode := Direct | Default | Breakup.
Definition direct (dn : ex11_mode) := match dn with Direct => true | _ => false end.
Definition breakup (dn : ex11_mode) := match dn with Breakup => true | _ => false end.
(* options with a file name in them work only in an option file (C02) *)
Definition ex11_args : list string := ["two_J_3N_max=1"; "J_2N_max=1"; "run.txt"; "parallel_run=true"; "channel_idx=0"]%string.
Definition ex11_options (dn : ex11_mode) : list string :=
  ["Np_WP=3"; "Nq_WP=2"; "Nphi=1"; "Nx=1"; "isospin_breaking_1S0=false"; "midpoint_approx=true"; if direct dn then "solve_dense=true" else "solve_dense=false"; if breakup dn then "include_breakup_channels=true" else "include_breakup_channels=false";
   "p_grid_type=custom"; "p_grid_filename=p.txt"; "q_grid_type=custom"; "q_grid_filename=q.txt"; "P123_omp_num_threads=1"; "P123_folder=Output/run";
   "potential_model=IS_LO"; "parameter_walk=true"; "parameter_file=sets.txt"; "PSI_start=0"; "PSI_end=2"; "energy_input_file=E.txt"]%string.
Definition ex11_fs (dn : ex11_mode) : file_system := fun name =>
  (if name =? "run.txt" then Some (unlines (ex11_options dn))
   else if name =? "p.txt" then Some ("0" ++ nl ++ "1" ++ nl ++ "2" ++ nl ++ "3" ++ nl)
   else if name =? "q.txt" then Some ("0" ++ nl ++ "30" ++ nl ++ "60" ++ nl)
   else if name =? "sets.txt" then Some ("1 2" ++ nl ++ "3 4" ++ nl)
   else if name =? "E.txt" then Some ("1" ++ nl) else None)%string.
Definition ex11_out (dn : ex11_mode) : outcome (config R) := set_run_parameters R stod (ex11_fs dn) 8 1%R 100%R ex11_args.
Definition ex11_cfg (dn : ex11_mode) : config R := match (ex11_out dn) with Ok c => c | _ => fun _ => VInt R 0 end.
Lemma ex11_cfg_ok dn : (ex11_out dn) = Ok (ex11_cfg dn).
Proof. unfold ex11_cfg. assert (H : (match (ex11_out dn) with Ok _ => true | _ => false end) = true) by (destruct dn; vm_compute; reflexivity). destruct (ex11_out dn); [ reflexivity | discriminate.. ]. Qed.
Lemma ex11_read dn : (cstr (ex11_cfg dn) F_p_grid_filename, cstr (ex11_cfg dn) F_parameter_file, cint (ex11_cfg dn) F_PSI_end, cflag (ex11_cfg dn) F_parallel_run) = ("p.txt"%string, "sets.txt"%string, 2%Z, true).
Proof. destruct dn; vm_compute; reflexivity. Qed.
Lemma ex11_settings dn : settings_ok (direct dn) (breakup dn) (ex11_cfg dn).
Proof. constructor; try (destruct dn; vm_compute; reflexivity); try (destruct dn; vm_compute; discriminate). right. destruct dn; vm_compute; reflexivity. Qed.
Lemma ex11_run dn : set_run_parameters R stod (ex11_fs dn) 8 1%R 100%R ex11_args = Ok (ex11_cfg dn).
Proof. exact (ex11_cfg_ok dn). Qed.

(* ---- grids and input files ---- *)
Definition ex11_p : list R := [0; 1; 2; 3]%R.
Definition ex11_q : list R := [0; 30; 60]%R.
Lemma ex11_p_part : partition_from_zero 3 ex11_p.
Proof. split; [ reflexivity | ]; split; [ reflexivity | ]; intros i j [H1 H2]; destruct j as [|[|[|[|j]]]]; try lia; destruct i as [|[|[|i]]]; try lia; unfold ex11_p; cbn [nth]; lra. Qed.
Lemma ex11_q_part : partition_from_zero 2 ex11_q.
Proof. split; [ reflexivity | ]; split; [ reflexivity | ]; intros i j [H1 H2]; destruct j as [|[|[|j]]]; try lia; destruct i as [|[|i]]; try lia; unfold ex11_q; cbn [nth]; lra. Qed.
Lemma begins_whole s n v : digits_of s (S n) v -> (0 <= v < 2 ^ 53)%Z -> begins_with s (IZR v).
Proof.
  intros D H. exists ""%string, s, ""%string, (IZR v). split; [ rewrite TextProofs.sapp_nil; reflexivity | ]. split; [ intros [|i] c X; discriminate | ].
  split; [ exact (InputProps.whole_text s n v D) | ]. split; [ apply InputProps.whole_nearest; lia | ]. left. reflexivity.
Qed.
Lemma digit c : isdigit c = true -> digits_of (String c "") 1 (digit_val c). Proof. exact (InputProps.digits1 c). Qed.
Lemma word30 : digits_of "30" 2 30. Proof. exact (Dsnoc "3" 1 3 "0"%char (digit "3"%char eq_refl) eq_refl). Qed.
Lemma word60 : digits_of "60" 2 60. Proof. exact (Dsnoc "6" 1 6 "0"%char (digit "6"%char eq_refl) eq_refl). Qed.
Ltac has_lines_tac := split; [ let l := fresh in let H := fresh in intros l Hl H; repeat (destruct Hl as [<-|Hl]; [ vm_compute in H; repeat (destruct H as [H|H]; [ discriminate | ]); exact H | ]); destruct Hl | left; reflexivity ].
Lemma ex11_bp dn : boundaries_of (ex11_fs dn) (cstr (ex11_cfg dn) F_p_grid_type) (cstr (ex11_cfg dn) F_p_grid_filename) (cnat (ex11_cfg dn) F_Np_WP) (vdbl ((ex11_cfg dn) F_chebyshev_s)) (vdbl ((ex11_cfg dn) F_chebyshev_t)) ex11_p.
Proof.
  replace (cnat (ex11_cfg dn) F_Np_WP) with 3 by (destruct dn; vm_compute; reflexivity).
  right. split; [ destruct dn; vm_compute; reflexivity | ]. split; [ exact ex11_p_part | ].
  exists ("0" ++ nl ++ "1" ++ nl ++ "2" ++ nl ++ "3" ++ nl)%string, ["0"; "1"; "2"; "3"]%string. split; [ destruct dn; vm_compute; reflexivity | ]. split; [ has_lines_tac | ].
  constructor; [ exact (begins_whole "0" 0 0 (digit "0"%char eq_refl) ltac:(lia)) | ].
  constructor; [ exact (begins_whole "1" 0 1 (digit "1"%char eq_refl) ltac:(lia)) | ].
  constructor; [ exact (begins_whole "2" 0 2 (digit "2"%char eq_refl) ltac:(lia)) | ].
  constructor; [ exact (begins_whole "3" 0 3 (digit "3"%char eq_refl) ltac:(lia)) | constructor ].
Qed.
Lemma ex11_bq dn : boundaries_of (ex11_fs dn) (cstr (ex11_cfg dn) F_q_grid_type) (cstr (ex11_cfg dn) F_q_grid_filename) (cnat (ex11_cfg dn) F_Nq_WP) (vdbl ((ex11_cfg dn) F_chebyshev_s)) (vdbl ((ex11_cfg dn) F_chebyshev_t)) ex11_q.
Proof.
  replace (cnat (ex11_cfg dn) F_Nq_WP) with 2 by (destruct dn; vm_compute; reflexivity).
  right. split; [ destruct dn; vm_compute; reflexivity | ]. split; [ exact ex11_q_part | ].
  exists ("0" ++ nl ++ "30" ++ nl ++ "60" ++ nl)%string, ["0"; "30"; "60"]%string. split; [ destruct dn; vm_compute; reflexivity | ]. split; [ has_lines_tac | ].
  constructor; [ exact (begins_whole "0" 0 0 (digit "0"%char eq_refl) ltac:(lia)) | ].
  constructor; [ exact (begins_whole "30" 1 30 word30 ltac:(lia)) | ].
  constructor; [ exact (begins_whole "60" 1 60 word60 ltac:(lia)) | constructor ].
Qed.
Definition ex11_rows : list (list R) := [[1; 2]; [3; 4]]%R.
Lemma ex11_table dn : parameter_table (ex11_fs dn) (ex11_cfg dn) IS_LO ex11_rows.
Proof.
  intros _. exists ("1 2" ++ nl ++ "3 4" ++ nl)%string, ["1 2"; "3 4"]%string, 2. split; [ destruct dn; vm_compute; reflexivity | ]. split; [ has_lines_tac | ].
  split; [ discriminate | ]. split; [ lia | ]. split; [ destruct dn; vm_compute; lia | ]. split.
  - constructor; [ | constructor; [ | constructor ] ].
    + exists ["1"; "2"]%string. split; [ reflexivity | ]. split; [ | reflexivity ].
      constructor; [ exact (InputProps.entry_whole "1" 0 1 (digit "1"%char eq_refl) ltac:(lia)) | ].
      constructor; [ exact (InputProps.entry_whole "2" 0 2 (digit "2"%char eq_refl) ltac:(lia)) | constructor ].
    + exists ["3"; "4"]%string. split; [ reflexivity | ]. split; [ | reflexivity ].
      constructor; [ exact (InputProps.entry_whole "3" 0 3 (digit "3"%char eq_refl) ltac:(lia)) | ].
      constructor; [ exact (InputProps.entry_whole "4" 0 4 (digit "4"%char eq_refl) ltac:(lia)) | constructor ].
  - repeat split; destruct dn; vm_compute; congruence.
Qed.
Lemma ex11_energies dn : energy_file (ex11_fs dn) (ex11_cfg dn) [1%R].
Proof.
  exists ("1" ++ nl)%string. split; [ exists "E"%string; destruct dn; vm_compute; reflexivity | ]. split; [ destruct dn; vm_compute; reflexivity | ].
  replace (fields ("1" ++ nl)) with ["1"%string] by (destruct dn; vm_compute; reflexivity).
  constructor; [ | constructor ]. exists 1%R. split; [ exact (InputProps.whole_text "1" 0 1 (digit "1"%char eq_refl)) | apply (InputProps.whole_nearest 1); lia ].
Qed.

Lemma ex11_numbers dn : cflag (ex11_cfg dn) F_isospin_breaking_1S0 = false /\ cflag (ex11_cfg dn) F_midpoint_approx = true /\ cint (ex11_cfg dn) F_J_2N_max = 1%Z /\ cint (ex11_cfg dn) F_two_J_3N_max = 1%Z /\
  cnat (ex11_cfg dn) F_Np_WP = 3 /\ cnat (ex11_cfg dn) F_Nq_WP = 2 /\ cnat (ex11_cfg dn) F_Np_per_WP = 8 /\ cnat (ex11_cfg dn) F_Nphi = 1 /\ cnat (ex11_cfg dn) F_Nx = 1 /\
  cnat (ex11_cfg dn) F_P123_omp_num_threads = 1 /\ cstr (ex11_cfg dn) F_P123_folder = "Output/run"%string.
Proof. destruct dn; vm_compute; repeat split. Qed.
Lemma ex11_walk dn : cflag (ex11_cfg dn) F_parallel_run = true /\ cint (ex11_cfg dn) F_channel_idx = 0%Z /\ walk_of (ex11_cfg dn) = mkwalk true 0 2 /\ cflag (ex11_cfg dn) F_parameter_walk = true /\
  fetch_potential_ptr (cstr (ex11_cfg dn) F_potential_model) = Some IS_LO /\ cstr (ex11_cfg dn) F_p_grid_type = "custom"%string.
Proof. destruct dn; vm_compute; repeat split. Qed.
(* ---- interaction: that of C91_example, moved to the mid-points of the grid ---- *)
Definition ex11_pot : potmodel := fun x y cpl S J T Tz => do l <- ex9_pot (x + 1 / 2)%R (y + 1 / 2)%R cpl S J T Tz; Ok (map (fun v => v / (x * y))%R l).
Definition ex11_vg : vgrid := packet_points true (fun n => repeat 0%R n) (fun n => repeat 2%R n) 3 8 ex11_p.
Lemma nth_scaled l c k : nth k (map (fun v => v / c)%R l) 0%R = (nth k l 0 / c)%R.
Proof. replace 0%R with ((fun v => v / c)%R 0%R) at 1 by (unfold Rdiv; ring). apply (map_nth (fun v : R => (v / c)%R)). Qed.
Lemma ex11_hermitian states : hermitian_model ex11_pot states.
Proof.
  intros s Tz x y cpl Hs. destruct (ex9_hermitian states s Tz (x + 1 / 2)%R (y + 1 / 2)%R cpl Hs) as (V & W & E1 & E2 & L1 & L2 & H & H3 & H4).
  unfold ex11_pot. rewrite E1, E2. cbn [obind]. exists (map (fun v => v / (x * y))%R V), (map (fun v => v / (y * x))%R W).
  split; [ reflexivity | ]. split; [ reflexivity | ]. rewrite !map_length. split; [ exact L1 | ]. split; [ exact L2 | ].
  rewrite (Rmult_comm y x), !nth_scaled, H3, H4. split; [ | split; reflexivity ]. intros k Hk K3 K4. rewrite !nth_scaled, H by assumption. reflexivity.
Qed.
Lemma ex11_potv s Tz x y k : potv ex11_pot s Tz x y k = (potv ex9_pot s Tz (x + 1 / 2) (y + 1 / 2) k / (x * y))%R.
Proof. unfold potv, six_of, ex11_pot. destruct (ex9_pot (x + 1 / 2)%R (y + 1 / 2)%R (negb (L_2N s =? J_2N s)%Z) (S_2N s) (J_2N s) (T_2N s) Tz); cbn [obind]; try (unfold Rdiv; ring). apply nth_scaled. Qed.
Lemma element_scaled V W c L L' S J : (forall k, V k = (W k / c)%R) -> element V L L' S J = (element W L L' S J / c)%R.
Proof. intros H. unfold element. rewrite !H. destruct (_ =? _)%Z; [ reflexivity | ]. destruct (_ =? _)%Z; [ destruct (_ =? _)%Z; [ reflexivity | ]; destruct (_ =? _)%Z; reflexivity | ]. destruct (_ <? _)%Z; unfold Rdiv; ring. Qed.
Lemma ex11_interaction r c x y : interaction (potv ex11_pot r (-1)) (potv ex11_pot r 0) r c x y
  = (interaction (potv ex9_pot r (-1)) (potv ex9_pot r 0) r c (x + 1 / 2) (y + 1 / 2) / (x * y))%R.
Proof. unfold interaction. rewrite !(element_scaled _ _ _ _ _ _ _ (ex11_potv r _ x y)). unfold Rdiv. ring. Qed.
Lemma sqrt_1' a b : (b - a = 1)%R -> sqrt (b - a) = 1%R. Proof. intros ->. apply sqrt_1. Qed.
Lemma ex11_grid : vgrid_ok true ex11_vg.
Proof. repeat split; try reflexivity; discriminate. Qed.
Lemma ex11_target r c i j : i < 3 -> j < 3 -> target true ex11_pot ex11_vg r c i j = target true ex9_pot ex9_vg r c i j.
Proof.
  intros Hi Hj. unfold target, packet, packet_midpoint. rewrite ex11_interaction. set (F := interaction (potv ex9_pot r (-1)) (potv ex9_pot r 0) r c).
  assert (N : forall k, k < 3 -> at_ (vg_norm ex11_vg) k = 1%R).
  { intros k Hk. unfold ex11_vg, at_. cbn [packet_points vg_norm seq map]. do 3 (destruct k as [|k]; [ cbn [nth]; apply sqrt_1'; unfold GridSpec.upper, GridSpec.lower, ex11_p; cbn; lra | ]); lia. }
  assert (P1 : forall k, k < 3 -> at_ (vg_p ex11_vg) k = (at_ (vg_p ex9_vg) k - 1 / 2)%R).
  { intros k Hk. unfold ex11_vg, ex9_vg, at_. cbn [packet_points vg_p seq map]. do 3 (destruct k as [|k]; [ unfold GridSpec.upper, GridSpec.lower, ex11_p; cbn; lra | ]); lia. }
  assert (P2 : forall k, k < 3 -> (1 <= at_ (vg_p ex9_vg) k)%R) by (intros k Hk; unfold ex9_vg, at_; do 3 (destruct k as [|k]; [ cbn; lra | ]); lia).
  assert (P3 : forall k, k < 3 -> (at_ (vg_f ex9_vg) k * at_ (vg_p ex9_vg) k = 1)%R) by (intros k Hk; unfold ex9_vg, at_; do 3 (destruct k as [|k]; [ cbn; lra | ]); lia).
  assert (P4 : forall k, k < 3 -> at_ (vg_norm ex9_vg) k = 1%R) by (intros k Hk; unfold ex9_vg, at_; do 3 (destruct k as [|k]; [ reflexivity | ]); lia).
  assert (P5 : forall k, k < 3 -> (at_ (vg_pWP ex9_vg) (k + 1) - at_ (vg_pWP ex9_vg) k = 1)%R) by (intros k Hk; unfold ex9_vg, at_; do 3 (destruct k as [|k]; [ cbn; lra | ]); lia).
  assert (P6 : forall k, k < 3 -> at_ (vg_f ex11_vg) k = 1%R) by (intros k Hk; unfold ex11_vg, at_; do 3 (destruct k as [|k]; [ reflexivity | ]); lia).
  change (vg_pWP ex11_vg) with (vg_pWP ex9_vg). rewrite !P5, ?P6, ?N, ?P4, !P1 by assumption.
  replace (at_ (vg_p ex9_vg) j - 1 / 2 + 1 / 2)%R with (at_ (vg_p ex9_vg) j) by lra. replace (at_ (vg_p ex9_vg) i - 1 / 2 + 1 / 2)%R with (at_ (vg_p ex9_vg) i) by lra.
  assert (A := P2 i Hi). assert (B := P2 j Hj). assert (A' := P3 i Hi). assert (B' := P3 j Hj).
  transitivity (F (at_ (vg_p ex9_vg) j) (at_ (vg_p ex9_vg) i)).
  - field. lra.
  - transitivity ((at_ (vg_f ex9_vg) i * at_ (vg_p ex9_vg) i) * (at_ (vg_f ex9_vg) j * at_ (vg_p ex9_vg) j) * F (at_ (vg_p ex9_vg) j) (at_ (vg_p ex9_vg) i))%R; [ rewrite A', B'; ring | field ].
Qed.
Lemma ex11_V ss V : construct_symmetric_pw_states_g 0 1 1 false = Ok ss ->
  fresh_potential ex9_mem false true 1 ex11_pot (0, 0)%R ex11_vg (ss_states ss) = Ok V -> V = SpectralProps.ex6_V.
Proof.
  intros Hss HV.
  destruct (potential_all 0 1 1 false true ss ex11_pot (0, 0)%R ex11_vg ltac:(lia) Hss (or_intror eq_refl) (ex11_hermitian _) ex11_grid
    (ex9_mem 0 (3 * 3 * Z.to_nat (num_2N_unco_states true false 1))) (ex9_mem 1 (3 * 3 * 4 * Z.to_nat (num_2N_coup_states true false 1))))
    as (V' & E & L & _ & T & _); [ apply repeat_length | apply repeat_length | ].
  assert (V' = V) as -> by (unfold fresh_potential in HV; change (vg_Np ex11_vg) with 3 in HV; congruence).
  apply (ex9_values V ss Hss L). intros r c i j Hr Hc Hs Hi Hj. change 3 with (vg_Np ex11_vg) at 1. rewrite (T r c i j Hr Hc Hs Hi Hj), ex11_target by assumption. reflexivity.
Qed.

(* ---- library and machine ---- *)
Definition ex11_lib (wt : R) : library := mklib (fun _ _ _ _ _ _ => 1%R) GeoProps.ex_ninej GeoProps.ex_threej GeoProps.ex_legblock GeoProps.ex_legsize
  (fun n => repeat 0%R n) (fun _ _ => 1%R) (fun n => repeat 0%R n) (fun n => repeat wt n) (fun _ _ => ex11_pot) (fun _ => []).
Definition ex11_machine (solve : solve_t) (getrf : getrf_t) (memory : strays) (round_re round_im : cdouble -> double) (print : R -> string) : machine :=
  mkmachine 8 0 (fun n => repeat 7%R n) (fun _ => ex10_env1 solve []) (fun _ l => map (fun e => (0, e)) l) (fun _ _ => ex10_env1 solve []) round_re round_im print (fun _ _ => getrf) (fun _ _ => memory) rc.
Lemma zeros_mesh n : mesh_in (-1) 1 (repeat 0%R n).
Proof. intros x Hx. apply repeat_spec in Hx. subst x. lra. Qed.
Lemma ex11_library wt : library_ok (ex11_lib wt) GeoProps.ex_sphP.
Proof.
  destruct GeoProps.C69_example as (R3 & R9 & RL & _). constructor; try assumption.
  - intros n. split; [ apply zeros_mesh | apply repeat_length ].
  - intros n. split; [ apply zeros_mesh | ]. split; apply repeat_length.
Qed.
Lemma ex11_bins : exists os, elastic_bins 2 ex11_q (t - 100) [1%R] = Ok os /\ length (os_T os) = 2.
Proof.
  destruct SwpWholeProps.ex_t_bounds as (B & _ & _). assert (HEb : (- (Mn + Mp) < t - 100)%R) by (unfold Mn, Mp; lra).
  assert (HR := ex9_ratio (t - 100) ltac:(lra)).
  destruct (proj1 (proj2 (OnShellPropsLemmas.bin_home 2 ex11_q (t - 100) [1%R] ltac:(lia) ex11_q_part HEb))) as (os & E & _).
  { intros i Hi. unfold GridSpec.lower, GridSpec.upper, ex11_q. destruct i as [|[|i]]; try lia; cbn [nth Nat.add]; lra. }
  exists os. split; [ exact E | ].
  (* 1 MeV lies between the mid-points of the two bins *)
  set (Eb := (t - 100)%R) in *. set (k1 := lab_energy_to_com_momentum 1 Eb).
  assert (K1 : (700 < k1 * k1 < 900)%R).
  { unfold k1, lab_energy_to_com_momentum. rewrite sqrt_sqrt.
    - unfold deuteron_mass, Eb.
      match goal with |- (700 < ?M * ?M * 1 * (1 + 2 * Mp) / ((Mp + ?M) * (Mp + ?M) + 2 * 1 * ?M) < 900)%R => set (D := M); assert (HD : (1777 < D < 1878)%R) by (subst D; unfold Mn, Mp; lra) end.
      unfold Mp. assert (P : (0 < (938272 / 1000 + D) * (938272 / 1000 + D) + 2 * 1 * D)%R) by nra.
      split; [ apply Rmult_lt_reg_r with ((938272 / 1000 + D) * (938272 / 1000 + D) + 2 * 1 * D)%R | apply Rmult_lt_reg_r with ((938272 / 1000 + D) * (938272 / 1000 + D) + 2 * 1 * D)%R ];
        try exact P; unfold Rdiv at 1; unfold Rdiv; rewrite ?(Rmult_assoc _ (/ _)), ?Rinv_l, ?Rmult_1_r by lra; nra.
    - unfold deuteron_mass, Eb. apply Rlt_le, Rdiv_lt_0_compat; unfold Mn, Mp; nra. }
  assert (K0 : (0 <= k1)%R) by apply sqrt_pos.
  destruct (GridPropsLemmas.kin_props Eb HEb) as (_ & _ & _ & Inc & _).
  assert (Hm : (OnShellProofs.mid ex11_q Eb 0%nat <= 1 <= OnShellProofs.mid ex11_q Eb 1%nat)%R).
  { unfold OnShellProofs.mid. set (k i := mid_momentum Eb (GridSpec.lower ex11_q i) (GridSpec.upper ex11_q i)).
    assert (T0 : forall i, lab_energy_to_com_momentum (mid_T_lab Eb (GridSpec.lower ex11_q i) (GridSpec.upper ex11_q i)) Eb = k i) by (intros; apply OnShellProofs.mid_T_k; exact HEb).
    assert (T1 : forall i, (0 <= mid_T_lab Eb (GridSpec.lower ex11_q i) (GridSpec.upper ex11_q i))%R) by (intros; apply OnShellProofs.mid_T_nonneg; exact HEb).
    assert (S0 : (k 0%nat * k 0%nat < 700)%R). { unfold k. rewrite OnShellProofs.mid_k_sq by exact HEb. unfold GridSpec.lower, GridSpec.upper, ex11_q. cbn [nth Nat.add]. lra. }
    assert (S1 : (900 < k 1%nat * k 1%nat)%R). { unfold k. rewrite OnShellProofs.mid_k_sq by exact HEb. unfold GridSpec.lower, GridSpec.upper, ex11_q. cbn [nth Nat.add]. lra. }
    assert (Z0 : (0 <= k 0%nat)%R) by apply sqrt_pos. assert (Z1 : (0 <= k 1%nat)%R) by apply sqrt_pos.
    split; apply Rnot_lt_le; intros X.
    - apply Inc in X; [ | lra ]. fold k1 in X. cbv beta in X. rewrite T0 in X. nra.
    - apply Inc in X; [ | apply T1 ]. fold k1 in X. cbv beta in X. rewrite T0 in X. nra. }
  rewrite (OnShellProofs.elastic_ok 2 ex11_q Eb [1%R] eq_refl ltac:(lia) HEb) in E.
  assert (Hsel : OnShellProofs.selected 2 ex11_q Eb [1%R] = [0; 1]).
  { unfold OnShellProofs.selected, OnShellProofs.bin_marked, OnShellProofs.pair_marked, OnShellProofs.between. cbn [seq Nat.sub filter existsb Nat.add].
    rewrite (proj2 (OnShellProofs.Rleb_true _ _) (proj1 Hm)), (proj2 (OnShellProofs.Rleb_true _ _) (proj2 Hm)). reflexivity. }
  rewrite Hsel in E. destruct (OnShellProofs.all_some _); [ | discriminate ]. injection E as <-. reflexivity.
Qed.
Lemma ex11_spectra ss V : construct_symmetric_pw_states_g 0 1 1 false = Ok ss -> fresh_potential ex9_mem false true 1 ex11_pot (0, 0)%R ex11_vg (ss_states ss) = Ok V ->
     solves SpectralProps.ex6_diag 3 (vg_pWP ex11_vg) V (num_channels false 1) /\
     forall cm i, is_channel false (ss_states ss) cm i -> let w := fst (spectrum SpectralProps.ex6_diag 3 (vg_pWP ex11_vg) V cm i) in
       increasing w /\ forall k, k < dim2 cm 3 -> nth k w 0%R <> 0%R /\ (- (Mn + Mp) < nth k w 0)%R.
Proof.
  intros Ess EV. destruct SwpWholeProps.ex_t_bounds as (B & _ & _). assert (HEb : (- (Mn + Mp) < t - 100)%R) by (unfold Mn, Mp; lra).
  rewrite (ex11_V ss V Ess EV). split; [ exact SpectralProps.ex6_solves | ]. intros cm i _ w.
  destruct (SpectralProps.ex6_spectra cm i) as (S1 & S2 & _). split; [ exact S1 | ]. intros k Hk. split; [ exact (S2 k Hk) | ].
  unfold w. destruct cm; cbn [fst snd spectrum SpectralProps.ex6_diag dim2 Nat.mul Nat.eqb Nat.add] in Hk |- *.
  - do 6 (destruct k as [|k]; [ cbn [nth]; unfold Mn, Mp in *; lra | ]). lia.
  - do 3 (destruct k as [|k]; [ cbn [nth]; unfold Mn, Mp in *; lra | ]). lia.
Qed.
Lemma ex11_building dn wt solve : building_ok (ex11_lib wt) (ex11_cfg dn) 0 GeoProps.ex_states (ex10_env1 solve []) (fun l => map (fun e => (0, e)) l).
Proof.
  destruct (ex11_numbers dn) as (N1 & N2 & N3 & N4 & N5 & N6 & N7 & N8 & N9 & N10 & N11). destruct C91_whole_example as (ss & _ & _ & _ & _ & _ & _ & Hal).
  constructor; rewrite ?N1, ?N2, ?N3, ?N4, ?N5, ?N6, ?N7, ?N8, ?N9, ?N10, ?N11;
    cbn [ex10_env1 ex11_lib lb_legsize en_diag en_sort en_solve en_mem en_cmem en_pmem en_junk en_phi en_wphi en_tab en_geo en_G en_veqb en_srt en_folder en_B en_T en_buf en_fs en_evs].
  - split; [ reflexivity | ]. split; [ reflexivity | ]. split; [ reflexivity | ]. split; [ exact Hal | reflexivity ].
  - intros a b. unfold ex10_eqb. destruct (Req_EM_T a b); split; congruence.
  - exact PioPropsLemmas.isort_sorts.
  - split; [ lia | reflexivity ].
  - intros l. split; [ rewrite map_map; cbn [snd]; rewrite map_id; apply Permutation_refl | ]. intros ev Hi. apply in_map_iff in Hi. destruct Hi as (e & <- & _). cbn. lia.
  - cbv zeta. intros t0 k Ht Hk. assert (Ls : length GeoProps.ex_states = 10) by reflexivity. rewrite Ls in Hk. apply (ex10_names "Output/run"%string t0 k); [ left; reflexivity | lia | exact Hk ].
Qed.
Lemma ex11_spectra_ok dn solve ss : construct_symmetric_pw_states_g 0 1 1 false = Ok ss -> spectra_ok (ex11_cfg dn) ex11_vg ss ex11_pot (ex10_env1 solve []).
Proof.
  intros Ess. destruct (ex11_numbers dn) as (N1 & N2 & N3 & _). unfold spectra_ok. rewrite N1, N2, N3. cbn [ex10_env1 en_diag en_mem en_junk]. exact (fun V => ex11_spectra ss V Ess).
Qed.
Lemma ex11_solving dn solve ss : solve_contract solve -> construct_symmetric_pw_states_g 0 1 1 false = Ok ss -> solving_ok (ex11_cfg dn) ex11_vg ss ex11_pot (ex10_env1 solve []).
Proof.
  intros Hs Ess. constructor; [ exact isort_ok | exact Hs | | | | exact (ex11_spectra_ok dn solve ss Ess) ]; intros k n; apply repeat_length.
Qed.
Lemma ex11_iterating dn solve getrf f fb ss : getrf_contract getrf -> construct_symmetric_pw_states_g 0 1 1 false = Ok ss ->
  iterating_ok (ex11_cfg dn) ex11_vg ss ex11_pot (ex10_env1 solve []) getrf (Some f, Some fb).
Proof.
  intros Hs Ess. constructor; [ exact isort_ok | exact Hs | eauto | | | | exact (ex11_spectra_ok dn solve ss Ess) ]; intros k n; apply repeat_length.
Qed.
Lemma ex11_no_stop dn solve ss : construct_symmetric_pw_states_g 0 1 1 false = Ok ss ->
  (forall cm i, is_channel false (ss_states ss) cm i -> bound_states_ok (is_deuteron_channel false (ss_states ss) cm i) (fst (spectrum SpectralProps.ex6_diag 3 (vg_pWP ex11_vg) SpectralProps.ex6_V cm i))) ->
  (forall Eb, bound_energy false (ss_states ss) (fun cm i => fst (spectrum SpectralProps.ex6_diag 3 (vg_pWP ex11_vg) SpectralProps.ex6_V cm i)) Eb -> Eb = (t - 100)%R) ->
  ~ set_stops (ex11_cfg dn) ex11_vg ex11_q ss ex11_pot (ex10_env1 solve []) [1%R].
Proof.
  intros Ess HB HE HS. destruct (ex11_numbers dn) as (N1 & N2 & N3 & N4 & N5 & N6 & _). destruct ex11_bins as (os & Eos & Los).
  unfold set_stops in HS. rewrite N1, N2, N3, N6 in HS. destruct HS as (V & EV & HS). assert (V = SpectralProps.ex6_V) as -> by exact (ex11_V ss V Ess EV).
  destruct HS as [(cm & i & Hch & Hbad)|(Eb & HB' & Hel)].
  - exact (Hbad (HB cm i Hch)).
  - rewrite (HE Eb HB') in Hel. congruence.
Qed.

(* the hypotheses of C94 and C96 that have nothing to do with the solver *)
Definition ex11_hypotheses (dn : ex11_mode) (lb : library) (mc : machine) (ss : statespace) : Prop := let cfg := ex11_cfg dn in let fs := ex11_fs dn in
  library_ok lb GeoProps.ex_sphP /\ (forall n, length (mc_grid mc n) = n) /\
  set_run_parameters R stod fs (mc_omp mc) 1%R 100%R ex11_args = Ok cfg /\ settings_ok (direct dn) (breakup dn) cfg /\ fetch_potential_ptr (cstr cfg F_potential_model) = Some IS_LO /\
  boundaries_of fs (cstr cfg F_p_grid_type) (cstr cfg F_p_grid_filename) (cnat cfg F_Np_WP) (vdbl (cfg F_chebyshev_s)) (vdbl (cfg F_chebyshev_t)) ex11_p /\
  boundaries_of fs (cstr cfg F_q_grid_type) (cstr cfg F_q_grid_filename) (cnat cfg F_Nq_WP) (vdbl (cfg F_chebyshev_s)) (vdbl (cfg F_chebyshev_t)) ex11_q /\
  (cstr cfg F_q_grid_type = "custom"%string -> cstr cfg F_p_grid_type = "custom"%string) /\
  parameter_table fs cfg IS_LO ex11_rows /\ energy_file fs cfg [1%R] /\
  construct_symmetric_pw_states_g (mc_g mc) (cint cfg F_J_2N_max) (cint cfg F_two_J_3N_max) (cflag cfg F_isospin_breaking_1S0) = Ok ss /\
  (forall c states, In c (channels_of cfg ss) -> channel_slice ss (Z.of_nat c) = Ok states ->
     (Z.of_nat (length states * cnat cfg F_Nq_WP * cnat cfg F_Np_WP) <= 2 ^ 28)%Z /\ building_ok lb cfg (Z.of_nat c) states (mc_penv mc c) (mc_sched mc c)) /\
  (forall psi, hermitian_model (lb_interaction lb IS_LO (parameters_of lb cfg IS_LO ex11_rows psi)) (ss_states ss)) /\
  packet_points (cflag cfg F_midpoint_approx) (lb_gx lb) (lb_gw lb) (cnat cfg F_Np_WP) (cnat cfg F_Np_per_WP) ex11_p = ex11_vg /\
  tasks (walk_of cfg) (channels_of cfg ss) = [(0, 0%Z); (0, 1%Z)] /\ parameters_of lb cfg IS_LO ex11_rows 1 = [3; 4]%R.
Lemma ex11_all dn wt solve getrf memory round_re round_im print : exists ss, construct_symmetric_pw_states_g 0 1 1 false = Ok ss /\
  ex11_hypotheses dn (ex11_lib wt) (ex11_machine solve getrf memory round_re round_im print) ss /\
  ~ set_stops (ex11_cfg dn) ex11_vg ex11_q ss ex11_pot (ex10_env1 solve []) [1%R] /\
  exists states, channel_slice ss 0 = Ok states /\ length states = 10 /\ is_deuteron (nth 4 states dummy_pw).
Proof.
  destruct ex9_tables as (ss & states & Ess & Esl & Ls & Lc & Hd & H4). exists ss. split; [ exact Ess | ].
  destruct (ex11_numbers dn) as (N1 & N2 & N3 & N4 & N5 & N6 & N7 & N8 & N9 & N10 & N11). destruct (ex11_walk dn) as (W1 & W2 & W3 & W4 & W5 & W6).
  assert (C0 : channels_of (ex11_cfg dn) ss = [0]) by (unfold channels_of; rewrite Lc, W1, W2; reflexivity).
  assert (Est : GeoProps.ex_states = states).
  { destruct C91_whole_example as (ss' & E1 & E2 & _). assert (ss' = ss) as -> by congruence. congruence. }
  split; [ | split ].
  - unfold ex11_hypotheses. cbv zeta. split; [ exact (ex11_library wt) | ]. split; [ intros n; apply repeat_length | ]. split; [ exact (ex11_run dn) | ]. split; [ exact (ex11_settings dn) | ].
    split; [ exact W5 | ]. split; [ exact (ex11_bp dn) | ]. split; [ exact (ex11_bq dn) | ]. split; [ intros _; exact W6 | ]. split; [ exact (ex11_table dn) | ]. split; [ exact (ex11_energies dn) | ].
    split; [ rewrite N1, N3, N4; exact Ess | ]. split.
    { rewrite C0. intros c st [<-|[]] Hst. change (Z.of_nat 0) with 0%Z in *. assert (st = states) as -> by congruence. rewrite N5, N6, Ls. split; [ vm_compute; discriminate | ].
      rewrite <- Est. exact (ex11_building dn wt solve). }
    split; [ intros psi; apply ex11_hermitian | ]. split; [ rewrite N2, N5, N7; reflexivity | ]. split; [ rewrite C0, W3; reflexivity | ].
    unfold parameters_of. rewrite W4. reflexivity.
  - apply ex11_no_stop; [ exact Ess | intros cm i Hch; exact (ex9_bound ss cm i Ess Hd Hch) | intros Eb HB; exact (ex9_Eb ss Eb Hd HB) ].
  - exists states. split; [ exact Esl | ]. split; [ exact Ls | ]. rewrite H4. repeat split; cbn; lia.
Qed.
Lemma two_files {T} (good : T -> string * string -> Prop) stops todo run : length todo = 2 -> (forall t, In t todo -> ~ stops t) -> one_file_each good stops todo run ->
  snd run = Ok tt /\ length (fst run) = 2 /\ Forall2 good todo (fst run).
Proof.
  intros L H [[E F]|(_ & n & t0 & Hn & Hs & _)].
  - split; [ exact E | ]. split; [ | exact F ]. rewrite <- L. clear -F. induction F; [ reflexivity | ]. cbn [length]. rewrite IHF. reflexivity.
  - destruct (H t0 (nth_error_In _ _ Hn) Hs).
Qed.

(* Non-vacuity of C94_program: every hypothesis holds for this run; it succeeds and writes one file for each of the two
   parameter sets of channel 0, with two on-shell energies each. *)
Example C94_example getrf memory round_re round_im print : exists solve ss os, let mc := ex11_machine solve getrf memory round_re round_im print in let lb := ex11_lib 2 in
  ex11_hypotheses Direct lb mc ss /\ (forall c psi, solving_ok (ex11_cfg Direct) ex11_vg ss (lb_interaction lb IS_LO (parameters_of lb (ex11_cfg Direct) IS_LO ex11_rows psi)) (mc_env mc c psi)) /\
  snd (main_program lb mc (ex11_fs Direct) ex11_args) = Ok tt /\ length (fst (main_program lb mc (ex11_fs Direct) ex11_args)) = 2 /\
  elastic_bins 2 ex11_q (t - 100) [1%R] = Ok os /\ length (os_T os) = 2.
Proof.
  destruct DetExists.solve_exists as (solve & Hsolve). destruct (ex11_all Direct 2 solve getrf memory round_re round_im print) as (ss & Ess & H & Hns & _).
  destruct ex11_bins as (os & Eos & Los). exists solve, ss, os. cbv zeta.
  assert (S : forall c psi, solving_ok (ex11_cfg Direct) ex11_vg ss (lb_interaction (ex11_lib 2) IS_LO (parameters_of (ex11_lib 2) (ex11_cfg Direct) IS_LO ex11_rows psi)) (mc_env (ex11_machine solve getrf memory round_re round_im print) c psi))
    by (intros c psi; exact (ex11_solving Direct solve ss Hsolve Ess)).
  split; [ exact H | ]. split; [ exact S | ].
  destruct H as (A1 & A2 & A3 & A4 & A5 & A6 & A7 & A8 & A9 & A10 & A11 & A12 & A13 & Vg & C1 & _).
  assert (T := C94_program (ex11_lib 2) GeoProps.ex_sphP (ex11_machine solve getrf memory round_re round_im print) (ex11_fs Direct) ex11_args (ex11_cfg Direct) IS_LO ss ex11_p ex11_q ex11_rows [1%R] A1 A2 A3 A4 A5 A6 A7 A8 A9 A10 A11).
  cbv zeta in T. rewrite Vg in T.
  destruct (two_files _ _ _ _ (f_equal (@length (nat * Z)) C1) (fun t _ HS => Hns HS) (T
    (fun c st Hc Hs => conj (Z.le_lt_trans _ (2 ^ 28) (2 ^ 31) (proj1 (A12 c st Hc Hs)) eq_refl) (proj2 (A12 c st Hc Hs))) (fun c psi _ => conj (A13 psi) (S c psi)))) as (E & L & _).
  auto.
Qed.

(* ... and of C96: the same run with the default solver, whatever it finds before its arrays; and where reading that cell is
   undefined, the run is undefined. *)
Example C96_example round_re round_im print : exists solve getrf ss os, let lb := ex11_lib 2 in let fs := ex11_fs Default in
  let mc memory := ex11_machine solve getrf memory round_re round_im print in
  (forall f fb, ex11_hypotheses Default lb (mc (Some f, Some fb)) ss /\
    (forall c psi, iterating_ok (ex11_cfg Default) ex11_vg ss (lb_interaction lb IS_LO (parameters_of lb (ex11_cfg Default) IS_LO ex11_rows psi)) (mc_env (mc (Some f, Some fb)) c psi)
       (mc_getrf (mc (Some f, Some fb)) c psi) (mc_strays (mc (Some f, Some fb)) c psi)) /\
    snd (main_program lb (mc (Some f, Some fb)) fs ex11_args) = Ok tt /\ length (fst (main_program lb (mc (Some f, Some fb)) fs ex11_args)) = 2) /\
  elastic_bins 2 ex11_q (t - 100) [1%R] = Ok os /\ length (os_T os) = 2 /\
  forall sb, ex11_hypotheses Default lb (mc (None, sb)) ss /\ snd (main_program lb (mc (None, sb)) fs ex11_args) <> Ok tt.
Proof.
  destruct DetExists.solve_exists as (solve & Hsolve). destruct DetExists.getrf_exists as (getrf & Hgetrf). destruct ex11_bins as (os & Eos & Los).
  destruct (ex11_all Default 2 solve getrf (None, None) round_re round_im print) as (ss & Ess & _). exists solve, getrf, ss, os. cbv zeta.
  assert (S : forall memory f fb c psi, iterating_ok (ex11_cfg Default) ex11_vg ss (lb_interaction (ex11_lib 2) IS_LO (parameters_of (ex11_lib 2) (ex11_cfg Default) IS_LO ex11_rows psi))
     (mc_env (ex11_machine solve getrf memory round_re round_im print) c psi) getrf (Some f, Some fb)) by (intros memory f fb c psi; exact (ex11_iterating Default solve getrf f fb ss Hgetrf Ess)).
  split; [ | split; [ exact Eos | split; [ exact Los | ] ] ].
  - intros f fb. destruct (ex11_all Default 2 solve getrf (Some f, Some fb) round_re round_im print) as (ss' & Ess' & H & Hns & _). assert (ss' = ss) as -> by congruence.
    split; [ exact H | ]. split; [ exact (S _ f fb) | ].
    destruct H as (A1 & A2 & A3 & A4 & A5 & A6 & A7 & A8 & A9 & A10 & A11 & A12 & A13 & Vg & C1 & _).
    assert (T := C96_partial (ex11_lib 2) GeoProps.ex_sphP _ (ex11_fs Default) ex11_args (ex11_cfg Default) IS_LO ss ex11_p ex11_q ex11_rows [1%R] A1 A2 A3 A4 A5 A6 A7 A8 A9 A10 A11 A12).
    cbv zeta in T. rewrite Vg in T.
    destruct (two_files _ _ _ _ (f_equal (@length (nat * Z)) C1) (fun t _ HS => Hns HS) (T (fun c psi _ => conj (A13 psi) (S _ f fb c psi)))) as (E & L & _). auto.
  - intros sb. destruct (ex11_all Default 2 solve getrf (None, sb) round_re round_im print) as (ss' & Ess' & H & Hns & states & Esl & Ls & H4). assert (ss' = ss) as -> by congruence.
    split; [ exact H | ]. intros X.
    destruct H as (A1 & A2 & A3 & A4 & A5 & A6 & A7 & A8 & A9 & A10 & A11 & A12 & A13 & Vg & C1 & _).
    assert (T := C96_refuted (ex11_lib 2) GeoProps.ex_sphP _ (ex11_fs Default) ex11_args (ex11_cfg Default) IS_LO ss ex11_p ex11_q ex11_rows [1%R] A1 A2 A3 A4 A5 A6 A7 A8 A9 A10 A11 A12).
    cbv zeta in T. rewrite Vg, C1 in T.
    destruct (T (fun c psi _ => conj (A13 psi) (conj (ex_intro _ _ (S _ (fun _ => c0) (fun _ => c0) c psi)) eq_refl)) X 0 0%Z (or_introl eq_refl)) as (st & Eb & os' & ds & P & HF & HN).
    unfold channel_facts in HF. cbv zeta in HF. destruct (ex11_numbers Default) as (N1 & N2 & N3 & N4 & N5 & N6 & _). rewrite N1, N2, N3, N6 in HF.
    destruct HF as (F1 & _ & _ & (V & EV & _ & HB) & F5 & _ & _ & _ & _ & _ & F11 & _). change (Z.of_nat 0) with 0%Z in F1. assert (st = states) as -> by congruence.
    destruct HN as [->|HN].
    + destruct (proj2 (F11 4)). split; [ lia | exact H4 ].
    + assert (V = SpectralProps.ex6_V) as -> by exact (ex11_V ss V Ess EV).
      destruct ex9_tables as (ss' & states' & Ess'' & _ & _ & _ & Hd & _). assert (ss' = ss) as -> by congruence.
      assert (Eb = (t - 100)%R) as -> by exact (ex9_Eb ss Eb Hd HB). assert (os' = os) as -> by congruence. rewrite HN in Los. discriminate Los.
Qed.
