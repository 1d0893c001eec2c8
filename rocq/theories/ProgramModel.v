(* main.cpp l.82-500 as a whole, from the command line and the files on disk to the result files (C94-C97).  Every stage is the
   model of another file, called in the order and with the arguments of main.  What a run produces is the list of result files
   written, in order, and how it ended.
   Simplified: printing, and the files written besides the result files (run_parameters.txt: C84, kinematics: C82,
   boundaries: C85, permutation matrices: C78, C79), are left out; input files do not change during the run; the energy file is
   read at the start of a parameter set, not between two of its stages; an unknown potential's exit(-1) is [Exc].  The text below
   is the one for tensor_force = true, solve_faddeev = true, calculate_and_store_P123 = true, P123_recovery = false,
   production_run = true (the theorems assume these settings). *)
From Coq Require Import Reals String.
From Verif Require Import Common ArrayLib NameModel ParamsModel DriverModel InputModel PWModel PWSpec SwpModel GridModel PermModel PermWholeModel GeoModel PioModel
  PotentialModel KernelModel ResolventModel SwpWholeModel OnShellModel FaddeevModel DetModel DenseModel ChainModel ReproModel OutputModel TextModel FaddeevSpec.
Open Scope nat_scope.

(* mathematical routines, and the interactions: how the numbers of an interaction depend on its parameters *)
Record library := mklib {
  lb_sixj : Z -> Z -> Z -> Z -> Z -> Z -> R;
  lb_ninej : Z -> Z -> Z -> Z -> Z -> Z -> Z -> Z -> Z -> R;
  lb_threej : Z -> Z -> Z -> Z -> Z -> Z -> R;
  lb_legblock : Z -> R -> list R; lb_legsize : Z -> Z;     (* gsl_sf_legendre_array *)
  lb_roots : nat -> list R; lb_dleg : nat -> R -> R;       (* nodes of the angle mesh, derivative of the Legendre polynomial *)
  lb_gx : nat -> list R; lb_gw : nat -> list R;            (* gauss(x, w, n) *)
  lb_interaction : potential -> list R -> potmodel;        (* V of the potential_model classes, given the parameters in force *)
  lb_preset : potential -> list R }.                       (* the constants a model is constructed with *)
(* everything that is neither an input nor mathematics *)
Record machine := mkmachine {
  mc_omp : Z;                                   (* omp_get_max_threads() *)
  mc_g : Z;                                     (* garbage read by construct_symmetric_pw_states (C11) *)
  mc_grid : nat -> list R;                      (* new double[n] in make_fwp_statespace *)
  mc_penv : nat -> environment;                 (* while the permutation matrix of a channel is built *)
  mc_sched : nat -> list (elem R) -> list (nat * elem R);  (* schedule of a channel: which thread emits which element when *)
  mc_env : nat -> Z -> environment;             (* while a parameter set of a channel is worked on *)
  mc_re : cdouble -> double; mc_im : cdouble -> double; mc_Eb : R -> string;    (* rounding to double; printing of E_bound *)
  mc_getrf : nat -> Z -> getrf_t;               (* LAPACKE_zgetrf, for each channel and parameter set *)
  mc_strays : nat -> Z -> strays;               (* what the iterative solver finds in the cell before its arrays (C45) *)
  mc_pmom : R -> cdouble }.                     (* com_energy_to_com_p_momentum (not a number below zero) *)

(* ---------- files written so far, and how the program went on ---------- *)
Definition ran (A : Type) : Type := (list (string * string) * outcome A)%type.
Definition quiet {A} (x : outcome A) : ran A := ([], x).
Definition written (file : string * string) : ran unit := ([file], Ok tt).
Definition rbind {A B} (x : ran A) (k : A -> ran B) : ran B :=
  let '(out, r) := x in
  match r with Ok a => let '(out', b) := k a in (out ++ out', b) | Err => (out, Err) | Exc => (out, Exc) | UB => (out, UB) end.
Fixpoint rfold {A B} (f : A -> B -> ran A) (l : list B) (a : A) : ran A :=
  match l with [] => quiet (Ok a) | b :: l => rbind (f a b) (rfold f l) end.

Definition vstr (v : pval R) : string := match v with VStr _ s => s | _ => EmptyString end.
Definition vdbl (v : pval R) : R := match v with VDbl _ d => d | _ => 0%R end.
Definition cint (c : config R) (f : field) : Z := vint R (c f).
Definition cnat (c : config R) (f : field) : nat := Z.to_nat (vint R (c f)).
Definition cflag (c : config R) (f : field) : bool := vbool R (c f).
Definition cstr (c : config R) (f : field) : string := vstr (c f).

(* the members of run_params make_fwp_statespace uses *)
Definition grid_settings (c : config R) : grid_params :=
  {| gp_Np := cnat c F_Np_WP; gp_Nq := cnat c F_Nq_WP; gp_Np_per := cnat c F_Np_per_WP; gp_Nq_per := cnat c F_Nq_per_WP;
     gp_s := vdbl (c F_chebyshev_s); gp_t := vdbl (c F_chebyshev_t);
     gp_p_type := cstr c F_p_grid_type; gp_p_file := cstr c F_p_grid_filename;
     gp_q_type := cstr c F_q_grid_type; gp_q_file := cstr c F_q_grid_filename; gp_midpoint := cflag c F_midpoint_approx |}.
Definition vgrid_of (g : grid_params) (f : fwp) : vgrid :=
  mkvgrid (gp_Np g) (gp_Np_per g) (f_pWP f) (f_p f) (match f_wp f with Some w => w | None => [] end) (f_fp f) (f_np f).

(* l.203-224: fill_P123_arrays, make_permutation_matrix.cpp l.1297-1402 (calculation), l.737-905 (rows), l.957-1150 (merging) *)
Definition permutation_stage (lb : library) (cfg : config R) (f : fwp) (ss : statespace) (E : environment)
    (sched : list (elem R) -> list (nat * elem R)) (c : Z) : outcome (list (elem R)) :=
  let Np := cnat cfg F_Np_WP in let Nq := cnat cfg F_Nq_WP in let p := f_pWP f in let q := f_qWP f in
  let n := cnat cfg F_Nphi in let xs := lb_gx lb (cnat cfg F_Nx) in let wxs := lb_gw lb (cnat cfg F_Nx) in let roots := lb_roots lb n in
  do states <- channel_slice ss c;
  do '(phi, wphi, tab) <- calculate_WP_overlap roots (lb_dleg lb n) Np Nq p q xs (en_phi E, en_wphi E, en_tab E);
  do t <- geo_tables (lb_sixj lb) (lb_ninej lb) (lb_threej lb) (lb_legblock lb) (lb_legsize lb) states Np Nq (length roots) phi xs (en_geo E);
  do rows <- omap (fun qp => row_work (lb_legsize lb) states t roots Np Nq p q phi wphi xs wxs tab qp (en_G E qp)) (seq 0 Nq);
  do s0 <- aread states 0;
  do '(_, res) <- build R (en_veqb E)
      (fun t k => subarray_file_name (cstr cfg F_P123_folder) (two_J_3N s0) (P_3N s0) (Z.of_nat Np) (Z.of_nat Nq) (cint cfg F_J_2N_max) (Z.of_nat t) (Z.of_nat k))
      (mkspace R Np p Nq q states) (en_srt E) (Z.of_nat (length states * Nq * Np)) (en_B E) (cnat cfg F_P123_omp_num_threads) (en_buf E) (en_fs E) (sched (concat rows));
  Ok res.

(* l.255-441: one parameter set of one channel, up to the amplitudes.  solve_faddeev.cpp l.1544-1580: the iterative solver, or the
   direct one, which leaves the array of breakup amplitudes as it is *)
Definition solve_stage (lb : library) (mc : machine) (fs : file_system) (cfg : config R) (f : fwp) (ss : statespace) (m : potential)
    (c : nat) (psi : Z) (params : list R) (P : list (elem R)) : outcome chan_result :=
  let E := mc_env mc c psi in let bu := cflag cfg F_include_breakup_channels in
  do inputs <- read_input_energies fs (cstr cfg F_energy_input_file);
  do r <- channel_stages (en_diag E) (en_sort E) (en_mem E) (en_cmem E) (en_pmem E) bu (cflag cfg F_isospin_breaking_1S0) (cflag cfg F_midpoint_approx)
            (cint cfg F_J_2N_max) (cnat cfg F_Nq_WP) (f_qWP f) (lb_interaction lb m params) (en_junk E) (vgrid_of (grid_settings cfg) f) ss (Z.of_nat c) inputs P;
  if cflag cfg F_solve_dense then do U <- dense_solver (en_solve E) (cr_sys r) (cr_U r); Ok (with_amplitudes r U (cr_UBU r))
  else do '(U, UBU) <- pade_method_solve (determinant (mc_getrf mc c psi)) (mc_strays mc c psi) (cr_sys r) (cr_U r) (cr_UBU r); Ok (with_amplitudes r U UBU).
(* l.403-407, l.445-456: the elastic result file: name and contents *)
Definition elastic_result (mc : machine) (cfg : config R) (psi : Z) (Np Nq : nat) (r : chan_result) : outcome (string * string) :=
  let os := cr_os r in
  do '(t1, h, t2) <- store_U cdouble (cr_states r) (cr_ds r) (length (os_T os)) (cr_U r) (map rc (os_T os)) (map rc (os_E os)) (os_idx os);
  do s0 <- aread (cr_states r) 0;
  Ok (U_file_name (cstr cfg F_output_folder)
        (file_identification (Z.of_nat Np) (Z.of_nat Nq) (two_J_3N s0) (P_3N s0) (cint cfg F_J_2N_max)) psi,
      elastic_file cdouble (mc_re mc) (mc_im mc) (two_J_3N s0) (P_3N s0) (cstr cfg F_potential_model) (Z.of_nat Np) (Z.of_nat Nq)
        (mc_Eb mc (sw_Eb (cr_swp r))) t1 h t2).
(* l.458-473: the breakup result file *)
Definition breakup_result (mc : machine) (cfg : config R) (psi : Z) (Np Nq : nat) (q : list R) (r : chan_result) : outcome (string * string) :=
  let os := cr_os r in let sw := cr_swp r in
  do '(h, data, rows, cols) <- restructure_breakup_data cdouble (cr_states r) (cr_ds r) (fst (cr_bu r)) (snd (cr_bu r)) c0 (fun v => mc_pmom mc (fst v)) (cr_UBU r)
      (map rc (os_T os)) (map rc (os_E os)) (map rc (os_q os)) (os_idx os) (map rc q) (map rc (fst (sw_e sw))) (map rc (snd (sw_e sw)))
      true (cflag cfg F_isospin_breaking_1S0) Np (length (os_T os));
  do s0 <- aread (cr_states r) 0;
  if negb ((P_3N s0 =? 1) || (P_3N s0 =? -1))%Z then Err else
  do text <- breakup_file cdouble (mc_re mc) (mc_im mc) (two_J_3N s0) (P_3N s0) (cstr cfg F_potential_model) (Z.of_nat Np) (Z.of_nat Nq) (mc_Eb mc (sw_Eb sw)) h data rows cols;
  Ok (U_BU_file_name (cstr cfg F_output_folder)
        (file_identification (Z.of_nat Np) (Z.of_nat Nq) (two_J_3N s0) (P_3N s0) (cint cfg F_J_2N_max)) psi, text).
Definition set_stage (lb : library) (mc : machine) (fs : file_system) (cfg : config R) (f : fwp) (ss : statespace) (m : potential)
    (c : nat) (psi : Z) (params : list R) (P : list (elem R)) : ran unit :=
  let Np := cnat cfg F_Np_WP in let Nq := cnat cfg F_Nq_WP in
  rbind (quiet (solve_stage lb mc fs cfg f ss m c psi params P)) (fun r =>
  rbind (quiet (elastic_result mc cfg psi Np Nq r)) (fun file =>
  rbind (written file) (fun _ =>
  if cflag cfg F_include_breakup_channels then rbind (quiet (breakup_result mc cfg psi Np Nq (f_qWP f) r)) written else quiet (Ok tt)))).

(* l.165-485: the channels, and for each its permutation matrix and its parameter sets; the state is the parameters in force *)
Definition channel_work (lb : library) (mc : machine) (fs : file_system) (cfg : config R) (f : fwp) (ss : statespace) (m : potential)
    (w : walk) (v : list R) (nmp : Z) (cur : list R) (c : nat) : ran (list R) :=
  if cflag cfg F_parallel_run && negb (Z.of_nat c =? cint cfg F_channel_idx)%Z then quiet (Ok cur) else
  rbind (quiet (permutation_stage lb cfg f ss (mc_penv mc c) (mc_sched mc c) (Z.of_nat c))) (fun P =>
  rfold (fun cur psi =>
      rbind (quiet (if w_on w then update_parameters R m v (psi * nmp)%Z cur else Ok cur)) (fun cur =>
      rbind (set_stage lb mc fs cfg f ss m c psi cur P) (fun _ => quiet (Ok cur)))) (param_sets w) cur).
Definition program_files (fs : file_system) : string -> list string := fun name => match fs name with Some s => getlines s | None => [] end.
(* l.82-160: everything before the loop over the channels *)
Definition setup (lb : library) (mc : machine) (fs : file_system) (args : list string)
  : outcome (config R * potential * (list R * Z) * statespace * fwp) :=
  do cfg <- set_run_parameters R stod fs (mc_omp mc) 1%R 100%R args;                  (* l.97-98 *)
  match fetch_potential_ptr (cstr cfg F_potential_model) with
  | None => Exc
  | Some m =>
      do table <- (if cflag cfg F_parameter_walk then                                 (* l.120-136 *)
                     do '(v, nmp, num) <- read_parameters (fs (cstr cfg F_parameter_file));
                     do _ <- walk_check (cint cfg F_PSI_start) (cint cfg F_PSI_end) num; Ok (v, nmp)
                   else Ok ([], 0%Z));
      do ss <- construct_symmetric_pw_states_g (mc_g mc) (cint cfg F_J_2N_max) (cint cfg F_two_J_3N_max) (cflag cfg F_isospin_breaking_1S0);
      do f <- make_fwp (program_files fs) parse_line (lb_gx lb) (lb_gw lb) (mc_grid mc) (grid_settings cfg);
      Ok (cfg, m, table, ss, f)
  end.
Definition main_program (lb : library) (mc : machine) (fs : file_system) (args : list string) : ran unit :=
  rbind (quiet (setup lb mc fs args)) (fun '(cfg, m, (v, nmp), ss, f) =>
  rbind (rfold (channel_work lb mc fs cfg f ss m (mkwalk (cflag cfg F_parameter_walk) (cint cfg F_PSI_start) (cint cfg F_PSI_end)) v nmp)
           (seq 0 (Z.to_nat (ss_N_chn ss))) (lb_preset lb m)) (fun _ => quiet (Ok tt))).
