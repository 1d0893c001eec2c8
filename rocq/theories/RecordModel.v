(* Files that document a run: q_kinematics_Nq_<Nq>.txt, q_boundaries_Nq_<Nq>.csv, run_parameters.txt. *)
From Coq Require Import String Ascii Reals.
From Verif Require Import Common ArrayLib NameModel SwpModel GridModel ParamsModel TextModel.
Open Scope string_scope.
Open Scope list_scope.
Open Scope nat_scope.

(* ---------- store_swp_kinematics, make_swp_states.cpp l.185-218: the numbers, over R ---------- *)
Record kinematics := mkkin { k_q : list R; k_E : list R; k_T : list R; k_qmid : list R; k_Emid : list R; k_Tmid : list R }.
(* l.204-206: energy of the middle of a bin *)
Definition mid_E (Eb ql qu : R) : R :=
  let Eq_lower := (0.5 * (ql * ql) / kin_mu1 Eb)%R in
  let Eq_upper := (0.5 * (qu * qu) / kin_mu1 Eb)%R in
  (0.5 * (Eq_upper + Eq_lower))%R.
Definition swp_kinematics (Nq : nat) (q : list R) (Eb : R) (junk : nat -> list R) : outcome kinematics :=
  (* l.191-196 *)
  do '(E, T) <- ofold (fun '(E, T) i =>
       do qi <- aread q i;
       do E <- awrite E i (com_q_momentum_to_com_energy qi);
       do T <- awrite T i (com_momentum_to_lab_energy qi Eb);
       Ok (E, T)) (seq 0 (Nq + 1)) (junk (Nq + 1), junk (Nq + 1));
  (* l.197-209 *)
  do '(qm, Em, Tm) <- ofold (fun '(qm, Em, Tm) i =>
       do ql <- aread q i; do qu <- aread q (i + 1);
       let E_com := mid_E Eb ql qu in
       do qm <- awrite qm i (com_energy_to_com_q_momentum E_com);
       do Em <- awrite Em i E_com;
       do qi <- aread qm i;
       do Tm <- awrite Tm i (com_momentum_to_lab_energy qi Eb);
       Ok (qm, Em, Tm)) (seq 0 Nq) (junk Nq, junk Nq, junk Nq);
  Ok (mkkin q E T qm Em Tm).

(* ---------- store_q_WP_kinematics_txt, disk_io_routines.cpp l.231-312: the text ---------- *)
Definition kin_comments : list string :=
  [ "# First table of numbers are bin boundaries. ";
    "# Second table of numbers are bin mid-points for energy WPs.";
    "# This means Ecm in the 2nd table is the mid-point of the corresponding Ecm boundaries.";
    "# "; "# BOUNDARIES: "; "# " ].
(* l.252-260 and l.287-290: setw(10+15-length) << " " << header *)
Definition kin_header : string :=
  ("# Index" ++ cat (map (fun h => setw (25 - String.length h) " " ++ h) ["q [MeV]"; "Ecm [MeV]"; "Tlab [MeV]"]))%string.
(* l.263-278 / l.293-308: the index is unsigned, so showpos does not affect it; width 7 = length of "q [MeV]" *)
Definition kin_line (i : nat) (q E T : double) : string :=
  (setw 7 (to_string (Z.of_nat i)) ++ cat (map (fun x => setw 10 " " ++ sci_pos 8 x) [q; E; T]))%string.
Definition kin_rows (n : nat) (q E T : list double) : outcome (list string) :=
  ofold (fun acc i => do a <- aread q i; do b <- aread E i; do c <- aread T i; Ok (acc ++ [kin_line i a b c])) (seq 0 n) [].
Definition kin_file (Nq : nat) (q E T qm Em Tm : list double) : outcome string :=
  do r1 <- kin_rows (Nq + 1) q E T;
  do r2 <- kin_rows Nq qm Em Tm;
  Ok (unlines (kin_comments ++ [kin_header] ++ r1 ++ ["# "; "# BIN MID-POINTS: "; "# "; kin_header] ++ r2 ++ [""])).

(* ---------- store_q_WP_boundaries_csv l.314-339: fixed, showpos, 8 decimals; std::endl adds an empty line ---------- *)
Definition csv_file (Nq : nat) (q : list double) : outcome string :=
  do ls <- ofold (fun acc i => do a <- aread q i; Ok (acc ++ [fixed_pos 8 a])) (seq 0 (Nq + 1)) [];
  Ok (unlines (ls ++ [""])).

(* ---------- run_parameters.txt: create_input_printout_string, set_run_parameters.cpp l.14-74 ---------- *)
(* type_to_string l.14-33; to_string_with_precision(x,3) is std::fixed with 3 decimals, no showpos *)
Definition type_to_string (v : pval double) : string :=
  match v with
  | VBool _ b => if b then "true" else "false"
  | VInt _ z => to_string z
  | VDbl _ d => fixed 3 d
  | VStr _ s => s
  end.
(* l.38-69 *)
Definition printout : list (string * field) :=
  [ ("two_J_3N_max:                    ", F_two_J_3N_max);
    ("Np_WP:                           ", F_Np_WP);
    ("Nq_WP:                           ", F_Nq_WP);
    ("J_2N_max:                        ", F_J_2N_max);
    ("Nphi:                            ", F_Nphi);
    ("Nx:                              ", F_Nx);
    ("chebyshev sparseness:            ", F_chebyshev_t);
    ("chebyshev scale:                 ", F_chebyshev_s);
    ("Np_per_WP:                       ", F_Np_per_WP);
    ("Nq_per_WP:                       ", F_Nq_per_WP);
    ("P123-recovery mode on:           ", F_P123_recovery);
    ("P123 omp number of threads:      ", F_P123_omp_num_threads);
    ("Tensor-force on:                 ", F_tensor_force);
    ("Isospin-breaking in 1S0:         ", F_isospin_breaking_1S0);
    ("Mid-point approximation:         ", F_midpoint_approx);
    ("Calculate P123 and store:        ", F_calculate_and_store_P123);
    ("Calculate breakup amplitudes:    ", F_include_breakup_channels);
    ("Solve Faddeev equation:          ", F_solve_faddeev);
    ("Solve Faddeev with LAPACK:       ", F_solve_dense);
    ("Production run:                  ", F_production_run);
    ("Potential model:                 ", F_potential_model);
    ("p-momentum grid type:            ", F_p_grid_type);
    ("p-momentum grid input file:      ", F_p_grid_filename);
    ("q-momentum grid type:            ", F_q_grid_type);
    ("q-momentum grid input file:      ", F_q_grid_filename);
    ("Parameter walk:                  ", F_parameter_walk);
    ("Parameter input file:            ", F_parameter_file);
    ("Parameter set index (PSI) start: ", F_PSI_start);
    ("Parameter set index (PSI) end:   ", F_PSI_end);
    ("Energy input file:               ", F_energy_input_file);
    ("P123-matrix read/write folder:   ", F_P123_folder);
    ("Parallel run:                    ", F_parallel_run) ].
(* l.70-72 *)
Definition channel_label : string := "Channel index:                   ".
Definition is_true (v : pval double) : bool := match v with VBool _ b => b | _ => false end.
Definition printout_of (c : config double) : list (string * field) :=
  printout ++ (if is_true (c F_parallel_run) then [(channel_label, F_channel_idx)] else []).
Definition create_input_printout_string (c : config double) : string :=
  unlines ("Running program for:" :: map (fun lf => (fst lf ++ type_to_string (c (snd lf)))%string) (printout_of c)).
(* store_run_parameters, disk_io_routines.cpp l.216-229: the file is rewritten with exactly this text *)
Definition run_parameters_file (c : config double) : string := create_input_printout_string c.
