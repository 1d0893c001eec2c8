(* Small specification for the files that document a run (C82, C84, C85). *)
From Coq Require Import String Ascii Reals.
From Verif Require Import Common ParamsModel TextModel TextSpec.
Open Scope string_scope.
Open Scope list_scope.

(* what follows the label in the first line that begins with it *)
Fixpoint after (label s : string) : option string :=
  match label, s with
  | EmptyString, _ => Some s
  | String a l, String b r => if Ascii.eqb a b then after l r else None
  | _, EmptyString => None
  end.
Fixpoint entry (label : string) (ls : list string) : option string :=
  match ls with
  | [] => None
  | l :: r => match after label l with Some v => Some v | None => entry label r end
  end.
(* a field that is the number n, resp. shows the number x with p digits after the first one *)
Definition shows (p : nat) (f : option string) (x : double) : Prop :=
  exists s v, f = Some s /\ read_real s = Some v /\ rounded_to p (value x) v.
Definition index_field (n : nat) : option string := Some (NameModel.to_string (Z.of_nat n)).

(* run_parameters.txt: the label of each setting (two settings are not written) *)
Definition label (f : field) : option string :=
  match f with
  | F_two_J_3N_max => Some "two_J_3N_max" | F_Np_WP => Some "Np_WP" | F_Nq_WP => Some "Nq_WP" | F_J_2N_max => Some "J_2N_max"
  | F_Nphi => Some "Nphi" | F_Nx => Some "Nx" | F_Np_per_WP => Some "Np_per_WP" | F_Nq_per_WP => Some "Nq_per_WP"
  | F_channel_idx => Some "Channel index" | F_P123_omp_num_threads => Some "P123 omp number of threads"
  | F_chebyshev_t => Some "chebyshev sparseness" | F_chebyshev_s => Some "chebyshev scale"
  | F_parallel_run => Some "Parallel run" | F_P123_recovery => Some "P123-recovery mode on" | F_tensor_force => Some "Tensor-force on"
  | F_isospin_breaking_1S0 => Some "Isospin-breaking in 1S0" | F_midpoint_approx => Some "Mid-point approximation"
  | F_calculate_and_store_P123 => Some "Calculate P123 and store" | F_include_breakup_channels => Some "Calculate breakup amplitudes"
  | F_solve_faddeev => Some "Solve Faddeev equation" | F_solve_dense => Some "Solve Faddeev with LAPACK"
  | F_production_run => Some "Production run" | F_parameter_walk => Some "Parameter walk"
  | F_PSI_start => Some "Parameter set index (PSI) start" | F_PSI_end => Some "Parameter set index (PSI) end"
  | F_potential_model => Some "Potential model" | F_p_grid_type => Some "p-momentum grid type" | F_p_grid_filename => Some "p-momentum grid input file"
  | F_q_grid_type => Some "q-momentum grid type" | F_q_grid_filename => Some "q-momentum grid input file"
  | F_parameter_file => Some "Parameter input file" | F_energy_input_file => Some "Energy input file" | F_P123_folder => Some "P123-matrix read/write folder"
  | F_subfolder | F_output_folder => None
  end.
Fixpoint spaces (n : nat) : string := match n with O => EmptyString | S n => String " " (spaces n) end.
Definition padded (l : string) : string := (l ++ ":" ++ spaces (32 - String.length l))%string.
(* the text of a setting: numbers in decimal, real ones to three decimals *)
Definition text_of (v : pval double) (s : string) : Prop :=
  match v with
  | VInt _ z => s = NameModel.to_string z
  | VBool _ b => s = if b then "true" else "false"
  | VStr _ t => s = t
  | VDbl _ d => finite d -> exists v, read_real s = Some v /\ to_decimals 3 (value d) v
  end.
(* each member holds a value of its C++ type; strings have no line break, real numbers are finite *)
Definition kind_val (k : kind) (v : pval double) : Prop :=
  match k, v with KInt, VInt _ _ => True | KDbl, VDbl _ d => finite d | KBool, VBool _ _ => True | KStr, VStr _ s => one_line s | _, _ => False end.
Definition kind_of (f : field) : kind :=
  match f with
  | F_two_J_3N_max | F_Np_WP | F_Nq_WP | F_J_2N_max | F_Nphi | F_Nx | F_Np_per_WP | F_Nq_per_WP | F_channel_idx | F_P123_omp_num_threads
  | F_PSI_start | F_PSI_end => KInt
  | F_chebyshev_t | F_chebyshev_s => KDbl
  | F_parallel_run | F_P123_recovery | F_tensor_force | F_isospin_breaking_1S0 | F_midpoint_approx | F_calculate_and_store_P123
  | F_include_breakup_channels | F_solve_faddeev | F_solve_dense | F_production_run | F_parameter_walk => KBool
  | _ => KStr
  end.
Definition settings (c : config double) : Prop := forall f, kind_val (kind_of f) (c f).
