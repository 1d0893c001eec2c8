(* Specification of option handling, independent of the code's chain of tests. *)
From Coq Require Import String Ascii.
From Verif Require Import Common ParamsModel.
Open Scope string_scope.
Open Scope Z_scope.

(* The documented option that is meant to control each run parameter (README / show_usage): same name. *)
Definition member_name (f : field) : string :=
  match f with
  | F_two_J_3N_max => "two_J_3N_max" | F_Np_WP => "Np_WP" | F_Nq_WP => "Nq_WP" | F_J_2N_max => "J_2N_max"
  | F_Nphi => "Nphi" | F_Nx => "Nx" | F_Np_per_WP => "Np_per_WP" | F_Nq_per_WP => "Nq_per_WP"
  | F_channel_idx => "channel_idx" | F_P123_omp_num_threads => "P123_omp_num_threads"
  | F_chebyshev_t => "chebyshev_t" | F_chebyshev_s => "chebyshev_s"
  | F_parallel_run => "parallel_run" | F_P123_recovery => "P123_recovery" | F_tensor_force => "tensor_force"
  | F_isospin_breaking_1S0 => "isospin_breaking_1S0" | F_midpoint_approx => "midpoint_approx"
  | F_calculate_and_store_P123 => "calculate_and_store_P123"
  | F_include_breakup_channels => "include_breakup_channels"
  | F_solve_faddeev => "solve_faddeev" | F_solve_dense => "solve_dense"
  | F_production_run => "production_run" | F_parameter_walk => "parameter_walk"
  | F_PSI_start => "PSI_start" | F_PSI_end => "PSI_end"
  | F_potential_model => "potential_model" | F_subfolder => "subfolder"
  | F_p_grid_type => "p_grid_type" | F_p_grid_filename => "p_grid_filename"
  | F_q_grid_type => "q_grid_type" | F_q_grid_filename => "q_grid_filename"
  | F_parameter_file => "parameter_file" | F_energy_input_file => "energy_input_file"
  | F_output_folder => "output_folder" | F_P123_folder => "P123_folder"
  end.

Definition member_kind (f : field) : kind :=
  match f with
  | F_chebyshev_t | F_chebyshev_s => KDbl
  | F_parallel_run | F_P123_recovery | F_tensor_force | F_isospin_breaking_1S0 | F_midpoint_approx
  | F_calculate_and_store_P123 | F_include_breakup_channels | F_solve_faddeev | F_solve_dense
  | F_production_run | F_parameter_walk => KBool
  | F_potential_model | F_subfolder | F_p_grid_type | F_p_grid_filename | F_q_grid_type | F_q_grid_filename
  | F_parameter_file | F_energy_input_file | F_output_folder | F_P123_folder => KStr
  | _ => KInt
  end.

Definition documented (o : string) : Prop := exists f, member_name f = o.

Fixpoint has_char (a : ascii) (s : string) : Prop :=
  match s with EmptyString => False | String c r => c = a \/ has_char a r end.

Definition ends_in_txt (s : string) : Prop := exists p, s = p ++ ".txt".

(* the argument "option=value" *)
Definition arg_of (kv : string * string) : string := fst kv ++ "=" ++ snd kv.

(* The value of the last assignment to [n]. *)
Fixpoint last_value (n : string) (kvs : list (string * string)) : option string :=
  match kvs with
  | [] => None
  | (k, v) :: r =>
      match last_value n r with
      | Some w => Some w
      | None => if string_dec k n then Some v else None
      end
  end.

Definition newline : ascii := ascii_of_nat 10.
(* A text file with these lines. *)
Definition unlines (ls : list string) : string :=
  fold_right (fun l r => l ++ String newline r) "" ls.

(* The assignments a file stands for: lines with '=' whose value is not blank, white space removed from the value. *)
Fixpoint assignments (ls : list string) : list (string * string) :=
  match ls with
  | [] => []
  | l :: r => match split_eq l with
              | Some (k, v) => if all_blank v then assignments r else (k, remove_ws v) :: assignments r
              | None => assignments r
              end
  end.

(* The assignments a command-line argument stands for: an argument ending in .txt names an input file,
   any other argument containing '=' is one assignment (none when the value is empty). *)
Definition arg_assignments (fs : file_system) (a : string) : list (string * string) :=
  if string_dec a "-h" then [] else if string_dec a "--help" then [] else
  if string_dec (substring (String.length a - 4) 4 a) ".txt"
  then match fs a with Some content => assignments (getlines content) | None => [] end
  else match split_eq a with
       | Some (k, v) => if string_dec v "" then [] else [(k, v)]
       | None => []
       end.

(* Decimal integer texts. *)
Fixpoint all_digits (s : string) : Prop :=
  match s with EmptyString => True | String c r => isdigit c = true /\ all_digits r end.
Fixpoint digits_value (s : string) (acc : Z) : Z :=
  match s with EmptyString => acc | String c r => digits_value r (10 * acc + digit_val c) end.
Inductive integer_text : string -> Z -> Prop :=
| IT_plain s : all_digits s -> s <> "" -> integer_text s (digits_value s 0)
| IT_plus s : all_digits s -> s <> "" -> integer_text (String "+"%char s) (digits_value s 0)
| IT_minus s : all_digits s -> s <> "" -> integer_text (String "-"%char s) (- digits_value s 0).
Definition starts_with_digit (s : string) : Prop :=
  match s with EmptyString => False | String c _ => isdigit c = true end.
Fixpoint all_space (s : string) : Prop :=
  match s with EmptyString => True | String c r => isspace c = true /\ all_space r end.

(* The int range (32 bits). *)
Definition in_int_range (z : Z) : Prop := - 2147483648 <= z <= 2147483647.

(* The value a text stands for, by the kind of the option. Integers: the number at the start of the text after white
   space (what std::stoi reads); doubles: what std::stod reads; booleans: exactly the two words; others verbatim. *)
Inductive reads_as (dbl : Type) (stod : string -> option dbl) : kind -> string -> pval dbl -> Prop :=
| RA_int w i t z : all_space w -> integer_text i z -> ~ starts_with_digit t -> in_int_range z ->
    reads_as dbl stod KInt (w ++ i ++ t) (VInt dbl z)
| RA_dbl v d : stod v = Some d -> reads_as dbl stod KDbl v (VDbl dbl d)
| RA_true : reads_as dbl stod KBool "true" (VBool dbl true)
| RA_false : reads_as dbl stod KBool "false" (VBool dbl false)
| RA_str v : reads_as dbl stod KStr v (VStr dbl v).

(* Defaults, by option name (set_default_values, l.577-615). *)
Definition default_text : list (string * string) :=
  [ ("two_J_3N_max", "1"); ("Np_WP", "50"); ("Nq_WP", "50"); ("J_2N_max", "3"); ("Nphi", "48"); ("Nx", "48");
    ("Np_per_WP", "8"); ("Nq_per_WP", "8"); ("channel_idx", "-1"); ("parallel_run", "false");
    ("potential_model", "LO_internal"); ("subfolder", "Output"); ("p_grid_type", "chebyshev"); ("p_grid_filename", "");
    ("q_grid_type", "chebyshev"); ("q_grid_filename", ""); ("parameter_walk", "false"); ("parameter_file", "none");
    ("PSI_start", "-1"); ("PSI_end", "-1"); ("P123_recovery", "false"); ("tensor_force", "true");
    ("isospin_breaking_1S0", "true"); ("midpoint_approx", "false"); ("calculate_and_store_P123", "true");
    ("include_breakup_channels", "false"); ("solve_faddeev", "true"); ("solve_dense", "false");
    ("production_run", "true"); ("energy_input_file", "lab_energies.txt"); ("output_folder", "Output");
    ("P123_folder", "Output") ].

(* [x] is the default of option [f]; [omp] is omp_get_max_threads(), d1 and d100 the doubles 1 and 100. *)
Definition reads_default (dbl : Type) (omp : Z) (d1 d100 : dbl) (f : field) (x : pval dbl) : Prop :=
  match f with
  | F_P123_omp_num_threads => x = VInt dbl omp
  | F_chebyshev_t => x = VDbl dbl d1
  | F_chebyshev_s => x = VDbl dbl d100
  | _ => exists v, In (member_name f, v) default_text /\ reads_as dbl (fun _ => None) (member_kind f) v x
  end.
