(* Option processing: set_run_parameters.cpp. *)
From Coq Require Import String Ascii.
From Verif Require Import Common.
Open Scope string_scope.
Open Scope Z_scope.

(* run_params, type_defs.h l.87-123: one constructor per member. *)
Inductive field : Set :=
| F_two_J_3N_max | F_Np_WP | F_Nq_WP | F_J_2N_max | F_Nphi | F_Nx | F_Np_per_WP | F_Nq_per_WP
| F_channel_idx | F_P123_omp_num_threads | F_chebyshev_t | F_chebyshev_s
| F_parallel_run | F_P123_recovery | F_tensor_force | F_isospin_breaking_1S0 | F_midpoint_approx
| F_calculate_and_store_P123 | F_include_breakup_channels | F_solve_faddeev | F_solve_dense
| F_production_run | F_parameter_walk | F_PSI_start | F_PSI_end
| F_potential_model | F_subfolder | F_p_grid_type | F_p_grid_filename | F_q_grid_type | F_q_grid_filename
| F_parameter_file | F_energy_input_file | F_output_folder | F_P123_folder.

Scheme Equality for field.

Inductive kind : Set := KInt | KDbl | KBool | KStr.

(* The if/else-if chain of read_and_set_parameter, l.80-242, in order: option name, how the value is read,
   the struct member written. *)
Definition chain : list (string * (kind * field)) :=
  [ ("two_J_3N_max", (KInt, F_two_J_3N_max));
    ("Np_WP", (KInt, F_Np_WP));
    ("Nq_WP", (KInt, F_Nq_WP));
    ("J_2N_max", (KInt, F_J_2N_max));
    ("Nphi", (KInt, F_Nphi));
    ("Nx", (KInt, F_Nx));
    ("chebyshev_t", (KDbl, F_chebyshev_t));
    ("chebyshev_s", (KDbl, F_chebyshev_s));
    ("Np_per_WP", (KInt, F_Np_per_WP));
    ("Nq_per_WP", (KInt, F_Nq_per_WP));
    ("P123_omp_num_threads", (KInt, F_P123_omp_num_threads));
    ("PSI_start", (KInt, F_PSI_start));
    ("PSI_end", (KInt, F_PSI_end));
    ("channel_idx", (KInt, F_channel_idx));
    ("parallel_run", (KBool, F_parallel_run));
    ("P123_recovery", (KBool, F_P123_recovery));
    ("tensor_force", (KBool, F_tensor_force));
    ("isospin_breaking_1S0", (KBool, F_isospin_breaking_1S0));
    ("midpoint_approx", (KBool, F_midpoint_approx));
    ("calculate_and_store_P123", (KBool, F_calculate_and_store_P123));
    ("include_breakup_channels", (KBool, F_include_breakup_channels));
    ("solve_faddeev", (KBool, F_solve_faddeev));
    ("solve_dense", (KBool, F_solve_dense));
    ("production_run", (KBool, F_production_run));
    ("parameter_walk", (KBool, F_parameter_walk));
    ("potential_model", (KStr, F_potential_model));
    ("subfolder", (KStr, F_subfolder));
    ("p_grid_type", (KStr, F_p_grid_type));
    ("p_grid_filename", (KStr, F_p_grid_filename));
    ("q_grid_type", (KStr, F_q_grid_type));
    ("q_grid_filename", (KStr, F_q_grid_filename));
    ("parameter_file", (KStr, F_parameter_file));
    ("energy_input_file", (KStr, F_energy_input_file));
    ("output_folder", (KStr, F_output_folder));
    ("P123_folder", (KStr, F_P123_folder)) ].

Fixpoint find_chain (c : list (string * (kind * field))) (o : string) : option (kind * field) :=
  match c with
  | [] => None
  | (n, kf) :: r => if String.eqb o n then Some kf else find_chain r o
  end.

(* ::isspace in the C locale. *)
Definition isspace (c : ascii) : bool :=
  let n := nat_of_ascii c in ((9 <=? n) && (n <=? 13) || (n =? 32))%nat.
Definition isdigit (c : ascii) : bool := let n := nat_of_ascii c in ((48 <=? n) && (n <=? 57))%nat.
Definition digit_val (c : ascii) : Z := Z.of_nat (nat_of_ascii c) - 48.

Fixpoint skip_ws (s : string) : string :=
  match s with
  | String c r => if isspace c then skip_ws r else s
  | EmptyString => EmptyString
  end.

(* the digits strtol consumes: (number of digits, accumulated value) *)
Fixpoint read_digits (s : string) (acc : Z) (n : nat) : nat * Z :=
  match s with
  | String c r => if isdigit c then read_digits r (10 * acc + digit_val c) (S n) else (n, acc)
  | EmptyString => (n, acc)
  end.

Definition INT_MIN : Z := - 2 ^ 31.
Definition INT_MAX : Z := 2 ^ 31 - 1.

(* std::stoi(str) = strtol base 10 with checks: leading white space skipped, optional sign, at least one digit
   else std::invalid_argument, out of int range std::out_of_range; what follows the digits is ignored. *)
Definition stoi (s : string) : outcome Z :=
  let s1 := skip_ws s in
  let '(neg, s2) := match s1 with
                    | String "-"%char r => (true, r)
                    | String "+"%char r => (false, r)
                    | _ => (false, s1)
                    end in
  let '(n, v) := read_digits s2 0 0 in
  if (n =? 0)%nat then Exc else
  let v := if neg then - v else v in
  if (v <? INT_MIN) || (INT_MAX <? v) then Exc else Ok v.

Section Params.
(* double values and std::stod: any type, any partial reading function (None = it throws). *)
Variable dbl : Type.
Variable stod : string -> option dbl.

Inductive pval : Type := VInt (z : Z) | VDbl (d : dbl) | VBool (b : bool) | VStr (s : string).

Definition config := field -> pval.
Definition upd (c : config) (f : field) (v : pval) : config :=
  fun f' => if field_beq f f' then v else c f'.

(* The value an accepted option assigns. stoi/stod throw -> Exc; a bad boolean -> raise_error. *)
Definition convert (k : kind) (input : string) : outcome pval :=
  match k with
  | KInt => do z <- stoi input; Ok (VInt z)
  | KDbl => match stod input with Some d => Ok (VDbl d) | None => Exc end
  | KBool => if String.eqb input "true" || String.eqb input "false"
             then Ok (VBool (String.eqb input "true")) else Err
  | KStr => Ok (VStr input)
  end.

(* read_and_set_parameter l.76-245: new configuration and valid_option_found. *)
Definition read_and_set_parameter (c : config) (option input : string) : outcome (config * bool) :=
  match find_chain chain option with
  | Some (k, f) => do v <- convert k input; Ok (upd c f v, true)
  | None => Ok (c, false)
  end.

(* s.find('=') splits at the first '=': s.substr(0,pos) and s.substr(pos+1,-1). *)
Fixpoint split_eq (s : string) : option (string * string) :=
  match s with
  | EmptyString => None
  | String c r => if Ascii.eqb c "="%char then Some (EmptyString, r)
                  else match split_eq r with
                       | Some (a, b) => Some (String c a, b)
                       | None => None
                       end
  end.

Fixpoint all_blank (s : string) : bool :=     (* find_first_not_of(" ") == npos *)
  match s with
  | EmptyString => true
  | String c r => Ascii.eqb c " "%char && all_blank r
  end.

Fixpoint remove_ws (s : string) : string :=   (* erase(remove_if(isspace)) *)
  match s with
  | EmptyString => EmptyString
  | String c r => if isspace c then remove_ws r else String c (remove_ws r)
  end.

(* Lines delivered by std::getline: split at newline; a final piece without newline counts if not empty. *)
Fixpoint getlines_acc (s : string) (cur : string) : list string :=
  match s with
  | EmptyString => match cur with EmptyString => [] | _ => [cur] end
  | String c r => if Ascii.eqb c (ascii_of_nat 10) then cur :: getlines_acc r EmptyString
                  else getlines_acc r (cur ++ String c EmptyString)
  end.
Definition getlines (s : string) : list string := getlines_acc s EmptyString.

(* One line of an input file, l.258-278. *)
Definition do_line (r : outcome config) (line : string) : outcome config :=
  do c <- r;
  match split_eq line with
  | None => Ok c
  | Some (o, v) => if all_blank v then Ok c
                   else do p <- read_and_set_parameter c o (remove_ws v); Ok (fst p)
  end.

(* read_input_list_and_set_parameters l.247-280 (use_input_list only adds messages).
   The file system maps a name to the file's contents; a file that cannot be opened yields no lines. *)
Definition file_system := string -> option string.
Definition use_input_list (fs : file_system) (c : config) (filename : string) : outcome config :=
  match fs filename with
  | None => Ok c
  | Some content => fold_left do_line (getlines content) (Ok c)
  end.

(* arg.substr(arg_size-4): size_t underflow for fewer than four characters -> pos > size -> std::out_of_range. *)
Definition last4 (arg : string) : outcome string :=
  if (String.length arg <? 4)%nat then Exc
  else Ok (substring (String.length arg - 4) 4 arg).

(* Loop body l.630-665. *)
Definition do_arg (fs : file_system) (argc : Z) (r : outcome config) (arg : string) : outcome config :=
  do c <- r;
  if String.eqb arg "-h" || String.eqb arg "--help" then
    (if argc =? 2 then Err else Ok c)
  else
    do ext <- last4 arg;
    if String.eqb ext ".txt" then use_input_list fs c arg
    else match split_eq arg with
         | Some (o, v) => if String.eqb v "" then Ok c
                          else do p <- read_and_set_parameter c o v; Ok (fst p)
         | None => Ok c
         end.

(* The last checks l.668-682. *)
Definition vint (v : pval) : Z := match v with VInt z => z | _ => 0 end.
Definition vbool (v : pval) : bool := match v with VBool b => b | _ => false end.

Definition final_checks (c : config) : outcome config :=
  if vbool (c F_parallel_run) && (vint (c F_channel_idx) =? -1) then Err else
  let c := if (vint (c F_P123_omp_num_threads) >? vint (c F_Nq_WP))
           then upd c F_P123_omp_num_threads (c F_Nq_WP) else c in
  if (Z.rem (vint (c F_two_J_3N_max)) 2 =? 0) || (vint (c F_two_J_3N_max) <=? 0) then Err else Ok c.

(* set_default_values l.577-615; [omp] is omp_get_max_threads(), d1/d100 the doubles 1 and 100. *)
Definition defaults (omp : Z) (d1 d100 : dbl) : config := fun f =>
  match f with
  | F_two_J_3N_max => VInt 1 | F_Np_WP => VInt 50 | F_Nq_WP => VInt 50 | F_J_2N_max => VInt 3
  | F_Nphi => VInt 48 | F_Nx => VInt 48 | F_Np_per_WP => VInt 8 | F_Nq_per_WP => VInt 8
  | F_channel_idx => VInt (-1) | F_P123_omp_num_threads => VInt omp
  | F_chebyshev_t => VDbl d1 | F_chebyshev_s => VDbl d100
  | F_parallel_run => VBool false | F_P123_recovery => VBool false | F_tensor_force => VBool true
  | F_isospin_breaking_1S0 => VBool true | F_midpoint_approx => VBool false
  | F_calculate_and_store_P123 => VBool true | F_include_breakup_channels => VBool false
  | F_solve_faddeev => VBool true | F_solve_dense => VBool false
  | F_production_run => VBool true | F_parameter_walk => VBool false
  | F_PSI_start => VInt (-1) | F_PSI_end => VInt (-1)
  | F_potential_model => VStr "LO_internal" | F_subfolder => VStr "Output"
  | F_p_grid_type => VStr "chebyshev" | F_p_grid_filename => VStr ""
  | F_q_grid_type => VStr "chebyshev" | F_q_grid_filename => VStr ""
  | F_parameter_file => VStr "none" | F_energy_input_file => VStr "lab_energies.txt"
  | F_output_folder => VStr "Output" | F_P123_folder => VStr "Output"
  end.

(* set_run_parameters l.617-695. [args] are argv[1..]; argc = 1 + their number. The printout and
   store_run_parameters (disk_io_routines.cpp) do not change the configuration and are not modelled. *)
Definition do_args (fs : file_system) (argc : Z) (args : list string) (c : config) : outcome config :=
  fold_left (do_arg fs argc) args (Ok c).

Definition set_run_parameters (fs : file_system) (omp : Z) (d1 d100 : dbl) (args : list string)
  : outcome config :=
  do c <- do_args fs (1 + Z.of_nat (length args)) args (defaults omp d1 d100);
  final_checks c.
End Params.
