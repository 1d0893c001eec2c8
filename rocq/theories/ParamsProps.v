(* Property theorems about option handling (C01-C06). [dbl]/[stod] (double values and their reader), the file
   system [fs] and omp_get_max_threads() are arbitrary throughout. *)
From Coq Require Import String Ascii.
From Verif Require Import Common ParamsModel ParamsSpec ParamsProofs ParamsProofs2 ParamsText ParamsAccept.
Open Scope string_scope.
Open Scope Z_scope.

(* C01: every command line. [c0] is the configuration the assignments alone determine; the only later adjustment
   caps the thread count by Nq_WP. *)
Theorem C01_last_assignment_wins (dbl : Type) stod fs omp d1 d100 args c :
  set_run_parameters dbl stod fs omp d1 d100 args = Ok c ->
  exists c0,
  (forall f, match last_value (member_name f) (flat_map (arg_assignments fs) args) with
             | Some v => reads_as dbl stod (member_kind f) v (c0 f)
             | None => reads_default dbl omp d1 d100 f (c0 f)
             end) /\
  (forall f, f <> F_P123_omp_num_threads -> c f = c0 f) /\
  (exists n q, c0 F_P123_omp_num_threads = VInt dbl n /\ c0 F_Nq_WP = VInt dbl q /\
               c F_P123_omp_num_threads = VInt dbl (Z.min n q)).
Proof. exact (run_last_wins' dbl stod fs omp d1 d100 args c). Qed.
Print Assumptions C01_last_assignment_wins.
Example C01_example :
  let fs := fun n => if String.eqb n "in.txt" then Some (unlines ["Np_WP=7"; "comment"; "Nq_WP= 1 2"]) else None in
  exists c, set_run_parameters unit (fun _ => Some tt) fs 64 tt tt ["Np_WP=5"; "in.txt"; "Np_WP=9"; "foo=bar"] = Ok c /\
    c F_Np_WP = VInt unit 9 /\ c F_Nq_WP = VInt unit 12 /\ c F_P123_omp_num_threads = VInt unit 12 /\
    c F_J_2N_max = VInt unit 3.
Proof. eexists; vm_compute; repeat split; reflexivity. Qed.

(* The words the specification uses, in terms of plain characters. *)
Theorem C01_vocabulary :
  (forall c, isdigit c = true <->
     exists n, (n < 10)%nat /\ String.get n "0123456789" = Some c /\ digit_val c = Z.of_nat n) /\
  (forall c, isspace c = true <-> In (nat_of_ascii c) [9; 10; 11; 12; 13; 32]%nat) /\
  (forall s, remove_ws s = string_of_list_ascii (filter (fun c => negb (isspace c)) (list_ascii_of_string s))) /\
  (forall s, all_blank s = true <-> (forall c, has_char c s -> c = " "%char)) /\
  (forall s, split_eq s = None <-> ~ has_char "="%char s) /\
  (forall s k v, split_eq s = Some (k, v) <-> s = k ++ "=" ++ v /\ ~ has_char "="%char k).
Proof. exact (conj digits_are (conj spaces_are (conj strip_is (conj blank_is (conj split_none split_some))))). Qed.
Print Assumptions C01_vocabulary.

(* The README names 30 as the default of Np_WP; a run without arguments uses 50. *)
Theorem C01_readme_default_differs (dbl : Type) stod fs omp d1 d100 :
  exists c, set_run_parameters dbl stod fs omp d1 d100 [] = Ok c /\ c F_Np_WP = VInt dbl 50.
Proof.
  unfold set_run_parameters, do_args, final_checks. cbn [fold_left obind]. cbv zeta.
  change (vint dbl (defaults dbl omp d1 d100 F_P123_omp_num_threads)) with omp.
  destruct (omp >? vint dbl (defaults dbl omp d1 d100 F_Nq_WP)); eexists; split; reflexivity.
Qed.
Print Assumptions C01_readme_default_differs.

(* C02 *)
Theorem C02_lines ls l :
  (forall x, In x ls -> ~ has_char newline x) ->
  getlines (unlines ls) = ls /\
  (~ has_char newline l -> l <> "" -> getlines (unlines ls ++ l) = (ls ++ [l])%list).
Proof. exact (fun H => conj (getlines_unlines ls H) (getlines_unlines_last ls l H)). Qed.
Print Assumptions C02_lines.

Theorem C02_partial (dbl : Type) stod fs argc c name content :
  fs name = Some content ->
  (forall k v, In (k, v) (assignments (getlines content)) ->
     v <> "" /\ ~ ends_in_txt (arg_of (k, v)) /\ (documented k \/ (4 <= String.length (arg_of (k, v)))%nat)) ->
  use_input_list dbl stod fs c name = do_args dbl stod fs argc (map arg_of (assignments (getlines content))) c.
Proof. exact (file_means_args dbl stod fs argc c name content). Qed.
Print Assumptions C02_partial.
Example C02_example : assignments (getlines (unlines ["Np_WP = 7"; "no assignment"; "Nq_WP= 1 2"; "Nx=  "]))
  = [("Np_WP ", "7"); ("Nq_WP", "12")].
Proof. vm_compute. reflexivity. Qed.

Theorem C02_missing_file (dbl : Type) stod fs c name :
  fs name = None -> use_input_list dbl stod fs c name = Ok c.
Proof. exact (file_missing dbl stod fs c name). Qed.
Print Assumptions C02_missing_file.

(* Without the side conditions: a value consisting of a tab is blank but does change the configuration. *)
Theorem C02_refuted (dbl : Type) (stod : string -> option dbl) :
  let tab := String (ascii_of_nat 9) "" in
  let fs := fun _ : string => Some (unlines ["output_folder=" ++ tab]) in
  forall c, exists c', use_input_list dbl stod fs c "in.txt" = Ok c' /\ c' F_output_folder = VStr dbl "".
Proof. intros tab fs c. eexists. split; vm_compute; reflexivity. Qed.
Print Assumptions C02_refuted.

(* C03 *)
Theorem C03_partial (dbl : Type) stod c k v :
  ~ documented k ->
  read_and_set_parameter dbl stod c k v = Ok (c, false) /\
  (forall line, split_eq line = Some (k, v) -> do_line dbl stod (Ok c) line = Ok c) /\
  (forall fs argc, ~ has_char "="%char k -> ~ ends_in_txt (arg_of (k, v)) ->
     (4 <= String.length (arg_of (k, v)))%nat -> do_arg dbl stod fs argc (Ok c) (arg_of (k, v)) = Ok c).
Proof.
  exact (fun H => conj (ParamsProofs2.unknown_rasp dbl stod c k v H)
         (conj (fun line E => unknown_line dbl stod c line k v E H)
               (fun fs argc Hk Ht Hl => unknown_arg dbl stod fs argc c k v Hk H Ht Hl))).
Qed.
Print Assumptions C03_partial.
Example C03_example : ~ documented "Np_WP " /\ ~ documented "np_wp".
Proof. split; apply chain_none; vm_compute; reflexivity. Qed.

Theorem C03_blank (dbl : Type) stod fs argc c k :
  (~ has_char "="%char k -> (4 <= String.length (arg_of (k, "")))%nat ->
     do_arg dbl stod fs argc (Ok c) (arg_of (k, "")) = Ok c) /\
  (forall line v, split_eq line = Some (k, v) -> all_blank v = true -> do_line dbl stod (Ok c) line = Ok c).
Proof.
  exact (conj (blank_arg dbl stod fs argc c k) (fun line v => blank_line dbl stod c line k v)).
Qed.
Print Assumptions C03_blank.

(* On the command line an unknown one-letter option aborts the program. *)
Theorem C03_refuted (dbl : Type) stod fs argc c :
  ~ documented "a" /\ do_arg dbl stod fs argc (Ok c) (arg_of ("a", "1")) = Exc.
Proof.
  exact (conj (proj1 (chain_none "a") eq_refl)
              (short_arg_crash dbl stod fs argc c "a=1" (le_n 4) ltac:(discriminate))).
Qed.
Print Assumptions C03_refuted.

(* C04 *)
Theorem C04_legal_configuration (dbl : Type) stod fs omp d1 d100 args c :
  set_run_parameters dbl stod fs omp d1 d100 args = Ok c ->
  exists tJ nthr nq ch par,
    c F_two_J_3N_max = VInt dbl tJ /\ Z.Odd tJ /\ 0 < tJ /\
    c F_P123_omp_num_threads = VInt dbl nthr /\ c F_Nq_WP = VInt dbl nq /\ nthr <= nq /\
    c F_parallel_run = VBool dbl par /\ c F_channel_idx = VInt dbl ch /\ (par = true -> ch <> -1).
Proof. exact (run_legal dbl stod fs omp d1 d100 args c). Qed.
Print Assumptions C04_legal_configuration.
Example C04_example :
  (exists c, set_run_parameters unit (fun _ => None) (fun _ => None) 8 tt tt
      ["two_J_3N_max=5"; "parallel_run=true"; "channel_idx=2"] = Ok c /\ c F_two_J_3N_max = VInt unit 5) /\
  set_run_parameters unit (fun _ => None) (fun _ => None) 8 tt tt ["two_J_3N_max=4"] = Err /\
  set_run_parameters unit (fun _ => None) (fun _ => None) 8 tt tt ["parallel_run=true"] = Err.
Proof. split; [ eexists; split; vm_compute; reflexivity | split; vm_compute; reflexivity ]. Qed.

(* C05: what an integer option accepts. Full statement would have t = "" in the second clause. *)
Theorem C05_partial (dbl : Type) stod (c : config dbl) f v :
  member_kind f = KInt ->
  (forall z, integer_text v z -> in_int z ->
     exists c', read_and_set_parameter dbl stod c (member_name f) v = Ok (c', true) /\ c' f = VInt dbl z) /\
  (forall r, read_and_set_parameter dbl stod c (member_name f) v = Ok r ->
     exists w i t z, v = w ++ i ++ t /\ all_space w /\ integer_text i z /\ ~ starts_with_digit t /\
       in_int z /\ fst r f = VInt dbl z) /\
  ((exists c', read_and_set_parameter dbl stod c (member_name f) v = Ok (c', true)) \/
   read_and_set_parameter dbl stod c (member_name f) v = Exc).
Proof. exact (int_option dbl stod c f v). Qed.
Print Assumptions C05_partial.
Example C05_example : integer_text "-12" (-12) /\ in_int (-12).
Proof. split; [ apply (IT_minus "12"); [ repeat split | discriminate ] | vm_compute; split; discriminate ]. Qed.

Theorem C05_refuted (dbl : Type) stod c :
  exists c', read_and_set_parameter dbl stod c "Np_WP" "3.5" = Ok (c', true) /\ c' F_Np_WP = VInt dbl 3.
Proof. eexists. split; vm_compute; reflexivity. Qed.
Print Assumptions C05_refuted.

(* C63: a value that does not denote a value of the option's kind is refused: the run stops, it is never skipped. *)
Theorem C63_bad_values_refused (dbl : Type) stod (c : config dbl) f v :
  ((exists x c', reads_as dbl stod (member_kind f) v x /\
      read_and_set_parameter dbl stod c (member_name f) v = Ok (c', true) /\ c' f = x /\
      forall g, g <> f -> c' g = c g) \/
   ((forall x, ~ reads_as dbl stod (member_kind f) v x) /\
    read_and_set_parameter dbl stod c (member_name f) v = match member_kind f with KBool => Err | _ => Exc end)).
Proof. exact (rasp_total dbl stod c f v). Qed.
Print Assumptions C63_bad_values_refused.
Theorem C63_booleans (dbl : Type) stod v x :
  reads_as dbl stod KBool v x <-> (v = "true" /\ x = VBool dbl true) \/ (v = "false" /\ x = VBool dbl false).
Proof. exact (bool_reads dbl stod v x). Qed.
Print Assumptions C63_booleans.
Example C63_example : (forall x, ~ reads_as unit (fun _ => Some tt) KBool "True" x) /\
  reads_as unit (fun _ => Some tt) KInt " +7.5" (VInt unit 7).
Proof.
  split; [ intros x H; apply bool_reads in H; destruct H as [[H _]|[H _]]; discriminate
         | apply convert_reads; reflexivity ].
Qed.

(* C06 *)
Theorem C06_partial (dbl : Type) stod fs argc c :
  (forall f v x, v <> "" -> ~ ends_in_txt (arg_of (member_name f, v)) -> reads_as dbl stod (member_kind f) v x ->
     exists c', do_arg dbl stod fs argc (Ok c) (arg_of (member_name f, v)) = Ok c' /\ c' f = x /\
                forall g, g <> f -> c' g = c g) /\
  (forall a, split_eq a = None -> ~ ends_in_txt a -> (4 <= String.length a)%nat -> a <> "--help" ->
     do_arg dbl stod fs argc (Ok c) a = Ok c).
Proof. exact (conj (documented_arg' dbl stod fs argc c) (noneq_arg dbl stod fs argc c)). Qed.
Print Assumptions C06_partial.
Example C06_example : ~ ends_in_txt (arg_of (member_name F_potential_model, "nijmegen")) /\
  reads_as unit (fun _ => None) KStr "nijmegen" (VStr unit "nijmegen").
Proof. split; [ intros H; apply last4_txt in H; vm_compute in H; discriminate | constructor ]. Qed.

(* An energy_input_file given on the command line with its usual extension is silently ignored... *)
Theorem C06_refuted (dbl : Type) stod fs argc c :
  fs (arg_of (member_name F_energy_input_file, "my_energies.txt")) = None ->
  do_arg dbl stod fs argc (Ok c) (arg_of (member_name F_energy_input_file, "my_energies.txt")) = Ok c.
Proof.
  exact (txt_arg_swallowed dbl stod fs argc c F_energy_input_file "my_energies.txt"
           (ex_intro _ "energy_input_file=my_energies" eq_refl)).
Qed.
Print Assumptions C06_refuted.
(* ... and every argument of fewer than four characters other than -h aborts the program. *)
Theorem C06_refuted_crash (dbl : Type) stod fs argc c a :
  (String.length a < 4)%nat -> a <> "-h" -> do_arg dbl stod fs argc (Ok c) a = Exc.
Proof. exact (short_arg_crash dbl stod fs argc c a). Qed.
Print Assumptions C06_refuted_crash.

(* C64: a command line of readable assignments is accepted exactly when the parameters it determines are legal. *)
Theorem C64_accepts_legal (dbl : Type) stod fs omp d1 d100 args :
  (forall a, In a args -> a <> "-h" /\ a <> "--help" /\ (4 <= String.length a)%nat) ->
  (forall k v f, In (k, v) (flat_map (arg_assignments fs) args) -> member_name f = k ->
     exists x, reads_as dbl stod (member_kind f) v x) ->
  exists c0,
  (forall f, match last_value (member_name f) (flat_map (arg_assignments fs) args) with
             | Some v => reads_as dbl stod (member_kind f) v (c0 f)
             | None => reads_default dbl omp d1 d100 f (c0 f)
             end) /\
  (legal dbl c0 -> exists c, set_run_parameters dbl stod fs omp d1 d100 args = Ok c) /\
  (~ legal dbl c0 -> set_run_parameters dbl stod fs omp d1 d100 args = Err).
Proof. exact (run_accepts dbl stod fs omp d1 d100 args). Qed.
Print Assumptions C64_accepts_legal.
Example C64_example : exists c,
  set_run_parameters unit (fun _ => None) (fun _ => None) 8 tt tt ["Np_WP=12"; "whatever"; "two_J_3N_max=7"; "a_b="] = Ok c.
Proof. eexists; vm_compute; reflexivity. Qed.

(* C65: the help flags. *)
Theorem C65_help (dbl : Type) stod fs omp d1 d100 :
  (set_run_parameters dbl stod fs omp d1 d100 ["-h"] = Err /\
   set_run_parameters dbl stod fs omp d1 d100 ["--help"] = Err) /\
  (forall args, length args <> 1%nat ->
     set_run_parameters dbl stod fs omp d1 d100 args =
     set_run_parameters dbl stod fs omp d1 d100
       (filter (fun a => if string_dec a "-h" then false else if string_dec a "--help" then false else true) args)).
Proof.
  split; [ exact (conj (help_only dbl stod fs omp d1 d100 "-h" eq_refl) (help_only dbl stod fs omp d1 d100 "--help" eq_refl)) | ].
  intros args Hn. rewrite (help_inert dbl stod fs omp d1 d100 args Hn). f_equal. apply filter_ext. intros a.
  unfold is_help. destruct (string_dec a "-h"); [ reflexivity | ]. destruct (string_dec a "--help"); reflexivity.
Qed.
Print Assumptions C65_help.
Example C65_example : exists c,
  set_run_parameters unit (fun _ => None) (fun _ => None) 8 tt tt ["-h"; "Np_WP=12"] = Ok c /\ c F_Np_WP = VInt unit 12.
Proof. eexists; split; vm_compute; reflexivity. Qed.
