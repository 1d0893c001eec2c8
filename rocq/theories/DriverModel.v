(* The driver: main.cpp l.84-500 (control flow around the numerical routines), read_parameter_sample_list, file names,
   fetch_potential_ptr and update_parameters, exit status. *)
From Coq Require Import String Ascii.
From Verif Require Import Common ParamsModel NameModel.
Open Scope string_scope.
Open Scope Z_scope.
Open Scope list_scope.

(* ---------- read_parameter_sample_list, disk_io_routines.cpp l.43-78 ---------- *)
(* the pieces of a line between single blanks (find/substr/erase loop l.62-70): always at least one *)
Fixpoint pieces_acc (s cur : string) : list string :=
  match s with
  | EmptyString => [cur]
  | String c r => if Ascii.eqb c " "%char then cur :: pieces_acc r EmptyString else pieces_acc r (append cur (String c EmptyString))
  end.
Definition pieces (line : string) : list string := pieces_acc line EmptyString.

Section Driver.
Variable dbl : Type.
Variable stod : string -> option dbl.     (* None: throws *)

Definition read_numbers (l : list string) : outcome (list dbl) :=
  fold_left (fun r s => do v <- r; match stod s with Some d => Ok (v ++ [d]) | None => Exc end) l (Ok []).

(* returns parameter_vector, num_model_params, num_param_sets; a file that cannot be opened has no lines.
   No line: division by zero (num_model_params is 0, main.cpp l.128). *)
Definition read_parameter_sample_list (content : option string) : outcome (list dbl * Z * Z) :=
  match match content with Some s => getlines s | None => [] end with
  | [] => UB
  | first :: rest =>
      do v1 <- read_numbers (pieces first);
      do v <- fold_left (fun r line => do v <- r; do w <- read_numbers (pieces line); Ok (v ++ w)) rest (Ok v1);
      let n := Z.of_nat (length v1) in
      Ok (v, n, Z.of_nat (length v) / n)
  end.

(* ---------- potential_model.cpp l.18-58; update_parameters of the models ---------- *)
Inductive potential := LO_internal | IS_LO | IS_NLO | IS_N2LO | IS_N3LO | N2LOopt | Idaho_N3LO | MalflietTjon | Nijmegen.
Definition fetch_potential_ptr (name : string) : option potential :=       (* None: exit(-1) *)
  if String.eqb name "LO_internal" then Some LO_internal
  else if String.eqb name "IS_LO" then Some IS_LO
  else if String.eqb name "IS_NLO" then Some IS_NLO
  else if String.eqb name "IS_N2LO" then Some IS_N2LO
  else if String.eqb name "IS_N3LO" then Some IS_N3LO
  else if String.eqb name "N2LOopt" then Some N2LOopt
  else if String.eqb name "Idaho_N3LO" then Some Idaho_N3LO
  else if String.eqb name "malfliet_tjon" then Some MalflietTjon
  else if String.eqb name "nijmegen" then Some Nijmegen
  else None.
(* how many numbers update_parameters reads: nothing for chiral_LO_internal.cpp l.20, malfliet_tjon.cpp l.21, nijmegen.cpp l.11;
   chiral_twobody.cpp l.40-60; N2LOopt and Idaho_N3LO: the dimensions the Fortran routines
   chp_set_... of Interactions/chp/chp-set.f90 declare for parameter_array *)
Definition num_read (m : potential) : nat :=
  match m with
  | LO_internal | MalflietTjon | Nijmegen => 0
  | IS_LO => 2 | IS_NLO => 13 | IS_N2LO => 16 | IS_N3LO => 31 | N2LOopt => 15 | Idaho_N3LO => 35
  end%nat.

(* pot_ptr->update_parameters(&parameter_vector[k]): the parameters in force afterwards.
   &v[k] with k outside the vector, and every read outside it, is undefined. *)
Definition update_parameters (m : potential) (v : list dbl) (k : Z) (cur : list dbl) : outcome (list dbl) :=
  if (k <? 0) || (Z.of_nat (length v) <=? k) then UB else
  match num_read m with
  | O => Ok cur
  | n => if Z.of_nat (length v) <? k + Z.of_nat n then UB else Ok (firstn n (skipn (Z.to_nat k) v))
  end.

(* ---------- main ---------- *)
(* std::to_string pieces of file_identification, main.cpp l.403-407, and the two result files l.445-448, l.459-462 *)
Definition file_identification (Np Nq twoJ P J2max : Z) : string :=
  "_Np_" ++ to_string Np ++ "_Nq_" ++ to_string Nq ++ "_JP_" ++ to_string twoJ ++ "_" ++ to_string P ++ "_Jmax_" ++ to_string J2max.
Definition U_file_name (folder : string) (id : string) (psi : Z) : string :=
  folder ++ "/" ++ "U_PW_elements" ++ id ++ "_PSI_" ++ to_string psi ++ ".txt".
Definition U_BU_file_name (folder : string) (id : string) (psi : Z) : string :=
  folder ++ "/" ++ "U_PW_breakup_elements" ++ id ++ "_PSI_" ++ to_string psi ++ ".txt".

(* l.124-136 *)
Definition walk_check (start stop num_in_file : Z) : outcome unit :=
  let n := stop - start in
  if (n <? INT_MIN) || (INT_MAX <? n) then UB else if num_in_file <? n then Err else Ok tt.

(* What one pass of the body does (l.270-480) is an arbitrary function of the channel and of the parameters in force. *)
Variable result : Type.
Variable solve : nat -> list dbl -> outcome result.

Record walk := mkwalk { w_on : bool; w_start : Z; w_stop : Z }.
(* l.250-253 *)
Definition param_sets (w : walk) : list Z := if w_on w then for_range (w_start w) (w_stop w) 1 else [0].
(* l.255-480: the sets of one channel; state: parameters in force, results so far *)
Definition channel_body (m : potential) (w : walk) (v : list dbl) (nmp : Z) (chn : nat) (st : list dbl * list (nat * Z * result))
  : outcome (list dbl * list (nat * Z * result)) :=
  fold_left (fun r psi =>
      do '(cur, out) <- r;
      do cur <- (if w_on w then update_parameters m v (psi * nmp) cur else Ok cur);
      do res <- solve chn cur;
      Ok (cur, out ++ [(chn, psi, res)]))
    (param_sets w) (Ok st).
(* l.165-485 *)
Definition channel_loop (m : potential) (w : walk) (v : list dbl) (nmp : Z) (parallel : bool) (channel_idx : Z) (N_chn : nat)
  (preset : list dbl) : outcome (list dbl * list (nat * Z * result)) :=
  fold_left (fun r chn =>
      do st <- r;
      if parallel && negb (Z.of_nat chn =? channel_idx) then Ok st else channel_body m w v nmp chn st)
    (seq 0 N_chn) (Ok (preset, [])).
(* l.84-500; [preset] are the constants the model is constructed with *)
Definition main_run (m : potential) (w : walk) (content : option string) (parallel : bool) (channel_idx : Z) (N_chn : nat)
  (preset : list dbl) : outcome (list (nat * Z * result)) :=
  if w_on w then
    do '(v, nmp, num) <- read_parameter_sample_list content;
    do _ <- walk_check (w_start w) (w_stop w) num;
    do '(_, out) <- channel_loop m w v nmp parallel channel_idx N_chn preset; Ok out
  else do '(_, out) <- channel_loop m w [] 0 parallel channel_idx N_chn preset; Ok out.
End Driver.

(* ---------- exit status ---------- *)
(* error_management.cpp l.4-15: raise_error prints and calls std::exit(0); main returns 0; an uncaught exception aborts
   (status 134 in a POSIX shell); undefined behaviour: anything (None). *)
Definition exit_status {A} (r : outcome A) : option Z :=
  match r with Ok _ => Some 0 | Err => Some 0 | Exc => Some 134 | UB => None end.
(* exit(-1): low eight bits *)
Definition exit_status_of_model (name : string) : option Z :=
  match fetch_potential_ptr name with None => Some 255 | Some _ => None end.
