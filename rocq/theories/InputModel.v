(* Text the program reads: C++ stream extraction of doubles and std::stod, and the files read with them.
   disk_io_routines.cpp: open_readfile l.33-41, read_parameter_sample_list l.43-78, read_input_energies l.80-108,
   read_WP_boundaries_from_txt l.977-994 (its array part is GridModel.read_boundaries). *)
From Coq Require Import String Ascii Reals.
From Flocq Require Import Core.
From Verif Require Import Common ParamsModel SwpModel GridModel OnShellModel DriverModel.
Open Scope string_scope.
Open Scope list_scope.
Open Scope Z_scope.

(* the digits at the front: value, how many, rest *)
Fixpoint scan_digits (s : string) (acc : Z) (n : nat) : Z * nat * string :=
  match s with
  | String c r => if isdigit c then scan_digits r (10 * acc + digit_val c) (S n) else (acc, n, s)
  | EmptyString => (acc, n, s)
  end.
Definition scan_sign (s : string) : bool * string :=
  match s with String "-" r => (true, r) | String "+" r => (false, r) | _ => (false, s) end.
(* [sign] digits [. digits]: sign, digits read as an integer, number of digits after the point, number of digits, rest *)
Definition scan_mantissa (s : string) : bool * Z * nat * nat * string :=
  let '(neg, s) := scan_sign s in
  let '(a, n, s) := scan_digits s 0 0 in
  match s with
  | String "." r => let '(a, f, r) := scan_digits r a 0 in (neg, a, f, (n + f)%nat, r)
  | _ => (neg, a, O, n, s)
  end.
Definition is_e (c : ascii) : bool := (Ascii.eqb c "e" || Ascii.eqb c "E")%bool.

(* operator>>(istream&, double&) after white space has been skipped: libstdc++ num_get::_M_extract_float collects the
   characters of  [sign] digits [. digits] [e [sign] digits]  and hands all of them to strtod, which has to accept all of
   them.  Result: the number as (sign, mantissa, decimal exponent) and the text left in the stream; None: failbit. *)
Definition extract (s : string) : option (bool * Z * Z * string) :=
  let '(neg, a, f, n, s) := scan_mantissa s in
  if (n =? 0)%nat then None else
  match s with
  | String c r =>
      if is_e c then
        let '(eneg, r) := scan_sign r in
        let '(k, m, r) := scan_digits r 0 0 in
        if (m =? 0)%nat then None else Some (neg, a, (if eneg then - k else k) - Z.of_nat f, r)
      else Some (neg, a, - Z.of_nat f, s)
  | EmptyString => Some (neg, a, - Z.of_nat f, s)
  end.
(* strtod on a C string: longest prefix that is a number; an exponent without digits is left out.
   Not modelled: hexadecimal numbers, inf, nan. *)
Definition strtod (s : string) : option (bool * Z * Z * string) :=
  let '(neg, a, f, n, s) := scan_mantissa (skip_ws s) in
  if (n =? 0)%nat then None else
  match s with
  | String c r =>
      if is_e c then
        let '(eneg, r) := scan_sign r in
        let '(k, m, r) := scan_digits r 0 0 in
        if (m =? 0)%nat then Some (neg, a, - Z.of_nat f, s) else Some (neg, a, (if eneg then - k else k) - Z.of_nat f, r)
      else Some (neg, a, - Z.of_nat f, s)
  | EmptyString => Some (neg, a, - Z.of_nat f, s)
  end.

(* the double nearest to the exact decimal, ties to even; too large: HUGE_VAL *)
Definition exact (neg : bool) (a k : Z) : R := F2R (Float (Build_radix 10 eq_refl) (if neg then - a else a) k).
Definition to_double (x : R) : R := round radix2 (FLT_exp (-1074) 53) ZnearestE x.
Definition overflows (x : R) : bool := Rleb (bpow radix2 1024) (Rabs (to_double x)).
(* ERANGE for a result below the normal range that is not exact *)
Definition underflows (x : R) : bool :=
  Rltb (Rabs (to_double x)) (bpow radix2 (-1022)) && negb (Rleb (to_double x) x && Rleb x (to_double x)).

(* while (input_file >> entry) push_back: every success consumes at least one character; HUGE_VAL sets failbit too *)
Fixpoint extract_all (fuel : nat) (s : string) : list R :=
  match fuel with
  | O => []
  | S f => match extract (skip_ws s) with
           | None => []
           | Some (neg, a, k, r) => if overflows (exact neg a k) then [] else to_double (exact neg a k) :: extract_all f r
           end
  end.

(* read_input_energies l.80-108.  [fs]: content of the files that can be opened.  substr(size-4) throws for a name shorter
   than four characters (size-4 wraps around). *)
Definition read_input_energies (fs : string -> option string) (path : string) : outcome (list R) :=
  let size := String.length path in
  if (size <? 4)%nat then Exc else
  if negb (String.eqb (substring (size - 4) 4 path) ".txt") then Err else
  match fs path with
  | None => Err
  | Some s => Ok (extract_all (S (String.length s)) s)
  end.
(* find_on_shell_bins, run_organizer.cpp l.40-129, from the file on *)
Definition bins_from_file (fs : string -> option string) (path : string) (Nq : nat) (q : list R) (Eb : R) : outcome on_shell :=
  do inputs <- read_input_energies fs path; elastic_bins Nq q Eb inputs.

(* std::stod l.64, l.69: invalid_argument and out_of_range are exceptions; what follows the number is ignored *)
Definition stod (s : string) : option R :=
  match strtod s with
  | None => None
  | Some (neg, a, k, _) => let x := exact neg a k in if overflows x || underflows x then None else Some (to_double x)
  end.
Definition read_parameters (content : option string) : outcome (list R * Z * Z) := read_parameter_sample_list R stod content.

(* istringstream(line) >> val, l.984-986 *)
Definition parse_line (l : string) : option R :=
  match extract (skip_ws l) with
  | None => None
  | Some (neg, a, k, _) => if overflows (exact neg a k) then None else Some (to_double (exact neg a k))
  end.
Definition read_boundary_file (content : option string) (b : list R) (N : nat) : outcome (list R) :=
  read_boundaries (fun _ => match content with Some s => getlines s | None => [] end) parse_line b N "".
