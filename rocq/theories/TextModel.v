(* Text the program writes: C++ stream formatting of doubles, and the files built with it.
   disk_io_routines.cpp: to_string_with_precision_and_sign l.3-12, store_q_WP_kinematics_txt l.231-312, store_q_WP_boundaries_csv
   l.314-339, store_U_BU_matrix_elements_txt l.566-706, store_array l.708-731, store_U_matrix_elements_txt l.759-913.
   A number is converted to decimal as the C library does it: exactly, rounded to nearest, ties to even. *)
From Coq Require Import String Ascii.
From Verif Require Import Common NameModel PWModel OutputModel.
Open Scope string_scope.
Open Scope list_scope.
Open Scope Z_scope.

(* IEEE binary64: sign (true = negative), and for finite non-zero numbers m * 2^e *)
Inductive double : Set := Zer (s : bool) | Inf (s : bool) | Nan (s : bool) | Fin (s : bool) (m : positive) (e : Z).

(* number of decimal digits minus one *)
Fixpoint ilog10_f (fuel : nat) (n : Z) : Z :=
  match fuel with O => 0 | S f => if n <? 10 then 0 else 1 + ilog10_f f (n / 10) end.
Definition ilog10 (n : Z) : Z := ilog10_f (Z.to_nat (Z.log2 n)) n.
(* the decimal exponent of num/den: 10^k <= num/den < 10^(k+1) *)
Definition dec_exp (num den : Z) : Z :=
  if den <=? num then ilog10 (num / den) else - (ilog10 ((den + num - 1) / num - 1) + 1).
(* num/den to the nearest integer, ties to even *)
Definition round_half_even (num den : Z) : Z :=
  let q := num / den in let r := num mod den in
  if 2 * r <? den then q else if den <? 2 * r then q + 1 else if Z.even q then q else q + 1.
(* nearest integer to (num/den) * 10^j *)
Definition scaled (num den j : Z) : Z :=
  if 0 <=? j then round_half_even (num * 10 ^ j) den else round_half_even num (den * 10 ^ (- j)).
(* num/den to p digits after the leading one: (digits, exponent), 10^p <= digits < 10^(p+1) *)
Definition decimal (p : nat) (num den : Z) : Z * Z :=
  let k := dec_exp num den in
  let d := scaled num den (Z.of_nat p - k) in
  if d =? 10 ^ (Z.of_nat p + 1) then (10 ^ Z.of_nat p, k + 1) else (d, k).
Definition numer (m : positive) (e : Z) : Z := Zpos m * 2 ^ (Z.max e 0).
Definition denom (e : Z) : Z := 2 ^ (Z.max (- e) 0).

Definition digit (d : Z) : ascii := ascii_of_nat (48 + Z.to_nat d).
(* the last n decimal digits of v *)
Fixpoint digits (n : nat) (v : Z) : string :=
  match n with O => EmptyString | S n' => (digits n' (v / 10)%Z ++ String (digit (v mod 10)%Z) EmptyString)%string end.
(* exponent field: a sign and at least two digits (at most three for a double) *)
Definition exp_text (k : Z) : string :=
  ((if (k <? 0)%Z then "-" else "+") ++ (if (Z.abs k <? 100)%Z then digits 2 (Z.abs k) else digits 3 (Z.abs k)))%string.
Definition sci_text (p : nat) (d k : Z) : string :=
  (digits 1 (d / 10 ^ Z.of_nat p)%Z ++ "." ++ digits p d ++ "e" ++ exp_text k)%string.
Definition minus (s : bool) : string := if s then "-" else "".
(* stream << std::scientific << setprecision(p), p>0, without showpos *)
Definition sci (p : nat) (x : double) : string :=
  match x with
  | Zer s => (minus s ++ sci_text p 0 0)%string
  | Inf s => (minus s ++ "inf")%string
  | Nan s => (minus s ++ "nan")%string
  | Fin s m e => let '(d, k) := decimal p (numer m e) (denom e) in (minus s ++ sci_text p d k)%string
  end.
(* showpos: a plus sign unless the number has its minus sign *)
Definition sign_bit (x : double) : bool := match x with Zer s | Inf s | Nan s | Fin s _ _ => s end.
Definition plus (x : double) : string := if sign_bit x then "" else "+".
Definition sci_pos (p : nat) (x : double) : string := (plus x ++ sci p x)%string.
(* std::fixed with p digits after the point, p>0, showpos *)
Definition int_text (v : Z) : string := to_string v.
Definition fixed_text (p : nat) (d : Z) : string := (int_text (d / 10 ^ Z.of_nat p)%Z ++ "." ++ digits p d)%string.
Definition fixed (p : nat) (x : double) : string :=
  match x with
  | Zer s => (minus s ++ fixed_text p 0)%string
  | Inf s => (minus s ++ "inf")%string
  | Nan s => (minus s ++ "nan")%string
  | Fin s m e => (minus s ++ fixed_text p (scaled (numer m e) (denom e) (Z.of_nat p)))%string
  end.
Definition fixed_pos (p : nat) (x : double) : string := (plus x ++ fixed p x)%string.

(* a_value>=0 : true for both zeros, false for a NaN *)
Definition ge0 (x : double) : bool := match x with Zer _ => true | Inf s | Fin s _ _ => negb s | Nan _ => false end.
(* to_string_with_precision_and_sign l.3-12 *)
Definition with_sign (p : nat) (x : double) : string := ((if ge0 x then "+" else "") ++ sci p x)%string.
(* l.690-692, l.895-897: the text of a complex number *)
Definition complex_text (re im : double) : string := (with_sign 16 re ++ with_sign 16 im ++ "j")%string.

Fixpoint blanks (n : nat) : string := match n with O => "" | S n' => String " " (blanks n') end.
(* std::right << std::setw(w) << s *)
Definition setw (w : nat) (s : string) : string := (blanks (w - String.length s) ++ s)%string.
Definition NL : string := String "010"%char EmptyString.
Definition cat (l : list string) : string := fold_right append EmptyString l.

(* ---------- store_U_matrix_elements_txt ---------- *)
Definition rule : string := "# ################################################################################################### ".
Section Elastic.
Variable V : Type.
Variables re im : V -> double.

(* l.796-816.  [Eb] is the text of the binding energy (8 significant digits, default format). *)
Definition parity_sign (P : Z) : string := if P =? 1 then "+" else "-".
Definition elastic_comments (twoJ P : Z) (model : string) (Np Nq : Z) (Eb : string) : list string :=
  [ "# Elastic Nd-scattering U-matrix elements in a wave-packet, Jj-scheme representation. "; "# ";
    "# The calculations below were done for: ";
    ("# JP:          " ++ to_string twoJ ++ "/2" ++ parity_sign P)%string;
    ("# Potential:   " ++ model)%string;
    ("# Np:          " ++ to_string Np ++ " ")%string;
    ("# Nq:          " ++ to_string Nq ++ " ")%string;
    "# Particles:   nd-scattering";
    ("# Deuteron BE: " ++ Eb ++ " MeV ")%string;
    "# ";
    "# Symbol definitions: ";
    "# Uij:   U-matrix element in MeV with row-idx i and col-idx j (NOTE in wave-packet representation!)  ";
    "# l:     Spectator nucleon orbital angular momentum  ";
    "# j:     Spectator nucleon total angular momentum  ";
    "# Tlab:  Laboratory scattering/kinetic energy  ";
    "# Ecm:   Centre-of-mass scattering/kinetic energy  ";
    "# q_idx: Index of on-shell q-momentum bin correponding to Tlab/Ecm  ";
    "# "; rule ].
(* l.823-828 *)
Definition header1_line : string := ("#" ++ cat (map (setw 10) ["Name"; "row-idx"; "col-idx"; "l'"; "2*j'"; "l"; "2*j"]))%string.
(* l.844-853 *)
Definition t1_text (l : t1_line) : string :=
  (" " ++ cat (map (setw 10) [t1_name l; str_of_nat (t1_row l); str_of_nat (t1_col l);
                              to_string (t1_lp l); to_string (t1_jp l); to_string (t1_l l); to_string (t1_j l)]))%string.
(* l.863-875: widths 24, 24, 10, then 50 *)
Definition width2 (i : nat) : nat := if (i <? 2)%nat then 24%nat else if (i =? 2)%nat then 10%nat else 50%nat.
Definition header2_line (h : list string) : string :=
  ("#" ++ cat (map (fun ih => setw (width2 (fst ih)) (snd ih)) (combine (seq 0 (length h)) h)))%string.
(* l.884-905 *)
Definition t2_text (l : t2_line V) : string :=
  (" " ++ setw 24 (sci 16 (re (t2_T V l))) ++ setw 24 (sci 16 (re (t2_E V l))) ++ setw 10 (str_of_nat (t2_q V l))
     ++ cat (map (fun u => setw 50 (complex_text (re u) (im u))) (t2_U V l)))%string.
(* the whole file: lines, each ended by "\n"; l.909 adds an empty line *)
Definition unlines (l : list string) : string := cat (map (fun s => (s ++ NL)%string) l).
Definition elastic_file (twoJ P : Z) (model : string) (Np Nq : Z) (Eb : string) (t1 : list t1_line) (h : list string) (t2 : list (t2_line V)) : string :=
  unlines (elastic_comments twoJ P model Np Nq Eb ++ [header1_line] ++ map t1_text t1 ++ [rule] ++ [header2_line h] ++ map t2_text t2 ++ [rule; ""]).

(* ---------- store_U_BU_matrix_elements_txt ---------- *)
(* l.617-643 *)
Definition breakup_comments (twoJ P : Z) (model : string) (Np Nq : Z) (Eb : string) : list string :=
  [ "# Breakup Nd-scattering U-matrix elements in a wave-packet, Jj-scheme representation. "; "# ";
    "# The calculations below were done for: ";
    ("# JP:          " ++ to_string twoJ ++ "/2" ++ parity_sign P)%string;
    ("# Potential:   " ++ model)%string;
    ("# Np:          " ++ to_string Np ++ " ")%string;
    ("# Nq:          " ++ to_string Nq ++ " ")%string;
    "# Particles:   nd-scattering";
    ("# Deuteron BE: " ++ Eb ++ " MeV ")%string;
    "# ";
    "# Symbol definitions: ";
    "# <L,S,J,2*l,2*j|U|2*l,2*j>:   U-matrix element in MeV with for channel <L S J l j|U|L=0 S=1 J=1 l j> (NOTE in wave-packet representation!)  ";
    "# L:                           Pair orbital angular momentum  ";
    "# S:                           Pair spin  ";
    "# J:                           Pair total angular momentum  ";
    "# l:                           Spectator orbital angular momentum  ";
    "# j:                           Spectator total angular momentum  ";
    "# Tlab:                        Laboratory scattering/kinetic energy  ";
    "# Ecm:                         Centre-of-mass scattering/kinetic energy  ";
    "# qcm:                         Spectator centre-of-mass momentum bin midpoint ";
    "# qlo:                         Spectator centre-of-mass momentum bin lower boundary ";
    "# qup:                         Spectator centre-of-mass momentum bin upper boundary ";
    "# plo:                         Pair centre-of-mass momentum bin lower boundary ";
    "# pup:                         Pair centre-of-mass momentum bin upper boundary ";
    "# init.:                       Pre-scattering ";
    "# "; rule ].
(* l.664-676: Err for an unknown column kind *)
Definition bu_width (kind : string) : outcome nat :=
  if String.eqb kind "real" then Ok 24%nat else if String.eqb kind "comp" then Ok 50%nat else Err.
Definition bu_header_line (h : list (string * string)) : outcome string :=
  do s <- ArrayLib.ofold (fun acc c => do w <- bu_width (fst c); Ok (acc ++ setw w (snd c))%string) h EmptyString;
  Ok ("#" ++ s)%string.
(* l.680-698: a column of unknown kind would print nothing *)
Definition bu_cell (kind : string) (v : V) : string :=
  if String.eqb kind "real" then setw 24 (sci 16 (re v))
  else if String.eqb kind "comp" then setw 50 (complex_text (re v) (im v)) else EmptyString.
Definition bu_row (h : list (string * string)) (data : list V) (cols r : nat) : outcome string :=
  do s <- ArrayLib.ofold (fun acc c => do k <- ArrayLib.aread h c; do v <- ArrayLib.aread data (r * cols + c); Ok (acc ++ bu_cell (fst k) v)%string)
            (seq 0 cols) EmptyString;
  Ok (" " ++ s)%string.
Definition breakup_file (twoJ P : Z) (model : string) (Np Nq : Z) (Eb : string) (h : list (string * string)) (data : list V) (rows cols : nat) : outcome string :=
  do hl <- bu_header_line h;
  do rs <- ArrayLib.ofold (fun acc r => do s <- bu_row h data cols r; Ok (acc ++ [s])) (seq 0 rows) [];
  Ok (unlines (breakup_comments twoJ P model Np Nq Eb ++ [hl] ++ rs ++ [rule; ""])).
End Elastic.
