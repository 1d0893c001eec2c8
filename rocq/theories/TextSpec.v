(* Small specification for the text files: how a reader (a spreadsheet, numpy.loadtxt, Python's complex()) takes them apart. *)
From Coq Require Import String Ascii Reals.
From Flocq Require Import Core.
From Verif Require Import Common ParamsModel TextModel.
Open Scope string_scope.
Open Scope list_scope.
Open Scope Z_scope.

(* IEEE binary64 numbers: 53-bit significand, exponent range, normalised unless subnormal *)
Definition valid (x : double) : Prop :=
  match x with
  | Fin _ m e => Zpos m < 2 ^ 53 /\ -1074 <= e <= 971 /\ (2 ^ 52 <= Zpos m \/ e = -1074)
  | _ => True
  end.
Definition finite (x : double) : Prop := match x with Zer _ | Fin _ _ _ => valid x | _ => False end.
Definition value (x : double) : R :=
  match x with
  | Fin s m e => F2R (Float radix2 (if s then Zneg m else Zpos m) e)
  | _ => 0%R
  end.

(* ---- reading a file ---- *)
Fixpoint lines_from (s cur : string) : list string :=
  match s with
  | EmptyString => match cur with EmptyString => [] | _ => [cur] end
  | String c r => if Ascii.eqb c "010" then cur :: lines_from r "" else lines_from r (cur ++ String c EmptyString)%string
  end.
Definition lines (s : string) : list string := lines_from s "".
(* the blank-separated fields of a line *)
Fixpoint fields (s : string) : list string :=
  match s with
  | EmptyString => []
  | String c r =>
      if isspace c then fields r
      else match r with
           | EmptyString => [String c EmptyString]
           | String d _ => if isspace d then String c EmptyString :: fields r
                           else match fields r with w :: ws => String c w :: ws | [] => [String c EmptyString] end
           end
  end.
Definition comment (l : string) : bool := match l with String "#" _ => true | _ => false end.
(* the table in a file: fields of the lines that are neither comments nor blank *)
Definition table (file : string) : list (list string) :=
  filter (fun r => match r with [] => false | _ => true end) (map fields (filter (fun l => negb (comment l)) (lines file))).

(* ---- reading a number:  [sign] digits [. digits] [e [sign] digits] ---- *)
Fixpoint take_digits (s : string) (acc : Z) (n : nat) : Z * nat * string :=
  match s with
  | String c r => if isdigit c then take_digits r (10 * acc + digit_val c) (S n) else (acc, n, s)
  | EmptyString => (acc, n, s)
  end.
Definition take_sign (s : string) : bool * string :=
  match s with String "-" r => (true, r) | String "+" r => (false, r) | _ => (false, s) end.
(* sign, integer mantissa and power of ten; the rest of the text *)
Definition read_number (s : string) : option (bool * Z * Z * string) :=
  let '(neg, s) := take_sign s in
  let '(a, n, s) := take_digits s 0 0 in
  if (n =? 0)%nat then None else
  let '(a, f, s) := match s with String "." r => take_digits r a 0 | _ => (a, O, s) end in
  match s with
  | String "e" r =>
      let '(eneg, r) := take_sign r in
      let '(k, n, r) := take_digits r 0 0 in
      if (n =? 0)%nat then None else Some (neg, a, (if eneg then - k else k) - Z.of_nat f, r)
  | _ => Some (neg, a, - Z.of_nat f, s)
  end.
Definition number (neg : bool) (a k : Z) : R := F2R (Float (Build_radix 10 eq_refl) (if neg then - a else a) k).
Definition read_real (s : string) : option R :=
  match read_number s with Some (neg, a, k, EmptyString) => Some (number neg a k) | _ => None end.
(* Python: a number, a signed number and "j" *)
Definition read_complex (s : string) : option (R * R) :=
  match read_number s with
  | Some (neg, a, k, String c r) =>
      if Ascii.eqb c "+" || Ascii.eqb c "-" then
        match read_number (String c r) with
        | Some (neg', a', k', String "j" EmptyString) => Some (number neg a k, number neg' a' k')
        | _ => None
        end
      else None
  | _ => None
  end.
(* v is x rounded to p+1 significant decimal digits: off by at most half a unit of the last one *)
Definition rounded_to (p : nat) (x v : R) : Prop :=
  exists k, (v = 0 /\ x = 0 \/ bpow (Build_radix 10 eq_refl) k <= Rabs v < bpow (Build_radix 10 eq_refl) (k + 1))%R /\
    (Rabs (v - x) <= / 2 * bpow (Build_radix 10 eq_refl) (k - Z.of_nat p))%R.
(* v is x rounded to p decimals *)
Definition to_decimals (p : nat) (x v : R) : Prop :=
  (Rabs (v - x) <= / 2 * bpow (Build_radix 10 eq_refl) (- Z.of_nat p))%R /\ exists d : Z, v = F2R (Float (Build_radix 10 eq_refl) d (- Z.of_nat p)).
(* x is the only double that close to v *)
Definition identifies (v : R) (x : double) : Prop :=
  forall y, finite y -> rounded_to 16 (value y) v -> value y = value x.

(* the field is the text of a real (complex) number from which the double(s) can be recovered *)
Definition shows_real (f : option string) (x : double) : Prop :=
  exists s v, f = Some s /\ read_real s = Some v /\ rounded_to 16 (value x) v /\ identifies v x.
Definition shows_complex (f : option string) (u : double * double) : Prop :=
  exists s v w, f = Some s /\ read_complex s = Some (v, w) /\
    rounded_to 16 (value (fst u)) v /\ identifies v (fst u) /\ rounded_to 16 (value (snd u)) w /\ identifies w (snd u).
Definition shows_int (f : option string) (z : Z) : Prop := f = Some (NameModel.to_string z).
(* a real number stored as a complex one *)
Definition creal (x : double) : double * double := (x, Zer false).
(* finite and not -0.0, resp. without sign bit *)
Definition no_minus_zero (x : double) : Prop := finite x /\ x <> Zer true.
Definition nonnegative (x : double) : Prop := finite x /\ match x with Zer s | Fin s _ _ => s = false | _ => False end.
(* text without a line break *)
Definition one_line (s : string) : Prop := forall i c, String.get i s = Some c -> c <> "010"%char.
