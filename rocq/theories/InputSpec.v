(* Small specification: decimal numbers as text. *)
From Coq Require Import String Ascii Reals.
From Flocq Require Import Core.
From Verif Require Import Common ParamsModel TextSpec.
Open Scope string_scope.
Open Scope list_scope.
Open Scope Z_scope.

(* a string of n decimal digits (possibly none) and its value *)
Inductive digits_of : string -> nat -> Z -> Prop :=
| Dnil : digits_of "" 0 0
| Dsnoc s n v c : digits_of s n v -> isdigit c = true -> digits_of (s ++ String c "") (S n) (10 * v + digit_val c).
Definition sign_of (s : string) (neg : bool) : Prop := (s = "" \/ s = "+") /\ neg = false \/ s = "-" /\ neg = true.
Definition exponent_of (s : string) (k : Z) : Prop :=
  s = "" /\ k = 0 \/
  exists c sg neg ds n v, s = (String c sg ++ ds)%string /\ (c = "e"%char \/ c = "E"%char) /\ sign_of sg neg /\ digits_of ds n v /\
    (0 < n)%nat /\ k = (if neg then - v else v).
Definition ten (k : Z) : R := bpow (Build_radix 10 eq_refl) k.
(* [sign] digits [. digits] [e [sign] digits], at least one digit before the exponent *)
Definition decimal_text (s : string) (x : R) : Prop :=
  exists sg neg ip n a fp m b frac ex k,
    s = (sg ++ ip ++ frac ++ ex)%string /\ sign_of sg neg /\ digits_of ip n a /\ digits_of fp m b /\
    (frac = "" /\ fp = "" \/ frac = ("." ++ fp)%string) /\ (0 < n + m)%nat /\ exponent_of ex k /\
    x = ((if neg then -1 else 1) * (IZR a + IZR b * ten (- Z.of_nat m)) * ten k)%R.

(* nearest double *)
Definition nearest (x y : R) : Prop := y = round radix2 (FLT_exp (-1074) 53) ZnearestE x /\ (Rabs y < bpow radix2 1024)%R.
(* zero, or not in the underflow range *)
Definition normal (x : R) : Prop := x = 0%R \/ (bpow radix2 (-1022) <= Rabs x)%R.
(* no number starts with this character *)
Definition not_numeric (c : ascii) : Prop := isdigit c = false /\ c <> "+"%char /\ c <> "-"%char /\ c <> "."%char.
Definition ends_in (s suffix : string) : Prop := exists pre, s = (pre ++ suffix)%string.
(* text of a number that can be stored without underflow or overflow, and the double nearest to it *)
Definition entry_of (w : string) (y : R) : Prop := exists x, decimal_text w x /\ nearest x y /\ normal x.
(* an empty line, a blank at either end of the line, or two blanks in a row *)
Definition stray_blank (line : string) : Prop :=
  exists a b, line = (a ++ b)%string /\ (a = "" \/ ends_in a " ") /\ (b = "" \/ exists b', b = (" " ++ b')%string).
(* a line that starts, perhaps after white space, with a number followed by white space or nothing *)
Definition begins_with (line : string) (y : R) : Prop :=
  exists bl w t x, line = (bl ++ w ++ t)%string /\ (forall i c, String.get i bl = Some c -> isspace c = true) /\ decimal_text w x /\ nearest x y /\
    (t = "" \/ exists c t', t = String c t' /\ isspace c = true).
(* a line on which no number can be read: blank, or its first word starts with a character no number starts with *)
Definition no_number (line : string) : Prop :=
  fields line = [] \/ exists c w more, fields line = String c w :: more /\ not_numeric c.
