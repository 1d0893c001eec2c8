(* Specification of the three-nucleon partial-wave basis: textbook selection rules only.
   Independent of the code's loops. All half-integer quantum numbers are doubled. *)
From Verif Require Import Common PWModel.

(* (a, b) couple to c, all doubled: |a-b| <= c <= a+b in steps of one unit of angular momentum. *)
Definition couples (a b c : Z) : Prop :=
  0 <= a /\ 0 <= b /\ Z.abs (a - b) <= c <= a + b /\ Z.Even (a + b + c).

(* A three-nucleon state |(L S)J (l 1/2)j; J_3N> |(T 1/2)T_3N> that is antisymmetric in the pair. *)
Record physical (s : pw) : Prop := {
  ph_S    : couples 1 1 (2 * S_2N s);                        (* two spins 1/2 *)
  ph_T    : couples 1 1 (2 * T_2N s);                        (* two isospins 1/2 *)
  ph_J    : couples (2 * L_2N s) (2 * S_2N s) (2 * J_2N s);  (* L + S = J *)
  ph_j    : couples (2 * L_1N s) 1 (two_J_1N s);             (* l + 1/2 = j *)
  ph_J3   : couples (2 * J_2N s) (two_J_1N s) (two_J_3N s);  (* J + j = J_3N *)
  ph_T3   : couples (2 * T_2N s) 1 (two_T_3N s);             (* T + 1/2 = T_3N *)
  ph_pauli: Z.Odd (L_2N s + S_2N s + T_2N s);
  ph_P    : P_3N s = if Z.even (L_2N s + L_1N s) then 1 else -1 }.

(* The model-space truncation requested by the user. T_3N = 3/2 only for 1S0 pairs, and only when
   isospin breaking in 1S0 is switched on. *)
Record in_model_space (J_2N_max two_J_3N_max : Z) (iso : bool) (s : pw) : Prop := {
  ms_J : J_2N s <= J_2N_max;
  ms_J3: two_J_3N s <= two_J_3N_max;
  ms_T3: two_T_3N s = 3 -> iso = true /\ L_2N s = 0 /\ S_2N s = 0 /\ J_2N s = 0 }.

(* The channel (2J, parity) of a state. *)
Definition chn_of (s : pw) : Z * Z := (two_J_3N s, P_3N s).

(* Channel number c (from 0): 1/2+, 1/2-, 3/2+, 3/2-, ... *)
Definition nth_chn (c : Z) : Z * Z := (1 + 2 * (c / 2), if Z.even c then 1 else -1).

(* Deuteron quantum numbers: 3S1, T=0. *)
Definition is_deuteron (s : pw) : Prop := L_2N s = 0 /\ S_2N s = 1 /\ J_2N s = 1 /\ T_2N s = 0.

(* The physical two-nucleon channel of a pair state: conserved numbers S, J, T and, when the tensor force
   does not mix them, L. *)
Definition same_2N_channel (tensor : bool) (r c : pw) : Prop :=
  S_2N r = S_2N c /\ J_2N r = J_2N c /\ T_2N r = T_2N c /\
  (L_2N r = L_2N c \/ (tensor = true /\ Z.Even (L_2N r + L_2N c))).
