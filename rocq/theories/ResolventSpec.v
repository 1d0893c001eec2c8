(* Small specification for the resolvent (C33). *)
From Coq Require Import Reals.
From Verif Require Import Common PWModel.
Open Scope R_scope.

(* length of the part of the line  e + k = E  inside the rectangle  [Ep_lower,Ep_upper] x [Eq_lower,Eq_upper],
   measured along the e axis *)
Definition onshell_length (E Eq_lower Eq_upper Ep_lower Ep_upper : R) : R :=
  Rmax 0 (Rmin Ep_upper (E - Eq_lower) - Rmax Ep_lower (E - Eq_upper)).

(* kinetic energy of the third nucleon (a neutron of mass m) relative to a pair of total mass M *)
Definition spectator_energy (m M q : R) : R := q * q / (2 * (m * M / (m + M))).

Open Scope nat_scope.
(* of the two halves of a coupled channel's boundaries, does the state use the second?
   3S1-3D1-like channels: L=J+1; 1S0 with isospin breaking: 2T=3 *)
Definition second_half (s : pw) : bool :=
  if (S_2N s =? 1)%Z then (J_2N s <? L_2N s)%Z else (two_T_3N s =? 3)%Z.
(* where the Np+1 bin boundaries of a state start: channel number i in the table of coupled / uncoupled channels *)
Definition e_offset (Np : nat) (coup : bool) (i : Z) (s : pw) : nat :=
  Z.to_nat i * (if coup then 2 * (Np + 1) else Np + 1) + (if coup && second_half s then Np + 1 else 0).

Definition ascending (f : nat -> R) (n : nat) : Prop := forall i, i < n -> (f i < f (S i))%R.
