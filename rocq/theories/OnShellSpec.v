(* Small specification for on-shell bins (C34, C35, C52, C53). *)
From Coq Require Import Reals ZArith.
From Verif Require Import Common PWModel SwpModel ResolventModel ResolventSpec GridSpec.
Open Scope R_scope.

Definition reduced_mass (m M : R) : R := m * M / (m + M).
(* Neutron + bound pair of mass Mn+Mp+Eb: the momentum at the energy mid-point of a bin, k^2 = ratio * (ql^2+qu^2)/2.
   The ratio is not 1: energies are formed with the reduced mass and turned back into momenta with 2/3 of the average
   nucleon mass MN. *)
Definition mass_ratio (Eb : R) : R := (2/3 * MN) / reduced_mass Mn (Mn + Mp + Eb).
Definition mid_momentum (Eb ql qu : R) : R := sqrt (mass_ratio Eb * ((ql * ql + qu * qu) / 2)).

(* index pairs inside the grid *)
Definition in_grid (Np Nq : nat) (qp : Z * Z) : Prop := (0 <= fst qp < Z.of_nat Nq)%Z /\ (0 <= snd qp < Z.of_nat Np)%Z.

(* A cell [el,eu] x [kl,ku] of pair energy and spectator energy can have total energy E, pair in the continuum *)
Definition holds_energy (E el eu kl ku : R) : Prop := el + kl <= E <= eu + ku /\ 0 <= el /\ 0 <= eu.
(* direction of the neighbours: up-right above the cell's centre, else left and up (E above the middle of the left edge)
   or left and down *)
Definition p_side (E el eu kl ku : R) : Z := if Rle_dec ((eu + el) / 2 + (ku + kl) / 2) E then 1%Z else (-1)%Z.
Definition q_side (E el eu kl ku : R) : Z :=
  if Rle_dec ((eu + el) / 2 + (ku + kl) / 2) E then 1%Z else if Rle_dec ((ku + kl) / 2 + el) E then 1%Z else (-1)%Z.
(* what is stored for one such cell: itself and the three others of the 2x2 square on that side, as (alpha, q, p) *)
Definition stored_for (E el eu kl ku : R) (a iq ip : Z) (t : Z * Z * Z) : Prop :=
  let dp := p_side E el eu kl ku in let dq := q_side E el eu kl ku in
  t = (a, iq, ip) \/ t = (a, iq + dq, ip)%Z \/ t = (a, iq, ip + dp)%Z \/ t = (a, iq + dq, ip + dp)%Z.
(* kinetic energy of the spectator relative to a free neutron-proton pair *)
Definition q_energy (q : R) : R := q * q / (2 * reduced_mass Mn (Mn + Mp)).

(* bound a k is the k-th boundary (pair energy) of the p bins of state a, in the tables of pair energies *)
Definition pair_boundaries (iso : bool) (Np : nat) (e_unco e_coup : list R) (states : list pw) (bound : nat -> nat -> R) : Prop :=
  forall a s, nth_error states a = Some s ->
  exists coup i, matrix_of true iso s = (coup, Ok i) /\
    forall k, (k <= Np)%nat -> nth_error (if coup then e_coup else e_unco) (e_offset Np coup i s + k) = Some (bound a k).
(* cell (a, iq, ip) of the grid can have total energy E *)
Definition on_shell_cell (bound : nat -> nat -> R) (q : list R) (Na Nq Np : nat) (E : R) (a iq ip : nat) : Prop :=
  (a < Na /\ iq < Nq /\ ip < Np)%nat /\
  holds_energy E (bound a ip) (bound a (ip + 1)%nat) (q_energy (lower q iq)) (q_energy (upper q iq)).
Definition stored_for_cell (bound : nat -> nat -> R) (q : list R) (E : R) (a iq ip : nat) (t : Z * Z * Z) : Prop :=
  stored_for E (bound a ip) (bound a (ip + 1)%nat) (q_energy (lower q iq)) (q_energy (upper q iq))
    (Z.of_nat a) (Z.of_nat iq) (Z.of_nat ip) t.
