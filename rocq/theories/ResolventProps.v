(* Property theorems about the resolvent (C33). *)
From Coq Require Import Reals Lra.
From Coquelicot Require Import Coquelicot.
From Verif Require Import Common ArrayLib PWModel PWSpec PWPropsLemmas SwpModel ResolventModel ResolventSpec ResolventPropsLemmas.
Open Scope R_scope.

(* C33, slots: the arrays main allocates are large enough; every (energy, state, q, p) is written to its own place,
   with the value of the cell bounded by that state's own bin boundaries. *)
Theorem C33_slots iso J_2N_max Np Nq e_unco e_coup q states energies G :
  (forall s, In s states -> physical s /\ (J_2N s <= J_2N_max)%Z) ->
  Z.of_nat (length e_unco) = (num_2N_unco_states true iso J_2N_max * Z.of_nat (Np + 1))%Z ->
  Z.of_nat (length e_coup) = (num_2N_coup_states true iso J_2N_max * Z.of_nat (2 * (Np + 1)))%Z ->
  length q = (Nq + 1)%nat -> length G = (length energies * (length states * Np * Nq))%nat ->
  exists G', all_resolvents true iso Np Nq e_unco e_coup q states energies G = Ok G' /\ length G' = length G /\
    forall j E a s iq p, nth_error energies j = Some E -> nth_error states a = Some s -> (iq < Nq)%nat -> (p < Np)%nat ->
      exists coup i, matrix_of true iso s = (coup, Ok i) /\
        let e := if coup then e_coup else e_unco in
        let o := e_offset Np coup i s in
        (o + p + 1 < length e)%nat /\
        nth_error G' (j * (length states * Np * Nq) + (a * Nq * Np + iq * Np + p))
        = Some (cell_value E (nth iq q 0) (nth (iq + 1) q 0) (nth (o + p) e 0) (nth (o + p + 1) e 0)).
Proof. exact (array_props iso J_2N_max Np Nq e_unco e_coup q states energies G). Qed.
Print Assumptions C33_slots.
Example C33_slots_example :
  physical (mkpw 1 1 2 1 1 3 1 1 1) /\ matrix_of true false (mkpw 1 1 2 1 1 3 1 1 1) = (true, Ok 1%Z) /\
  e_offset 10 true 1 (mkpw 3 1 2 1 1 3 1 1 1) = 33%nat.
Proof. split; [ exact (proj1 ex_physical) | split; reflexivity ]. Qed.

(* C33, sign: the imaginary part is never positive, and non-zero only if some point of the cell has total energy E
   (a bound pair, e<0, contributes its own energy [el] and total mass). *)
Theorem C33_sign E ql qu el eu :
  - (Mn + Mp) < el < eu -> 0 <= ql < qu ->
  snd (cell_value E ql qu el eu) <= 0 /\
  (snd (cell_value E ql qu el eu) <> 0 ->
     exists e q, el <= e <= eu /\ ql <= q <= qu /\
       E = e + spectator_energy Mn (Mn + Mp + Rmin el 0) q).
Proof. exact (cell_sign E ql qu el eu). Qed.
Print Assumptions C33_sign.

(* C33, values: bound pair. *)
Theorem C33_bound_cell E ql qu el eu :
  - (Mn + Mp) < el < 0 -> 0 <= ql < qu ->
  let k q := spectator_energy Mn (Mn + Mp + el) q in
  (k ql < k qu) /\
  (el + k ql < E <= el + k qu -> snd (cell_value E ql qu el eu) = - PI / (k qu - k ql)) /\
  (~ (el + k ql < E <= el + k qu) -> snd (cell_value E ql qu el eu) = 0) /\
  (E < el + k ql \/ el + k qu < E ->
     is_RInt (fun x => / (E - (el + x))) (k ql) (k qu) (fst (cell_value E ql qu el eu) * (k qu - k ql))).
Proof. exact (bound_cell E ql qu el eu). Qed.
Print Assumptions C33_bound_cell.

(* C33, values: continuum pair; imaginary part = -pi * density of on-shell points, real part = cell average of
   1/(E - e - k) when the cell holds no on-shell point. *)
Theorem C33_continuum_cell E ql qu el eu :
  0 <= el < eu -> 0 <= ql < qu ->
  let k q := spectator_energy Mn (Mn + Mp) q in
  (k ql < k qu) /\
  snd (cell_value E ql qu el eu) = - PI * onshell_length E (k ql) (k qu) el eu / ((eu - el) * (k qu - k ql)) /\
  (0 < onshell_length E (k ql) (k qu) el eu <-> el + k ql < E < eu + k qu) /\
  (E < el + k ql \/ eu + k qu < E ->
     exists inner : R -> R,
       (forall p, el <= p <= eu -> is_RInt (fun x => / (E - (p + x))) (k ql) (k qu) (inner p)) /\
       is_RInt inner el eu (fst (cell_value E ql qu el eu) * ((eu - el) * (k qu - k ql)))).
Proof. exact (continuum_cell E ql qu el eu). Qed.
Print Assumptions C33_continuum_cell.
Example C33_values_example : - (Mn + Mp) < -2 < 0 /\ 0 <= 1 < 2 /\
  onshell_length 10 3 5 4 6 = 1 /\ onshell_length 10 1 2 1 2 = 0.
Proof. unfold Mn, Mp, onshell_length, Rmax, Rmin. repeat split; repeat destruct (Rle_dec _ _); lra. Qed.
