(* C100: the file alpha_pq_boundaries.txt. *)
From Coq Require Import Reals Lra String.
From Verif Require Import Common ArrayLib PWModel PWSpec SwpModel ResolventModel ResolventSpec GridModel GridSpec OnShellModel OnShellSpec ParamsModel TextModel TextSpec
  NeumannModel BoundsModel BoundsSpec OnShellWitness.
From Verif Require BoundsProofs OnShellPropsLemmas.
Open Scope nat_scope.
Open Scope list_scope.

(* [arr] is the uninitialised array the boundaries are collected in, [dbl] the double in memory of a number, Es the on-shell
   energies, fs the files before the search.  Whatever was in that memory, there is one text such that the file has it after
   the search if one of the energies reaches the breakup threshold, even if the search then ends with an error, and is left
   alone if none does.  The text has four rows for every cell, in the order of the three-nucleon basis: lower and upper
   spectator energy, lower and upper pair energy of the cell, to eight decimals. *)
Theorem C100_boundaries_file iso J_2N_max Np Nq e_unco e_coup q states Eb (dbl : R -> double) (arr : list R) :
  (forall s, In s states -> physical s /\ (J_2N s <= J_2N_max)%Z) ->
  Z.of_nat (length e_unco) = (num_2N_unco_states true iso J_2N_max * Z.of_nat (Np + 1))%Z ->
  Z.of_nat (length e_coup) = (num_2N_coup_states true iso J_2N_max * Z.of_nat (2 * (Np + 1)))%Z ->
  length q = Nq + 1 -> length arr = 4 * (length states * Nq * Np) ->
  exists bound text, pair_boundaries iso Np e_unco e_coup states bound /\ length (table text) = 4 * (length states * Nq * Np) /\
    (forall a iq ip, a < length states -> iq < Nq -> ip < Np ->
       let k := 4 * ((a * Nq + iq) * Np + ip) in
       gives (nth_error (table text) k) (dbl (q_energy (lower q iq))) /\ gives (nth_error (table text) (k + 1)) (dbl (q_energy (upper q iq))) /\
       gives (nth_error (table text) (k + 2)) (dbl (bound a ip)) /\ gives (nth_error (table text) (k + 3)) (dbl (bound a (ip + 1)))) /\
    forall Es fs, let r := bounds_run true iso Np Nq e_unco e_coup q states Eb dbl arr Es in
      snd r = (do x <- breakup_cells true iso Np Nq e_unco e_coup q states Eb Es; Ok tt) /\
      ((exists E, In E Es /\ (0 <= E + Eb)%R) -> put_bounds (fst r) fs bounds_file = Some text) /\
      ((forall E, In E Es -> (E + Eb < 0)%R) -> put_bounds (fst r) fs bounds_file = fs bounds_file) /\
      forall f, f <> bounds_file -> put_bounds (fst r) fs f = fs f.
Proof. intros H1 H2 H3 H4. exact (BoundsProofs.bounds_final iso J_2N_max Np Nq e_unco e_coup q states Eb dbl H1 H2 H3 H4 arr). Qed.
Print Assumptions C100_boundaries_file.
(* The name does not depend on channel, parameter set or run: what a search left is gone after the next that writes. *)
Theorem C100_last_search iso J_2N_max Np Nq e_unco e_coup q states Eb (dbl : R -> double) (arr : list R) Es earlier fs :
  (forall s, In s states -> physical s /\ (J_2N s <= J_2N_max)%Z) ->
  Z.of_nat (length e_unco) = (num_2N_unco_states true iso J_2N_max * Z.of_nat (Np + 1))%Z ->
  Z.of_nat (length e_coup) = (num_2N_coup_states true iso J_2N_max * Z.of_nat (2 * (Np + 1)))%Z ->
  length q = Nq + 1 -> length arr = 4 * (length states * Nq * Np) -> (exists E, In E Es /\ (0 <= E + Eb)%R) ->
  let texts := fst (bounds_run true iso Np Nq e_unco e_coup q states Eb dbl arr Es) in
  put_bounds texts (put_bounds earlier fs) bounds_file = put_bounds texts fs bounds_file.
Proof.
  intros H1 H2 H3 H4 H5 H6 texts.
  destruct (BoundsProofs.bounds_final iso J_2N_max Np Nq e_unco e_coup q states Eb dbl H1 H2 H3 H4 arr H5) as (bound & text & _ & _ & _ & H).
  etransitivity; [ apply (proj1 (proj2 (H Es (put_bounds earlier fs))) H6) | symmetry; apply (proj1 (proj2 (H Es fs)) H6) ].
Qed.
Print Assumptions C100_last_search.
(* the grids and states of C33_example; its first energy is above threshold *)
Example C100_example : (forall s, In s bu_states -> physical s /\ (J_2N s <= 1)%Z) /\
  Z.of_nat (length bu_unco) = (num_2N_unco_states true false 1 * Z.of_nat (4 + 1))%Z /\
  Z.of_nat (length bu_coup) = (num_2N_coup_states true false 1 * Z.of_nat (2 * (4 + 1)))%Z /\ length bu_q = 2 + 1 /\
  exists os, elastic_bins 2 bu_q (-2.2) [bu_T] = Ok os /\ exists E, In E (os_E os) /\ (0 <= E + -2.2)%R.
Proof.
  split; [ exact bu_phys | ]. split; [ exact bu_Lu | ]. split; [ exact bu_Lc | ]. split; [ reflexivity | ].
  destruct bu_elastic as (os & H & _ & HE). exists os. split; [ exact H | ]. exists bu_E0. rewrite HE. split; [ left; reflexivity | ].
  pose proof bu_E0_range. lra.
Qed.
Definition ex_dbl (x : R) : double := Fin false 7205759403792794 (-56).
Example C100_example_text : array_text ex_dbl [0; 1]%R = unlines ["+0.10000000"; "+0.10000000"; ""]%string.
Proof. vm_compute. reflexivity. Qed.
