(* Property theorems about two-nucleon Hamiltonians and scattering wave packets (C29-C32, C51). *)
From Coq Require Import Reals Lra Permutation.
From Coquelicot Require Import Coquelicot.
From Verif Require Import Common ArrayLib PWModel PWSpec SwpModel SwpSpec SwpProofs SwpDriverProofs SwpPropsLemmas.
Open Scope nat_scope.

(* C29: the channel's part of the (zero-initialised) packed array becomes exactly the upper triangle, row after row,
   of  kinetic energy (diagonal) + potential; nothing else in the array is touched. *)
Theorem C29_packed_hamiltonian N baseV H0 V pre post :
  length H0 = N -> baseV + N * N <= length V ->
  let A r c := (nth (baseV + r * N + c) V 0 + (if Nat.eqb r c then nth r H0 0 else 0))%R in
  length (upper_packed N A) = N * (N + 1) / 2 /\
  full_hamiltonian (pre ++ repeat 0%R (N * (N + 1) / 2) ++ post) (Z.of_nat (length pre)) H0 V baseV N
  = Ok (pre ++ upper_packed N A ++ post).
Proof. exact (hamiltonian_packed N baseV H0 V pre post). Qed.
Print Assumptions C29_packed_hamiltonian.
Example C29_example :
  upper_packed 3 (fun r c => INR (10 * r + c)) = [INR 0; INR 1; INR 2; INR 11; INR 12; INR 22].
Proof. reflexivity. Qed.

(* C29, kinetic part: entry i is the average of p^2/(2 mu) over momentum bin i; nothing else is touched. *)
Theorem C29_kinetic_average Np p H0 base :
  length p = Np + 1 -> base + Np <= length H0 ->
  exists H', free_hamiltonian Np p H0 base = Ok H' /\ length H' = length H0 /\
   (forall j, j < base \/ base + Np <= j -> nth_error H' j = nth_error H0 j) /\
   forall i, i < Np -> is_RInt (fun x => x * x / (2 * mu23))%R (nth i p 0%R) (nth (i + 1) p 0%R)
     (nth (base + i) H' 0 * (nth (i + 1) p 0 - nth i p 0))%R.
Proof. exact (free_average Np p H0 base). Qed.
Print Assumptions C29_kinetic_average.
(* ... where p^2/(2 mu) is the kinetic energy of a proton and a neutron with opposite momenta *)
Theorem C29_pair_energy x : (x * x / (2 * mu23) = x * x / (2 * 938.272) + x * x / (2 * 939.565))%R.
Proof. unfold mu23, Mp, Mn. lra. Qed.
Print Assumptions C29_pair_energy.

(* C30 *)
Theorem C30_reorder {A} Np (vals vecs : list A) :
  length vals = 2 * Np -> length vecs = 4 * Np * Np ->
  exists vals' vecs', reorder Np vals vecs = Ok (vals', vecs') /\
    length vals' = 2 * Np /\ length vecs' = 4 * Np * Np /\
    (forall i, i < Np ->
       eigenpair (2 * Np) vals' vecs' i = eigenpair (2 * Np) vals vecs (2 * i) /\
       eigenpair (2 * Np) vals' vecs' (Np + i) = eigenpair (2 * Np) vals vecs (2 * i + 1)) /\
    Permutation (eigenpairs (2 * Np) vals' vecs') (eigenpairs (2 * Np) vals vecs).
Proof. exact (reorder_props Np vals vecs). Qed.
Print Assumptions C30_reorder.
Example C30_example : reorder 2 [1; 2; 3; 4] (seq 0 16) = Ok ([1; 3; 2; 4],
   [0; 2; 1; 3;  4; 6; 5; 7;  8; 10; 9; 11;  12; 14; 13; 15]).
Proof. reflexivity. Qed.

(* C31 *)
Theorem C31_bound_states ev chn_3S1 E0 E1 :
  (look_for_unphysical ev chn_3S1 E0 = Ok E1 <->
    (chn_3S1 = false /\ (forall x, In x ev -> (0 <= x)%R) /\ E1 = E0) \/
    (chn_3S1 = true /\ exists i, nth_error ev i = Some E1 /\ (E1 < 0)%R /\
       forall j y, nth_error ev j = Some y -> j <> i -> (0 <= y)%R)) /\
  (look_for_unphysical ev chn_3S1 E0 = Err \/ exists E2, look_for_unphysical ev chn_3S1 E0 = Ok E2).
Proof. exact (look_for_spec ev chn_3S1 E0 E1). Qed.
Print Assumptions C31_bound_states.
Example C31_example : exists i, nth_error [(-2)%R; 1%R] i = Some (-2)%R /\ (-2 < 0)%R /\
       forall j y, nth_error [(-2)%R; 1%R] j = Some y -> j <> i -> (0 <= y)%R.
Proof.
  exists 0. repeat split; [ lra | ]. intros [|[|[|j]]] y Hy Hj; cbn in Hy; try discriminate; [ congruence | ].
  injection Hy as <-. lra.
Qed.

(* C32, channels without a bound state (at least two bins). [nth i w 0] is eigenvalue i in ascending order. *)
Theorem C32_uncoupled_partial w z e base Np E0 :
  2 <= Np -> length w = Np -> increasing w -> (forall x, In x w -> (0 < x)%R) -> base + (Np + 1) <= length e ->
  exists e', swp_channel w z e (Z.of_nat base) Np false false E0 = Ok (e', z, E0) /\
    scattering_bins Np (fun i => nth (base + i) e' 0%R) (fun i => nth i w 0%R) /\
    length e' = length e /\ forall j, j < base \/ base + (Np + 1) <= j -> nth j e' 0%R = nth j e 0%R.
Proof. exact (unco_bins w z e base Np E0). Qed.
Print Assumptions C32_uncoupled_partial.

Theorem C32_coupled_partial w z e base Np E0 :
  2 <= Np -> length w = 2 * Np -> length z = 4 * Np * Np -> increasing w -> (forall x, In x w -> (0 < x)%R) ->
  base + 2 * (Np + 1) <= length e ->
  exists e' z', swp_channel w z e (Z.of_nat base) Np true false E0 = Ok (e', z', E0) /\
    scattering_bins Np (fun i => nth (base + i) e' 0%R) (fun i => nth (2 * i) w 0%R) /\
    scattering_bins Np (fun i => nth (base + (Np + 1) + i) e' 0%R) (fun i => nth (2 * i + 1) w 0%R) /\
    length e' = length e /\ forall j, j < base \/ base + 2 * (Np + 1) <= j -> nth j e' 0%R = nth j e 0%R.
Proof. exact (coup_bins w z e base Np E0). Qed.
Print Assumptions C32_coupled_partial.

(* C32, the deuteron channel (at least three bins). *)
Theorem C32_deuteron_uncoupled_partial w z e base Np E0 :
  3 <= Np -> length w = Np -> increasing w -> (nth 0 w 0 < 0)%R -> (0 < nth 1 w 0)%R -> base + (Np + 1) <= length e ->
  exists e', swp_channel w z e (Z.of_nat base) Np false true E0 = Ok (e', z, nth 0 w 0%R) /\
    deuteron_bins Np (fun i => nth (base + i) e' 0%R) (fun i => nth i w 0%R) /\
    length e' = length e /\ forall j, j < base \/ base + (Np + 1) <= j -> nth j e' 0%R = nth j e 0%R.
Proof. exact (unco_bins_3S1 w z e base Np E0). Qed.
Print Assumptions C32_deuteron_uncoupled_partial.

Theorem C32_deuteron_coupled_partial w z e base Np E0 :
  3 <= Np -> length w = 2 * Np -> length z = 4 * Np * Np -> increasing w ->
  (nth 0 w 0 < 0)%R -> (0 < nth 1 w 0)%R -> base + 2 * (Np + 1) <= length e ->
  exists e' z', swp_channel w z e (Z.of_nat base) Np true true E0 = Ok (e', z', nth 0 w 0%R) /\
    deuteron_bins Np (fun i => nth (base + i) e' 0%R) (fun i => nth (2 * i) w 0%R) /\
    scattering_bins Np (fun i => nth (base + (Np + 1) + i) e' 0%R) (fun i => nth (2 * i + 1) w 0%R) /\
    length e' = length e /\ forall j, j < base \/ base + 2 * (Np + 1) <= j -> nth j e' 0%R = nth j e 0%R.
Proof. exact (coup_bins_3S1 w z e base Np E0). Qed.
Print Assumptions C32_deuteron_coupled_partial.
Example C32_example : increasing [(-2)%R; 1%R; 2%R] /\ (nth 0 [(-2)%R; 1%R; 2%R] 0 < 0)%R /\ (0 < nth 1 [(-2)%R; 1%R; 2%R] 0)%R.
Proof.
  split; [ | cbn; lra ]. intros a b Hab. cbn [length] in Hab.
  destruct a as [|[|a]], b as [|[|[|b]]]; try lia; cbn; lra.
Qed.

(* With one bin the code reads one element before the first channel's boundaries ... *)
Theorem C32_refuted (x y : R) z E0 : (0 < x)%R -> swp_channel [x] z [y; y] 0 1 false false E0 = UB.
Proof. exact (one_bin_UB x y z E0). Qed.
Print Assumptions C32_refuted.
(* ... and with two bins in the deuteron channel the upper boundary can lie below the eigenvalue. *)
Theorem C32_refuted_two_bins E0 :
  exists w e e', increasing w /\ length w = 2 /\ (nth 0 w 0 < 0)%R /\ (0 < nth 1 w 0)%R /\
    swp_channel w [] e 0 2 false true E0 = Ok (e', [], nth 0 w 0%R) /\
    (nth 2 e' 0 < nth 1 w 0)%R.
Proof. exact (two_bins_wrong E0). Qed.
Print Assumptions C32_refuted_two_bins.

(* C51: the diagonalisation loop handles every two-nucleon channel of the model space exactly once, and flags exactly
   the channel that contains the deuteron. *)
Theorem C51_each_channel_once g J_2N_max two_J_3N_max iso ss :
  (1 <= two_J_3N_max)%Z -> construct_symmetric_pw_states_g g J_2N_max two_J_3N_max iso = Ok ss ->
  exists evs, swp_driver true iso J_2N_max (ss_states ss) = Ok evs /\
    NoDup (map ev_key evs) /\
    (forall cm i, In (cm, i) (map ev_key evs) <-> exists s, In s (ss_states ss) /\ matrix_of true iso s = (cm, Ok i)) /\
    (forall cm i b, In (cm, i, b) evs ->
       (b = true <-> exists s, In s (ss_states ss) /\ matrix_of true iso s = (cm, Ok i) /\ is_deuteron s)).
Proof. exact (driver_spec g J_2N_max two_J_3N_max iso ss). Qed.
Print Assumptions C51_each_channel_once.
Example C51_example : (do ss <- construct_symmetric_pw_states_g 0 1 1 false; swp_driver true false 1 (ss_states ss))
  = Ok [(false, 0%Z, false); (false, 1%Z, false); (false, 2%Z, false); (true, 0%Z, true); (false, 3%Z, false)].
Proof. vm_compute. reflexivity. Qed.
