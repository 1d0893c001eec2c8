(* Specification of the result of one three-nucleon channel (C91), in terms of physics only. *)
From Coq Require Import Reals.
From Verif Require Import Common GridSpec PWModel PWSpec PermModel PermSpec PotentialModel PotentialSpec GeoSpec KernelSpec ResolventModel FaddeevModel FaddeevSpec DetModel
  SwpWholeModel SwpWholeSpec SpectralSpec AgsSpec OnShellSpec.
Open Scope nat_scope.

(* new[] returns an array of the requested length, contents unspecified *)
Definition allocates {A} (mem : nat -> nat -> list A) : Prop := forall k n, length (mem k n) = n.

(* The model delivers six numbers for every pair state, and is Hermitian: exchanging the momenta leaves the diagonal elements
   unchanged and exchanges the two mixed ones (elements 3 and 4). *)
Definition hermitian_model (pot : potmodel) (states : list pw) : Prop :=
  forall s Tz x y cpl, In s states -> exists V W,
    pot x y cpl (S_2N s) (J_2N s) (T_2N s) Tz = Ok V /\ pot y x cpl (S_2N s) (J_2N s) (T_2N s) Tz = Ok W /\
    length V = 6 /\ length W = 6 /\ (forall k, k < 6 -> k <> 3 -> k <> 4 -> nth k V 0%R = nth k W 0%R) /\
    nth 3 V 0%R = nth 4 W 0%R /\ nth 4 V 0%R = nth 3 W 0%R.

(* What main allocates for the potential: two arrays, contents unspecified. *)
Definition fresh_potential (mem : nat -> nat -> list R) (iso mid : bool) (J_2N_max : Z) (pot : potmodel) (junk : R * R) (vg : vgrid) (states : list pw) : outcome (list R * list R) :=
  potential_matrices true iso mid J_2N_max pot junk vg states
    (mem 0 (vg_Np vg * vg_Np vg * Z.to_nat (num_2N_unco_states true iso J_2N_max)))
    (mem 1 (vg_Np vg * vg_Np vg * 4 * Z.to_nat (num_2N_coup_states true iso J_2N_max))).

(* The permutation operator between free wave packets (pair bin pp, spectator bin qp | pair bin p, spectator bin q), in the
   quadrature of the program: angles with weights over the row cell, cosines x_i with weights wxs, and the exact integral
   over the column cell along the direction (see C66, C69). *)
Definition permutation_element (sixj : Z -> Z -> Z -> Z -> Z -> Z -> R) (ninej : Z -> Z -> Z -> Z -> Z -> Z -> Z -> Z -> Z -> R)
    (threej : Z -> Z -> Z -> Z -> Z -> Z -> R) (sphP : Z -> Z -> R -> R) (roots : list R) (dleg : R -> R) (xs wxs pb qb : list R)
    (r c : pw) (qp pp q p : nat) (value : R) : Prop :=
  let lo := atan_ratio (GridSpec.lower pb pp) (GridSpec.upper qb qp) in
  let hi := atan_ratio (GridSpec.upper pb pp) (GridSpec.lower qb qp) in
  let angle j := (lo + (hi - lo) * ((nth j roots 0 + 1) / 2))%R in
  let weight j := ((hi - lo) / 2 * (2 / ((1 - nth j roots 0 * nth j roots 0) * (dleg (nth j roots 0) * dleg (nth j roots 0)))))%R in
  let x i := nth i xs 0%R in
  exists v : nat -> nat -> R,
    (forall j i, j < length roots -> i < length xs ->
       direction_integral (fun a b => pi1_tilde a b (x i)) (fun a b => pi2_tilde a b (x i)) pb qb pp qp p q (angle j) (v j i)) /\
    value = (GridSpec.sum (fun i => GridSpec.sum (fun j => nth i wxs 0 * weight j *
               geometric sixj ninej threej sphP r c (x i) (pair_cos (sin (angle j)) (cos (angle j)) (x i)) (spectator_cos (sin (angle j)) (cos (angle j)) (x i))
               * v j i) (length roots)) (length xs)
             / (sqrt (GridSpec.upper qb q - GridSpec.lower qb q) * sqrt (GridSpec.upper pb p - GridSpec.lower pb p)
                * sqrt (GridSpec.upper qb qp - GridSpec.lower qb qp) * sqrt (GridSpec.upper pb pp - GridSpec.lower pb pp)))%R.

(* The pair potential between two states of the channel's basis: diagonal in the spectator, zero between partial waves no
   two-nucleon force connects, else the wave-packet average of the interaction. *)
Definition potential3 (mid : bool) (pot : potmodel) (vg : vgrid) (states : list pw) (x y : state3) : R :=
  let '(a, q, k) := x in let '(a', q', k') := y in
  if (q =? q') && connects true (nth a states dummy_pw) (nth a' states dummy_pw)
  then target mid pot vg (nth a states dummy_pw) (nth a' states dummy_pw) k k' else 0%R.

(* The energy of the two-nucleon bound state: a negative eigenvalue of every channel that holds the deuteron (3S1) wave, and 0
   when no channel does. *)
Definition bound_energy (iso : bool) (states : list pw) (spectrum : bool -> nat -> list R) (Eb : R) : Prop :=
  (forall cm i, is_deuteron_channel iso states cm i -> (Eb < 0)%R /\ In Eb (spectrum cm i)) /\
  ((forall cm i, ~ is_deuteron_channel iso states cm i) -> Eb = 0%R).

(* the same state of the pair (the total isospin distinguishes the two 1S0 waves) *)
Definition same_pair (r s : pw) : Prop :=
  L_2N r = L_2N s /\ S_2N r = S_2N s /\ J_2N r = J_2N s /\ T_2N r = T_2N s /\ two_T_3N r = two_T_3N s.

(* The wave packets of the pair, as vectors (columns of C) in the channel's basis of free packets, with eigenvalues lam and bin
   boundaries edge: orthonormal eigenvectors of the pair Hamiltonian V3 + kinetic energy; made of free packets of one spectator
   bin and of partial waves that the force connects, the same for every spectator state; numbered by energy; each in its bin
   (Eb: the deuteron's energy), with the boundaries halfway between eigenvalues. *)
Definition wave_packets (states : list pw) (Nq Np : nat) (p : list R) (V3 : state3 -> state3 -> R) (Eb : R)
    (C : state3 -> state3 -> R) (lam : state3 -> R) (edge : nat -> nat -> R) : Prop :=
  let N := length states in let wave a := nth a states dummy_pw in
  (forall x y, valid3 N Nq Np x -> valid3 N Nq Np y ->
     sum3 N Nq Np (fun k => C k x * C k y)%R = (if same3 Nq Np x y then 1%R else 0%R) /\
     sum3 N Nq Np (fun k => (V3 x k + kinetic3 p x k) * C k y)%R = (lam y * C x y)%R) /\
  (forall a iq i a' iq' i', C (a, iq, i) (a', iq', i') <> 0%R -> iq = iq' /\ connects true (wave a) (wave a') = true) /\
  (forall a a' b b' iq iq' i j, a < N -> a' < N -> b < N -> b' < N -> iq < Nq -> iq' < Nq -> i < Np -> j < Np ->
     connects true (wave a) (wave b) = true -> connects true (wave a') (wave b') = true ->
     same_pair (wave a) (wave a') -> same_pair (wave b) (wave b') -> C (a, iq, i) (b, iq, j) = C (a', iq', i) (b', iq', j)) /\
  ascending3 states Nq Np lam /\
  (forall a iq i, valid3 N Nq Np (a, iq, i) -> energy_of_wave_packet (wave a) i Eb (lam (a, iq, i)) (edge a i) (edge a (i + 1))) /\
  (forall a iq, a < N -> iq < Nq -> edges_of_wave Np (wave a) (fun i => lam (a, iq, i)) (edge a)).

(* the resolvent at energy E (pair in the bound state of energy Eb: total energy E + Eb), averaged over the cells, diagonal in
   the basis of wave packets *)
Definition averaged_resolvent (states : list pw) (Nq Np : nat) (q : list R) (C : state3 -> state3 -> R) (edge : nat -> nat -> R) (E : R) : nat -> nat -> cdouble :=
  resolvent_op (length states * Nq * Np) (fun i j => C (state_of Nq Np i) (state_of Nq Np j))
    (fun k => let '(a, iq, i) := state_of Nq Np k in cell_value E (nth iq q 0%R) (nth (iq + 1) q 0%R) (edge a i) (edge a (i + 1))).
(* The breakup cells stored for the scattering energies Es (pair in the bound state of energy Eb), given the boundaries of the
   wave packets: [cells] holds triples (partial wave, spectator bin, pair bin), ends k .. ends (k+1) delimits those of energy
   number k: none below threshold, else those cells that can have the energy, and for each the neighbours stored with it (C54). *)
Definition breakup_list (edge : nat -> nat -> R) (q : list R) (N Nq Np : nat) (Eb : R) (Es : list R) (cells : list (Z * Z * Z)) (ends : list nat) : Prop :=
  length ends = length Es + 1 /\ nth 0 ends 0 = 0 /\ nth (length Es) ends 0 = length cells /\
  forall k E, nth_error Es k = Some E ->
    nth k ends 0 <= nth (k + 1) ends 0 <= length cells /\
    let mine := firstn (nth (k + 1) ends 0 - nth k ends 0) (skipn (nth k ends 0) cells) in
    ((E + Eb < 0)%R -> mine = []) /\
    ((0 <= E + Eb)%R -> mine <> [] /\
       forall t, In t mine <-> exists a iq ip, on_shell_cell edge q N Nq Np E a iq ip /\ stored_for_cell edge q E a iq ip t).
(* the kernel 2 P V3 *)
Definition kernel_2PV (states : list pw) (Nq Np : nat) (P : nat -> nat -> R) (V3 : state3 -> state3 -> R) : nat -> nat -> R :=
  two_PV (length states * Nq * Np) P (fun i j => V3 (state_of Nq Np i) (state_of Nq Np j)).

(* U holds the on-shell amplitudes of the channel with partial waves [states] (its deuteron waves numbered ds), grids p and q,
   pair potential V3 and permutation operator P, for the scattering energies Es (spectator energies; the pair is in the bound
   state of energy Eb), whose momenta lie in the spectator bins [bins]:
   there are wave packets C, with eigenvalues lam and boundaries [edge], such that with
     K   = 2 P V3
     Res = the resolvent at energy E_j + Eb, averaged over the cells
   the amplitude for deuteron waves dr <- dc at energy j is the matrix element, between the two deuteron wave packets with the
   spectator in bin number j, of the solution T of T = K + K Res T.  (These data determine the amplitudes: C92.) *)
Definition amplitudes_of (states : list pw) (Nq Np : nat) (p q : list R) (V3 : state3 -> state3 -> R) (P : nat -> nat -> R)
    (Eb : R) (Es : list R) (bins ds : list nat) (U : list cdouble) : Prop :=
  let N := length states in let D := N * Nq * Np in let nd := length ds in let ne := length Es in
  exists (C : state3 -> state3 -> R) (lam : state3 -> R) (edge : nat -> nat -> R),
    wave_packets states Nq Np p V3 Eb C lam edge /\
    let Cx i j := C (state_of Nq Np i) (state_of Nq Np j) in
    let K := kernel_2PV states Nq Np P V3 in
    let Res j := averaged_resolvent states Nq Np q C edge (nth j Es 0 + Eb)%R in
    let on_shell d j := idx3 Nq Np (nth d ds 0, nth j bins 0, 0) in
    forall dr dc j, dr < nd -> dc < nd -> j < ne -> ags_regular D K (Res j) ->
      exists T, ags_solution D K (Res j) T /\
        (forall T', ags_solution D K (Res j) T' -> forall x y, x < D -> y < D -> between D Cx T' x y = between D Cx T x y) /\
        nth (dr * nd * ne + dc * ne + j) U c0 = between D Cx T (on_shell dr j) (on_shell dc j).
