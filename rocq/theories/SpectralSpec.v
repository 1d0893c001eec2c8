(* Specification of the spectral property of the wave-packet basis (C76). *)
From Coq Require Import Reals.
From Verif Require Import Common GridSpec PWModel PWSpec PotentialSpec KernelModel KernelSpec SwpWholeModel SwpWholeSpec.
Open Scope nat_scope.

(* kinetic energy of the pair in the three-nucleon basis: diagonal, bin average *)
Definition kinetic3 (p : list R) (x y : state3) : R :=
  let '(a, q, i) := x in let '(a', q', j) := y in if (a =? a') && (q =? q') && (i =? j) then bin_kinetic p i else 0%R.
(* Hamiltonian of the pair in the three-nucleon basis *)
Definition pair_hamiltonian (iso : bool) (Np : nat) (states : list pw) (p : list R) (V : list R * list R) (x y : state3) : R :=
  (op3 true iso Np states V x y + kinetic3 p x y)%R.
(* every channel's potential matrix is symmetric *)
Definition symmetric_potential (iso : bool) (J_2N_max : Z) (Np : nat) (V : list R * list R) : Prop :=
  forall cm i x y, i < num_channels iso J_2N_max cm -> x < dim2 cm Np -> y < dim2 cm Np ->
    nth (i * dim2 cm Np * dim2 cm Np + x * dim2 cm Np + y) (pick cm V) 0%R = nth (i * dim2 cm Np * dim2 cm Np + y * dim2 cm Np + x) (pick cm V) 0%R.
Definition same3 (Nq Np : nat) (x y : state3) : bool := idx3 Nq Np x =? idx3 Nq Np y.

(* Energy bin [lo, hi] of wave packet i of partial wave s, whose eigenvalue is lam; Eb: the bound-state energy.  The first
   packet of the 3S1 wave is the deuteron: lo is its energy, hi the threshold.  Every other packet has its eigenvalue
   inside the bin, above threshold. *)
Definition energy_of_wave_packet (s : pw) (i : nat) (Eb lam lo hi : R) : Prop :=
  (lo < hi)%R /\
  ((is_deuteron s /\ i = 0) -> lo = lam /\ hi = 0%R /\ (lam < 0)%R /\ lam = Eb) /\
  (~ (is_deuteron s /\ i = 0) -> (0 <= lo)%R /\ (lo < lam < hi)%R).


(* The boundaries e 0 .. e Np of partial wave s with eigenvalues lam 0 .. lam (Np-1): they start at 0 (the 3S1 wave: at the bound
   state, then 0), the others lie halfway between eigenvalues. *)
Definition edges_of_wave (Np : nat) (s : pw) (lam e : nat -> R) : Prop :=
  (is_deuteron s -> e 0 = lam 0 /\ e 1 = 0%R /\ midpoint_bins Np 2 e lam) /\
  (~ is_deuteron s -> e 0 = 0%R /\ midpoint_bins Np 1 e lam).
(* The wave packets of partial waves that the force connects (one spectator state) are numbered by energy: by bin, and in each
   bin the lower partial wave (of two coupled ones) first. *)
Definition ascending3 (states : list pw) (Nq Np : nat) (lam : state3 -> R) : Prop :=
  forall a a' iq i i', valid3 (length states) Nq Np (a, iq, i) -> valid3 (length states) Nq Np (a', iq, i') ->
    connects true (nth a states dummy_pw) (nth a' states dummy_pw) = true ->
    i < i' \/ (i = i' /\ block (nth a states dummy_pw) < block (nth a' states dummy_pw)) -> (lam (a, iq, i) < lam (a', iq, i'))%R.
