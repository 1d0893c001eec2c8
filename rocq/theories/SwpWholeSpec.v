(* Specification of the wave-packet construction as a whole (C75). *)
From Coq Require Import Reals.
From Verif Require Import Common GridSpec PWModel PWSpec SwpModel SwpSpec SwpWholeModel.
Open Scope nat_scope.

(* the symmetric matrix with the given upper triangle *)
Definition symmetric_of (A : nat -> nat -> R) (x y : nat) : R := A (Nat.min x y) (Nat.max x y).
(* (w, z): all eigenvalues in ascending order and an orthonormal set of eigenvectors, vector k in column k of the N x N
   matrix z stored row by row *)
Definition eigen_decomposition (N : nat) (A : nat -> nat -> R) (w z : list R) : Prop :=
  length w = N /\ length z = N * N /\
  (forall a b, a < b < N -> (nth a w 0 <= nth b w 0)%R) /\
  (forall x k, x < N -> k < N -> sum (fun y => A x y * nth (y * N + k) z 0)%R N = (nth k w 0 * nth (x * N + k) z 0)%R) /\
  (forall k l, k < N -> l < N -> sum (fun y => nth (y * N + k) z 0 * nth (y * N + l) z 0)%R N = if k =? l then 1%R else 0%R).
(* average kinetic energy in bin k of the momentum grid p (C29_kinetic_average) *)
Definition bin_kinetic (p : list R) (k : nat) : R :=
  ((nth (k + 1) p 0 * nth (k + 1) p 0 + nth (k + 1) p 0 * nth k p 0 + nth k p 0 * nth k p 0) / (6 * mu23))%R.
(* Hamiltonian of channel i (coupled: two blocks of Np bins) *)
Definition hamiltonian (Np : nat) (p : list R) (V : list R * list R) (cm : bool) (i : nat) (x y : nat) : R :=
  let N := dim2 cm Np in
  (nth (i * N * N + x * N + y) (pick cm V) 0 + (if x =? y then bin_kinetic p (x mod Np) else 0))%R.
(* which of the ascending eigenvalues is wave packet number k: in a coupled channel the first block takes the even ones *)
Definition eigenvalue_no (cm : bool) (Np k : nat) : nat :=
  if cm then (if k <? Np then 2 * k else 2 * (k - Np) + 1) else k.
(* what the eigensolver returns for channel i *)
Definition spectrum (diag : nat -> list R -> list R * list R) (Np : nat) (p : list R) (V : list R * list R) (cm : bool) (i : nat) : list R * list R :=
  diag (dim2 cm Np) (upper_packed (dim2 cm Np) (hamiltonian Np p V cm i)).
(* the contract of LAPACKE_dspevd on the channels i < n cm: given the packed upper triangle it decomposes the matrix *)
Definition solves (diag : nat -> list R -> list R * list R) (Np : nat) (p : list R) (V : list R * list R) (n : bool -> nat) : Prop :=
  forall cm i, i < n cm ->
    eigen_decomposition (dim2 cm Np) (symmetric_of (hamiltonian Np p V cm i)) (fst (spectrum diag Np p V cm i)) (snd (spectrum diag Np p V cm i)).
(* exactly one negative eigenvalue in the deuteron's channel, none elsewhere *)
Definition one_negative (w : list R) : Prop :=
  exists k, k < length w /\ (nth k w 0 < 0)%R /\ forall j, j < length w -> j <> k -> (0 <= nth j w 0)%R.
Definition none_negative (w : list R) : Prop := forall j, j < length w -> (0 <= nth j w 0)%R.
Definition right_bound_states (w : list R) (deuteron : bool) : Prop := if deuteron then one_negative w else none_negative w.
(* columns k of C: an orthonormal basis of eigenvectors, column k with eigenvalue lam k *)
Definition eigenbasis (N : nat) (A C : nat -> nat -> R) (lam : nat -> R) : Prop :=
  forall k, k < N ->
    (forall x, x < N -> sum (fun y => A x y * C y k)%R N = (lam k * C x k)%R) /\
    (forall l, l < N -> sum (fun y => C y k * C y l)%R N = if k =? l then 1%R else 0%R).
(* the number of channel matrices main allocates (uncoupled, coupled), tensor force on *)
Definition num_channels (iso : bool) (J_2N_max : Z) (cm : bool) : nat :=
  Z.to_nat (if cm then num_2N_coup_states true iso J_2N_max else num_2N_unco_states true iso J_2N_max).
(* channel i of the tables: some partial-wave state of the model space lives in it; it is the deuteron's *)
Definition is_channel (iso : bool) (states : list pw) (cm : bool) (i : nat) : Prop :=
  exists s, In s states /\ matrix_of true iso s = (cm, Ok (Z.of_nat i)).
Definition is_deuteron_channel (iso : bool) (states : list pw) (cm : bool) (i : nat) : Prop :=
  exists s, In s states /\ matrix_of true iso s = (cm, Ok (Z.of_nat i)) /\ is_deuteron s.
(* the bound states a channel must have *)
Definition bound_states_ok (deuteron : Prop) (w : list R) : Prop := (deuteron -> one_negative w) /\ (~ deuteron -> none_negative w).
(* the energy bins of a channel with ascending non-degenerate spectrum w and no eigenvalue 0 *)
Definition channel_bins (Np : nat) (cm : bool) (deuteron : Prop) (w : list R) (e : nat -> R) : Prop :=
  increasing w -> (forall k, k < length w -> nth k w 0%R <> 0%R) ->
  let lam k := nth (eigenvalue_no cm Np k) w 0%R in
  (deuteron -> deuteron_bins Np e lam) /\ (~ deuteron -> scattering_bins Np e lam) /\
  (cm = true -> scattering_bins Np (fun j => e (Np + 1 + j)) (fun k => lam (Np + k))).

(* boundary j is halfway between the eigenvalues j-1 and j, from boundary [first] on; the last boundary is as far above the last
   eigenvalue as half the last bin is wide *)
Definition midpoint_bins (Np first : nat) (e lam : nat -> R) : Prop :=
  (forall j, first <= j < Np -> e j = ((lam (j - 1)%nat + lam j) / 2)%R) /\
  e Np = (lam (Np - 1)%nat + ((lam (Np - 2)%nat + lam (Np - 1)%nat) / 2 - (lam (Np - 3)%nat + lam (Np - 2)%nat) / 2) / 2)%R.
Definition channel_midpoints (Np : nat) (cm : bool) (deuteron : Prop) (w : list R) (e : nat -> R) : Prop :=
  let lam k := nth (eigenvalue_no cm Np k) w 0%R in
  (deuteron -> midpoint_bins Np 2 e lam) /\ (~ deuteron -> midpoint_bins Np 1 e lam) /\
  (cm = true -> midpoint_bins Np 1 (fun j => e (Np + 1 + j)) (fun k => lam (Np + k))).
