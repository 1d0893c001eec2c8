(* Specifications used by SwpProps.v (independent of the code's loops and index formulas). *)
From Coq Require Import Reals.
From Verif Require Import Common.
Open Scope nat_scope.

(* LAPACK packed storage, row-major, upper triangle: the rows of the upper triangle one after another. *)
Definition upper_packed (N : nat) (A : nat -> nat -> R) : list R :=
  flat_map (fun r => map (A r) (seq r (N - r))) (seq 0 N).

(* Eigenpair k of an n x n eigenvector matrix stored row by row: the eigenvalue and column k. *)
Definition eigenpair {A} (n : nat) (vals vecs : list A) (k : nat) : option A * list (option A) :=
  (nth_error vals k, map (fun j => nth_error vecs (j * n + k)) (seq 0 n)).
Definition eigenpairs {A} (n : nat) (vals vecs : list A) := map (eigenpair n vals vecs) (seq 0 n).

(* Np energy bins with boundaries e 0 .. e Np for the eigenvalues lam 0 .. lam (Np-1):
   contiguous from 0, eigenvalue i strictly inside bin i (so boundaries strictly increase). *)
Definition scattering_bins (Np : nat) (e lam : nat -> R) : Prop :=
  e 0 = 0%R /\ forall i, i < Np -> (e i < lam i < e (i + 1)%nat)%R.
(* The same with the deuteron: the first bin is [E_d, 0], the others hold the positive eigenvalues. *)
Definition deuteron_bins (Np : nat) (e lam : nat -> R) : Prop :=
  e 0 = lam 0 /\ e 1 = 0%R /\ (e 0%nat < e 1%nat)%R /\ forall i, 1 <= i < Np -> (e i < lam i < e (i + 1)%nat)%R.

Definition increasing (w : list R) : Prop :=
  forall a b, a < b < length w -> (nth a w 0 < nth b w 0)%R.
