(* Specification of the scattering equation in the basis of free wave packets (C77).  Basis states are numbered 0 .. D-1. *)
From Coq Require Import Reals.
From Verif Require Import Common GridSpec ResolventModel FaddeevModel FaddeevSpec DetModel.
Open Scope nat_scope.

(* the operator (2 P) V *)
Definition two_PV (D : nat) (P V : nat -> nat -> R) (x y : nat) : R := sum (fun z => 2 * P x z * V z y)%R D.
(* the resolvent as an operator: sum over the eigenstates k (column k of C) of |k> g_k <k| *)
Definition resolvent_op (D : nat) (C : nat -> nat -> R) (g : nat -> cdouble) (x y : nat) : cdouble :=
  ctotal (fun k => cmul (rc (C x k * C y k)%R) (g k)) D.
(* T = K + K R T *)
Definition ags_solution (D : nat) (K : nat -> nat -> R) (R T : nat -> nat -> cdouble) : Prop :=
  forall x y, x < D -> y < D ->
    T x y = cadd (rc (K x y)) (ctotal (fun z => cmul (rc (K x z)) (ctotal (fun t => cmul (R z t) (T t y)) D)) D).
(* ... has at most one solution: y = K R y only for y = 0 *)
Definition ags_regular (D : nat) (K : nat -> nat -> R) (R : nat -> nat -> cdouble) : Prop :=
  forall y, (forall x, x < D -> y x = ctotal (fun z => cmul (rc (K x z)) (ctotal (fun t => cmul (R z t) (y t)) D)) D) ->
    forall x, x < D -> y x = c0.
(* matrix element of T between the eigenstates x and y (columns of C) *)
Definition between (D : nat) (C : nat -> nat -> R) (T : nat -> nat -> cdouble) (x y : nat) : cdouble :=
  ctotal (fun i => ctotal (fun j => cmul (cmul (rc (C i x)) (T i j)) (rc (C j y))) D) D.
(* the operators K (R K)^n of the iterated equation *)
Fixpoint born_term (D : nat) (K : nat -> nat -> R) (R : nat -> nat -> cdouble) (n : nat) (x y : nat) : cdouble :=
  match n with
  | O => rc (K x y)
  | S m => ctotal (fun z => cmul (ctotal (fun t => cmul (born_term D K R m x t) (R t z)) D) (rc (K z y))) D
  end.

(* the three arrays of a sparse matrix given as a list of elements *)
Definition rows_of (res : list (Z * Z * R)) : list nat := map (fun e => Z.to_nat (fst (fst e))) res.
Definition cols_of (res : list (Z * Z * R)) : list nat := map (fun e => Z.to_nat (snd (fst e))) res.
Definition vals_of (res : list (Z * Z * R)) : list R := map snd res.
