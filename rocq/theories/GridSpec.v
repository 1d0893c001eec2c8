(* Small specification of momentum grids (C14-C18). *)
From Coq Require Import Reals String.
From Verif Require Import Common.
Open Scope R_scope.

(* N contiguous non-empty bins [b_0,b_1], ..., [b_{N-1},b_N] starting at 0 *)
Definition partition_from_zero (N : nat) (b : list R) : Prop :=
  length b = (N + 1)%nat /\ nth 0 b 0 = 0 /\ forall i j, (i < j <= N)%nat -> nth i b 0 < nth j b 0.

(* bin i of a grid *)
Definition lower (b : list R) (i : nat) : R := nth i b 0.
Definition upper (b : list R) (i : nat) : R := nth (i + 1) b 0.

Definition sum (f : nat -> R) (n : nat) : R := fold_right Rplus 0 (map f (seq 0 n)).

Definition strictly_increasing_from_0 (f : R -> R) : Prop := forall x y, 0 <= x -> x < y -> f x < f y.
(* g undoes f on non-negative numbers *)
Definition inverse_from_0 (f g : R -> R) : Prop := forall x, 0 <= x -> 0 <= f x /\ g (f x) = x.

(* relativistic two-body kinematics: a nucleon of mass m and kinetic energy T hits a target of mass M at rest;
   s is the squared invariant mass; the centre-of-mass momentum k satisfies 4 s k^2 = (s-(m+M)^2)(s-(m-M)^2) *)
Definition inv_mass_sq (m M T : R) : R := (m + M) * (m + M) + 2 * T * M.
Definition com_momentum_of (m M T k : R) : Prop :=
  0 <= k /\ 4 * inv_mass_sq m M T * (k * k)
            = (inv_mass_sq m M T - (m + M) * (m + M)) * (inv_mass_sq m M T - (m - M) * (m - M)).
