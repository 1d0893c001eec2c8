(* Statements about the resummation in terms of sequences of complex numbers. *)
From Coq Require Import Reals.
From Verif Require Import Common ArrayLib SwpModel ResolventModel GridSpec KernelModel KernelSpec FaddeevModel FaddeevSpec DetModel DenseModel.
Open Scope nat_scope.

(* value of the polynomial p_0 + p_1 z + ... + p_M z^M *)
Definition poly_at (p : nat -> cdouble) (M : nat) (z : cdouble) : cdouble := ctotal (fun k => cmul (p k) (cpow z k)) (M + 1).
(* a_0 + a_1 z + ... is, up to order 2M, the expansion of p/q with p and q of degree at most M, q not zero:
   the product of the series and q is p *)
Definition rational_series (a p q : nat -> cdouble) (M : nat) : Prop :=
  (exists i, i <= M /\ q i <> c0) /\ (forall i, M < i -> p i = c0 /\ q i = c0) /\
  (forall k, k <= 2 * M -> ctotal (fun i => cmul (q i) (a (k - i))) (k + 1) = p k).
(* the matrix whose determinant is the denominator of the [M/M] approximant at z *)
Definition denominator (a : nat -> cdouble) (M : nat) (z : cdouble) (r c : nat) : cdouble :=
  if r <? M then a (r + c + 1) else cpow z (M - c).
(* ... and the numerator *)
Definition numerator (a : nat -> cdouble) (M : nat) (z : cdouble) (r c : nat) : cdouble :=
  if r <? M then a (r + c + 1) else ctotal (fun j => cmul (a j) (cpow z (M - c + j))) (c + 1).

(* X is the solution of the Faddeev equation X = A + A G X *)
Definition faddeev_solution (D : nat) (A : nat -> nat -> R) (G : nat -> cdouble) (X : nat -> nat -> cdouble) : Prop :=
  forall r c, r < D -> c < D -> X r c = cadd (rc (A r c)) (ctotal (fun i => cmul (cmul (rc (A r i)) (G i)) (X i c)) D).
(* ... which has no second solution: the homogeneous equation has only the trivial one *)
Definition faddeev_regular (D : nat) (A : nat -> nat -> R) (G : nat -> cdouble) : Prop :=
  forall y, (forall r, r < D -> y r = ctotal (fun i => cmul (cmul (rc (A r i)) (G i)) (y i)) D) -> forall r, r < D -> y r = c0.

(* the determinant, by expansion along the first row *)
Fixpoint laplace (n : nat) (f : nat -> nat -> cdouble) : cdouble :=
  match n with
  | O => c1
  | S m => ctotal (fun j => cmul (cpow (copp c1) j) (cmul (f 0 j) (laplace m (fun r c => f (S r) (if c <? j then c else S c))))) (S m)
  end.

(* the [M/M] approximant of a_0 + a_1 z + ... at z: ratio of the two determinants *)
Definition approximant (a : nat -> cdouble) (M : nat) (z : cdouble) : cdouble :=
  cdiv (laplace (M + 1) (numerator a M z)) (laplace (M + 1) (denominator a M z)).
(* |approximant k - approximant (k-1)| at z = 1 *)
Definition change (a : nat -> cdouble) (k : nat) : R := cabs (cadd (approximant a k c1) (copp (approximant a (k - 1) c1))).
(* Approximant b, b >= 1, is accepted when the orders up to NM have been computed: it has the smallest change above
   1e-15, and that change is below 1e-7 or below 1e-6 of its size, or the five orders after it brought nothing better,
   or NM = 14 is the last order. *)
Definition accepted (a : nat -> cdouble) (b NM : nat) : Prop :=
  b <= NM /\ NM <= 14 /\
  (1 <= b -> (1 / 10 ^ 15 < change a b < 1)%R /\
     (forall k, 1 <= k <= NM -> (change a k <= 1 / 10 ^ 15)%R \/ (change a b <= change a k)%R) /\
     (NM = 14 \/ b + 5 <= NM \/ (change a b < 1 / 10 ^ 6 * cabs (approximant a b c1))%R \/ (change a b < 1 / 10 ^ 7)%R)).
