(* Quadrature routines: General_functions/gauss_legendre.cpp (gauss, double version) and auxiliary.cpp (dLegendre, roots),
   over R.  calc_gauss_points itself is in PermModel.v. *)
From Coq Require Import Reals.
From Verif Require Import Common ArrayLib SwpModel.
Open Scope R_scope.

(* ---------- gauss(double*, double*, int), gauss_legendre.cpp l.36-67 ---------- *)
Definition gauss_eps : R := 3 * / 10 ^ 16.                             (* l.39 *)
(* l.47-54: (p1, p2) after the loop over j = 1..N (p3 is a temporary) *)
Definition leg_loop (N : nat) (t : R) : R * R :=
  fold_left (fun '(p1, p2) j => (((2 * INR j - 1) * t * p1 - (INR j - 1) * p2) / INR j, p1)) (seq 1 N) (1, 0).
(* l.46-59: the while loop, at most [fuel] times; Err: not finished by then (the routine itself never gives up).
   Division by zero: UB. *)
Fixpoint gauss_newton (fuel N : nat) (t t1 pp : R) : outcome (R * R) :=
  if Rltb (Rabs (t - t1)) gauss_eps then Ok (t, pp)
  else match fuel with
  | O => Err
  | S fuel =>
      let '(p1, p2) := leg_loop N t in
      if Req_EM_T (t * t - 1) 0 then UB else
      let pp := INR N * (t * p1 - p2) / (t * t - 1) in
      if Req_EM_T pp 0 then UB else
      gauss_newton fuel N (t - p1 / pp) t pp
  end.
(* l.42-66 *)
Definition gauss (fuel N : nat) (xw : list R * list R) : outcome (list R * list R) :=
  ofold (fun '(x, w) i =>
      do '(t, pp) <- gauss_newton fuel N (cos (PI * (INR i - 0.25) / (INR N + 0.5))) 1 0;
      do x <- awrite x (i - 1) (- t);
      do x <- awrite x (N - i) t;
      if Req_EM_T ((1 - t * t) * pp * pp) 0 then UB else
      do w <- awrite w (i - 1) (2 / ((1 - t * t) * pp * pp));
      do wi <- aread w (i - 1);
      do w <- awrite w (N - i) wi;
      Ok (x, w)) (seq 1 ((N + 1) / 2)) xw.

(* ---------- auxiliary.cpp ---------- *)
Section Gsl.
(* gsl_sf_legendre_Pl(l, x) *)
Variable Pl : nat -> R -> R.
(* dP l.10-14, dLegendre l.30-33 *)
Definition dLegendre (n : nat) (x : R) : R := (INR n * x * Pl n x - INR n * Pl (n - 1) x) / (x * x - 1).
(* one gsl_root_fdfsolver_iterate with the Newton solver, l.60-63: GSL aborts the program when the derivative is zero or
   not finite *)
Definition gsl_step (n : nat) (x : R) : outcome R :=
  if Req_EM_T (x * x - 1) 0 then Exc else
  if Req_EM_T (dLegendre n x) 0 then Exc else Ok (x - Pl n x / dLegendre n x).
(* gsl_root_test_delta(x1, x0, 0, 1e-9), l.64 *)
Definition gsl_close (x1 x0 : R) : bool :=
  if Rltb (Rabs (x1 - x0)) (/ 10 ^ 9 * Rabs x1) then true else if Req_EM_T x1 x0 then true else false.
(* l.57-66: do ... while (not close && iter < 100); [more] = further iterations allowed *)
Fixpoint gsl_newton (more n : nat) (x : R) : outcome R :=
  do x1 <- gsl_step n x;
  if gsl_close x1 x then Ok x1 else match more with O => Ok x1 | S more => gsl_newton more n x1 end.
(* roots l.35-75: 3.14159 is the constant in the code *)
Definition gsl_start (n i : nat) : R := cos (3.14159 * (INR (n - 1 - i) + 1 - 0.25) / (INR n + 0.5)).
Definition gsl_roots (n : nat) : outcome (list R) :=
  ofold (fun q i => do t <- gsl_newton 99 n (gsl_start n i); Ok (q ++ [t])) (seq 0 n) [].
End Gsl.
