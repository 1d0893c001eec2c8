(* The geometric function of the permutation operator as a formula (C69-C71), independent of tables, loop bounds and
   array layouts.  Gloeckle, "The Quantum Mechanical Few-Body Problem" (1983), eq. 3.349, with p' along the z axis. *)
From Coq Require Import Reals.
From Verif Require Import Common PWModel GridSpec.
Open Scope R_scope.

(* sum of f over all integers from lo to hi *)
Definition zsum (lo hi : Z) (f : Z -> R) : R := sum (fun k => f (lo + Z.of_nat k)%Z) (Z.to_nat (hi - lo + 1)).

(* What is assumed of the special functions (GSL): angular momenta doubled.
   3j vanishes unless the three angular momenta form a triangle and no projection exceeds its angular momentum;
   9j vanishes unless its last row forms a triangle. *)
Definition can_couple (a b c : Z) : Prop := (Z.abs (a - b) <= c <= a + b)%Z.
Definition threej_rule (threej : Z -> Z -> Z -> Z -> Z -> Z -> R) : Prop := forall a b c m n k,
  ~ (can_couple a b c /\ Z.abs m <= a /\ Z.abs n <= b /\ Z.abs k <= c)%Z -> threej a b c m n k = 0.
Definition ninej_rule (ninej : Z -> Z -> Z -> Z -> Z -> Z -> Z -> Z -> Z -> R) : Prop := forall a b c d e f g h i,
  ~ can_couple g h i -> ninej a b c d e f g h i = 0.
(* the block written by the Legendre routine holds Plm(x) for 0 <= m <= l <= lmax in triangular order *)
Definition legendre_rule (sphP : Z -> Z -> R -> R) (legblock : Z -> R -> list R) (legsize : Z -> Z) : Prop :=
  forall lmax x, (0 <= lmax)%Z -> Z.of_nat (length (legblock lmax x)) = legsize lmax /\
    forall l m, (0 <= m <= l)%Z -> (l <= lmax)%Z ->
      nth_error (legblock lmax x) (Z.to_nat (l * (l + 1) / 2 + m)) = Some (sphP l m x).

Section Spec.
Variable sixj : Z -> Z -> Z -> Z -> Z -> Z -> R.
Variable ninej : Z -> Z -> Z -> Z -> Z -> Z -> Z -> Z -> Z -> R.
Variable threej : Z -> Z -> Z -> Z -> Z -> Z -> R.
Variable sphP : Z -> Z -> R -> R.     (* normalised associated Legendre function, m >= 0 *)

Definition sign (n : Z) : R := if Z.even n then 1 else -1.
(* Y_lm(theta, 0) as a function of c = cos theta *)
Definition Y (l m : Z) (c : R) : R := if (0 <=? m)%Z then sphP l m c else sign m * sphP l (- m) c.
(* <l1 m1 l2 m2 | l m> for integer angular momenta *)
Definition clebsch (l1 m1 l2 m2 l m : Z) : R :=
  sign (l1 - l2 + m) * sqrt (IZR (2 * l + 1)) * threej (2 * l1) (2 * l2) (2 * l) (2 * m1) (2 * m2) (- (2 * m)).

(* spin-isospin-orbital recoupling coefficient of total orbital momentum L; r the row state, c the column state *)
Definition recoupling (r c : pw) (L : Z) : R :=
  let hat s := sqrt (IZR ((2 * J_2N s + 1) * (two_J_1N s + 1) * (2 * S_2N s + 1) * (2 * T_2N s + 1))) in
  if (two_T_3N r =? two_T_3N c)%Z then
    hat r * hat c * sign (S_2N c + T_2N c) * sixj 1 1 (2 * T_2N r) 1 (two_T_3N r) (2 * T_2N c) *
    (let spin two_S := IZR (two_S + 1) * sixj 1 1 (2 * S_2N r) 1 two_S (2 * S_2N c) *
       ninej (2 * L_2N r) (2 * S_2N r) (2 * J_2N r) (2 * L_1N r) 1 (two_J_1N r) (2 * L) two_S (two_J_3N r) *
       ninej (2 * L_2N c) (2 * S_2N c) (2 * J_2N c) (2 * L_1N c) 1 (two_J_1N c) (2 * L) two_S (two_J_3N r)
     in spin 1%Z + spin 3%Z)
  else 0.

(* x: cosine between the Jacobi momenta; c1, c2: cosines of the recoupled pair and spectator momenta *)
Definition geometric (r c : pw) (x c1 c2 : R) : R :=
  let (Lr, lr) := (L_2N r, L_1N r) in let (Lc, lc) := (L_2N c, L_1N c) in
  8 * (PI * PI) * sqrt ((2 * IZR Lr + 1) / (4 * PI)) *
  zsum 0 (Lr + lr) (fun L => recoupling r c L *
    zsum (- lr) lr (fun M => sign M * clebsch Lr 0 lr M L M * Y lr M x *
      zsum (- Lc) Lc (fun M' => if (Z.abs (M - M') <=? lc)%Z
         then clebsch Lc M' lc (M - M') L M * Y Lc M' c1 * Y lc (M - M') c2 else 0))).
End Spec.

(* Cosines (polar angles) of the recoupled momenta: Jacobi vectors P = p e_z and Q = q (sqrt(1-x^2), x) recouple to
   -P/2 - 3Q/4 (pair) and P - Q/2 (spectator). *)
Definition cosine (t z : R) : R := z / sqrt (t * t + z * z).
Definition pair_cos (p q x : R) : R := cosine (- (3 / 4 * (q * sqrt (1 - x * x)))) (- (1 / 2 * p) - 3 / 4 * (q * x)).
Definition spectator_cos (p q x : R) : R := cosine (- (1 / 2 * (q * sqrt (1 - x * x)))) (p - 1 / 2 * (q * x)).
