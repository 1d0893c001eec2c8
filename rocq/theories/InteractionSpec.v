(* What the two built-in interactions are in physics terms (C68), independent of the code's loops and tables.
   Momenta in MeV; q2 is the squared momentum transfer for scattering angle arccos x. *)
From Coq Require Import Reals.
From Verif Require Import GridSpec PotentialSpec.
Open Scope R_scope.

Definition q2 (p p' x : R) : R := p * p + p' * p' - 2 * p * p' * x.

(* Malfliet-Tjon: attractive minus repulsive Yukawa terms V/(2 pi^2 (q^2 + mu^2)); V in units of hbar c, mu in MeV.
   Table I of Payne et al., PRC 22, 823: V_A(I) 513.968, V_A(III) 626.885, V_R 1438.720 MeV fm, mu_A 1.55, mu_R 3.11 fm^-1. *)
Definition hbar_c : R := 197.327.
Definition yukawa (V mu k2 : R) : R := V / hbar_c / (2 * (PI * PI) * (k2 + (mu * hbar_c) * (mu * hbar_c))).
Definition mt_I (k2 : R) : R := yukawa 1438.720 3.110 k2 - yukawa 513.968 1.550 k2.
Definition mt_III (k2 : R) : R := yukawa 1438.720 3.110 k2 - yukawa 626.885 1.550 k2.

(* Leading-order chiral interaction: regulated one-pion exchange plus a contact term in each S wave.
   One-pion exchange: -(gA/2 fpi)^2 <tau1.tau2> (sigma1.q)(sigma2.q) / (q^2 + mpi^2). *)
Definition pion (k2 : R) : R := - (1.289 / (2 * 92.2)) ^ 2 / (k2 + 138.039 ^ 2).
(* Angular integral 2 pi int f(x) dx by the quadrature (z, w). *)
Definition angular (z w : list R) (f : R -> R) : R := 2 * PI * sum (fun i => at_ w i * f (at_ z i)) (length w).
(* Partial-wave projection of v(q^2) (sigma1.q)(sigma2.q) for total angular momentum J and in/out momenta p, p'
   (Erkelenz, Alzetta, Holinde, Nucl. Phys. A176 (1971) 413), numbered as in PotentialSpec.element:
   0 singlet, 1 triplet L=J, 2 L=L'=J-1, 3 final L=J+1, 4 final L=J-1, 5 L=L'=J+1. *)
Definition tensor_wave (z w : list R) (v : R -> R) (J : nat) (p p' : R) (k : nat) : R :=
  let j := INR J in
  let I (f : R -> R) := angular z w (fun x => v (q2 p p' x) * f x) in
  match k with
  | O => I (fun x => - q2 p p' x * P J x)                                    (* (sigma1.q)(sigma2.q) = -q^2 for S = 0 *)
  | 1%nat => I (fun x => (p * p + p' * p') * P J x - 2 * p * p' * ((j * P (J + 1) x + (j + 1) * P (J - 1) x) / (2 * j + 1)))
  | 2%nat => I (fun x => ((p * p + p' * p') * P (J - 1) x - 2 * p * p' * P J x) / (2 * j + 1))
  | 3%nat => 2 * sqrt (j * (j + 1)) / (2 * j + 1) * I (fun x => p * p * P (J + 1) x + p' * p' * P (J - 1) x - 2 * p * p' * P J x)
  | 4%nat => 2 * sqrt (j * (j + 1)) / (2 * j + 1) * I (fun x => p' * p' * P (J + 1) x + p * p * P (J - 1) x - 2 * p * p' * P J x)
  | 5%nat => I (fun x => (- (p * p + p' * p') * P (J + 1) x + 2 * p * p' * P J x) / (2 * j + 1))
  | _ => 0
  end.
(* <tau1.tau2> of the state the k-th number belongs to: T from the Pauli principle, L + S + T odd *)
Definition tau (L S : nat) : R := if Nat.even (L + S) then 1 else -3.
Definition wave_tau (J k : nat) : R :=
  match k with O => tau J 0 | 1%nat => tau J 1 | _ => tau (J + 1) 1 end.
(* contact terms: 1S0 and 3S1 *)
Definition contact (J k : nat) : R :=
  match J, k with O, O => -0.112927 / 100 | 1%nat, 2%nat => -0.087340 / 100 | _, _ => 0 end.
(* which of the six numbers belong to states that exist: for J = 0 only 1S0 and 3P0 *)
Definition exists_wave (J k : nat) : Prop := (k < 6)%nat /\ (J = 0%nat -> k = 0%nat \/ k = 5%nat).
(* cut-off 450 MeV to the sixth power and the minimal-relativity factor of one leg, M the nucleon mass *)
Definition leg (M p : R) : R := exp (- (p / 450) ^ 6) * sqrt (M / sqrt (M * M + p * p)).
Definition leading_order (z w : list R) (M : R) (J : nat) (p p' : R) (k : nat) : R :=
  (wave_tau J k * tensor_wave z w pion J p p' k + contact J k) * leg M p * leg M p' / (2 * PI) ^ 3.
