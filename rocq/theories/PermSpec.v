(* Small specification of the permutation kinematics (C19, C20). *)
From Coq Require Import Reals.
From Coquelicot Require Import Coquelicot.
From Verif Require Import Common GridSpec.
Open Scope R_scope.

(* total kinetic energy of a Jacobi momentum pair, in units where p^2 carries weight 1 *)
Definition jacobi_energy (p q : R) : R := p * p + 3 / 4 * (q * q).
Definition inside (b : list R) (i : nat) (k : R) : Prop := lower b i < k < upper b i.
Definition mesh_in (a b : R) (l : list R) : Prop := forall t, In t l -> a < t < b.

(* What one direction (angle phi of the pair (p',q'), cosine x) contributes to a permutation element: the integral over
   the length k of (p',q') = k (sin phi, cos phi) of  p' q' / (pi1 pi2) dp' dq',  with dp' dq' = k dk dphi, over the
   k for which p' and q' are in the bra bins and the recoupled momenta [pi1], [pi2] in the ket bins. *)
Definition within (b : list R) (i : nat) (k : R) : Prop := lower b i <= k <= upper b i.
Definition in_cells (pi1 pi2 : R -> R -> R) (pb qb : list R) (pp qp p q : nat) (p' q' : R) : Prop :=
  within pb pp p' /\ within qb qp q' /\ within pb p (pi1 p' q') /\ within qb q (pi2 p' q').
Definition direction_integral (pi1 pi2 : R -> R -> R) (pb qb : list R) (pp qp p q : nat) (phi v : R) : Prop :=
  let at_k k (f : R -> R -> R) := f (k * sin phi) (k * cos phi) in
  ((forall k, 0 < k -> ~ in_cells pi1 pi2 pb qb pp qp p q (k * sin phi) (k * cos phi)) /\ v = 0) \/
  (exists a b, 0 <= a <= b /\
     (forall k, 0 < k -> (in_cells pi1 pi2 pb qb pp qp p q (k * sin phi) (k * cos phi) <-> a <= k <= b)) /\
     is_RInt (fun k => (k * sin phi) * (k * cos phi) / (at_k k pi1 * at_k k pi2) * k) a b v).
