(* Specifications for the two-nucleon potential (C36, C37, C57-C59), independent of the code's loops and indices. *)
From Coq Require Import Reals.
From Verif Require Import Common PWModel PWSpec GridSpec PotentialModel.
Open Scope Z_scope.

Definition triangle (L S J : Z) : Prop := Z.abs (L - S) <= J <= L + S.

(* The six numbers of a model at (p_in, p_out), in spectroscopic order: 0 singlet; 1 triplet with L=L'=J;
   2 triplet, L=L'=J-1; 5 triplet, L=L'=J+1; 3 triplet "+-" (final L=J+1, initial L'=J-1); 4 triplet "-+".
   Matrix element between the final state (L,S)J and the initial state (L',S)J; mixed elements change sign. *)
Definition element (V : nat -> R) (L L' S J : Z) : R :=
  if S =? 0 then V 0%nat
  else if L =? L' then
    if L =? J then V 1%nat else if L =? J - 1 then V 2%nat else V 5%nat
  else if L <? L' then (- V 4%nat)%R else (- V 3%nat)%R.

(* Fraction of neutron-neutron and neutron-proton interaction in the three-nucleon isospin basis
   <(T 1/2) T_3N | v | (T 1/2) T_3N'> at total charge 1 (Gloeckle et al., Phys. Rep. 274, eq. 160). *)
Definition weight_nn (T twoT3 twoT3' : Z) : R :=
  if T =? 0 then 0
  else if (twoT3 =? 1) && (twoT3' =? 1) then 2 / 3
  else if (twoT3 =? 3) && (twoT3' =? 3) then 1 / 3
  else sqrt 2 / 3.
Definition weight_np (T twoT3 twoT3' : Z) : R :=
  if T =? 0 then 1
  else if (twoT3 =? 1) && (twoT3' =? 1) then 1 / 3
  else if (twoT3 =? 3) && (twoT3' =? 3) then 2 / 3
  else - (sqrt 2 / 3).

(* Interaction energy density between two partial waves r (final) and c (initial) of the same two-nucleon channel, at
   momenta qi (initial), qo (final); nn and np are the six numbers of the model for the two charge states. *)
Definition interaction (nn np : R -> R -> nat -> R) (r c : pw) (qi qo : R) : R :=
  (weight_nn (T_2N r) (two_T_3N r) (two_T_3N c) * element (nn qi qo) (L_2N r) (L_2N c) (S_2N r) (J_2N r) +
   weight_np (T_2N r) (two_T_3N r) (two_T_3N c) * element (np qi qo) (L_2N r) (L_2N c) (S_2N r) (J_2N r))%R.

(* Where a partial wave sits in the 2x2 block matrix of its coupled channel: J-1 first, then J+1; for the 1S0
   channel with isospin breaking T_3N = 1/2 first, then 3/2. *)
Definition block (s : pw) : nat :=
  if (S_2N s =? 0) && (J_2N s =? 0) then (if two_T_3N s =? 3 then 1%nat else 0%nat)
  else if J_2N s <? L_2N s then 1%nat else 0%nat.
(* Row-major addresses of element (row bin i, column bin j). *)
Definition unco_addr (Np k i j : nat) : nat := (k * (Np * Np) + i * Np + j)%nat.
Definition coup_addr (Np k br i bc j : nat) : nat :=
  (k * (2 * Np * (2 * Np)) + (br * Np + i) * (2 * Np) + (bc * Np + j))%nat.

(* Quadrature mesh: bin i holds the n points p (i*n) .. with weights w and weighting function f; norm N i. *)
Definition packet_quadrature (n : nat) (p w f N : nat -> R) (v : R -> R -> R) (i j : nat) : R :=
  (sum (fun a => sum (fun b =>
     (f (i * n + a)%nat * w (i * n + a)%nat * p (i * n + a)%nat) *
     (f (j * n + b)%nat * w (j * n + b)%nat * p (j * n + b)%nat) *
     v (p (j * n + b)%nat) (p (i * n + a)%nat)) n) n / (N i * N j))%R.
(* Mid-point rule: one point per bin, weight = bin width. *)
Definition packet_midpoint (p edge f N : nat -> R) (v : R -> R -> R) (i j : nat) : R :=
  ((f i * (edge (i + 1)%nat - edge i) * p i) * (f j * (edge (j + 1)%nat - edge j) * p j) * v (p j) (p i)
   / (N i * N j))%R.

(* Legendre polynomials *)
Fixpoint legendre (n : nat) (x : R) : R * R :=   (* (P_n, P_{n-1}) *)
  match n with
  | O => (1, 0)%R
  | S m => let (a, b) := legendre m x in (((2 * INR m + 1) * x * a - INR m * b) / (INR m + 1), a)%R
  end.
Definition P (n : nat) (x : R) : R := fst (legendre n x).

(* The six numbers of a potential model for the pair state r at charge Tz, as a function of the momenta. *)
Definition six_of (V : outcome (list R)) (k : nat) : R := match V with Ok l => nth k l 0%R | _ => 0%R end.
Definition at_ (V : list R) : nat -> R := fun k => nth k V 0%R.

(* array sizes of the mesh *)
Definition vgrid_ok (mid : bool) (g : vgrid) : Prop :=
  length (vg_norm g) = vg_Np g /\ length (vg_pWP g) = (vg_Np g + 1)%nat /\
  (let n := if mid then vg_Np g else (vg_Np g * vg_Nper g)%nat in
   length (vg_p g) = n /\ length (vg_f g) = n /\ (mid = false -> length (vg_w g) = n)).

(* the wave-packet matrix element of an interaction v, by quadrature or by the mid-point rule *)
Definition packet (mid : bool) (g : vgrid) (v : R -> R -> R) (i j : nat) : R :=
  if mid then packet_midpoint (at_ (vg_p g)) (at_ (vg_pWP g)) (at_ (vg_f g)) (at_ (vg_norm g)) v i j
  else packet_quadrature (vg_Nper g) (at_ (vg_p g)) (at_ (vg_w g)) (at_ (vg_f g)) (at_ (vg_norm g)) v i j.

(* the six numbers of the model for the pair state s at charge Tz (-1 nn, 0 np); the model is told whether L differs from J *)
Definition potv (pot : potmodel) (s : pw) (Tz : Z) (x y : R) : nat -> R :=
  six_of (pot x y (negb (L_2N s =? J_2N s)) (S_2N s) (J_2N s) (T_2N s) Tz).
(* what the matrix element between (r, bin i) and (c, bin j) must be *)
Definition target (mid : bool) (pot : potmodel) (g : vgrid) (r c : pw) (i j : nat) : R :=
  packet mid g (interaction (potv pot r (-1)) (potv pot r 0) r c) i j.
(* what the two arrays hold for (r, bin i) and (c, bin j): r's channel matrix, blocks of r and c *)
Definition entry (tensor iso : bool) (Np : nat) (V : list R * list R) (r c : pw) (i j : nat) : option R :=
  match matrix_of tensor iso r with
  | (true, Ok z) => nth_error (snd V) (coup_addr Np (Z.to_nat z) (block r) i (block c) j)
  | (false, Ok z) => nth_error (fst V) (unco_addr Np (Z.to_nat z) i j)
  | _ => None
  end.

(* the model returns six numbers for every pair state of the table at the charges it is asked for *)
Definition pot_total (pot : potmodel) (states : list pw) : Prop :=
  forall s Tz x y cpl, In s states -> Tz = 0 \/ (Tz = -1 /\ T_2N s = 1) ->
    exists V, pot x y cpl (S_2N s) (J_2N s) (T_2N s) Tz = Ok V /\ length V = 6%nat.

