(* Specifications for the solvers (C40-C45), independent of the code's arrays and loops. *)
From Coq Require Import Reals.
From Verif Require Import Common ArrayLib PWModel PWSpec SwpModel ResolventModel GridSpec KernelModel KernelSpec FaddeevModel.
Open Scope nat_scope.

(* complex sums *)
Definition csum (f : nat -> cdouble) (n : nat) : cdouble := (sum (fun k => fst (f k)) n, sum (fun k => snd (f k)) n).
Definition rc (x : R) : cdouble := (x, 0%R).

(* Row x of  A (G A)^n  for a real matrix A and a complex diagonal G of dimension D *)
Fixpoint neumann (D : nat) (A : nat -> nat -> R) (G : nat -> cdouble) (n : nat) (x c : nat) : cdouble :=
  match n with
  | O => rc (A x c)
  | S m => csum (fun k => cmul (cmul (neumann D A G m x k) (G k)) (rc (A k c))) D
  end.

(* position i of the basis as (partial wave, q bin, p bin) *)
Definition state_of (Nq Np i : nat) : state3 := (i / (Nq * Np), (i mod (Nq * Np)) / Np, i mod Np).

(* What an on-shell element stands for: incoming deuteron state d_in and outgoing state (a, qo, p) at energy number q,
   i.e. row (deuteron d, on-shell bin, p = 0) and some column. *)
Definition row_state (s : fsys) (r : nat) : nat :=
  idx3 (s_Nq s) (s_Np s) (nth (r / s_nq s) (s_d s) 0, nth (r mod s_nq s) (s_q s) 0, 0).
Definition row_G (s : fsys) (r : nat) (k : nat) : cdouble := nth ((r mod s_nq s) * s_D s + k) (s_G s) c0.
Definition term (s : fsys) (A : nat -> nat -> R) (n : nat) (e : elt) : cdouble :=
  neumann (s_D s) A (row_G s (e_row e)) n (row_state s (e_row e)) (e_col e).

(* sizes and index ranges of the inputs *)
Definition inputs_ok (s : fsys) : Prop :=
  0 < s_Np s /\ 0 < s_Nq s /\ csc_ok (s_D s) (s_P s) /\
  length (s_G s) = s_nq s * s_D s /\
  (forall q, In q (s_q s) -> q < s_Nq s) /\ (forall d, In d (s_d s) -> d < s_N s) /\
  (s_breakup s = true ->
     length (s_ends s) = s_nq s + 1 /\ (forall q, q < s_nq s -> nth q (s_ends s) 0 <= nth (q + 1) (s_ends s) 0) /\
     nth (s_nq s) (s_ends s) 0 <= s_nBU s /\
     forall x, In x (s_cells s) -> valid3 (s_N s) (s_Nq s) (s_Np s) x).
(* the block operators of s are those the construction makes from V and C for a channel of a partial-wave table *)
Definition operators_of (s : fsys) (tensor iso : bool) (J_2N_max : Z) (states : list pw) (V C : list R * list R) : Prop :=
  s_N s = length states /\
  (exists iu ic ip, mats_ok tensor iso J_2N_max (s_Np s) (iu, ic) /\ length ip = length states * length states /\
     create_CT tensor iso J_2N_max (s_Np s) states (fst C) (snd C) iu ic ip = Ok (s_CT s)) /\
  (exists iu ic ip, mats_ok tensor iso J_2N_max (s_Np s) (iu, ic) /\ length ip = length states * length states /\
     create_VC tensor iso J_2N_max (s_Np s) states (fst V) (snd V) (fst C) (snd C) iu ic ip = Ok (s_VC s)).
(* the kernel A = C^T (2 P123) V C as a matrix of numbers *)
Definition kernel_matrix (s : fsys) (tensor iso : bool) (states : list pw) (V C : list R * list R) (i j : nat) : R :=
  kernel (s_N s) (s_Nq s) (s_Np s) (op3 tensor iso (s_Np s) states C) (op3 tensor iso (s_Np s) states V) (s_P s)
    (state_of (s_Nq s) (s_Np s) i) (state_of (s_Nq s) (s_Np s) j).

(* everything a call of the solver in a channel comes with: a channel of a partial-wave table, the two-nucleon matrices
   of the potential V and of the wave packets C, their block operators, and inputs of the right sizes.  Excluded as in
   C38: tensor force off together with J_2N_max >= 2 or isospin breaking. *)
Record channel_system (s : fsys) (tensor iso : bool) (J_2N_max two_J_3N_max c : Z) (states : list pw) (V C : list R * list R) : Prop := mkcs {
  cs_max : (1 <= two_J_3N_max)%Z;
  cs_odd : Z.Odd two_J_3N_max;
  cs_table : exists g ss, construct_symmetric_pw_states_g g J_2N_max two_J_3N_max iso = Ok ss /\ (0 <= c < ss_N_chn ss)%Z /\
     channel_slice ss c = Ok states;
  cs_cfg : tensor = true \/ (tensor = false /\ iso = false /\ (J_2N_max <= 1)%Z);
  cs_V : mats_ok tensor iso J_2N_max (s_Np s) V;
  cs_C : mats_ok tensor iso J_2N_max (s_Np s) C;
  cs_ops : operators_of s tensor iso J_2N_max states V C;
  cs_in : inputs_ok s }.

(* The elements a caller asks for.  Elastic: from deuteron channel dr to deuteron channel dc at energy number q, stored
   at dr*nd*nq + dc*nq + q.  Breakup: from deuteron channel dr to cell number b of energy q, stored at dr*nBU + b. *)
Definition elastic (s : fsys) (e : elt) : Prop := exists dr dc q, dr < s_nd s /\ dc < s_nd s /\ q < s_nq s /\
  e = mkelt (dr * s_nd s * s_nq s + dc * s_nq s + q) (dr * s_nq s + q) (idx3 (s_Nq s) (s_Np s) (nth dc (s_d s) 0, nth q (s_q s) 0, 0)).
Definition breakup (s : fsys) (e : elt) : Prop := s_breakup s = true /\ exists dr q b, dr < s_nd s /\ q < s_nq s /\
  nth q (s_ends s) 0 <= b < nth (q + 1) (s_ends s) 0 /\
  e = mkelt (dr * s_nBU s + b) (dr * s_nq s + q) (idx3 (s_Nq s) (s_Np s) (nth b (s_cells s) (0, 0, 0))).
