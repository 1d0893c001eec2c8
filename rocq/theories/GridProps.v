(* Property theorems about momentum grids and kinematics (C14-C18). *)
From Coq Require Import Reals Lra String.
From Coquelicot Require Import Coquelicot.
From Verif Require Import Common ArrayLib SwpModel GridModel GridSpec GridProofs GridPropsLemmas.
Open Scope R_scope.

(* C14: whatever was in freshly allocated memory, whatever files exist, and for any quadrature rule. *)
Theorem C14_chebyshev_grids lines parse gauss_x gauss_w junk g :
  (forall n, length (junk n) = n) -> (forall n, length (gauss_x n) = n) -> (forall n, length (gauss_w n) = n) ->
  gp_p_type g = "chebyshev"%string -> gp_q_type g = "chebyshev"%string -> 0 < gp_s g -> 0 < gp_t g ->
  exists f, make_fwp lines parse gauss_x gauss_w junk g = Ok f /\
    partition_from_zero (gp_Np g) (f_pWP f) /\ partition_from_zero (gp_Nq g) (f_qWP f) /\
    (forall i, (1 <= i <= gp_Np g)%nat ->
       nth i (f_pWP f) 0 = gp_s g * Rpower (tan ((2 * INR i - 1) * PI / (4 * INR (gp_Np g)))) (gp_t g)) /\
    (forall i, (i < gp_Np g)%nat -> 0 < nth i (f_np f) 0 /\ nth i (f_np f) 0 * nth i (f_np f) 0 = upper (f_pWP f) i - lower (f_pWP f) i) /\
    (forall i, (i < gp_Nq g)%nat -> 0 < nth i (f_nq f) 0 /\ nth i (f_nq f) 0 * nth i (f_nq f) 0 = upper (f_qWP f) i - lower (f_qWP f) i) /\
    (gp_midpoint g = true ->
      (forall i, (i < gp_Np g)%nat -> lower (f_pWP f) i < nth i (f_p f) 0 < upper (f_pWP f) i /\
         nth i (f_p f) 0 - lower (f_pWP f) i = upper (f_pWP f) i - nth i (f_p f) 0) /\
      (forall i, (i < gp_Nq g)%nat -> lower (f_qWP f) i < nth i (f_q f) 0 < upper (f_qWP f) i /\
         nth i (f_q f) 0 - lower (f_qWP f) i = upper (f_qWP f) i - nth i (f_q f) 0)).
Proof. intros Hj Hx Hw. exact (chebyshev_grids lines parse gauss_x gauss_w junk Hj Hx Hw g). Qed.
Print Assumptions C14_chebyshev_grids.

Example C14_example : exists f,
  make_fwp (fun _ => []) (fun _ => None) (fun n => repeat 0 n) (fun n => repeat 0 n) (fun n => repeat 7 n)
    {| gp_Np := 30; gp_Nq := 32; gp_Np_per := 8; gp_Nq_per := 8; gp_s := 100; gp_t := 1;
       gp_p_type := "chebyshev"; gp_p_file := ""; gp_q_type := "chebyshev"; gp_q_file := ""; gp_midpoint := false |} = Ok f /\
  partition_from_zero 30 (f_pWP f).
Proof.
  destruct (C14_chebyshev_grids (fun _ => []) (fun _ => None) (fun n => repeat 0 n) (fun n => repeat 0 n) (fun n => repeat 7 n)
    {| gp_Np := 30; gp_Nq := 32; gp_Np_per := 8; gp_Nq_per := 8; gp_s := 100; gp_t := 1;
       gp_p_type := "chebyshev"; gp_p_file := ""; gp_q_type := "chebyshev"; gp_q_file := ""; gp_midpoint := false |})
    as (f & E & P & _); try (intros; apply repeat_length); try reflexivity; try (cbn [gp_s gp_t]; lra).
  exists f. split; [ exact E | exact P ].
Qed.

(* C15 is false of the code: the "custom" test of the q grid looks at the p grid type. *)
Theorem C15_refuted lines parse b :
  (* a chebyshev p grid with a custom q grid is always rejected *)
  (forall g, gp_p_type g = "chebyshev"%string -> gp_q_type g = "custom"%string -> q_bin_grid lines parse g b = Err) /\
  (* an unknown q grid type is accepted as custom when the p grid is custom *)
  (forall g, gp_p_type g = "custom"%string -> gp_q_type g = "typo"%string ->
     q_bin_grid lines parse g b = read_boundaries lines parse b (gp_Nq g) (gp_q_file g)).
Proof. split; intros g Hp Hq; unfold q_bin_grid; rewrite Hp, Hq; reflexivity. Qed.
Print Assumptions C15_refuted.
Theorem C15_partial lines parse g b :
  (gp_q_type g = "chebyshev"%string \/ (gp_q_type g = "custom"%string /\ gp_p_type g = "custom"%string)
   \/ (gp_q_type g <> "chebyshev"%string /\ gp_q_type g <> "custom"%string /\ gp_p_type g <> "custom"%string)) ->
  q_bin_grid lines parse g b =
   if String.eqb (gp_q_type g) "chebyshev" then make_chebyshev (gp_Nq g) b (gp_s g) (gp_t g)
   else if String.eqb (gp_q_type g) "custom" then read_boundaries lines parse b (gp_Nq g) (gp_q_file g)
   else Err.
Proof. exact (q_grid_cases lines parse g b). Qed.
Print Assumptions C15_partial.

(* C16: for every bin: nodes inside, in the rule's order, weights scaled; and whenever the rule integrates the
   function transported to [-1,1] exactly, the bin's nodes and weights integrate it exactly over the bin. *)
Theorem C16_quadrature gauss_x gauss_w N n bounds x w :
  length (gauss_x n) = n -> length (gauss_w n) = n -> length bounds = (N + 1)%nat ->
  length x = (n * N)%nat -> length w = (n * N)%nat ->
  exists x' w', quadrature_grids gauss_x gauss_w N n bounds (x, w) = Ok (x', w') /\
   length x' = (n * N)%nat /\ length w' = (n * N)%nat /\
   forall k, (k < N)%nat ->
    let a := nth k bounds 0 in let b := nth (k + 1) bounds 0 in
    let X i := nth (k * n + i) x' 0 in let W i := nth (k * n + i) w' 0 in
    (forall i, (i < n)%nat -> a < b -> -1 < nth i (gauss_x n) 0 < 1 -> a < X i < b) /\
    (forall i j, (i < n)%nat -> (j < n)%nat -> a < b -> nth i (gauss_x n) 0 < nth j (gauss_x n) 0 -> X i < X j) /\
    sum W n = (b - a) / 2 * sum (fun i => nth i (gauss_w n) 0) n /\
    (forall F : R -> R, a < b ->
       is_RInt (fun t => F (a + (b - a) * (t + 1) / 2)) (-1) 1
         (sum (fun i => nth i (gauss_w n) 0 * F (a + (b - a) * (nth i (gauss_x n) 0 + 1) / 2)) n) ->
       is_RInt F a b (sum (fun i => W i * F (X i)) n)).
Proof. exact (quadrature_props gauss_x gauss_w N n bounds x w). Qed.
Print Assumptions C16_quadrature.
(* the one-point rule (midpoint, weight 2) integrates F(x)=x exactly *)
Example C16_example : is_RInt (fun t => 3 + (5 - 3) * (t + 1) / 2) (-1) 1 (sum (fun i => nth i [2] 0 * (3 + (5 - 3) * (nth i [0] 0 + 1) / 2)) 1).
Proof.
  replace (sum _ 1) with (minus ((fun t => 4 * t + t * t / 2) 1) ((fun t => 4 * t + t * t / 2) (-1)))
    by (unfold minus, plus, opp, sum; cbn; field).
  apply (@is_RInt_derive R_CompleteNormedModule (fun t => 4 * t + t * t / 2)).
  - intros x _. auto_derive; [ exact I | field ].
  - intros x _. apply (ex_derive_continuous (fun t => 3 + (5 - 3) * (t + 1) / 2)). auto_derive. exact I.
Qed.

(* C17: exact behaviour of the reader on an array of N+1 numbers. *)
Theorem C17_partial lines parse b N file : length b = (N + 1)%nat ->
  let ls := lines file in
  (forall r, read_boundaries lines parse b N file = Ok r <-> length ls = (N + 1)%nat /\ map parse ls = map Some r) /\
  (read_boundaries lines parse b N file = UB <->
     (N + 2 <= length ls)%nat /\ forall l, In l (firstn (N + 2) ls) -> parse l <> None) /\
  read_boundaries lines parse b N file <> Exc.
Proof. exact (read_spec lines parse b N file). Qed.
Print Assumptions C17_partial.
(* C17 is false of the code: one number too many is written behind the array before the count is checked. *)
Theorem C17_refuted N parse (l : string) (v : R) (b : list R) :
  parse l = Some v -> length b = (N + 1)%nat ->
  read_boundaries (fun _ => repeat l (N + 2)) parse b N "file" = UB.
Proof.
  intros Hp Hb. apply (proj1 (proj2 (read_spec (fun _ => repeat l (N + 2)) parse b N "file"%string Hb))).
  rewrite repeat_length. split; [ lia | ]. intros l' Hin.
  rewrite (repeat_spec (N + 2) l l'); [ congruence | ]. rewrite <- (firstn_skipn (N + 2)). apply in_or_app. left. exact Hin.
Qed.
Print Assumptions C17_refuted.
Example C17_example :
  read_boundaries (fun _ => ["a"; "b"]%string) (fun l => if String.eqb l "a" then Some 0 else Some 1) [7; 7] 1 "f" = Ok [0; 1].
Proof. reflexivity. Qed.

(* C18: laboratory energy <-> centre-of-mass momentum (proton on a deuteron of mass Mn+Mp+Eb), also with respect to
   textbook relativistic kinematics. *)
Theorem C18_lab_com Eb : - (Mn + Mp) < Eb ->
  (forall T, 0 <= T -> com_momentum_of Mp (Mn + Mp + Eb) T (lab_energy_to_com_momentum T Eb)) /\
  inverse_from_0 (fun T => lab_energy_to_com_momentum T Eb) (fun q => com_momentum_to_lab_energy q Eb) /\
  inverse_from_0 (fun q => com_momentum_to_lab_energy q Eb) (fun T => lab_energy_to_com_momentum T Eb) /\
  strictly_increasing_from_0 (fun T => lab_energy_to_com_momentum T Eb) /\
  strictly_increasing_from_0 (fun q => com_momentum_to_lab_energy q Eb).
Proof. exact (kin_props Eb). Qed.
Print Assumptions C18_lab_com.
Example C18_example : - (Mn + Mp) < -2.2.
Proof. unfold Mn, Mp. lra. Qed.

Theorem C18_energy_momentum :
  inverse_from_0 com_energy_to_com_q_momentum com_q_momentum_to_com_energy /\
  inverse_from_0 com_q_momentum_to_com_energy com_energy_to_com_q_momentum /\
  inverse_from_0 com_energy_to_com_p_momentum com_p_momentum_to_com_energy /\
  inverse_from_0 com_p_momentum_to_com_energy com_energy_to_com_p_momentum /\
  strictly_increasing_from_0 com_energy_to_com_q_momentum /\ strictly_increasing_from_0 com_q_momentum_to_com_energy /\
  strictly_increasing_from_0 com_energy_to_com_p_momentum /\ strictly_increasing_from_0 com_p_momentum_to_com_energy.
Proof. exact kin_props2. Qed.
Print Assumptions C18_energy_momentum.

(* C18: what the two energies are. p: proton and neutron with opposite momenta; q: a nucleon of the average mass m against
   a pair of such nucleons with the opposite momentum. *)
Theorem C18_kinetic_energies k :
  com_p_momentum_to_com_energy k = k * k / (2 * 938.272) + k * k / (2 * 939.565) /\
  (let m := (938.272 + 939.565) / 2 in com_q_momentum_to_com_energy k = k * k / (2 * m) + k * k / (2 * (2 * m))).
Proof. unfold com_p_momentum_to_com_energy, com_q_momentum_to_com_energy, mu23, MN, Mp, Mn. split; lra. Qed.
Print Assumptions C18_kinetic_energies.
