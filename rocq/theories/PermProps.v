(* Property theorems about permutation kinematics and the momentum-overlap table (C19, C20). *)
From Coq Require Import Reals Lra.
From Verif Require Import Common ArrayLib SwpModel GridModel GridSpec PermModel PermSpec PermProofs PermPropsLemmas PermValue.
Open Scope R_scope.

(* C19: with P along the z axis and Q at angle arccos x to it, the recoupled Jacobi vectors are v1 = -P/2-3Q/4 and
   v2 = P-Q/2; pi1, pi2 are their lengths, costheta1, costheta2 (after the code's clamping) their exact polar cosines. *)
Theorem C19_recoupling_kinematics p q x : 0 <= p -> 0 <= q -> -1 <= x <= 1 ->
  let P := (0, p) in let Q := (q * sqrt (1 - x * x), q * x) in
  let v1 := (- (1/2) * fst P - 3/4 * fst Q, - (1/2) * snd P - 3/4 * snd Q) in
  let v2 := (fst P - 1/2 * fst Q, snd P - 1/2 * snd Q) in
  let norm v := sqrt (fst v * fst v + snd v * snd v) in
  norm P = p /\ norm Q = q /\
  0 <= pi1_rad p q x /\ 0 <= pi2_rad p q x /\ pi1_tilde p q x = norm v1 /\ pi2_tilde p q x = norm v2 /\
  jacobi_energy (pi1_tilde p q x) (pi2_tilde p q x) = jacobi_energy p q /\
  (pi1_tilde p q x <> 0 -> -1 <= costheta1 p q x <= 1 /\ costheta1 p q x = snd v1 / norm v1) /\
  (pi2_tilde p q x <> 0 -> -1 <= costheta2 p q x <= 1 /\ costheta2 p q x = snd v2 / norm v2) /\
  (0 < q -> -1 < x < 1 -> 0 < pi1_tilde p q x /\ 0 < pi2_tilde p q x).
Proof. exact (kinematics p q x). Qed.
Print Assumptions C19_recoupling_kinematics.
Example C19_example : jacobi_energy (pi1_tilde 1 2 0) (pi2_tilde 1 2 0) = 4 /\ 0 < pi1_tilde 1 2 0.
Proof.
  destruct (C19_recoupling_kinematics 1 2 0) as (_ & _ & _ & _ & _ & _ & E & _ & _ & H); try lra.
  rewrite E. split; [ unfold jacobi_energy; lra | apply H; lra ].
Qed.

(* C20: for any grids and meshes, the table entry of a cell pair is true exactly when along some mesh direction there
   are momenta strictly inside the bra cell recoupled strictly into the ket cell; when false the element is exactly 0
   for any geometric function and weights; when true it is positive for positive ones; pairs have their own entries. *)
Theorem C20_overlap_table roots dleg Np Nq pb qb xs phi0 wphi0 tab0 :
  let n := length roots in
  partition_from_zero Np pb -> partition_from_zero Nq qb -> mesh_in (-1) 1 roots -> mesh_in (-1) 1 xs ->
  length phi0 = (Nq * Np * n)%nat -> length wphi0 = (Nq * Np * n)%nat -> length tab0 = (Nq * Nq * Np * Np)%nat ->
  exists phi wphi tab, calculate_WP_overlap roots dleg Np Nq pb qb xs (phi0, wphi0, tab0) = Ok (phi, wphi, tab) /\
   length tab = (Nq * Nq * Np * Np)%nat /\
   (forall qp pp j, (qp < Nq)%nat -> (pp < Np)%nat -> (j < n)%nat ->
      atan_ratio (lower pb pp) (upper qb qp) < nth ((qp * Np + pp) * n + j) phi 0 < atan_ratio (upper pb pp) (lower qb qp)) /\
   forall qp pp q p, (qp < Nq)%nat -> (pp < Np)%nat -> (q < Nq)%nat -> (p < Np)%nat ->
     let idx := pq_idx Np Nq qp pp q p in
     let angles := slice phi ((qp * Np + pp) * n) n in
     (idx < length tab)%nat /\
     (nth idx tab false = false -> forall G wxs ws,
        length G = (n * length xs)%nat -> length wxs = length xs -> length ws = n ->
        P123_element roots G p q pp qp pb qb xs wxs (map sin angles) (map cos angles) ws = Ok 0) /\
     (nth idx tab false = true <->
        exists phi x p' q', In phi angles /\ In x xs /\ p' * cos phi = q' * sin phi /\
          inside pb pp p' /\ inside qb qp q' /\ inside pb p (pi1_tilde p' q' x) /\ inside qb q (pi2_tilde p' q' x)) /\
     (nth idx tab false = true -> forall G wxs ws,
        length G = (n * length xs)%nat -> length wxs = length xs -> length ws = n ->
        Forall (fun v => 0 < v) G -> Forall (fun v => 0 < v) wxs -> Forall (fun v => 0 < v) ws ->
        exists v, P123_element roots G p q pp qp pb qb xs wxs (map sin angles) (map cos angles) ws = Ok v /\ 0 < v).
Proof. exact (fun A B C D => overlap_table roots dleg Np Nq pb qb xs A B C D phi0 wphi0 tab0). Qed.
Print Assumptions C20_overlap_table.
Theorem C20_own_entry Np Nq qp pp q p qp' pp' q' p' :
  (pp < Np)%nat -> (q < Nq)%nat -> (p < Np)%nat -> (pp' < Np)%nat -> (q' < Nq)%nat -> (p' < Np)%nat ->
  pq_idx Np Nq qp pp q p = pq_idx Np Nq qp' pp' q' p' -> (qp, pp, q, p) = (qp', pp', q', p').
Proof. exact (table_index_injective Np Nq qp pp q p qp' pp' q' p'). Qed.
Print Assumptions C20_own_entry.

(* two bins [0,5], [5,9]: the low cell pair overlaps itself but not the high pair (energy forbids it) *)
Lemma C20_example_grid : partition_from_zero 2 [0; 5; 9].
Proof.
  split; [ reflexivity | ]. split; [ reflexivity | ]. intros i j H.
  destruct i as [|[|[|i]]], j as [|[|[|j]]]; try (exfalso; cbn in H; Lia.lia); cbn; lra.
Qed.
Example C20_example : exists phi wphi tab,
  calculate_WP_overlap [0] (fun _ => 1) 2 2 [0; 5; 9] [0; 5; 9] [0] ([7;7;7;7], [7;7;7;7], repeat true 16) = Ok (phi, wphi, tab) /\
  nth (pq_idx 2 2 0 0 0 0) tab false = true /\ nth (pq_idx 2 2 0 0 1 1) tab false = false.
Proof.
  destruct (C20_overlap_table [0] (fun _ => 1) 2 2 [0; 5; 9] [0; 5; 9] [0] [7;7;7;7] [7;7;7;7] (repeat true 16))
    as (phi & wphi & tab & E & L & M & H); try exact C20_example_grid; try reflexivity;
    try (intros t [<-|[]]; lra).
  exists phi, wphi, tab. split; [ exact E | ]. split.
  - destruct (H 0 0 0 0)%nat as (_ & _ & T & _); try lia. apply T. clear T H E.
    set (ph := nth ((0 * 2 + 0) * 1 + 0) phi 0). assert (R : 0 < ph < PI / 2).
    { specialize (M 0 0 0)%nat. cbn [length] in M. destruct M as [M1 M2]; try lia. fold ph in M1, M2. unfold atan_ratio in M1, M2.
      unfold lower, upper in M1, M2. cbn [nth plus] in M1, M2.
      destruct (Req_EM_T 5 0); [ lra | ]. destruct (Req_EM_T 0 0); [ | lra ]. replace (0 / 5) with 0 in M1 by field. rewrite atan_0 in M1. split; assumption. }
    pose proof (phi_sin_cos ph R) as [Hs Hc].
    assert (S2 : sin ph * sin ph + cos ph * cos ph = 1) by (pose proof (sin2_cos2 ph); unfold Rsqr in *; lra).
    assert (Hp : 0 < pi1_tilde (sin ph) (cos ph) 0 < 5 /\ 0 < pi2_tilde (sin ph) (cos ph) 0 < 5).
    { pose proof (pi1_pos (sin ph) (cos ph) 0 Hc ltac:(lra)). pose proof (pi2_pos (sin ph) (cos ph) 0 Hc ltac:(lra)).
      pose proof (energy_conserved (sin ph) (cos ph) 0 ltac:(lra)) as En. unfold jacobi_energy in En. split; split; try assumption; nra. }
    exists ph, 0, (sin ph), (cos ph). split; [ | split; [ left; reflexivity | ] ].
    + unfold ph, slice. destruct phi as [|y phi]; [ exfalso; unfold ph in R; cbn in R; lra | ]. left. reflexivity.
    + split; [ ring | ]. unfold inside, lower, upper. cbn [nth plus]. repeat split; try tauto; nra.
  - destruct (H 0 0 1 1)%nat as (_ & _ & T & _); try lia.
    destruct (nth (pq_idx 2 2 0 0 1 1) tab false) eqn:Et; [ exfalso | reflexivity ].
    destruct (proj1 T eq_refl) as (ph & x & p' & q' & _ & Hx & _ & I1 & I2 & I3 & I4). destruct Hx as [<-|[]].
    pose proof (energy_conserved p' q' 0 ltac:(lra)) as En. unfold jacobi_energy in En. unfold inside, lower, upper in *. cbn [nth plus] in *. nra.
Qed.

(* C66: the value of an element: on the (x, phi) mesh, the exact integral along each direction, with the bins' norms. *)
Theorem C66_element_value roots Np Nq pb qb xs wxs angles ws G p q pp qp :
  partition_from_zero Np pb -> partition_from_zero Nq qb -> mesh_in (-1) 1 xs -> mesh_in 0 (PI / 2) angles ->
  length angles = length roots -> length ws = length roots -> length wxs = length xs ->
  length G = (length roots * length xs)%nat ->
  (p < Np)%nat -> (q < Nq)%nat -> (pp < Np)%nat -> (qp < Nq)%nat ->
  exists v : nat -> nat -> R,
    (forall j xi, (j < length roots)%nat -> (xi < length xs)%nat ->
       direction_integral (fun a b => pi1_tilde a b (nth xi xs 0)) (fun a b => pi2_tilde a b (nth xi xs 0))
         pb qb pp qp p q (nth j angles 0) (v j xi)) /\
    P123_element roots G p q pp qp pb qb xs wxs (map sin angles) (map cos angles) ws =
    Ok (sum (fun xi => sum (fun j => nth xi wxs 0 * nth j ws 0 * nth (j * length xs + xi) G 0 * v j xi) (length roots)) (length xs)
        / (sqrt (upper qb q - lower qb q) * sqrt (upper pb p - lower pb p)
           * sqrt (upper qb qp - lower qb qp) * sqrt (upper pb pp - lower pb pp))).
Proof. exact (element_value roots Np Nq pb qb xs wxs angles ws G p q pp qp). Qed.
Print Assumptions C66_element_value.
(* the angular nodes and weights are the Gauss rule [roots] (derivative values [dleg]) moved to the cell's angle range *)
Theorem C66_angle_rule roots dleg Np Nq pb qb xs phi wphi tab :
  length pb = (Np + 1)%nat -> length qb = (Nq + 1)%nat ->
  length phi = (Nq * Np * length roots)%nat -> length wphi = (Nq * Np * length roots)%nat -> length tab = (Nq * Nq * Np * Np)%nat ->
  exists phi' wphi' tab', calculate_WP_overlap roots dleg Np Nq pb qb xs (phi, wphi, tab) = Ok (phi', wphi', tab') /\
    forall qp pp j, (qp < Nq)%nat -> (pp < Np)%nat -> (j < length roots)%nat ->
      let lo := atan_ratio (lower pb pp) (upper qb qp) in
      let hi := atan_ratio (upper pb pp) (lower qb qp) in
      let t := nth j roots 0 in
      nth ((qp * Np + pp) * length roots + j) phi' 0 = lo + (hi - lo) * ((t + 1) / 2) /\
      nth ((qp * Np + pp) * length roots + j) wphi' 0 = (hi - lo) / 2 * (2 / ((1 - t * t) * (dleg t * dleg t))).
Proof. exact (gauss_angles roots dleg Np Nq pb qb xs phi wphi tab). Qed.
Print Assumptions C66_angle_rule.
Example C66_example : partition_from_zero 2 [0; 5; 9] /\ mesh_in (-1) 1 [0] /\ mesh_in 0 (PI / 2) [PI / 4].
Proof.
  split; [ exact C20_example_grid | ]. pose proof PI_RGT_0. split; intros t [<-|[]]; lra.
Qed.
